(* C71: what becomes of the transport after an upgrade was asked for *)
From Verif Require Import Base M_Src M_Decode M_HeaderMap M_Headers M_Encode M_Role M_RoleEncode M_Buf M_WriteBuf M_Read M_Conn M_Dispatch S_Conn L_Conn L_Moves L_ConnS L_Return P_Conn P_Requests P_Graceful P_Report L_View P_View P_Upgrade M_Upgrade S_Upgrade.

(* ---- Lists ---- *)
Lemma upd_length {A} n f (l : list A) : length (upd n f l) = length l.
Proof. unfold upd. destruct (nth_error l n) eqn:E; [|reflexivity]. assert (n < length l)%nat by (apply nth_error_Some; congruence). rewrite app_length. cbn [length]. rewrite firstn_length, skipn_length. lia. Qed.
Lemma upd_same {A} n f (l : list A) : nth_error (upd n f l) n = match nth_error l n with Some a => Some (f a) | None => None end.
Proof.
  unfold upd. destruct (nth_error l n) eqn:E; [|exact E]. assert (n < length l)%nat by (apply nth_error_Some; congruence).
  rewrite nth_error_app2; rewrite firstn_length_le by lia; [|lia]. rewrite Nat.sub_diag. reflexivity.
Qed.
Lemma upd_other {A} n f (l : list A) k : k <> n -> nth_error (upd n f l) k = nth_error l k.
Proof.
  intros Hk. unfold upd. destruct (nth_error l n) eqn:E; [|reflexivity]. assert (n < length l)%nat by (apply nth_error_Some; congruence).
  transitivity (nth_error (firstn n l ++ a :: skipn (S n) l) k).
  - destruct (Nat.lt_ge_cases k n).
    + rewrite !nth_error_app1; [reflexivity|rewrite firstn_length_le; lia..].
    + rewrite !nth_error_app2; rewrite ?firstn_length_le; try lia. destruct (k - n)%nat eqn:Ek; [lia|reflexivity].
  - f_equal. clear - E. revert l E. induction n as [|n IH]; intros [|b l] E; try discriminate E; cbn in *; [injection E as <-; reflexivity|]. f_equal. apply IH, E.
Qed.
Definition refs (n : nat) (hs : list hold) : nat := length (filter (fun h => match h with HOn k => (k =? n)%nat | _ => false end) hs).
Lemma refs_app n a b : refs n (a ++ b) = (refs n a + refs n b)%nat.
Proof. unfold refs. now rewrite filter_app, app_length. Qed.
Lemma split_nth {A} (l : list A) n a : nth_error l n = Some a -> l = firstn n l ++ a :: skipn (S n) l.
Proof. revert n. induction l as [|b l IH]; intros [|n] E; try discriminate E; cbn in *; [now injection E as ->|]. f_equal. apply IH, E. Qed.
Lemma refs_gone n h k hs : nth_error hs h = Some (HOn k) -> refs n hs = (refs n (upd h (fun _ => HGone) hs) + if (k =? n)%nat then 1 else 0)%nat.
Proof.
  intros E. unfold upd. rewrite E. rewrite (split_nth hs h _ E) at 1. rewrite !refs_app. unfold refs. cbn [filter length]. destruct (k =? n)%nat; cbn [length]; lia.
Qed.
Lemma refs_gone_none n h hs : nth_error hs h = Some HNone -> refs n (upd h (fun _ => HGone) hs) = refs n hs.
Proof. intros E. unfold upd. rewrite E. rewrite (split_nth hs h _ E) at 3. rewrite !refs_app. reflexivity. Qed.
Lemma refs_in n hs : (0 < refs n hs)%nat <-> In (HOn n) hs.
Proof.
  unfold refs. induction hs as [|x hs IH]; cbn; [split; [lia|tauto]|]. destruct x as [| |k]; cbn; try (rewrite IH; split; [auto|intros [F|F]; [discriminate F|auto]]).
  destruct (k =? n)%nat eqn:E; cbn.
  - apply Nat.eqb_eq in E. subst k. split; [auto|lia].
  - rewrite IH. apply Nat.eqb_neq in E. split; [auto|intros [F|F]; [congruence|auto]].
Qed.

(* ---- The specification, one move at a time ---- *)
Definition is_ask (m : umove) : bool := match m with MAsk => true | _ => false end.
Lemma asks_snoc ms m : asks (ms ++ [m]) = (asks ms + if is_ask m then 1 else 0)%nat.
Proof. unfold asks. rewrite filter_app, app_length. destruct m; reflexivity. Qed.
Lemma after_ask_snoc n ms m : after_ask n (ms ++ [m]) = match after_ask n ms with Some r => Some (r ++ [m]) | None => if is_ask m && (asks ms =? n)%nat then Some [] else None end.
Proof.
  revert n. induction ms as [|x ms IH]; intros n.
  - destruct m, n; reflexivity.
  - destruct x; cbn [app after_ask]; rewrite ?IH; try reflexivity. destruct n as [|n]; [reflexivity|]. rewrite IH. destruct (after_ask n ms); [reflexivity|]. reflexivity.
Qed.
Lemma after_ask_some n ms : after_ask n ms = None <-> (asks ms <= n)%nat.
Proof.
  revert n. induction ms as [|x ms IH]; intros n; [cbn; split; [lia|auto]|].
  destruct x; cbn [after_ask]; unfold asks; cbn [filter length]; fold (asks ms); try apply IH. destruct n as [|n]; [split; [discriminate|lia]|]. rewrite IH. lia.
Qed.
Lemma fate_in_snoc r m : fate_in (r ++ [m]) = match fate_in r with Some f => Some f | None => fate_in [m] end.
Proof. induction r as [|x r IH]; [destruct m; reflexivity|]. destruct x; cbn [app fate_in]; auto. Qed.
Lemma fate_snoc n ms m : (n < asks ms)%nat -> fate_of n (ms ++ [m]) = match fate_of n ms with Some f => Some f | None => fate_in [m] end.
Proof.
  intros H. unfold fate_of. rewrite after_ask_snoc. destruct (after_ask n ms) eqn:E; [apply fate_in_snoc|]. apply after_ask_some in E. lia.
Qed.
Lemma fate_new ms : fate_of (asks ms) (ms ++ [MAsk]) = None.
Proof. unfold fate_of. rewrite after_ask_snoc. assert (after_ask (asks ms) ms = None) as -> by (apply after_ask_some; lia). cbn. now rewrite Nat.eqb_refl. Qed.
Lemma proper_snoc ms m : proper (ms ++ [m]) -> proper ms /\ (of_conn m = true -> existsb ending ms = false) /\ (m = MFulfil \/ m = MManual -> (0 < asks ms)%nat).
Proof.
  intros H. split; [|split].
  - intros a x b -> Hx. destruct (H a x (b ++ [m])) as (A & A'); [now rewrite <- app_assoc|exact Hx|]. split; [exact A|]. intros m' F. apply A', in_or_app. now left.
  - intros Hm. destruct (existsb ending ms) eqn:E; [|reflexivity]. apply existsb_exists in E. destruct E as (x & Hx & Ex). apply in_split in Hx. destruct Hx as (a & b & ->).
    destruct (H a x (b ++ [m])) as (_ & A'); [now rewrite <- app_assoc|exact Ex|]. rewrite (A' m) in Hm; [discriminate Hm|]. apply in_or_app. right. now left.
  - intros Hm. destruct (H ms m [] eq_refl) as ([F|F] & _); [destruct Hm as [-> | ->]; reflexivity|destruct Hm as [-> | ->]; discriminate F|].
    unfold asks. apply in_split in F. destruct F as (a & b & ->). rewrite filter_app, app_length. cbn. lia.
Qed.
Lemma taken_snoc n seen h k r : taken n (seen ++ [(h, k, r)]) = taken n seen || match k with Some k => (k =? n)%nat && is_given r | None => false end.
Proof. unfold taken. rewrite existsb_app. cbn. destruct k; rewrite ?orb_false_r; reflexivity. Qed.

(* ---- The invariant ---- *)
Definition vfate (v : uval) : fate := match v with VUpgraded => FUpgraded | VManual => FManual end.
Definition good_chan (u : uchan) (f : option fate) (t : bool) (r : nat) : Prop :=
  u_refs u = r /\
  match f with
  | None => u_sent u = false /\ u_val u = None /\ u_inner u = true /\ u_poison u = false /\ t = false
  | Some FCanceled => u_sent u = true /\ u_val u = None /\ u_inner u = true /\ u_poison u = false /\ t = false
  | Some FUpgraded => u_sent u = true /\ if t then u_inner u = false /\ u_val u = None else u_inner u = true /\ u_poison u = false /\ u_val u = match r with O => None | _ => Some VUpgraded end
  | Some FManual => u_sent u = true /\ if t then u_inner u = false /\ u_val u = None else u_inner u = true /\ u_poison u = false /\ u_val u = match r with O => None | _ => Some VManual end
  end.
Definition is_fulfil (m : umove) : bool := match m with MFulfil => true | _ => false end.
Definition ok_entry (e : nat * option nat * upoll) : bool := is_ok (snd e).
(* Where the transport is *)
Definition whereabouts (ms : list umove) (x : uworld) : place :=
  if existsb is_fulfil ms then
    match find ok_entry (x_seen x) with
    | Some e => PApp (fst (fst e))
    | None => match refs (asks ms - 1) (x_holders x) with O => PGone | _ => PChan (asks ms - 1) end
    end
  else PConn.
Record WI (ms : list umove) (x : uworld) : Prop := mkWI {
  wi_len : length (x_chans x) = asks ms;
  wi_live : x_live x = negb (existsb ending ms);
  wi_tx : x_tx x = if x_live x then match asks ms with O => None | S k => Some k end else None;
  wi_fate : forall n, (n < asks ms)%nat -> (fate_of n ms = None <-> S n = asks ms /\ x_live x = true);
  wi_up : forall n, fate_of n ms = Some FUpgraded -> S n = asks ms;
  wi_ful : existsb is_fulfil ms = true <-> exists n, fate_of n ms = Some FUpgraded;
  wi_ch : forall n u, nth_error (x_chans x) n = Some u -> good_chan u (fate_of n ms) (taken n (x_seen x)) (refs n (x_holders x));
  wi_h : forall n, In (HOn n) (x_holders x) -> (n < asks ms)%nat;
  wi_ok : forall h k r, In (h, k, r) (x_seen x) -> match r with UOk => exists n, k = Some n /\ fate_of n ms = Some FUpgraded | UManualErr => exists n, k = Some n /\ fate_of n ms = Some FManual | _ => True end;
  wi_once : (length (filter ok_entry (x_seen x)) <= 1)%nat;
  wi_io : x_io x = whereabouts ms x
}.
Lemma WI_start : WI [] x_new.
Proof.
  constructor; cbn; auto; try lia; try tauto.
  - intros n F. discriminate F.
  - split; [discriminate|]. intros (n & F). discriminate F.
  - intros n u F. destruct n; discriminate F.
Qed.
Lemma no_ok_of ms x : WI ms x -> (forall n, fate_of n ms = Some FUpgraded -> taken n (x_seen x) = false) -> find ok_entry (x_seen x) = None.
Proof.
  intros H Ht. destruct (find ok_entry (x_seen x)) as [[[h k] r]|] eqn:E; [|reflexivity]. apply find_some in E. destruct E as (E1 & E2). unfold ok_entry in E2. destruct r; try discriminate E2.
  destruct (wi_ok _ _ H _ _ _ E1) as (n & -> & Hf). specialize (Ht n Hf). assert (taken n (x_seen x) = true) as T; [|congruence]. apply existsb_exists. exists (h, Some n, UOk). split; [exact E1|]. cbn. rewrite Nat.eqb_refl. reflexivity.
Qed.
(* A move of the application leaves the fates alone *)
Lemma quiet_fate ms m n : of_conn m = false -> fate_of n (ms ++ [m]) = fate_of n ms /\ asks (ms ++ [m]) = asks ms /\ existsb ending (ms ++ [m]) = existsb ending ms /\ existsb is_fulfil (ms ++ [m]) = existsb is_fulfil ms.
Proof.
  intros Hm. rewrite asks_snoc, !existsb_app. assert (is_ask m = false /\ ending m = false /\ is_fulfil m = false /\ fate_in [m] = None) as (A & A2 & A3 & A4) by (destruct m; try discriminate Hm; auto).
  rewrite A. cbn [existsb]. rewrite A2, A3, !orb_false_r, Nat.add_0_r. split; [|auto]. destruct (Nat.lt_ge_cases n (asks ms)) as [Hn|Hn].
  - rewrite fate_snoc by exact Hn. rewrite A4. now destruct (fate_of n ms).
  - unfold fate_of. rewrite after_ask_snoc, A. assert (after_ask n ms = None) as -> by (now apply after_ask_some). reflexivity.
Qed.
Lemma good_refs u f t r : good_chan u f t r -> u_refs u = r.
Proof. intros (H & _). exact H. Qed.
Lemma chan_of ms x n : WI ms x -> In (HOn n) (x_holders x) -> exists u, nth_error (x_chans x) n = Some u /\ nth n (x_chans x) u_new = u.
Proof.
  intros H Hn. pose proof (wi_h _ _ H _ Hn) as L. rewrite <- (wi_len _ _ H) in L. destruct (nth_error (x_chans x) n) as [u|] eqn:E; [|apply nth_error_None in E; lia].
  exists u. split; [reflexivity|]. now apply nth_error_nth.
Qed.
Ltac xs := cbn [x_chans x_tx x_live x_holders x_io x_seen x_woken].
(* ---- Moves of the application ---- *)
Lemma WI_absent ms x m hs : of_conn m = false -> WI ms x -> (forall n, refs n hs = refs n (x_holders x)) ->
  WI (ms ++ [m]) (mkX (x_chans x) (x_tx x) (x_live x) hs (x_io x) (x_seen x) (x_woken x)).
Proof.
  intros Hm [A1 A2 A3 A4 A5 A6 A7 A8 A9 A10 A11] Hr. pose proof (fun n => quiet_fate ms m n Hm) as Q. destruct (Q O) as (_ & Q1 & Q2 & Q3).
  constructor; xs; rewrite ?Q1, ?Q2, ?Q3; auto.
  - intros n Hn. destruct (Q n) as (-> & _). auto.
  - intros n. destruct (Q n) as (-> & _). auto.
  - rewrite A6. split; intros (n & F); exists n; destruct (Q n) as (E & _); congruence.
  - intros n u E. destruct (Q n) as (-> & _). rewrite Hr. auto.
  - intros n F. apply A8. apply refs_in. rewrite <- Hr. now apply refs_in.
  - intros h k r F. specialize (A9 h k r F). destruct r; auto; destruct A9 as (n & -> & F'); exists n; destruct (Q n) as (-> & _); auto.
  - rewrite A11. unfold whereabouts. xs. rewrite Q1, Q3, Hr. reflexivity.
Qed.
Lemma WI_clone ms x h n : WI ms x -> nth_error (x_holders x) h = Some (HOn n) ->
  WI (ms ++ [MClone h]) (mkX (upd n u_clone (x_chans x)) (x_tx x) (x_live x) (x_holders x ++ [HOn n]) (x_io x) (x_seen x) (x_woken x)).
Proof.
  intros W Eh. pose proof (nth_error_In _ _ Eh) as Hin. destruct (chan_of _ _ _ W Hin) as (u & Eu & _). destruct W as [A1 A2 A3 A4 A5 A6 A7 A8 A9 A10 A11]. pose proof (fun k => quiet_fate ms (MClone h) k eq_refl) as Q. destruct (Q O) as (_ & Q1 & Q2 & Q3).
  assert (0 < refs n (x_holders x))%nat as Hp by (now apply refs_in).
  constructor; xs; rewrite ?Q1, ?Q2, ?Q3; auto.
  - now rewrite upd_length.
  - intros k Hk. destruct (Q k) as (-> & _). auto.
  - intros k. destruct (Q k) as (-> & _). auto.
  - rewrite A6. split; intros (k & F); exists k; destruct (Q k) as (E & _); congruence.
  - intros k v E. destruct (Q k) as (-> & _). rewrite refs_app. destruct (Nat.eq_dec k n) as [-> |Hk].
    + rewrite upd_same, Eu in E. injection E as <-. specialize (A7 n u Eu). unfold refs at 2. cbn. rewrite Nat.eqb_refl. cbn. rewrite Nat.add_1_r. destruct A7 as (R & G). split; [cbn; lia|]. cbn.
      destruct (fate_of n ms) as [[]|]; auto; destruct (taken n (x_seen x)); auto; destruct G as (G1 & G2 & G3 & G4); repeat split; auto; destruct (refs n (x_holders x)); auto; lia.
    + rewrite upd_other in E by exact Hk. unfold refs at 2. cbn. replace (n =? k)%nat with false by (symmetry; apply Nat.eqb_neq; congruence). rewrite Nat.add_0_r. auto.
  - intros k F. apply in_app_or in F. destruct F as [F|[F|[]]]; [auto|]. injection F as <-. auto.
  - intros h0 k r F. specialize (A9 h0 k r F). destruct r; auto; destruct A9 as (n' & -> & F'); exists n'; destruct (Q n') as (-> & _); auto.
  - rewrite A11. unfold whereabouts. xs. rewrite Q1, Q3, refs_app. destruct (existsb is_fulfil ms); [|reflexivity]. destruct (find _ _); [reflexivity|].
    unfold refs at 3. cbn. destruct (n =? asks ms - 1)%nat eqn:En; cbn; [|now rewrite Nat.add_0_r]. apply Nat.eqb_eq in En. rewrite <- En. destruct (refs n (x_holders x)); [lia|reflexivity].
Qed.
Lemma WI_drop ms x h n : WI ms x -> nth_error (x_holders x) h = Some (HOn n) ->
  WI (ms ++ [MDrop h]) (mkX (upd n u_drop (x_chans x)) (x_tx x) (x_live x) (upd h (fun _ => HGone) (x_holders x))
     (match u_refs (nth n (x_chans x) u_new), u_val (nth n (x_chans x) u_new) with S O, Some VUpgraded => PGone | _, _ => x_io x end) (x_seen x) (x_woken x)).
Proof.
  intros W Eh. pose proof (nth_error_In _ _ Eh) as Hin. destruct (chan_of _ _ _ W Hin) as (u & Eu & ->). pose proof W as W0. destruct W as [A1 A2 A3 A4 A5 A6 A7 A8 A9 A10 A11]. pose proof (fun k => quiet_fate ms (MDrop h) k eq_refl) as Q. destruct (Q O) as (_ & Q1 & Q2 & Q3).
  pose proof (fun k => refs_gone k h n _ Eh) as R. pose proof (R n) as Rn. rewrite Nat.eqb_refl in Rn. pose proof (A7 n u Eu) as Gu. pose proof (good_refs _ _ _ _ Gu) as Ru.
  set (hs := upd h (fun _ => HGone) (x_holders x)) in *.
  constructor; xs; rewrite ?Q1, ?Q2, ?Q3; auto.
  - now rewrite upd_length.
  - intros k Hk. destruct (Q k) as (-> & _). auto.
  - intros k. destruct (Q k) as (-> & _). auto.
  - rewrite A6. split; intros (k & F); exists k; destruct (Q k) as (E & _); congruence.
  - intros k v E. destruct (Q k) as (-> & _). destruct (Nat.eq_dec k n) as [-> |Hk].
    + rewrite upd_same, Eu in E. injection E as <-. destruct Gu as (_ & G). unfold u_drop. rewrite Ru, Rn. rewrite Rn in G. rewrite Nat.add_1_r in *. destruct (refs n hs) as [|q]; (split; [reflexivity|]); cbn; destruct (fate_of n ms) as [[]|]; destruct (taken n (x_seen x)); tauto.
    + rewrite upd_other in E by exact Hk. specialize (R k). replace (n =? k)%nat with false in R by (symmetry; apply Nat.eqb_neq; congruence). rewrite Nat.add_0_r in R. rewrite <- R. auto.
  - intros k F. apply A8, refs_in. apply refs_in in F. rewrite (R k). lia.
  - intros h0 k r F. specialize (A9 h0 k r F). destruct r; auto; destruct A9 as (n' & -> & F'); exists n'; destruct (Q n') as (-> & _); auto.
  - rewrite A11. unfold whereabouts. xs. rewrite Q1, Q3. fold hs. rewrite Ru.
    destruct (existsb is_fulfil ms) eqn:Ef.
    + destruct (proj1 A6 eq_refl) as (n0 & Ef0). clear Ef. rename Ef0 into Ef. pose proof (A5 _ Ef) as E0. replace (asks ms - 1)%nat with n0 by lia. destruct (Nat.eq_dec n n0) as [-> |Hk].
      * destruct Gu as (_ & Gu). rewrite Ef in Gu. destruct Gu as (_ & Gu). destruct (taken n0 (x_seen x)) eqn:Et.
        -- destruct Gu as (_ & ->). assert (exists e, find ok_entry (x_seen x) = Some e) as (e & ->).
           { apply existsb_exists in Et. destruct Et as ([[h0 [k0|]] r0] & F1 & F2); [|discriminate F2]. apply andb_prop in F2. destruct F2 as (F2 & F3). apply Nat.eqb_eq in F2. subst k0.
             specialize (A9 _ _ _ F1). destruct r0; try discriminate F3; destruct A9 as (n1 & F4 & F5); injection F4 as <-; [|congruence].
             destruct (find ok_entry (x_seen x)) eqn:Ev; [eauto|]. pose proof (find_none _ _ Ev _ F1) as F6. discriminate F6. }
           destruct (refs n0 (x_holders x)) as [|[|q]]; reflexivity.
        -- destruct Gu as (_ & _ & ->). rewrite (no_ok_of _ _ W0) by (intros n1 F; pose proof (A5 _ F); replace n1 with n0 by lia; exact Et). rewrite Rn, Nat.add_1_r. destruct (refs n0 hs); reflexivity.
      * assert (u_val u <> Some VUpgraded) as Hv.
        { destruct Gu as (_ & Gu). intros F. destruct (fate_of n ms) as [[]|] eqn:En; [apply A5 in En; lia|..]; try (destruct Gu as (_ & Gu); destruct (taken n (x_seen x))); try (destruct (refs n (x_holders x))); destruct Gu as (G1 & G2 & ?) || destruct Gu as (G1 & G2); try congruence; destruct H; congruence. }
        specialize (R n0). replace (n =? n0)%nat with false in R by (symmetry; apply Nat.eqb_neq; congruence). rewrite Nat.add_0_r in R. rewrite <- R.
        destruct (refs n (x_holders x)) as [|[|q]]; try reflexivity. destruct (u_val u) as [[]|]; [congruence|reflexivity..].
    + assert (u_val u <> Some VUpgraded) as Hv.
      { destruct Gu as (_ & Gu). intros F. destruct (fate_of n ms) as [[]|] eqn:En; [assert (false = true) by (apply A6; eauto); discriminate|..]; try (destruct Gu as (_ & Gu); destruct (taken n (x_seen x))); try (destruct (refs n (x_holders x))); destruct Gu as (G1 & G2 & ?) || destruct Gu as (G1 & G2); try congruence; destruct H; congruence. }
      destruct (refs n (x_holders x)) as [|[|q]]; try reflexivity. destruct (u_val u) as [[]|]; [congruence|reflexivity..].
Qed.
Lemma good_poll w u f t r : good_chan u f t r -> (0 < r)%nat ->
  snd (u_poll w u) = expected f t /\ good_chan (fst (u_poll w u)) f (t || is_given (expected f t)) r.
Proof.
  intros (R & G) Hr. destruct u as [se va wk inn po rf]. unfold u_poll, good_chan. cbn [u_sent u_val u_waker u_inner u_poison u_refs] in *.
  destruct f as [[]|]; cbn [expected].
  - destruct G as (-> & G). destruct t; cbn [orb is_given].
    + destruct G as (-> & ->). destruct po; cbn; repeat split; auto.
    + destruct G as (-> & -> & ->). destruct r; [lia|]. cbn. repeat split; auto.
  - destruct G as (-> & G). destruct t; cbn [orb is_given].
    + destruct G as (-> & ->). destruct po; cbn; repeat split; auto.
    + destruct G as (-> & -> & ->). destruct r; [lia|]. cbn. repeat split; auto.
  - destruct G as (-> & -> & -> & -> & ->). cbn. repeat split; auto.
  - destruct G as (-> & -> & -> & -> & ->). cbn. repeat split; auto.
Qed.
Lemma find_snoc {A} (f : A -> bool) l a : find f (l ++ [a]) = match find f l with Some b => Some b | None => if f a then Some a else None end.
Proof. induction l as [|b l IH]; cbn; [reflexivity|]. destruct (f b); [reflexivity|exact IH]. Qed.
Lemma find_filter {A} (f : A -> bool) l : find f l = None -> filter f l = [].
Proof. induction l as [|b l IH]; cbn; [auto|]. destruct (f b); [discriminate|exact IH]. Qed.
Lemma WI_poll ms x h n w : WI ms x -> nth_error (x_holders x) h = Some (HOn n) ->
  snd (u_poll w (nth n (x_chans x) u_new)) = expected (fate_of n ms) (taken n (x_seen x)) /\
  WI (ms ++ [MPoll h w]) (ustep x (MPoll h w)).
Proof.
  intros W Eh. pose proof (nth_error_In _ _ Eh) as Hin. destruct (chan_of _ _ _ W Hin) as (u & Eu & En). pose proof W as W0. destruct W as [A1 A2 A3 A4 A5 A6 A7 A8 A9 A10 A11]. pose proof (fun k => quiet_fate ms (MPoll h w) k eq_refl) as Q. destruct (Q O) as (_ & Q1 & Q2 & Q3).
  pose proof (proj2 (refs_in _ _) Hin) as Hp. destruct (good_poll w u _ _ _ (A7 n u Eu) Hp) as (P1 & P2). rewrite En. split; [exact P1|].
  cbn [ustep]. rewrite Eh, En. destruct (u_poll w u) as [u' r]. cbn [fst snd] in P1, P2. subst r. set (r := expected (fate_of n ms) (taken n (x_seen x))) in *.
  assert (r = UOk -> fate_of n ms = Some FUpgraded /\ taken n (x_seen x) = false) as Hok.
  { subst r. destruct (fate_of n ms) as [[]|]; cbn; try discriminate; destruct (taken n (x_seen x)); cbn; intros; try discriminate; auto. }
  assert (r = UManualErr -> fate_of n ms = Some FManual) as Hma.
  { subst r. destruct (fate_of n ms) as [[]|]; cbn; try discriminate; destruct (taken n (x_seen x)); cbn; intros; try discriminate; auto. }
  assert (r = UOk -> find ok_entry (x_seen x) = None) as Hno.
  { intros Er. destruct (Hok Er) as (F1 & F2). apply (no_ok_of _ _ W0). intros n1 F. pose proof (A5 _ F). pose proof (A5 _ F1). replace n1 with n by lia. exact F2. }
  constructor; xs; rewrite ?Q1, ?Q2, ?Q3; auto.
  - now rewrite upd_length.
  - intros k Hk. destruct (Q k) as (-> & _). auto.
  - intros k. destruct (Q k) as (-> & _). auto.
  - rewrite A6. split; intros (k & F); exists k; destruct (Q k) as (E & _); congruence.
  - intros k v E. destruct (Q k) as (-> & _). rewrite taken_snoc. destruct (Nat.eq_dec k n) as [-> |Hk].
    + rewrite upd_same, Eu in E. injection E as <-. now rewrite Nat.eqb_refl.
    + rewrite upd_other in E by exact Hk. replace (n =? k)%nat with false by (symmetry; apply Nat.eqb_neq; congruence). rewrite orb_false_r. auto.
  - intros h0 k r0 F. apply in_app_or in F. destruct F as [F|[F|[]]].
    + specialize (A9 _ _ _ F). destruct r0; auto; destruct A9 as (n' & -> & F'); exists n'; destruct (Q n') as (-> & _); auto.
    + injection F as <- <- <-. destruct r eqn:Er; auto; exists n; destruct (Q n) as (-> & _); (split; [reflexivity|]); [now apply Hok|now apply Hma].
  - rewrite filter_app, app_length. cbn [filter]. unfold ok_entry at 2. cbn [snd]. destruct r; cbn [is_ok length]; try lia. rewrite (find_filter _ _ (Hno eq_refl)). cbn. lia.
  - unfold whereabouts. xs. rewrite Q1, Q3, find_snoc, A11. unfold ok_entry at 2. cbn [snd]. unfold whereabouts. destruct (is_ok r) eqn:Er.
    + assert (r = UOk) as Er1 by (destruct r; try discriminate Er; reflexivity). rewrite (Hno Er1), Er1. destruct (Hok Er1) as (F1 & _). assert (existsb is_fulfil ms = true) as -> by (apply A6; eauto). reflexivity.
    + destruct (find ok_entry (x_seen x)); destruct r; try discriminate Er; reflexivity.
Qed.
Lemma WI_poll_none ms x h w : WI ms x -> nth_error (x_holders x) h = Some HNone -> WI (ms ++ [MPoll h w]) (ustep x (MPoll h w)).
Proof.
  intros [A1 A2 A3 A4 A5 A6 A7 A8 A9 A10 A11] Eh. pose proof (fun n => quiet_fate ms (MPoll h w) n eq_refl) as Q. destruct (Q O) as (_ & Q1 & Q2 & Q3). cbn [ustep]. rewrite Eh.
  constructor; xs; rewrite ?Q1, ?Q2, ?Q3; auto.
  - intros n Hn. destruct (Q n) as (-> & _). auto.
  - intros n. destruct (Q n) as (-> & _). auto.
  - rewrite A6. split; intros (n & F); exists n; destruct (Q n) as (E & _); congruence.
  - intros n u E. destruct (Q n) as (-> & _). rewrite taken_snoc, orb_false_r. auto.
  - intros h0 k r F. apply in_app_or in F. destruct F as [F|[F|[]]].
    + specialize (A9 _ _ _ F). destruct r; auto; destruct A9 as (n & -> & F'); exists n; destruct (Q n) as (-> & _); auto.
    + injection F as <- <- <-. exact Logic.I.
  - rewrite filter_app, app_length. cbn. lia.
  - rewrite A11. unfold whereabouts. xs. rewrite Q1, Q3, find_snoc. cbn. destruct (find ok_entry (x_seen x)); reflexivity.
Qed.
(* ---- Moves of the connection ---- *)
Definition sends (m : umove) : option uval := match m with MFulfil => Some VUpgraded | MManual => Some VManual | _ => None end.
Definition cuts (m : umove) : fate := match m with MFulfil => FUpgraded | MManual => FManual | _ => FCanceled end.
Lemma good_send m u t r : of_conn m = true -> good_chan u None t r -> good_chan (fst (u_send (sends m) u)) (Some (cuts m)) t r.
Proof.
  intros Hm (R & G). destruct G as (G1 & G2 & G3 & G4 & ->). unfold good_chan, u_send. rewrite R. destruct r; destruct m; try discriminate Hm; cbn; auto 6.
Qed.
Lemma cuts_in m : of_conn m = true -> fate_in [m] = Some (cuts m).
Proof. now destruct m. Qed.
Lemma no_ful ms : existsb ending ms = false -> existsb is_fulfil ms = false.
Proof.
  intros E. destruct (existsb is_fulfil ms) eqn:F; [|reflexivity]. apply existsb_exists in F. destruct F as (m & F1 & F2). rewrite <- E. symmetry. apply existsb_exists. exists m. destruct m; try discriminate F2; auto.
Qed.
(* What is left of the state before the channel that is open is closed *)
Lemma cut_chans ms x m k : WI ms x -> of_conn m = true -> existsb ending ms = false -> asks ms = S k ->
  exists u, nth_error (x_chans x) k = Some u /\ x_tx x = Some k /\
    x_send (sends m) x = mkX (upd k (fun _ => fst (u_send (sends m) u)) (x_chans x)) None (x_live x) (x_holders x)
      (match sends m with Some VUpgraded => match refs k (x_holders x) with O => PGone | _ => PChan k end | _ => x_io x end) (x_seen x) (x_woken x ++ woke (snd (u_send (sends m) u))) /\
    (forall n, (n < asks ms)%nat -> fate_of n (ms ++ [m]) = if (n =? k)%nat then Some (cuts m) else fate_of n ms) /\
    (forall n, fate_of n ms <> Some FUpgraded) /\
    (forall n v, nth_error (upd k (fun _ => fst (u_send (sends m) u)) (x_chans x)) n = Some v -> good_chan v (fate_of n (ms ++ [m])) (taken n (x_seen x)) (refs n (x_holders x))).
Proof.
  intros W Hm He Ek. pose proof W as W0. destruct W as [A1 A2 A3 A4 A5 A6 A7 A8 A9 A10 A11]. rewrite He in A2. rewrite A2, Ek in A3. cbn in A2, A3.
  destruct (nth_error (x_chans x) k) as [u|] eqn:Eu; [|apply nth_error_None in Eu; lia]. exists u. split; [reflexivity|]. split; [exact A3|].
  assert (forall n, (n < asks ms)%nat -> fate_of n (ms ++ [m]) = if (n =? k)%nat then Some (cuts m) else fate_of n ms) as HF.
  { intros n Hn. rewrite fate_snoc by exact Hn. rewrite (cuts_in m Hm). destruct (n =? k)%nat eqn:E.
    - apply Nat.eqb_eq in E. subst n. assert (fate_of k ms = None) as -> by (apply A4; auto). reflexivity.
    - apply Nat.eqb_neq in E. destruct (fate_of n ms) eqn:F; [reflexivity|]. apply A4 in F; [lia|exact Hn]. }
  split; [|split; [exact HF|split]].
  - unfold x_send. rewrite A3, Eu. rewrite (good_refs _ _ _ _ (A7 _ _ Eu)). destruct (u_send (sends m) u) as [u' o]. reflexivity.
  - intros n F. assert (existsb is_fulfil ms = true) as F' by (apply A6; eauto). rewrite (no_ful _ He) in F'. discriminate F'.
  - intros n v E. assert (n < asks ms)%nat as Hn. { rewrite <- A1, <- (upd_length k (fun _ => fst (u_send (sends m) u))). apply nth_error_Some. congruence. }
    rewrite (HF n Hn). destruct (Nat.eq_dec n k) as [-> |Hk].
    + rewrite upd_same, Eu in E. injection E as <-. rewrite Nat.eqb_refl. apply good_send; [exact Hm|]. assert (fate_of k ms = None) as F by (apply A4; auto). rewrite <- F. auto.
    + rewrite upd_other in E by exact Hk. assert ((n =? k)%nat = false) as -> by (now apply Nat.eqb_neq). auto.
Qed.
Lemma fate_high ms n : (asks ms <= n)%nat -> fate_of n ms = None.
Proof. intros H. unfold fate_of. assert (after_ask n ms = None) as -> by (now apply after_ask_some). reflexivity. Qed.
Lemma ok_cut ms x m : WI ms x -> (forall n, fate_of n ms <> Some FUpgraded) -> of_conn m = true ->
  forall h k r, In (h, k, r) (x_seen x) -> match r with UOk => exists n, k = Some n /\ fate_of n (ms ++ [m]) = Some FUpgraded | UManualErr => exists n, k = Some n /\ fate_of n (ms ++ [m]) = Some FManual | _ => True end.
Proof.
  intros W Hn Hm h k r F. pose proof (wi_ok _ _ W _ _ _ F) as G. destruct r; auto; destruct G as (n & -> & G); exists n; (split; [reflexivity|]).
  - destruct (Hn n G).
  - destruct (Nat.lt_ge_cases n (asks ms)) as [L|L]; [|rewrite fate_high in G by exact L; discriminate G]. rewrite fate_snoc by exact L. now rewrite G.
Qed.
Lemma WI_end ms x m : WI ms x -> ending m = true -> existsb ending ms = false -> (m = MFulfil \/ m = MManual -> (0 < asks ms)%nat) -> WI (ms ++ [m]) (ustep x m).
Proof.
  intros W Hm He Ha. assert (of_conn m = true) as Hc by (destruct m; try discriminate Hm; reflexivity).
  assert (asks (ms ++ [m]) = asks ms) as Q1 by (rewrite asks_snoc; destruct m; try discriminate Hm; cbn; lia).
  assert (existsb ending (ms ++ [m]) = true) as Q2 by (rewrite existsb_app; cbn [existsb]; rewrite Hm; now rewrite orb_true_r).
  assert (existsb is_fulfil (ms ++ [m]) = is_fulfil m) as Q3 by (rewrite existsb_app, (no_ful _ He); cbn; now rewrite orb_false_r).
  destruct (asks ms) as [|k] eqn:Ek.
  - assert (m = MEnd) as -> by (destruct m; try discriminate Hm; auto; exfalso; (assert (0 < 0)%nat by (apply Ha; auto)); lia).
    destruct W as [A1 A2 A3 A4 A5 A6 A7 A8 A9 A10 A11]. rewrite Ek in *. assert (x_tx x = None) as Et by (rewrite A3; destruct (x_live x); reflexivity).
    cbn [ustep]. unfold x_over, x_send. rewrite Et.
    assert (forall n, fate_of n (ms ++ [MEnd]) = None) as HF by (intros n; apply fate_high; lia).
    constructor; xs; rewrite ?Q1, ?Q2, ?Q3; auto; try lia.
    + intros n. rewrite HF. discriminate.
    + split; [discriminate|]. intros (n & F). rewrite HF in F. discriminate F.
    + intros n u E. assert (n < 0)%nat; [rewrite <- A1; apply nth_error_Some; congruence|lia].
    + intros h k r F. specialize (A9 _ _ _ F). destruct r; auto; destruct A9 as (n & _ & F'); rewrite fate_high in F' by lia; discriminate F'.
    + rewrite A11. unfold whereabouts. rewrite (no_ful _ He), Q3. reflexivity.
  - destruct (cut_chans ms x m k W Hc He Ek) as (u & Eu & Et & ES & HF & HN & HG).
    pose proof (ok_cut _ _ _ W HN Hc) as HO. pose proof (no_ok_of _ _ W (fun n F => match HN n F with end)) as HNo. destruct W as [A1 A2 A3 A4 A5 A6 A7 A8 A9 A10 A11].
    assert (ustep x m = x_over (x_send (sends m) x)) as -> by (destruct m; try discriminate Hm; cbn [ustep sends]; rewrite ?Et; reflexivity).
    rewrite ES. unfold x_over. xs. rewrite Ek in *. constructor; xs; rewrite ?Q1, ?Q2, ?Q3; auto.
    + now rewrite upd_length.
    + intros n Hn. rewrite HF by exact Hn. split; [|intros (_ & F); discriminate F]. destruct (n =? k)%nat eqn:E; [discriminate|]. intros F. apply A4 in F; [|exact Hn]. apply Nat.eqb_neq in E. lia.
    + intros n F. destruct (Nat.lt_ge_cases n (S k)) as [L|L]; [|rewrite fate_high in F by lia; discriminate F]. rewrite HF in F by exact L. destruct (n =? k)%nat eqn:E; [apply Nat.eqb_eq in E; lia|]. destruct (HN n F).
    + split.
      * intros F. exists k. rewrite HF, Nat.eqb_refl by lia. destruct m; try discriminate F. reflexivity.
      * intros (n & F). destruct (Nat.lt_ge_cases n (S k)) as [L|L]; [|rewrite fate_high in F by lia; discriminate F]. rewrite HF in F by exact L. destruct (n =? k)%nat; [|destruct (HN n F)]. destruct m; try discriminate Hm; try discriminate F. reflexivity.
    + unfold whereabouts. xs. rewrite Q1, Q3, HNo, A11. unfold whereabouts. rewrite (no_ful _ He). cbn [Nat.sub]. rewrite Nat.sub_0_r. destruct m; try discriminate Hm; reflexivity.
Qed.
Lemma WI_ask ms x : WI ms x -> existsb ending ms = false -> WI (ms ++ [MAsk]) (ustep x MAsk).
Proof.
  intros W He. assert (asks (ms ++ [MAsk]) = S (asks ms)) as Q1 by (rewrite asks_snoc; cbn; lia).
  assert (existsb ending (ms ++ [MAsk]) = false) as Q2 by (rewrite existsb_app, He; reflexivity).
  assert (existsb is_fulfil (ms ++ [MAsk]) = false) as Q3 by (rewrite existsb_app, (no_ful _ He); reflexivity).
  assert (x_live x = true) as HL by (rewrite (wi_live _ _ W), He; reflexivity).
  assert (forall n, fate_of n ms <> Some FUpgraded) as HN.
  { intros n F. assert (existsb is_fulfil ms = true) as F' by (apply (wi_ful _ _ W); eauto). rewrite (no_ful _ He) in F'. discriminate F'. }
  pose proof (ok_cut _ _ MAsk W HN eq_refl) as HO.
  assert (exists cs, x_send None x = mkX cs None true (x_holders x) (x_io x) (x_seen x) (x_woken (x_send None x)) /\ length cs = asks ms /\
    (forall n v, nth_error cs n = Some v -> good_chan v (fate_of n (ms ++ [MAsk])) (taken n (x_seen x)) (refs n (x_holders x))) /\
    (forall n, (n < asks ms)%nat -> fate_of n (ms ++ [MAsk]) <> None /\ fate_of n (ms ++ [MAsk]) <> Some FUpgraded)) as (cs & ES & Lc & Gc & Hf).
  { destruct (asks ms) as [|k] eqn:Ek.
    - exists []. pose proof (wi_len _ _ W) as L. pose proof (wi_tx _ _ W) as T. rewrite Ek, HL in T. rewrite Ek in L. unfold x_send. rewrite T. destruct x as [[] tx lv hs io sn wk]; [|discriminate L]. cbn in *. subst. split; [reflexivity|]. split; [reflexivity|]. split; [intros [|n]; discriminate|lia].
    - destruct (cut_chans ms x MAsk k W eq_refl He Ek) as (u & Eu & Et & ES & HF & _ & HG). cbn [sends] in ES. rewrite ES. xs. rewrite HL. eexists. split; [reflexivity|]. split; [rewrite upd_length, (wi_len _ _ W); exact Ek|]. split; [exact HG|].
      intros n Hn. rewrite HF by (rewrite Ek; exact Hn). destruct (n =? k)%nat eqn:E; [split; discriminate|]. split; [|apply HN]. intros F. apply (wi_fate _ _ W) in F; [|lia]. apply Nat.eqb_neq in E. lia. }
  destruct W as [A1 A2 A3 A4 A5 A6 A7 A8 A9 A10 A11]. cbn [ustep]. rewrite HL. set (wk := x_woken (x_send None x)) in *. clearbody wk. rewrite ES. xs.
  assert (refs (asks ms) (x_holders x) = 0)%nat as R0. { destruct (refs (asks ms) (x_holders x)) eqn:E; [reflexivity|]. assert (In (HOn (asks ms)) (x_holders x)) as F by (apply refs_in; lia). apply A8 in F. lia. }
  assert (taken (asks ms) (x_seen x) = false) as T0.
  { destruct (taken (asks ms) (x_seen x)) eqn:E; [|reflexivity]. apply existsb_exists in E. destruct E as ([[h [k|]] r] & F1 & F2); [|discriminate F2]. apply andb_prop in F2. destruct F2 as (F2 & F3). apply Nat.eqb_eq in F2. subst k.
    specialize (A9 _ _ _ F1). destruct r; try discriminate F3; destruct A9 as (n & F4 & F5); injection F4 as <-; rewrite fate_high in F5 by lia; discriminate F5. }
  constructor; xs; rewrite ?Q1, ?Q2, ?Q3, ?A1; auto.
  - rewrite app_length, Lc. cbn. lia.
  - intros n Hn. destruct (Nat.eq_dec n (asks ms)) as [-> |Hk].
    + rewrite fate_new. split; auto.
    + split; [|lia]. intros F. destruct (Hf n ltac:(lia)) as (F1 & _). congruence.
  - intros n F. destruct (Nat.lt_trichotomy n (asks ms)) as [L|[-> |L]]; [|reflexivity|rewrite fate_high in F by lia; discriminate F]. destruct (Hf n L) as (_ & F1). congruence.
  - split; [discriminate|]. intros (n & F). destruct (Nat.lt_trichotomy n (asks ms)) as [L|[-> |L]].
    + destruct (Hf n L) as (_ & F1). congruence.
    + rewrite fate_new in F. discriminate F.
    + rewrite fate_high in F by lia. discriminate F.
  - intros n u E. rewrite refs_app. destruct (Nat.lt_ge_cases n (length cs)) as [L|L].
    + rewrite nth_error_app1 in E by exact L. unfold refs at 2. cbn [filter]. replace (asks ms =? n)%nat with false by (symmetry; apply Nat.eqb_neq; lia). rewrite Nat.add_0_r. auto.
    + rewrite nth_error_app2 in E by exact L. destruct (n - length cs)%nat as [|q] eqn:En; [|destruct q; discriminate E]. injection E as <-. assert (n = asks ms) as -> by lia.
      rewrite fate_new, T0, R0. unfold refs. cbn [filter]. rewrite Nat.eqb_refl. cbn. repeat split; auto.
  - intros n F. apply in_app_or in F. destruct F as [F|[F|[]]]; [apply A8 in F; lia|]. injection F as <-. lia.
  - rewrite A11. unfold whereabouts. xs. rewrite Q3, (no_ful _ He). reflexivity.
Qed.
Lemma upd_none {A} h (f : A -> A) l : nth_error l h = None -> upd h f l = l.
Proof. intros E. unfold upd. now rewrite E. Qed.
Lemma WI_same ms x m : of_conn m = false -> WI ms x -> WI (ms ++ [m]) x.
Proof. intros Hm W. destruct x. apply (WI_absent ms _ m _ Hm W). reflexivity. Qed.
Lemma WI_step ms x m : WI ms x -> (of_conn m = true -> existsb ending ms = false) -> (m = MFulfil \/ m = MManual -> (0 < asks ms)%nat) -> WI (ms ++ [m]) (ustep x m).
Proof.
  intros W H1 H2. destruct m as [| |h|h|h w| | |].
  - apply WI_ask; auto.
  - cbn [ustep]. unfold x_hold. apply WI_absent; [reflexivity|exact W|]. intros n. rewrite refs_app. cbn. lia.
  - cbn [ustep]. destruct (nth_error (x_holders x) h) as [[| |n]|] eqn:Eh; try (apply WI_same; [reflexivity|exact W]).
    + unfold x_hold. apply WI_absent; [reflexivity|exact W|]. intros n. rewrite refs_app. cbn. lia.
    + unfold x_hold. xs. apply WI_clone; assumption.
  - cbn [ustep]. destruct (nth_error (x_holders x) h) as [[| |n]|] eqn:Eh; try (apply WI_same; [reflexivity|exact W]).
    + apply WI_absent; [reflexivity|exact W|]. intros n. apply refs_gone_none, Eh.
    + apply WI_drop; assumption.
  - destruct (nth_error (x_holders x) h) as [[| |n]|] eqn:Eh; try (cbn [ustep]; rewrite Eh; apply WI_same; [reflexivity|exact W]).
    + apply WI_poll_none; assumption.
    + exact (proj2 (WI_poll _ _ _ _ _ W Eh)).
  - apply WI_end; auto.
  - apply WI_end; auto.
  - apply WI_end; auto.
Qed.
Lemma urun_snoc ms m : urun (ms ++ [m]) = ustep (urun ms) m.
Proof. unfold urun. now rewrite fold_left_app. Qed.
Lemma WI_all ms : proper ms -> WI ms (urun ms).
Proof.
  induction ms as [|m ms IH] using rev_ind; intros H; [exact WI_start|].
  apply proper_snoc in H. destruct H as (H & H1 & H2). rewrite urun_snoc. apply WI_step; auto.
Qed.

(* ---- C71: what an OnUpgrade gives ---- *)
(* For all courses of a connection and of the OnUpgrades of its messages: the poll of an
   OnUpgrade gives what became of its own message and of no other *)
Theorem C71_outcome ms h n w : proper ms -> nth_error (x_holders (urun ms)) h = Some (HOn n) ->
  x_seen (urun (ms ++ [MPoll h w])) = x_seen (urun ms) ++ [(h, Some n, expected (fate_of n ms) (taken n (x_seen (urun ms))))].
Proof.
  intros H Eh. destruct (WI_poll _ _ _ _ w (WI_all _ H) Eh) as (E & _). rewrite urun_snoc. cbn [ustep]. rewrite Eh. destruct (u_poll w _) as [u r]. cbn [snd] in E. subst r. reflexivity.
Qed.
(* An OnUpgrade for a message without an upgrade says so *)
Theorem C71_none ms h w : nth_error (x_holders (urun ms)) h = Some HNone ->
  x_seen (urun (ms ++ [MPoll h w])) = x_seen (urun ms) ++ [(h, None, UNoUpgrade)].
Proof. intros Eh. rewrite urun_snoc. cbn [ustep]. rewrite Eh. reflexivity. Qed.
(* The transport is given once at most, to the last message that asked, and only
   when the connection handed it over *)
Theorem C71_once ms : proper ms ->
  (length (filter ok_entry (x_seen (urun ms))) <= 1)%nat /\
  forall h k, In (h, k, UOk) (x_seen (urun ms)) -> In MFulfil ms /\ (0 < asks ms)%nat /\ k = Some (asks ms - 1)%nat.
Proof.
  intros H. pose proof (WI_all _ H) as W. split; [exact (wi_once _ _ W)|]. intros h k F. destruct (wi_ok _ _ W _ _ _ F) as (n & -> & G).
  assert (existsb is_fulfil ms = true) as E by (apply (wi_ful _ _ W); eauto). apply existsb_exists in E. destruct E as (m & E1 & E2). destruct m; try discriminate E2. split; [exact E1|].
  pose proof (wi_up _ _ W _ G). split; [lia|]. f_equal. lia.
Qed.
(* The transport is never in two places and is not lost while someone waits for it *)
Theorem C71_transport ms : proper ms -> match x_io (urun ms) with
  | PConn => ~ In MFulfil ms
  | PChan n => In MFulfil ms /\ S n = asks ms /\ (forall h k, ~ In (h, k, UOk) (x_seen (urun ms))) /\ In (HOn n) (x_holders (urun ms))
  | PApp h => exists k, In (h, k, UOk) (x_seen (urun ms))
  | PGone => In MFulfil ms /\ (forall h k, ~ In (h, k, UOk) (x_seen (urun ms))) /\ ~ In (HOn (asks ms - 1)) (x_holders (urun ms))
  end.
Proof.
  intros H. pose proof (WI_all _ H) as W. rewrite (wi_io _ _ W). unfold whereabouts. destruct (existsb is_fulfil ms) eqn:Ef.
  - assert (In MFulfil ms) as Hf. { apply existsb_exists in Ef. destruct Ef as (m & E1 & E2). destruct m; try discriminate E2. exact E1. }
    apply (wi_ful _ _ W) in Ef. destruct Ef as (n & Ef). apply (wi_up _ _ W) in Ef.
    destruct (find ok_entry (x_seen (urun ms))) as [[[h k] r]|] eqn:Ev.
    + apply find_some in Ev. destruct Ev as (E1 & E2). destruct r; try discriminate E2. cbn. eauto.
    + assert (forall h k, ~ In (h, k, UOk) (x_seen (urun ms))) as Hn by (intros h k F; pose proof (find_none _ _ Ev _ F) as F'; discriminate F').
      destruct (refs (asks ms - 1) (x_holders (urun ms))) eqn:Er.
      * split; [exact Hf|]. split; [exact Hn|]. intros F. apply refs_in in F. lia.
      * split; [exact Hf|]. split; [lia|]. split; [exact Hn|]. apply refs_in. lia.
  - intros F. assert (existsb is_fulfil ms = true); [|congruence]. apply existsb_exists. exists MFulfil. auto.
Qed.
(* An OnUpgrade that is not cloned never panics before it has given a result *)
Definition no_clone (ms : list umove) : Prop := forall h, ~ In (MClone h) ms.
Definition single (x : uworld) : Prop := exists f : nat -> nat,
  (forall h n, nth_error (x_holders x) h = Some (HOn n) -> h = f n) /\ (forall h n r, In (h, Some n, r) (x_seen x) -> h = f n).
Lemma upd_gone h h' n (hs : list hold) : nth_error (upd h (fun _ => HGone) hs) h' = Some (HOn n) -> nth_error hs h' = Some (HOn n).
Proof.
  destruct (Nat.eq_dec h' h) as [-> |Hk]; [|now rewrite upd_other]. rewrite upd_same. destruct (nth_error hs h); discriminate.
Qed.
Lemma single_ext x y : single x -> (forall h n, nth_error (x_holders y) h = Some (HOn n) -> nth_error (x_holders x) h = Some (HOn n)) -> (forall h n r, In (h, Some n, r) (x_seen y) -> In (h, Some n, r) (x_seen x) \/ nth_error (x_holders x) h = Some (HOn n)) -> single y.
Proof. intros (f & A & B) H1 H2. exists f. split; [intros; apply A; auto|]. intros h n r F. destruct (H2 _ _ _ F); eauto. Qed.
Lemma send_rest v x : x_holders (x_send v x) = x_holders x /\ x_seen (x_send v x) = x_seen x /\ length (x_chans (x_send v x)) = length (x_chans x).
Proof. unfold x_send. destruct (x_tx x); [|auto]. destruct (nth_error (x_chans x) n); [|auto]. destruct (u_send v u). xs. now rewrite upd_length. Qed.
Lemma single_all ms : proper ms -> no_clone ms -> single (urun ms).
Proof.
  induction ms as [|m ms IH] using rev_ind; intros H Hc.
  - exists (fun n => n). split; intros [|h] n; cbn; try discriminate; tauto.
  - pose proof H as H0. apply proper_snoc in H. destruct H as (H & H1 & H2). pose proof (WI_all _ H) as W. assert (no_clone ms) as Hc' by (intros h F; apply (Hc h), in_or_app; auto). specialize (IH H Hc').
    rewrite urun_snoc. set (x := urun ms) in *. destruct m as [| |h|h|h w| | |].
    + assert (x_live x = true) as HL by (rewrite (wi_live _ _ W), (H1 eq_refl); reflexivity). cbn [ustep]. rewrite HL. destruct (send_rest None x) as (-> & -> & _). destruct IH as (f & A & B).
      exists (fun n => if (n =? length (x_chans x))%nat then length (x_holders x) else f n). xs. split.
      * intros h n E. destruct (Nat.lt_ge_cases h (length (x_holders x))) as [L|L].
        -- rewrite nth_error_app1 in E by exact L. assert (n < length (x_chans x))%nat by (rewrite (wi_len _ _ W); apply (wi_h _ _ W); eapply nth_error_In, E). assert ((n =? length (x_chans x))%nat = false) as -> by (apply Nat.eqb_neq; lia). auto.
        -- rewrite nth_error_app2 in E by exact L. destruct (h - length (x_holders x))%nat as [|q] eqn:Eq; [|destruct q; discriminate E]. injection E as <-. rewrite Nat.eqb_refl. lia.
      * intros h n r F. destruct (n =? length (x_chans x))%nat eqn:E; [|eauto]. exfalso.
        assert (forall ms, proper ms -> forall h n r, In (h, Some n, r) (x_seen (urun ms)) -> (n < length (x_chans (urun ms)))%nat) as L.
        { clear. induction ms as [|m ms IH] using rev_ind; intros H h n r F; [destruct F|]. pose proof (WI_all _ H) as W'. apply proper_snoc in H. destruct H as (H & H1 & _). pose proof (WI_all _ H) as W. specialize (IH H).
          rewrite (wi_len _ _ W'), asks_snoc, <- (wi_len _ _ W). rewrite urun_snoc in F. enough (In (h, Some n, r) (x_seen (urun ms)) \/ In (HOn n) (x_holders (urun ms))) as [G|G].
          - specialize (IH _ _ _ G). lia.
          - apply (wi_h _ _ W) in G. rewrite (wi_len _ _ W). lia.
          - clear IH W'. set (x := urun ms) in *. destruct m as [| |h'|h'|h' w'| | |]; cbn [ustep] in F; unfold x_hold, x_over in F.
            + destruct (x_live x); [|auto]. cbn [x_seen] in F. destruct (send_rest None x) as (_ & E & _). rewrite E in F. auto.
            + auto.
            + destruct (nth_error (x_holders x) h') as [[]|]; auto.
            + destruct (nth_error (x_holders x) h') as [[]|]; auto.
            + destruct (nth_error (x_holders x) h') as [[| |k]|] eqn:Eh; auto.
              * cbn [x_seen] in F. apply in_app_or in F. destruct F as [F|[F|[]]]; [auto|discriminate F].
              * destruct (u_poll w' _) as [u' r']. cbn [x_seen] in F. apply in_app_or in F. destruct F as [F|[F|[]]]; [auto|]. injection F as <- <- <-. right. eapply nth_error_In, Eh.
            + destruct (x_tx x); [|auto]. cbn [x_seen] in F. destruct (send_rest (Some VUpgraded) x) as (_ & E & _). rewrite E in F. auto.
            + destruct (x_tx x); [|auto]. cbn [x_seen] in F. destruct (send_rest (Some VManual) x) as (_ & E & _). rewrite E in F. auto.
            + cbn [x_seen] in F. destruct (send_rest None x) as (_ & E & _). rewrite E in F. auto. }
        apply Nat.eqb_eq in E. pose proof (L ms H _ _ _ F) as G. fold x in G. lia.
    + apply (single_ext x); [exact IH| |auto]. cbn. intros h n E. destruct (Nat.lt_ge_cases h (length (x_holders x))) as [L|L]; [now rewrite nth_error_app1 in E by exact L|]. rewrite nth_error_app2 in E by exact L. destruct (h - length (x_holders x))%nat as [|q]; [discriminate E|destruct q; discriminate E].
    + destruct (Hc h). apply in_or_app. right. now left.
    + cbn [ustep]. destruct (nth_error (x_holders x) h) as [[| |k]|]; try exact IH; (apply (single_ext x); [exact IH| |auto]); intros h' n; apply upd_gone.
    + cbn [ustep]. destruct (nth_error (x_holders x) h) as [[| |k]|] eqn:Eh; try exact IH.
      * apply (single_ext x); [exact IH|auto|]. xs. intros h' n r F. apply in_app_or in F. destruct F as [F|[F|[]]]; [auto|discriminate F].
      * destruct (u_poll w _) as [u r]. apply (single_ext x); [exact IH|auto|]. xs. intros h' n r' F. apply in_app_or in F. destruct F as [F|[F|[]]]; [auto|]. injection F as <- <- <-. auto.
    + cbn [ustep]. destruct (x_tx x); [|exact IH]. destruct (send_rest (Some VUpgraded) x) as (E1 & E2 & _). apply (single_ext x); [exact IH|unfold x_over; xs; rewrite ?E1, ?E2; auto..].
    + cbn [ustep]. destruct (x_tx x); [|exact IH]. destruct (send_rest (Some VManual) x) as (E1 & E2 & _). apply (single_ext x); [exact IH|unfold x_over; xs; rewrite ?E1, ?E2; auto..].
    + cbn [ustep]. destruct (send_rest None x) as (E1 & E2 & _). apply (single_ext x); [exact IH|unfold x_over; xs; rewrite ?E1, ?E2; auto..].
Qed.
Theorem C71_no_panic ms h n w : proper ms -> no_clone ms -> nth_error (x_holders (urun ms)) h = Some (HOn n) ->
  (forall r, In (h, Some n, r) (x_seen (urun ms)) -> is_given r = false) ->
  ~ In (h, Some n, UPanic) (x_seen (urun (ms ++ [MPoll h w]))).
Proof.
  intros H Hc Eh Hn F. destruct (single_all _ H Hc) as (f & A & B).
  assert (taken n (x_seen (urun ms)) = false) as T.
  { destruct (taken n (x_seen (urun ms))) eqn:T; [|reflexivity]. apply existsb_exists in T. destruct T as ([[h' [k|]] r] & F1 & F2); [|discriminate F2]. apply andb_prop in F2. destruct F2 as (F2 & F3). apply Nat.eqb_eq in F2. subst k.
    assert (h' = h) as -> by (rewrite (B _ _ _ F1), (A _ _ Eh); reflexivity). rewrite (Hn _ F1) in F3. discriminate F3. }
  assert (forall ms h n, proper ms -> In (h, Some n, UPanic) (x_seen (urun ms)) -> taken n (x_seen (urun ms)) = true) as P.
  { clear. induction ms as [|m ms IH] using rev_ind; intros h n H F; [destruct F|]. apply proper_snoc in H. destruct H as (H & _ & _). specialize (fun h n => IH h n H). rewrite urun_snoc in *. set (x := urun ms) in *.
    destruct m as [| |h'|h'|h' w'| | |]; cbn [ustep] in F |- *; unfold x_hold, x_over in F |- *.
    - destruct (x_live x); [|eauto]. cbn [x_seen] in F |- *. destruct (send_rest None x) as (_ & E & _). rewrite E in *. eauto.
    - eauto.
    - destruct (nth_error (x_holders x) h') as [[]|]; eauto.
    - destruct (nth_error (x_holders x) h') as [[]|]; eauto.
    - destruct (nth_error (x_holders x) h') as [[| |k]|] eqn:Eh; eauto.
      + cbn [x_seen] in *. rewrite taken_snoc. apply in_app_or in F. destruct F as [F|[F|[]]]; [|discriminate F]. now rewrite (IH _ _ F).
      + pose proof (proj1 (WI_poll _ _ _ _ w' (WI_all _ H) Eh)) as E. fold x in E. destruct (u_poll w' _) as [u' r']. cbn [x_seen snd] in *. rewrite taken_snoc. apply in_app_or in F. destruct F as [F|[F|[]]]; [now rewrite (IH _ _ F)|]. injection F as -> -> ->.
        destruct (taken n (x_seen x)); [reflexivity|]. destruct (fate_of n ms) as [[]|]; discriminate E.
    - destruct (x_tx x); [|eauto]. cbn [x_seen] in *. destruct (send_rest (Some VUpgraded) x) as (_ & E & _). rewrite E in *. eauto.
    - destruct (x_tx x); [|eauto]. cbn [x_seen] in *. destruct (send_rest (Some VManual) x) as (_ & E & _). rewrite E in *. eauto.
    - cbn [x_seen] in *. destruct (send_rest None x) as (_ & E & _). rewrite E in *. eauto. }
  rewrite (C71_outcome ms h n w H Eh) in F. apply in_app_or in F. destruct F as [F|[F|[]]].
  - rewrite (P _ _ _ H F) in T. discriminate T.
  - injection F as F. rewrite T in F. destruct (fate_of n ms) as [[]|]; discriminate F.
Qed.

(* ---- The task that waits is woken ---- *)
Lemma holder_back ms m h n : (h < length (x_holders (urun ms)))%nat -> nth_error (x_holders (urun (ms ++ [m]))) h = Some (HOn n) -> nth_error (x_holders (urun ms)) h = Some (HOn n).
Proof.
  intros L. rewrite urun_snoc. set (x := urun ms) in *. assert (forall l, nth_error (x_holders x ++ l) h = nth_error (x_holders x) h) as T by (intros; now rewrite nth_error_app1).
  destruct m as [| |h'|h'|h' w'| | |]; cbn [ustep]; unfold x_hold, x_over.
  - destruct (x_live x); [|auto]. xs. destruct (send_rest None x) as (-> & _). now rewrite T.
  - xs. now rewrite T.
  - destruct (nth_error (x_holders x) h') as [[]|]; xs; rewrite ?T; auto.
  - destruct (nth_error (x_holders x) h') as [[]|]; xs; auto; apply upd_gone.
  - destruct (nth_error (x_holders x) h') as [[]|]; xs; auto. destruct (u_poll w' _) as [u' r']. auto.
  - destruct (x_tx x); [|auto]. xs. now destruct (send_rest (Some VUpgraded) x) as (-> & _).
  - destruct (x_tx x); [|auto]. xs. now destruct (send_rest (Some VManual) x) as (-> & _).
  - xs. now destruct (send_rest None x) as (-> & _).
Qed.
(* What a move does to the channel of a holder that stays, and to the wake-ups *)
Lemma chan_step ms m h n u : proper (ms ++ [m]) -> nth_error (x_holders (urun ms)) h = Some (HOn n) -> nth_error (x_holders (urun (ms ++ [m]))) h = Some (HOn n) -> nth_error (x_chans (urun ms)) n = Some u ->
  (forall h' w', m = MPoll h' w' -> nth_error (x_holders (urun ms)) h' <> Some (HOn n)) ->
  exists u' l, nth_error (x_chans (urun (ms ++ [m]))) n = Some u' /\ x_woken (urun (ms ++ [m])) = x_woken (urun ms) ++ l /\
    (fate_of n (ms ++ [m]) = None -> u_waker u' = u_waker u) /\
    (fate_of n ms = None -> fate_of n (ms ++ [m]) <> None -> forall w, u_waker u = Some w -> In w l).
Proof.
  intros Hp Eh Eh' Eu Hn. apply proper_snoc in Hp. destruct Hp as (Hp & H1 & H2). pose proof (WI_all _ Hp) as W. pose proof (nth_error_In _ _ Eh) as Hin. pose proof (wi_h _ _ W _ Hin) as Hl.
  assert (forall v, exists u', nth_error (upd n (fun _ => v) (x_chans (urun ms))) n = Some u') as _ by (intros v; rewrite upd_same, Eu; eauto).
  destruct (of_conn m) eqn:Hm.
  - specialize (H1 eq_refl). destruct (asks ms) as [|k] eqn:Ek; [lia|].
    assert (exists u' l, nth_error (x_chans (x_send (sends m) (urun ms))) n = Some u' /\ x_woken (x_send (sends m) (urun ms)) = x_woken (urun ms) ++ l /\ (n < length (x_chans (x_send (sends m) (urun ms))))%nat /\
      (fate_of n (ms ++ [m]) = None -> u_waker u' = u_waker u) /\ (fate_of n ms = None -> fate_of n (ms ++ [m]) <> None -> forall w, u_waker u = Some w -> In w l)) as (u' & l & A1 & A2 & A3 & A4 & A5).
    { destruct (cut_chans ms _ m k W Hm H1 Ek) as (v & Ev & Et & ES & HF & _ & _). rewrite ES. xs. rewrite upd_length, (wi_len _ _ W), Ek. destruct (Nat.eq_dec n k) as [-> |Hk].
      - rewrite upd_same, Ev. assert (v = u) as -> by congruence. do 2 eexists. split; [reflexivity|]. split; [reflexivity|]. split; [lia|]. rewrite HF, Nat.eqb_refl by lia. split; [discriminate|]. intros _ _ w Ew.
        pose proof (good_refs _ _ _ _ (wi_ch _ _ W _ _ Eu)) as Hr. apply refs_in in Hin. unfold u_send. rewrite Hr. destruct (refs k (x_holders (urun ms))); [lia|]. cbn. rewrite Ew. now left.
      - rewrite upd_other by exact Hk. do 2 eexists. split; [exact Eu|]. split; [reflexivity|]. split; [lia|]. split; [auto|]. intros F. apply (wi_fate _ _ W) in F; lia. }
    exists u', l. rewrite urun_snoc. destruct m; try discriminate Hm; cbn [ustep sends] in *.
    + assert (x_live (urun ms) = true) as -> by (rewrite (wi_live _ _ W), H1; reflexivity). xs. rewrite nth_error_app1 by exact A3. auto.
    + destruct (x_tx (urun ms)) eqn:Et; [unfold x_over; xs; auto|]. rewrite (wi_tx _ _ W), (wi_live _ _ W), H1, Ek in Et. discriminate Et.
    + destruct (x_tx (urun ms)) eqn:Et; [unfold x_over; xs; auto|]. rewrite (wi_tx _ _ W), (wi_live _ _ W), H1, Ek in Et. discriminate Et.
    + unfold x_over. xs. auto.
  - destruct (quiet_fate ms m n Hm) as (Q & _). rewrite Q. rewrite urun_snoc in *. set (x := urun ms) in *.
    enough (exists u', nth_error (x_chans (ustep x m)) n = Some u' /\ x_woken (ustep x m) = x_woken x /\ u_waker u' = u_waker u) as (u' & B1 & B2 & B3).
    { exists u', []. rewrite app_nil_r. split; [exact B1|]. split; [exact B2|]. split; [auto|]. congruence. }
    destruct m as [| |h'|h'|h' w'| | |]; try discriminate Hm; cbn [ustep] in *; unfold x_hold in *.
    + eauto.
    + destruct (nth_error (x_holders x) h') as [[| |k]|] eqn:E; xs; eauto. destruct (Nat.eq_dec n k) as [-> |Hk]; [rewrite upd_same, Eu; eexists; split; [reflexivity|]; auto|rewrite upd_other by exact Hk; eauto].
    + destruct (nth_error (x_holders x) h') as [[| |k]|] eqn:E; xs; eauto. destruct (Nat.eq_dec n k) as [-> |Hk]; [|rewrite upd_other by exact Hk; eauto].
      rewrite upd_same, Eu. eexists. split; [reflexivity|]. split; [reflexivity|]. pose proof (good_refs _ _ _ _ (wi_ch _ _ W _ _ Eu)) as Hr. fold x in Hr. cbn [x_holders] in Eh'.
      pose proof (nth_error_In _ _ Eh') as Hin'. apply refs_in in Hin'. rewrite (refs_gone k h' k _ E), Nat.eqb_refl in Hr. unfold u_drop. destruct (u_refs u) as [|[|q]]; [lia|lia|reflexivity].
    + destruct (nth_error (x_holders x) h') as [[| |k]|] eqn:E; xs; eauto. destruct (u_poll w' _) as [v r']. xs. rewrite upd_other; [eauto|]. intros ->. exact (Hn _ _ eq_refl E).
Qed.
(* The task that polled an OnUpgrade last is woken when its message's fate is decided *)
Theorem C71_woken a h n w b : proper (a ++ MPoll h w :: b) -> nth_error (x_holders (urun a)) h = Some (HOn n) -> fate_of n a = None ->
  (forall b1 h' w' b2, b = b1 ++ MPoll h' w' :: b2 -> nth_error (x_holders (urun (a ++ MPoll h w :: b1))) h' <> Some (HOn n)) ->
  nth_error (x_holders (urun (a ++ MPoll h w :: b))) h = Some (HOn n) -> fate_of n (a ++ MPoll h w :: b) <> None ->
  exists l, x_woken (urun (a ++ MPoll h w :: b)) = x_woken (urun a) ++ l /\ In w l.
Proof.
  intros Hp Eh Ef Hb Eh' Ef'. 
  assert (forall b, proper (a ++ MPoll h w :: b) -> (forall b1 h' w' b2, b = b1 ++ MPoll h' w' :: b2 -> nth_error (x_holders (urun (a ++ MPoll h w :: b1))) h' <> Some (HOn n)) ->
    (h < length (x_holders (urun (a ++ MPoll h w :: b))))%nat /\
    (nth_error (x_holders (urun (a ++ MPoll h w :: b))) h = Some (HOn n) ->
    exists u l, nth_error (x_chans (urun (a ++ MPoll h w :: b))) n = Some u /\ x_woken (urun (a ++ MPoll h w :: b)) = x_woken (urun a) ++ l /\
     (fate_of n (a ++ MPoll h w :: b) = None -> u_waker u = Some w) /\ (fate_of n (a ++ MPoll h w :: b) <> None -> In w l))) as T.
  { clear b Hp Hb Eh' Ef'. induction b as [|m b IH] using rev_ind; intros Hp Hb.
    - apply proper_snoc in Hp. destruct Hp as (Hp & _). pose proof (WI_all _ Hp) as W. destruct (quiet_fate a (MPoll h w) n eq_refl) as (Q & _). rewrite Q.
      destruct (chan_of _ _ _ W (nth_error_In _ _ Eh)) as (u & Eu & En). rewrite urun_snoc. cbn [ustep]. rewrite Eh, En.
      assert (h < length (x_holders (urun a)))%nat as L by (apply nth_error_Some; congruence).
      pose proof (wi_ch _ _ W _ _ Eu) as (_ & G). rewrite Ef in G. destruct G as (G1 & G2 & G3 & G4 & _). unfold u_poll. rewrite G1, G3, G4. cbn [negb]. xs. split; [exact L|]. intros _. rewrite upd_same, Eu. eexists. exists []. split; [reflexivity|]. rewrite app_nil_r. split; [reflexivity|]. split; [reflexivity|]. congruence.
    - replace (a ++ MPoll h w :: b ++ [m]) with ((a ++ MPoll h w :: b) ++ [m]) in * by (now rewrite <- app_assoc).
      destruct IH as (IL & IH); [exact (proj1 (proper_snoc _ _ Hp))|intros b1 h' w' b2 ->; apply (Hb b1 h' w' (b2 ++ [m])); now rewrite <- app_assoc|].
      set (ms := a ++ MPoll h w :: b) in *. split.
      { assert (length (x_holders (urun ms)) <= length (x_holders (urun (ms ++ [m]))))%nat; [|lia]. rewrite urun_snoc. set (x := urun ms). destruct m as [| |h'|h'|h' w'| | |]; cbn [ustep]; unfold x_hold, x_over.
        - destruct (x_live x); [|auto]. xs. destruct (send_rest None x) as (-> & _). rewrite app_length. lia.
        - xs. rewrite app_length. lia.
        - destruct (nth_error (x_holders x) h') as [[]|]; xs; rewrite ?app_length; lia.
        - destruct (nth_error (x_holders x) h') as [[]|]; xs; rewrite ?upd_length; lia.
        - destruct (nth_error (x_holders x) h') as [[]|]; xs; auto. destruct (u_poll w' _) as [u' r']. auto.
        - destruct (x_tx x); [|auto]. xs. now destruct (send_rest (Some VUpgraded) x) as (-> & _).
        - destruct (x_tx x); [|auto]. xs. now destruct (send_rest (Some VManual) x) as (-> & _).
        - xs. now destruct (send_rest None x) as (-> & _). }
      intros E. pose proof (holder_back _ _ _ _ IL E) as E0. destruct (IH E0) as (u & l & B1 & B2 & B3 & B4).
      destruct (chan_step ms m h n u Hp E0 E B1) as (u' & l' & C1 & C2 & C3 & C4).
      { intros h' w' ->. apply (Hb b h' w' []). reflexivity. }
      exists u', (l ++ l'). split; [exact C1|]. split; [rewrite C2, B2, <- app_assoc; reflexivity|]. assert (n < asks ms)%nat as Hl by (apply (wi_h _ _ (WI_all _ (proj1 (proper_snoc _ _ Hp)))); eapply nth_error_In, E0). split.
      + intros F. rewrite (C3 F). apply B3. rewrite fate_snoc in F by exact Hl. destruct (fate_of n ms); [discriminate F|reflexivity].
      + intros F. apply in_or_app. destruct (fate_of n ms) eqn:Em; [left; apply B4; discriminate|]. right. apply C4; auto. }
  destruct (T b Hp Hb) as (_ & T'). destruct (T' Eh') as (u & l & _ & B2 & _ & B4). eauto.
Qed.

(* ---- A server's connection behaves like that ---- *)
Lemma step_drops c i d : d_pc d <> PDead -> d_pc (dstep c i d) <> PDead \/ exists d1 r, dstep c i d = d_drop (dlog d1 [LReturn r]).
Proof.
  intros Hp. assert (forall d e, exists d1 r, d_fail c d e = d_drop (dlog d1 [LReturn r])) as T by (intros; unfold d_fail, d_complete; destruct (recv_error _ _ _); eauto).
  assert (forall d1 k, exists d2 r, match take_error (d_conn d1) with (k', Ok _) => d_complete (dset_conn d1 k') None | (k', Err e) => d_fail c (dset_conn d1 k') e end = d_drop (dlog d2 [LReturn r]) \/ k = true) as T2.
  { intros. unfold take_error. destruct (k_error (d_conn d1)); [destruct (T (dset_conn d1 (set_error (d_conn d1) None)) c0) as (d2 & r & E); eauto|unfold d_complete; eauto]. }
  destruct (step_return c i d Hp) as [(A & _)|(r & (A & _) & _)]; [now left|]. right. unfold dstep in *. destruct (d_pc d) as [|n|n|n wr|n| | |] eqn:Ep; try contradiction.
  - discriminate A.
  - pose proof (poll_read_pc c i d) as Hd. destruct (poll_read_it c i d) as [d' [|[|[u|e]]]]; cbn [fst] in *; auto; try discriminate A. congruence.
  - pose proof (poll_write_pc c i d) as Hd. destruct (poll_write_it c i d) as [d' [|[|[u|e]]]]; cbn [fst] in *; auto; try discriminate A. congruence.
  - destruct (d_flush c i d) as [d' [|[u|e]]]; auto; unfold wants_read_again in *; exfalso; cbn [d_pc dset_pc] in A; destruct (k_notify (d_conn d')); [unfold next_round in A; destruct n as [|[|n]]; discriminate A|destruct (can_write_again d' && _); discriminate A|unfold next_round in A; destruct n as [|[|n]]; discriminate A|destruct (can_write_again d' && _); discriminate A].
  - pose proof (poll_write_pc c i d) as Hd. destruct (poll_write_it c i d) as [d' [|[|[u|e]]]]; cbn [fst] in *; auto; exfalso.
    + congruence.
    + cbn in A. destruct (has_buffered_write (d_conn d')); discriminate A.
    + cbn in A. unfold next_round in A; destruct n as [|[|n]]; discriminate A.
  - destruct (d_flush c i d) as [d' [|[u|e]]]; auto; discriminate A.
  - destruct (d_is_done c d); [|discriminate A]. destruct (pending_upgrade (d_conn d)) as [k up]. destruct up.
    + destruct (T2 (dset_conn d k) false) as (d2 & r2 & [E|E]); [eauto|discriminate E].
    + destruct (wb_flush _ _ _ _) as [[[w ev] sent] r3]. destruct r3 as [|[u|e]]; [discriminate A| |auto]. destruct (i_shutdown i) as [|[u'|e']]; [discriminate A| |auto].
      match goal with |- exists _ _, match take_error (d_conn ?d1) with _ => _ end = _ => destruct (T2 d1 false) as (d2 & r2 & [E|E]); [eauto|discriminate E] end.
Qed.
Definition after_end (e : levent) : bool := match e with LIn _ | LReturn _ => false | _ => true end.
Lemma drop_quiet d : exists l, k_log (d_conn (d_drop d)) = k_log (d_conn d) ++ l /\ forallb after_end l = true.
Proof.
  rewrite d_drop_eq. cbn [d_conn]. eexists. split; [reflexivity|]. unfold drop_events. rewrite !forallb_app. destruct (d_body_tx d), (d_callback d); cbn [forallb after_end andb]; induction (ch_queue (d_chan d)); auto.
Qed.
Lemma after_end_nret l : forallb after_end l = true -> forallb nret l = true.
Proof. induction l as [|e l IH]; cbn; [auto|]. intros H. apply andb_prop in H. destruct H as (A & A'). rewrite (IH A'). destruct e; try discriminate A; reflexivity. Qed.
Lemma course_app auto s a b : course auto s (a ++ b) = course auto s a ++ course auto (s || existsb (fun e => match e with LShutdown => true | _ => false end) a) b.
Proof.
  revert s. induction a as [|e a IH]; intros s; cbn [app course existsb]; [now rewrite orb_false_r|].
  destruct e; try (match goal with o : option cerr |- _ => destruct o end); cbn [course orb]; rewrite ?IH, ?app_assoc, ?orb_true_r; try reflexivity.
Qed.
Section Course.
  Variables (c : cfg) (h09 flat : bool) (wmax : N) (evs : list event).
  Hypothesis Hs : c_server c = true.
  Let st ms := after c h09 flat wmax evs ms.
  Let hist ms := history c h09 flat wmax evs ms.
  Lemma end_last ms a r b : hist ms = a ++ LReturn r :: b -> forallb after_end b = true.
  Proof.
    revert a b. induction ms as [|m ms IH] using rev_ind; intros a b E; [destruct a; discriminate E|].
    assert (hist (ms ++ [m]) = k_log (d_conn (dmove c m (st ms)))) as Em by (unfold hist, history; rewrite run_app; reflexivity). rewrite Em in E.
    destruct (match d_pc (st ms) with PDead => true | _ => false end) eqn:Ed.
    { assert (d_pc (st ms) = PDead) as Hd by (destruct (d_pc (st ms)); try discriminate Ed; reflexivity). destruct (dead_stays c m (st ms) Hd) as (_ & A'). rewrite A' in E. exact (IH _ _ E). }
    assert (d_pc (st ms) <> PDead) as Hp by (intros F; rewrite F in Ed; discriminate Ed). clear Ed.
    destruct (DD_all c h09 flat wmax evs Hs ms) as [Hd|(_ & Hn)]; [contradiction|]. change (forallb nret (k_log (d_conn (st ms))) = true) in Hn.
    destruct m as [i|e]; cbn [dmove] in E.
    - destruct (step_drops c i (st ms) Hp) as [Hd|(d1 & r1 & Hd)].
      + destruct (step_return c i (st ms) Hp) as [(_ & l & L1 & L2)|(r' & (F & _) & _)]; [|contradiction]. exfalso. rewrite L1 in E. apply (nret_in (k_log (d_conn (st ms)) ++ l) r); [now rewrite forallb_app, Hn, L2|]. rewrite E. apply in_or_app. right. now left.
      + destruct (step_return c i (st ms) Hp) as [(F & _)|(r' & (_ & x & y & X & X1 & X2) & _)]; [destruct F; rewrite Hd, d_drop_eq; reflexivity|].
        destruct (drop_quiet (dlog d1 [LReturn r1])) as (l & L1 & L2). rewrite <- Hd in L1. cbn [k_log log dlog d_conn dset_conn] in L1. rewrite <- app_assoc in L1. cbn [app] in L1.
        assert (forallb nret (k_log (d_conn (st ms)) ++ x) = true) as Hz by now rewrite forallb_app, Hn, X1. rewrite app_assoc in X.
        pose proof X as Y. rewrite L1 in Y. destruct (one_return _ _ _ _ _ _ Hz X2 (eq_sym Y)) as (E1 & E2).
        pose proof X as Z. rewrite E in Z. destruct (one_return _ _ _ _ _ _ Hz X2 (eq_sym Z)) as (E3 & E4).
        rewrite L1 in E. rewrite E1, E3 in E. apply app_inv_head in E. injection E as _ ->. exact L2.
    - exfalso. destruct (env_return c e (st ms)) as (l & L1 & L2). rewrite L1 in E. apply (nret_in (k_log (d_conn (st ms)) ++ l) r); [rewrite forallb_app, L2, andb_true_r; exact Hn|]. rewrite E. apply in_or_app. right. now left.
  Qed.
  Lemma course_quiet auto s b : forallb after_end b = true -> course auto s b = [].
  Proof. revert s. induction b as [|e b IH]; intros s H; [reflexivity|]. cbn in H. apply andb_prop in H. destruct H as (A & A'). destruct e; try discriminate A; cbn; auto. Qed.
  Lemma course_end auto s l x m y : course auto s l = x ++ m :: y -> ending m = true -> exists a r b, l = a ++ LReturn r :: b /\ x = course auto s a /\ course auto s (a ++ [LReturn r]) = x ++ [m].
  Proof.
    revert s x. induction l as [|e l IH]; intros s x E Hm; [destruct x; discriminate E|].
    assert (forall t, course auto s (e :: l) = t ++ course auto (match e with LShutdown => true | _ => s end) l -> (t = [] \/ t = [MAsk]) -> (forall l', course auto s (e :: l') = t ++ course auto (match e with LShutdown => true | _ => s end) l') ->
      exists a r b, e :: l = a ++ LReturn r :: b /\ x = course auto s a /\ course auto s (a ++ [LReturn r]) = x ++ [m]) as Q.
    { intros t E' Ht Hall. rewrite E' in E. destruct Ht as [-> | ->].
      - cbn in E. destruct (IH _ _ E Hm) as (a & r & b & -> & -> & F). exists (e :: a), r, b. split; [reflexivity|]. cbn [app]. rewrite !Hall. auto.
      - destruct x as [|m0 x]; [cbn in E; injection E as <- _; discriminate Hm|]. cbn in E. injection E as <- E. destruct (IH _ _ E Hm) as (a & r & b & -> & -> & F). exists (e :: a), r, b. split; [reflexivity|]. cbn [app]. rewrite !Hall, F. auto. }
    destruct e as [mm| | | | | | | | | | | | | | | | | |r]; try (apply (Q []); [reflexivity|auto|reflexivity]).
    - apply (Q (if in_upgrade mm then [MAsk] else [])); [reflexivity|destruct (in_upgrade mm); auto|reflexivity].
    - destruct x as [|m0 x].
      + exists [], r, l. split; [reflexivity|]. split; [reflexivity|]. destruct r; cbn in E |- *; injection E as -> _; reflexivity.
      + destruct r as [e|]; cbn in E; injection E as E0 E; destruct (IH _ _ E Hm) as (a & r & b & -> & -> & F); [exists (LReturn (Some e) :: a), r, b|exists (LReturn None :: a), r, b]; (split; [reflexivity|]); cbn; rewrite F, <- E0; auto.
  Qed.
  Lemma proper_filter us : proper (filter of_conn us) -> proper us.
  Proof.
    intros H a m b -> Hm. assert (of_conn m = true) as Hc by (destruct m; try discriminate Hm; reflexivity). destruct (H (filter of_conn a) m (filter of_conn b)) as (A & A'); [|exact Hm|].
    { rewrite filter_app. cbn [filter]. now rewrite Hc. }
    split; [destruct A as [A|A]; [now left|right; apply filter_In in A; apply A]|]. intros m' F. destruct (of_conn m') eqn:E; [|reflexivity]. rewrite <- E. apply A', filter_In. auto.
  Qed.
  (* Whatever the peer, the application and the scheduler do, and whatever is done with the
     OnUpgrades meanwhile, a server's connection ends once, asks for nothing after that, and hands
     over or lets fetch only what was asked for. *)
  Theorem C71_course auto ms us : of_history auto (hist ms) us -> proper us.
  Proof.
    intros H. apply proper_filter.
    assert (proper (course auto false (hist ms))) as P.
    { intros x m y E Hm. destruct (course_end _ _ _ _ _ _ E Hm) as (a & r & b & El & -> & F). pose proof (end_last _ _ _ _ El) as Hb.
      replace (a ++ LReturn r :: b) with ((a ++ [LReturn r]) ++ b) in El by (now rewrite <- app_assoc). rewrite El, course_app, F, (course_quiet _ _ _ Hb), app_nil_r in E. apply app_inv_head in E. injection E as <-. split; [|intros m' []].
      rewrite course_app in F. apply app_inv_head in F. destruct r as [e|]; cbn in F; [injection F as <-; now left|]. destruct (existsb _ a) eqn:Es; [injection F as <-; now left|]. right.
      destruct (C64_only_asked c h09 flat wmax evs Hs ms a) as (mm & Hin & Hu).
      { split; [exists b; unfold hist in El; rewrite El, <- app_assoc; reflexivity|]. intros G. assert (existsb (fun e => match e with LShutdown => true | _ => false end) a = true); [|congruence]. apply existsb_exists. exists LShutdown. auto. }
      apply in_split in Hin. destruct Hin as (a1 & a2 & ->). rewrite course_app. apply in_or_app. right. cbn. rewrite Hu. now left. }
    destruct H as [->|(Hn & ->)]; [exact P|].
    intros x m y E Hm. destruct y as [|m' y] using rev_ind.
    - apply app_inj_tail in E. destruct E as (_ & <-). split; [now left|intros m' []].
    - exfalso. rewrite app_comm_cons, app_assoc in E. apply app_inj_tail in E. destruct E as (E & _). destruct (course_end _ _ _ _ _ _ E Hm) as (a & r & b & El & _). rewrite El, existsb_app in Hn. cbn in Hn. rewrite orb_true_r in Hn. discriminate Hn.
  Qed.
  (* The OnUpgrade of the last request that asked gets the transport, exactly when the
     connection leaves it open; those of the requests before it are told that it is canceled. *)
  Lemma after_filter n us : after_ask n (filter of_conn us) = match after_ask n us with Some r => Some (filter of_conn r) | None => None end.
  Proof. revert n. induction us as [|m us IH]; intros n; [reflexivity|]. destruct m; cbn; auto. destruct n; auto. Qed.
  Lemma fate_filter n us : fate_of n (filter of_conn us) = fate_of n us.
  Proof.
    unfold fate_of. rewrite after_filter. destruct (after_ask n us) as [r|]; [|reflexivity]. induction r as [|m r IH]; [reflexivity|]. destruct m; cbn; auto.
  Qed.
  Lemma asks_filter us : asks (filter of_conn us) = asks us.
  Proof. unfold asks. induction us as [|m us IH]; [reflexivity|]. destruct m; cbn; auto. Qed.
  Lemma filter_proper us : proper us -> proper (filter of_conn us).
  Proof.
    intros P x m y E Hm. revert x y E. induction us as [|u us IH] using rev_ind; intros x y E; [destruct x; discriminate E|]. rewrite filter_app in E. cbn [filter] in E.
    pose proof (proper_snoc _ _ P) as (P1 & P2 & P3). destruct (of_conn u) eqn:Hu; [|rewrite app_nil_r in E; exact (IH P1 x y E)].
    destruct (rev y) as [|y0 y'] eqn:Ey.
    - assert (y = []) as -> by (rewrite <- (rev_involutive y), Ey; reflexivity). apply app_inj_tail in E. destruct E as (<- & <-). destruct (P us u [] eq_refl Hm) as (A & _). split; [destruct A as [A|A]; [now left|right; apply filter_In; auto]|intros m' []].
    - assert (y = rev y' ++ [y0]) as -> by (rewrite <- (rev_involutive y), Ey; reflexivity). exfalso. rewrite app_comm_cons, app_assoc in E. apply app_inj_tail in E. destruct E as (E & <-).
      assert (In m (filter of_conn us)) as F by (rewrite E; apply in_or_app; right; now left). apply filter_In in F. destruct F as (F & _). assert (existsb ending us = true) as G by (apply existsb_exists; eauto). rewrite (P2 eq_refl) in G. discriminate G.
  Qed.
  Theorem C71_server auto ms us a n : filter of_conn us = course auto false (hist ms) -> handed_over (hist ms) a -> (n < asks us)%nat ->
    fate_of n us = if (S n =? asks us)%nat then Some (if auto then FUpgraded else FManual) else Some FCanceled.
  Proof.
    intros H ((b & El) & Hns) Hn. assert (proper us) as P by (apply (C71_course auto ms); now left). pose proof (WI_all _ P) as W.
    pose proof (end_last _ _ _ _ El) as Hb. replace (a ++ LReturn None :: b) with ((a ++ [LReturn None]) ++ b) in El by (now rewrite <- app_assoc). unfold hist in H, El. rewrite El, course_app, (course_quiet _ _ _ Hb), app_nil_r, course_app in H.
    assert (existsb (fun e => match e with LShutdown => true | _ => false end) a = false) as Es.
    { destruct (existsb _ a) eqn:E; [|reflexivity]. apply existsb_exists in E. destruct E as (e & E1 & E2). destruct e; try discriminate E2. contradiction. }
    rewrite Es in H. cbn [orb course] in H. set (f := course auto false a) in *. set (m := if auto then MFulfil else MManual) in *.
    pose proof (filter_proper _ P) as P'.
    assert (asks f = asks us) as Ea by (rewrite <- (asks_filter us), H, asks_snoc; subst m; destruct auto; cbn; lia).
    rewrite <- (fate_filter n us), H, fate_snoc by lia. rewrite H in P'. apply proper_snoc in P'. destruct P' as (P1 & P2 & _). specialize (P2 ltac:(subst m; destruct auto; reflexivity)).
    pose proof (WI_all _ P1) as W1. pose proof (wi_fate _ _ W1 n ltac:(lia)) as F. rewrite (wi_live _ _ W1), P2 in F. cbn [negb] in F. rewrite Ea in F.
    destruct (S n =? asks us)%nat eqn:E.
    - apply Nat.eqb_eq in E. rewrite (proj2 F (conj E eq_refl)). subst m. destruct auto; reflexivity.
    - apply Nat.eqb_neq in E. destruct (fate_of n f) as [g|] eqn:Eg; [|destruct (proj1 F eq_refl); congruence]. f_equal.
      assert (forall m, In m f -> ending m = false) as Hne. { intros m' Hm'. destruct (ending m') eqn:E'; [|reflexivity]. rewrite <- P2. symmetry. apply existsb_exists. eauto. }
      clear - Eg Hne. unfold fate_of in Eg. assert (forall l, (forall m, In m l -> ending m = false) -> forall g, fate_in l = Some g -> g = FCanceled) as T.
      { induction l as [|x l IH]; intros Hl g' E; [discriminate E|]. destruct x; cbn in E; try (apply IH; [intros; apply Hl; now right|exact E]); try (pose proof (Hl _ (or_introl eq_refl)) as F; discriminate F). congruence. }
      assert (forall l n r, after_ask n l = Some r -> forall m, In m r -> In m l) as T2.
      { induction l as [|x l IH]; intros k r E m Hm; [discriminate E|]. destruct x; cbn in E; try (right; eapply IH; eassumption). destruct k; [injection E as ->; now right|right; eapply IH; eassumption]. }
      destruct (after_ask n f) as [r|] eqn:Er; [|discriminate Eg]. apply (T r); [|exact Eg]. intros m' Hm'. eauto.
  Qed.
End Course.

(* ---- Findings ---- *)
(* "Every task that waits for an OnUpgrade is woken": false for clones, as they share one
   receiver and so one place for a waker.  The first of two tasks sleeps for ever. *)
Definition C71_all_woken : Prop := forall a h n w b, proper (a ++ MPoll h w :: b) -> nth_error (x_holders (urun a)) h = Some (HOn n) -> fate_of n a = None ->
  (forall w', ~ In (MPoll h w') b) -> nth_error (x_holders (urun (a ++ MPoll h w :: b))) h = Some (HOn n) -> fate_of n (a ++ MPoll h w :: b) <> None ->
  In w (x_woken (urun (a ++ MPoll h w :: b))).
Lemma proper_one a m : (forall x, In x a -> ending x = false) -> m = MEnd \/ In MAsk a -> proper (a ++ [m]).
Proof.
  intros Ha Hm x y z E Hy. destruct (rev z) as [|z0 z'] eqn:Ez.
  - assert (z = []) as -> by (rewrite <- (rev_involutive z), Ez; reflexivity). apply app_inj_tail in E. destruct E as (-> & ->). split; [exact Hm|intros m' []].
  - assert (z = rev z' ++ [z0]) as -> by (rewrite <- (rev_involutive z), Ez; reflexivity). rewrite app_comm_cons, app_assoc in E. apply app_inj_tail in E. destruct E as (-> & _). rewrite Ha in Hy; [discriminate Hy|]. apply in_or_app. right. now left.
Qed.
Lemma proper_more a b : proper a -> (forall x, In x b -> of_conn x = false) -> proper (a ++ b).
Proof.
  intros Ha Hb x m z E Hm. apply app_eq_app in E. destruct E as (l & [(-> & E)|(-> & E)]).
  - destruct l as [|y l]; [cbn in E; assert (of_conn m = false) as F by (apply Hb; rewrite <- E; now left); destruct m; discriminate|]. injection E as <- ->. destruct (Ha x m l eq_refl Hm) as (A & A'). split; [exact A|]. intros m' F. apply in_app_or in F. destruct F; auto.
  - assert (of_conn m = false) as F by (apply Hb; rewrite E; apply in_or_app; right; now left). destruct m; discriminate.
Qed.
Ltac no_end := let x := fresh in let F := fresh in intros x F; repeat (destruct F as [<-|F]; [reflexivity|]); destruct F.
Theorem C71_all_woken_refuted : ~ C71_all_woken.
Proof.
  intros H. specialize (H [MAsk; MClone 0] 0%nat 0%nat 1 [MPoll 1 2; MFulfil]). cbn [app] in H. assert (In 1 (x_woken (urun [MAsk; MClone 0; MPoll 0 1; MPoll 1 2; MFulfil]))) as F.
  - apply H; try reflexivity; [|intros w' F; repeat (destruct F as [F|F]; [discriminate F|]); destruct F|discriminate]. apply (proper_one [_; _; _; _] MFulfil); [no_end|right; now left].
  - vm_compute in F. destruct F as [F|[]]. discriminate F.
Qed.
(* "The poll of an OnUpgrade that has not given anything yet does not panic": false for
   clones.  The second clone panics with the receiver's lock held, the third one because of that. *)
Definition C71_never_panics : Prop := forall ms h n w, proper ms -> nth_error (x_holders (urun ms)) h = Some (HOn n) ->
  (forall r, ~ In (h, Some n, r) (x_seen (urun ms))) -> ~ In (h, Some n, UPanic) (x_seen (urun (ms ++ [MPoll h w]))).
Theorem C71_never_panics_refuted : ~ C71_never_panics.
Proof.
  intros H. apply (H [MAsk; MClone 0; MFulfil; MPoll 0 1] 1%nat 0%nat 2).
  - apply (proper_more [_; _; _] [_]); [apply (proper_one [_; _] MFulfil); [no_end|right; now left]|no_end].
  - reflexivity.
  - intros r F. vm_compute in F. destruct F as [F|[]]. discriminate F.
  - vm_compute. right. now left.
Qed.
Example C71_poisoned : x_seen (urun [MAsk; MClone 0; MClone 0; MFulfil; MPoll 0 1; MPoll 1 2; MPoll 2 3]) = [(0%nat, Some 0%nat, UOk); (1%nat, Some 0%nat, UPanic); (2%nat, Some 0%nat, UPanic)].
Proof. reflexivity. Qed.
(* "Only a message that the application answered by a switch of protocols gets the
   transport": false.  The OnUpgrade of a request that was answered by 200 waits through the next
   exchange, and gets the transport when the client closes (C64_declined_refuted). *)
Theorem C71_declined_refuted : exists evs ms us a, c_server up_cfg = true /\ of_history true (up_hist evs ms) us /\ In (0%nat, Some 0%nat, UOk) (x_seen (urun us)) /\ handed_over (up_hist evs ms) a /\
  forall x h bs y code rs, a = x ++ LHead false h bs :: y -> o_subject h = OResponse code rs -> ~ switching (last_in x) code.
Proof.
  destruct declined_hist as (a & Ha & Q). exists declined_evs, (steps 60 (answer ok200)), [MAsk; MPoll 0 1; MFulfil; MPoll 0 1], a. split; [reflexivity|]. split; [left; vm_compute; reflexivity|]. split; [vm_compute; right; now left|]. split; [exact Ha|].
  intros x h bs y code rs E Ho Hw. destruct (Q _ _ _ _ _ _ E Ho) as (-> & L). rewrite L in Hw. destruct Hw as [Hw|(Hw & _)]; discriminate Hw.
Qed.

(* ---- Examples ---- *)
(* Two requests ask, the transport goes to the second; the first is told that it is canceled;
   a third message has no upgrade *)
Definition course_ex : list umove := [MAsk; MAbsent; MPoll 0 7; MAsk; MPoll 2 8; MFulfil].
Example C71_proper_ex : proper course_ex /\ no_clone course_ex /\ asks course_ex = 2%nat /\ fate_of 0 course_ex = Some FCanceled /\ fate_of 1 course_ex = Some FUpgraded /\ x_woken (urun course_ex) = [7; 8] /\ x_io (urun course_ex) = PChan 1.
Proof.
  split; [apply (proper_one [_; _; _; _; _] MFulfil); [no_end|right; now left]|]. split; [intros h F; repeat (destruct F as [F|F]; [discriminate F|]); destruct F|]. repeat split.
Qed.
Example C71_outcome_ex : nth_error (x_holders (urun course_ex)) 0 = Some (HOn 0) /\ nth_error (x_holders (urun course_ex)) 1 = Some HNone /\ nth_error (x_holders (urun course_ex)) 2 = Some (HOn 1) /\
  map (fun h => last (map snd (x_seen (urun (course_ex ++ [MPoll h 9])))) UPending) [0; 1; 2]%nat = [UCanceled; UNoUpgrade; UOk] /\ x_io (urun (course_ex ++ [MPoll 2 9])) = PApp 2 /\ x_io (urun (course_ex ++ [MDrop 2])) = PGone.
Proof. repeat split. Qed.
Example C71_woken_ex : let a := [MAsk; MAbsent; MPoll 0 7; MAsk] in let b := [MFulfil] in course_ex = a ++ MPoll 2 8 :: b /\ nth_error (x_holders (urun a)) 2 = Some (HOn 1) /\ fate_of 1 a = None /\ nth_error (x_holders (urun course_ex)) 2 = Some (HOn 1) /\ fate_of 1 course_ex <> None.
Proof. repeat split. discriminate. Qed.
(* The server of C64_ex *)
Example C71_server_ex : exists a us, let evs := open_with (line (B "GET /chat HTTP/1.1") ++ B "hello") in let ms := steps 60 (answer ok101) in
  filter of_conn us = course true false (up_hist evs ms) /\ handed_over (up_hist evs ms) a /\ asks us = 1%nat /\ In (0%nat, Some 0%nat, UOk) (x_seen (urun us)) /\ In 5 (x_woken (urun us)).
Proof.
  destruct C64_ex as (a & h0 & b0 & H). cbn zeta in H. destruct H as (_ & _ & _ & H & _). exists a, [MAsk; MPoll 0 5; MFulfil; MPoll 0 5]. cbn zeta. split; [vm_compute; reflexivity|]. split; [exact H|]. split; [reflexivity|]. split; vm_compute; auto.
Qed.

Print Assumptions C71_outcome.
Print Assumptions C71_none.
Print Assumptions C71_once.
Print Assumptions C71_transport.
Print Assumptions C71_no_panic.
Print Assumptions C71_woken.
Print Assumptions C71_course.
Print Assumptions C71_server.
Print Assumptions C71_all_woken_refuted.
Print Assumptions C71_never_panics_refuted.
Print Assumptions C71_declined_refuted.
