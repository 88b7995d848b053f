(* Lemmas: how keep-alive, version and the numbers of heads change along every
   execution. *)
From Verif Require Import Base M_Src M_Decode M_HeaderMap M_Headers M_Encode M_Role M_RoleEncode M_Buf M_WriteBuf M_Read M_Conn M_Dispatch S_Conn L_Conn L_Moves L_ConnS L_ConnC.

(* The version of the last head that came in *)
Definition vlast (v : version) (l : list levent) : version :=
  fold_left (fun v e => match e with LIn m => in_version m | _ => v end) l v.
(* The event is compatible with keeping the connection *)
Definition agree (c : cfg) (e : levent) : Prop :=
  match e with
  | LIn m => in_keep m = true
  | LHead _ h _ => c_server c = false -> connection_any_close (o_headers h) = false
  | _ => True
  end.
(* Heads that may still come in, or go out, once keep-alive is off *)
Definition bin (k : conn) : nat := match k_reading k with RInit => 1%nat | _ => 0%nat end.
Definition bout (k : conn) : nat := match k_writing k with WInit => 1%nat | _ => 0%nat end.

(* The response being written is the last one *)
Definition doomed (k : conn) : Prop :=
  k_reading k <> RInit /\ match k_writing k with WClosed => True | WBody e => is_last e = true | _ => False end.
(* What an event that closes the connection means for what follows it ([b]) *)
Definition over (c : cfg) (e : levent) (b : list levent) (k : conn) : Prop :=
  match e with
  | LIn m => in_keep m = false -> k_ka k = KDisabled /\ (count is_LIn b + bin k = 0)%nat /\ (count is_LHead b + bout k <= 1)%nat /\
               (c_server c = false -> count is_LHead b + bout k = 0)%nat
  | LHead _ h _ => connection_any_close (o_headers h) = true ->
               if c_server c then match o_subject h with
                                  | OResponse _ _ => doomed k /\ count is_LIn b = 0%nat /\ count is_LHead b = 0%nat
                                  | ORequest _ _ => True
                                  end
               else k_ka k = KDisabled /\ (count is_LHead b + bout k = 0)%nat /\ (count is_LIn b + bin k <= 1)%nat
  | _ => True
  end.
Definition KL (c : cfg) (l : list levent) (k k' : conn) : Prop :=
  k_log k' = k_log k ++ l /\
  k_version k' = vlast (k_version k) l /\
  (k_ka k = KDisabled -> k_ka k' = KDisabled /\ (count is_LIn l + bin k' <= bin k)%nat /\ (count is_LHead l + bout k' <= bout k)%nat) /\
  (k_ka k' <> KDisabled -> k_ka k <> KDisabled /\ Forall (agree c) l) /\
  (doomed k -> doomed k' /\ count is_LIn l = 0%nat /\ count is_LHead l = 0%nat) /\
  (forall a e b, l = a ++ e :: b -> over c e b k').
Definition K0 c k k' : Prop := exists l, KL c l k k' /\ count is_LHead l = 0%nat /\ (k_writing k = WClosed -> k_writing k' = WClosed).
Definition K c k k' : Prop := exists l, KL c l k k'.

Lemma count_app f a b : count f (a ++ b) = (count f a + count f b)%nat.
Proof. unfold count. rewrite filter_app, app_length. reflexivity. Qed.
Lemma vlast_app v a b : vlast v (a ++ b) = vlast (vlast v a) b.
Proof. unfold vlast. apply fold_left_app. Qed.

Lemma app_cons_split {T} (x y a b : list T) e : x ++ y = a ++ e :: b ->
  (exists b', x = a ++ e :: b' /\ b = b' ++ y) \/ (exists a', a = x ++ a' /\ y = a' ++ e :: b).
Proof.
  revert a. induction x as [|z x IH]; intros a H; cbn in H.
  - right. exists a. auto.
  - destruct a as [|z' a]; cbn in H.
    + inversion H. subst. left. exists x. auto.
    + inversion H as [[H1 H2]]. subst z'. destruct (IH a H2) as [(b' & E1 & E2)|(a' & E1 & E2)].
      * left. exists b'. rewrite E1. auto.
      * right. exists a'. rewrite E1. auto.
Qed.
Lemma KL_trans c a b k k' k'' : KL c a k k' -> KL c b k' k'' -> KL c (a ++ b) k k''.
Proof.
  intros (L1 & V1 & D1 & A1 & O1 & S1) (L2 & V2 & D2 & A2 & O2 & S2). unfold KL. rewrite !count_app, vlast_app.
  split; [rewrite L2, L1; symmetry; apply app_assoc|]. split; [congruence|]. split; [|split; [|split]].
  - intros H. destruct (D1 H) as (H1 & I1 & Q1). destruct (D2 H1) as (H2 & I2 & Q2). split; [exact H2|]. lia.
  - intros H. destruct (A2 H) as (H1 & F2). destruct (A1 H1) as (H0 & F1). split; [exact H0|]. apply Forall_app. auto.
  - intros H. destruct (O1 H) as (H1 & I1 & Q1). destruct (O2 H1) as (H2 & I2 & Q2). split; [exact H2|]. lia.
  - intros x e y H. destruct (app_cons_split _ _ _ _ _ H) as [(b' & E1 & ->)|(a' & -> & E2)]; [|eapply S2, E2].
    specialize (S1 _ _ _ E1). destruct e; cbn in *; auto.
    + intros Hk. destruct (S1 Hk) as (P & Q & R0 & R). destruct (D2 P) as (P' & Q' & R'). split; [exact P'|]. rewrite !count_app.
      split; [lia|]. split; [lia|]. intros Hs. specialize (R Hs). lia.
    + intros Hk. specialize (S1 Hk). destruct (c_server c).
      * destruct (o_subject h); [|exact I]. destruct S1 as (P & Q). destruct (O2 P) as (P' & Q' & Q''). split; [exact P'|]. rewrite !count_app. lia.
      * destruct S1 as (P & Q). destruct (D2 P) as (P' & R1 & R'). split; [exact P'|]. rewrite !count_app. lia.
Qed.
Lemma over_nil c k : forall a e b, [] = a ++ e :: b -> over c e b k.
Proof. intros [|? a] e b H; discriminate. Qed.
Lemma KL_refl c k : KL c [] k k.
Proof.
  unfold KL. rewrite app_nil_r. split; [reflexivity|]. split; [reflexivity|]. split; [intros H; cbn; auto|]. split; [intros H; auto|].
  split; [auto|apply over_nil].
Qed.
Lemma K0_refl c k : K0 c k k.
Proof. exists []. split; [apply KL_refl|]. split; [reflexivity|auto]. Qed.
Lemma K0_trans c k k' k'' : K0 c k k' -> K0 c k' k'' -> K0 c k k''.
Proof.
  intros (a & A & A0 & A1) (b & B' & B0 & B1). exists (a ++ b). split; [eapply KL_trans; eassumption|]. rewrite count_app. split; [lia|auto].
Qed.
Lemma K_trans c k k' k'' : K c k k' -> K c k' k'' -> K c k k''.
Proof. intros (a & A) (b & B'). exists (a ++ b). eapply KL_trans; eassumption. Qed.
Lemma K0_K c k k' : K0 c k k' -> K c k k'.
Proof. intros (l & H & _). exists l. exact H. Qed.

Lemma plain_over c l k : count is_LIn l = 0%nat -> count is_LHead l = 0%nat -> forall a e b, l = a ++ e :: b -> over c e b k.
Proof.
  intros Hi Ho a e b ->. rewrite count_app in Hi, Ho. destruct e; cbn; auto; unfold count in *; cbn in *; lia.
Qed.
Lemma K0_events c k k' l : k_log k' = k_log k ++ l -> k_version k' = k_version k ->
  count is_LIn l = 0%nat -> count is_LHead l = 0%nat ->
  (k_ka k = KDisabled -> k_ka k' = KDisabled /\ (bin k' <= bin k)%nat /\ (bout k' <= bout k)%nat) ->
  (doomed k -> doomed k') -> (k_writing k = WClosed -> k_writing k' = WClosed) ->
  K0 c k k'.
Proof.
  intros H1 H2 Hi Ho H3 H4 H5. exists l. split; [|split; [exact Ho|exact H5]]. unfold KL. split; [exact H1|].
  assert (vlast (k_version k) l = k_version k /\ Forall (agree c) l) as (E & A).
  { clear - Hi Ho. generalize (k_version k). induction l as [|e l IH]; intros v; [split; [reflexivity|constructor]|].
    unfold count in *. cbn in Hi, Ho. destruct e; cbn in Hi, Ho; try discriminate;
      (destruct (IH Hi Ho v) as (P & Q); split; [exact P|constructor; [exact I|exact Q]]). }
  split; [congruence|]. split; [|split; [|split]].
  - intros F. destruct (H3 F) as (P & Q & R). split; [exact P|]. lia.
  - intros H. split; [|exact A]. intros F. destruct (H3 F). auto.
  - auto.
  - now apply plain_over.
Qed.
Lemma K0_silent c k k' : k_log k' = k_log k -> k_version k' = k_version k ->
  (k_ka k = KDisabled -> k_ka k' = KDisabled /\ (bin k' <= bin k)%nat /\ (bout k' <= bout k)%nat) ->
  (doomed k -> doomed k') -> (k_writing k = WClosed -> k_writing k' = WClosed) ->
  K0 c k k'.
Proof. intros H1 H2 H3 H4 H5. apply K0_events with (l := []); auto. now rewrite app_nil_r. Qed.
Ltac ksame := apply K0_silent; [reflexivity|reflexivity|intros F; cbn; auto|exact (fun x => x)|exact (fun x => x)].

Lemma K0_st_close c k : K0 c k (st_close k).
Proof. apply K0_silent; auto; [intros _; cbn; repeat split; apply Nat.le_0_l|]. intros _. split; [discriminate|exact I]. Qed.
Lemma K0_close_read c k : K0 c k (close_read k).
Proof.
  apply K0_silent; auto; [intros _; cbn; repeat split; [apply Nat.le_0_l|apply Nat.le_refl]|].
  intros [_ H]. split; [discriminate|exact H].
Qed.
Lemma K0_close_write c k : K0 c k (close_write k).
Proof.
  apply K0_silent; auto; [intros _; cbn; repeat split; [apply Nat.le_refl|apply Nat.le_0_l]|].
  intros [H _]. split; [exact H|exact I].
Qed.
Lemma K0_idle c k : k_ka k = KBusy -> k_writing k = WKeepAlive -> K0 c k (idle c k).
Proof.
  intros H Hw. apply K0_silent.
  - unfold idle. destruct (c_server c), (c_timeout c); reflexivity.
  - unfold idle. destruct (c_server c), (c_timeout c); reflexivity.
  - congruence.
  - intros [_ F]. rewrite Hw in F. contradiction.
  - congruence.
Qed.
Lemma K0_st_try c k : K0 c k (st_try_keep_alive c k).
Proof.
  unfold st_try_keep_alive.
  destruct (k_reading k); try apply K0_refl; destruct (k_writing k) eqn:Ew; try apply K0_refl; try apply K0_st_close.
  destruct (k_ka k) eqn:Ek; try apply K0_st_close. now apply K0_idle.
Qed.
Lemma K0_set_rd c k x : K0 c k (set_rd k x).
Proof. ksame. Qed.
Lemma K0_set_notify c k x : K0 c k (set_notify k x).
Proof. ksame. Qed.
Lemma K0_set_error c k x : K0 c k (set_error k x).
Proof. ksame. Qed.
Lemma K0_set_wb c k x : K0 c k (set_wb k x).
Proof. ksame. Qed.
Lemma K0_set_upgrade c k x : K0 c k (set_upgrade k x).
Proof. ksame. Qed.
Lemma K0_set_timer c k x y : K0 c k (set_timer k x y).
Proof. ksame. Qed.
Lemma K0_read_io c k : K0 c k (fst (read_io k)).
Proof. unfold read_io. destruct (r_read_io (k_rd k)). apply K0_set_rd. Qed.
Lemma K0_maybe_notify c blk k : K0 c k (maybe_notify blk k).
Proof.
  unfold maybe_notify. destruct (k_reading k) eqn:Er; try apply K0_refl.
  pose proof (K0_read_io c k) as H'.
  destruct (k_writing k) eqn:Ew; try apply K0_refl;
  (destruct blk; [apply K0_refl|]; destruct (r_buf (k_rd k)); [|apply K0_set_notify];
   destruct (read_io k) as [k' [|[n|e]]]; cbn [fst] in H';
   [exact H'| |eapply K0_trans; [exact H'|]; eapply K0_trans; [apply K0_st_close|]; eapply K0_trans; [apply K0_set_error|apply K0_set_notify]];
   destruct (n =? 0); [|eapply K0_trans; [exact H'|apply K0_set_notify]];
   (eapply K0_trans; [exact H'|]); destruct (is_idle k'); [apply K0_st_close|apply K0_close_read]).
Qed.
Lemma K0_try c blk k : K0 c k (try_keep_alive c blk k).
Proof. eapply K0_trans; [apply K0_st_try|apply K0_maybe_notify]. Qed.

Definition plain (e : levent) : bool := negb (is_LIn e) && negb (is_LHead e).
Lemma plain_counts l : forallb plain l = true -> count is_LIn l = 0%nat /\ count is_LHead l = 0%nat.
Proof.
  unfold count. induction l as [|e l IH]; [auto|]. cbn. intros H. apply andb_prop in H. destruct H as [He Hl].
  destruct (IH Hl). unfold plain in He. apply andb_prop in He. destruct He as [H1 H2].
  destruct (is_LIn e), (is_LHead e); cbn in *; try discriminate. auto.
Qed.
Lemma K0_plain c k l : forallb plain l = true -> K0 c k (log k l).
Proof.
  intros H. destruct (plain_counts l H). apply K0_events with (l := l); auto.
Qed.
Lemma quiet_plain l : forallb quiet l = true -> forallb plain l = true.
Proof.
  induction l as [|e l IH]; [auto|]. cbn. intros H. apply andb_prop in H. destruct H as [He Hl]. rewrite (IH Hl).
  destruct e; try discriminate; reflexivity.
Qed.

(* Heads going out *)
Definition says_keep_alive (h : ohead) : Prop :=
  exists v, hm_get (o_headers h) (B "connection") = Some v /\ connection_keep_alive v = true.
Definition old_version (v : version) : Prop := v = HTTP10 \/ v = HTTP11.

Lemma any_close_insert_ka m : connection_any_close (hm_insert m (B "connection") (B "keep-alive")) = false.
Proof. unfold connection_any_close. rewrite hm_get_all_insert. reflexivity. Qed.

Lemma enforce_ka c k h :
  let (k', h') := enforce_version k h in
  (k_ka k = KDisabled -> k_ka k' = KDisabled) /\
  (k_ka k' <> KDisabled -> k_ka k <> KDisabled) /\
  (k_ka k' <> KDisabled -> connection_any_close (o_headers h) = false -> agree c (LHead false h' [])) /\
  (k_version k = HTTP10 -> o_version h' = HTTP10 /\
     (old_version (o_version h) -> k_ka k' <> KDisabled -> says_keep_alive h')).
Proof.
  unfold enforce_version, fix_keep_alive, says_keep_alive.
  remember (match hm_get (o_headers h) (B "connection") with Some v => connection_keep_alive v | None => false end) as og eqn:Eo.
  destruct (k_version k) eqn:Ev; try (split; [auto|]; split; [auto|]; split; [cbn; auto|discriminate]).
  - destruct og.
    + split; [auto|]. split; [auto|]. split; [cbn; auto|]. intros _. split; [reflexivity|]. intros _ _. change (o_headers (o_set_version h HTTP10)) with (o_headers h).
      destruct (hm_get (o_headers h) (B "connection")) as [v|]; [exists v; split; [reflexivity|now symmetry]|discriminate].
    + destruct (o_version h) eqn:Eh; try (split; [auto|]; split; [auto|]; split; [cbn; auto|]; intros _; split; [reflexivity|];
        intros [F|F]; discriminate).
      * split; [auto|]. split; [cbn; congruence|]. split; [cbn; auto|]. intros _. split; [reflexivity|]. cbn. congruence.
      * destruct (wants_keep_alive k) eqn:Ewk.
        -- split; [auto|]. split; [auto|]. split; [cbn; intros; apply any_close_insert_ka|]. intros _. split; [reflexivity|].
           intros _ _. exists (B "keep-alive"). cbn [o_set_version o_set_headers o_headers]. unfold hm_get. rewrite hm_get_all_insert. split; reflexivity.
        -- split; [auto|]. split; [auto|]. split; [cbn; auto|]. intros _. split; [reflexivity|]. intros _ Hn.
           unfold wants_keep_alive in Ewk. destruct (k_ka k); try discriminate. congruence.
  - destruct (k_ka k) eqn:Ek; (split; [intros; congruence|]; split; [intros; congruence|]; split; [cbn; intros; (congruence || auto)|discriminate]).
Qed.

(* A response that says close is the last one *)
Lemma s_last_line w s n v : s_last (s_line w s n v) = s_last s.
Proof. unfold s_line. destruct (write_name _ _ _). reflexivity. Qed.
Lemma s_last_open w s n v : s_last (s_open w s n v) = s_last s.
Proof. unfold s_open. destruct (write_name _ _ _). reflexivity. Qed.
Lemma s_last_join w s n v : s_last (s_join w s n v) = s_last s.
Proof. unfold s_join. destruct (s_written s); [reflexivity|apply s_last_open]. Qed.
Lemma s_last_allow s v : s_last (s_allow s v) = s_last s.
Proof. unfold s_allow. destruct (to_str v); reflexivity. Qed.
Lemma s_value_last m w name value s s' : s_value m w name value s = Some s' ->
  s_last s = true \/ name = B "connection" /\ connection_close value = true -> s_last s' = true.
Proof.
  unfold s_value. intros H Hl.
  destruct (beq name (B "content-length")) eqn:E1.
  { destruct Hl as [Hl|[-> _]]; [|discriminate].
    destruct (_ && _) in H; [discriminate|]. destruct (m_body m) as [[n|]|].
    - destruct (s_written s); inversion H; subst; auto. cbn. now rewrite s_last_open.
    - destruct (content_length_parse value); [|discriminate]. destruct (s_prev s); [destruct (negb _) in H; [discriminate|]|]; inversion H; subst; auto.
      cbn. now rewrite s_last_open.
    - destruct (method_is _ _); inversion H; subst; auto. now rewrite s_last_line. }
  destruct (beq name (B "transfer-encoding")) eqn:E2.
  { destruct Hl as [Hl|[-> _]]; [|discriminate].
    destruct (_ && _) in H; [discriminate|]. destruct (_ || _) in H; [inversion H; subst; auto|].
    match type of H with (if ?b then _ else _) = _ => destruct b end; inversion H; subst; auto. now rewrite s_last_open. }
  destruct (beq name (B "connection")) eqn:E3.
  { inversion H. rewrite s_last_join. destruct Hl as [Hl|[_ Hl]]; rewrite Hl; cbn.
    - now destruct (connection_close value).
    - destruct (s_last s) eqn:El; cbn; auto. }
  destruct Hl as [Hl|[-> _]]; [|discriminate].
  destruct (beq name (B "date")); [inversion H; subst; now rewrite s_last_line|].
  destruct (beq name (B "trailer")); [|inversion H; subst; now rewrite s_last_line].
  destruct (_ || _) in H; inversion H; subst; auto. now rewrite s_last_allow, s_last_join.
Qed.
Lemma s_values_last m w name vs : forall s s', s_values m w name vs s = Some s' ->
  s_last s = true \/ name = B "connection" /\ existsb connection_close vs = true -> s_last s' = true.
Proof.
  induction vs as [|v vs IH]; intros s s' H Hl; cbn in H.
  - inversion H. subst. destruct Hl as [Hl|[_ Hl]]; [exact Hl|discriminate].
  - destruct (s_value m w name v s) as [s1|] eqn:E1; [|discriminate]. apply (IH _ _ H).
    destruct Hl as [Hl|[Hn Hl]]; [left; eapply s_value_last; eauto|].
    cbn in Hl. destruct (connection_close v) eqn:Ev; [left; eapply s_value_last; eauto|right; auto].
Qed.
Lemma s_headers_last m w h : forall s s', s_headers m w h s = Some s' ->
  s_last s = true \/ connection_any_close h = true -> s_last s' = true.
Proof.
  unfold connection_any_close. induction h as [|[n vs] h IH]; intros s s' H Hl; cbn in H.
  - inversion H. subst. destruct Hl as [Hl|Hl]; [exact Hl|discriminate].
  - destruct (s_values m w n vs (s_new_name s)) as [s1|] eqn:E1; [|discriminate]. apply (IH _ _ H).
    destruct Hl as [Hl|Hl].
    + left. eapply s_values_last; [exact E1|]. left. unfold s_new_name. destruct (s_written s); exact Hl.
    + cbn [hm_get_all] in Hl. destruct (beq n (B "connection")) eqn:En; [|right; exact Hl].
      left. eapply s_values_last; [exact E1|]. right. split; [now apply beq_eq|exact Hl].
Qed.
Lemma server_last reason date m out e : server_encode reason date m = (out, Ok e) ->
  m_keep_alive m = false \/ connection_any_close (m_headers m) = true -> is_last e = true.
Proof.
  unfold server_encode. intros H Hk.
  assert (forall w line last wl out' e', encode_headers m w date line last wl = Some (out', e') ->
    last = true \/ connection_any_close (m_headers m) = true -> is_last e' = true) as Q.
  { unfold encode_headers. intros w line last wl out' e' H' Hl.
    destruct (s_headers _ _ _ _) as [s|] eqn:Eh; [|discriminate]. apply s_headers_last in Eh; [|exact Hl].
    unfold s_finish in H'. inversion H' as [[H1 H2]]. clear H' H1 H2. cbn.
    match goal with |- s_last ?x = true => assert (s_last x = s_last s) as Ex end; [|rewrite Ex; exact Eh].
    assert (s_last (s_default_len m w (s_new_name s)) = s_last s) as Ed.
    { assert (s_last (s_new_name s) = s_last s) as En by (unfold s_new_name; destruct (s_written s); reflexivity).
      unfold s_default_len. destruct (s_wrote_len (s_new_name s)); [exact En|].
      destruct (m_body m) as [[[|n]|]|]; repeat match goal with |- context [if ?b then _ else _] => destruct b end; cbn; rewrite ?s_last_line; exact En. }
    destruct (negb _ && _); rewrite ?s_last_line; exact Ed. }
  destruct (m_status m =? 101).
  - destruct (status_line reason m); [|discriminate]. destruct (encode_headers _ _ _ _ _ _) as [[o e1]|] eqn:Ee; [|discriminate].
    inversion H. subst. eapply Q; eauto.
  - destruct (_ && _).
    + destruct (status_line reason m); [|discriminate]. destruct (encode_headers _ _ _ _ _ _) as [[o e1]|] eqn:Ee; [|discriminate].
      inversion H. subst. eapply Q; eauto.
    + destruct (is_informational (m_status m)).
      * destruct (status_line reason _); [|discriminate]. destruct (encode_headers _ _ _ _ _ _) as [[o e1]|]; discriminate.
      * destruct (status_line reason m); [|discriminate]. destruct (encode_headers _ _ _ _ _ _) as [[o e1]|] eqn:Ee; [|discriminate].
        inversion H. subst. eapply Q; [exact Ee|]. destruct Hk as [->|Hk]; auto.
Qed.

Lemma enforce_subject k h : o_subject (snd (enforce_version k h)) = o_subject h.
Proof.
  unfold enforce_version, fix_keep_alive.
  remember (match hm_get (o_headers h) (B "connection") with Some v => connection_keep_alive v | None => false end) as og eqn:Eo. clear Eo.
  destruct (k_version k); try reflexivity; [|destruct (k_ka k); reflexivity].
  destruct og; [reflexivity|]. destruct (o_version h); try reflexivity. destruct (wants_keep_alive k); reflexivity.
Qed.
Lemma write_head_ka c auto k h body : k_writing k = WInit -> (c_server c = true -> k_reading k <> RInit) ->
  let k' := write_head c auto k h body in
  exists l, KL c l k k' /\ k_reading k' = k_reading k /\ k_writing k' <> WInit /\
  ((exists out, l = [LHeadFail out] /\ k_writing k' = WClosed) \/
   exists h' out, (l = [LHead auto h' out] \/ l = [LHead auto h' out; LEnd]) /\ o_subject h' = o_subject h /\
     (k_version k = HTTP10 -> o_version h' = HTTP10 /\
        (old_version (o_version h) -> k_ka k' <> KDisabled -> says_keep_alive h'))).
Proof.
  intros Hw Hrd. cbn zeta. unfold write_head, encode_head.
  set (k0 := if c_server c then k else _).
  assert (k_log k0 = k_log k /\ k_reading k0 = k_reading k /\ k_version k0 = k_version k /\
    (k_ka k = KDisabled -> k_ka k0 = KDisabled) /\ (k_ka k0 <> KDisabled -> k_ka k <> KDisabled) /\
    (k_ka k0 <> KDisabled -> c_server c = false -> connection_any_close (o_headers h) = false)) as (A & B' & C & D & F & G).
  { subst k0. destruct (c_server c).
    - split; [auto|]. split; [auto|]. split; [auto|]. split; [auto|]. split; [auto|discriminate].
    - unfold busy, st_disable_keep_alive. destruct (connection_any_close (o_headers h)) eqn:Ec, (k_ka k) eqn:Ek; cbn; rewrite ?Ek;
        (split; [reflexivity|]; split; [reflexivity|]; split; [reflexivity|]; split; [congruence|]; split; [congruence|congruence]). }
  clearbody k0.
  pose proof (enforce_frame k0 h) as Q. pose proof (enforce_ka c k0 h) as R. pose proof (enforce_subject k0 h) as Hsub.
  destruct (enforce_version k0 h) as [k1 h1]. cbn [snd] in Hsub.
  destruct Q as (A1 & B1 & C1 & _ & _ & _ & V1 & _). destruct R as (D1 & F1 & G1 & H1).
  assert (bout k = 1%nat) as Hbo by (unfold bout; now rewrite Hw).
  assert (bin k1 = bin k) as Hbi by (unfold bin; now rewrite B1, B').
  assert (~ doomed k) as Hnd by (intros [_ X]; rewrite Hw in X; exact X).
  assert (k_ka k1 <> KDisabled -> agree c (LHead auto h1 [])) as Hag.
  { intros Hn. cbn. intros Hs. apply (G1 Hn); [|exact Hs]. apply G; auto. }
  destruct (t_encode c k1 h1 body) as [[out m] [e|e]] eqn:Et.
  - set (k' := log _ (if enc_is_eof e then [LEnd] else [])).
    exists (LHead auto h1 out :: (if enc_is_eof e then [LEnd] else [])).
    assert (k_writing k' = after_head e) as Ew by reflexivity.
    assert (k_ka k' = k_ka k1) as Ek by reflexivity.
    assert (k_reading k' = k_reading k) as Er by (unfold k'; cbn; congruence).
    assert (k_writing k' <> WInit) as Hn.
    { rewrite Ew. unfold after_head. destruct (enc_is_eof e); [destruct (is_last e)|]; discriminate. }
    assert (bout k' = 0%nat) as Hbo' by (unfold bout; destruct (k_writing k'); congruence).
    split; [|split; [exact Er|split; [exact Hn|]]].
    + unfold KL. split; [|split; [|split; [|split; [|split]]]].
      * unfold k'. cbn. rewrite A1, A, <- app_assoc. reflexivity.
      * unfold k'. cbn. rewrite V1, C. destruct (enc_is_eof e); reflexivity.
      * intros Hd. rewrite Ek. split; [auto|]. rewrite Hbo'.
        assert (bin k' = bin k) as -> by exact Hbi. rewrite Hbo. unfold count. destruct (enc_is_eof e); cbn; lia.
      * rewrite Ek. intros Hd. split; [auto|]. constructor; [cbn; apply (Hag Hd)|]. destruct (enc_is_eof e); repeat constructor.
      * intros X. contradiction.
      * intros a e' b Hl.
        assert (e' = LHead auto h1 out /\ (b = [] \/ b = [LEnd]) \/ e' = LEnd) as [[-> Hb]| ->]; [| |exact I].
        { destruct a as [|x a]; cbn in Hl; inversion Hl as [[X1 X2]]; [left; split; auto; destruct (enc_is_eof e); auto|].
          right. destruct (enc_is_eof e); [|destruct a; discriminate]. destruct a as [|y a]; cbn in X2; inversion X2; [reflexivity|]. destruct a; discriminate. }
        cbn. intros Hc. destruct (c_server c) eqn:Hs.
        -- destruct (o_subject h1) as [st rs|] eqn:Eo; [|exact I]. split; [|destruct Hb as [-> | ->]; split; reflexivity].
           split; [rewrite Er; auto|]. rewrite Ew. unfold t_encode in Et. rewrite Eo in Et.
           destruct (server_encode _ _ _) as [o [e1|x]] eqn:Es; inversion Et. subst.
           apply server_last in Es; [|right; exact Hc]. unfold after_head. destruct (enc_is_eof e); rewrite ?Es; [exact I|exact Es].
        -- split; [|split; [destruct Hb as [-> | ->]; rewrite Hbo'; reflexivity|destruct Hb as [-> | ->]; unfold bin; destruct (k_reading k'); apply Nat.leb_le; reflexivity]].
           change (k_ka k1 = KDisabled). destruct (k_ka k1) eqn:Ek1; [| |reflexivity];
           (assert (connection_any_close (o_headers h1) = false) by (apply Hag; [discriminate|exact Hs]); congruence).
    + right. exists h1, out. split; [destruct (enc_is_eof e); auto|]. split; [exact Hsub|]. rewrite Ek, <- C. exact H1.
  - set (k' := log _ [LHeadFail out]). exists [LHeadFail out].
    assert (k_ka k' = k_ka k1) as Ek by reflexivity.
    assert (k_writing k' = WClosed) as Ew by reflexivity.
    split; [|split; [|split; [rewrite Ew; discriminate|]]].
    + unfold KL. split; [|split; [|split; [|split; [|split]]]].
      * unfold k'. cbn. rewrite A1, A. reflexivity.
      * unfold k'. cbn. congruence.
      * intros Hd. rewrite Ek. split; [auto|]. assert (bout k' = 0%nat) as -> by reflexivity.
        assert (bin k' = bin k) as -> by exact Hbi. rewrite Hbo. unfold count. cbn. lia.
      * rewrite Ek. intros Hd. split; [auto|]. repeat constructor.
      * intros X. contradiction.
      * intros a e' b Hl. assert (e' = LHeadFail out) as ->; [|exact I].
        destruct a as [|x a]; cbn in Hl; inversion Hl as [[X1 X2]]; [reflexivity|]. destruct a; discriminate.
    + unfold k'. cbn. congruence.
    + left. exists out. split; [reflexivity|exact Ew].
Qed.

(* Body parts going out *)
Lemma K0_effect c k k' : k_version k' = k_version k -> (doomed k -> doomed k') -> body_effect k k' -> K0 c k k'.
Proof.
  intros Hv Hd [->|(e & l & w' & Ew & Er & El & Ew' & Ek & F)]; [apply K0_refl|].
  assert (forallb plain l = true) as Hp.
  { destruct F as [(bs & -> & _)|[[Hl _]|[Hl _]]]; [reflexivity|..]; destruct Hl as [->|(bs & ->)]; reflexivity. }
  destruct (plain_counts l Hp). apply K0_events with (l := l); auto.
  - intros Hk. split; [congruence|]. unfold bin, bout. rewrite Er, Ew', Ew. split; [lia|].
    destruct F as [(bs & _ & e' & ->)|[[_ [-> | ->]]|[_ ->]]]; lia.
  - congruence.
Qed.

Lemma k_buffer_version room k b : k_version (k_buffer room k b) = k_version k.
Proof. unfold k_buffer. destruct (wb_buffer _ _ _); reflexivity. Qed.
Lemma encode_buf_last v e b : is_last (fst (encode_buf v e b)) = is_last e.
Proof. unfold encode_buf. destruct (ekind e); try reflexivity. destruct (_ <? _); reflexivity. Qed.
Lemma K0_write_body c room k b : K0 c k (k_write_body c room k b).
Proof.
  apply K0_effect; [| |apply write_body_effect]; unfold k_write_body; destruct (k_writing k) eqn:Ew; try reflexivity; try exact (fun x => x).
  - destruct (encode_buf _ _ _) as [e' eb]. destruct (negb _); cbn; apply k_buffer_version.
  - pose proof (encode_buf_last (c_take_vec c) e b) as Hl. destruct (encode_buf _ _ _) as [e' eb]. cbn [fst] in Hl.
    pose proof (k_buffer_frame room k eb) as (A & B' & C & D). intros [H1 H2]. rewrite Ew in H2.
    split; [destruct (negb _); cbn; congruence|]. destruct (negb _); cbn; [congruence|]. rewrite Hl, H2. exact I.
Qed.
Lemma K0_write_trailers c room k t : K0 c k (k_write_trailers c room k t).
Proof.
  apply K0_effect; [| |apply write_trailers_effect]; unfold k_write_trailers; (destruct (_ && _); [reflexivity || exact (fun x => x)|]);
    destruct (k_writing k) eqn:Ew; try reflexivity; try exact (fun x => x);
    (destruct (encode_trailers _ _ _); [|reflexivity || exact (fun x => x)]).
  - cbn. apply k_buffer_version.
  - match goal with |- context [k_buffer room k ?b] => pose proof (k_buffer_frame room k b) as (A & B' & C & D) end.
    intros [H1 H2]. rewrite Ew in H2. split; cbn; [congruence|]. rewrite H2. exact I.
Qed.
Lemma K0_write_body_and_end c room k b : K0 c k (k_write_body_and_end c room k b).
Proof.
  apply K0_effect; [| |apply write_body_and_end_effect]; unfold k_write_body_and_end; destruct (k_writing k) eqn:Ew; try reflexivity; try exact (fun x => x).
  - cbn. apply k_buffer_version.
  - match goal with |- context [k_buffer room k ?b] => pose proof (k_buffer_frame room k b) as (A & B' & C & D) end.
    intros [H1 H2]. rewrite Ew in H2. split; cbn; [congruence|]. rewrite H2. destruct (ekind e); rewrite ?andb_false_r; exact I.
Qed.
Lemma K0_end_body c room k : K0 c k (fst (k_end_body room k)).
Proof.
  apply K0_effect; [| |apply end_body_effect]; unfold k_end_body; destruct (k_writing k) eqn:Ew; try reflexivity; try exact (fun x => x).
  - destruct (enc_end e) as [[|b out]|u]; cbn; auto. apply k_buffer_version.
  - intros [H1 H2]. rewrite Ew in H2. pose proof (k_buffer_frame room k end_buf) as (A & B' & C & D).
    destruct (enc_end e) as [[|b out]|u]; (split; cbn; [congruence|]); rewrite ?H2; exact I.
Qed.

(* Reading *)
Lemma K0_got_head c blk k m : k_reading k = RInit -> (c_server c = false -> k_writing k <> WInit) -> K0 c k (got_head c blk k m).
Proof.
  intros Er Hwi. unfold got_head.
  set (k1 := log _ [LIn m]).
  assert (k_log k1 = k_log k ++ [LIn m] /\ k_writing k1 = k_writing k /\ k_version k1 = in_version m /\
    k_ka k1 = if in_keep m then match k_ka k with KDisabled => KDisabled | _ => KBusy end else KDisabled) as (P1 & P2 & P3 & P4).
  { subst k1. unfold busy. destruct (c_server c), (in_keep m), (k_ka k) eqn:Ek; cbn; rewrite ?Ek; auto. }
  clearbody k1.
  assert (forall r, bin (set_reading k1 r) = 0%nat -> K0 c k (set_reading k1 r)) as A'.
  { intros r Hr. exists [LIn m]. split; [|split; [reflexivity|cbn; congruence]]. unfold KL. cbn [set_reading k_log k_version k_ka]. rewrite P1, P3, P4.
    split; [reflexivity|]. split; [reflexivity|]. split; [|split; [|split]].
    - intros Hd. rewrite Hd. split; [destruct (in_keep m); reflexivity|]. rewrite Hr. unfold bin at 1, bout. cbn [k_writing set_reading]. rewrite Er, P2.
      unfold count. cbn. lia.
    - destruct (in_keep m) eqn:Eq; [|congruence]. destruct (k_ka k); intros Hd; try congruence; (split; [discriminate|constructor; [exact Eq|constructor]]).
    - intros [X _]. congruence.
    - intros a e b Hl. destruct a as [|x a]; [|destruct a; discriminate]. inversion Hl. subst e b. cbn. intros Hk. rewrite P4, Hk.
      split; [reflexivity|]. split; [rewrite Hr; reflexivity|]. split; [change (count is_LHead []) with 0%nat; unfold bout; destruct (k_writing (set_reading k1 r)); apply Nat.leb_le; reflexivity|]. intros Hs. unfold bout, count. cbn. rewrite P2.
      specialize (Hwi Hs). destruct (k_writing k); congruence. }
  assert (K0 c k (log (set_reading k1 RKeepAlive) [LInEnd])) as H0.
  { eapply K0_trans; [apply (A' RKeepAlive); reflexivity|now apply K0_plain]. }
  match goal with |- K0 c k (set_trailers ?x _) => assert (K0 c k x) as H2 end.
  { destruct (in_decode m =? DL_ZERO).
    - destruct (c_server c); [exact H0|]. eapply K0_trans; [exact H0|apply K0_try].
    - destruct (_ && _); apply A'; reflexivity. }
  eapply K0_trans; [exact H2|]. ksame.
Qed.

Lemma K0_move c k r l : forallb plain l = true -> (match r with RInit => False | _ => True end) -> K0 c k (log (set_reading k r) l).
Proof.
  intros H Hr. destruct (plain_counts l H). apply K0_events with (l := l); auto.
  - intros Hd. split; [exact Hd|]. unfold bin, bout. cbn. split; [|lia]. destruct r; try contradiction; apply Nat.le_0_l.
  - intros [_ Hd]. split; [cbn; destruct r; try contradiction; discriminate|exact Hd].
 
Qed.
Lemma K0_move0 c k r : (match r with RInit => False | _ => True end) -> K0 c k (set_reading k r).
Proof. intros Hr. pose proof (K0_move c k r [] eq_refl Hr) as H. now rewrite log_nil in H. Qed.
Lemma K0_read_body_state c blk k d : K0 c k (fst (read_body_state c blk k d)).
Proof.
  unfold read_body_state, k_decode.
  destruct (decode (c_dt c) d _) as [[d' s] r].
  set (k1 := set_rd k _). assert (K0 c k k1) as H1 by apply K0_set_rd. clearbody k1.
  eapply K0_trans; [exact H1|]. clear H1.
  destruct r as [|[[x|t]|e]].
  - cbn [fst]. now apply K0_move0.
  - destruct (is_eof d').
    + destruct x as [|b x]; cbn [fst app]; (eapply K0_trans; [|apply K0_try]); now apply K0_move.
    + destruct x as [|b x]; cbn [fst]; [(eapply K0_trans; [|apply K0_try]); now apply K0_move0|now apply K0_move].
  - cbn [fst]. (eapply K0_trans; [|apply K0_try]); now apply K0_move.
  - cbn [fst]. (eapply K0_trans; [|apply K0_try]); now apply K0_move.
Qed.
Lemma K0_poll_read_body c blk k : K0 c k (fst (k_poll_read_body c blk k)).
Proof.
  unfold k_poll_read_body. destruct (k_reading k) eqn:Er; try apply K0_refl; [|apply K0_read_body_state].
  eapply K0_trans; [|apply K0_read_body_state]. eapply K0_trans; [|now apply K0_move0].
  destruct (k_writing k); try apply K0_refl. eapply K0_trans; [apply K0_set_wb|now apply K0_plain].
Qed.
Lemma K0_drain c blk k : K0 c k (drain_or_close_read c blk k).
Proof.
  unfold drain_or_close_read. set (k1 := match k_reading k with RContinue d => _ | _ => k end).
  assert (K0 c k k1) as H1 by (subst k1; destruct (k_reading k); try apply K0_refl; now apply K0_move0).
  assert (K0 c k (fst (k_poll_read_body c blk k1))) as H2 by (eapply K0_trans; [exact H1|apply K0_poll_read_body]).
  destruct (k_reading (fst (k_poll_read_body c blk k1))); try exact H2; (eapply K0_trans; [exact H2|apply K0_close_read]).
Qed.
Lemma K0_keep_alive_read c k : K0 c k (fst (k_poll_read_keep_alive c k)).
Proof.
  unfold k_poll_read_keep_alive, mid_message_detect_eof, require_empty_read, force_io_read.
  pose proof (K0_read_io c k) as H1.
  destruct (is_read_closed k); [apply K0_refl|]. destruct (is_mid_message k).
  - destruct (_ || _); [apply K0_refl|]. destruct (read_io k) as [k' [|[n|e]]]; cbn [fst] in *; [exact H1| |eapply K0_trans; [exact H1|apply K0_st_close]].
    destruct (n =? 0); [eapply K0_trans; [exact H1|apply K0_close_read]|exact H1].
  - destruct (r_buf (k_rd k)); [|apply K0_refl]. destruct (read_io k) as [k' [|[n|e]]]; cbn [fst] in *; [exact H1| |eapply K0_trans; [exact H1|apply K0_st_close]].
    destruct (n =? 0); [eapply K0_trans; [exact H1|apply K0_close_read]|exact H1].
Qed.
Lemma K0_flush c blk wevs k : K0 c k (fst (k_poll_flush c blk wevs k)).
Proof.
  unfold k_poll_flush. destruct (wb_flush _ _ _ _) as [[[w ev] sent] r].
  assert (K0 c k (log (set_wb k w) (match sent with [] => [] | _ => [LSent sent] end))) as H1.
  { eapply K0_trans; [apply K0_set_wb|]. destruct sent; now apply K0_plain. }
  destruct r as [|[u|e]]; cbn [fst]; [exact H1|eapply K0_trans; [exact H1|apply K0_try]|exact H1].
Qed.
Lemma K0_disable c k : K0 c k (k_disable_keep_alive k).
Proof. unfold k_disable_keep_alive. destruct (is_idle k); [apply K0_st_close|]. apply K0_silent; auto. Qed.

(* A property of the connection that is kept when no head goes out, and when one
   goes out at the right time *)
Definition vmsg (V : ohead -> Prop) (i : inp) : Prop :=
  match i_msg i with Ready (Ok (h, _)) => V h | _ => True end /\ V (fst (i_req i)).
(* The head of an automatic error response *)
Definition auto_head (h : ohead) : Prop := exists st p, h = mkO HTTP11 (OResponse st None) [] None /\ server_on_error p = Some st.
(* It closes the connection *)
Lemma auto_headers k h : auto_head h -> k_ka k = KDisabled ->
  let (k', h') := enforce_version k h in
  k_ka k' = KDisabled /\ o_case h' = None /\ (o_version h' = HTTP10 \/ o_version h' = HTTP11) /\ o_subject h' = o_subject h /\
  (o_headers h' = [] \/ o_headers h' = [(B "connection", [B "close"])]).
Proof.
  intros (st & p & -> & _) Hk. unfold enforce_version, fix_keep_alive, wants_keep_alive. cbn [o_headers o_version hm_get hm_get_all].
  destruct (k_version k); rewrite ?Hk; cbn; auto 10.
Qed.
Lemma auto_finish m w date s : m_body m = None -> s_wrote_len s = false -> s_last s = true -> after_head (snd (s_finish m w date s)) = WClosed.
Proof.
  intros Hb Hw Hl. unfold s_finish, s_default_len. rewrite Hw, Hb. cbn [s_enc s_set_enc].
  assert ((if can_have_body (m_method m) (m_status m) then enc_length 0 else enc_length 0) = enc_length 0) as -> by (destruct (can_have_body _ _); reflexivity).
  cbn [snd]. destruct (can_have_implicit_zero_content_length _ _); destruct (negb _ && _); cbn; rewrite ?s_last_line; cbn; rewrite ?s_last_line; rewrite Hl; reflexivity.
Qed.
Lemma auto_encode reason date v st method hs dh tc : (v = HTTP10 \/ v = HTTP11) -> st = 400 \/ st = 414 \/ st = 431 ->
  hs = [] \/ hs = [(B "connection", [B "close"])] ->
  exists out e, server_encode reason date (mkSmsg v st method None hs false dh tc None None) = (out, Ok e) /\ after_head e = WClosed.
Proof.
  intros Hv Hst Hh. unfold server_encode, status_line. cbn [m_status m_version m_method m_keep_alive m_case m_title_case m_reason].
  assert (st =? 101 = false /\ is_success st = false /\ is_informational st = false) as (A & B' & C).
  { destruct Hst as [->|[->| ->]]; repeat split; reflexivity. }
  rewrite A, B', C, andb_false_r. cbv beta iota zeta. cbn [negb m_status m_version m_case m_title_case m_reason].
  match goal with |- context [if tc then ?x else ?y] => remember (if tc then x else y) as w eqn:Ew end. clear Ew.
  assert (forall dst, exists s, s_headers (mkSmsg v st method None hs false dh tc None None) w hs (mkEs dst (enc_length 0) None false false false None false true None) = Some s
    /\ s_wrote_len s = false /\ s_last s = true) as Hs.
  { intros dst. destruct Hh as [-> | ->]; cbn.
    - eexists. split; [reflexivity|]. auto.
    - eexists. split; [reflexivity|]. unfold s_join, s_open. cbn. destruct (write_name _ _ _). auto. }
  assert (forall line, exists out e, encode_headers (mkSmsg v st method None hs false dh tc None None) w date line true false = Some (out, e) /\ after_head e = WClosed) as Q.
  { intros dst. unfold encode_headers. cbn [m_headers]. destruct (Hs dst) as (s & -> & Hw & Hl).
    pose proof (auto_finish (mkSmsg v st method None hs false dh tc None None) w date (s_new_name s) eq_refl Hw Hl) as Q.
    destruct (s_finish _ _ _ _) as [out e]. exists out, e. auto. }
  destruct Hv as [-> | ->].
  - match goal with |- context [encode_headers ?m w date ?ln true false] => destruct (Q ln) as (out & e & -> & He) end. eauto.
  - match goal with |- context [encode_headers ?m w date ?ln true false] => destruct (Q ln) as (out & e & -> & He) end. eauto.
Qed.
Lemma auto_status st p : server_on_error p = Some st -> st = 400 \/ st = 414 \/ st = 431.
Proof. destruct p; cbn; intros E; inversion E; auto. Qed.
Lemma write_auto c k h : c_server c = true -> auto_head h -> k_ka k = KDisabled ->
  let k' := write_head c true k h None in
  k_writing k' = WClosed /\ exists h' out, (k_log k' = k_log k ++ [LHead true h' out; LEnd]) /\ o_subject h' = o_subject h.
Proof.
  intros Hs Ha Hk. cbn zeta. unfold write_head, encode_head. rewrite Hs.
  pose proof (auto_headers k h Ha Hk) as Q. pose proof (enforce_frame k h) as R. destruct (enforce_version k h) as [k1 h1].
  destruct Q as (Q1 & Q0 & Q2 & Q3 & Q4). destruct R as (R1 & _). destruct Ha as (st & p & -> & Hp). cbn in Q3.
  unfold t_encode. rewrite Q3, Q0. assert (wants_keep_alive k1 = false) as -> by (unfold wants_keep_alive; now rewrite Q1).
  destruct (auto_encode (c_reason c) (c_date c) (o_version h1) st (k_method k1) (o_headers h1) (c_date_header c) (c_title c) Q2 (auto_status _ _ Hp) Q4)
    as (out & e & -> & He).
  cbn [k_writing k_log log set_writing set_method set_wb]. split; [exact He|].
  exists h1, out. rewrite R1, Q3, <- app_assoc. split; [|reflexivity].
  unfold after_head in He. destruct (enc_is_eof e); [reflexivity|discriminate].
Qed.
Section KMoves.
  Variable c : cfg.
  Variable V : ohead -> Prop.
  Variable P : conn -> Prop.
  Hypothesis Vauto : forall h, auto_head h -> V h.
  Hypothesis HP0 : forall k k', P k -> K0 c k k' -> P k'.
  Hypothesis HPw : forall auto k h body, P k -> k_writing k = WInit ->
    (if c_server c then k_reading k <> RInit else auto = false /\ k_reading k = RInit /\ k_ka k <> KDisabled) ->
    V h -> (auto = true -> auto_head h /\ body = None /\ k_ka k = KDisabled) -> P (write_head c auto k h body).

  Lemma P_read_head_error k e : P k -> P (fst (on_read_head_error c k e)).
  Proof.
    intros H. unfold on_read_head_error.
    set (k1 := set_rd (close_read k) _).
    assert (P k1) as H1 by (eapply HP0; [exact H|eapply K0_trans; [apply K0_close_read|apply K0_set_rd]]).
    destruct (_ || _).
    - unfold on_parse_error. destruct (k_writing k1) eqn:Ew; try exact H1. destruct (has_h2_prefix k1); [exact H1|].
      unfold t_on_error. destruct (c_server c) eqn:Hs; [|exact H1].
      destruct e; try exact H1. destruct (server_on_error _) eqn:Eso; [|exact H1]. cbn [fst].
      eapply HP0; [|apply K0_set_error]. apply HPw; [exact H1|exact Ew|discriminate|apply Vauto; repeat eexists; eauto|]. intros _. split; [|split; reflexivity]. repeat eexists; eauto.
    - cbn [fst]. eapply HP0; [exact H1|apply K0_close_write].
  Qed.
  Lemma P_poll_read_head now blk k : P k -> k_reading k = RInit -> (c_server c = false -> k_writing k <> WInit) ->
    P (fst (k_poll_read_head c now blk k)).
  Proof.
    intros H Er Hwi. unfold k_poll_read_head.
    assert (P (start_timer c now k) /\ k_reading (start_timer c now k) = RInit /\ k_writing (start_timer c now k) = k_writing k) as (H0 & Er0 & Ew0).
    { unfold start_timer. destruct (k_running k); [auto|]. destruct (c_timeout c); [|auto]. split; [eapply HP0; [exact H|apply K0_set_timer]|auto]. }
    rewrite <- Ew0 in Hwi.
    remember (start_timer c now k) as k0 eqn:E0. clear E0.
    destruct (io_parse _ _ (k_rd k0)) as [rd [|[m|e]]].
    - cbn [k_running k_timer set_rd].
      assert (P (set_rd k0 rd)) as H1 by (eapply HP0; [exact H0|apply K0_set_rd]).
      destruct (k_running k0); [|exact H1]. destruct (k_timer k0) as [t|]; [|exact H1].
      destruct (t <=? now); [|exact H1]. cbn [fst]. eapply HP0; [exact H1|apply K0_set_timer].
    - cbn [fst]. eapply HP0; [|apply K0_got_head; [exact Er0|exact Hwi]]. eapply HP0; [exact H0|apply K0_set_rd].
    - destruct (parse_failure e) as [e' n]. apply P_read_head_error. eapply HP0; [exact H0|]. eapply K0_trans; apply K0_set_rd.
  Qed.

  Definition PInv (d : disp) : Prop := P (d_conn d).
  Lemma PInv_quiet d d' l : d_conn d' = log (d_conn d) l -> forallb quiet l = true -> PInv d -> PInv d'.
  Proof. intros E Hl H. unfold PInv. rewrite E. eapply HP0; [exact H|]. now apply K0_plain, quiet_plain. Qed.
  Lemma PInv_close d : PInv d -> PInv (d_close d).
  Proof. intros H. eapply HP0; [exact H|]. cbn. eapply K0_trans; [apply K0_close_read|apply K0_close_write]. Qed.
  Lemma PInv_drop d : PInv d -> PInv (d_drop d).
  Proof. intros H. eapply PInv_quiet; [rewrite d_drop_eq; reflexivity|apply quiet_drop|exact H]. Qed.

  Lemma P_stable (J : disp -> Prop) : (forall d, J d -> c_server c = true -> d_in_flight d = true -> k_reading (d_conn d) <> RInit) ->
    (forall d, J d -> c_server c = false -> k_writing (d_conn d) = WInit -> (k_reading (d_conn d) = RInit \/ k_reading (d_conn d) = RClosed) /\ (k_ka (d_conn d) = KDisabled -> k_reading (d_conn d) = RClosed)) ->
    stable c (vmsg V) J PInv.
  Proof.
    intros HS HC. apply stable_introJ.
    - intros d tx rx p _ H. exact H.
    - intros d e He _ H. eapply PInv_quiet; [reflexivity| |exact H]. cbn. now rewrite neutral_quiet.
    - intros d _ H. split; [eapply HP0; [exact H|apply K0_set_notify]|]. split; [eapply HP0; [exact H|apply K0_set_upgrade]|].
      split; [|intros w sent; eapply HP0; [exact H|]; eapply K0_trans; [apply K0_set_wb|apply K0_plain; destruct sent; reflexivity]].
      unfold take_error. destruct (k_error (d_conn d)); [eapply HP0; [exact H|apply K0_set_error]|exact H].
    - intros d _ H _. now apply PInv_close.
    - intros i d _ H Hc Hr Hp. unfold d_poll_read_head. rewrite Hp.
      assert (k_reading (d_conn d) = RInit) as Er.
      { unfold can_read_head in Hr. destruct (k_reading (d_conn d)); try discriminate. reflexivity. }
      assert (c_server c = false -> k_writing (d_conn d) <> WInit) as Hwi.
      { intros Hs X. unfold can_read_head in Hr. rewrite Er, Hs, X in Hr. discriminate. }
      pose proof (P_poll_read_head (i_now i) (i_blk i) (d_conn d) H Er Hwi) as Q.
      destruct (k_poll_read_head c (i_now i) (i_blk i) (d_conn d)) as [k r]. cbn [fst] in Q.
      destruct r as [|[[m|e]|]]; cbn [fst].
      + exact Q.
      + match goal with |- context [recv_ok c ?dd m] => assert (PInv dd) as Q1; [|remember dd as d1 eqn:E1; clear E1] end.
        { unfold PInv. change (d_body_tx (dset_conn d k)) with (d_body_tx d).
          assert (P (log k [LBodyEnd])) as Q' by (eapply HP0; [exact Q|now apply K0_plain]).
          destruct (in_decode m =? DL_ZERO), (in_upgrade m), (d_body_tx d); cbn;
          try exact Q; try exact Q'; (eapply HP0; [|apply K0_set_upgrade]); (exact Q || exact Q'). }
        unfold recv_ok. destruct (c_server c); [exact Q1|]. destruct (d_callback d1); [|exact Q1]. cbn [fst].
        eapply PInv_quiet; [reflexivity| |exact Q1]. reflexivity.
      + assert (PInv (dset_conn d k)) as Q1 by exact Q.
        destruct (recv_error_conn c (dset_conn d k) e) as (l & El & Hl).
        destruct (recv_error c (dset_conn d k) e) as [d' b]. cbn [fst] in El.
        assert (PInv d') as Q2 by (eapply PInv_quiet; eassumption).
        destruct b; [exact Q2|now apply PInv_close].
      + destruct (is_write_closed (d_conn (dset_conn d k))); [|exact Q]. apply PInv_close. exact Q.
    - intros i d _ H _ Hb. eapply HP0; [exact H|apply K0_drain].
    - intros i d _ H _ Hb. eapply HP0; [exact H|]. eapply K0_trans; [|apply K0_poll_read_body]. now apply K0_plain.
    - intros d _ H _. eapply HP0; [exact H|apply K0_close_read].
    - intros d _ H _ _ _. eapply HP0; [exact H|apply K0_keep_alive_read].
    - intros i d _ H. eapply HP0; [exact H|apply K0_flush].
    - intros i d [G1 G2] HJ H _ Hw Hsp. unfold d_poll_msg. specialize (HS d HJ). specialize (HC d HJ).
      unfold can_write_head in Hw. unfold should_poll in Hsp.
      destruct (c_server c) eqn:Hs.
      + destruct (i_msg i) as [|[[h body]|u]]; [exact H| |exact H].
        apply HPw; [exact H| |apply HS; auto|exact G1|discriminate].
        cbn in Hw. cbn. destruct (k_writing (d_conn d)); try discriminate. reflexivity.
      + destruct (ch_poll_recv (i_race i) (d_chan d)) as [ch [|[id|]]]; [exact H| |exact H].
        destruct (i_canceled i); [eapply PInv_quiet; [reflexivity| |exact H]; reflexivity|].
        destruct (i_req i) as [h body]. cbn [fst] in G2. cbn in Hw.
        assert (k_writing (d_conn d) = WInit) as Ew.
        { destruct (is_read_closed (d_conn d)); [discriminate|]. destruct (k_writing (d_conn d)); try discriminate. reflexivity. }
        refine (HPw false (log (d_conn d) [LStart id]) h body _ Ew _ G2 _); [| |discriminate].
        * cbn. eapply HP0; [exact H|now apply K0_plain].
        * split; [reflexivity|]. cbn. unfold is_read_closed in Hw. destruct (HC eq_refl Ew) as [R RK].
          assert (k_reading (d_conn d) = RInit) as Er by (destruct R as [R|R]; [exact R|]; rewrite R in Hw; discriminate).
          split; [exact Er|]. intros F. rewrite (RK F) in Er. discriminate.
    - intros i d _ H _. eapply HP0; [exact H|apply K0_end_body].
    - intros i d b _ H _ _. eapply HP0; [exact H|apply K0_write_body].
    - intros i d b _ H _ _. eapply HP0; [exact H|apply K0_write_body_and_end].
    - intros i d t _ H _ _. eapply HP0; [exact H|apply K0_write_trailers].
    - intros d e _ H. destruct (recv_error_conn c d e) as (l & El & Hl). eapply PInv_quiet; eassumption.
    - intros d _ H. now apply PInv_drop.
    - intros e d _ H. destruct e; cbn.
      + destruct (c_server c); exact H.
      + destruct (d_pc d); try exact H. destruct (c_server c); [|exact H]. unfold d_graceful.
        assert (PInv (dset_conn d (k_disable_keep_alive (d_conn d)))) as H1 by (eapply HP0; [exact H|apply K0_disable]).
        destruct (_ || _); [now apply PInv_close|exact H1].
      + destruct (d_pc d); try exact H. now apply PInv_drop.
      + destruct (d_pc d), (k_log (d_conn d)); try exact H. destruct (c_server c); [|exact H]. eapply HP0; [exact H|apply K0_silent; auto].
  Qed.
End KMoves.
