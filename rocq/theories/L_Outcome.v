(* Lemmas: every request of a client has one outcome, in every execution. *)
From Verif Require Import Base M_Src M_Decode M_HeaderMap M_Headers M_Encode M_Role M_RoleEncode M_Buf M_WriteBuf M_Read M_Conn M_Dispatch S_Conn S_Client L_Conn L_Moves L_ConnS L_ConnC L_Ext.

Definition here (cb : option N) (id : N) : nat := match cb with Some j => if j =? id then 1%nat else 0%nat | None => 0%nat end.
Definition inqueue (q : list N) (id : N) : nat := count_occ N.eq_dec q id.

(* The state of the requests *)
Record OI (l : list levent) (ch : chan) (cb : option N) : Prop := {
  oi_tally : forall id, (outcomes id l + inqueue (ch_queue ch) id + here cb id = if (id <? ch_next ch)%N then 1 else 0)%nat;
  oi_start : forall id, In (LStart id) l -> id < ch_next ch /\ ~ In id (ch_queue ch) /\ ~ In (LOutcome id OReturned) l;
  oi_cb : forall id, cb = Some id -> last_start None l = Some id;
  oi_answer : forall id o a b, l = a ++ LOutcome id o :: b -> answered o = true -> last_start None a = Some id;
  oi_resp : forall id m a b, l = a ++ LOutcome id (OResp m) :: b -> last_in None a = Some m;
  oi_head : forall a e b, l = a ++ e :: b -> is_LHead e = true -> exists a' id, a = a' ++ [LStart id]
}.

Lemma split_app {A} (l x a : list A) e b : l ++ x = a ++ e :: b ->
  (exists b', l = a ++ e :: b') \/ (exists a', a = l ++ a' /\ x = a' ++ e :: b).
Proof.
  revert a. induction l as [|y l IH]; intros a E.
  - right. exists a. auto.
  - destruct a as [|z a]; cbn in E.
    + inversion E; subst. left. exists l. reflexivity.
    + inversion E as [[E1 E2]]. subst. destruct (IH a E2) as [(b' & ->)|(a' & -> & ->)]; [left; exists b'; reflexivity|right; exists a'; auto].
Qed.
Lemma count_app' f a b : count f (a ++ b) = (count f a + count f b)%nat.
Proof. unfold count. now rewrite filter_app, app_length. Qed.
Lemma last_start_app acc a b : last_start acc (a ++ b) = last_start (last_start acc a) b.
Proof. revert acc. induction a as [|e a IH]; intros acc; [reflexivity|]. cbn. destruct e; apply IH. Qed.
Lemma last_in_app acc a b : last_in acc (a ++ b) = last_in (last_in acc a) b.
Proof. revert acc. induction a as [|e a IH]; intros acc; [reflexivity|]. cbn. destruct e; apply IH. Qed.
Lemma last_start_in acc l id : last_start acc l = Some id -> acc = Some id \/ In (LStart id) l.
Proof.
  revert acc. induction l as [|e l IH]; intros acc E; [left; exact E|]. cbn in E.
  destruct e; try (destruct (IH _ E) as [->|Q]; [left; reflexivity|right; right; exact Q]).
  destruct (IH _ E) as [Q|Q]; [inversion Q; right; left; reflexivity|right; right; exact Q].
Qed.

(* Events that do not concern requests *)
Definition inert (e : levent) : bool := match e with LStart _ | LOutcome _ _ | LHead _ _ _ | LHeadFail _ => false | _ => true end.
Lemma own_inert l : forallb (own false) l = true -> forallb inert l = true.
Proof. induction l as [|e l IH]; [auto|]. cbn. intros H. apply andb_prop in H. destruct H as [H1 H2]. rewrite (IH H2). destruct e; try discriminate; reflexivity. Qed.
Lemma inert_outcomes id l : forallb inert l = true -> outcomes id l = 0%nat.
Proof. unfold outcomes, count. induction l as [|e l IH]; [auto|]. cbn. intros H. apply andb_prop in H. destruct H as [H1 H2]. rewrite <- (IH H2). destruct e; try discriminate; reflexivity. Qed.
Lemma inert_start acc l : forallb inert l = true -> last_start acc l = acc.
Proof. revert acc. induction l as [|e l IH]; [auto|]. cbn. intros acc H. apply andb_prop in H. destruct H as [H1 H2]. destruct e; try discriminate; apply IH; exact H2. Qed.
Lemma inert_in l e : forallb inert l = true -> In e l -> inert e = true.
Proof. intros H. rewrite forallb_forall in H. apply H. Qed.

Lemma OI_inert l x ch cb : forallb inert x = true -> OI l ch cb -> OI (l ++ x) ch cb.
Proof.
  intros Hx [H1 H2 H3 H4 H5 H6]. constructor.
  - intros id. unfold outcomes. rewrite count_app'. change (count (is_outcome id) x) with (outcomes id x). rewrite (inert_outcomes id x Hx), Nat.add_0_r. apply H1.
  - intros id Hi. apply in_app_or in Hi. destruct Hi as [Hi|Hi]; [|now apply (inert_in _ _ Hx) in Hi].
    destruct (H2 id Hi) as (A & B' & C). repeat split; auto. intros F. apply in_app_or in F. destruct F as [F|F]; [auto|now apply (inert_in _ _ Hx) in F].
  - intros id E. rewrite last_start_app, (inert_start _ _ Hx). now apply H3.
  - intros id o a b E Ha. apply split_app in E. destruct E as [(b' & E)|(a' & -> & E)]; [eauto|].
    assert (inert (LOutcome id o) = true) as F by (apply (inert_in _ _ Hx); rewrite E; apply in_or_app; right; left; reflexivity). discriminate.
  - intros id m a b E. apply split_app in E. destruct E as [(b' & E)|(a' & -> & E)]; [eauto|].
    assert (inert (LOutcome id (OResp m)) = true) as F by (apply (inert_in _ _ Hx); rewrite E; apply in_or_app; right; left; reflexivity). discriminate.
  - intros a e b E Ha. apply split_app in E. destruct E as [(b' & E)|(a' & -> & E)]; [eauto|].
    assert (inert e = true) as F by (apply (inert_in _ _ Hx); rewrite E; apply in_or_app; right; left; reflexivity). destruct e; discriminate.
Qed.

(* The channel *)
Lemma OI_same l ch ch' cb : ch_queue ch' = ch_queue ch -> ch_next ch' = ch_next ch -> OI l ch cb -> OI l ch' cb.
Proof. intros E1 E2 [H1 H2 H3 H4 H5 H6]. constructor; rewrite ?E1, ?E2; assumption. Qed.
Lemma OI_lt l ch cb id : OI l ch cb -> In id (ch_queue ch) -> id < ch_next ch.
Proof.
  intros H Hi. pose proof (oi_tally _ _ _ H id) as T. unfold inqueue in T. apply (count_occ_In N.eq_dec) in Hi.
  destruct (id <? ch_next ch) eqn:E; [now apply N.ltb_lt|]. lia.
Qed.
Lemma OI_push l ch cb : OI l ch cb -> OI l (ch_push ch) cb.
Proof.
  intros H. unfold ch_push. destruct (ch_rx ch); [|eapply OI_same; [..|exact H]; reflexivity].
  pose proof (oi_tally _ _ _ H (ch_next ch)) as T. rewrite N.ltb_irrefl in T.
  pose proof H as [H1 H2 H3 H4 H5 H6]. constructor; cbn; auto.
  - intros id. unfold inqueue. rewrite count_occ_app. cbn. specialize (H1 id). unfold inqueue in H1.
    destruct (N.eq_dec (ch_next ch) id) as [<-|Ne].
    + rewrite N.ltb_irrefl in H1. assert (ch_next ch <? ch_next ch + 1 = true) as -> by (apply N.ltb_lt; lia). lia.
    + replace (id <? ch_next ch + 1) with (id <? ch_next ch); [lia|].
      destruct (id <? ch_next ch) eqn:Q; symmetry; [apply N.ltb_lt in Q; apply N.ltb_lt; lia|apply N.ltb_ge in Q; apply N.ltb_ge; lia].
  - intros id Hi. destruct (H2 id Hi) as (A & B' & C). repeat split; [lia| |exact C].
    intros F. apply in_app_or in F. destruct F as [F|[F|[]]]; [auto|lia].
Qed.
Lemma OI_smake l ch cb s : OI l ch cb -> OI l (smake ch s) cb.
Proof.
  intros H. destruct s; cbn.
  - destruct (_ && _); [|exact H]. unfold ch_give. destruct (_ || _); [|exact H]. eapply OI_same; [..|exact H]; reflexivity.
  - destruct (_ && _); [|exact H]. now apply OI_push.
  - destruct (ch_given ch); [exact H|]. eapply OI_same; [..|exact H]; reflexivity.
Qed.
Lemma OI_race l cb r : forall ch, OI l ch cb -> OI l (fold_left smake r ch) cb.
Proof. induction r as [|s r IH]; intros ch H; [exact H|]. cbn. apply IH, OI_smake, H. Qed.

(* A request is taken from the channel *)
Lemma OI_start l q w o g t r n id : OI l (mkCh (id :: q) w o g t r n) None -> OI (l ++ [LStart id]) (mkCh q w o g t r n) (Some id).
Proof.
  intros H. pose proof (OI_lt _ _ _ id H (or_introl eq_refl)) as Hlt. cbn in Hlt.
  pose proof H as [H1 H2 H3 H4 H5 H6]. cbn in *.
  assert (outcomes id l = 0%nat /\ ~ In id q) as (Z1 & Z2).
  { pose proof (H1 id) as T. unfold inqueue in T. cbn in T. destruct (N.eq_dec id id); [|congruence].
    apply N.ltb_lt in Hlt. rewrite Hlt in T. split; [lia|]. intros F. apply (count_occ_In N.eq_dec) in F. lia. }
  constructor; cbn.
  - intros j. unfold outcomes. rewrite count_app'. cbn. specialize (H1 j). unfold inqueue in *. cbn in H1. unfold outcomes in H1.
    rewrite Nat.add_0_r. destruct (N.eq_dec id j) as [->|Ne]; [rewrite N.eqb_refl; lia|].
    destruct (id =? j) eqn:E; [apply N.eqb_eq in E; congruence|]. lia.
  - intros j Hj. apply in_app_or in Hj. destruct Hj as [Hj|[Hj|[]]].
    + destruct (H2 j Hj) as (A & B' & C). repeat split; auto. intros F. apply in_app_or in F. destruct F as [F|[F|[]]]; [auto|discriminate].
    + inversion Hj; subst j. repeat split; auto. intros F. apply in_app_or in F. destruct F as [F|[F|[]]]; [|discriminate].
      assert (0 < outcomes id l)%nat as Q; [|lia]. unfold outcomes, count.
      assert (In (LOutcome id OReturned) (filter (is_outcome id) l)) as Q by (apply filter_In; split; [exact F|cbn; apply N.eqb_refl]).
      destruct (filter (is_outcome id) l); [destruct Q|cbn; lia].
  - intros j E. inversion E; subst. rewrite last_start_app. reflexivity.
  - intros j o' a b E Ha. apply split_app in E. destruct E as [(b' & E)|(a' & -> & E)]; [eauto|].
    destruct a' as [|? [|]]; discriminate.
  - intros j m a b E. apply split_app in E. destruct E as [(b' & E)|(a' & -> & E)]; [eauto|].
    destruct a' as [|? [|]]; discriminate.
  - intros a e b E Ha. apply split_app in E. destruct E as [(b' & E)|(a' & -> & E)]; [eauto|].
    destruct a' as [|? [|]]; inversion E; subst; discriminate.
Qed.
(* Its head is written *)
Lemma OI_head l id x y ch cb : is_LHead x = true -> forallb inert y = true ->
  OI (l ++ [LStart id]) ch cb -> OI ((l ++ [LStart id]) ++ x :: y) ch cb.
Proof.
  intros Hx Hy H. change (x :: y) with ([x] ++ y). rewrite (app_assoc (l ++ [LStart id])). apply OI_inert; [exact Hy|]. clear Hy y.
  pose proof H as [H1 H2 H3 H4 H5 H6]. constructor.
  - intros j. unfold outcomes. rewrite count_app'. assert (count (is_outcome j) [x] = 0%nat) as -> by (destruct x; try discriminate; reflexivity).
    rewrite Nat.add_0_r. apply H1.
  - intros j Hj. apply in_app_or in Hj. destruct Hj as [Hj|[Hj|[]]]; [|subst x; discriminate].
    destruct (H2 j Hj) as (A & B' & C). repeat split; auto. intros F. apply in_app_or in F. destruct F as [F|[F|[]]]; [auto|subst x; discriminate].
  - intros j E. rewrite last_start_app, (H3 j E). destruct x; try discriminate; reflexivity.
  - intros j o' a b E Ha. apply split_app in E. destruct E as [(b' & E)|(a' & -> & E)]; [eauto|].
    destruct a' as [|? [|]]; inversion E; subst; discriminate.
  - intros j m a b E. apply split_app in E. destruct E as [(b' & E)|(a' & -> & E)]; [eauto|].
    destruct a' as [|? [|]]; inversion E; subst; discriminate.
  - intros a e b E Ha. apply split_app in E. destruct E as [(b' & E)|(a' & -> & E)]; [eauto|].
    destruct a' as [|? [|]]; inversion E; subst; rewrite ?app_nil_r; eauto.
Qed.

(* One outcome for a request that is in the channel or in flight *)
Lemma OI_outcome l ch cb ch' cb' id o : OI l ch cb ->
  ch_next ch' = ch_next ch ->
  (forall j, (inqueue (ch_queue ch') j + here cb' j + (if N.eqb id j then 1 else 0) = inqueue (ch_queue ch) j + here cb j)%nat) ->
  (forall j, cb' = Some j -> cb = Some j) ->
  (forall j, In j (ch_queue ch') -> In j (ch_queue ch)) ->
  (answered o = true -> cb = Some id) ->
  (forall m, o = OResp m -> last_in None l = Some m) ->
  (o = OReturned -> ~ In (LStart id) l) ->
  OI (l ++ [LOutcome id o]) ch' cb'.
Proof.
  intros [H1 H2 H3 H4 H5 H6] En Eq Ecb Sub Ha Hm Hr.
  constructor.
  - intros j. rewrite En, <- (H1 j). unfold outcomes. rewrite count_app'. specialize (Eq j). unfold count at 2. cbn.
    destruct (N.eqb id j); cbn; lia.
  - intros j Hj. rewrite En. apply in_app_or in Hj. destruct Hj as [Hj|[Hj|[]]]; [|discriminate].
    destruct (H2 j Hj) as (A & B' & C). repeat split; auto.
    + intros F. apply in_app_or in F. destruct F as [F|[F|[]]]; [auto|]. inversion F; subst. now apply (Hr eq_refl).
  - intros j E. rewrite last_start_app. cbn. apply H3, Ecb, E.
  - intros j o' a b E Ho. apply split_app in E. destruct E as [(b' & E)|(a' & -> & E)]; [eauto|].
    destruct a' as [|? [|]]; inversion E; subst. rewrite app_nil_r. apply H3, Ha, Ho.
  - intros j m a b E. apply split_app in E. destruct E as [(b' & E)|(a' & -> & E)]; [eauto|].
    destruct a' as [|? [|]]; inversion E; subst. rewrite app_nil_r. now apply Hm.
  - intros a e b E Hh. apply split_app in E. destruct E as [(b' & E)|(a' & -> & E)]; [eauto|].
    destruct a' as [|? [|]]; inversion E; subst; discriminate.
Qed.

(* Dispatcher states *)
Definition OInv (d : disp) : Prop := OI (k_log (d_conn d)) (d_chan d) (d_callback d).
Lemma OInv_ext d k : ext false (d_conn d) k -> OInv d -> OInv (dset_conn d k).
Proof. intros (l & E & Hl) H. unfold OInv. cbn. rewrite E. apply OI_inert; [now apply own_inert|exact H]. Qed.
Lemma OInv_log d e : inert e = true -> OInv d -> OInv (dlog d [e]).
Proof. intros He H. unfold OInv. cbn. apply OI_inert; [cbn; now rewrite He|exact H]. Qed.
Lemma OInv_close d : OInv d -> OInv (d_close d).
Proof. intros H. exact H. Qed.
Lemma OI_returned l ch id : OI l ch None -> In id (ch_queue ch) -> ~ In (LStart id) l.
Proof. intros H Hi F. destruct (oi_start _ _ _ H id F) as (_ & Q & _). auto. Qed.
Lemma OInv_recv_error c d e : c_server c = false -> OInv d -> OInv (fst (recv_error c d e)).
Proof.
  intros Hs H. unfold recv_error. rewrite Hs. unfold OInv in *. destruct (d_callback d) as [id|] eqn:Ecb.
  - cbn. eapply OI_outcome; [exact H|reflexivity|..]; auto; try discriminate. all: try (intros j; cbn; lia).
  - destruct (d_rx_closed d); [cbn; rewrite Ecb; exact H|].
    unfold ch_try_recv, ch_close. cbn [ch_queue]. destruct (ch_queue (d_chan d)) as [|id q] eqn:Eq; cbn.
    + eapply OI_same; [..|exact H]; [now rewrite Eq|reflexivity].
    + eapply OI_outcome; [exact H|reflexivity|..]; auto; try discriminate.
      * intros j. cbn [ch_queue]. rewrite Eq. unfold inqueue. cbn. destruct (N.eq_dec id j), (N.eqb_spec id j); try congruence; lia.
      * cbn [ch_queue]. rewrite Eq. intros j Hj. right. exact Hj.
      * intros _. eapply OI_returned; [exact H|]. rewrite Eq. left. reflexivity.
Qed.
Lemma OI_drop_queue : forall q l ch, ch_queue ch = q -> OI l ch None ->
  OI (l ++ map (fun id => LOutcome id OReturned) q) (fst (ch_drop_rx ch)) None.
Proof.
  induction q as [|id q IH]; intros l ch Eq H.
  - cbn. rewrite app_nil_r. eapply OI_same; [..|exact H]; [now rewrite Eq|reflexivity].
  - cbn [map]. change (?x :: map ?f q) with ([x] ++ map f q). rewrite app_assoc.
    destruct ch as [q0 w o g t r n]. cbn in Eq. subst q0.
    apply (IH (l ++ [LOutcome id OReturned]) (mkCh q w o g t r n) eq_refl).
    eapply OI_outcome; [exact H|reflexivity|..]; auto; try discriminate.
    + intros j. unfold inqueue. cbn. destruct (N.eq_dec id j), (N.eqb_spec id j); try congruence; lia.
    + intros j Hj. right. exact Hj.
    + intros _. eapply OI_returned; [exact H|]. left. reflexivity.
Qed.
Lemma OInv_drop d : OInv d -> OInv (d_drop d).
Proof.
  intros H. unfold OInv in *. rewrite d_drop_eq. cbn [d_conn d_chan d_callback log k_log]. unfold drop_events.
  rewrite !app_assoc. apply OI_drop_queue; [reflexivity|].
  assert (OI (k_log (d_conn d) ++ (if d_body_tx d then [LBodyFail] else [])) (d_chan d) (d_callback d)) as H1.
  { apply OI_inert; [destruct (d_body_tx d); reflexivity|exact H]. }
  destruct (d_callback d) as [id|] eqn:Ecb; [|rewrite app_nil_r; exact H1].
  eapply OI_outcome; [exact H1|reflexivity|..]; auto; try discriminate. all: try (intros j; cbn; lia).
Qed.

Lemma own_last_in acc l : forallb (own false) l = true -> count is_LIn l = 0%nat -> last_in acc l = acc.
Proof.
  revert acc. induction l as [|e l IH]; intros acc H C; [reflexivity|]. cbn in H. apply andb_prop in H. destruct H as [H1 H2].
  unfold count in C. cbn in C. destruct e; try discriminate; cbn; apply IH; auto.
Qed.
(* A message head that was read is the last event of its kind *)
Lemma last_in_try c blk k : k_log (try_keep_alive c blk k) = k_log k.
Proof.
  assert (forall k', k_log (st_try_keep_alive c k') = k_log k') as A.
  { intros k'. unfold st_try_keep_alive, idle. destruct (k_reading k'); try reflexivity; destruct (k_writing k'); try reflexivity.
    destruct (k_ka k'); try reflexivity. destruct (c_server c), (c_timeout c); reflexivity. }
  assert (forall k', k_log (fst (read_io k')) = k_log k') as R by (intros k'; unfold read_io; destruct (r_read_io (k_rd k')); reflexivity).
  unfold try_keep_alive, maybe_notify. rewrite <- (A k). remember (st_try_keep_alive c k) as k1 eqn:E. clear E. pose proof (R k1) as Rk.
  destruct (k_reading k1); try reflexivity. destruct (k_writing k1); try reflexivity;
  (destruct blk; [reflexivity|]; destruct (r_buf (k_rd k1)); [|reflexivity];
   destruct (read_io k1) as [k' [|[n|e]]]; cbn [fst] in Rk; [exact Rk| |exact Rk];
   destruct (n =? 0); [destruct (is_idle k')|]; exact Rk).
Qed.
Lemma last_in_head c now blk k k' m : k_poll_read_head c now blk k = (k', Ready (Some (Ok m))) -> last_in None (k_log k') = Some m.
Proof.
  unfold k_poll_read_head. destruct (io_parse _ _ _) as [rd [|[m'|e]]].
  - cbn [k_running k_timer set_rd]. destruct (k_running _); [|discriminate]. destruct (k_timer _) as [t|]; [|discriminate]. destruct (t <=? now); discriminate.
  - intros E. inversion E; subst m'. unfold got_head. set (k1 := log _ [LIn m]).
    assert (last_in None (k_log k1) = Some m) as H1.
    { subst k1. cbn. rewrite last_in_app. reflexivity. }
    clearbody k1. clear E. cbn [set_trailers k_log].
    destruct (in_decode m =? DL_ZERO).
    + destruct (c_server c); [|rewrite last_in_try]; cbn; rewrite last_in_app; exact H1.
    + destruct (_ && _); exact H1.
  - destruct (parse_failure e) as [e' n]. unfold on_read_head_error. destruct (_ || _); [|discriminate].
    destruct (on_parse_error c _ e') as [k2 [u|e2]]; discriminate.
Qed.

Lemma head_appends c auto k h body : exists x y, k_log (write_head c auto k h body) = k_log k ++ x :: y /\ is_LHead x = true /\ forallb inert y = true.
Proof.
  unfold write_head, encode_head.
  set (k0 := if c_server c then k else _).
  assert (k_log k0 = k_log k) as H0.
  { subst k0. unfold busy. destruct (c_server c); [reflexivity|]. match goal with |- context [if ?b then _ else _] => destruct b end; destruct (k_ka k) eqn:Ek; reflexivity. }
  clearbody k0. pose proof (enforce_frame k0 h) as Q. destruct (enforce_version k0 h) as [k1 h1]. destruct Q as (Q & _).
  destruct (t_encode c k1 h1 body) as [[out m] [e|e]].
  - exists (LHead auto h1 out), (if enc_is_eof e then [LEnd] else []). cbn. rewrite Q, H0, <- app_assoc. split; [reflexivity|]. split; [reflexivity|]. destruct (enc_is_eof e); reflexivity.
  - exists (LHeadFail out), []. cbn. rewrite Q, H0. auto.
Qed.

Theorem outcome_stable c : c_server c = false -> stable c (fun _ => True) (fun _ => True) OInv.
Proof.
  intros Hs. apply stable_intro.
  - intros d tx rx p H. exact H.
  - intros d e He. apply OInv_log. destruct e; try discriminate; reflexivity.
  - intros d H. split; [exact H|]. split; [exact H|]. split; [|intros w; exact H].
    unfold take_error. destruct (k_error (d_conn d)); exact H.
  - intros d H _. now apply OInv_close.
  - intros i d H Hc Hr Hp. unfold d_poll_read_head. rewrite Hp.
    pose proof (ext_poll_read_head c (i_now i) (i_blk i) (d_conn d)) as X. rewrite Hs in X.
    destruct (k_poll_read_head c (i_now i) (i_blk i) (d_conn d)) as [k r] eqn:Ek. cbn [fst] in X.
    pose proof (OInv_ext d k X H) as Q.
    destruct r as [|[[m|e]|]]; cbn [fst].
    + exact Q.
    + apply last_in_head in Ek.
      match goal with |- context [recv_ok c ?dd m] => assert (OInv dd /\ last_in None (k_log (d_conn dd)) = Some m) as (Q1 & Q2); [|remember dd as d1 eqn:E1; clear E1] end.
      { change (d_body_tx (dset_conn d k)) with (d_body_tx d).
        assert (OInv (dlog (dset_conn d k) [LBodyEnd])) as Q' by now apply OInv_log.
        assert (last_in None (k_log k ++ [LBodyEnd]) = Some m) as E' by (rewrite last_in_app, Ek; reflexivity).
        destruct (in_decode m =? DL_ZERO), (in_upgrade m), (d_body_tx d); cbn; split; try exact Q; try exact Q'; try exact Ek; try exact E'. }
      unfold recv_ok. rewrite Hs. unfold OInv in Q1. destruct (d_callback d1) as [id|] eqn:Ecb; [|unfold OInv; cbn; rewrite Ecb; exact Q1].
      unfold OInv. cbn. eapply OI_outcome; [exact Q1|reflexivity|..]; auto; try discriminate.
      * intros m' E'. inversion E'; subst. exact Q2.
    + pose proof (OInv_recv_error c (dset_conn d k) e Hs Q) as Q2.
      destruct (recv_error c (dset_conn d k) e) as [d' b]. cbn [fst] in Q2.
      destruct b; exact Q2.
    + destruct (is_write_closed _); exact Q.
  - intros i d H _ Hb. apply OInv_ext; [apply ext_drain|exact H].
  - intros i d H _ Hb. change (dset_conn d ?k) with (dset_conn (dlog d [LWant]) k). apply OInv_ext; [apply ext_poll_read_body|now apply OInv_log].
  - intros d H _. exact H.
  - intros d H _ _ _. apply OInv_ext; [apply ext_keep_alive_read|exact H].
  - intros i d H. apply OInv_ext; [apply ext_flush|exact H].
  - intros i d _ H _ Hw Hsp. unfold d_poll_msg. rewrite Hs. unfold should_poll in Hsp. rewrite Hs in Hsp.
    unfold OInv in H. destruct (d_callback d) as [|] eqn:Ecb; [discriminate|].
    unfold ch_poll_recv. destruct (d_chan d) as [q w o g t r n] eqn:Ech. cbn [ch_queue ch_want ch_once ch_given ch_tx ch_rx ch_next].
    destruct q as [|id q].
    + destruct (t && r); unfold OInv; cbn [d_conn d_chan d_callback dset_client].
      * eapply OI_same; [..|apply (OI_race _ _ (i_race i) _ H)]; reflexivity.
      * exact H.
    + destruct (i_canceled i).
      * unfold OInv. cbn. eapply OI_outcome; [exact H|reflexivity|..]; auto; try discriminate.
        -- intros j. unfold inqueue. cbn. destruct (N.eq_dec id j), (N.eqb_spec id j); try congruence; lia.
        -- intros j Hj. right. exact Hj.
      * apply OI_start in H. destruct (i_req i) as [h body]. unfold OInv. cbn [dset_conn d_conn d_chan d_callback dlog dset_client].
        set (k0 := log (d_conn d) [LStart id]). change (k_log (d_conn d) ++ [LStart id]) with (k_log k0) in H.
        assert (exists x y, k_log (write_head c false k0 h body) = k_log k0 ++ x :: y /\ is_LHead x = true /\ forallb inert y = true) as (x & y & E & Hx & Hy).
        { destruct (head_appends c false k0 h body) as (x & y & E & Hx & Hy). exists x, y. auto. }
        rewrite E. apply OI_head; assumption.
  - intros i d H _. apply OInv_ext; [apply ext_effect, end_body_effect|exact H].
  - intros i d b H _ _. apply OInv_ext; [apply ext_effect, write_body_effect|exact H].
  - intros i d b H _ _. apply OInv_ext; [apply ext_effect, write_body_and_end_effect|exact H].
  - intros i d t H _ _. apply OInv_ext; [apply ext_effect, write_trailers_effect|exact H].
  - intros d e H. now apply OInv_recv_error.
  - intros d H. now apply OInv_drop.
  - intros e d H. destruct e; cbn.
    + rewrite Hs. unfold OInv. cbn. now apply OI_smake.
    + rewrite Hs. destruct (d_pc d); exact H.
    + destruct (d_pc d); try exact H. now apply OInv_drop.
    + rewrite Hs. destruct (d_pc d), (k_log (d_conn d)); exact H.
Qed.
