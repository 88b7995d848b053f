(* Lemmas: the connection's future completes once, and nothing but the dropping
   of the rest comes after that *)
From Verif Require Import Base M_Src M_Decode M_HeaderMap M_Headers M_Encode M_Role M_RoleEncode M_Buf M_WriteBuf M_Read M_Conn M_Dispatch S_Conn L_Conn L_Moves L_ConnS L_Ext L_BodyTx P_Requests.

Definition nret (e : levent) : bool := match e with LReturn _ => false | _ => true end.
Definition nr (k k' : conn) : Prop := exists l, k_log k' = k_log k ++ l /\ forallb nret l = true.
Lemma own_nret s l : forallb (own s) l = true -> forallb nret l = true.
Proof. induction l as [|e l IH]; [reflexivity|]. cbn [forallb]. intros H. apply andb_prop in H. destruct H as (H1 & H2). rewrite (IH H2). destruct e; try discriminate H1; reflexivity. Qed.
Lemma nr_ext s k k' : ext s k k' -> nr k k'.
Proof. intros (l & L1 & L2). exists l. split; [exact L1|]. exact (own_nret s l L2). Qed.
Lemma nr_same k k' : k_log k' = k_log k -> nr k k'.
Proof. intros H. exists []. rewrite app_nil_r. auto. Qed.
Ltac nsame := apply nr_same; reflexivity.
Lemma nr_refl k : nr k k.
Proof. nsame. Qed.
Lemma nr_trans k k' k'' : nr k k' -> nr k' k'' -> nr k k''.
Proof. intros (a & A1 & A2) (b & B1 & B2). exists (a ++ b). rewrite B1, A1, app_assoc, forallb_app, A2, B2. auto. Qed.
Lemma nr_log k l : forallb nret l = true -> nr k (log k l).
Proof. intros H. exists l. auto. Qed.
Definition nrd (d d' : disp) : Prop := nr (d_conn d) (d_conn d').
Lemma nrd_flush c i d : nrd d (fst (d_flush c i d)).
Proof. unfold nrd, d_flush. pose proof (nr_ext true _ _ (ext_flush true c (i_blk i) (i_wevs i) (d_conn d))) as H. destruct (k_poll_flush c _ _ _). exact H. Qed.
Lemma nrd_recv_error c d e : nrd d (fst (recv_error c d e)).
Proof.
  unfold nrd, recv_error. destruct (c_server c); [nsame|]. destruct (d_callback d); [apply nr_log; reflexivity|]. destruct (d_rx_closed d); [nsame|].
  destruct (ch_try_recv _) as [ch [id|]]; [apply nr_log; reflexivity|nsame].
Qed.
Lemma nrd_read c i d : nrd d (fst (poll_read_it c i d)).
Proof.
  unfold nrd, poll_read_it. destruct (d_closing d); [nsame|]. destruct (can_read_head c (d_conn d)).
  - unfold d_poll_read_head. destruct (d_poll_ready c i d) as [|[u|u]]; [nsame| |nsame].
    pose proof (nr_ext _ _ _ (ext_poll_read_head c (i_now i) (i_blk i) (d_conn d))) as H. destruct (k_poll_read_head c _ _ _) as [k r]. cbn [fst] in H. destruct r as [|[[m|e]|]].
    + exact H.
    + set (d1 := if in_decode m =? DL_ZERO then _ else _).
      assert (nr (d_conn d) (d_conn d1)) as H1.
      { subst d1. destruct (in_decode m =? DL_ZERO); [exact H|]. cbn [d_body_tx dset_conn]. destruct (d_body_tx d); [|exact H]. eapply nr_trans; [exact H|]. apply nr_log. reflexivity. }
      clearbody d1. set (d2 := if in_upgrade m then _ else _). assert (nr (d_conn d) (d_conn d2)) as H2 by (subst d2; destruct (in_upgrade m); [eapply nr_trans; [exact H1|nsame]|exact H1]). clearbody d2.
      unfold recv_ok. destruct (c_server c); [exact H2|]. destruct (d_callback d2); [|exact H2]. eapply nr_trans; [exact H2|]. apply nr_log. reflexivity.
    + pose proof (nrd_recv_error c (dset_conn d k) e) as H1. destruct (recv_error c (dset_conn d k) e) as [d' [|]]; cbn [fst] in *; (eapply nr_trans; [exact H|]); [exact H1|]. eapply nr_trans; [exact H1|]. nsame.
    + cbn [fst d_conn dset_conn]. destruct (is_write_closed k); [|exact H]. eapply nr_trans; [exact H|nsame].
  - destruct (d_body_tx d).
    + destruct (can_read_body (d_conn d)); [|apply nr_log; reflexivity]. destruct (i_body i); [..|apply (nr_ext true), ext_drain].
      all: try nsame.
      pose proof (nr_ext _ _ _ (ext_poll_read_body true c (i_blk i) (log (d_conn d) [LWant]))) as H. destruct (k_poll_read_body c _ _) as [k r]. cbn [fst] in H.
      assert (nr (d_conn d) k) as H1 by (eapply nr_trans; [|exact H]; apply nr_log; reflexivity).
      destruct r as [|[[x|e]|]]; cbn [fst snd].
      * exact H1.
      * destruct (i_send i); [exact H1|]. cbn [d_conn dset_body_tx dset_conn]. destruct (can_read_body k); [|exact H1]. eapply nr_trans; [exact H1|]. nsame.
      * eapply nr_trans; [exact H1|]. apply nr_log. reflexivity.
      * eapply nr_trans; [exact H1|]. apply nr_log. reflexivity.
    + pose proof (nr_ext _ _ _ (ext_keep_alive_read true c (d_conn d))) as H. destruct (k_poll_read_keep_alive c (d_conn d)) as [k r]. exact H.
Qed.
Lemma nrd_end c i d : nrd d (fst (end_body_it c i d)).
Proof.
  unfold nrd, end_body_it. pose proof (nr_ext true _ _ (ext_effect true _ _ (end_body_effect (i_room i) (d_conn d)))) as H. destruct (k_end_body (i_room i) (d_conn d)) as [k [u|e]]; exact H.
Qed.
Lemma nrd_poll_msg c i d : nrd d (fst (d_poll_msg c i d)).
Proof.
  unfold nrd, d_poll_msg. destruct (c_server c); [destruct (i_msg i) as [|[m|e]]; nsame|].
  destruct (ch_poll_recv _ _) as [ch [|[id|]]]; [nsame| |nsame]. destruct (i_canceled i); apply nr_log; reflexivity.
Qed.
Lemma nrd_write c i d : nrd d (fst (poll_write_it c i d)).
Proof.
  unfold poll_write_it. destruct (d_closing d); [apply nr_refl|]. destruct (_ && _ && _).
  - pose proof (nrd_poll_msg c i d) as H. unfold nrd in *. destruct (d_poll_msg c i d) as [d' [|[[[h body]|e]|]]]; cbn [fst] in *; try exact H.
    eapply nr_trans; [exact H|]. exact (nr_ext true _ _ (ext_write_head c false (d_conn d') h body)).
  - destruct (negb (can_buffer_body c (d_conn d))).
    + pose proof (nrd_flush c i d) as H. destruct (d_flush c i d) as [d' [|[u|e]]]; exact H.
    + destruct (d_body_rx d).
      * destruct (negb (k_can_write_body (d_conn d))); [apply nr_refl|]. destruct (i_frame i) as [|[[[b|t|]|u]|]]; try apply nr_refl.
        -- destruct (i_eos i); destruct (brem b =? 0); try apply nr_refl.
           ++ apply (nrd_end c i (dset_body_rx d false)).
           ++ exact (nr_ext true _ _ (ext_effect true _ _ (write_body_and_end_effect c (i_room i) (d_conn d) b))).
           ++ exact (nr_ext true _ _ (ext_effect true _ _ (write_body_effect c (i_room i) (d_conn d) b))).
        -- exact (nr_ext true _ _ (ext_effect true _ _ (write_trailers_effect c (i_room i) (d_conn d) t))).
        -- apply (nrd_end c i (dset_body_rx d false)).
      * destruct (k_can_write_body (d_conn d)); [apply nrd_end|apply nr_refl].
Qed.

(* How a step ends the future: by an error, or in the last phase *)
Lemma drop_log d : exists l, k_log (d_conn (d_drop d)) = k_log (d_conn d) ++ l /\ forallb nret l = true.
Proof.
  rewrite d_drop_eq. cbn [d_conn]. eexists. split; [reflexivity|]. unfold drop_events. rewrite !forallb_app. destruct (d_body_tx d), (d_callback d); cbn [forallb nret andb]; induction (ch_queue (d_chan d)); auto.
Qed.
(* [ends d d' r]: the future ends with the result r *)
Definition ends (d d' : disp) (r : option cerr) : Prop :=
  d_pc d' = PDead /\ exists a b, k_log (d_conn d') = k_log (d_conn d) ++ a ++ LReturn r :: b /\ forallb nret a = true /\ forallb nret b = true.
Lemma ends_complete d r : ends d (d_complete d r) r.
Proof.
  split; [unfold d_complete; now rewrite d_drop_eq|]. unfold d_complete. destruct (drop_log (dlog d [LReturn r])) as (l & L1 & L2). exists [], l. rewrite L1. cbn [k_log log dlog d_conn dset_conn]. rewrite <- app_assoc. auto.
Qed.
Lemma ends_trans d d' d'' r : nrd d d' -> ends d' d'' r -> ends d d'' r.
Proof.
  intros (l & L1 & L2) (P & a & b & A & A1 & A2). split; [exact P|]. exists (l ++ a), b. rewrite A, L1, <- !app_assoc, forallb_app, L2, A1. auto.
Qed.
Lemma ends_fail c d e : exists r, ends d (d_fail c d e) r /\ (r = Some e \/ (c_server c = false /\ r = None)).
Proof.
  unfold d_fail. set (d1 := if d_body_tx d then _ else d). assert (nrd d d1) as H1 by (subst d1; unfold nrd; destruct (d_body_tx d); [apply nr_log; reflexivity|nsame]). clearbody d1.
  pose proof (nrd_recv_error c d1 e) as H2. assert (snd (recv_error c d1 e) = true \/ c_server c = false) as H3 by (unfold recv_error; destruct (c_server c); auto). destruct (recv_error c d1 e) as [d2 b]. cbn [fst snd] in *.
  exists (if b then Some e else None). split; [eapply ends_trans; [exact H1|]; eapply ends_trans; [exact H2|apply ends_complete]|]. destruct b; [auto|]. destruct H3 as [H3|H3]; [discriminate H3|auto].
Qed.
(* [last_words]: the events of the last phase *)
Definition fin (e : levent) : bool := match e with LSent _ | LShutdown => true | _ => false end.
Definition fn (k k' : conn) : Prop := exists l, k_log k' = k_log k ++ l /\ forallb fin l = true.
Definition last_words (d d' : disp) : Prop :=
  exists a b, k_log (d_conn d') = k_log (d_conn d) ++ a ++ LReturn None :: b /\ forallb fin a = true /\ forallb nret b = true.
Lemma fin_nr k k' : fn k k' -> nr k k'.
Proof.
  intros (l & L1 & L2). exists l. split; [exact L1|]. clear L1. induction l as [|e l IH]; [reflexivity|]. cbn [forallb] in *. apply andb_prop in L2. destruct L2 as (L2 & L3). rewrite (IH L3). destruct e; try discriminate L2; reflexivity.
Qed.
Lemma last_complete d d1 : fn (d_conn d) (d_conn d1) -> last_words d (d_complete d1 None).
Proof.
  intros (l & L1 & L2). unfold d_complete. destruct (drop_log (dlog d1 [LReturn None])) as (b & B1 & B2). exists l, b. rewrite B1. cbn [k_log log dlog d_conn dset_conn]. rewrite L1, <- !app_assoc. auto.
Qed.
(* Every step: the log grows without a result, or the future ends; without an
   error a server's future ends only in the last phase. *)
Lemma step_return c i d : d_pc d <> PDead ->
  (d_pc (dstep c i d) <> PDead /\ nrd d (dstep c i d)) \/
  (exists r, ends d (dstep c i d) r /\
     ((exists e, r = Some e) \/ c_server c = false \/ (r = None /\ d_pc d = PFinish /\ d_is_done c d = true /\ k_error (d_conn d) = None /\ last_words d (dstep c i d)))).
Proof.
  intros Hp. unfold dstep. destruct (d_pc d) as [|n|n|n wr|n| | |] eqn:Ep; try contradiction.
  - left. split; [discriminate|nsame].
  - pose proof (nrd_read c i d) as H. pose proof (poll_read_pc c i d) as Hd. destruct (poll_read_it c i d) as [d' [|[|[u|e]]]]; cbn [fst] in *.
    + left. split; [congruence|exact H].
    + left. split; [discriminate|exact H].
    + left. split; [discriminate|exact H].
    + right. destruct (ends_fail c d' e) as (r & R1 & R2). exists r. split; [eapply ends_trans; eassumption|]. destruct R2 as [-> | (R2 & _)]; eauto.
  - pose proof (nrd_write c i d) as H. pose proof (poll_write_pc c i d) as Hd. destruct (poll_write_it c i d) as [d' [|[|[u|e]]]]; cbn [fst] in *.
    + left. split; [congruence|exact H].
    + left. split; [discriminate|exact H].
    + left. split; [discriminate|exact H].
    + right. destruct (ends_fail c d' e) as (r & R1 & R2). exists r. split; [eapply ends_trans; eassumption|]. destruct R2 as [-> | (R2 & _)]; eauto.
  - pose proof (nrd_flush c i d) as H. destruct (d_flush c i d) as [d' [|[u|e]]]; cbn [fst] in *.
    1,2: left; unfold wants_read_again; (split; [destruct (k_notify (d_conn d')); [unfold next_round; destruct n as [|[|n]]; discriminate|destruct (can_write_again d' && _); discriminate]|eapply nr_trans; [exact H|nsame]]).
    right. destruct (ends_fail c d' e) as (r & R1 & R2). exists r. split; [eapply ends_trans; eassumption|]. destruct R2 as [-> | (R2 & _)]; eauto.
  - pose proof (nrd_write c i d) as H. pose proof (poll_write_pc c i d) as Hd. destruct (poll_write_it c i d) as [d' [|[|[u|e]]]]; cbn [fst] in *.
    + left. split; [congruence|exact H].
    + left. split; [destruct (has_buffered_write (d_conn d')); discriminate|exact H].
    + left. split; [unfold next_round; destruct n as [|[|n]]; discriminate|exact H].
    + right. destruct (ends_fail c d' e) as (r & R1 & R2). exists r. split; [eapply ends_trans; eassumption|]. destruct R2 as [-> | (R2 & _)]; eauto.
  - pose proof (nrd_flush c i d) as H. destruct (d_flush c i d) as [d' [|[u|e]]]; cbn [fst] in *; try (left; split; [discriminate|exact H]).
    right. destruct (ends_fail c d' e) as (r & R1 & R2). exists r. split; [eapply ends_trans; eassumption|]. destruct R2 as [-> | (R2 & _)]; eauto.
  - destruct (d_is_done c d) eqn:Ed; [|left; split; [discriminate|nsame]]. unfold pending_upgrade. set (d1 := dset_conn d (set_upgrade (d_conn d) false)).
    assert (fn (d_conn d) (d_conn d1) /\ k_error (d_conn d1) = k_error (d_conn d)) as (H1 & E1) by (split; [exists []; rewrite app_nil_r; auto|reflexivity]). clearbody d1.
    assert (forall d1, fn (d_conn d) (d_conn d1) -> k_error (d_conn d1) = k_error (d_conn d) ->
      let d' := match take_error (d_conn d1) with (k, Ok _) => d_complete (dset_conn d1 k) None | (k, Err e) => d_fail c (dset_conn d1 k) e end in
      exists r, ends d d' r /\ ((exists e, r = Some e) \/ c_server c = false \/ (r = None /\ PFinish = PFinish /\ true = true /\ k_error (d_conn d) = None /\ last_words d d'))) as T.
    { clear. intros d1 H1 E1. unfold take_error. destruct (k_error (d_conn d1)) as [e|] eqn:Ee; cbn zeta.
      - destruct (ends_fail c (dset_conn d1 (set_error (d_conn d1) None)) e) as (r & R1 & R2). exists r. split; [eapply ends_trans; [exact (fin_nr _ _ H1)|exact R1]|]. destruct R2 as [-> | (R2 & _)]; eauto.
      - exists None. split; [|right; right; split; [reflexivity|split; [reflexivity|split; [reflexivity|split; [congruence|]]]]]; [|apply last_complete; exact H1]. eapply ends_trans; [exact (fin_nr _ _ H1)|]. exact (ends_complete (dset_conn d1 (d_conn d1)) None). }
    destruct (k_upgrade (d_conn d)); [right; now apply T|]. destruct (wb_flush _ _ _ _) as [[[w ev] sent] r].
    set (d2 := dset_conn d1 _). assert (fn (d_conn d) (d_conn d2) /\ k_error (d_conn d2) = k_error (d_conn d)) as (H2 & E2).
    { split; [|exact E1]. destruct H1 as (l & L1 & L2). eexists (l ++ _). cbn. rewrite L1, <- app_assoc, forallb_app, L2. split; [reflexivity|]. destruct sent; reflexivity. }
    clearbody d2. destruct r as [|[u|e]]; [left; split; [discriminate|exact (fin_nr _ _ H2)]| |].
    + destruct (i_shutdown i) as [|[u'|e']]; [left; split; [discriminate|exact (fin_nr _ _ H2)]| |].
      * right. apply T; [|exact E2]. destruct H2 as (l & L1 & L2). exists (l ++ [LShutdown]). cbn. rewrite L1, <- app_assoc, forallb_app, L2. auto.
      * right. destruct (ends_fail c d2 CIo) as (r & R1 & R2). exists r. split; [eapply ends_trans; [exact (fin_nr _ _ H2)|eassumption]|]. destruct R2 as [-> | (R2 & _)]; eauto.
    + right. destruct (ends_fail c d2 CIo) as (r & R1 & R2). exists r. split; [eapply ends_trans; [exact (fin_nr _ _ H2)|eassumption]|]. destruct R2 as [-> | (R2 & _)]; eauto.
Qed.
Lemma dead_stays c m d : d_pc d = PDead -> d_pc (dmove c m d) = PDead /\ d_conn (dmove c m d) = d_conn d.
Proof. intros H. destruct m as [i|[s| | |]]; cbn; rewrite ?H; try (unfold dstep; rewrite H); try destruct (c_server c); auto. Qed.
Lemma env_return c e d : nrd d (estep c e d).
Proof.
  destruct e as [s| | |]; cbn.
  - destruct (c_server c); nsame.
  - destruct (d_pc d); try nsame. destruct (c_server c); [|nsame]. unfold d_graceful, nrd, k_disable_keep_alive.
    destruct (is_idle (d_conn d)); cbn [d_conn dset_conn]; match goal with |- context [if ?b then _ else _] => destruct b end; nsame.
  - destruct (d_pc d); try nsame. exact (drop_log d).
  - destruct (d_pc d), (k_log (d_conn d)) eqn:El; try nsame. destruct (c_server c); nsame.
Qed.
