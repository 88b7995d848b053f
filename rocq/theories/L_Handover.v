(* For C64: a server whose requests have no body hands its transport over with an
   empty write buffer. *)
From Verif Require Import Base M_Src M_Decode M_HeaderMap M_Headers M_Encode M_Role M_RoleEncode M_Buf M_WriteBuf M_Read M_Conn M_Dispatch S_Conn S_Buf L_Buf L_WriteBuf L_Conn L_Moves L_ConnS L_Ka L_BodyTx P_Requests L_Done L_Return L_Report.

Definition empty (k : conn) : Prop := wb_rem (k_wb k) = 0.
Record FK (fl : bool) (k : conn) : Prop := mkFK {
  fk_body : match k_reading k with RBody _ | RContinue _ => False | _ => True end;
  fk_init : k_reading k = RInit -> k_writing k = WInit;
  fk_rest : k_reading k = RInit \/ k_reading k = RClosed -> empty k /\ (k_writing k = WInit \/ k_writing k = WClosed) /\ fl = false;
  fk_fl : fl = true -> k_writing k = WInit
}.
Definition FE (fl : bool) (k : conn) : Prop := k_error k <> None \/ FK fl k.
Definition FD (d : disp) : Prop :=
  d_body_tx d = false /\ (d_closing d = true -> k_reading (d_conn d) = RClosed /\ k_writing (d_conn d) = WClosed) /\ FE (d_in_flight d) (d_conn d).
(* Only the read buffer, the timer and such change *)
Lemma FE_same fl k k' : k_reading k' = k_reading k -> k_writing k' = k_writing k -> k_wb k' = k_wb k -> (k_error k <> None -> k_error k' <> None) -> FE fl k -> FE fl k'.
Proof. intros A B' C D [E|[E1 E2 E3 E4]]; [left; auto|right]. constructor; unfold empty in *; rewrite ?A, ?B', ?C in *; auto. Qed.
Lemma FE_closed fl k k' : k_reading k = RInit \/ k_reading k = RClosed -> k_reading k' = RClosed -> k_writing k' = k_writing k \/ k_writing k' = WClosed -> k_wb k' = k_wb k -> (k_error k <> None -> k_error k' <> None) -> FE fl k -> FE fl k'.
Proof.
  intros H A B' C D [E|[E1 E2 E3 E4]]; [left; auto|right]. destruct (E3 H) as (F1 & F2 & ->). constructor; unfold empty in *; rewrite ?A, ?C; auto; try discriminate.
  intros _. split; [exact F1|]. split; [|reflexivity]. destruct B' as [-> | ->]; auto.
Qed.
(* After everything was flushed *)
Lemma FE_notify fl blk k : FE fl k -> FE fl (maybe_notify blk k).
Proof.
  intros H. unfold maybe_notify. destruct (k_reading k) eqn:Er; try exact H.
  assert (FE fl (set_notify k true)) as H1 by (apply (FE_same fl k); auto).
  assert (forall k', k_reading k' = RClosed -> k_writing k' = k_writing k \/ k_writing k' = WClosed -> k_wb k' = k_wb k -> (k_error k <> None -> k_error k' <> None) -> FE fl k') as Q by (intros k' A B' C D; eapply (FE_closed fl k); eauto).
  assert (FE fl (fst (read_io k)) /\ k_reading (fst (read_io k)) = RInit /\ k_writing (fst (read_io k)) = k_writing k /\ k_wb (fst (read_io k)) = k_wb k /\ k_error (fst (read_io k)) = k_error k) as (I1 & I2 & I3 & I4 & I5).
  { unfold read_io. destruct (r_read_io (k_rd k)). cbn [fst]. split; [apply (FE_same fl k); auto|auto]. }
  destruct (k_writing k) eqn:Ew; try exact H; (destruct blk; [exact H|]); (destruct (r_buf (k_rd k)); [|exact H1]); destruct (read_io k) as [k' [|[n|e]]]; cbn [fst] in *; try exact I1;
    try (destruct (n =? 0); [destruct (is_idle k'); apply Q; auto; cbn; rewrite ?I3, ?I4, ?I5; auto|apply (FE_same fl k'); auto]);
    (apply Q; auto; cbn; rewrite ?I3, ?I4; auto; discriminate).
Qed.
Lemma FE_try fl c blk k : empty k -> FE fl k -> FE fl (try_keep_alive c blk k).
Proof.
  intros He H. apply FE_notify. destruct H as [H|[E1 E2 E3 E4]].
  - left. destruct (tame_st_try true c k) as (_ & T & _). destruct T as [-> | ->]; [exact H|discriminate].
  - right. unfold st_try_keep_alive. destruct (k_reading k) eqn:Er; try (constructor; rewrite ?Er; auto; fail).
    + assert (k_writing k = WClosed \/ k_writing k = WKeepAlive -> fl = false) as Hf by (intros Hw; destruct fl; [|reflexivity]; rewrite (E4 eq_refl) in Hw; destruct Hw as [Hw|Hw]; discriminate Hw).
      assert (fl = false -> FK fl (st_close k)) as Q by (intros ->; constructor; cbn; auto; try discriminate; unfold empty in *; cbn; auto).
      destruct (k_writing k) eqn:Ew; try (constructor; rewrite ?Er, ?Ew; auto; fail); [|auto].
      destruct (k_ka k); auto. rewrite (Hf (or_intror eq_refl)). unfold idle. destruct (c_server c), (c_timeout c); constructor; cbn; auto; try discriminate; unfold empty in *; cbn; auto.
    + destruct (E3 (or_intror eq_refl)) as (F1 & [F2|F2] & ->); rewrite F2; constructor; rewrite ?Er; auto; try discriminate.
Qed.
Lemma FE_wb fl k w l : (k_reading k = RInit \/ k_reading k = RClosed -> wb_rem (k_wb k) = 0 -> wb_rem w = 0) -> FE fl k -> FE fl (log (set_wb k w) l).
Proof.
  intros H [E|[E1 E2 E3 E4]]; [left; exact E|right]. constructor; auto. intros Hr. change (k_reading k = RInit \/ k_reading k = RClosed) in Hr. destruct (E3 Hr) as (F1 & F2 & F3). split; [apply H; auto|auto].
Qed.
Lemma FE_flush fl c blk wevs k : c_pipeline c = false -> wb_wf (k_wb k) -> FE fl k -> FE fl (fst (k_poll_flush c blk wevs k)).
Proof.
  intros Hp W H. unfold k_poll_flush. rewrite Hp. pose proof (wb_flush_ok false (negb (match r_buf (k_rd k) with [] => true | _ => false end)) (k_wb k) wevs W) as K.
  destruct (wb_flush _ _ _ _) as [[[w ev] sent] r] eqn:Ef. destruct K as (_ & _ & K & _).
  set (k1 := log _ _). assert (FE fl k1) as H1.
  { subst k1. apply FE_wb; [|exact H]. intros _ R. unfold wb_flush in Ef. cbn [andb] in Ef. rewrite R in Ef. cbn in Ef. destruct wevs as [|[]]; cbn in Ef; injection Ef as <- _ _ _; exact R. }
  assert (k_wb k1 = w) as Hw by reflexivity. clearbody k1. destruct r as [|[u|e]]; cbn [fst]; try exact H1. apply FE_try; [|exact H1].
  unfold empty. rewrite Hw, wb_rem_den, K; [reflexivity|now destruct u|reflexivity].
Qed.
Lemma FE_effect fl k k' : body_effect k k' -> k_error k' = k_error k -> FE fl k -> FE fl k'.
Proof.
  intros [->|(e & l & w' & Ew & Er & El & Ew' & Ek & F)] Ee H; [exact H|]. destruct H as [H|[E1 E2 E3 E4]]; [left; congruence|right].
  assert (k_reading k <> RInit /\ k_reading k <> RClosed /\ fl = false) as (A1 & A2 & A3).
  { split; [intros G; rewrite (E2 G) in Ew; discriminate Ew|]. split; [intros G; destruct (E3 (or_intror G)) as (_ & [G'|G'] & _); congruence|]. destruct fl; [|reflexivity]. rewrite (E4 eq_refl) in Ew. discriminate Ew. }
  constructor; rewrite ?Er; auto; try contradiction; [intros [G|G]; contradiction|congruence].
Qed.
(* Reading a head *)
Lemma FE_read_head c now blk k : c_server c = true -> k_reading k = RInit -> FE false k -> let r := k_poll_read_head c now blk k in
  match snd r with
  | Pending => FE false (fst r)
  | Ready (Some (Ok m)) => In (LIn m) (k_log (fst r)) /\ (in_decode m = DL_ZERO -> FE true (fst r))
  | Ready (Some (Err _)) => True
  | Ready None => FE false (fst r) /\ k_reading (fst r) = RClosed /\ k_writing (fst r) = WClosed
  end.
Proof.
  intros Hs Er H. cbn zeta. unfold k_poll_read_head.
  assert (FE false (start_timer c now k) /\ k_reading (start_timer c now k) = RInit) as (H0 & R0).
  { unfold start_timer. destruct (k_running k); [auto|]. destruct (c_timeout c); [|auto]. split; [apply (FE_same false k); auto|auto]. }
  remember (start_timer c now k) as k0 eqn:Ek. clear Ek H Er k.
  destruct (io_parse _ _ (k_rd k0)) as [rd [|[m|e]]] eqn:Ep.
  - cbn [k_running k_timer set_rd]. destruct (k_running k0), (k_timer k0) as [t|]; try (cbn [fst snd]; apply (FE_same false k0); auto; fail). destruct (t <=? now); cbn [fst snd]; [exact Logic.I|apply (FE_same false k0); auto].
  - cbn [fst snd]. unfold got_head. rewrite Hs. set (k1 := log _ [LIn m]).
    assert (k_writing k1 = k_writing k0 /\ k_wb k1 = k_wb k0 /\ k_error k1 = k_error k0 /\ In (LIn m) (k_log k1)) as (W1 & B1 & E1 & L1).
    { subst k1. unfold busy, st_disable_keep_alive. destruct (in_keep m), (k_ka k0) eqn:Eq; cbn; rewrite ?Eq; cbn; repeat split; apply in_or_app; right; now left. }
    clearbody k1. split; [cbn [k_log set_trailers]; destruct (in_decode m =? DL_ZERO); [cbn; apply in_or_app; now left|]; destruct (_ && _); exact L1|].
    intros Hd. rewrite Hd. cbn [N.eqb DL_ZERO]. change (0 =? 0) with true. cbn match. destruct H0 as [H0|[A1 A2 A3 A4]]; [left; cbn; congruence|right]. constructor; cbn; auto; try discriminate; [intros [F|F]; discriminate F|]. intros _. rewrite W1. auto.
  - destruct (parse_failure e) as [e' n]. unfold on_read_head_error.
    set (k1 := set_rd (close_read (set_rd (set_rd k0 rd) _)) _). assert (FE false k1 /\ k_reading k1 = RClosed) as (H1 & R1).
    { split; [|reflexivity]. apply (FE_closed false k0); auto. }
    clearbody k1. destruct (_ || _).
    + unfold on_parse_error. destruct (k_writing k1) eqn:W1; try exact Logic.I. destruct (has_h2_prefix k1); [exact Logic.I|]. destruct (t_on_error c e') as [st|]; [|exact Logic.I]. cbn [fst snd]. left. discriminate.
    + cbn [fst snd]. split; [|split; [exact R1|reflexivity]]. apply (FE_closed false k1); auto.
Qed.
Definition toldF (r : disp * it) : Prop := match snd r with Ret (Ready (Err _)) => True | _ => FD (fst r) end.
Lemma FD_pc d p : FD d -> FD (dset_pc d p).
Proof. intros H. exact H. Qed.
Lemma FD_rx d b : FD d -> FD (dset_body_rx d b).
Proof. intros H. exact H. Qed.
Lemma FD_conn d k : (k_reading (d_conn d) = RClosed -> k_writing (d_conn d) = WClosed -> k_reading k = RClosed /\ k_writing k = WClosed) -> FE (d_in_flight d) k -> FD d -> FD (dset_conn d k).
Proof. intros A B' (C1 & C2 & C3). split; [exact C1|]. split; [|exact B']. intros F. destruct (C2 F). auto. Qed.
Lemma FD_tame d k : tame true (d_conn d) k -> FE (d_in_flight d) k -> FD d -> FD (dset_conn d k).
Proof. intros (_ & _ & T). apply FD_conn. intros A B'. destruct (T A B') as (T1 & T2 & _). auto. Qed.
Lemma FD_read c i d : c_server c = true -> FD d -> (forall m, In (LIn m) (k_log (d_conn (fst (poll_read_it c i d)))) -> in_decode m = DL_ZERO) -> toldF (poll_read_it c i d).
Proof.
  intros Hs H. pose proof H as (C1 & C2 & C3). unfold toldF, poll_read_it. destruct (d_closing d) eqn:Hc; [intros _; exact H|].
  destruct (can_read_head c (d_conn d)) eqn:Eh.
  - assert (k_reading (d_conn d) = RInit) as Er by (unfold can_read_head in Eh; destruct (k_reading (d_conn d)); try discriminate Eh; reflexivity).
    unfold d_poll_read_head, d_poll_ready. rewrite Hs. destruct (d_in_flight d) eqn:Hf; [intros _; exact H|].
    pose proof (FE_read_head c (i_now i) (i_blk i) (d_conn d) Hs Er C3) as R. cbn zeta in R. destruct (k_poll_read_head c _ _ _) as [k r]. cbn [fst snd] in *. destruct r as [|[[m|e]|]].
    + intros _. cbn [fst snd]. split; [exact C1|]. split; [cbn; rewrite Hc; discriminate|]. cbn [d_in_flight dset_conn d_conn]. now rewrite Hf.
    + unfold recv_ok. rewrite Hs. cbn [fst snd]. intros Hm. destruct R as (R1 & R2).
      assert (in_decode m = DL_ZERO) as Hd.
      { apply Hm. cbn [d_conn dset_in_flight]. destruct (in_upgrade m), (in_decode m =? DL_ZERO); cbn; try exact R1; destruct (d_body_tx d); cbn; try exact R1; apply in_or_app; now left. }
      clear Hm. rewrite Hd. cbn [N.eqb]. change (DL_ZERO =? DL_ZERO) with true. cbn match. split; [destruct (in_upgrade m); exact C1|]. split; [destruct (in_upgrade m); cbn; rewrite Hc; discriminate|].
      cbn [d_in_flight dset_in_flight d_conn]. destruct (in_upgrade m); [|exact (R2 Hd)]. apply (FE_same true k); auto.
    + unfold recv_error. rewrite Hs. intros _. exact Logic.I.
    + intros _. destruct R as (R1 & R2 & R3). cbn [fst snd d_conn dset_conn]. unfold is_write_closed. rewrite R3. split; [exact C1|]. split; [intros _; split; reflexivity|]. cbn [d_conn d_close dset_conn d_in_flight dset_closing]. rewrite Hf. apply (FE_closed false k); auto.
  - rewrite C1. intros _. pose proof (tame_keep_alive true c (d_conn d)) as T.
    assert (match snd (k_poll_read_keep_alive c (d_conn d)) with Ready (Err _) => True | _ => FE (d_in_flight d) (fst (k_poll_read_keep_alive c (d_conn d))) end) as Q.
    { unfold k_poll_read_keep_alive. destruct (is_read_closed (d_conn d)) eqn:Ec; [exact C3|]. 
      assert (FE (d_in_flight d) (fst (read_io (d_conn d)))) as I1 by (unfold read_io; destruct (r_read_io _); cbn [fst]; apply (FE_same _ (d_conn d)); auto).
      destruct (is_mid_message (d_conn d)) eqn:Em.
      - unfold mid_message_detect_eof, force_io_read. destruct (_ || _); [exact C3|]. destruct (read_io (d_conn d)) as [k' [|[n|e]]]; cbn [fst snd] in *; auto. destruct (n =? 0); cbn; auto.
      - exfalso. unfold is_mid_message in Em. unfold can_read_head in Eh. rewrite Hs in Eh. destruct (k_reading (d_conn d)); discriminate. }
    destruct (k_poll_read_keep_alive c (d_conn d)) as [k [|[u|e]]]; cbn [fst snd] in *; try exact Logic.I; now apply FD_tame.
Qed.
Lemma FD_flush c i d : c_pipeline c = false -> wb_wf (k_wb (d_conn d)) -> FD d -> FD (fst (d_flush c i d)).
Proof.
  intros Hp W H. unfold d_flush. pose proof (tame_flush true c (i_blk i) (i_wevs i) (d_conn d)) as T. pose proof (FE_flush (d_in_flight d) c (i_blk i) (i_wevs i) (d_conn d) Hp W (proj2 (proj2 H))) as Q.
  destruct (k_poll_flush c _ _ _) as [k r]. cbn [fst] in *. now apply FD_tame.
Qed.
Lemma end_error room k : k_error (fst (k_end_body room k)) = k_error k.
Proof. unfold k_end_body. destruct (k_writing k); try reflexivity. destruct (enc_end e) as [[|o out]|err]; cbn [fst]; try reflexivity. unfold k_buffer. destruct (wb_buffer _ _ _); reflexivity. Qed.
Lemma body_error c room k b : k_error (k_write_body c room k b) = k_error k.
Proof. unfold k_write_body. destruct (k_writing k); try reflexivity. destruct (encode_buf _ _ _). destruct (negb _); cbn; unfold k_buffer; destruct (wb_buffer _ _ _); reflexivity. Qed.
Lemma trailers_error c room k t : k_error (k_write_trailers c room k t) = k_error k.
Proof. unfold k_write_trailers. destruct (_ && _); [reflexivity|]. destruct (k_writing k); try reflexivity. destruct (encode_trailers _ _ _) as [b|]; [|reflexivity]. cbn. unfold k_buffer. destruct (wb_buffer _ _ _); reflexivity. Qed.
Lemma FD_effect d k : body_effect (d_conn d) k -> k_error k = k_error (d_conn d) -> FD d -> FD (dset_conn d k).
Proof. intros A B' H. apply FD_tame; [apply tame_effect; auto|eapply FE_effect; [exact A|exact B'|apply H]|exact H]. Qed.
Lemma FD_end c i d : FD d -> toldF (end_body_it c i d).
Proof.
  intros H. unfold toldF, end_body_it. pose proof (FD_effect d _ (end_body_effect (i_room i) (d_conn d)) (end_error (i_room i) (d_conn d)) H) as Q. destruct (k_end_body _ _) as [k [u|e]]; [exact Q|exact Logic.I].
Qed.
Lemma FD_write c i d : c_server c = true -> c_pipeline c = false -> wb_wf (k_wb (d_conn d)) -> FD d -> toldF (poll_write_it c i d).
Proof.
  intros Hs Hp W H. unfold poll_write_it. destruct (d_closing d) eqn:Hc; [exact H|].
  destruct (negb (d_body_rx d) && can_write_head c (d_conn d) && should_poll c d) eqn:Ec.
  - apply andb_prop in Ec. destruct Ec as (_ & Ep). unfold should_poll in Ep. rewrite Hs in Ep.
    unfold d_poll_msg. rewrite Hs. unfold toldF. destruct (i_msg i) as [|[[h body]|u]]; cbn [fst snd]; [exact H| |exact Logic.I].
    destruct H as (C1 & C2 & C3). split; [exact C1|]. split; [cbn; rewrite Hc; discriminate|]. cbn [d_in_flight dset_conn dset_body_rx dset_in_flight d_conn].
    destruct (write_head_report c (d_conn d) h body) as (_ & _ & [(_ & E)|(_ & E)]); [|left; destruct E as (e0 & E & _); congruence]. destruct C3 as [C3|[E1 E2 E3 E4]]; [left; congruence|right].
    destruct (write_head_cases c false (d_conn d) h body) as (R & _). rewrite Ep in *.
    assert (k_reading (d_conn d) <> RInit /\ k_reading (d_conn d) <> RClosed) as (A1 & A2) by (split; intros G; [destruct (E3 (or_introl G)) as (_ & _ & F)|destruct (E3 (or_intror G)) as (_ & _ & F)]; discriminate F).
    constructor; rewrite ?R; auto; try contradiction; try discriminate. intros [G|G]; contradiction.
  - destruct (negb (can_buffer_body c (d_conn d))).
    + pose proof (FD_flush c i d Hp W H) as T. destruct (d_flush c i d) as [d' [|[u|e]]]; try exact T. exact Logic.I.
    + destruct (d_body_rx d).
      * destruct (negb (k_can_write_body (d_conn d))); [apply FD_rx, H|]. destruct (i_frame i) as [|[[[b|t|]|u]|]]; try exact H; try exact Logic.I.
        -- destruct (i_eos i); destruct (brem b =? 0); try exact H.
           ++ apply FD_end, FD_rx, H.
           ++ apply (FD_effect (dset_body_rx d false)); [apply write_body_and_end_effect|apply body_and_end_error|exact H].
           ++ apply FD_effect; [apply write_body_effect|apply body_error|exact H].
        -- apply (FD_effect (dset_body_rx d false)); [apply write_trailers_effect|apply trailers_error|exact H].
        -- apply FD_end, FD_rx, H.
      * destruct (k_can_write_body (d_conn d)); [apply FD_end, H|exact H].
Qed.
(* One step: kept, or the future is finished *)
Lemma FD_step c i d : c_server c = true -> c_pipeline c = false -> wb_wf (k_wb (d_conn d)) -> d_pc d <> PDead -> (forall m, In (LIn m) (k_log (d_conn (dstep c i d))) -> in_decode m = DL_ZERO) -> FD d ->
  d_pc (dstep c i d) = PDead \/ FD (dstep c i d).
Proof.
  intros Hs Hp W Hd Hm H.
  assert (forall d e, d_pc (d_fail c d e) = PDead) as DF by (intros d0 e0; unfold d_fail; destruct (recv_error _ _ _); unfold d_complete; now rewrite d_drop_eq).
  assert (forall d1, d_pc (match take_error (d_conn d1) with (k, Ok _) => d_complete (dset_conn d1 k) None | (k, Err e) => d_fail c (dset_conn d1 k) e end) = PDead) as DT.
  { intros d1. unfold take_error. destruct (k_error (d_conn d1)); [apply DF|]. unfold d_complete. now rewrite d_drop_eq. }
  unfold dstep in *. destruct (d_pc d) as [|n|n|n wr|n| | |] eqn:Ep; try contradiction.
  - right. exact H.
  - pose proof (FD_read c i d Hs H) as T. unfold toldF in T. destruct (poll_read_it c i d) as [d' [|[|[u|e]]]]; cbn [fst snd] in T; auto; right; apply T; exact Hm.
  - pose proof (FD_write c i d Hs Hp W H) as T. unfold toldF in T. destruct (poll_write_it c i d) as [d' [|[|[u|e]]]]; cbn [fst snd] in T; auto.
  - pose proof (FD_flush c i d Hp W H) as T. destruct (d_flush c i d) as [d' [|[u|e]]]; cbn [fst] in T; auto; right; unfold wants_read_again; apply FD_pc, FD_conn; auto; apply (FE_same _ (d_conn d')); auto; apply T.
  - pose proof (FD_write c i d Hs Hp W H) as T. unfold toldF in T. destruct (poll_write_it c i d) as [d' [|[|[u|e]]]]; cbn [fst snd] in T; auto.
  - pose proof (FD_flush c i d Hp W H) as T. destruct (d_flush c i d) as [d' [|[u|e]]]; cbn [fst] in T; auto.
  - clear Hm. destruct (d_is_done c d); [|right; exact H]. unfold pending_upgrade. set (d1 := dset_conn d (set_upgrade (d_conn d) false)).
    assert (FD d1 /\ k_wb (d_conn d1) = k_wb (d_conn d)) as (H1 & W1) by (split; [apply FD_conn; auto; apply (FE_same _ (d_conn d)); auto; apply H|reflexivity]). clearbody d1.
    destruct (k_upgrade (d_conn d)); [left; apply DT|]. rewrite W1, Hp. destruct (wb_flush _ _ _ _) as [[[w ev] sent] r] eqn:Ef.
    set (d2 := dset_conn d1 _). assert (FD d2) as H2.
    { subst d2. apply FD_conn; auto. apply FE_wb; [|apply H1]. intros _ R. unfold wb_flush in Ef. cbn [andb] in Ef. rewrite W1 in R. rewrite R in Ef. cbn in Ef. destruct (i_wevs i) as [|[]]; cbn in Ef; injection Ef as <- _ _ _; exact R. }
    clearbody d2. destruct r as [|[u|e]]; auto. destruct (i_shutdown i) as [|[u'|e']]; auto.
Qed.
