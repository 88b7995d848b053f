(* For C49: what the operations of the connection do to the header read timer *)
From Verif Require Import Base M_Src M_Decode M_HeaderMap M_Headers M_Encode M_Role M_RoleEncode M_Buf M_WriteBuf M_Read M_Conn M_Dispatch S_Conn L_Conn L_Moves L_ConnS L_BodyTx.

Definition hquiet (e : levent) : bool := match e with LIn _ | LReturn (Some CHeaderTimeout) => false | _ => true end.
(* No head, no timeout, the timer untouched; a closed reader stays closed *)
Record tq (k k' : conn) : Prop := mkTq {
  tq_timer : k_timer k' = k_timer k;
  tq_running : k_running k' = k_running k;
  tq_error : k_error k' = Some CHeaderTimeout -> k_error k = Some CHeaderTimeout;
  tq_closed : k_reading k = RClosed -> k_reading k' = RClosed;
  tq_log : exists l, k_log k' = k_log k ++ l /\ forallb hquiet l = true
}.
Lemma tq_refl k : tq k k.
Proof. constructor; auto. exists []. rewrite app_nil_r. auto. Qed.
Lemma tq_trans k k' k'' : tq k k' -> tq k' k'' -> tq k k''.
Proof.
  intros [A1 A2 A3 A4 (a & A5 & A6)] [B1 B2 B3 B4 (b & B5 & B6)]. constructor; try congruence; auto.
  exists (a ++ b). rewrite B5, A5, app_assoc, forallb_app, A6, B6. auto.
Qed.
Lemma tq_upd k k' : k_timer k' = k_timer k -> k_running k' = k_running k -> k_error k' = k_error k -> (k_reading k = RClosed -> k_reading k' = RClosed) -> k_log k' = k_log k -> tq k k'.
Proof. intros A B' C D E. constructor; try congruence; auto. exists []. rewrite app_nil_r. auto. Qed.
Lemma tq_log_of k l : forallb hquiet l = true -> tq k (log k l).
Proof. intros H. constructor; auto. exists l. auto. Qed.
Ltac tsame := apply tq_upd; [reflexivity|reflexivity|reflexivity|try (intros; reflexivity); try (exact (fun H => H)); try (let Q := fresh in intros Q; try (cbn; exact Q); try congruence; fail)|reflexivity].
Lemma tq_io k : tq k (fst (read_io k)).
Proof. unfold read_io. destruct (r_read_io (k_rd k)). tsame. Qed.
Lemma tq_st_try c k : tq k (st_try_keep_alive c k).
Proof.
  unfold st_try_keep_alive, idle. destruct (k_reading k) eqn:Er; try tsame; destruct (k_writing k); try tsame. destruct (k_ka k); try tsame. destruct (c_server c), (c_timeout c); tsame.
Qed.
Lemma tq_try c blk k : tq k (try_keep_alive c blk k).
Proof.
  unfold try_keep_alive. eapply tq_trans; [apply (tq_st_try c)|]. generalize (st_try_keep_alive c k). clear k. intros k.
  unfold maybe_notify. destruct (k_reading k) eqn:Er; try tsame. pose proof (tq_io k) as H1.
  destruct (k_writing k); try tsame; (destruct blk; [tsame|]; destruct (r_buf (k_rd k)); [|tsame]; destruct (read_io k) as [k' [|[n|e]]]; cbn [fst] in *; [exact H1| |]; (eapply tq_trans; [exact H1|]);
    [destruct (n =? 0); [destruct (is_idle k')|]; tsame|eapply tq_trans with (k' := st_close k'); [tsame|]; constructor; auto; [discriminate|exists []; rewrite app_nil_r; auto]]).
Qed.
Lemma tq_flush c blk wevs k : tq k (fst (k_poll_flush c blk wevs k)).
Proof.
  unfold k_poll_flush. destruct (wb_flush _ _ _ _) as [[[w ev] sent] r].
  assert (tq k (log (set_wb k w) (match sent with [] => [] | _ => [LSent sent] end))) as H1.
  { destruct sent as [|x sent]; (eapply tq_trans; [|apply tq_log_of; reflexivity]); tsame. }
  destruct r as [|[u|e]]; cbn [fst]; [exact H1|eapply tq_trans; [exact H1|apply tq_try]|exact H1].
Qed.
Lemma tq_err k e : e <> CHeaderTimeout -> tq k (set_error k (Some e)).
Proof. intros H. constructor; auto; [cbn; congruence|]. exists []. rewrite app_nil_r. auto. Qed.
(* A list of events at the end of the log *)
Ltac tadd l := constructor; [reflexivity|reflexivity|exact (fun H => H)|exact (fun H => H)|exists l; cbn [k_log log set_writing set_wb]; rewrite <- ?app_assoc; split; [reflexivity|auto]].
Lemma tq_write_body c room k b : tq k (k_write_body c room k b).
Proof.
  unfold k_write_body, k_buffer. destruct (k_writing k); try apply tq_refl. destruct (encode_buf _ _ _) as [e' eb].
  destruct (wb_buffer _ _ _), (enc_is_eof e'); cbn [negb]; first [tadd [LBody (buf_bytes eb); LEnd]|tadd [LBody (buf_bytes eb)]].
Qed.
Lemma tq_trailers c room k t : tq k (k_write_trailers c room k t).
Proof.
  unfold k_write_trailers, k_buffer. destruct (_ && _); [apply tq_refl|]. destruct (k_writing k); try apply tq_refl.
  destruct (encode_trailers e t _) as [out|]; [|apply tq_refl]. destruct (wb_buffer _ _ _); tadd [LBody out; LEnd].
Qed.
Lemma tq_body_and_end c room k b : tq k (k_write_body_and_end c room k b).
Proof.
  unfold k_write_body_and_end, k_buffer. destruct (k_writing k); try apply tq_refl.
  set (short := match ekind e with KLength n => brem b <? n | _ => false end).
  destruct (wb_buffer _ _ _); tadd [LBody (buf_bytes (encode_and_end_buf (c_take_vec c) e b)); if short then LAbort else LEnd]; destruct short; reflexivity.
Qed.
Lemma tq_end_body room k : tq k (fst (k_end_body room k)).
Proof.
  unfold k_end_body, k_buffer. destruct (k_writing k); try apply tq_refl. destruct (enc_end e) as [[|x out]|u]; cbn [fst].
  - tadd [LEnd].
  - destruct (wb_buffer _ _ _); tadd [LBody (x :: out); LEnd].
  - tadd [LAbort].
Qed.
Lemma tq_enforce k h : let k' := fst (enforce_version k h) in
  k_timer k' = k_timer k /\ k_running k' = k_running k /\ k_error k' = k_error k.
Proof.
  unfold enforce_version, fix_keep_alive.
  remember (match hm_get (o_headers h) (B "connection") with Some v => connection_keep_alive v | None => false end) as og eqn:E.
  clear E. destruct (k_version k); auto; [destruct og; auto; destruct (o_version h); auto; destruct (wants_keep_alive k); auto|destruct (k_ka k); auto].
Qed.
Lemma tq_write_head c auto k h body : tq k (write_head c auto k h body).
Proof.
  unfold write_head, encode_head. set (k0 := if c_server c then k else _).
  assert (tq k k0) as H0.
  { subst k0. unfold busy. destruct (c_server c); [apply tq_refl|]. match goal with |- context [if ?b then _ else _] => destruct b end; destruct (k_ka k) eqn:Ek; tsame. }
  clearbody k0. eapply tq_trans; [exact H0|]. clear H0. pose proof (enforce_frame k0 h) as Q. pose proof (tq_enforce k0 h) as T. destruct (enforce_version k0 h) as [k1 h1]. cbn [fst] in T. destruct Q as (Q & Q2 & _). destruct T as (T1 & T2 & T3).
  assert (tq k0 k1) as H1 by (apply tq_upd; auto; congruence). eapply tq_trans; [exact H1|]. clear H1 Q Q2 T1 T2 T3.
  destruct (t_encode c k1 h1 body) as [[out m] [e|e]] eqn:Et.
  - constructor; [reflexivity|reflexivity|exact (fun H => H)|exact (fun H => H)|]. exists (LHead auto h1 out :: (if enc_is_eof e then [LEnd] else [])). cbn. rewrite <- app_assoc. split; [reflexivity|]. destruct (enc_is_eof e); reflexivity.
  - constructor; [reflexivity|reflexivity| |exact (fun H => H)|].
    + intros F. injection F as ->. unfold t_encode in Et. destruct (o_subject h1); [destruct (server_encode _ _ _) as [o [?|?]]; inversion Et|destruct (client_encode _) as [[? ?]|]; inversion Et].
    + exists [LHeadFail out]. auto.
Qed.
Ltac tlog := eapply tq_trans; [|apply tq_log_of; reflexivity].
Lemma tq_read_body c blk k : tq k (fst (k_poll_read_body c blk k)).
Proof.
  assert (forall k d, k_reading k <> RClosed -> tq k (fst (read_body_state c blk k d))) as R.
  { clear. intros k d Hr. unfold read_body_state, k_decode. destruct (decode _ _ _) as [[d' s] r].
    set (k1 := set_rd k _). assert (tq k k1 /\ k_reading k1 <> RClosed) as (H1 & H2) by (split; [tsame|exact Hr]). clearbody k1.
    destruct r as [|[[x|t]|e]].
    - cbn [fst]. eapply tq_trans; [exact H1|]. tsame.
    - destruct (is_eof d').
      + destruct x; cbn [fst]; (eapply tq_trans; [exact H1|]; eapply tq_trans; [|apply tq_try]; tlog; tsame).
      + destruct x; cbn [fst]; (eapply tq_trans; [exact H1|]); [eapply tq_trans; [|apply tq_try]; tsame|tlog; tsame].
    - cbn [fst]. eapply tq_trans; [exact H1|]. eapply tq_trans; [|apply tq_try]. tlog. tsame.
    - cbn [fst]. eapply tq_trans; [exact H1|]. eapply tq_trans; [|apply tq_try]. tlog. tsame. }
  unfold k_poll_read_body. destruct (k_reading k) eqn:Er; try apply tq_refl.
  - set (k1 := match k_writing k with WInit => _ | _ => k end).
    assert (tq k k1 /\ k_reading k1 = RContinue d) as (H1 & H2) by (subst k1; destruct (k_writing k); (split; [first [apply tq_refl|tlog; tsame]|exact Er])). clearbody k1.
    eapply tq_trans; [exact H1|]. eapply tq_trans with (k' := set_reading k1 (RBody d)); [|apply R; discriminate]. tsame.
  - apply R. congruence.
Qed.
Lemma tq_drain c blk k : tq k (drain_or_close_read c blk k).
Proof.
  unfold drain_or_close_read. set (k1 := match k_reading k with RContinue d => _ | _ => k end).
  assert (tq k k1) as H1 by (subst k1; destruct (k_reading k) eqn:Er; tsame). clearbody k1. eapply tq_trans; [exact H1|]. eapply tq_trans; [apply (tq_read_body c blk)|].
  destruct (k_reading (fst (k_poll_read_body c blk k1))) eqn:Er; try apply tq_refl; tsame.
Qed.
Lemma tq_keep_alive c k : tq k (fst (k_poll_read_keep_alive c k)).
Proof.
  unfold k_poll_read_keep_alive, mid_message_detect_eof, require_empty_read, force_io_read. pose proof (tq_io k) as H1.
  destruct (is_read_closed k); [apply tq_refl|]. destruct (is_mid_message k).
  - destruct (_ || _); [apply tq_refl|]. destruct (read_io k) as [k' [|[n|e]]]; cbn [fst] in *; [exact H1| |eapply tq_trans; [exact H1|tsame]]. destruct (n =? 0); [eapply tq_trans; [exact H1|tsame]|exact H1].
  - destruct (r_buf (k_rd k)); [|apply tq_refl]. destruct (read_io k) as [k' [|[n|e]]]; cbn [fst] in *; [exact H1| |eapply tq_trans; [exact H1|tsame]]. destruct (n =? 0); [eapply tq_trans; [exact H1|tsame]|exact H1].
Qed.
(* Reading a head, with the timer (running or just started) of deadline T:
   a head, an expired timer, a closed reader or another wait *)
Lemma read_head_timer c now blk k t T : c_server c = true -> c_timeout c = Some t ->
  (k_running k = true -> k_timer k = Some T) -> (k_running k = false -> T = now + t) ->
  let k' := fst (k_poll_read_head c now blk k) in
  match snd (k_poll_read_head c now blk k) with
  | Ready (Some (Ok m)) => k_log k' = k_log k ++ LIn m :: (if in_decode m =? DL_ZERO then [LInEnd] else []) /\ k_running k' = false /\ k_error k' = k_error k
  | Ready (Some (Err CHeaderTimeout)) => T <= now /\ k_log k' = k_log k /\ k_error k' = k_error k
  | Pending => (k_reading k' = RClosed \/ (k_running k' = true /\ k_timer k' = Some T /\ now < T)) /\ tq (start_timer c now k) k'
  | _ => k_reading k' = RClosed /\ tq (start_timer c now k) k'
  end.
Proof.
  intros Hs Ht HT1 HT2. unfold k_poll_read_head.
  assert (k_timer (start_timer c now k) = Some T /\ k_running (start_timer c now k) = true /\ k_log (start_timer c now k) = k_log k /\ k_error (start_timer c now k) = k_error k) as (S1 & S2 & S3 & S4).
  { unfold start_timer. destruct (k_running k) eqn:Er; [auto|]. rewrite Ht. rewrite HT2 by reflexivity. auto. }
  remember (start_timer c now k) as k0 eqn:E0. clear E0.
  destruct (io_parse _ _ (k_rd k0)) as [rd [|[m|e]]].
  - cbn [k_running k_timer set_rd]. rewrite S2, S1. destruct (T <=? now) eqn:Et; cbn [fst snd].
    + apply N.leb_le in Et. auto.
    + apply N.leb_gt in Et. split; [right; cbn; auto|tsame].
  - cbn [fst snd]. unfold got_head. rewrite Hs. unfold busy. destruct (in_decode m =? DL_ZERO).
    + destruct (in_keep m), (k_ka (set_h09 (set_timer (set_method (set_rd k0 rd) (in_method m)) None false) false)); cbn; rewrite <- ?app_assoc, S3; auto.
    + destruct (_ && _); destruct (in_keep m), (k_ka (set_h09 (set_timer (set_method (set_rd k0 rd) (in_method m)) None false) false)); cbn; rewrite S3; auto.
  - assert (forall k1 e', tq k0 k1 -> e' <> CHeaderTimeout -> match snd (on_read_head_error c k1 e') with
      | Pending | Ready None => True | Ready (Some (Err e2)) => e2 <> CHeaderTimeout | Ready (Some (Ok _)) => False end /\
      k_reading (fst (on_read_head_error c k1 e')) = RClosed /\ tq k0 (fst (on_read_head_error c k1 e'))) as R.
    { clear. intros k1 e' H He. unfold on_read_head_error.
      set (k2 := set_rd (close_read k1) _). assert (tq k0 k2 /\ k_reading k2 = RClosed) as (H2 & R2) by (split; [eapply tq_trans; [exact H|tsame]|reflexivity]). clearbody k2.
      destruct (_ || _); [|cbn; split; [exact I|]; split; [exact R2|eapply tq_trans; [exact H2|tsame]]].
      unfold on_parse_error. destruct (k_writing k2); try (cbn; auto; fail). destruct (has_h2_prefix k2); [cbn; repeat split; auto; try discriminate; apply H2|].
      destruct (t_on_error c e') as [st|]; [|cbn; auto]. cbn [fst snd]. pose proof (tq_write_head c true k2 (mkO HTTP11 (OResponse st None) [] None) None) as W. split; [exact I|].
      split; [exact (tq_closed _ _ W R2)|]. eapply tq_trans; [exact H2|]. eapply tq_trans; [exact W|]. apply tq_err. exact He. }
    destruct (parse_failure e) as [e' n] eqn:Ep. assert (e' <> CHeaderTimeout) as He by (unfold parse_failure in Ep; destruct e as [[? ?]| | |]; inversion Ep; discriminate).
    match goal with |- context [on_read_head_error c ?x e'] => set (kk := x) end. assert (tq k0 kk) as Hk by (subst kk; tsame). clearbody kk. specialize (R kk e' Hk He).
    destruct (on_read_head_error c kk e') as [k3 r]. cbn [fst snd] in *. destruct R as (R1 & R2 & R3). destruct r as [|[[m|e2]|]]; auto; [destruct R1|]. destruct e2; auto. destruct R1. reflexivity.
Qed.
