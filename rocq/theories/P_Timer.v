(* C49: the header read timeout *)
From Verif Require Import Base M_Src M_Decode M_HeaderMap M_Headers M_Encode M_Role M_RoleEncode M_Buf M_WriteBuf M_Read M_Conn M_Dispatch S_Conn L_Conn L_Moves L_ConnS L_Ka L_BodyTx P_Conn L_Timer.

(* ---- Specification ---- *)
(* The connection is about to read a request head *)
Definition waiting (c : cfg) (d : disp) : Prop :=
  (exists n, d_pc d = PRead n) /\ d_closing d = false /\ can_read_head c (d_conn d) = true /\ d_in_flight d = false.
Definition no_head (l : list levent) : Prop := forall m, ~ In (LIn m) l.
Definition clock (m : move) : N := match m with Step i => i_now i | Env _ => 0 end.

(* ---- Lemmas ---- *)
Definition tqd (d d' : disp) : Prop := tq (d_conn d) (d_conn d').
Lemma hq_outs l : forallb hquiet (map (fun id => LOutcome id OReturned) l) = true.
Proof. induction l; auto. Qed.
Lemma tqd_drop d : tqd d (d_drop d).
Proof.
  unfold tqd. rewrite d_drop_eq. apply tq_log_of. unfold drop_events. rewrite !forallb_app, hq_outs. destruct (d_body_tx d), (d_callback d); reflexivity.
Qed.
Lemma tqd_complete d r : r <> Some CHeaderTimeout -> tqd d (d_complete d r).
Proof. intros H. unfold d_complete. eapply tq_trans; [|apply tqd_drop]. apply tq_log_of. cbn. destruct r as [[]|]; auto. Qed.
Lemma tqd_fail c d e : c_server c = true -> e <> CHeaderTimeout -> tqd d (d_fail c d e).
Proof.
  intros Hs He. unfold d_fail. set (d1 := if d_body_tx d then _ else d). assert (tqd d d1) as H1 by (subst d1; destruct (d_body_tx d); [apply tq_log_of; reflexivity|apply tq_refl]).
  clearbody d1. unfold recv_error. rewrite Hs. eapply tq_trans; [exact H1|]. apply tqd_complete. congruence.
Qed.
Lemma fail_dead c d e : d_pc (d_fail c d e) = PDead.
Proof. unfold d_fail. destruct (recv_error c _ e). unfold d_complete. now rewrite d_drop_eq. Qed.
Lemma tqd_flush c i d : tqd d (fst (d_flush c i d)).
Proof. unfold d_flush, tqd. pose proof (tq_flush c (i_blk i) (i_wevs i) (d_conn d)) as H. destruct (k_poll_flush c _ _ _). exact H. Qed.
Lemma flush_err c i d e : snd (d_flush c i d) = Ready (Err e) -> e = CIo.
Proof. unfold d_flush. destruct (k_poll_flush c _ _ _) as [k [|[u|x]]]; cbn; congruence. Qed.
Lemma tqd_end c i d : tqd d (fst (end_body_it c i d)).
Proof. unfold end_body_it, tqd. pose proof (tq_end_body (i_room i) (d_conn d)) as H. destruct (k_end_body (i_room i) (d_conn d)) as [k [u|e]]; exact H. Qed.
Lemma end_err c i d e : snd (end_body_it c i d) = Ret (Ready (Err e)) -> e <> CHeaderTimeout.
Proof. unfold end_body_it, k_end_body. destruct (k_writing _); try discriminate. destruct (enc_end _); cbn; try discriminate. congruence. Qed.
Lemma tqd_write c i d : c_server c = true -> tqd d (fst (poll_write_it c i d)) /\ forall e, snd (poll_write_it c i d) = Ret (Ready (Err e)) -> e <> CHeaderTimeout.
Proof.
  intros Hs. unfold poll_write_it. destruct (d_closing d); [split; [apply tq_refl|discriminate]|]. destruct (negb (d_body_rx d) && _ && _).
  - unfold d_poll_msg. rewrite Hs. destruct (i_msg i) as [|[[h body]|u]]; cbn [fst snd].
    + split; [apply tq_refl|discriminate].
    + split; [apply tq_write_head|discriminate].
    + split; [apply tq_refl|unfold user_error; congruence].
  - destruct (negb (can_buffer_body c (d_conn d))).
    + pose proof (tqd_flush c i d) as H1. pose proof (flush_err c i d) as H2. destruct (d_flush c i d) as [d' [|[u|e]]]; cbn [fst snd] in *; (split; [exact H1|]); try discriminate.
      intros e' E. injection E as <-. rewrite (H2 e eq_refl). discriminate.
    + destruct (d_body_rx d).
      * destruct (negb (k_can_write_body (d_conn d))); [split; [apply tq_refl|discriminate]|]. destruct (i_frame i) as [|[[[b|t|]|u]|]]; try (split; [apply tq_refl|cbn; unfold user_error; congruence]).
        -- destruct (i_eos i); destruct (brem b =? 0); try (split; [apply tq_refl|discriminate]).
           ++ split; [apply (tqd_end c i (dset_body_rx d false))|apply end_err].
           ++ split; [apply tq_body_and_end|discriminate].
           ++ split; [apply tq_write_body|discriminate].
        -- split; [apply tq_trailers|discriminate].
        -- split; [apply (tqd_end c i (dset_body_rx d false))|apply end_err].
      * destruct (k_can_write_body (d_conn d)); [split; [apply tqd_end|apply end_err]|split; [apply tq_refl|discriminate]].
Qed.
Lemma keep_alive_err c k e : snd (k_poll_read_keep_alive c k) = Ready (Err e) -> e <> CHeaderTimeout.
Proof.
  unfold k_poll_read_keep_alive, mid_message_detect_eof, require_empty_read, force_io_read.
  destruct (is_read_closed k); [discriminate|]. destruct (is_mid_message k).
  - destruct (_ || _); [discriminate|]. destruct (read_io k) as [k' [|[n|x]]]; cbn; try congruence. destruct (n =? 0); cbn; congruence.
  - destruct (r_buf (k_rd k)); [|cbn; congruence]. destruct (read_io k) as [k' [|[n|x]]]; cbn; try congruence. destruct (n =? 0); [destruct (should_error_on_eof c k')|]; cbn; congruence.
Qed.
(* Reading, except a head *)
Lemma tqd_read c i d : c_server c = true -> d_closing d = true \/ can_read_head c (d_conn d) = false \/ d_in_flight d = true ->
  tqd d (fst (poll_read_it c i d)) /\ forall e, snd (poll_read_it c i d) = Ret (Ready (Err e)) -> e <> CHeaderTimeout.
Proof.
  intros Hs Hw. unfold poll_read_it. destruct (d_closing d); [split; [apply tq_refl|discriminate]|]. destruct (can_read_head c (d_conn d)) eqn:Eh.
  - destruct Hw as [Hw|[Hw|Hw]]; try discriminate Hw. unfold d_poll_read_head, d_poll_ready. rewrite Hs, Hw. split; [apply tq_refl|discriminate].
  - destruct (d_body_tx d).
    + destruct (can_read_body (d_conn d)); [|split; [apply tq_log_of; reflexivity|discriminate]].
      destruct (i_body i); [..|split; [apply tq_drain|discriminate]].
      all: try (split; [apply tq_refl|discriminate]).
      pose proof (tq_read_body c (i_blk i) (log (d_conn d) [LWant])) as H. assert (tq (d_conn d) (log (d_conn d) [LWant])) as H0 by (apply tq_log_of; reflexivity).
      destruct (k_poll_read_body c _ _) as [k r]. cbn [fst] in H. assert (tq (d_conn d) k) as H1 by (eapply tq_trans; eassumption).
      destruct r as [|[[x|e]|]]; cbn [fst snd].
      * split; [exact H1|discriminate].
      * destruct (i_send i); (split; [|discriminate]); [exact H1|]. cbn [d_conn dset_body_tx dset_conn]. destruct (can_read_body k); [|exact H1].
        eapply tq_trans; [exact H1|]. tsame.
      * split; [|discriminate]. eapply tq_trans; [exact H1|apply tq_log_of; reflexivity].
      * split; [|discriminate]. eapply tq_trans; [exact H1|apply tq_log_of; reflexivity].
    + pose proof (tq_keep_alive c (d_conn d)) as H. pose proof (keep_alive_err c (d_conn d)) as H2. destruct (k_poll_read_keep_alive c (d_conn d)) as [k r]. cbn [fst snd] in *.
      split; [exact H|]. intros e E. injection E as E. apply H2. exact E.
Qed.
Lemma not_waiting c d : (exists n, d_pc d = PRead n) -> ~ waiting c d -> d_closing d = true \/ can_read_head c (d_conn d) = false \/ d_in_flight d = true.
Proof.
  intros Hn Hw. unfold waiting in Hw. destruct (d_closing d) eqn:E1; auto. destruct (can_read_head c (d_conn d)) eqn:E2; auto. destruct (d_in_flight d) eqn:E3; auto. destruct Hw. auto.
Qed.
Lemma other_step c i d : c_server c = true -> k_error (d_conn d) <> Some CHeaderTimeout -> ~ waiting c d -> tqd d (dstep c i d).
Proof.
  intros Hs He Hw. unfold dstep. destruct (d_pc d) as [|n|n|n wr|n| | |] eqn:Ep.
  - apply tq_refl.
  - destruct (tqd_read c i d Hs (not_waiting c d (ex_intro _ n Ep) Hw)) as (H1 & H2). destruct (poll_read_it c i d) as [d' [|[|[u|e]]]]; cbn [fst snd] in *; try exact H1. eapply tq_trans; [exact H1|apply tqd_fail; auto].
  - destruct (tqd_write c i d Hs) as (H1 & H2). destruct (poll_write_it c i d) as [d' [|[|[u|e]]]]; cbn [fst snd] in *; try exact H1. eapply tq_trans; [exact H1|apply tqd_fail; auto].
  - pose proof (tqd_flush c i d) as H1. pose proof (flush_err c i d) as H2. destruct (d_flush c i d) as [d' [|[u|e]]]; cbn [fst snd] in *; [| |eapply tq_trans; [exact H1|apply tqd_fail; auto; rewrite (H2 e eq_refl); discriminate]]; (eapply tq_trans; [exact H1|]); unfold wants_read_again; tsame.
  - destruct (tqd_write c i d Hs) as (H1 & H2). destruct (poll_write_it c i d) as [d' [|[|[u|e]]]]; cbn [fst snd] in *; try exact H1. eapply tq_trans; [exact H1|apply tqd_fail; auto].
  - pose proof (tqd_flush c i d) as H1. pose proof (flush_err c i d) as H2. destruct (d_flush c i d) as [d' [|[u|e]]]; cbn [fst snd] in *; try exact H1. eapply tq_trans; [exact H1|apply tqd_fail; auto; rewrite (H2 e eq_refl); discriminate].
  - destruct (d_is_done c d); [|apply tq_refl]. unfold pending_upgrade. set (d1 := dset_conn d (set_upgrade (d_conn d) false)).
    assert (tqd d d1 /\ k_error (d_conn d1) <> Some CHeaderTimeout) as (H1 & E1) by (split; [subst d1; unfold tqd; tsame|exact He]). clearbody d1. unfold tqd in *. apply tq_trans with (k' := d_conn d1); [exact H1|]. clear H1.
    assert (forall d1, k_error (d_conn d1) <> Some CHeaderTimeout -> tq (d_conn d1) (d_conn (match take_error (d_conn d1) with (k, Ok _) => d_complete (dset_conn d1 k) None | (k, Err e) => d_fail c (dset_conn d1 k) e end))) as T.
    { clear - Hs. intros d1 E1. unfold take_error. destruct (k_error (d_conn d1)) as [e|] eqn:Ee.
      - eapply tq_trans; [|apply (tqd_fail c (dset_conn d1 (set_error (d_conn d1) None)) e Hs); congruence]. constructor; auto; [discriminate|]. exists []. rewrite app_nil_r. auto.
      - apply (tqd_complete (dset_conn d1 (d_conn d1)) None). discriminate. }
    destruct (k_upgrade (d_conn d)); [apply T, E1|]. destruct (wb_flush _ _ _ _) as [[[w ev] sent] r].
    set (d2 := dset_conn d1 _). assert (tq (d_conn d1) (d_conn d2) /\ k_error (d_conn d2) <> Some CHeaderTimeout) as (H2 & E2).
    { split; [|exact E1]. destruct sent as [|x sent]; (eapply tq_trans; [|apply tq_log_of; reflexivity]); tsame. }
    apply tq_trans with (k' := d_conn d2); [exact H2|]. clearbody d2. destruct r as [|[u|e]]; [apply tq_refl| |apply (tqd_fail c d2 CIo); [exact Hs|discriminate]].
    destruct (i_shutdown i) as [|[u'|e']]; [apply tq_refl| |apply (tqd_fail c d2 CIo); [exact Hs|discriminate]].
    eapply tq_trans; [|apply (T (dlog d2 [LShutdown])); exact E2]. apply tq_log_of. reflexivity.
  - apply tq_refl.
Qed.
Lemma env_step c e d : tqd d (estep c e d).
Proof.
  destruct e as [s| | |]; cbn.
  - destruct (c_server c); apply tq_refl.
  - destruct (d_pc d); try apply tq_refl. destruct (c_server c); [|apply tq_refl]. unfold d_graceful, tqd, k_disable_keep_alive.
    destruct (is_idle (d_conn d)); cbn [d_conn dset_conn]; match goal with |- context [if ?b then _ else _] => destruct b end; tsame.
  - destruct (d_pc d); try apply tq_refl. apply tqd_drop.
  - destruct (d_pc d), (k_log (d_conn d)) eqn:El; try apply tq_refl. destruct (c_server c); tsame.
Qed.
(* Reading a head *)
Lemma head_step c i d t T : c_server c = true -> c_timeout c = Some t -> waiting c d ->
  (k_running (d_conn d) = true -> k_timer (d_conn d) = Some T) -> (k_running (d_conn d) = false -> T = i_now i + t) ->
  let k := d_conn d in let d' := dstep c i d in let k' := d_conn d' in
  (exists m l, k_log k' = k_log k ++ LIn m :: l /\ forallb hquiet l = true /\ k_running k' = false /\ k_error k' = k_error k) \/
  (T <= i_now i /\ d_pc d' = PDead /\ (exists l, k_log k' = k_log k ++ l /\ no_head l /\ In (LReturn (Some CHeaderTimeout)) l) /\ (k_running k' = false) /\ (k_error k' = k_error k)) \/
  ((k_reading k' = RClosed \/ (k_running k' = true /\ k_timer k' = Some T /\ i_now i < T)) /\ tq (start_timer c (i_now i) k) k').
Proof.
  intros Hs Ht ((n & Ep) & Hc & Hh & Hf) HT1 HT2. cbn zeta. unfold dstep. rewrite Ep. unfold poll_read_it. rewrite Hc, Hh. unfold d_poll_read_head, d_poll_ready. rewrite Hs, Hf.
  pose proof (read_head_timer c (i_now i) (i_blk i) (d_conn d) t T Hs Ht HT1 HT2) as R. cbn zeta in R.
  assert (snd (k_poll_read_head c (i_now i) (i_blk i) (d_conn d)) = Ready (Some (Err CHeaderTimeout)) -> k_running (fst (k_poll_read_head c (i_now i) (i_blk i) (d_conn d))) = false) as RR.
  { clear. unfold k_poll_read_head. destruct (io_parse _ _ _) as [rd [|[m|e]]]; [|discriminate|].
    - match goal with |- context [k_running ?x] => destruct (k_running x), (k_timer x) end; try discriminate. destruct (_ <=? _); [reflexivity|discriminate].
    - destruct (parse_failure e) as [e' n] eqn:Ep. assert (e' <> CHeaderTimeout) as He by (unfold parse_failure in Ep; destruct e as [[? ?]| | |]; inversion Ep; discriminate).
      unfold on_read_head_error, on_parse_error. destruct (_ || _); [|discriminate]. destruct (k_writing _); try (cbn; congruence). destruct (has_h2_prefix _); [cbn; congruence|]. destruct (t_on_error c e'); cbn; congruence. }
  destruct (k_poll_read_head c _ _ _) as [k r]. cbn [fst snd] in *. destruct r as [|[[m|e]|]].
  - right. right. exact R.
  - left. destruct R as (R1 & R2 & R3). unfold recv_ok. rewrite Hs.
    set (d1 := if in_decode m =? DL_ZERO then _ else _). exists m.
    assert (exists l, k_log (d_conn d1) = k_log (d_conn d) ++ LIn m :: l /\ forallb hquiet l = true /\ k_running (d_conn d1) = false /\ k_error (d_conn d1) = k_error (d_conn d)) as (l & L1 & L2 & L3 & L4).
    { subst d1. destruct (in_decode m =? DL_ZERO); [exists [LInEnd]; auto|]. cbn [d_body_tx dset_conn]. destruct (d_body_tx d); cbn; [|exists []; auto]. exists [LBodyEnd]. rewrite R1, <- app_assoc. auto. }
    exists l. clearbody d1. destruct (in_upgrade m); auto.
  - assert (recv_error c (dset_conn d k) e = (dset_conn d k, true)) as Er by (unfold recv_error; now rewrite Hs). rewrite Er.
    destruct (match e with CHeaderTimeout => true | _ => false end) eqn:Ee.
    + right. left. destruct e; try discriminate Ee. destruct R as (R1 & R2 & R3). split; [exact R1|]. split; [apply fail_dead|].
      unfold d_fail. set (d1 := if d_body_tx (dset_conn d k) then _ else _). assert (exists l1, k_log (d_conn d1) = k_log (d_conn d) ++ l1 /\ no_head l1 /\ k_running (d_conn d1) = false /\ k_error (d_conn d1) = k_error (d_conn d)) as (l1 & A & A2 & A3 & A4).
      { subst d1. cbn [d_body_tx dset_conn]. destruct (d_body_tx d); [exists [LBodyFail]|exists []]; cbn; rewrite ?app_nil_r, R2; repeat split; auto; [intros m [F|[]]; discriminate F|intros m []]. }
      clearbody d1. unfold recv_error. rewrite Hs. unfold d_complete. rewrite d_drop_eq. cbn [d_conn]. split; [|split; [exact A3|exact A4]].
      exists (l1 ++ [LReturn (Some CHeaderTimeout)] ++ drop_events (dlog d1 [LReturn (Some CHeaderTimeout)])). cbn [k_log log dlog d_conn dset_conn]. rewrite A, <- !app_assoc. split; [reflexivity|]. split.
      * intros m Hi. rewrite !in_app_iff in Hi. destruct Hi as [Hi|[[Hi|[]]|Hi]]; [now apply (A2 m)|discriminate Hi|]. unfold drop_events in Hi. rewrite !in_app_iff, in_map_iff in Hi.
        destruct Hi as [Hi|[Hi|(x & Hx & _)]]; [destruct (d_body_tx _); [destruct Hi as [Hi|[]]; discriminate Hi|destruct Hi]|destruct (d_callback _); [destruct Hi as [Hi|[]]; discriminate Hi|destruct Hi]|discriminate Hx].
      * apply in_or_app. right. left. reflexivity.
    + assert (k_reading k = RClosed /\ tq (start_timer c (i_now i) (d_conn d)) k) as (R1 & R2) by (destruct e; try exact R; discriminate Ee). right. right.
      pose proof (tqd_fail c (dset_conn d k) e Hs ltac:(intros ->; discriminate Ee)) as F. split; [left; exact (tq_closed _ _ F R1)|]. eapply tq_trans; [exact R2|exact F].
  - right. right. destruct R as (R1 & R2). cbn [d_conn dset_conn]. destruct (is_write_closed k); cbn [d_conn d_close dset_conn dset_closing]; [|auto].
    split; [left; reflexivity|]. eapply tq_trans; [exact R2|]. tsame.
Qed.

(* ---- Theorems ---- *)
Section Timer.
Context (c : cfg) (h09 flat : bool) (wmax : N) (evs : list event) (t : N).
Context (Hs : c_server c = true) (Ht : c_timeout c = Some t).
Notation st ms := (after c h09 flat wmax evs ms).
Notation hist ms := (history c h09 flat wmax evs ms).
(* Since the moves [p], after which a head was asked for, no head has arrived *)
Definition since (p : list move) (i : inp) (ms : list move) : Prop :=
  (exists q, ms = p ++ Step i :: q) /\ waiting c (st p) /\ exists l, hist ms = hist p ++ l /\ no_head l.
Definition expired (ms : list move) : Prop :=
  exists p i q j r, ms = p ++ q ++ Step j :: r /\ hd_error (q ++ [Step j]) = Some (Step i) /\
    waiting c (st p) /\ i_now i + t <= i_now j /\ exists l, hist (p ++ q) = hist p ++ l /\ no_head l.
Record TI (ms : list move) : Prop := mkTI {
  ti_err : k_error (d_conn (st ms)) <> Some CHeaderTimeout;
  ti_run : k_running (d_conn (st ms)) = true -> exists p i, since p i ms /\ k_timer (d_conn (st ms)) = Some (i_now i + t);
  ti_out : In (LReturn (Some CHeaderTimeout)) (hist ms) -> expired ms
}.
Lemma after_snoc ms m : st (ms ++ [m]) = dmove c m (st ms).
Proof. unfold after, run. now rewrite fold_left_app. Qed.
Lemma quiet_no_head l : forallb hquiet l = true -> no_head l.
Proof. intros H m Hi. rewrite forallb_forall in H. discriminate (H _ Hi). Qed.
Lemma quiet_no_timeout l : forallb hquiet l = true -> ~ In (LReturn (Some CHeaderTimeout)) l.
Proof. intros H Hi. rewrite forallb_forall in H. discriminate (H _ Hi). Qed.
Lemma expired_snoc ms m : expired ms -> expired (ms ++ [m]).
Proof.
  intros (p & i & q & j & r & -> & A). exists p, i, q, j, (r ++ [m]). split; [rewrite <- !app_assoc; reflexivity|exact A].
Qed.
Lemma since_snoc p i ms m l : since p i ms -> hist (ms ++ [m]) = hist ms ++ l -> no_head l -> since p i (ms ++ [m]).
Proof.
  intros ((q & ->) & W & l0 & A & B') Hl Hn. split; [exists (q ++ [m]); rewrite <- app_assoc; reflexivity|]. split; [exact W|].
  exists (l0 ++ l). split; [rewrite Hl, A, app_assoc; reflexivity|]. intros x Hi. apply in_app_or in Hi. destruct Hi as [Hi|Hi]; [now apply (B' x)|now apply (Hn x)].
Qed.
Lemma waiting_dec d : waiting c d \/ ~ waiting c d.
Proof.
  unfold waiting. destruct (d_pc d) as [|n|n|n wr|n| | |]; try (right; intros ((n' & F) & _); discriminate F); try (right; intros ((n' & F) & _); congruence).
  destruct (d_closing d); [right; intros (_ & F & _); discriminate F|]. destruct (can_read_head c (d_conn d)); [|right; intros (_ & _ & F & _); discriminate F].
  destruct (d_in_flight d); [right; intros (_ & _ & _ & F); discriminate F|]. left. split; [exists n; reflexivity|auto].
Qed.
Lemma TI_quiet ms m : TI ms -> tqd (st ms) (st (ms ++ [m])) -> TI (ms ++ [m]).
Proof.
  intros [E R O] [Q1 Q2 Q3 Q4 (l & Q5 & Q6)]. constructor.
  - intros F. exact (E (Q3 F)).
  - rewrite Q2, Q1. intros F. destruct (R F) as (p & i & S & T). exists p, i. split; [|exact T]. eapply since_snoc; [exact S|exact Q5|now apply quiet_no_head].
  - intros F. apply expired_snoc, O. unfold history in F. change (In (LReturn (Some CHeaderTimeout)) (k_log (d_conn (st (ms ++ [m]))))) in F. rewrite Q5 in F. apply in_app_or in F. destruct F as [F|F]; [exact F|]. destruct (quiet_no_timeout _ Q6 F).
Qed.
Lemma TI_all ms : TI ms.
Proof.
  induction ms as [|m ms IH] using rev_ind.
  { constructor; [discriminate|discriminate|intros []]. }
  destruct m as [i|e]; [|apply TI_quiet; [exact IH|rewrite after_snoc; apply env_step]].
  destruct (waiting_dec (st ms)) as [W|W]; [|apply TI_quiet; [exact IH|rewrite after_snoc; apply other_step; [exact Hs|apply IH|exact W]]].
  destruct IH as [E R O].
  (* the deadline and where it comes from *)
  assert (exists p i0 T, T = i_now i0 + t /\ (since p i0 ms \/ (p = ms /\ i0 = i)) /\ (k_running (d_conn (st ms)) = true -> k_timer (d_conn (st ms)) = Some T) /\ (k_running (d_conn (st ms)) = false -> T = i_now i + t) /\ k_timer (start_timer c (i_now i) (d_conn (st ms))) = Some T) as (p & i0 & T & -> & Hp & HT1 & HT2 & HT3).
  { unfold start_timer. destruct (k_running (d_conn (st ms))) eqn:Er.
    - destruct (R eq_refl) as (p & i0 & S & T). exists p, i0, (i_now i0 + t). repeat split; auto. discriminate.
    - exists ms, i, (i_now i + t). repeat split; auto; [discriminate|]. rewrite Ht. reflexivity. }
  pose proof (head_step c i (st ms) t _ Hs Ht W HT1 HT2) as H. cbn zeta in H. change (dstep c i (st ms)) with (dmove c (Step i) (st ms)) in H. rewrite <- after_snoc in H.
  assert (since p i0 ms \/ (p = ms /\ i0 = i) -> i_now i0 + t <= i_now i -> forall r, expired (ms ++ Step i :: r)) as X.
  { intros [((q & ->) & W0 & l & A & B')|(-> & ->)] Hle r.
    - exists p, i0, (Step i0 :: q), i, r. split; [rewrite <- app_assoc; reflexivity|]. split; [reflexivity|]. split; [exact W0|]. split; [exact Hle|]. exists l. auto.
    - exists ms, i, [], i, r. split; [reflexivity|]. split; [reflexivity|]. split; [exact W|]. split; [exact Hle|]. exists []. rewrite !app_nil_r. split; [reflexivity|intros m []]. }
  destruct H as [(m & l & L1 & L2 & L3 & L4)|[(L1 & L2 & L3 & L4 & L5)|(L1 & [Q1 Q2 Q3 Q4 (l & Q5 & Q6)])]].
  - constructor; [congruence|congruence|]. intros F. apply expired_snoc, O. unfold history in F. change (In (LReturn (Some CHeaderTimeout)) (k_log (d_conn (st (ms ++ [Step i]))))) in F. rewrite L1 in F.
    apply in_app_or in F. destruct F as [F|[F|F]]; [exact F|discriminate F|destruct (quiet_no_timeout _ L2 F)].
  - constructor; [congruence|congruence|]. intros _. exact (X Hp L1 []).
  - assert (k_error (start_timer c (i_now i) (d_conn (st ms))) = k_error (d_conn (st ms)) /\ k_log (start_timer c (i_now i) (d_conn (st ms))) = k_log (d_conn (st ms))) as (S1 & S2).
    { unfold start_timer. destruct (k_running _); [auto|]. destruct (c_timeout c); auto. }
    rewrite S2 in Q5. constructor.
    + intros F. apply E. rewrite <- S1. exact (Q3 F).
    + intros _. exists p, i0. split; [|rewrite Q1; exact HT3]. destruct Hp as [Hp|(-> & ->)].
      * eapply since_snoc; [exact Hp|exact Q5|now apply quiet_no_head].
      * split; [exists []; reflexivity|]. split; [exact W|]. exists l. split; [exact Q5|now apply quiet_no_head].
    + intros F. apply expired_snoc, O. unfold history in F. change (In (LReturn (Some CHeaderTimeout)) (k_log (d_conn (st (ms ++ [Step i]))))) in F. rewrite Q5 in F. apply in_app_or in F. destruct F as [F|F]; [exact F|]. destruct (quiet_no_timeout _ Q6 F).
Qed.

(* The connection is dropped for the timeout only when, for at least the time set,
   it had been asking for one head that did not arrive *)
Theorem C49_not_early : forall ms, In (LReturn (Some CHeaderTimeout)) (hist ms) ->
  exists p i q j r, ms = p ++ q ++ Step j :: r /\ hd_error (q ++ [Step j]) = Some (Step i) /\
    waiting c (st p) /\ i_now i + t <= i_now j /\ exists l, hist (p ++ q) = hist p ++ l /\ no_head l.
Proof. intros ms. apply TI_all. Qed.

(* While no head arrives, the deadline set by a first attempt stays *)
Definition kept (T : N) (d : disp) : Prop :=
  d_pc d = PDead \/ k_reading (d_conn d) = RClosed \/ (k_running (d_conn d) = true /\ exists T', k_timer (d_conn d) = Some T' /\ T' <= T).
Lemma dead_stays q d : d_pc d = PDead -> run c q d = d.
Proof. intros H. induction q as [|[i|e] q IH]; [reflexivity|..]; cbn; [unfold dstep; rewrite H; exact IH|]. destruct e as [s| | |]; cbn; rewrite ?Hs, ?H; exact IH. Qed.
Lemma reading_can c' k : can_read_head c' k = true -> k_reading k <> RClosed.
Proof. unfold can_read_head. destruct (k_reading k); discriminate. Qed.
(* A deadline for the next attempt *)
Lemma deadline ms j : exists T, (k_running (d_conn (st ms)) = true -> k_timer (d_conn (st ms)) = Some T) /\ (k_running (d_conn (st ms)) = false -> T = i_now j + t).
Proof.
  pose proof (TI_all ms) as [E R O]. destruct (k_running (d_conn (st ms))); [destruct (R eq_refl) as (p0 & i0 & _ & T); exists (i_now i0 + t); split; auto; discriminate|exists (i_now j + t); split; [discriminate|auto]].
Qed.
Lemma start_log now k : k_log (start_timer c now k) = k_log k.
Proof. unfold start_timer. destruct (k_running k); [auto|]. destruct (c_timeout c); auto. Qed.
Lemma hist_snoc ms m : exists l, hist (ms ++ [m]) = hist ms ++ l.
Proof.
  unfold history. change (exists l2, k_log (d_conn (st (ms ++ [m]))) = k_log (d_conn (st ms)) ++ l2).
  pose proof (TI_all ms) as [E R O]. destruct m as [j|e]; [|rewrite after_snoc; destruct (env_step c e (st ms)) as [_ _ _ _ (x & X & _)]; eauto].
  destruct (waiting_dec (st ms)) as [W2|W2]; [|rewrite after_snoc; destruct (other_step c j (st ms) Hs E W2) as [_ _ _ _ (x & X & _)]; eauto].
  destruct (deadline ms j) as (T & HT1 & HT2).
  pose proof (head_step c j (st ms) t _ Hs Ht W2 HT1 HT2) as H. cbn zeta in H. change (dstep c j (st ms)) with (dmove c (Step j) (st ms)) in H. rewrite <- after_snoc in H.
  destruct H as [(m & l' & L1 & _)|[(_ & _ & (l' & L1 & _) & _)|(_ & [_ _ _ _ (x & X & _)])]]; eauto. rewrite start_log in X. eauto.
Qed.
Lemma hist_app p q : exists l, hist (p ++ q) = hist p ++ l.
Proof.
  induction q as [|m q (l & IH)] using rev_ind; [exists []; now rewrite !app_nil_r|]. rewrite app_assoc. destruct (hist_snoc (p ++ q) m) as (l' & E). exists (l ++ l'). now rewrite E, IH, app_assoc.
Qed.
Lemma kept_step T ms m l : kept T (st ms) -> hist (ms ++ [m]) = hist ms ++ l -> no_head l -> kept T (st (ms ++ [m])).
Proof.
  intros K Hl Hn. pose proof (TI_all ms) as [E R O].
  assert (tqd (st ms) (st (ms ++ [m])) -> kept T (st (ms ++ [m]))) as Q.
  { intros [Q1 Q2 Q3 Q4 _]. destruct K as [K|[K|(K1 & T' & K2 & K3)]].
    - left. rewrite after_snoc. destruct m as [j|e]; cbn; [unfold dstep; rewrite K; exact K|destruct e; cbn; rewrite ?Hs, ?K; auto].
    - right. left. auto.
    - right. right. split; [congruence|]. exists T'. split; [congruence|exact K3]. }
  destruct m as [j|e]; [|apply Q; rewrite after_snoc; apply env_step].
  destruct (waiting_dec (st ms)) as [W|W]; [|apply Q; rewrite after_snoc; now apply other_step].
  destruct W as ((n & Wp) & W). destruct K as [K|[K|(K1 & T' & K2 & K3)]]; [congruence|destruct W as (_ & W & _); destruct (reading_can _ _ W K)|].
  pose proof (head_step c j (st ms) t T' Hs Ht (conj (ex_intro _ n Wp) W) (fun _ => K2) (fun F => ltac:(congruence))) as H. cbn zeta in H. change (dstep c j (st ms)) with (dmove c (Step j) (st ms)) in H. rewrite <- after_snoc in H.
  destruct H as [(m & l' & L1 & _)|[(_ & L2 & _)|([L1|(L1 & L2 & _)] & _)]].
  - exfalso. change (hist (ms ++ [Step j]) = hist ms ++ LIn m :: l') in L1. rewrite Hl in L1. apply app_inv_head in L1. subst l. apply (Hn m). left. reflexivity.
  - left. exact L2.
  - right. left. exact L1.
  - right. right. split; [exact L1|]. exists T'. auto.
Qed.
Lemma kept_all p i q : waiting c (st p) -> Forall (fun m => clock m <= i_now i) p ->
  (exists l, hist (p ++ Step i :: q) = hist p ++ l /\ no_head l) -> kept (i_now i + t) (st (p ++ Step i :: q)).
Proof.
  intros W Hclk. induction q as [|m q IH] using rev_ind; intros (l & Hl & Hn).
  - pose proof (TI_all p) as [E R O].
    assert (exists T, T <= i_now i + t /\ (k_running (d_conn (st p)) = true -> k_timer (d_conn (st p)) = Some T) /\ (k_running (d_conn (st p)) = false -> T = i_now i + t)) as (T & HT & HT1 & HT2).
    { destruct (k_running (d_conn (st p))) eqn:Er; [|exists (i_now i + t); repeat split; auto; [lia|discriminate]].
      destruct (R eq_refl) as (p0 & i0 & ((q0 & ->) & _) & T). exists (i_now i0 + t). split; [|split; [auto|discriminate]].
      rewrite Forall_app in Hclk. destruct Hclk as (_ & Hclk). inversion Hclk as [|? ? Hle ?]. cbn in Hle. lia. }
    pose proof (head_step c i (st p) t _ Hs Ht W HT1 HT2) as H. cbn zeta in H. change (dstep c i (st p)) with (dmove c (Step i) (st p)) in H. rewrite <- after_snoc in H.
    destruct H as [(m & l' & L1 & _)|[(_ & L2 & _)|([L1|(L1 & L2 & _)] & _)]].
    + exfalso. change (hist (p ++ [Step i]) = hist p ++ LIn m :: l') in L1. rewrite Hl in L1. apply app_inv_head in L1. subst l. apply (Hn m). left. reflexivity.
    + left. exact L2.
    + right. left. exact L1.
    + right. right. split; [exact L1|]. exists T. auto.
  - replace (p ++ Step i :: q ++ [m]) with ((p ++ Step i :: q) ++ [m]) in * by (rewrite <- app_assoc; reflexivity).
    destruct (hist_snoc (p ++ Step i :: q) m) as (l2 & H2). destruct (hist_app p (Step i :: q)) as (l0 & H0).
    assert (l = l0 ++ l2) as -> by (rewrite H2, H0, <- app_assoc in Hl; now apply app_inv_head in Hl).
    apply kept_step with (l := l2); [|exact H2|intros x Hx; apply (Hn x), in_or_app; auto].
    apply IH. exists l0. split; [exact H0|]. intros x Hx. apply (Hn x), in_or_app. auto.
Qed.
(* Once the time has passed without a head, the next attempt to read one ends
   the connection, unless this attempt gets a head, or finds that the input has
   ended or is refused *)
Theorem C49_in_time : forall p i q j, waiting c (st p) -> Forall (fun m => clock m <= i_now i) p ->
  waiting c (st (p ++ Step i :: q)) -> (exists l, hist (p ++ Step i :: q) = hist p ++ l /\ no_head l) ->
  i_now i + t <= i_now j ->
  let d := st (p ++ Step i :: q ++ [Step j]) in
  exists l, hist (p ++ Step i :: q ++ [Step j]) = hist (p ++ Step i :: q) ++ l /\
    ((exists m, In (LIn m) l) \/ k_reading (d_conn d) = RClosed \/ (In (LReturn (Some CHeaderTimeout)) l /\ d_pc d = PDead)).
Proof.
  intros p i q j W Hclk W2 Hl Hj d. subst d. pose proof (kept_all p i q W Hclk Hl) as K.
  replace (p ++ Step i :: q ++ [Step j]) with ((p ++ Step i :: q) ++ [Step j]) by (rewrite <- app_assoc; reflexivity). set (ms := p ++ Step i :: q) in *. clearbody ms.
  destruct K as [K|[K|(K1 & T' & K2 & K3)]]; [destruct W2 as ((n & F) & _); congruence|destruct W2 as (_ & _ & F & _); destruct (reading_can _ _ F K)|].
  pose proof (head_step c j (st ms) t T' Hs Ht W2 (fun _ => K2) (fun F => ltac:(congruence))) as H. cbn zeta in H. change (dstep c j (st ms)) with (dmove c (Step j) (st ms)) in H. rewrite <- after_snoc in H.
  destruct H as [(m & l' & L1 & _)|[(_ & L2 & (l' & L3 & _ & L4) & _)|([L1|(_ & _ & L1)] & [_ _ _ _ (x & X & _)])]].
  - exists (LIn m :: l'). split; [exact L1|]. left. exists m. left. reflexivity.
  - exists l'. split; [exact L3|]. right. right. auto.
  - exists x. rewrite start_log in X. split; [exact X|]. right. left. exact L1.
  - lia.
Qed.
End Timer.

(* ------------------------------------------------------------------ *)
Definition at_time (n : N) (fr : poll (option (result uframe unit))) : inp :=
  mkI n true true [WAccept 65536; WAccept 65536] false BReady true (Ready (Ok (ok200, Some Unknown))) (get, None) fr false (Ready (Ok tt)) [].
Definition ex30 : cfg := ex_cfg true false (Some 30).
(* Half a head at 5; the connection is dropped at 35 *)
Example C49_ex : let c := ex30 in let evs := EvData (B "GET /") :: repeat EvPending 20 in
  let p := steps 1 (at_time 5 Pending) in let i := at_time 5 Pending in let q := steps 4 (at_time 34 Pending) in let j := at_time 35 Pending in
  waiting c (after c false true 8192 evs p) /\ Forall (fun m => clock m <= i_now i) p /\ waiting c (after c false true 8192 evs (p ++ Step i :: q)) /\
  (exists l, history c false true 8192 evs (p ++ Step i :: q) = history c false true 8192 evs p ++ l /\ no_head l) /\ i_now i + 30 <= i_now j /\
  In (LReturn (Some CHeaderTimeout)) (history c false true 8192 evs (p ++ Step i :: q ++ [Step j])).
Proof.
  cbv zeta. split; [split; [exists 16%nat; reflexivity|vm_compute; auto]|]. split; [repeat constructor; discriminate|]. split; [split; [exists 16%nat; reflexivity|vm_compute; auto]|].
  split; [exists []; split; [vm_compute; reflexivity|intros m []]|]. split; [discriminate|]. vm_compute. auto.
Qed.
(* Two heads, each in time, 40 in all: not dropped *)
Example C49_ex_restart : let c := ex30 in let evs := EvData (line (B "GET / HTTP/1.1")) :: EvPending :: EvPending :: EvPending :: EvPending :: open_with (line (B "GET /last HTTP/1.1")) in
  let l := history c false true 8192 evs (steps 12 (at_time 20 (Ready None)) ++ steps 40 (at_time 45 (Ready None))) in
  length (filter (fun e => match e with LIn _ => true | _ => false end) l) = 2%nat /\ ~ In (LReturn (Some CHeaderTimeout)) l.
Proof. cbv zeta. split; [vm_compute; reflexivity|]. vm_compute. intros H. repeat (destruct H as [H|H]; [discriminate H|]). destruct H. Qed.

(* The full statement also asks that a connection that rests while it waits for a
   head has its timer running.  It fails when the response body ends between the two
   write attempts of one round (dispatch.rs 199-214): the connection becomes idle in
   the flush of line 210 and goes to rest without looking at the reader again, so
   the timer is not started. *)
Theorem C49_rest_refuted : exists ms i, let c := ex30 in let evs := EvData (line (B "GET / HTTP/1.1")) :: repeat EvPending 30 in
  d_pc (after c false true 8192 evs ms) = PFinish /\
  let d := after c false true 8192 evs (ms ++ [Step i]) in
  d_pc d = PIdle /\ k_reading (d_conn d) = RInit /\ k_writing (d_conn d) = WInit /\ d_closing d = false /\ d_in_flight d = false /\ k_running (d_conn d) = false.
Proof.
  exists (steps 5 (at_time 5 Pending) ++ steps 4 (at_time 5 (Ready None))), (at_time 5 (Ready None)). cbv zeta. split; [vm_compute; reflexivity|]. vm_compute. auto 10.
Qed.
Print Assumptions C49_not_early.
Print Assumptions C49_in_time.
Print Assumptions C49_rest_refuted.
