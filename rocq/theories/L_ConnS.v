(* Lemmas: a server connection keeps to the rules of S_Conn in every execution. *)
From Verif Require Import Base M_Src M_Decode M_HeaderMap M_Headers M_Encode M_Role M_RoleEncode M_Buf M_WriteBuf M_Read M_Conn M_Dispatch S_Conn L_Conn L_Moves.

(* Events outside the rules *)
Definition quiet (e : levent) : bool :=
  match e with LSent _ | LBodyEnd | LBodyFail | LShutdown | LReturn _ | LStart _ | LOutcome _ _ => true | _ => false end.
Lemma neutral_quiet e : neutral e = true -> quiet e = true.
Proof. destruct e; auto. Qed.
Lemma SI_quiets fl k l : forallb quiet l = true -> SI fl k -> SI fl (log k l).
Proof.
  intros Hn (x & Hx & Hj). exists x. cbn [log k_log k_reading k_writing]. rewrite x_run_app, Hx.
  split; [|exact Hj]. clear Hx Hj. induction l as [|e l IH]; [reflexivity|].
  cbn in Hn. apply andb_prop in Hn. destruct Hn as [He Hl]. specialize (IH Hl).
  cbn [x_run]. assert (x_server x e = Some x) as -> by (destruct x, e; try discriminate; reflexivity). exact IH.
Qed.
Lemma SI_neutral fl k e : neutral e = true -> SI fl k -> SI fl (log k [e]).
Proof. intros H. apply SI_quiets. cbn. now rewrite neutral_quiet. Qed.

Lemma SI_got_head c blk k m : c_server c = true -> SI false k -> k_reading k = RInit -> SI true (got_head c blk k m).
Proof.
  intros Hs (x & Hx & Hr & Hw & _) Er. rewrite Er in Hr. destruct Hr as (Ew & _ & Hat & Hov).
  unfold got_head. rewrite Hs.
  set (k1 := log _ [LIn m]).
  assert (x_run x_server x_start (k_log k1) = Some (mkX (IOpen m) ONone false false false) /\ k_writing k1 = WInit) as (A & B').
  { subst k1. unfold busy, st_disable_keep_alive. cbn.
    assert (x_run x_server x_start (k_log k ++ [LIn m]) = Some (mkX (IOpen m) ONone false false false)) as Q.
    { rewrite x_run_app, Hx. destruct x as [i o kk w ov]. cbn in Hov. subst ov. cbn [x_run x_server]. rewrite Hat. reflexivity. }
    destruct (k_ka k), (in_keep m); cbn; rewrite ?Q; auto. }
  clearbody k1. destruct (in_decode m =? DL_ZERO).
  - exists (mkX (IDone m) ONone false false false). cbn [set_trailers log set_reading k_log k_reading k_writing]. rewrite x_run_app, A, B'. split; [reflexivity|].
    unfold SJ. cbn. split; [split; [reflexivity|eauto]|]. split; [auto|]. intros _. repeat split; auto. discriminate.
  - exists (mkX (IOpen m) ONone false false false).
    destruct (in_expect m && after_http10 (in_version m)) eqn:Ee; cbn; (split; [exact A|]); rewrite B'.
    + apply andb_prop in Ee. destruct Ee.
      split; [split; [reflexivity|]; exists m; auto|]. split; [auto|]. intros _. repeat split; auto. discriminate.
    + split; [split; [reflexivity|]; exists m; auto|]. split; [auto|]. intros _. repeat split; auto. discriminate.
Qed.

Lemma SI_set_rd fl k x : SI fl k -> SI fl (set_rd k x).
Proof. intros H. sframe. Qed.
Lemma SI_timer fl k a b : SI fl k -> SI fl (set_timer k a b).
Proof. intros H. sframe. Qed.
Lemma SI_start c now k : SI false k -> SI false (start_timer c now k) /\ k_reading (start_timer c now k) = k_reading k /\ k_writing (start_timer c now k) = k_writing k.
Proof. intros H. unfold start_timer. destruct (k_running k); [auto|]. destruct (c_timeout c); [|auto]. split; [sframe|auto]. Qed.

Lemma SI_read_head_error c k e : c_server c = true -> SI false k -> k_reading k = RInit ->
  SI false (fst (on_read_head_error c k e)).
Proof.
  intros Hs H Er. unfold on_read_head_error.
  set (k1 := set_rd (close_read k) _).
  assert (SI false k1) as H1 by (apply SI_set_rd, SI_close_read, H).
  assert (exists x, x_run x_server x_start (k_log k1) = Some x /\ at_rest x = true /\ x_over x = false) as Hx.
  { destruct H as (x & Hx & Hr & _). rewrite Er in Hr. exists x. destruct Hr as (_ & _ & A & B'). auto. }
  assert (k_reading k1 = RClosed) as Er1 by reflexivity.
  destruct (_ || _).
  - unfold on_parse_error. destruct (k_writing k1) eqn:Ew; try exact H1.
    destruct (has_h2_prefix k1); [exact H1|]. destruct (t_on_error c e); [|exact H1].
    cbn [fst]. apply SI_set_error, SI_write_auto; auto.
  - cbn [fst]. apply SI_close_write; [exact H1|]. rewrite Er1. discriminate.
Qed.

Lemma SI_poll_read_head c now blk k : c_server c = true -> SI false k -> k_reading k = RInit ->
  let (k', r) := k_poll_read_head c now blk k in
  SI (match r with Ready (Some (Ok _)) => true | _ => false end) k'.
Proof.
  intros Hs H Er. unfold k_poll_read_head.
  pose proof (SI_start c now k H) as (H0 & Er0 & _). remember (start_timer c now k) as k0 eqn:E0. clear E0. rewrite Er in Er0.
  destruct (io_parse _ _ (k_rd k0)) as [rd [|[m|e]]].
  - cbn [k_running k_timer set_rd].
    destruct (k_running k0); [|now apply SI_set_rd]. destruct (k_timer k0) as [t|]; [|now apply SI_set_rd].
    destruct (t <=? now); [now apply SI_timer, SI_set_rd|now apply SI_set_rd].
  - apply SI_got_head; [exact Hs|now apply SI_set_rd|exact Er0].
  - destruct (parse_failure e) as [e' n].
    match goal with |- context [on_read_head_error c ?kk e'] =>
      pose proof (SI_read_head_error c kk e' Hs) as Q; destruct (on_read_head_error c kk e') as [k' r] eqn:Eq end.
    cbn [fst] in Q.
    assert (SI false k') as Q' by (apply Q; [now apply SI_set_rd, SI_set_rd|exact Er0]).
    unfold on_read_head_error in Eq. revert Eq.
    destruct (_ || _); [destruct (on_parse_error _ _ _) as [k2 [u|e2]]|]; intros Eq; injection Eq as <- <-; exact Q'.
Qed.

(* The body is being read: the exchange is open. *)
Definition reading_body (k : conn) : Prop := exists d, k_reading k = RBody d.

Lemma SI_open fl k : SI fl k -> reading_body k ->
  exists m o kk w, x_run x_server x_start (k_log k) = Some (mkX (IOpen m) o kk w false) /\
    match k_writing k with WInit => o = ONone | WBody _ => o = OStarted | WKeepAlive => o = ODone | WClosed => True end /\
    (fl = true -> o = ONone /\ (k_writing k = WInit \/ k_writing k = WClosed)).
Proof.
  intros (x & Hx & Hr & Hw & Hf) (d & Ed). rewrite Ed in Hr, Hw. destruct Hr as (Hov & m & Hi).
  destruct x as [i o kk w ov]. cbn in *. subst ov i. exists m, o, kk, w. split; [exact Hx|]. split.
  - destruct (k_writing k); auto. destruct Hw as [?|[?|[? _]]]; [discriminate|assumption|discriminate].
  - intros F. destruct (Hf F) as (_ & A & _ & D). auto.
Qed.
Lemma SI_body_part fl k r' l m o kk w x' :
  x_run x_server x_start (k_log k) = Some (mkX (IOpen m) o kk w false) ->
  match k_writing k with WInit => o = ONone | WBody _ => o = OStarted | WKeepAlive => o = ODone | WClosed => True end ->
  (fl = true -> o = ONone /\ (k_writing k = WInit \/ k_writing k = WClosed)) ->
  x_run x_server (mkX (IOpen m) o kk w false) l = Some x' ->
  x_out x' = o -> x_over x' = false -> x_in x' <> INone ->
  match r' with RBody _ => x_in x' = IOpen m | RKeepAlive => x_in x' = IDone m | RClosed => True | _ => False end ->
  SI fl (log (set_reading k r') l).
Proof.
  intros Hx Hw Hf Hl Ho Hov Hi Hr. exists x'. cbn. rewrite x_run_app, Hx. split; [exact Hl|]. subst o.
  split; [|split].
  - destruct r'; try contradiction; auto; (split; [exact Hov|eauto]).
  - destruct (k_writing k); auto.
  - intros F. destruct (Hf F). auto.
Qed.

Lemma SI_read_body_state c fl blk k d : SI fl k -> reading_body k ->
  SI fl (fst (read_body_state c blk k d)).
Proof.
  intros H Hb. unfold read_body_state, k_decode.
  destruct (decode (c_dt c) d _) as [[d' s] r].
  set (k1 := set_rd k _). assert (SI fl k1) as H1 by now apply SI_set_rd.
  assert (reading_body k1) as Hb1 by exact Hb. clearbody k1. clear H Hb.
  destruct (SI_open _ _ H1 Hb1) as (m & o & kk & w & Hx & Hw & Hf).
  assert (forall x, x_run x_server (mkX (IOpen m) o kk w false) [LInData x] = Some (mkX (IOpen m) o kk w false)) as Q1 by reflexivity.
  destruct r as [|[[x|t]|e]].
  - cbn [fst]. eapply SI_frame with (k := log (set_reading k1 (RBody d')) []); [cbn; apply app_nil_r || (symmetry; apply app_nil_r)|reflexivity|reflexivity|].
    eapply SI_body_part; eauto; try reflexivity; cbn; congruence.
  - destruct (is_eof d').
    + destruct x as [|b x]; cbn [fst app]; apply SI_try_keep_alive; eapply SI_body_part; eauto; try reflexivity; cbn; congruence.
    + destruct x as [|b x]; cbn [fst].
      * apply SI_try_keep_alive.
        eapply SI_frame with (k := log (set_reading k1 RClosed) []); [cbn; symmetry; apply app_nil_r|reflexivity|reflexivity|].
        eapply SI_body_part; eauto; try reflexivity; cbn; congruence.
      * eapply SI_body_part; eauto; try reflexivity; cbn; congruence.
  - cbn [fst]. apply SI_try_keep_alive. eapply SI_body_part; eauto; try reflexivity; cbn; congruence.
  - cbn [fst]. apply SI_try_keep_alive. eapply SI_body_part; eauto; try reflexivity; cbn; congruence.
Qed.

Lemma SI_poll_read_body c fl blk k : SI fl k -> can_read_body k = true ->
  SI fl (fst (k_poll_read_body c blk (log k [LWant]))).
Proof.
  intros H Hb. unfold k_poll_read_body. cbn [log k_reading].
  destruct H as (x & Hx & Hr & Hw & Hf).
  destruct (k_reading k) eqn:Er; try (unfold can_read_body in Hb; rewrite Er in Hb; discriminate).
  - destruct Hr as (Hov & m & Hi & He & Hv & Hc). destruct x as [i o kk w ov]. cbn in Hov, Hi, Hc, Hw, Hf. subst.
    assert (SI fl (set_reading (match k_writing k with WInit => log (set_wb (log k [LWant]) (wb_head (k_wb k) continue_bytes)) [LContinue] | _ => log k [LWant] end) (RBody d))) as Q.
    { destruct (k_writing k) eqn:Ew.
      - exists (mkX (IOpen m) o true true false). cbn [set_reading log set_wb k_log k_reading k_writing].
        assert (o = ONone) as -> by (destruct Hw as [?|[?|[? _]]]; [discriminate|assumption|discriminate]).
        rewrite Ew, !x_run_app, Hx. cbn [x_run x_server x_common]. cbn. rewrite He, Hv. cbn. split; [reflexivity|].
        split; [split; [reflexivity|]; exists m; reflexivity|]. split; [auto|]. intros F. destruct (Hf F) as (A & B' & _ & D). repeat split; auto.
      - exists (mkX (IOpen m) o false true false). cbn [set_reading log set_wb k_log k_reading k_writing].
        rewrite Ew, !x_run_app, Hx. cbn. split; [reflexivity|].
        split; [split; [reflexivity|]; exists m; reflexivity|]. split; [exact Hw|]. intros F. destruct (Hf F) as (A & B' & _ & D). repeat split; auto.
      - exists (mkX (IOpen m) o false true false). cbn [set_reading log set_wb k_log k_reading k_writing].
        rewrite Ew, !x_run_app, Hx. cbn. split; [reflexivity|].
        split; [split; [reflexivity|]; exists m; reflexivity|]. split; [exact Hw|]. intros F. destruct (Hf F) as (A & B' & _ & D). repeat split; auto.
      - exists (mkX (IOpen m) o false true false). cbn [set_reading log set_wb k_log k_reading k_writing].
        rewrite Ew, !x_run_app, Hx. cbn. split; [reflexivity|].
        split; [split; [reflexivity|]; exists m; reflexivity|]. split; [exact Hw|]. intros F. destruct (Hf F) as (A & B' & _ & D). repeat split; auto. }
    apply SI_read_body_state; [exact Q|]. exists d. reflexivity.
  - destruct Hr as (Hov & m & Hi). destruct x as [i o kk w ov]. cbn in Hov, Hi, Hw, Hf. subst.
    apply SI_read_body_state; [|exists d; cbn; exact Er].
    exists (mkX (IOpen m) o kk true false). cbn [log k_log k_reading k_writing]. rewrite x_run_app, Hx, Er. cbn. split; [reflexivity|].
    split; [split; [reflexivity|]; exists m; reflexivity|]. split; [exact Hw|]. intros F. destruct (Hf F) as (A & B' & _ & D). repeat split; auto.
Qed.

Lemma SI_drain c fl blk k : SI fl k -> can_read_body k = true -> SI fl (drain_or_close_read c blk k).
Proof.
  intros H Hb. unfold drain_or_close_read.
  set (k1 := match k_reading k with RContinue d => _ | _ => k end).
  assert (SI fl k1 /\ exists d, k_reading k1 = RBody d) as (H1 & d & Ed).
  { subst k1. destruct (k_reading k) eqn:Er; try (unfold can_read_body in Hb; rewrite Er in Hb; discriminate).
    - split; [|exists d; reflexivity]. destruct H as (x & Hx & Hr & Hw & Hf). exists x. rewrite Er in Hr, Hw.
      destruct Hr as (Hov & m & Hi & _). cbn. split; [exact Hx|]. split; [split; [exact Hov|eauto]|]. split; [|exact Hf].
      destruct (k_writing k); auto. destruct Hw as [?|[?|[? _]]]; auto; discriminate.
    - split; [exact H|eauto]. }
  unfold k_poll_read_body. rewrite Ed.
  pose proof (SI_read_body_state c fl blk k1 d H1 (ex_intro _ d Ed)) as H2.
  destruct (read_body_state c blk k1 d) as [k2 r]. cbn [fst] in H2 |- *.
  destruct (k_reading k2); try exact H2; apply SI_close_read, H2.
Qed.

Lemma SI_keep_alive_read c fl k : SI fl k -> SI fl (fst (k_poll_read_keep_alive c k)).
Proof.
  intros H. unfold k_poll_read_keep_alive, mid_message_detect_eof, require_empty_read, force_io_read.
  pose proof (SI_read_io _ _ H) as H1.
  destruct (is_read_closed k); [exact H|]. destruct (is_mid_message k).
  - destruct (_ || _); [exact H|]. destruct (read_io k) as [k' [|[n|e]]]; cbn [fst] in *; [exact H1| |now apply SI_st_close].
    destruct (n =? 0); [now apply SI_close_read|exact H1].
  - destruct (r_buf (k_rd k)); [|exact H]. destruct (read_io k) as [k' [|[n|e]]]; cbn [fst] in *; [exact H1| |now apply SI_st_close].
    destruct (n =? 0); [now apply SI_close_read|exact H1].
Qed.

Lemma SI_flush c fl blk wevs k : SI fl k -> SI fl (fst (k_poll_flush c blk wevs k)).
Proof.
  intros H. unfold k_poll_flush. destruct (wb_flush _ _ _ _) as [[[w ev] sent] r].
  assert (SI fl (log (set_wb k w) (match sent with [] => [] | _ => [LSent sent] end))) as H1.
  { assert (SI fl (set_wb k w)) as H0 by sframe. destruct sent; [|now apply SI_neutral].
    eapply SI_frame; [..|exact H0]; try reflexivity. cbn. apply app_nil_r. }
  destruct r as [|[u|e]]; cbn [fst]; [exact H1|now apply SI_try_keep_alive|exact H1].
Qed.

(* ------------------------------------------------------------------ *)
Lemma quiet_outcomes q : forallb quiet (map (fun id => LOutcome id OReturned) q) = true.
Proof. induction q; auto. Qed.
Definition SInv (d : disp) : Prop := SI (d_in_flight d) (d_conn d).

Lemma SInv_close d : SInv d -> SInv (d_close d).
Proof.
  intros H. unfold SInv, d_close. cbn. apply SI_close_write; [now apply SI_close_read|]. cbn. discriminate.
Qed.

Lemma log_log k l l' : log (log k l) l' = log k (l ++ l').
Proof. unfold log. cbn. now rewrite app_assoc. Qed.
Definition drop_events (d : disp) : list levent :=
  (if d_body_tx d then [LBodyFail] else []) ++
  (match d_callback d with Some id => [LOutcome id OGone] | None => [] end) ++
  map (fun id => LOutcome id OReturned) (ch_queue (d_chan d)).
Lemma log_nil k : log k [] = k.
Proof. destruct k. unfold log. cbn. now rewrite app_nil_r. Qed.
Lemma d_drop_eq d : d_drop d =
  mkD (log (d_conn d) (drop_events d)) false (d_body_rx d) (d_closing d) (d_in_flight d) None (d_rx_closed d)
    (fst (ch_drop_rx (d_chan d))) PDead.
Proof.
  destruct d as [k tx rx cl fl cb rc ch p]. unfold d_drop, drop_events. cbn [d_body_tx d_callback d_chan].
  destruct tx, cb; cbn -[log]; unfold dlog, dset_pc, dset_client, dset_conn, dset_body_tx; cbn -[log]; rewrite ?log_log; reflexivity.
Qed.
Lemma quiet_drop d : forallb quiet (drop_events d) = true.
Proof.
  unfold drop_events. rewrite !forallb_app, quiet_outcomes. destruct (d_body_tx d), (d_callback d); reflexivity.
Qed.
Lemma SInv_drop d : SInv d -> SInv (d_drop d).
Proof. intros H. unfold SInv in *. rewrite d_drop_eq. cbn. apply SI_quiets; [apply quiet_drop|exact H]. Qed.

Theorem server_stable c : c_server c = true -> stable c (fun _ => True) (fun _ => True) SInv.
Proof.
  intros Hs. apply stable_intro.
  - intros d tx rx p H. exact H.
  - intros d e He H. apply (SI_neutral _ _ e He H).
  - intros d H. unfold SInv in *. cbn. repeat split.
    + sframe.
    + sframe.
    + unfold take_error. destruct (k_error (d_conn d)); cbn [fst]; [sframe|exact H].
    + intros w. sframe.
  - intros d H _. now apply SInv_close.
  - intros i d H Hc Hr Hp. unfold d_poll_read_head. rewrite Hp.
    assert (d_in_flight d = false) as Hfl.
    { unfold d_poll_ready in Hp. rewrite Hs in Hp. destruct (d_in_flight d); [discriminate|reflexivity]. }
    assert (k_reading (d_conn d) = RInit) as Er.
    { unfold can_read_head in Hr. destruct (k_reading (d_conn d)); try discriminate. reflexivity. }
    unfold SInv in H. rewrite Hfl in H.
    pose proof (SI_poll_read_head c (i_now i) (i_blk i) (d_conn d) Hs H Er) as Q.
    destruct (k_poll_read_head c (i_now i) (i_blk i) (d_conn d)) as [k r].
    destruct r as [|[[m|e]|]]; cbn [fst].
    + unfold SInv. cbn. rewrite Hfl. exact Q.
    + unfold recv_ok. rewrite Hs. cbn [fst]. unfold SInv. cbn.
      destruct (in_decode m =? DL_ZERO), (in_upgrade m), (d_body_tx d); cbn;
        try exact Q; try (eapply SI_frame; [..|exact Q]; reflexivity);
        try (apply (SI_neutral _ _ LBodyEnd eq_refl); exact Q);
        (eapply SI_frame; [..|apply (SI_neutral _ _ LBodyEnd eq_refl Q)]; reflexivity).
    + unfold recv_error. rewrite Hs. cbn [fst]. unfold SInv. cbn. rewrite Hfl. exact Q.
    + unfold SInv. destruct (is_write_closed (d_conn (dset_conn d k))).
      * apply SInv_close. unfold SInv. cbn. rewrite Hfl. exact Q.
      * cbn. rewrite Hfl. exact Q.
  - intros i d H _ Hb. apply SI_drain; assumption.
  - intros i d H _ Hb. apply SI_poll_read_body; assumption.
  - intros d H _. apply SI_close_read, H.
  - intros d H _ _ _. apply SI_keep_alive_read, H.
  - intros i d H. apply SI_flush, H.
  - intros i d _ H _ Hw Hsp. unfold d_poll_msg. rewrite Hs.
    unfold should_poll in Hsp. rewrite Hs in Hsp.
    destruct (i_msg i) as [|[[h body]|u]]; [exact H| |exact H].
    unfold SInv in *. cbn. rewrite Hsp in H. apply SI_write_head; [exact H|].
    unfold can_write_head in Hw. destruct (_ && _) in Hw; [discriminate|]. destruct (k_writing (d_conn d)); try discriminate. reflexivity.
  - intros i d H _. eapply SI_effect; [exact H|apply end_body_effect].
  - intros i d b H _ _. eapply SI_effect; [exact H|apply write_body_effect].
  - intros i d b H _ _. eapply SI_effect; [exact H|apply write_body_and_end_effect].
  - intros i d t H _ _. eapply SI_effect; [exact H|apply write_trailers_effect].
  - intros d e H. unfold recv_error. rewrite Hs. exact H.
  - intros d H. now apply SInv_drop.
  - intros e d H. destruct e; cbn.
    + rewrite Hs. exact H.
    + rewrite Hs. destruct (d_pc d); try exact H. unfold d_graceful.
      assert (SInv (dset_conn d (k_disable_keep_alive (d_conn d)))) as H1.
      { unfold SInv, k_disable_keep_alive. cbn. destruct (is_idle (d_conn d)); [apply SI_st_close, H|]. unfold SInv in H. sframe. }
      destruct (_ || _); [now apply SInv_close|exact H1].
    + destruct (d_pc d); try exact H. now apply SInv_drop.
    + destruct (d_pc d), (k_log (d_conn d)); try exact H. rewrite Hs. unfold SInv in *. cbn. sframe.
Qed.

Theorem server_inv c : c_server c = true -> forall ms d, SInv d -> SInv (run c ms d).
Proof. intros H. apply Inv_run with (good := fun _ => True); [now apply server_stable|exact (fun _ => I)]. Qed.
