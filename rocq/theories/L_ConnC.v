(* Lemmas: a client connection keeps to the rules of S_Conn in every execution. *)
From Verif Require Import Base M_Src M_Decode M_HeaderMap M_Headers M_Encode M_Role M_RoleEncode M_Buf M_WriteBuf M_Read M_Conn M_Dispatch S_Conn L_Conn L_Moves L_ConnS.

(* role.rs 1136: Client::parse never sets expect_continue *)
Definition client_cfg (c : cfg) : Prop :=
  c_server c = false /\ forall me h b n m, c_parse c me h b = PDone n m -> in_expect m = false.

Lemma parse_loop_done {M E} (P : bytes -> presult M E) max : forall evs b partial s m,
  parse_loop P max b partial evs = (s, Ready (Ok m)) -> exists b' n, P b' = PDone n m.
Proof.
  induction evs as [|ev evs IH]; intros b partial s m H; cbn in H.
  - destruct (parse_headers P b partial) as [n|n m'|e] eqn:Ep.
    + destruct (max <=? _); discriminate.
    + injection H as _ ->. unfold parse_headers in Ep. destruct b; [discriminate|]. destruct partial; [destruct (is_complete_fast _ _); [eauto|discriminate]|eauto].
    + discriminate.
  - destruct (parse_headers P b partial) as [n|n m'|e] eqn:Ep.
    + destruct (max <=? _); [discriminate|]. destruct ev; try discriminate. destruct (_ =? 0); [discriminate|]. eapply IH, H.
    + injection H as _ ->. unfold parse_headers in Ep. destruct b; [discriminate|]. destruct partial; [destruct (is_complete_fast _ _); [eauto|discriminate]|eauto].
    + discriminate.
Qed.

Definition CJ (x : exch) (r : reading) (w : writing) (a : ka) : Prop :=
  (match r with
   | RInit => match w with WInit => at_rest x = true | _ => x_in x = INone /\ x_out x <> ONone end
   | RContinue _ => False
   | RBody _ => exists m, x_in x = IOpen m
   | RKeepAlive => exists m, x_in x = IDone m
   | RClosed => True
   end) /\
  (match w with
   | WInit => r = RInit \/ r = RClosed
   | WBody _ => x_out x = OStarted
   | WKeepAlive => x_out x = ODone
   | WClosed => True
   end) /\
  (a = KIdle -> r = RInit /\ w = WInit /\ exists m, x_in x = IDone m) /\
  (a = KDisabled -> w = WInit -> r = RClosed).
Definition CI (k : conn) : Prop :=
  exists x, x_run x_client x_start (k_log k) = Some x /\ CJ x (k_reading k) (k_writing k) (k_ka k).

Lemma CI_frame k k' : k_log k' = k_log k -> k_reading k' = k_reading k -> k_writing k' = k_writing k -> k_ka k' = k_ka k -> CI k -> CI k'.
Proof. intros H1 H2 H3 H4 (x & Hx & Hj). exists x. now rewrite H1, H2, H3, H4. Qed.
Ltac cka := split; [try discriminate; try congruence; auto|intros; try discriminate; try congruence; auto].
Ltac cframe := eapply CI_frame; [..|eassumption]; reflexivity.

Lemma CI_new h09 flat wmax evs : CI (conn_new h09 flat wmax evs).
Proof. exists x_start. split; [reflexivity|]. cbn. split; [reflexivity|]. split; [now left|cka]. Qed.
Lemma CI_st_close k : CI k -> CI (st_close k).
Proof. intros (x & Hx & Hj). exists x. split; [exact Hx|]. cbn. split; [exact I|]. split; [exact I|cka]. Qed.
Lemma CI_close_read k : CI k -> CI (close_read k).
Proof.
  intros (x & Hx & Hr & Hw & _). exists x. split; [exact Hx|]. cbn. split; [exact I|]. split; [destruct (k_writing k); auto|cka].
Qed.
Lemma CI_close_write k : CI k -> k_reading k <> RInit -> CI (close_write k).
Proof.
  intros (x & Hx & Hr & Hw & _) Hn. exists x. split; [exact Hx|]. cbn. split; [|split; [exact I|cka]]. destruct (k_reading k); auto. congruence.
Qed.
Lemma CI_idle c k x : x_run x_client x_start (k_log k) = Some x -> CJ x RKeepAlive WKeepAlive KBusy -> CI (idle c k).
Proof.
  intros Hx Hj. exists x.
  assert (k_log (idle c k) = k_log k /\ k_reading (idle c k) = RInit /\ k_writing (idle c k) = WInit /\ k_ka (idle c k) = KIdle) as (A & B' & C & D).
  { unfold idle. destruct (c_server c), (c_timeout c); cbn; auto. }
  rewrite A, B', C, D. split; [exact Hx|]. destruct Hj as ((mm & Hi) & Hout & _). cbn. split; [unfold at_rest; rewrite Hi, Hout; auto|]. split; [auto|]. split; [eauto|discriminate].
Qed.
Lemma CI_st_try c k : CI k -> CI (st_try_keep_alive c k).
Proof.
  intros H. unfold st_try_keep_alive.
  destruct (k_reading k) eqn:Er; try exact H; destruct (k_writing k) eqn:Ew; try exact H;
    try (apply CI_st_close; exact H).
  destruct (k_ka k) eqn:Ek; try (apply CI_st_close; exact H).
  destruct H as (x & Hx & Hj). rewrite Er, Ew, Ek in Hj. eapply CI_idle; eassumption.
Qed.
Lemma CI_read_io k : CI k -> CI (fst (read_io k)).
Proof. intros H. unfold read_io. destruct (r_read_io (k_rd k)). cbn [fst]. cframe. Qed.
Lemma CI_set_notify k b : CI k -> CI (set_notify k b).
Proof. intros H. cframe. Qed.
Lemma CI_set_error k b : CI k -> CI (set_error k b).
Proof. intros H. cframe. Qed.
Lemma CI_set_rd k b : CI k -> CI (set_rd k b).
Proof. intros H. cframe. Qed.
Lemma CI_maybe_notify blk k : CI k -> CI (maybe_notify blk k).
Proof.
  intros H. unfold maybe_notify. destruct (k_reading k) eqn:Er; try exact H.
  destruct (k_writing k) eqn:Ew; try exact H;
  (destruct blk; [exact H|]; destruct (r_buf (k_rd k)); [|apply CI_set_notify; exact H];
   pose proof (CI_read_io _ H) as H'; destruct (read_io k) as [k' [|[n|e]]]; cbn [fst] in H';
   [exact H'| |apply CI_set_notify, CI_set_error, CI_st_close, H'];
   destruct (n =? 0); [|apply CI_set_notify, H'];
   destruct (is_idle k'); [apply CI_st_close, H'|apply CI_close_read, H']).
Qed.
Lemma CI_try_keep_alive c blk k : CI k -> CI (try_keep_alive c blk k).
Proof. intros H. apply CI_maybe_notify, CI_st_try, H. Qed.

Lemma CI_quiets k l : forallb quiet l = true -> CI k -> CI (log k l).
Proof.
  intros Hn (x & Hx & Hj). exists x. cbn [log k_log k_reading k_writing]. rewrite x_run_app, Hx.
  split; [|exact Hj]. clear Hx Hj. induction l as [|e l IH]; [reflexivity|].
  cbn in Hn. apply andb_prop in Hn. destruct Hn as [He Hl]. specialize (IH Hl).
  cbn [x_run]. assert (x_client x e = Some x) as -> by (destruct x, e; try discriminate; reflexivity). exact IH.
Qed.

Lemma CI_write_head c k h body : c_server c = false -> CI k -> k_writing k = WInit -> k_reading k <> RClosed -> CI (write_head c false k h body).
Proof.
  intros Hs (x & Hx & Hr & Hw & _) Ew Hn. rewrite Ew in Hr, Hw.
  destruct Hw as [Er|Er]; [|congruence]. rewrite Er in Hr. cbn in Hr.
  pose proof (write_head_cases c false k h body) as (A & K & [H|[H|H]]); specialize (K (or_introl Hs)).
  - destruct H as (h' & out & e & He & Hl & Hw'). exists (mkX INone OStarted false false false).
    rewrite Hl, x_run_app, Hx, A, Hw', Er. destruct x; cbn [x_run x_client]; rewrite Hr. cbn. split; [reflexivity|]. split; [split; [reflexivity|discriminate]|]. split; [auto|cka].
  - destruct H as (h' & out & Hl & Hw'). exists (mkX INone ODone false false false).
    rewrite Hl, x_run_app, Hx, A, Er. destruct x; cbn [x_run x_client]; rewrite Hr. cbn.
    destruct Hw' as [-> | ->]; (split; [reflexivity|]; split; [split; [reflexivity|discriminate]|]; split; [auto|cka]).
  - destruct H as (out & Hl & Hw'). exists (mkX INone OBroken false false false).
    rewrite Hl, x_run_app, Hx, A, Hw', Er. destruct x; cbn [x_run x_client]; rewrite Hr. cbn. split; [reflexivity|]. split; [split; [reflexivity|discriminate]|]. split; [auto|cka].
Qed.

Lemma CI_effect k k' : CI k -> body_effect k k' -> CI k'.
Proof.
  intros H [->|(e & l & w' & Ew & Er & El & Ew' & Ek & F)]; [exact H|].
  destruct H as (x & Hx & Hr & Hw & Hka). rewrite Ew in Hr, Hw, Hka.
  assert (k_ka k' <> KIdle) as Hk by (rewrite Ek; intros Q; destruct (proj1 Hka Q) as (_ & Q' & _); discriminate). destruct x as [i o kk w ov]. cbn in *. subst o.
  assert (forall o', o' <> ONone -> w' <> WInit -> match k_reading k' with
   | RInit => match w' with WInit => at_rest (mkX i o' kk w ov) = true | _ => i = INone /\ o' <> ONone end
   | RContinue _ => False
   | RBody _ => exists m, i = IOpen m
   | RKeepAlive => exists m, i = IDone m
   | RClosed => True
   end) as Q.
  { intros o' Ho Hw'. rewrite Er. destruct (k_reading k); auto. destruct Hr. destruct w'; auto; congruence. }
  destruct F as [(bs & -> & e' & ->)|[[Hl H]|[Hl ->]]].
  - exists (mkX i OStarted kk w ov). rewrite El, x_run_app, Hx. split; [reflexivity|]. rewrite Ew'.
    split; [apply Q; discriminate|]. split; [reflexivity|cka].
  - exists (mkX i ODone kk w ov). rewrite El, x_run_app, Hx. split; [destruct Hl as [->|(bs & ->)]; reflexivity|]. rewrite Ew'.
    split; [apply Q; [discriminate|destruct H as [-> | ->]; discriminate]|]. split; [destruct H as [-> | ->]; reflexivity|destruct H as [-> | ->]; cka].
  - exists (mkX i OBroken kk w ov). rewrite El, x_run_app, Hx. split; [destruct Hl as [->|(bs & ->)]; reflexivity|]. rewrite Ew'.
    split; [apply Q; discriminate|]. split; [exact I|cka].
Qed.

Lemma CI_got_head c blk k m : client_cfg c -> in_expect m = false -> CI k -> k_reading k = RInit -> k_writing k <> WInit ->
  CI (got_head c blk k m).
Proof.
  intros [Hs _] Hne (x & Hx & Hr & Hw & _) Er Hn. rewrite Er in Hr.
  assert (x_in x = INone /\ x_out x <> ONone) as (Hi & Ho) by (destruct (k_writing k); auto; congruence).
  unfold got_head. rewrite Hs.
  set (k1 := log _ [LIn m]).
  assert (x_run x_client x_start (k_log k1) = Some (mkX (IOpen m) (x_out x) (x_continue x) false (x_over x)) /\ k_writing k1 = k_writing k /\ k_ka k1 <> KIdle) as (A & B' & D).
  { subst k1. unfold busy, st_disable_keep_alive. cbn.
    assert (x_run x_client x_start (k_log k ++ [LIn m]) = Some (mkX (IOpen m) (x_out x) (x_continue x) false (x_over x))) as Q.
    { rewrite x_run_app, Hx. destruct x as [i o kk w ov]. cbn in *. subst i. destruct o; congruence || reflexivity. }
    destruct (k_ka k) eqn:Ek, (in_keep m); cbn; rewrite ?Q; (split; [reflexivity|]; split; [reflexivity|]); rewrite ?Ek; discriminate. }
  clearbody k1.
  destruct (in_decode m =? DL_ZERO).
  - eapply CI_frame with (k := try_keep_alive c blk (log (set_reading k1 RKeepAlive) [LInEnd])); try reflexivity.
    apply CI_try_keep_alive.
    exists (mkX (IDone m) (x_out x) (x_continue x) false (x_over x)). cbn [log set_reading k_log k_reading k_writing].
    rewrite x_run_app, A, B'. split; [reflexivity|]. unfold CJ. cbn. split; [eauto|]. split; [|cka].
    destruct (k_writing k); auto; congruence.
  - rewrite Hne. cbn [andb].
    exists (mkX (IOpen m) (x_out x) (x_continue x) false (x_over x)). cbn [set_trailers set_reading k_log k_reading k_writing].
    rewrite A, B'. split; [reflexivity|]. unfold CJ. cbn. split; [eauto|]. split; [|cka]. destruct (k_writing k); auto; congruence.
Qed.

Lemma CI_read_head_error c k e : client_cfg c -> CI k -> k_reading k = RInit -> k_writing k <> WInit ->
  CI (fst (on_read_head_error c k e)).
Proof.
  intros [Hs _] H Er Hn. unfold on_read_head_error.
  set (k1 := set_rd (close_read k) _).
  assert (CI k1) as H1 by (apply CI_set_rd, CI_close_read, H).
  destruct (_ || _).
  - unfold on_parse_error. assert (k_writing k1 = k_writing k) as -> by reflexivity. destruct (k_writing k); try exact H1. congruence.
  - cbn [fst]. apply CI_close_write; [exact H1|]. cbn. discriminate.
Qed.

Lemma CI_poll_read_head c now blk k : client_cfg c -> CI k -> k_reading k = RInit -> k_writing k <> WInit ->
  CI (fst (k_poll_read_head c now blk k)).
Proof.
  intros Hc H Er Hn. unfold k_poll_read_head.
  assert (CI (start_timer c now k) /\ k_reading (start_timer c now k) = RInit /\ k_writing (start_timer c now k) <> WInit) as (H0 & Er0 & Hn0).
  { unfold start_timer. destruct (k_running k); [auto|]. destruct (c_timeout c); [|auto]. split; [cframe|auto]. }
  remember (start_timer c now k) as k0 eqn:E0. clear E0.
  destruct (io_parse _ _ (k_rd k0)) as [rd [|[m|e]]] eqn:Ep.
  - cbn [k_running k_timer set_rd].
    assert (CI (set_rd k0 rd)) as H1 by now apply CI_set_rd.
    destruct (k_running k0); [|exact H1]. destruct (k_timer k0) as [t|]; [|exact H1].
    destruct (t <=? now); [|exact H1]. cbn [fst]. cframe.
  - cbn [fst]. apply CI_got_head; [exact Hc| |now apply CI_set_rd|exact Er0|exact Hn0].
    unfold io_parse in Ep. apply parse_loop_done in Ep. destruct Ep as (b' & n & Ep). eapply (proj2 Hc), Ep.
  - destruct (parse_failure e) as [e' n]. apply CI_read_head_error; [exact Hc|now apply CI_set_rd, CI_set_rd|exact Er0|exact Hn0].
Qed.

Lemma CI_body_part k r' l m o kk w ov x' :
  x_run x_client x_start (k_log k) = Some (mkX (IOpen m) o kk w ov) ->
  match k_writing k with WInit => False | WBody _ => o = OStarted | WKeepAlive => o = ODone | WClosed => True end ->
  x_run x_client (mkX (IOpen m) o kk w ov) l = Some x' ->
  x_out x' = o -> k_ka k <> KIdle ->
  match r' with RBody _ => x_in x' = IOpen m | RKeepAlive => x_in x' = IDone m | RClosed => True | _ => False end ->
  CI (log (set_reading k r') l).
Proof.
  intros Hx Hw Hl Ho Hka Hr. exists x'. cbn. rewrite x_run_app, Hx. split; [exact Hl|]. subst o.
  split; [|split; [|split; [congruence|intros _ Ew; rewrite Ew in Hw; contradiction]]].
  - destruct r'; try contradiction; eauto.
  - destruct (k_writing k); auto. contradiction.
Qed.
Lemma CI_open k d : CI k -> k_reading k = RBody d ->
  exists m o kk w ov, x_run x_client x_start (k_log k) = Some (mkX (IOpen m) o kk w ov) /\
    match k_writing k with WInit => False | WBody _ => o = OStarted | WKeepAlive => o = ODone | WClosed => True end /\ k_ka k <> KIdle.
Proof.
  intros (x & Hx & Hr & Hw & Hka) Er. rewrite Er in Hr, Hw, Hka. destruct Hr as (m & Hi). destruct x as [i o kk w ov]. cbn in *. subst i.
  exists m, o, kk, w, ov. split; [exact Hx|]. split; [destruct (k_writing k); auto; destruct Hw; discriminate|]. intros Q. destruct (proj1 Hka Q). discriminate.
Qed.
Lemma CI_read_body_state c blk k d d0 : CI k -> k_reading k = RBody d0 -> CI (fst (read_body_state c blk k d)).
Proof.
  intros H Hb. unfold read_body_state, k_decode.
  destruct (decode (c_dt c) d _) as [[d' s] r].
  set (k1 := set_rd k _). assert (CI k1) as H1 by now apply CI_set_rd.
  assert (k_reading k1 = RBody d0) as Hb1 by exact Hb. clearbody k1. clear H Hb.
  destruct (CI_open _ _ H1 Hb1) as (m & o & kk & w & ov & Hx & Hw & Hka).
  destruct r as [|[[x|t]|e]].
  - cbn [fst]. eapply CI_frame with (k := log (set_reading k1 (RBody d')) []); [cbn; symmetry; apply app_nil_r|reflexivity|reflexivity|reflexivity|].
    eapply CI_body_part; eauto; try reflexivity; cbn; congruence.
  - destruct (is_eof d').
    + destruct x as [|b x]; cbn [fst app]; apply CI_try_keep_alive; eapply CI_body_part; eauto; try reflexivity; cbn; congruence.
    + destruct x as [|b x]; cbn [fst].
      * apply CI_try_keep_alive.
        eapply CI_frame with (k := log (set_reading k1 RClosed) []); [cbn; symmetry; apply app_nil_r|reflexivity|reflexivity|reflexivity|].
        eapply CI_body_part; eauto; try reflexivity; cbn; congruence.
      * eapply CI_body_part; eauto; try reflexivity; cbn; congruence.
  - cbn [fst]. apply CI_try_keep_alive. eapply CI_body_part; eauto; try reflexivity; cbn; congruence.
  - cbn [fst]. apply CI_try_keep_alive. eapply CI_body_part; eauto; try reflexivity; cbn; congruence.
Qed.
Lemma CI_reading k : CI k -> can_read_body k = true -> exists d, k_reading k = RBody d.
Proof.
  intros (x & Hx & Hr & _) Hb. unfold can_read_body in Hb. destruct (k_reading k); try discriminate; [contradiction|eauto].
Qed.
Lemma CI_want k : CI k -> can_read_body k = true -> CI (log k [LWant]).
Proof.
  intros H Hb. destruct (CI_reading _ H Hb) as (d & Er). destruct H as (x & Hx & Hr & Hw & Hka). rewrite Er in Hr, Hw, Hka.
  destruct Hr as (m & Hi). destruct x as [i o kk w ov]. cbn in *. subst i.
  exists (mkX (IOpen m) o kk true ov). cbn [log k_log k_reading k_writing]. rewrite x_run_app, Hx, Er. split; [reflexivity|].
  split; [cbn; eauto|]. split; [destruct (k_writing k); auto|]. split; [intros Q; destruct (proj1 Hka Q); discriminate|exact (proj2 Hka)].
Qed.
Lemma CI_poll_read_body c blk k : CI k -> can_read_body k = true -> CI (fst (k_poll_read_body c blk k)).
Proof.
  intros H Hb. destruct (CI_reading _ H Hb) as (d & Er). unfold k_poll_read_body. rewrite Er. eapply CI_read_body_state; eauto.
Qed.
Lemma CI_drain c blk k : CI k -> can_read_body k = true -> CI (drain_or_close_read c blk k).
Proof.
  intros H Hb. destruct (CI_reading _ H Hb) as (d & Er). unfold drain_or_close_read. rewrite Er.
  pose proof (CI_poll_read_body c blk k H Hb) as H2. destruct (k_reading (fst (k_poll_read_body c blk k))); try exact H2; apply CI_close_read, H2.
Qed.
Lemma CI_keep_alive_read c k : CI k -> CI (fst (k_poll_read_keep_alive c k)).
Proof.
  intros H. unfold k_poll_read_keep_alive, mid_message_detect_eof, require_empty_read, force_io_read.
  pose proof (CI_read_io _ H) as H1.
  destruct (is_read_closed k); [exact H|]. destruct (is_mid_message k).
  - destruct (_ || _); [exact H|]. destruct (read_io k) as [k' [|[n|e]]]; cbn [fst] in *; [exact H1| |now apply CI_st_close].
    destruct (n =? 0); [now apply CI_close_read|exact H1].
  - destruct (r_buf (k_rd k)); [|exact H]. destruct (read_io k) as [k' [|[n|e]]]; cbn [fst] in *; [exact H1| |now apply CI_st_close].
    destruct (n =? 0); [now apply CI_close_read|exact H1].
Qed.
Lemma CI_flush c blk wevs k : CI k -> CI (fst (k_poll_flush c blk wevs k)).
Proof.
  intros H. unfold k_poll_flush. destruct (wb_flush _ _ _ _) as [[[w ev] sent] r].
  assert (CI (log (set_wb k w) (match sent with [] => [] | _ => [LSent sent] end))) as H1.
  { assert (CI (set_wb k w)) as H0 by cframe. destruct sent; apply CI_quiets; auto. }
  destruct r as [|[u|e]]; cbn [fst]; [exact H1|now apply CI_try_keep_alive|exact H1].
Qed.

Definition CInv (d : disp) : Prop := CI (d_conn d).
Lemma CInv_close d : CInv d -> CInv (d_close d).
Proof. intros H. apply CI_close_write; [now apply CI_close_read|]. cbn. discriminate. Qed.
Lemma recv_error_conn c d e : exists l, d_conn (fst (recv_error c d e)) = log (d_conn d) l /\ forallb quiet l = true.
Proof.
  unfold recv_error. destruct (c_server c); [exists []; now rewrite log_nil|].
  destruct (d_callback d); [eexists [_]; now split|]. destruct (d_rx_closed d); [exists []; now rewrite log_nil|].
  destruct (ch_try_recv _) as [ch [id|]]; [eexists [_]; now split|exists []; now rewrite log_nil].
Qed.

Lemma CInv_drop d : CInv d -> CInv (d_drop d).
Proof. intros H. unfold CInv. rewrite d_drop_eq. cbn. apply CI_quiets; [apply quiet_drop|exact H]. Qed.

Theorem client_stable c : client_cfg c -> stable c (fun _ => True) (fun _ => True) CInv.
Proof.
  intros Hcc. pose proof (proj1 Hcc) as Hs. apply stable_intro.
  - intros d tx rx p H. exact H.
  - intros d e He H. apply CI_quiets; [|exact H]. cbn. now rewrite neutral_quiet.
  - intros d H. unfold CInv in *. cbn. repeat split.
    + cframe.
    + cframe.
    + unfold take_error. destruct (k_error (d_conn d)); cbn [fst]; [cframe|exact H].
    + intros w. cframe.
  - intros d H _. now apply CInv_close.
  - intros i d H Hc Hr Hp. unfold d_poll_read_head. rewrite Hp.
    unfold can_read_head in Hr. rewrite Hs in Hr.
    assert (k_reading (d_conn d) = RInit /\ k_writing (d_conn d) <> WInit) as (Er & Hn).
    { destruct (k_reading (d_conn d)); try discriminate. destruct (k_writing (d_conn d)); try discriminate; split; auto; discriminate. }
    pose proof (CI_poll_read_head c (i_now i) (i_blk i) (d_conn d) Hcc H Er Hn) as Q.
    destruct (k_poll_read_head c (i_now i) (i_blk i) (d_conn d)) as [k r]. cbn [fst] in Q.
    destruct r as [|[[m|e]|]]; cbn [fst].
    + exact Q.
    + match goal with |- context [recv_ok c ?dd m] => assert (CInv dd) as Q1; [|remember dd as d1 eqn:E1; clear E1] end.
      { unfold CInv. change (d_body_tx (dset_conn d k)) with (d_body_tx d). destruct (in_decode m =? DL_ZERO), (in_upgrade m), (d_body_tx d); cbn;
        try exact Q; try (eapply CI_frame; [..|exact Q]; reflexivity);
        try (apply CI_quiets; [reflexivity|exact Q]);
        (eapply CI_frame; [..|apply (CI_quiets k [LBodyEnd] eq_refl Q)]; reflexivity). }
      unfold recv_ok. rewrite Hs. destruct (d_callback d1); [|exact Q1]. apply CI_quiets; [reflexivity|exact Q1].
    + assert (CInv (dset_conn d k)) as Q1 by exact Q.
      destruct (recv_error_conn c (dset_conn d k) e) as (l & El & Hl).
      destruct (recv_error c (dset_conn d k) e) as [d' b]. cbn [fst] in El.
      assert (CInv d') as Q2 by (unfold CInv; rewrite El; now apply CI_quiets).
      destruct b; [exact Q2|now apply CInv_close].
    + destruct (is_write_closed (d_conn (dset_conn d k))); [|exact Q]. apply CInv_close. exact Q.
  - intros i d H _ Hb. apply CI_drain; assumption.
  - intros i d H _ Hb. apply CI_poll_read_body; [now apply CI_want|exact Hb].
  - intros d H _. apply CI_close_read, H.
  - intros d H _ _ _. apply CI_keep_alive_read, H.
  - intros i d H. apply CI_flush, H.
  - intros i d _ H _ Hw Hsp. unfold d_poll_msg. rewrite Hs.
    destruct (ch_poll_recv (i_race i) (d_chan d)) as [ch [|[id|]]]; [exact H| |exact H].
    destruct (i_canceled i); [apply CI_quiets; [reflexivity|exact H]|].
    destruct (i_req i) as [h body]. apply CI_write_head; [exact Hs|..].
    + cbn. apply CI_quiets; [reflexivity|exact H].
    + cbn. unfold can_write_head in Hw. destruct (_ && _) in Hw; [discriminate|]. destruct (k_writing (d_conn d)); try discriminate. reflexivity.
    + cbn. unfold can_write_head in Hw. rewrite Hs in Hw. cbn [negb andb] in Hw. unfold is_read_closed in Hw.
      destruct (k_reading (d_conn d)); discriminate.
  - intros i d H _. eapply CI_effect; [exact H|apply end_body_effect].
  - intros i d b H _ _. eapply CI_effect; [exact H|apply write_body_effect].
  - intros i d b H _ _. eapply CI_effect; [exact H|apply write_body_and_end_effect].
  - intros i d t H _ _. eapply CI_effect; [exact H|apply write_trailers_effect].
  - intros d e H. destruct (recv_error_conn c d e) as (l & El & Hl). unfold CInv. rewrite El. now apply CI_quiets.
  - intros d H. now apply CInv_drop.
  - intros e d H. destruct e; cbn.
    + rewrite Hs. exact H.
    + rewrite Hs. destruct (d_pc d); exact H.
    + destruct (d_pc d); try exact H. now apply CInv_drop.
    + rewrite Hs. destruct (d_pc d), (k_log (d_conn d)); exact H.
Qed.

Theorem client_inv c : client_cfg c -> forall ms d, CInv d -> CInv (run c ms d).
Proof. intros H. apply Inv_run with (good := fun _ => True); [now apply client_stable|exact (fun _ => I)]. Qed.
