(* C33: the end of input inside a message is an error, between messages it is not *)
From Verif Require Import Base M_Src M_Decode M_HeaderMap M_Headers M_Encode M_Role M_RoleEncode M_Buf M_WriteBuf M_Read M_Conn M_Dispatch S_Conn L_Conn L_Moves L_ConnS L_ConnC L_Ka L_Exch L_Outcome L_BodyTx P_Conn P_Timer L_Done L_Return P_Graceful.

(* ---- Specification ---- *)
(* The input has ended: all that was received is in the buffer *)
Definition ended (d : disp) : Prop := r_evs (k_rd (d_conn d)) = [].
(* The buffered bytes are no complete head (n bytes of interim responses before
   it are taken off), and no longer than allowed *)
Definition no_head (c : cfg) (k : conn) (n : N) : Prop :=
  parse_headers (c_parse c (k_method k) (k_h09 k)) (r_buf (k_rd k)) (r_partial (k_rd k)) = PMore n /\
  lenN (dropN n (r_buf (k_rd k))) < c_max c.
(* What is left of the buffer, without blank lines *)
Definition begun (k : conn) (n : N) : bytes := skip_lines (dropN n (r_buf (k_rd k))).

(* ---- Lemmas ---- *)
Lemma eof_head c now blk k n : r_evs (k_rd k) = [] -> no_head c k n -> exists p,
  k_poll_read_head c now blk k = on_read_head_error c (set_rd (start_timer c now k) (mkR (dropN n (r_buf (k_rd k))) p [])) CIncomplete.
Proof.
  intros He (Hp & Hl). unfold k_poll_read_head.
  assert (k_rd (start_timer c now k) = k_rd k /\ k_method (start_timer c now k) = k_method k /\ k_h09 (start_timer c now k) = k_h09 k) as (E1 & E2 & E3) by (unfold start_timer; destruct (k_running k); auto; destruct (c_timeout c); auto).
  unfold io_parse. rewrite E1, E2, E3, He. unfold parse_loop. rewrite Hp. assert (c_max c <=? lenN (dropN n (r_buf (k_rd k))) = false) as -> by (apply N.leb_gt; exact Hl). cbn [parse_failure k_rd set_rd r_buf r_partial r_evs].
  rewrite dropN_0. eexists. unfold set_rd. cbn [k_rd k_wb k_reading k_writing k_ka k_error k_method k_version k_h09 k_notify k_timer k_running k_trailers k_upgrade k_log]. reflexivity.
Qed.
Lemma timer_same c now k : k_log (start_timer c now k) = k_log k /\ k_reading (start_timer c now k) = k_reading k /\ k_writing (start_timer c now k) = k_writing k /\ k_ka (start_timer c now k) = k_ka k /\
  k_error (start_timer c now k) = k_error k /\ k_wb (start_timer c now k) = k_wb k /\ k_upgrade (start_timer c now k) = k_upgrade k /\ k_notify (start_timer c now k) = k_notify k.
Proof. unfold start_timer. destruct (k_running k); [repeat split|]. destruct (c_timeout c); repeat split. Qed.

(* Once the dispatcher is closing, both halves are closed *)
Definition CC (d : disp) : Prop := d_closing d = true -> k_reading (d_conn d) = RClosed /\ k_writing (d_conn d) = WClosed.
Lemma CC_drop d : CC d -> CC (d_drop d).
Proof. unfold CC. rewrite d_drop_eq. exact (fun H => H). Qed.
Lemma CC_recv c d e : CC d -> CC (fst (recv_error c d e)) /\ d_closing (fst (recv_error c d e)) = d_closing d.
Proof.
  unfold recv_error. intros H. destruct (c_server c); [auto|]. destruct (d_callback d); [split; [exact H|reflexivity]|]. destruct (d_rx_closed d); [auto|].
  destruct (ch_try_recv _) as [ch [id|]]; (split; [exact H|reflexivity]).
Qed.
Lemma CC_fail c d e : CC d -> CC (d_fail c d e).
Proof.
  intros H. unfold d_fail. set (d1 := if d_body_tx d then _ else d). assert (CC d1) as H1 by (subst d1; destruct (d_body_tx d); exact H). clearbody d1.
  destruct (CC_recv c d1 e H1) as (H2 & _). destruct (recv_error c d1 e) as [d2 b]. unfold d_complete. apply CC_drop. exact H2.
Qed.
Lemma CC_close d : CC (d_close d).
Proof. intros _. split; reflexivity. Qed.
Lemma CC_open d : d_closing d = false -> CC d.
Proof. intros H F. congruence. Qed.
Lemma CC_flush c i d : CC d -> CC (fst (d_flush c i d)).
Proof.
  intros H. unfold d_flush, k_poll_flush. destruct (wb_flush _ _ _ _) as [[[w ev] sent] r].
  set (k1 := log (set_wb (d_conn d) w) _). assert (CC (dset_conn d k1)) as H1 by exact H.
  destruct r as [|[u|e]]; cbn [fst]; [exact H1| |exact H1]. intros F. destruct (H1 F) as (A & B). rewrite (try_closed c) by assumption. auto.
Qed.
Lemma CC_read c i d : CC d -> CC (fst (poll_read_it c i d)).
Proof.
  intros H. unfold poll_read_it. destruct (d_closing d) eqn:Ec; [exact H|].
  destruct (can_read_head c (d_conn d)).
  { unfold d_poll_read_head. destruct (d_poll_ready c i d) as [|[u|u]]; [exact H| |apply CC_close].
    destruct (k_poll_read_head _ _ _ _) as [k r]. destruct r as [|[[m|e]|]]; cbn [fst].
    - now apply CC_open.
    - match goal with |- context [recv_ok c ?x m] => set (d1 := x) end. assert (d_closing d1 = false) as E1 by (subst d1; destruct (in_decode m =? DL_ZERO), (in_upgrade m); cbn; try exact Ec; destruct (d_body_tx d); exact Ec).
      clearbody d1. unfold recv_ok. destruct (c_server c); [now apply CC_open|]. destruct (d_callback d1); now apply CC_open.
    - destruct (CC_recv c (dset_conn d k) e (CC_open (dset_conn d k) Ec)) as (A & _). destruct (recv_error c (dset_conn d k) e) as [d' []]; [exact A|apply CC_close].
    - destruct (is_write_closed _); [apply CC_close|now apply CC_open]. }
  destruct (d_body_tx d).
  - destruct (can_read_body (d_conn d)); [|now apply CC_open]. destruct (i_body i); try (now apply CC_open). destruct (k_poll_read_body _ _ _) as [k r].
    destruct r as [|[[m|e]|]]; try (now apply CC_open). destruct (i_send i); [now apply CC_open|]. cbn [fst]. destruct (can_read_body _); now apply CC_open.
  - destruct (k_poll_read_keep_alive _ _) as [k r]. now apply CC_open.
Qed.
Lemma CC_end c i d : d_closing d = false -> CC (fst (end_body_it c i d)).
Proof. intros Ec. unfold end_body_it. destruct (k_end_body _ _) as [k [u|e]]; now apply CC_open. Qed.
Lemma CC_write c i d : CC d -> CC (fst (poll_write_it c i d)).
Proof.
  intros H. unfold poll_write_it. destruct (d_closing d) eqn:Ec; [exact H|].
  destruct (_ && _ && _).
  { unfold d_poll_msg. destruct (c_server c).
    - destruct (i_msg i) as [|[[h b]|e]]; now apply CC_open.
    - destruct (ch_poll_recv _ _) as [ch [|[id|]]]; [now apply CC_open| |apply CC_close]. destruct (i_canceled i); [apply CC_close|]. destruct (i_req i) as [h b]. now apply CC_open. }
  destruct (negb (can_buffer_body c (d_conn d))).
  { pose proof (CC_flush c i d H) as Q. destruct (d_flush c i d) as [d' [|[u|e]]]; exact Q. }
  destruct (d_body_rx d).
  - destruct (negb _); [now apply CC_open|]. destruct (i_frame i) as [|[[[b|t|]|e]|]]; try (now apply CC_open); [|now apply CC_end].
    destruct (i_eos i); [|destruct (brem b =? 0); now apply CC_open]. destruct (brem b =? 0); [now apply CC_end|now apply CC_open].
  - destruct (k_can_write_body _); [now apply CC_end|now apply CC_open].
Qed.
Lemma CC_move c m d : CC d -> CC (dmove c m d).
Proof.
  intros H. destruct m as [i|e]; cbn [dmove].
  - unfold dstep. destruct (d_pc d) as [|n|n|n wr|n| | |].
    + exact H.
    + pose proof (CC_read c i d H) as Q. destruct (poll_read_it c i d) as [d' [|[|[u|e]]]]; try exact Q. now apply CC_fail.
    + pose proof (CC_write c i d H) as Q. destruct (poll_write_it c i d) as [d' [|[|[u|e]]]]; try exact Q. now apply CC_fail.
    + pose proof (CC_flush c i d H) as Q. destruct (d_flush c i d) as [d' [|[u|e]]]; try exact Q. now apply CC_fail.
    + pose proof (CC_write c i d H) as Q. destruct (poll_write_it c i d) as [d' [|[|[u|e]]]]; try exact Q. now apply CC_fail.
    + pose proof (CC_flush c i d H) as Q. destruct (d_flush c i d) as [d' [|[u|e]]]; try exact Q. now apply CC_fail.
    + destruct (d_is_done c d); [|exact H]. unfold pending_upgrade.
      assert (forall d, CC d -> CC (match take_error (d_conn d) with (k, Ok _) => d_complete (dset_conn d k) None | (k, Err e) => d_fail c (dset_conn d k) e end)) as T.
      { clear. intros d H. unfold take_error. destruct (k_error (d_conn d)); [apply CC_fail; exact H|apply CC_drop; exact H]. }
      destruct (k_upgrade (d_conn d)); [apply T; exact H|].
      destruct (wb_flush _ _ _ _) as [[[w ev] sent] r]. set (d2 := dset_conn (dset_conn d _) _). assert (CC d2) as H2 by (subst d2; exact H). clearbody d2.
      destruct r as [|[u|e]]; [exact H2| |now apply CC_fail]. destruct (i_shutdown i) as [|[u'|e']]; [exact H2| |now apply CC_fail]. apply T. exact H2.
    + exact H.
  - destruct e as [s| | |]; cbn [estep].
    + destruct (c_server c); exact H.
    + destruct (d_pc d); try exact H. destruct (c_server c); [|exact H]. unfold d_graceful. destruct (_ || _); [apply CC_close|].
      unfold k_disable_keep_alive. destruct (is_idle (d_conn d)); [intros _; split; reflexivity|exact H].
    + destruct (d_pc d); try exact H. now apply CC_drop.
    + destruct (d_pc d), (k_log (d_conn d)); try exact H. destruct (c_server c); exact H.
Qed.
Lemma CC_run c ms : forall d, CC d -> CC (run c ms d).
Proof. induction ms as [|m ms IH]; intros d H; [exact H|]. apply IH, CC_move, H. Qed.
Lemma CC_after c h09 flat wmax evs ms : CC (after c h09 flat wmax evs ms).
Proof. apply CC_run. discriminate. Qed.
Lemma not_closing d : CC d -> k_reading (d_conn d) <> RClosed -> d_closing d = false.
Proof. intros H Hr. destruct (d_closing d) eqn:E; [|reflexivity]. destruct (H E). congruence. Qed.

(* The end of the future by an error *)
Lemma fail_log c d e : c_server c = true -> exists x y, k_log (d_conn (d_fail c d e)) = k_log (d_conn d) ++ x ++ LReturn (Some e) :: y /\ forallb nret x = true /\ forallb nret y = true.
Proof.
  intros Hs. unfold d_fail, recv_error. rewrite Hs. unfold d_complete. set (d1 := if d_body_tx d then _ else d).
  assert (exists x, k_log (d_conn d1) = k_log (d_conn d) ++ x /\ forallb nret x = true) as (x & L & X) by (subst d1; destruct (d_body_tx d); [exists [LBodyFail]; split; reflexivity|exists []; now rewrite app_nil_r]).
  clearbody d1. destruct (drop_log (dlog d1 [LReturn (Some e)])) as (y & L1 & L2). exists x, y. rewrite L1. cbn. rewrite L, <- !app_assoc. auto.
Qed.
(* A client: the error goes to the caller of the future, or with a request that
   was waiting *)
Lemma fail_log_client c d e : c_server c = false -> d_callback d = None -> exists x, k_log (d_conn (d_fail c d e)) = k_log (d_conn d) ++ x /\
  (In (LReturn (Some e)) x \/ exists id, In (LOutcome id OReturned) x).
Proof.
  intros Hs Hc. unfold d_fail. set (d1 := if d_body_tx d then _ else d).
  assert (d_callback d1 = None /\ exists x, k_log (d_conn d1) = k_log (d_conn d) ++ x) as (Hc1 & x & L) by (subst d1; destruct (d_body_tx d); (split; [exact Hc|]); [exists [LBodyFail]; reflexivity|exists []; now rewrite app_nil_r]).
  clearbody d1. unfold recv_error. rewrite Hs, Hc1. unfold d_complete.
  assert (forall d2 r, exists y, k_log (d_conn (d_drop (dlog d2 [LReturn r]))) = k_log (d_conn d2) ++ LReturn r :: y) as T.
  { intros d2 r. destruct (drop_log (dlog d2 [LReturn r])) as (y & L1 & _). exists y. rewrite L1. cbn. now rewrite <- app_assoc. }
  destruct (d_rx_closed d1).
  - destruct (T d1 (Some e)) as (y & ->). rewrite L, <- app_assoc. eexists. split; [reflexivity|]. left. apply in_or_app. right. now left.
  - destruct (ch_try_recv _) as [ch [id|]].
    + match goal with |- context [d_drop (dlog ?x _)] => destruct (T x None) as (y & ->) end. cbn. rewrite L, <- !app_assoc. eexists. split; [reflexivity|]. right. exists id. apply in_or_app. right. now left.
    + match goal with |- context [d_drop (dlog ?x _)] => destruct (T x (Some e)) as (y & ->) end. cbn. rewrite L, <- !app_assoc. eexists. split; [reflexivity|]. left. apply in_or_app. right. now left.
Qed.
Lemma eof_io k : r_evs (k_rd k) = [] -> r_buf (k_rd k) = [] -> force_io_read k = (set_rd k (mkR [] (r_partial (k_rd k)) []), Ready (Ok 0)).
Proof. intros H1 H2. unfold force_io_read, read_io, r_read_io, poll_read_from_io. cbn [evs rbuf]. rewrite H1, H2. reflexivity. Qed.

Section Server.
  Variables (c : cfg) (h09 flat : bool) (wmax : N) (evs : list event).
  Hypothesis Hs : c_server c = true.
  Let st ms := after c h09 flat wmax evs ms.
  Lemma serving ms : d_pc (st ms) <> PDead -> DI (d_in_flight (st ms)) (d_conn (st ms)).
  Proof. intros H. destruct (DD_all c h09 flat wmax evs Hs ms) as [F|((F & _) & _)]; [now destruct H|exact F]. Qed.
  Lemma waiting_head ms : d_pc (st ms) <> PDead -> k_reading (d_conn (st ms)) = RInit ->
    d_closing (st ms) = false /\ d_in_flight (st ms) = false /\ k_writing (d_conn (st ms)) = WInit /\ k_error (d_conn (st ms)) = None.
  Proof.
    intros Hp Hr. pose proof (serving ms Hp) as H1. destruct (di_init _ _ H1 Hr) as (_ & Hw). split; [apply not_closing; [apply CC_after|congruence]|]. split; [apply (DI_init_false _ _ H1 Hr)|]. split; [exact Hw|].
    destruct (k_error (d_conn (st ms))) eqn:E; [|reflexivity]. destruct (di_err _ _ H1); congruence.
  Qed.

  (* ---- Theorems ---- *)
  (* Part of a request has arrived: the connection ends with "incomplete", or
     with the error for an HTTP/2 preface *)
  Theorem C33_partial_request : forall ms i n m, d_pc (st ms) = PRead n -> k_reading (d_conn (st ms)) = RInit ->
    ended (st ms) -> no_head c (d_conn (st ms)) m -> begun (d_conn (st ms)) m <> [] ->
    exists e x y, k_log (d_conn (dstep c i (st ms))) = k_log (d_conn (st ms)) ++ x ++ LReturn (Some e) :: y /\ forallb nret x = true /\
      (e = CIncomplete \/ e = CParse PVersionH2 /\ takeN 24 (begun (d_conn (st ms)) m) = h2_preface).
  Proof.
    intros ms i n m Hp Hr He Hn Hb. assert (d_pc (st ms) <> PDead) as Hnd by congruence. destruct (waiting_head ms Hnd Hr) as (Hc & Hf & Hw & Her).
    unfold dstep. rewrite Hp. unfold poll_read_it. rewrite Hc. unfold can_read_head. rewrite Hr, Hs. unfold d_poll_read_head, d_poll_ready. rewrite Hs, Hf.
    destruct (eof_head c (i_now i) (i_blk i) _ m He Hn) as (p & ->). unfold on_read_head_error.
    destruct (timer_same c (i_now i) (d_conn (st ms))) as (T1 & T2 & T3 & T4 & _).
    cbn [close_read set_ka set_reading set_rd k_rd consume_leading_lines r_buf r_partial r_evs]. fold (begun (d_conn (st ms)) m).
    set (k1 := set_rd (close_read _) _). assert (k_writing k1 = WInit /\ k_log k1 = k_log (d_conn (st ms)) /\ r_buf (k_rd k1) = begun (d_conn (st ms)) m) as (W1 & L1 & B1) by (subst k1; cbn; rewrite T3; auto). clearbody k1.
    assert (is_parse CIncomplete || negb (match begun (d_conn (st ms)) m with [] => true | _ => false end) = true) as -> by (destruct (begun (d_conn (st ms)) m); [congruence|reflexivity]).
    cbn [orb]. unfold on_parse_error. rewrite W1. unfold has_h2_prefix. rewrite B1.
    assert (forall e, (e = CIncomplete \/ e = CParse PVersionH2 /\ takeN 24 (begun (d_conn (st ms)) m) = h2_preface) ->
      exists e' x y, k_log (d_conn (d_fail c (dset_conn (st ms) k1) e)) = k_log (d_conn (st ms)) ++ x ++ LReturn (Some e') :: y /\ forallb nret x = true /\
      (e' = CIncomplete \/ e' = CParse PVersionH2 /\ takeN 24 (begun (d_conn (st ms)) m) = h2_preface)) as T.
    { intros e H. destruct (fail_log c (dset_conn (st ms) k1) e Hs) as (x & y & L & X & _). exists e, x, y. rewrite L. cbn. rewrite L1. auto. }
    destruct (beq _ _) eqn:Eb.
    - unfold recv_error. rewrite Hs. apply T. right. split; [reflexivity|]. now apply beq_eq.
    - unfold t_on_error. rewrite Hs. unfold recv_error. rewrite Hs. apply T. now left.
  Qed.
  (* Nothing has arrived of a request: the connection ends without an error *)
  Theorem C33_idle_server : forall ms i n m is, d_pc (st ms) = PRead n -> k_reading (d_conn (st ms)) = RInit ->
    ended (st ms) -> no_head c (d_conn (st ms)) m -> begun (d_conn (st ms)) m = [] ->
    has_buffered_write (d_conn (st ms)) = false -> k_upgrade (d_conn (st ms)) = false ->
    Forall ready_transport is -> length is = 8%nat ->
    exists x, history c h09 flat wmax evs (ms ++ map Step (i :: is)) = history c h09 flat wmax evs ms ++ LShutdown :: LReturn None :: x /\ forallb nret x = true.
  Proof.
    intros ms i n m is Hp Hr He Hn Hb Hbw Hu Hi Hl. assert (d_pc (st ms) <> PDead) as Hnd by congruence. destruct (waiting_head ms Hnd Hr) as (Hc & Hf & Hw & Her).
    unfold history. rewrite run_app. cbn [map]. change (run c ms (start h09 flat wmax evs)) with (st ms). change (run c (Step i :: map Step is) (st ms)) with (run c (map Step is) (dstep c i (st ms))).
    assert (exists k, dstep c i (st ms) = d_close (dset_conn (st ms) k) /\ k_log k = k_log (d_conn (st ms)) /\ k_error k = None /\ k_upgrade k = false /\ wb_rem (k_wb k) = 0) as (k & -> & K1 & K2 & K3 & K4).
    { unfold dstep. rewrite Hp. unfold poll_read_it. rewrite Hc. unfold can_read_head. rewrite Hr, Hs. unfold d_poll_read_head, d_poll_ready. rewrite Hs, Hf.
      destruct (eof_head c (i_now i) (i_blk i) _ m He Hn) as (p & ->). unfold on_read_head_error.
      destruct (timer_same c (i_now i) (d_conn (st ms))) as (T1 & T2 & T3 & T4 & T5 & T6 & T7 & _).
      cbn [close_read set_ka set_reading set_rd k_rd consume_leading_lines r_buf r_partial r_evs]. fold (begun (d_conn (st ms)) m). rewrite Hb. unfold should_error_on_eof. rewrite Hs. cbn [negb orb andb is_parse].
      eexists. split; [cbn [is_write_closed close_write k_writing set_ka set_writing d_conn dset_conn]; reflexivity|]. cbn. rewrite T5, T6, T7. repeat split; auto. unfold has_buffered_write in Hbw. apply N.ltb_ge in Hbw. lia. }
    assert (k_log (d_conn (d_close (dset_conn (st ms) k))) = k_log (d_conn (st ms))) as <- by exact K1. eapply closed_run; auto.
    - constructor; auto.
    - unfold left_. cbn. rewrite Hp, Hl. destruct (k_notify k); lia.
  Qed.
  (* The peer goes away while its request is being handled *)
  Theorem C33_busy_server : forall ms i n, d_pc (st ms) = PRead n -> k_reading (d_conn (st ms)) = RKeepAlive -> d_body_tx (st ms) = false ->
    c_half_close c = false -> ended (st ms) -> r_buf (k_rd (d_conn (st ms))) = [] ->
    exists x y, k_log (d_conn (dstep c i (st ms))) = k_log (d_conn (st ms)) ++ x ++ LReturn (Some CIncomplete) :: y /\ forallb nret x = true.
  Proof.
    intros ms i n Hp Hr Ht Hh He Hb. assert (d_closing (st ms) = false) as Hc by (apply not_closing; [apply CC_after|congruence]).
    unfold dstep. rewrite Hp. unfold poll_read_it. rewrite Hc. unfold can_read_head. rewrite Hr, Ht. unfold k_poll_read_keep_alive, is_read_closed, is_mid_message, mid_message_detect_eof. rewrite Hr, Hh, Hb. cbn [negb orb].
    rewrite (eof_io _ He Hb). cbn [N.eqb]. match goal with |- context [d_fail c ?d ?e] => destruct (fail_log c d e Hs) as (x & y & L & X & _) end. exists x, y. rewrite L. auto.
  Qed.
  (* With half-close it is served to the end *)
  Theorem C33_half_close : forall ms i n, d_pc (st ms) = PRead n -> k_reading (d_conn (st ms)) = RKeepAlive -> d_body_tx (st ms) = false ->
    c_half_close c = true -> dstep c i (st ms) = dset_pc (st ms) (PWrite n).
  Proof.
    intros ms i n Hp Hr Ht Hh. assert (d_closing (st ms) = false) as Hc by (apply not_closing; [apply CC_after|congruence]).
    unfold dstep. rewrite Hp. unfold poll_read_it. rewrite Hc. unfold can_read_head. rewrite Hr, Ht. unfold k_poll_read_keep_alive, is_read_closed, is_mid_message, mid_message_detect_eof. rewrite Hr, Hh. cbn [negb orb].
    destruct (st ms). reflexivity.
  Qed.
End Server.

(* ---- Bodies, on both sides ---- *)
(* The framing of the body says that more must come *)
Definition more_to_come (d : decoder) : Prop := match d with DEof _ => False | _ => is_eof d = false end.
Lemma eof_decode c d s : rbuf s = [] -> evs s = [] -> more_to_come d -> exists d' e, decode (c_dt c) d s = (d', s, Ready (Err e)) /\ is_eof_error e = true.
Proof.
  intros Hb He Hd. destruct s as [b ev]. cbn in Hb, He. subst. destruct d as [n|cd|e].
  - destruct n as [|n]; [discriminate Hd|]. cbn. eexists _, _. split; reflexivity.
  - cbn [decode]. set (f := S (src_size (mkSrc [] []))). cbn in f. subst f.
    destruct cd as [s0 l x t tc mh ms0]. destruct s0; cbn in Hd; try discriminate Hd; cbn; try (eexists _, _; split; reflexivity).
  - destruct Hd.
Qed.

Theorem C33_body : forall c h09 flat wmax evs ms i n dec, let d := after c h09 flat wmax evs ms in
  d_pc d = PRead n -> k_reading (d_conn d) = RBody dec \/ k_reading (d_conn d) = RContinue dec -> d_body_tx d = true -> i_body i = BReady ->
  ended d -> r_buf (k_rd (d_conn d)) = [] -> more_to_come dec ->
  exists x e, k_log (d_conn (dstep c i d)) = k_log (d_conn d) ++ x ++ [LInError e; LBodyFail] /\ is_eof_error e = true /\ (x = [LWant] \/ x = [LWant; LContinue]).
Proof.
  intros c h09 flat wmax evs ms i n dec d Hp Hr Ht Hi He Hb Hm. assert (d_closing d = false) as Hc by (apply not_closing; [apply CC_after|destruct Hr; congruence]).
  assert (can_read_head c (d_conn d) = false /\ can_read_body (d_conn d) = true) as (R1 & R2) by (unfold can_read_head, can_read_body; destruct Hr as [-> | ->]; auto).
  unfold dstep. rewrite Hp. unfold poll_read_it. rewrite Hc, R1, Ht, R2, Hi. clear R1 R2. unfold k_poll_read_body.
  assert (forall k, r_buf (k_rd k) = [] -> r_evs (k_rd k) = [] -> exists k' e, read_body_state c (i_blk i) k dec = (k', Ready (Some (Err e))) /\ k_log k' = k_log k ++ [LInError e] /\ is_eof_error e = true) as T.
  { intros k B1 B2. unfold read_body_state, k_decode. rewrite B1, B2. destruct (eof_decode c dec (mkSrc [] []) eq_refl eq_refl Hm) as (d' & e & -> & Q). eexists _, e. split; [reflexivity|]. split; [|exact Q]. now rewrite last_in_try. }
  cbn [k_reading log k_writing]. destruct Hr as [Er|Er]; rewrite Er.
  - destruct (T (log (d_conn d) [LWant]) Hb He) as (k' & e & -> & L & Q). exists [LWant], e. cbn. rewrite L. cbn. rewrite <- !app_assoc. auto.
  - match goal with |- context [read_body_state c _ ?k dec] => set (k1 := k) end.
    assert (exists x, k_log k1 = k_log (d_conn d) ++ x /\ (x = [LWant] \/ x = [LWant; LContinue]) /\ k_rd k1 = k_rd (d_conn d)) as (x & L1 & X & R).
    { subst k1. destruct (k_writing (d_conn d)); cbn; rewrite <- ?app_assoc; eauto. }
    clearbody k1. destruct (T k1) as (k' & e & -> & L & Q); [now rewrite R|now rewrite R|]. exists x, e. cbn. rewrite L, L1, <- !app_assoc. auto.
Qed.

Section Client.
  Variables (c : cfg) (h09 flat : bool) (wmax : N) (evs : list event).
  Hypothesis Hcl : client_cfg c.
  Let st ms := after c h09 flat wmax evs ms.
  Lemma client_ci ms : CI (d_conn (st ms)).
  Proof. apply (client_inv c Hcl ms _ (CInv_start h09 flat wmax evs)). Qed.
  (* The request was written, no complete response has come: its future gets the error *)
  Theorem C33_no_response : forall ms i n m id, d_pc (st ms) = PRead n -> k_reading (d_conn (st ms)) = RInit -> k_writing (d_conn (st ms)) <> WInit ->
    d_callback (st ms) = Some id -> i_canceled i = false -> ended (st ms) -> no_head c (d_conn (st ms)) m ->
    k_log (d_conn (dstep c i (st ms))) = k_log (d_conn (st ms)) ++ [LOutcome id (OError CIncomplete)].
  Proof.
    intros ms i n m id Hp Hr Hw Hcb Hi He Hn. pose proof (proj1 Hcl) as Hs. assert (d_closing (st ms) = false) as Hc by (apply not_closing; [apply CC_after|congruence]).
    assert (is_idle (d_conn (st ms)) = false) as Hid. { destruct (client_ci ms) as (x & _ & _ & _ & K & _). unfold is_idle. destruct (k_ka (d_conn (st ms))); auto. destruct (K eq_refl) as (_ & F & _). congruence. }
    unfold dstep. rewrite Hp. unfold poll_read_it. rewrite Hc. unfold can_read_head. rewrite Hr, Hs.
    assert (match k_writing (d_conn (st ms)) with WInit => false | _ => true end = true) as -> by (destruct (k_writing (d_conn (st ms))); congruence).
    unfold d_poll_read_head, d_poll_ready. rewrite Hs, Hcb, Hi.
    destruct (eof_head c (i_now i) (i_blk i) _ m He Hn) as (p & ->). unfold on_read_head_error.
    destruct (timer_same c (i_now i) (d_conn (st ms))) as (T1 & T2 & T3 & T4 & _).
    match goal with |- context [should_error_on_eof c ?k] => assert (should_error_on_eof c k = true) as -> by (unfold should_error_on_eof; rewrite Hs; unfold is_idle in *; cbn; rewrite T4; now rewrite Hid) end.
    rewrite orb_true_r. set (k1 := set_rd (close_read _) _). assert (k_writing k1 <> WInit /\ k_log k1 = k_log (d_conn (st ms))) as (W1 & L1) by (subst k1; cbn; rewrite T3; auto). clearbody k1.
    unfold on_parse_error. assert (match k_writing k1 with WInit => if has_h2_prefix k1 then (k1, Err (CParse PVersionH2)) else match t_on_error c CIncomplete with Some status => (set_error (write_head c true k1 (mkO HTTP11 (OResponse status None) [] None) None) (Some CIncomplete), Ok tt) | None => (k1, Err CIncomplete) end | _ => (k1, Err CIncomplete) end = (k1, Err CIncomplete)) as -> by (destruct (k_writing k1); congruence).
    unfold recv_error. rewrite Hs. cbn [d_callback dset_conn]. rewrite Hcb. cbn. now rewrite L1.
  Qed.
  (* The response has come, the request is not yet written: the future of the
     connection reports it, or hands back the next request *)
  Theorem C33_upload : forall ms i n, d_pc (st ms) = PRead n -> k_reading (d_conn (st ms)) = RKeepAlive -> d_body_tx (st ms) = false -> d_callback (st ms) = None ->
    c_half_close c = false -> ended (st ms) -> r_buf (k_rd (d_conn (st ms))) = [] ->
    exists x, k_log (d_conn (dstep c i (st ms))) = k_log (d_conn (st ms)) ++ x /\ (In (LReturn (Some CIncomplete)) x \/ exists id, In (LOutcome id OReturned) x).
  Proof.
    intros ms i n Hp Hr Ht Hcb Hh He Hb. assert (d_closing (st ms) = false) as Hc by (apply not_closing; [apply CC_after|congruence]).
    unfold dstep. rewrite Hp. unfold poll_read_it. rewrite Hc. unfold can_read_head. rewrite Hr, Ht. unfold k_poll_read_keep_alive, is_read_closed, is_mid_message, mid_message_detect_eof. rewrite Hr, Hh, Hb. cbn [negb orb].
    rewrite (eof_io _ He Hb). cbn [N.eqb]. match goal with |- context [d_fail c ?d ?e] => destruct (fail_log_client c d e (proj1 Hcl) Hcb) as (x & L & X) end. exists x. rewrite L. auto.
  Qed.

  (* An idle client connection *)
  Record leaving (d : disp) : Prop := mkLv {
    lv_closing : d_closing d = false; lv_r : k_reading (d_conn d) = RClosed; lv_w : k_writing (d_conn d) = WInit; lv_tx : d_body_tx d = false;
    lv_err : k_error (d_conn d) = None; lv_up : k_upgrade (d_conn d) = false; lv_buf : wb_rem (k_wb (d_conn d)) = 0; lv_room : can_buffer_body c (d_conn d) = true }.
  Lemma try_leaving blk k : k_reading k = RClosed -> k_writing k = WInit -> try_keep_alive c blk k = k.
  Proof. intros A1 A2. unfold try_keep_alive. assert (st_try_keep_alive c k = k) as -> by (unfold st_try_keep_alive; now rewrite A1, A2). unfold maybe_notify. now rewrite A1. Qed.
  Lemma leaving_pc d x : leaving d -> leaving (dset_pc d x).
  Proof. intros [A1 A2 A3 A4 A5 A6 A7 A8]. now constructor. Qed.
  Lemma leaving_flush i d : ready_transport i -> leaving d -> let d' := fst (d_flush c i d) in
    snd (d_flush c i d) = Ready (Ok tt) /\ leaving d' /\ k_log (d_conn d') = k_log (d_conn d) /\ d_pc d' = d_pc d /\ k_notify (d_conn d') = k_notify (d_conn d) /\ d_body_rx d' = d_body_rx d.
  Proof.
    intros ((n & r & Hw) & _) [A1 A2 A3 A4 A5 A6 A7 A8]. cbn zeta. unfold d_flush, k_poll_flush.
    destruct (flush_nothing c (negb (match r_buf (k_rd (d_conn d)) with [] => true | _ => false end)) _ _ n r A7 Hw) as (ev & ->).
    rewrite try_leaving by assumption. cbn. split; [reflexivity|]. split; [constructor; assumption|]. split; [apply app_nil_r|auto].
  Qed.
  Definition lleft (d : disp) : nat :=
    (match d_pc d with PIdle => 8 | PRead _ => 7 | PWrite _ | PWrite2 _ => 5 + (if d_body_rx d then 1 else 0) | PFlush _ _ | PFlush2 => 1 | _ => 0 end + if k_notify (d_conn d) then 9 else 0)%nat.
  Lemma leaving_step i d : ready_transport i -> leaving d -> d_pc d <> PDead ->
    (d_pc (dstep c i d) = PDead /\ exists x, k_log (d_conn (dstep c i d)) = k_log (d_conn d) ++ LShutdown :: LReturn None :: x /\ forallb nret x = true) \/
    (leaving (dstep c i d) /\ d_pc (dstep c i d) <> PDead /\ k_log (d_conn (dstep c i d)) = k_log (d_conn d) /\ (lleft (dstep c i d) < lleft d)%nat).
  Proof.
    intros Hi Hd Hp. pose proof (proj1 Hcl) as Hs. pose proof Hd as [A1 A2 A3 A4 A5 A6 A7 A8].
    assert (forall n rx, next_round n <> PDead /\ (match next_round n with PIdle => 8 | PRead _ => 7 | PWrite _ | PWrite2 _ => 5 + rx | PFlush _ _ | PFlush2 => 1 | _ => 0 end <= 8)%nat) as Hnr by (intros [|[|n]] rx; (split; [discriminate|cbn; lia])).
    assert (k_can_write_body (d_conn d) = false) as Hcb by (unfold k_can_write_body; now rewrite A3).
    assert (poll_write_it c i d = if d_body_rx d then (dset_body_rx d false, Cont) else (d, Ret Pending)) as Hpw.
    { unfold poll_write_it. rewrite A1. unfold can_write_head. rewrite Hs. unfold is_read_closed. rewrite A2. cbn [negb andb]. rewrite andb_false_r. cbn [andb]. rewrite A8. cbn [negb]. rewrite Hcb. cbn [negb]. destruct (d_body_rx d); reflexivity. }
    unfold dstep. destruct (d_pc d) as [|n|n|n wr|n| | |] eqn:Ep.
    - right. split; [now apply leaving_pc|]. split; [discriminate|]. split; [reflexivity|]. unfold lleft. rewrite Ep. cbn. lia.
    - assert (poll_read_it c i d = (d, Ret Pending)) as ->.
      { unfold poll_read_it. rewrite A1. unfold can_read_head. rewrite A2, A4. unfold k_poll_read_keep_alive, is_read_closed. rewrite A2. destruct d; reflexivity. }
      right. split; [now apply leaving_pc|]. split; [discriminate|]. split; [reflexivity|]. unfold lleft. rewrite Ep. cbn [d_pc dset_pc d_conn d_body_rx]. destruct (d_body_rx d); lia.
    - rewrite Hpw. right. destruct (d_body_rx d) eqn:Erx.
      + split; [constructor; auto|]. split; [cbn; congruence|]. split; [reflexivity|]. unfold lleft. cbn [d_pc dset_body_rx d_conn d_body_rx]. rewrite Ep, Erx. lia.
      + split; [now apply leaving_pc|]. split; [discriminate|]. split; [reflexivity|]. unfold lleft. rewrite Ep. cbn [d_pc dset_pc d_conn d_body_rx]. lia.
    - destruct (leaving_flush i d Hi Hd) as (R & C & L & P & N & RX). destruct (d_flush c i d) as [d' r]. cbn [fst snd] in *. subst r.
      assert (can_write_again d' = false) as -> by (unfold can_write_again, k_can_write_body; rewrite (lv_w _ C); now rewrite andb_false_r).
      unfold wants_read_again. rewrite N. cbn [andb]. right. split; [destruct C; constructor; assumption|].
      unfold lleft. rewrite Ep. cbn [d_pc d_conn dset_pc dset_conn k_notify set_notify d_body_rx].
      destruct (k_notify (d_conn d)) eqn:En.
      + split; [apply (Hnr n 0%nat)|]. split; [exact L|]. pose proof (proj2 (Hnr n (if d_body_rx d' then 1 else 0)%nat)). lia.
      + split; [discriminate|]. split; [exact L|lia].
    - rewrite Hpw. right. destruct (d_body_rx d) eqn:Erx.
      + split; [constructor; auto|]. split; [cbn; congruence|]. split; [reflexivity|]. unfold lleft. cbn [d_pc dset_body_rx d_conn d_body_rx]. rewrite Ep, Erx. lia.
      + split; [now apply leaving_pc|]. unfold has_buffered_write. rewrite A7. cbn [N.ltb N.compare]. split; [discriminate|]. split; [reflexivity|]. unfold lleft. rewrite Ep. cbn [d_pc dset_pc d_conn d_body_rx]. lia.
    - destruct (leaving_flush i d Hi Hd) as (R & C & L & P & N & RX). destruct (d_flush c i d) as [d' r]. cbn [fst snd] in *. subst r.
      right. split; [now apply leaving_pc|]. split; [discriminate|]. split; [exact L|]. unfold lleft. rewrite Ep. cbn [d_pc d_conn dset_pc]. rewrite N. lia.
    - left. destruct Hi as ((n & r & Hw) & Hsh). unfold d_is_done. rewrite A1, Hs. unfold is_read_closed. rewrite A2. cbn [negb andb]. unfold pending_upgrade. rewrite A6.
      cbn [d_conn dset_conn k_wb set_upgrade k_rd]. destruct (flush_nothing c (negb (match r_buf (k_rd (d_conn d)) with [] => true | _ => false end)) _ _ n r A7 Hw) as (ev & ->). rewrite Hsh.
      unfold take_error. cbn [d_conn dlog dset_conn log set_wb set_upgrade k_error]. rewrite A5.
      split; [unfold d_complete; now rewrite d_drop_eq|]. unfold d_complete. match goal with |- context [d_drop ?x] => destruct (drop_log x) as (x0 & L1 & L2) end. exists x0. rewrite L1. cbn. rewrite app_nil_r, <- !app_assoc. auto.
    - now destruct Hp.
  Qed.
  Lemma leaving_run is : forall d, Forall ready_transport is -> leaving d -> d_pc d <> PDead -> (lleft d < length is)%nat ->
    let d' := run c (map Step is) d in
    d_pc d' = PDead /\ exists x, k_log (d_conn d') = k_log (d_conn d) ++ LShutdown :: LReturn None :: x /\ forallb nret x = true.
  Proof.
    induction is as [|i is IH]; intros d Hi Hd Hc Hn; [cbn in Hn; lia|]. inversion Hi as [|? ? H1 H2]. subst. cbn [map]. change (run c (Step i :: map Step is) d) with (run c (map Step is) (dstep c i d)).
    destruct (leaving_step i d H1 Hd Hc) as [(D & x & L & X)|(C & C' & L & Q)].
    - destruct (dead_run c (map Step is) _ D) as (Z1 & Z2). cbn zeta. rewrite Z1, Z2. eauto.
    - cbn zeta in *. rewrite <- L. apply IH; auto. cbn in Hn. lia.
  Qed.
  Theorem C33_idle_client : forall ms i n is, d_pc (st ms) = PRead n -> is_idle (d_conn (st ms)) = true -> d_body_tx (st ms) = false ->
    ended (st ms) -> r_buf (k_rd (d_conn (st ms))) = [] ->
    has_buffered_write (d_conn (st ms)) = false -> can_buffer_body c (d_conn (st ms)) = true -> k_upgrade (d_conn (st ms)) = false -> k_error (d_conn (st ms)) = None ->
    Forall ready_transport is -> length is = 16%nat ->
    exists x, history c h09 flat wmax evs (ms ++ map Step (i :: is)) = history c h09 flat wmax evs ms ++ LShutdown :: LReturn None :: x /\ forallb nret x = true.
  Proof.
    intros ms i n is Hp Hid Ht He Hb Hw Hroom Hu Her Hi Hl. pose proof (proj1 Hcl) as Hs.
    assert (k_reading (d_conn (st ms)) = RInit /\ k_writing (d_conn (st ms)) = WInit) as (Hr & Hwr). { destruct (client_ci ms) as (x & _ & _ & _ & K & _). unfold is_idle in Hid. destruct (k_ka (d_conn (st ms))); try discriminate Hid. destruct (K eq_refl) as (A & B' & _). auto. }
    assert (d_closing (st ms) = false) as Hc by (apply not_closing; [apply CC_after|congruence]).
    unfold history. rewrite run_app. cbn [map]. change (run c ms (start h09 flat wmax evs)) with (st ms). change (run c (Step i :: map Step is) (st ms)) with (run c (map Step is) (dstep c i (st ms))).
    assert (dstep c i (st ms) = dset_pc (dset_conn (st ms) (close_read (set_rd (d_conn (st ms)) (mkR [] (r_partial (k_rd (d_conn (st ms)))) [])))) (PWrite n)) as ->.
    { unfold dstep. rewrite Hp. unfold poll_read_it. rewrite Hc. unfold can_read_head. rewrite Hr, Hs, Hwr, Ht. unfold k_poll_read_keep_alive, is_read_closed, is_mid_message, require_empty_read. rewrite Hr, Hwr, Hb.
      rewrite (eof_io _ He Hb). cbn [N.eqb]. unfold should_error_on_eof. assert (is_idle (set_rd (d_conn (st ms)) (mkR [] (r_partial (k_rd (d_conn (st ms)))) [])) = true) as -> by exact Hid. rewrite andb_false_r. reflexivity. }
    match goal with |- context [run c _ ?d0] => assert (k_log (d_conn d0) = k_log (d_conn (st ms))) as <- by reflexivity; eapply (leaving_run is d0); auto end.
    - constructor; auto. cbn. unfold has_buffered_write in Hw. apply N.ltb_ge in Hw. lia.
    - discriminate.
    - unfold lleft. cbn [d_pc dset_pc dset_conn d_conn d_body_rx k_notify close_read set_ka set_reading set_rd]. rewrite Hl. destruct (d_body_rx (st ms)), (k_notify (d_conn (st ms))); lia.
  Qed.
End Client.

(* ---- A client connection that was never used ---- *)
(* The full statement for clients: an idle connection is one on which nothing is
   being read or written, no request waits for its response, and nothing was
   received.  It fails for a connection before its first request. *)
Definition idle_end_is_clean : Prop := forall c h09 flat wmax evs ms i n e, client_cfg c -> let d := after c h09 flat wmax evs ms in
  d_pc d = PRead n -> k_reading (d_conn d) = RInit -> k_writing (d_conn d) = WInit -> d_callback d = None -> ended d -> r_buf (k_rd (d_conn d)) = [] ->
  ~ In (LReturn (Some e)) (k_log (d_conn (dstep c i d))).
Theorem C33_unused_client_refuted : ~ idle_end_is_clean.
Proof.
  intros H. apply (H (ex_cfg false false None) false true 8192 [] (steps 1 starved) starved 16%nat CIncomplete (ex_client false None)); try (vm_compute; reflexivity).
  vm_compute. auto.
Qed.

(* ---- Examples ---- *)
Example C33_ex_partial : let d := after (ex_cfg true false None) false true 8192 [EvData (B "GET /"); EvPending] (steps 6 starved) in
  d_pc d = PRead 16 /\ k_reading (d_conn d) = RInit /\ ended d /\ no_head (ex_cfg true false None) (d_conn d) 0 /\ begun (d_conn d) 0 = B "GET /" /\
  k_log (d_conn (dstep (ex_cfg true false None) starved d)) = [LReturn (Some CIncomplete)].
Proof. vm_compute. repeat split. Qed.
Example C33_ex_idle_server : let d := after (ex_cfg true false None) false true 8192 [EvPending] (steps 6 starved) in
  d_pc d = PRead 16 /\ k_reading (d_conn d) = RInit /\ ended d /\ no_head (ex_cfg true false None) (d_conn d) 0 /\ begun (d_conn d) 0 = [] /\
  has_buffered_write (d_conn d) = false /\ k_upgrade (d_conn d) = false /\
  history (ex_cfg true false None) false true 8192 [EvPending] (steps 6 starved ++ steps 9 starved) = [LShutdown; LReturn None].
Proof. vm_compute. repeat split. Qed.
Example C33_ex_busy : let d := after (ex_cfg true false None) false true 8192 [EvData (line (B "GET / HTTP/1.1")); EvPending] (steps 7 starved) in
  d_pc d = PRead 16 /\ k_reading (d_conn d) = RKeepAlive /\ d_body_tx d = false /\ c_half_close (ex_cfg true false None) = false /\ ended d /\ r_buf (k_rd (d_conn d)) = [] /\
  exists m, k_log (d_conn (dstep (ex_cfg true false None) starved d)) = [LIn m; LInEnd; LReturn (Some CIncomplete)].
Proof. vm_compute. repeat split. eauto. Qed.
Example C33_ex_body : let d := after (ex_cfg true false None) false true 8192 [EvData (line (B "PUT / HTTP/1.1")); EvPending] (steps 7 starved) in
  d_pc d = PRead 16 /\ k_reading (d_conn d) = RBody (DLength 3) /\ d_body_tx d = true /\ ended d /\ r_buf (k_rd (d_conn d)) = [] /\ more_to_come (DLength 3).
Proof. vm_compute. repeat split. Qed.
Definition one_request : list move := [Env (ESender SGive); Env (ESender SPush)].
Example C33_ex_no_response : let d := after (ex_cfg false false None) false true 8192 [EvPending; EvPending] (one_request ++ steps 12 starved) in
  d_pc d = PRead 16 /\ k_reading (d_conn d) = RInit /\ k_writing (d_conn d) = WKeepAlive /\ d_callback d = Some 0 /\ ended d /\ no_head (ex_cfg false false None) (d_conn d) 0 /\
  In (LOutcome 0 (OError CIncomplete)) (k_log (d_conn (dstep (ex_cfg false false None) starved d))).
Proof. vm_compute. repeat split. auto 10. Qed.
Example C33_ex_idle_client : let evs := [EvPending; EvPending; EvData (line (B "HTTP/1.1 200 OK")); EvPending] in
  let d := after (ex_cfg false false None) false true 8192 evs (one_request ++ steps 16 starved) in
  d_pc d = PRead 15 /\ is_idle (d_conn d) = true /\ d_body_tx d = false /\ ended d /\ r_buf (k_rd (d_conn d)) = [] /\ has_buffered_write (d_conn d) = false /\
  can_buffer_body (ex_cfg false false None) (d_conn d) = true /\ k_upgrade (d_conn d) = false /\ k_error (d_conn d) = None /\ ready_transport starved.
Proof. cbv zeta. repeat (split; [vm_compute; reflexivity|]). split; [do 2 eexists; reflexivity|reflexivity]. Qed.
Definition uploading : inp :=
  mkI 0 true true [WAccept 65536] false BReady true Pending (mkO HTTP11 (ORequest (B "POST") (B "/")) [] None, Some (Known 3)) Pending false (Ready (Ok tt)) [].
Example C33_ex_upload : let evs := [EvPending; EvPending; EvData (line (B "HTTP/1.1 200 OK")); EvPending] in
  let d := after (ex_cfg false false None) false true 8192 evs (one_request ++ steps 20 uploading) in
  d_pc d = PRead 16 /\ k_reading (d_conn d) = RKeepAlive /\ d_body_tx d = false /\ d_callback d = None /\ c_half_close (ex_cfg false false None) = false /\ ended d /\ r_buf (k_rd (d_conn d)) = [].
Proof. vm_compute. repeat split. Qed.

Print Assumptions C33_partial_request.
Print Assumptions C33_idle_server.
Print Assumptions C33_busy_server.
Print Assumptions C33_half_close.
Print Assumptions C33_body.
Print Assumptions C33_no_response.
Print Assumptions C33_upload.
Print Assumptions C33_idle_client.
Print Assumptions C33_unused_client_refuted.
