(* Lemmas: the bytes that a server connection queues are the responses that it was
   given. *)
From Verif Require Import Base M_Src M_Decode M_HeaderMap M_Headers M_Encode M_Role M_RoleEncode M_Buf M_WriteBuf M_Read M_Conn M_Dispatch S_Conn S_Client S_Buf S_Chunked S_Send S_Outbound S_Reply L_Buf L_WriteBuf L_Conn L_Moves L_ConnS L_ConnC L_Ext L_Encode L_Encode2 L_Stream L_BodyTx L_Outbound.
From Verif Require P_Write.

(* ---- Moves that write nothing ---- *)
Definition squiet (e : levent) : bool := match e with LHead _ _ _ | LHeadFail _ | LBody _ | LContinue | LIn _ => false | _ => true end.
Definition sq (k k' : conn) : Prop :=
  exists l, k_log k' = k_log k ++ l /\ forallb squiet l = true /\ wr_rel (k_writing k) (k_writing k') /\
    k_trailers k' = k_trailers k /\ (k_method k' = k_method k \/ k_writing k = WKeepAlive).
Lemma sq_refl k : sq k k.
Proof. exists []. rewrite app_nil_r. unfold wr_rel. auto 10. Qed.
Lemma sq_trans k k' k'' : sq k k' -> sq k' k'' -> sq k k''.
Proof.
  intros (a & A1 & A2 & A3 & A4 & A5) (b & B1 & B2 & B3 & B4 & B5). exists (a ++ b). rewrite B1, A1, app_assoc, forallb_app, A2, B2. split; [reflexivity|]. split; [reflexivity|]. split; [eapply wr_trans; eassumption|]. split; [congruence|].
  destruct A5 as [A5|A5]; [|auto]. destruct B5 as [B5|B5]; [left; congruence|]. right. destruct A3 as [A3 | [A3 | [A3 _]]]; congruence.
Qed.
Lemma sq_same k k' : k_log k' = k_log k -> wr_rel (k_writing k) (k_writing k') -> k_trailers k' = k_trailers k -> k_method k' = k_method k -> sq k k'.
Proof. intros H1 H2 H3 H4. exists []. rewrite app_nil_r. auto 10. Qed.
Lemma sq_log k l : forallb squiet l = true -> sq k (log k l).
Proof. intros H. exists l. unfold wr_rel. auto 10. Qed.
Ltac ssame := apply sq_same; [reflexivity|first [left; reflexivity | right; left; reflexivity]|reflexivity|reflexivity].
Lemma sq_st_try c k : sq k (st_try_keep_alive c k).
Proof.
  unfold st_try_keep_alive, idle. destruct (k_reading k) eqn:Er; try apply sq_refl; destruct (k_writing k) eqn:Ew; try apply sq_refl; try ssame.
  destruct (k_ka k); try ssame. exists []. rewrite app_nil_r. destruct (c_server c), (c_timeout c); (split; [reflexivity|]; split; [reflexivity|]; split; [right; right; split; [exact Ew|reflexivity]|]; split; [reflexivity|right; exact Ew]).
Qed.
Lemma sq_read_io k : sq k (fst (read_io k)).
Proof. unfold read_io. destruct (r_read_io (k_rd k)). ssame. Qed.
Lemma sq_maybe_notify blk k : sq k (maybe_notify blk k).
Proof.
  unfold maybe_notify. pose proof (sq_read_io k) as H'.
  destruct (k_reading k); try apply sq_refl. destruct (k_writing k); try apply sq_refl;
  (destruct blk; [apply sq_refl|]; destruct (r_buf (k_rd k)); [|ssame];
   destruct (read_io k) as [k' [|[n|e]]]; cbn [fst] in H'; [exact H'| |eapply sq_trans; [exact H'|ssame]];
   destruct (n =? 0); [destruct (is_idle k')|]; (eapply sq_trans; [exact H'|ssame])).
Qed.
Lemma sq_try c blk k : sq k (try_keep_alive c blk k).
Proof. eapply sq_trans; [apply sq_st_try|apply sq_maybe_notify]. Qed.
Lemma sq_flush c blk wevs k : sq k (fst (k_poll_flush c blk wevs k)).
Proof.
  unfold k_poll_flush. destruct (wb_flush _ _ _ _) as [[[w ev] sent] r].
  assert (sq k (log (set_wb k w) (match sent with [] => [] | _ => [LSent sent] end))) as H1.
  { destruct sent as [|x sent]; (eapply sq_trans; [|apply sq_log; reflexivity]); ssame. }
  destruct r as [|[u|e]]; cbn [fst]; [exact H1|eapply sq_trans; [exact H1|apply sq_try]|exact H1].
Qed.

Lemma sq_read_body_state c blk k d : sq k (fst (read_body_state c blk k d)).
Proof.
  unfold read_body_state, k_decode.
  destruct (decode (c_dt c) d _) as [[d' sc] r].
  set (k1 := set_rd k _). assert (sq k k1) as H1 by ssame. clearbody k1.
  eapply sq_trans; [exact H1|]. clear H1.
  destruct r as [|[[x|t]|e]].
  - ssame.
  - destruct (is_eof d').
    + destruct x as [|b x]; cbn [fst app]; (eapply sq_trans; [|apply sq_try]); eapply sq_trans; [|apply sq_log; reflexivity| |apply sq_log; reflexivity]; ssame.
    + destruct x as [|b x]; cbn [fst]; [eapply sq_trans; [|apply sq_try]; ssame|]. eapply sq_trans; [|apply sq_log; reflexivity]. ssame.
  - cbn [fst]. (eapply sq_trans; [|apply sq_try]). eapply sq_trans; [|apply sq_log; reflexivity]. ssame.
  - cbn [fst]. (eapply sq_trans; [|apply sq_try]). eapply sq_trans; [|apply sq_log; reflexivity]. ssame.
Qed.
Lemma sq_poll_read_body c blk k : (forall d, k_reading k = RContinue d -> k_writing k <> WInit) -> sq k (fst (k_poll_read_body c blk k)).
Proof.
  intros H. unfold k_poll_read_body. destruct (k_reading k) as [|d|d| |] eqn:Er; try apply sq_refl; [|apply sq_read_body_state].
  eapply sq_trans; [|apply sq_read_body_state]. specialize (H d eq_refl). destruct (k_writing k) eqn:Ew; [congruence|ssame..].
Qed.
Lemma sq_drain c blk k : sq k (drain_or_close_read c blk k).
Proof.
  unfold drain_or_close_read. set (k1 := match k_reading k with RContinue d => _ | _ => k end).
  assert (sq k k1) as H1 by (subst k1; destruct (k_reading k); ssame).
  assert (forall d, k_reading k1 = RContinue d -> k_writing k1 <> WInit) as H2 by (subst k1; intros d; destruct (k_reading k) eqn:Er; cbn; rewrite ?Er; discriminate).
  clearbody k1. eapply sq_trans; [exact H1|].
  eapply sq_trans; [apply (sq_poll_read_body c blk), H2|]. destruct (k_reading (fst (k_poll_read_body c blk k1))); try apply sq_refl; ssame.
Qed.
Lemma sq_keep_alive c k : sq k (fst (k_poll_read_keep_alive c k)).
Proof.
  unfold k_poll_read_keep_alive, mid_message_detect_eof, require_empty_read, force_io_read.
  pose proof (sq_read_io k) as H1.
  destruct (is_read_closed k); [apply sq_refl|]. destruct (is_mid_message k).
  - destruct (_ || _); [apply sq_refl|]. destruct (read_io k) as [k' [|[n|e]]]; cbn [fst] in *; [exact H1| |eapply sq_trans; [exact H1|ssame]].
    destruct (n =? 0); [eapply sq_trans; [exact H1|ssame]|exact H1].
  - destruct (r_buf (k_rd k)); [|apply sq_refl]. destruct (read_io k) as [k' [|[n|e]]]; cbn [fst] in *; [exact H1| |eapply sq_trans; [exact H1|ssame]].
    destruct (n =? 0); [eapply sq_trans; [exact H1|ssame]|exact H1].
Qed.

(* The dispatcher *)
Definition sqd (d d' : disp) : Prop := sq (d_conn d) (d_conn d') /\ d_body_rx d' = d_body_rx d /\ d_in_flight d' = d_in_flight d.
Lemma sqd_refl d : sqd d d.
Proof. split; [apply sq_refl|split; reflexivity]. Qed.
Lemma sqd_trans d d' d'' : sqd d d' -> sqd d' d'' -> sqd d d''.
Proof. intros (A & A' & A'') (B & B' & B''). split; [eapply sq_trans; eassumption|split; congruence]. Qed.
Lemma sqd_conn d k : sq (d_conn d) k -> sqd d (dset_conn d k).
Proof. intros H. split; [exact H|split; reflexivity]. Qed.
Lemma sqd_same d d' : d_conn d' = d_conn d -> d_body_rx d' = d_body_rx d -> d_in_flight d' = d_in_flight d -> sqd d d'.
Proof. intros A B' C. split; [rewrite A; apply sq_refl|split; [exact B'|exact C]]. Qed.
Lemma sqd_close d : sqd d (d_close d).
Proof. split; [ssame|split; reflexivity]. Qed.
Lemma sqd_log d l : forallb squiet l = true -> sqd d (dlog d l).
Proof. intros H. apply sqd_conn, sq_log, H. Qed.
Lemma sqd_recv_error c d e : sqd d (fst (recv_error c d e)).
Proof.
  unfold recv_error. destruct (c_server c); [apply sqd_refl|]. destruct (d_callback d) as [id|]; [split; [apply sq_log; reflexivity|split; reflexivity]|].
  destruct (d_rx_closed d); [apply sqd_refl|]. destruct (ch_try_recv _) as [ch [id|]]; [split; [apply sq_log; reflexivity|split; reflexivity]|apply sqd_same; reflexivity].
Qed.
Lemma squiet_outs l : forallb squiet (map (fun id => LOutcome id OReturned) l) = true.
Proof. induction l; auto. Qed.
Lemma sqd_drop d : sqd d (d_drop d).
Proof.
  rewrite d_drop_eq. split; [|split; reflexivity]. cbn [d_conn]. apply sq_log. unfold drop_events.
  rewrite !forallb_app, squiet_outs. destruct (d_body_tx d), (d_callback d); reflexivity.
Qed.
Lemma sqd_complete d r : sqd d (d_complete d r).
Proof. unfold d_complete. eapply sqd_trans; [|apply sqd_drop]. now apply sqd_log. Qed.
Lemma sqd_fail c d e : sqd d (d_fail c d e).
Proof.
  unfold d_fail. set (d1 := if d_body_tx d then _ else d).
  assert (sqd d d1) as H1 by (subst d1; destruct (d_body_tx d); [split; [apply sq_log; reflexivity|split; reflexivity]|apply sqd_refl]).
  clearbody d1. eapply sqd_trans; [exact H1|]. pose proof (sqd_recv_error c d1 e) as H2. destruct (recv_error c d1 e) as [d2 b]. cbn [fst] in H2.
  eapply sqd_trans; [exact H2|apply sqd_complete].
Qed.
(* ---- Heads ---- *)
Lemma enforce_more k h : k_method (fst (enforce_version k h)) = k_method k /\ k_trailers (fst (enforce_version k h)) = k_trailers k.
Proof.
  unfold enforce_version, fix_keep_alive. destruct (k_version k); cbn [fst]; auto.
  - destruct (match hm_get _ _ with Some _ => _ | None => _ end); [auto|]. destruct (o_version h); auto. destruct (wants_keep_alive k); auto.
  - destruct (k_ka k); auto.
Qed.
Lemma server_head c auto k h b : c_server c = true -> (exists st re, o_subject h = OResponse st re) ->
  exists h' keep out r, head_for h h' /\ encodes c (k_method k) b h' keep out r /\
    k_trailers (write_head c auto k h b) = k_trailers k /\ k_method (write_head c auto k h b) = k_method k /\
    match r with
    | Ok e => k_log (write_head c auto k h b) = k_log k ++ LHead auto h' out :: (if enc_is_eof e then [LEnd] else []) /\ k_writing (write_head c auto k h b) = after_head e
    | Err _ => k_log (write_head c auto k h b) = k_log k ++ [LHeadFail out] /\ k_writing (write_head c auto k h b) = WClosed
    end.
Proof.
  intros Hs (st & re & Ho). unfold write_head, encode_head. rewrite Hs.
  pose proof (enforce_for k h) as Hf. pose proof (enforce_frame k h) as Q. pose proof (enforce_more k h) as (M1 & M2).
  destruct (enforce_version k h) as [k1 h1]. cbn [fst snd] in *. destruct Q as (Q & _).
  unfold t_encode. rewrite (proj1 Hf), Ho. rewrite <- M1, <- M2, <- Q.
  destruct (server_encode _ _ _) as [out r] eqn:Ec. exists h1, (wants_keep_alive k1), out, r. split; [exact Hf|].
  split; [exists st, re; split; [rewrite (proj1 Hf); exact Ho|exact Ec]|].
  destruct r as [e|e]; cbn; rewrite <- ?app_assoc; auto.
Qed.
(* The connection's own error response has no body *)
Lemma bare_eof reason date m out e : m_body m = None -> (m_headers m = [] \/ exists v, m_headers m = [(B "connection", [v])]) ->
  server_encode reason date m = (out, Ok e) -> enc_is_eof e = true.
Proof.
  intros Hb Hh. unfold server_encode. set (t := if m_status m =? 101 then _ else _).
  assert (exists last len, t = (m, false, last, len) \/ exists m', t = (m', true, last, len)) as (last & len & [-> | (m' & ->)]).
  { subst t. destruct (m_status m =? 101); [eauto|]. destruct (_ && _); [eauto|]. destruct (is_informational _); eauto. }
  2:{ destruct (status_line _ _); [|discriminate]. destruct (encode_headers _ _ _ _ _ _) as [[o e']|]; discriminate. }
  destruct (status_line _ _) as [line|]; [|discriminate]. set (w := match m_case m with None => _ | _ => _ end). clearbody w.
  unfold encode_headers.
  assert (forall s, s_enc s = enc_length 0 -> enc_is_eof (snd (s_finish m w date s)) = true) as F.
  { intros s Hsn. unfold s_finish. cbn [snd]. assert (s_enc (s_default_len m w s) = enc_length 0) as ->.
    { unfold s_default_len. rewrite Hb. destruct (s_wrote_len s); [exact Hsn|reflexivity]. }
    destruct (can_have_body _ _); reflexivity. }
  assert (exists s, s_headers m w (m_headers m) (mkEs line (enc_length 0) None false false false None len last None) = Some s /\ s_enc s = enc_length 0) as (s & Es & Hsn).
  { destruct Hh as [-> | (v & ->)]; [eexists; split; reflexivity|]. cbn [s_headers s_values]. unfold s_value. cbn [beq]. 
    change (beq (B "connection") (B "content-length")) with false. change (beq (B "connection") (B "transfer-encoding")) with false. change (beq (B "connection") (B "connection")) with true. cbv iota.
    eexists. split; [reflexivity|]. unfold s_join, s_open, s_more. destruct (_ && _); cbn [s_written s_set_last s_new_name]; destruct (write_name _ _ _); reflexivity. }
  rewrite Es. specialize (F (s_new_name s) Hsn). destruct (s_finish m w date (s_new_name s)) as [o e']. cbn [snd] in F. intros H. injection H as <- <-. exact F.
Qed.
Lemma after_eof e : enc_is_eof e = true -> forall x, after_head e <> WBody x.
Proof. intros H x. unfold after_head. rewrite H. cbn. destruct (is_last e); discriminate. Qed.

(* What else happens to a connection at rest: an error response *)
Definition rebuffs (c : cfg) (k k' : conn) : Prop :=
  exists l w, k_log k' = k_log k ++ l /\ k_writing k = WInit /\ (forall e, k_writing k' <> WBody e) /\ queued l = w /\ requests l = [] /\ answers l = [] /\ rebuff c l w.
Lemma read_head_error_cases c k e : c_server c = true -> sq k (fst (on_read_head_error c k e)) \/ rebuffs c k (fst (on_read_head_error c k e)).
Proof.
  intros Hs. unfold on_read_head_error. destruct (_ || _); [|left; ssame].
  unfold on_parse_error. set (k1 := set_rd (close_read k) _). assert (sq k k1) as Q1 by ssame. assert (k_log k1 = k_log k /\ k_writing k1 = k_writing k) as (L & W) by (split; reflexivity). clearbody k1.
  destruct (k_writing k1) eqn:Ew; try (left; exact Q1). destruct (has_h2_prefix _); [left; exact Q1|].
  unfold t_on_error. rewrite Hs. destruct e as [p| | | | | | |]; try (left; exact Q1). destruct (server_on_error p) as [status|] eqn:Ep; [|left; exact Q1].
  right. set (h := mkO HTTP11 (OResponse status None) [] None).
  destruct (server_head c true k1 h None Hs) as (h' & keep & out & r & Hf & He & _ & _ & Hr); [cbn; eauto|].
  cbn [fst]. destruct r as [e|e]; destruct Hr as (Hl & Hw).
  - exists (LHead true h' out :: (if enc_is_eof e then [LEnd] else [])), out. cbn [set_error k_log k_writing]. rewrite Hl, L. split; [reflexivity|]. split; [congruence|].
    destruct He as (st & re & A & E). pose proof E as E'. apply bare_eof in E'; [|reflexivity|].
    + split; [intros x; rewrite Hw; now apply after_eof|]. rewrite E'. cbn. rewrite app_nil_r. repeat split; auto. exists p, status, (k_method k1), h', keep, (Ok e). split; [exact Ep|]. split; [exact Hf|]. split; [exists st, re; auto|now left].
    + cbn [m_headers]. destruct Hf as (_ & _ & _ & [-> | (v & _ & ->)]); [left; reflexivity|right; exists v; reflexivity].
  - exists [LHeadFail out], out. cbn [set_error k_log k_writing]. rewrite Hl, L. split; [reflexivity|]. split; [congruence|]. split; [rewrite Hw; discriminate|]. cbn. rewrite app_nil_r. repeat split; auto.
    exists p, status, (k_method k1), h', keep, (Err e). split; [exact Ep|]. split; [exact Hf|]. split; [exact He|now left].
Qed.
(* A request arrives *)
Definition takes (m : inmsg) (k k' : conn) : Prop :=
  exists l, k_log k' = k_log k ++ LIn m :: l /\ forallb squiet l = true /\ wr_rel (k_writing k) (k_writing k') /\ k_method k' = in_method m /\ k_trailers k' = te_is_trailers (in_headers m).
Lemma got_head_takes c blk k m : c_server c = true -> takes m k (got_head c blk k m).
Proof.
  intros Hs. unfold got_head. rewrite Hs. unfold busy, st_disable_keep_alive.
  destruct (in_decode m =? DL_ZERO); [exists [LInEnd]|exists []; destruct (_ && _)]; (destruct (in_keep m), (k_ka k) eqn:Ek; cbn; rewrite ?Ek; cbn; rewrite <- ?app_assoc; unfold wr_rel; auto 10).
Qed.
Lemma poll_read_head_cases c now blk k : c_server c = true ->
  let (k', r) := k_poll_read_head c now blk k in
  match r with Ready (Some (Ok m)) => takes m k k' | _ => sq k k' \/ rebuffs c k k' end.
Proof.
  intros Hs. unfold k_poll_read_head.
  assert (sq k (start_timer c now k) /\ k_log (start_timer c now k) = k_log k /\ k_writing (start_timer c now k) = k_writing k) as (H0 & L0 & W0) by (unfold start_timer; destruct (k_running k); [split; [ssame|auto]|]; destruct (c_timeout c); (split; [ssame|auto])).
  remember (start_timer c now k) as k0 eqn:E0. clear E0.
  destruct (io_parse _ _ (k_rd k0)) as [rd [|[m|e]]].
  - cbn [k_running k_timer set_rd]. destruct (k_running k0); [|left; eapply sq_trans; [exact H0|ssame]]. destruct (k_timer k0) as [t|]; [|left; eapply sq_trans; [exact H0|ssame]]. destruct (t <=? now); left; (eapply sq_trans; [exact H0|ssame]).
  - pose proof (got_head_takes c blk (set_rd k0 rd) m Hs) as (l & A & B' & C & D). exists l. rewrite <- L0, <- W0. auto.
  - destruct (parse_failure e) as [e' n].
    match goal with |- context [on_read_head_error c ?kk e'] => pose proof (read_head_error_cases c kk e' Hs) as Q; assert (sq k0 kk /\ k_log kk = k_log k0 /\ k_writing kk = k_writing k0) as (Q1 & Q2 & Q3) by (split; [ssame|split; reflexivity]); remember kk as k1 eqn:E1; clear E1 end.
    assert (forall m, snd (on_read_head_error c k1 e') <> Ready (Some (Ok m))) as Hn.
    { intros m. unfold on_read_head_error. destruct (_ || _); [|discriminate]. destruct (on_parse_error c _ e') as [k2 [u|e2]]; discriminate. }
    destruct (on_read_head_error c k1 e') as [k' r]. cbn [fst snd] in *.
    assert (sq k k' \/ rebuffs c k k') as R.
    { destruct Q as [Q|Q]; [left; eapply sq_trans; [exact H0|]; eapply sq_trans; [exact Q1|exact Q]|]. right. destruct Q as (l & w & A & B' & C). exists l, w. rewrite A, Q2, L0. split; [reflexivity|]. split; [congruence|exact C]. }
    destruct r as [|[[m|e2]|]]; try exact R. destruct (Hn m eq_refl).
Qed.

(* ---- Moves other than poll_write ---- *)
Lemma queued_app a b : queued (a ++ b) = queued a ++ queued b.
Proof. induction a as [|e a IH]; [reflexivity|]. cbn [app queued]. now rewrite IH, app_assoc. Qed.
Lemma requests_app a b : requests (a ++ b) = requests a ++ requests b.
Proof. apply flat_map_app. Qed.
Lemma answers_app a b : answers (a ++ b) = answers a ++ answers b.
Proof. apply flat_map_app. Qed.
Lemma squiet_nil l : forallb squiet l = true -> queued l = [] /\ requests l = [] /\ answers l = [].
Proof. induction l as [|e l IH]; [auto|]. cbn. intros H. apply andb_prop in H as [H1 H2]. destruct (IH H2) as (-> & A & B'). unfold requests, answers in *. rewrite A, B'. destruct e as [| | | | | | |[]| | | | | | | | | | |]; try discriminate; auto. Qed.
Lemma rebuff_more c l l' w : rebuff c l w -> rebuff c (l ++ l') w.
Proof. intros (p & st & me & h' & keep & r & A & B' & C & D). exists p, st, me, h', keep, r. split; [exact A|]. split; [exact B'|]. split; [exact C|]. destruct r; apply in_or_app; auto. Qed.
Definition continues (k k' : conn) : Prop :=
  exists l, k_log k' = k_log k ++ l /\ k_writing k = WInit /\ wr_rel (k_writing k) (k_writing k') /\ queued l = wire_of PContinue /\ requests l = [] /\ answers l = [] /\
    k_trailers k' = k_trailers k /\ k_method k' = k_method k.
Definition mv (c : cfg) (d d' : disp) : Prop := d_body_rx d' = d_body_rx d /\
  ((sq (d_conn d) (d_conn d') /\ d_in_flight d' = d_in_flight d) \/ (continues (d_conn d) (d_conn d') /\ d_in_flight d' = d_in_flight d) \/
   (rebuffs c (d_conn d) (d_conn d') /\ d_in_flight d = false /\ d_in_flight d' = false) \/
   (exists m, takes m (d_conn d) (d_conn d') /\ k_writing (d_conn d) = WInit /\ d_in_flight d = false /\ d_in_flight d' = true)).
Lemma mv_sqd c d d' d'' : mv c d d' -> sqd d' d'' -> mv c d d''.
Proof.
  intros (R & H) (Q & Q1 & Q2). split; [congruence|]. rewrite Q2. destruct H as [(H & F) | [(H & F) | [(H & F) | (m & H & W & F)]]].
  - left. split; [eapply sq_trans; eassumption|exact F].
  - right. left. split; [|exact F]. destruct H as (l & A & W & V & B' & C & D & T & M). destruct Q as (l2 & A2 & Z & W2 & T2 & M2). destruct (squiet_nil l2 Z) as (Z1 & Z2 & Z3).
    exists (l ++ l2). rewrite A2, A, queued_app, requests_app, answers_app, B', C, D, Z1, Z2, Z3, !app_nil_r, app_assoc. repeat split; auto; [eapply wr_trans; eassumption|congruence|].
    destruct M2 as [M2|M2]; [congruence|]. rewrite W in V. destruct V as [V | [V | [V _]]]; congruence.
  - right. right. left. split; [|exact F]. destruct H as (l & w & A & W & N' & B' & C & D & E). destruct Q as (l2 & A2 & Z & W2 & T2 & M2). destruct (squiet_nil l2 Z) as (Z1 & Z2 & Z3).
    exists (l ++ l2), w. rewrite A2, A, queued_app, requests_app, answers_app, B', C, D, Z1, Z2, Z3, !app_nil_r, app_assoc. split; [reflexivity|]. split; [exact W|]. split; [|auto 10 using rebuff_more].
    intros e He. destruct W2 as [W2 | [W2 | [_ W2]]]; [apply (N' e)|..]; congruence.
  - right. right. right. exists m. split; [|auto]. destruct H as (l & A & B' & V & M & T). destruct Q as (l2 & A2 & Z & W2 & T2 & M2).
    exists (l ++ l2). rewrite A2, A, forallb_app, B', Z, <- app_assoc. repeat split; auto; [eapply wr_trans; eassumption| |congruence].
    destruct M2 as [M2|M2]; [congruence|]. rewrite W in V. destruct V as [V | [V | [V _]]]; congruence.
Qed.
Lemma mv_quiet c d d' : sqd d d' -> mv c d d'.
Proof. intros (A & B' & C). split; [exact B'|]. left. auto. Qed.
Lemma poll_read_body_cases c blk k : sq k (fst (k_poll_read_body c blk k)) \/ continues k (fst (k_poll_read_body c blk k)).
Proof.
  unfold k_poll_read_body. destruct (k_reading k) as [|d|d| |] eqn:Er; try (left; apply sq_refl); [|left; apply sq_read_body_state].
  destruct (k_writing k) eqn:Ew; [right|left; eapply sq_trans; [|apply sq_read_body_state]; ssame..].
  set (k1 := set_reading _ _). pose proof (sq_read_body_state c blk k1 d) as (l2 & A2 & Z & W2 & T2 & M2). destruct (squiet_nil l2 Z) as (Z1 & Z2 & Z3).
  exists (LContinue :: l2). rewrite A2. cbn [queued puts]. unfold requests, answers in *. cbn [flat_map app]. rewrite Z1, Z2, Z3. cbn [app]. split; [cbn; rewrite <- app_assoc; reflexivity|]. split; [exact Ew|]. split; [exact W2|]. repeat split; [exact T2|]. destruct M2 as [M2|M2]; [exact M2|]. cbn in M2. congruence.
Qed.
Lemma mv_read_head c i d : c_server c = true -> SInv d -> k_reading (d_conn d) = RInit -> mv c d (fst (d_poll_read_head c i d)).
Proof.
  intros Hs HI Hr. unfold d_poll_read_head, d_poll_ready. rewrite Hs. destruct (d_in_flight d) eqn:Ef; [apply mv_quiet, sqd_refl|].
  assert (k_writing (d_conn d) = WInit) as Hw by (destruct HI as (x & _ & HJ & _); rewrite Hr in HJ; tauto).
  pose proof (poll_read_head_cases c (i_now i) (i_blk i) (d_conn d) Hs) as H. destruct (k_poll_read_head c (i_now i) (i_blk i) (d_conn d)) as [k r].
  assert (forall d0, d_conn d0 = k -> d_body_rx d0 = d_body_rx d -> d_in_flight d0 = false -> sq (d_conn d) k \/ rebuffs c (d_conn d) k -> mv c d d0) as Q.
  { intros d0 A B' C [D|D]; (split; [exact B'|]); rewrite A, Ef; auto 10. }
  destruct r as [|[[m|e]|]].
  - apply Q; auto.
  - set (d1 := if in_decode m =? DL_ZERO then _ else _).
    assert (sqd (dset_conn d k) d1) as H1.
    { subst d1. destruct (in_decode m =? DL_ZERO); [apply sqd_refl|]. cbn [d_body_tx dset_conn]. destruct (d_body_tx d); [split; [apply sq_log; reflexivity|split; reflexivity]|apply sqd_same; reflexivity]. }
    clearbody d1. set (d2 := if in_upgrade m then _ else d1).
    assert (sqd d1 d2) as H2 by (subst d2; destruct (in_upgrade m); [apply sqd_conn; ssame|apply sqd_refl]).
    clearbody d2. unfold recv_ok. rewrite Hs. cbn [fst].
    assert (mv c d (dset_in_flight (dset_conn d k) true)) as H0.
    { split; [reflexivity|]. right. right. right. exists m. auto. }
    eapply mv_sqd; [exact H0|]. pose proof (sqd_trans _ _ _ H1 H2) as (A & B' & C). split; [exact A|]. split; [exact B'|reflexivity].
  - unfold recv_error. rewrite Hs. apply Q; auto.
  - cbn [fst]. assert (mv c d (dset_conn d k)) as H0 by (apply Q; auto). destruct (is_write_closed _); [|exact H0]. eapply mv_sqd; [exact H0|apply sqd_close].
Qed.
Lemma mv_read c i d : c_server c = true -> SInv d -> mv c d (fst (poll_read_it c i d)).
Proof.
  intros Hs HI. unfold poll_read_it. destruct (d_closing d); [apply mv_quiet, sqd_refl|]. destruct (can_read_head c (d_conn d)) eqn:Ec.
  { apply mv_read_head; auto. unfold can_read_head in Ec. destruct (k_reading (d_conn d)); auto; discriminate. }
  destruct (d_body_tx d).
  - destruct (can_read_body (d_conn d)); [|apply mv_quiet; split; [apply sq_log; reflexivity|split; reflexivity]].
    destruct (i_body i); [|apply mv_quiet, sqd_refl|apply mv_quiet; split; [apply sq_drain|split; reflexivity]].
    pose proof (poll_read_body_cases c (i_blk i) (log (d_conn d) [LWant])) as H.
    destruct (k_poll_read_body c (i_blk i) (log (d_conn d) [LWant])) as [k r]. cbn [fst] in H.
    assert (mv c d (dset_conn d k)) as H1.
    { split; [reflexivity|]. destruct H as [H|H]; [left; split; [|reflexivity]; eapply sq_trans; [apply (sq_log _ [LWant]); reflexivity|exact H]|].
      right. left. split; [|reflexivity]. destruct H as (l & A & B' & V & C & D & E & F). exists (LWant :: l). cbn in A. rewrite <- app_assoc in A. split; [exact A|]. split; [exact B'|]. split; [exact V|]. auto. }
    remember (dset_conn d k) as d0 eqn:E0. clear E0.
    destruct r as [|[[f|e]|]]; cbn [fst]; [exact H1| |eapply mv_sqd; [exact H1|]; split; [apply sq_log; reflexivity|split; reflexivity]..].
    destruct (i_send i); cbn [fst]; [exact H1|]. eapply mv_sqd; [exact H1|]. cbn [d_conn dset_body_tx]. destruct (can_read_body (d_conn d0)); [split; [ssame|split; reflexivity]|apply sqd_same; reflexivity].
  - pose proof (sq_keep_alive c (d_conn d)) as H. destruct (k_poll_read_keep_alive c (d_conn d)) as [k r]. apply mv_quiet, sqd_conn, H.
Qed.
Lemma sqd_flush c i d : sqd d (fst (d_flush c i d)).
Proof. unfold d_flush. pose proof (sq_flush c (i_blk i) (i_wevs i) (d_conn d)) as H. destruct (k_poll_flush c (i_blk i) (i_wevs i) (d_conn d)) as [k r]. apply sqd_conn, H. Qed.
Lemma sqd_take_error c d : sqd d (match take_error (d_conn d) with (k, Ok _) => d_complete (dset_conn d k) None | (k, Err e) => d_fail c (dset_conn d k) e end).
Proof.
  assert (sqd d (dset_conn d (fst (take_error (d_conn d))))) as Q by (apply sqd_conn; unfold take_error; destruct (k_error (d_conn d)); ssame).
  destruct (take_error (d_conn d)) as [k [u|e]]; (eapply sqd_trans; [exact Q|]); [apply sqd_complete|apply sqd_fail].
Qed.
Lemma sqd_graceful d : sqd d (d_graceful d).
Proof.
  unfold d_graceful. set (d1 := dset_conn d _).
  assert (sqd d d1) as H1.
  { apply sqd_conn. unfold k_disable_keep_alive, st_disable_keep_alive. destruct (is_idle (d_conn d)); ssame. }
  clearbody d1. destruct (_ || _); [|exact H1]. eapply sqd_trans; [exact H1|apply sqd_close].
Qed.
Lemma mv_move c m d : c_server c = true -> SInv d -> (forall i n, m = Step i -> d_pc d <> PWrite n /\ d_pc d <> PWrite2 n) -> mv c d (dmove c m d).
Proof.
  intros Hs HI. destruct m as [i|e]; cbn [dmove]; intros Hm.
  - unfold dstep. destruct (d_pc d) as [|n|n|n wr|n| | |] eqn:Ep.
    + apply mv_quiet, sqd_same; reflexivity.
    + pose proof (mv_read c i d Hs HI) as H1. destruct (poll_read_it c i d) as [d' [|[|[u|e]]]]; cbn [fst] in H1; try exact H1. eapply mv_sqd; [exact H1|apply sqd_fail].
    + destruct (Hm i n eq_refl) as [Q _]. congruence.
    + apply mv_quiet. pose proof (sqd_flush c i d) as H1. destruct (d_flush c i d) as [d' [|[u|e]]]; cbn [fst] in H1; [| |eapply sqd_trans; [exact H1|apply sqd_fail]];
        (eapply sqd_trans; [exact H1|]); (split; [ssame|split; reflexivity]).
    + destruct (Hm i n eq_refl) as [_ Q]. congruence.
    + apply mv_quiet. pose proof (sqd_flush c i d) as H1. destruct (d_flush c i d) as [d' [|[u|e]]]; cbn [fst] in H1; try exact H1. eapply sqd_trans; [exact H1|apply sqd_fail].
    + apply mv_quiet. destruct (d_is_done c d); [|apply sqd_same; reflexivity]. unfold pending_upgrade. set (d1 := dset_conn d (set_upgrade (d_conn d) false)).
      assert (sqd d d1) as H1 by (apply sqd_conn; ssame). eapply sqd_trans; [exact H1|]. clearbody d1. clear H1.
      destruct (k_upgrade (d_conn d)); [apply sqd_take_error|].
      destruct (wb_flush _ _ _ _) as [[[w ev] sent] r].
      set (d2 := dset_conn d1 _). assert (sqd d1 d2) as H2.
      { apply sqd_conn. destruct sent as [|x sent]; (eapply sq_trans; [|apply sq_log; reflexivity]); ssame. }
      eapply sqd_trans; [exact H2|]. clearbody d2. destruct r as [|[u|e]]; [apply sqd_same; reflexivity| |apply sqd_fail].
      destruct (i_shutdown i) as [|[u'|e']]; [apply sqd_same; reflexivity| |apply sqd_fail].
      eapply sqd_trans; [|apply sqd_take_error]. apply sqd_log. reflexivity.
    + apply mv_quiet, sqd_refl.
  - apply mv_quiet. destruct e as [s| | |]; cbn [estep].
    + destruct (c_server c); apply sqd_same; reflexivity.
    + destruct (d_pc d); try apply sqd_refl. rewrite Hs. apply sqd_graceful.
    + destruct (d_pc d); try apply sqd_refl. apply sqd_drop.
    + destruct (d_pc d), (k_log (d_conn d)); try apply sqd_refl. rewrite Hs. apply sqd_conn. unfold st_disable_keep_alive. ssame.
Qed.

(* ---- What is written ---- *)
Definition seen (allow : bool) (g : gmsg) : gmsg := if allow then g else without_trailers g.
Inductive RK (c : cfg) (R : Prop) (k : conn) (rx : bool) (gs : list gmsg) : Prop :=
| rk_done ps : queued (k_log k) = flat_map wire_of ps -> replies ps = rev gs -> pieces c (k_log k) 0 ps (k_writing k = WClosed) -> length (answers (k_log k)) = length gs -> (forall e, k_writing k <> WBody e) -> RK c R k rx gs
| rk_open g gd ps m bs e body e' : gs = g :: gd -> queued (k_log k) = flat_map wire_of ps ++ bs ++ body -> replies ps = rev gd -> pieces c (k_log k) 0 ps False -> length (answers (k_log k)) = length gs ->
    reply_head c (k_log k) (length gd) m g bs e -> reply_begun (ekind e) g body -> k_writing k = WBody e' -> goes_on e e' g -> k_trailers k = te_is_trailers (in_headers m) ->
    (forall names, ekind e = KChunked names -> trailers_to_send (c_title c) names (g_trailers (seen (te_is_trailers (in_headers m)) g)) = []) ->
    (rx = false -> g_over g = true \/ R) -> RK c R k rx gs
| rk_broken g gd ps w : gs = g :: gd -> queued (k_log k) = flat_map wire_of ps ++ w -> replies ps = rev gd -> pieces c (k_log k) 0 ps False ->
    (replying c (k_log k) (length gd) w g \/ refused c (k_log k) (length gd) w g) -> k_writing k = WClosed -> RK c R k rx gs.

Lemma nth_more {A} (l l' : list A) n x : nth_error l n = Some x -> nth_error (l ++ l') n = Some x.
Proof. intros H. rewrite nth_error_app1; [exact H|]. apply nth_error_Some. congruence. Qed.
Lemma reply_head_more c l l' n m g bs e : reply_head c l n m g bs e -> reply_head c (l ++ l') n m g bs e.
Proof. intros (h' & keep & A & B' & C). exists h', keep. rewrite requests_app, answers_app. auto using nth_more. Qed.
Lemma replied_more c l l' n w g (A A' : Prop) : (A -> A') -> replied c l n w g A -> replied c (l ++ l') n w g A'.
Proof. intros HA (m & bs & e & body & Q & B' & C & D). exists m, bs, e, body. auto 10 using reply_head_more. Qed.
Lemma replying_more c l l' n w g : replying c l n w g -> replying c (l ++ l') n w g.
Proof. intros (m & bs & e & body & A & B' & C). exists m, bs, e, body. auto using reply_head_more. Qed.
Lemma refused_more c l l' n w g : refused c l n w g -> refused c (l ++ l') n w g.
Proof. intros (m & h' & keep & err & A & B' & C & D). exists m, h', keep, err. rewrite requests_app. split; [now apply nth_more|]. split; [exact B'|]. split; [exact C|]. apply in_or_app. auto. Qed.
Lemma pieces_mono c l l' (A A' : Prop) ps : (A -> A') -> forall n, pieces c l n ps A -> pieces c (l ++ l') n ps A'.
Proof.
  intros HA. induction ps as [|[g w| |w] ps IH]; intros n; cbn; auto; intros [Q B'].
  - split; [|auto]. eapply replied_more; [|exact Q]. tauto.
  - split; [now apply rebuff_more|auto].
Qed.
Lemma pieces_more c l l' A ps n : pieces c l n ps A -> pieces c (l ++ l') n ps A.
Proof. apply pieces_mono. auto. Qed.
Lemma pieces_weak c l (A A' : Prop) ps n : (A -> A') -> pieces c l n ps A -> pieces c l n ps A'.
Proof. intros HA H. rewrite <- (app_nil_r l). eapply pieces_mono; eassumption. Qed.
Lemma pieces_snoc c l (A : Prop) p ps : forall n, pieces c l n ps False -> pieces c l (n + length (replies ps)) [p] A -> pieces c l n (ps ++ [p]) A.
Proof.
  induction ps as [|[g w| |w] ps IH]; intros n; cbn [app pieces replies flat_map length]; intros Q B'.
  - rewrite Nat.add_0_r in B'. exact B'.
  - destruct Q as [A1 A2]. split; [rewrite <- (app_nil_r l); eapply replied_more; [|exact A1]; tauto|]. apply IH; [exact A2|]. replace (S n + length (replies ps))%nat with (n + S (length (replies ps)))%nat by lia. exact B'.
  - apply IH; auto.
  - destruct Q as [A1 A2]. split; [exact A1|]. apply IH; auto.
Qed.
Lemma replies_app a b : replies (a ++ b) = replies a ++ replies b.
Proof. apply flat_map_app. Qed.
Lemma wires_snoc ps p : flat_map wire_of (ps ++ [p]) = flat_map wire_of ps ++ wire_of p.
Proof. rewrite flat_map_app. cbn. now rewrite app_nil_r. Qed.

Lemma RK_sq c (R R' : Prop) k k' rx gs : RK c R k rx gs -> sq k k' -> (R -> R') -> RK c R' k' rx gs.
Proof.
  intros H (l & El & Hl & Hw & Ht & _) HR. destruct (squiet_nil l Hl) as (Q1 & Q2 & Q3).
  assert (queued (k_log k') = queued (k_log k)) as Hb by (rewrite El, queued_app, Q1, app_nil_r; reflexivity).
  assert (answers (k_log k') = answers (k_log k)) as Ha by (rewrite El, answers_app, Q3, app_nil_r; reflexivity).
  destruct H as [ps E P F L W|g gd ps m bs e body e' E1 E2 P F L Hh Hb' W G K T X|g gd ps w E1 E2 P F S W].
  - apply (rk_done _ _ _ _ _ ps); [congruence|exact P|rewrite El; eapply pieces_mono; [|exact F]; intros Hc; rewrite Hc in Hw; destruct Hw as [Hw | [Hw | [Hw _]]]; [exact Hw|exact Hw|discriminate]|congruence|]. intros e He. destruct Hw as [Hw | [Hw | [_ Hw]]]; [apply (W e)|..]; congruence.
  - rewrite W in Hw. destruct Hw as [Hw | [Hw | [Hw _]]]; [..|discriminate].
    + apply (rk_open _ _ _ _ _ g gd ps m bs e body e'); auto; [congruence|rewrite El; now apply pieces_more|congruence|rewrite El; now apply reply_head_more|congruence|]. intros Hx. destruct (X Hx); auto.
    + apply (rk_broken _ _ _ _ _ g gd ps (bs ++ body)); auto; [congruence|rewrite El; now apply pieces_more|]. left. exists m, bs, e, body. rewrite El. auto using reply_head_more.
  - apply (rk_broken _ _ _ _ _ g gd ps w); auto; [congruence|rewrite El; now apply pieces_more|rewrite El; destruct S; auto using replying_more, refused_more|]. rewrite W in Hw. destruct Hw as [Hw | [Hw | [Hw _]]]; [exact Hw|exact Hw|discriminate].
Qed.
(* At rest *)
Lemma RK_rest c (R R' : Prop) k k' rx gs l ps' : RK c R k rx gs -> k_writing k = WInit -> k_log k' = k_log k ++ l -> queued l = flat_map wire_of ps' -> answers l = [] -> replies ps' = [] ->
  Forall (fun p => match p with PReply _ _ => False | PContinue => True | PRebuff w => rebuff c l w end) ps' -> (forall e, k_writing k' <> WBody e) -> (ps' = [] \/ exists p, ps' = [p]) -> RK c R' k' rx gs.
Proof.
  intros H Hw El Hq Ha Hr Hp Hn Hone.
  destruct H as [ps E P F L W|g gd ps m bs e body e' E1 E2 P F L Hh Hb' W G K T X|g gd ps w E1 E2 P F S W]; [|congruence..].
  apply (rk_done _ _ _ _ _ (ps ++ ps')); [rewrite El, queued_app, E, Hq, flat_map_app; reflexivity|rewrite replies_app, Hr, P; apply app_nil_r| |rewrite El, answers_app, Ha, app_nil_r; exact L|exact Hn].
  assert (pieces c (k_log k) 0 ps False) as F' by (eapply pieces_weak; [|exact F]; congruence).
  rewrite El. destruct Hone as [-> | (p & ->)]; [rewrite app_nil_r; eapply pieces_mono; [|exact F']; contradiction|]. apply pieces_snoc; [now apply pieces_more|].
  inversion Hp as [|? ? Hq' _]; subst. destruct p as [g w| |w]; cbn; [contradiction|exact Logic.I|]. split; [|exact Logic.I]. destruct Hq' as (p & st & me & h' & keep & r & A & B' & C & D). exists p, st, me, h', keep, r. split; [exact A|]. split; [exact B'|]. split; [exact C|]. destruct r; apply in_or_app; auto.
Qed.
Lemma RK_mv c (R R' : Prop) d d' gs : RK c R (d_conn d) (d_body_rx d) gs -> mv c d d' -> (R -> R') -> RK c R' (d_conn d') (d_body_rx d') gs.
Proof.
  intros H (Q & M) HR. rewrite Q. destruct M as [(M & F) | [(M & F) | [(M & F) | (m & M & W & F)]]].
  - eapply RK_sq; eassumption.
  - destruct M as (l & A & W & V & B' & C & D & T & M). apply (RK_rest c R R' _ _ _ _ l [PContinue] H W A); [rewrite B'; reflexivity|exact D|reflexivity|repeat constructor|intros e; destruct V as [V | [V | [V _]]]; congruence|eauto].
  - destruct M as (l & w & A & W & N' & B' & C & D & E). apply (RK_rest c R R' _ _ _ _ l [PRebuff w] H W A); [cbn; rewrite app_nil_r; exact B'|exact D|reflexivity|constructor; [exact E|constructor]|exact N'|eauto].
  - destruct M as (l & A & B' & V & M & T). destruct (squiet_nil l B') as (Q1 & Q2 & Q3). apply (RK_rest c R R' _ _ _ _ (LIn m :: l) [] H W A); auto; [intros e; destruct V as [V | [V | [V _]]]; congruence].
Qed.

(* Requests and responses are paired *)
Definition MI (fl : bool) (k : conn) : Prop :=
  (fl = true -> length (requests (k_log k)) = S (length (answers (k_log k))) /\
     (k_writing k = WInit -> exists m, nth_error (requests (k_log k)) (length (answers (k_log k))) = Some m /\ k_method k = in_method m /\ k_trailers k = te_is_trailers (in_headers m))) /\
  (fl = false -> k_writing k <> WClosed -> length (requests (k_log k)) = length (answers (k_log k))).
Lemma MI_mv c d d' : SInv d -> MI (d_in_flight d) (d_conn d) -> mv c d d' -> MI (d_in_flight d') (d_conn d').
Proof.
  intros HI (H1 & H2) (_ & M).
  assert (forall k k' l fl, k_log k' = k_log k ++ l -> requests l = [] -> answers l = [] ->
    (fl = true -> length (requests (k_log k)) = S (length (answers (k_log k))) /\ (k_writing k = WInit -> exists m, nth_error (requests (k_log k)) (length (answers (k_log k))) = Some m /\ k_method k = in_method m /\ k_trailers k = te_is_trailers (in_headers m))) ->
    (fl = false -> k_writing k <> WClosed -> length (requests (k_log k)) = length (answers (k_log k))) ->
    (fl = true -> k_writing k' = WInit -> k_writing k = WInit /\ k_method k' = k_method k /\ k_trailers k' = k_trailers k) -> (fl = false -> k_writing k' <> WClosed -> k_writing k <> WClosed) -> MI fl k') as Q.
  { intros k k' l fl A B' C D E F G. unfold MI. rewrite A, requests_app, answers_app, B', C, !app_nil_r. split; [|auto]. intros Hf. destruct (D Hf) as (D1 & D2). split; [exact D1|]. intros Hw. destruct (F Hf Hw) as (F1 & -> & ->). auto. }
  destruct M as [(M & F) | [(M & F) | [(M & F & F') | (m & M & W & F & F')]]].
  - rewrite F. destruct M as (l & A & Z & V & T & M). destruct (squiet_nil l Z) as (Z1 & Z2 & Z3). apply (Q _ _ l _ A Z2 Z3 H1 H2).
    + intros Hf Hw. assert (k_writing (d_conn d) = WInit \/ k_writing (d_conn d) = WClosed) as W by (destruct HI as (x & _ & _ & _ & HJ); destruct (HJ Hf) as (_ & _ & _ & W); exact W).
      destruct W as [W|W]; [|destruct V as [V | [V | [V _]]]; congruence]. split; [exact W|]. split; [destruct M as [M|M]; [exact M|congruence]|exact T].
    + intros _ Hw. destruct V as [V | [V | [V _]]]; congruence.
  - rewrite F. destruct M as (l & A & W & V & B' & C & D & T & M). apply (Q _ _ l _ A C D H1 H2); [auto|]. intros _ _. congruence.
  - rewrite F'. rewrite F in *. destruct M as (l & w & A & W & N' & B' & C & D & E). apply (Q _ _ l _ A C D H1 H2); [discriminate|]. intros _ _. congruence.
  - rewrite F'. rewrite F in *. destruct M as (l & A & B' & V & M & T). destruct (squiet_nil l B') as (Q1 & Q2 & Q3).
    assert (k_writing (d_conn d) <> WClosed) as Wc by congruence. specialize (H2 eq_refl Wc).
    split; [|discriminate]. intros _. rewrite A, requests_app, answers_app. unfold requests at 2 4, answers at 2 4. cbn [flat_map app]. change (flat_map _ l) with (requests l) at 1 3. fold (answers l). rewrite Q3. fold (requests l). rewrite Q2, !app_nil_r, app_length. cbn [length].
    split; [lia|]. intros _. exists m. split; [|auto]. rewrite nth_error_app2 by lia. replace (_ - _)%nat with O by lia. reflexivity.
Qed.

(* Heads *)
Lemma RK_head c R k h b gs m : c_server c = true -> (exists st re, o_subject h = OResponse st re) -> k_writing k = WInit -> RK c R k false gs ->
  length (requests (k_log k)) = S (length (answers (k_log k))) -> nth_error (requests (k_log k)) (length (answers (k_log k))) = Some m -> k_method k = in_method m -> k_trailers k = te_is_trailers (in_headers m) ->
  RK c R (write_head c false k h b) (match b with None => false | _ => true end) (fresh h b :: gs) /\ MI false (write_head c false k h b).
Proof.
  intros Hs Ho Hw H Hlen Hnth Hm Ht.
  destruct H as [ps E P F L W|g gd ps m' bs e body e' E1 E2 P F L Hh Hb' W G K T X|g gd ps w E1 E2 P F S W]; [|congruence..].
  destruct (server_head c false k h b Hs Ho) as (h' & keep & out & r & Hf & He & T1 & _ & Hr). set (k' := write_head c false k h b) in *. clearbody k'.
  rewrite L in Hnth. assert (pieces c (k_log k) 0 ps False) as F' by (eapply pieces_weak; [|exact F]; congruence). clear F. rename F' into F.
  destruct r as [e|err]; destruct Hr as (Hl & Hw').
  - assert (forall l2, reply_head c (k_log k ++ LHead false h' out :: l2) (length gs) m (fresh h b) out e) as Hh.
    { intros l2. exists h', keep. rewrite requests_app, answers_app. split; [now apply nth_more|]. split; [|split; [exact Hf|cbn [g_len fresh]; rewrite <- Hm; exact He]]. rewrite nth_error_app2 by lia. replace (_ - _)%nat with O by lia. reflexivity. }
    assert (queued (k_log k') = flat_map wire_of ps ++ out) as Eq by (rewrite Hl, queued_app, E; destruct (enc_is_eof e); cbn; now rewrite app_nil_r).
    assert (length (answers (k_log k')) = S (length gs)) as La by (rewrite Hl, answers_app, app_length, L; destruct (enc_is_eof e); cbn; lia).
    assert (requests (k_log k') = requests (k_log k)) as Lr by (rewrite Hl, requests_app; destruct (enc_is_eof e); cbn; now rewrite app_nil_r).
    split; [|split; [discriminate|]; intros _ _; rewrite La, Lr; lia].
    unfold after_head in Hw'. destruct (enc_is_eof e) eqn:Ee; cbn [negb] in Hw'.
    + apply (rk_done _ _ _ _ _ (ps ++ [PReply (fresh h b) out])); [rewrite Eq, wires_snoc; reflexivity|rewrite replies_app, P; reflexivity| |exact La|intros x; rewrite Hw'; destruct (is_last e); discriminate].
      rewrite Hl. apply pieces_snoc; [now apply pieces_more|]. rewrite P, rev_length. cbn [pieces Nat.add]. split; [|exact Logic.I]. exists m, out, e, []. split; [now rewrite app_nil_r|]. split; [apply Hh|].
      unfold enc_is_eof in Ee. unfold reply_body. destruct (ekind e) as [|n|]; try discriminate. destruct n; [|discriminate]. split; [|discriminate]. cbn. destruct (te_is_trailers _); cbn; (split; [reflexivity|lia]).
    + apply (rk_open _ _ _ _ _ (fresh h b) gs ps m out e [] e); auto.
      * rewrite Eq, !app_nil_r. reflexivity.
      * rewrite Hl. now apply pieces_more.
      * rewrite Hl. apply Hh.
      * unfold enc_is_eof in Ee. unfold reply_begun. destruct (ekind e) as [a|n|]; [|destruct n; [discriminate|]|reflexivity]; cbn.
        -- exists []. repeat split; constructor.
        -- split; [reflexivity|]. change (lenN []) with 0. lia.
      * unfold goes_on. destruct (ekind e); auto. cbn. now rewrite N.sub_0_r.
      * congruence.
      * intros names _. unfold seen. destruct (te_is_trailers _); cbn; destruct names; reflexivity.
      * destruct b; [discriminate|]. intros _. left. reflexivity.
  - split; [|split; [discriminate|]; intros _ Hc; congruence].
    apply (rk_broken _ _ _ _ _ (fresh h b) gs ps out); auto.
    + rewrite Hl, queued_app, E. cbn. now rewrite !app_nil_r.
    + rewrite Hl. now apply pieces_more.
    + right. exists m, h', keep, err. rewrite Hl, requests_app. split; [now apply nth_more|]. split; [exact Hf|]. cbn [g_len fresh]. rewrite <- Hm. split; [exact He|]. apply in_or_app. right. now left.
Qed.

(* Bodies *)
Definition put (l : list levent) (out : bytes) : Prop := queued l = out /\ requests l = [] /\ answers l = [].
Lemma put0 : put [] [].
Proof. repeat split. Qed.
Lemma put1 x : put [LBody x] x.
Proof. repeat split. apply app_nil_r. Qed.
Lemma put2 x : put [LBody x; LEnd] x.
Proof. repeat split. apply app_nil_r. Qed.
Lemma put3 x : put [LBody x; LAbort] x.
Proof. repeat split. apply app_nil_r. Qed.
Lemma put5 : put [LEnd] [].
Proof. repeat split. Qed.
Lemma put6 : put [LAbort] [].
Proof. repeat split. Qed.
Lemma put4 x : put ([LBody x] ++ [LEnd]) x.
Proof. repeat split. apply app_nil_r. Qed.
Ltac puts := first [apply put0|apply put1|apply put2|apply put3|apply put4|apply put5|apply put6].
(* The connection goes on to write, or is done, after a body function that logged [l] *)
Definition goes (k k' : conn) : Prop := exists l, k_log k' = k_log k ++ l /\ requests l = [] /\ answers l = [].
Lemma MI_goes k k' e : MI false k -> k_writing k = WBody e -> goes k k' -> MI false k'.
Proof. intros (_ & H) W (l & A & B' & C). split; [discriminate|]. intros _ _. rewrite A, requests_app, answers_app, B', C, !app_nil_r. apply H; [reflexivity|congruence]. Qed.

(* Chunked bodies and trailers *)
Lemma whole_seen title allow names g0 w tail : begun_body (KChunked names) g0 w -> g_over g0 = true ->
  tail = B "0" ++ CRLF ++ trailer_lines (trailers_to_send title names (g_trailers (seen allow g0))) ++ CRLF -> reply_body title allow (KChunked names) g0 (w ++ tail).
Proof. intros H Ho Ht. unfold reply_body. change (if allow then g0 else without_trailers g0) with (seen allow g0). apply whole_chunked; [..|exact Ht]; unfold seen; destruct allow; assumption. Qed.
Lemma length_seen title (allow : bool) n g0 w : whole_body title (KLength n) g0 w -> reply_body title allow (KLength n) g0 w.
Proof. unfold reply_body. destruct allow; exact (fun H => H). Qed.
Lemma seen_trailers allow t g0 : (forall x, t <> TTrailers x) -> g_trailers (seen allow (gupd t g0)) = g_trailers (seen allow g0).
Proof. intros H. unfold seen. destruct t; try reflexivity; [destruct allow; reflexivity..|destruct (H t eq_refl)|destruct allow; reflexivity]. Qed.

Section Open.
Variables (c : cfg) (R : Prop) (k : conn) (g : gmsg) (gd : list gmsg) (ps : list piece) (m : inmsg) (bs : bytes) (e : encoder) (body : bytes) (e' : encoder).
Variable allow : bool.
Hypothesis Eal0 : te_is_trailers (in_headers m) = allow.
Hypothesis Ew : queued (k_log k) = flat_map wire_of ps ++ bs ++ body.
Hypothesis Er : replies ps = rev gd.
Hypothesis Ef : pieces c (k_log k) 0 ps False.
Hypothesis El : length (answers (k_log k)) = length (g :: gd).
Hypothesis Eh : reply_head c (k_log k) (length gd) m g bs e.
Hypothesis Eb : reply_begun (ekind e) g body.
Hypothesis Eg : goes_on e e' g.
Hypothesis Ea : k_trailers k = allow.
Hypothesis Et : forall names, ekind e = KChunked names -> trailers_to_send (c_title c) names (g_trailers (seen allow g)) = [].

Lemma head_same l g' : g_head g' = g_head g -> g_len g' = g_len g -> reply_head c (k_log k ++ l) (length gd) m g' bs e.
Proof. intros H1 H2. apply reply_head_more. unfold reply_head in *. rewrite H1, H2. exact Eh. Qed.
Lemma to_done k' l out rx g' : k_log k' = k_log k ++ l -> put l out -> (forall x, k_writing k' <> WBody x) -> g_head g' = g_head g -> g_len g' = g_len g ->
  (ekind e = KCloseDelimited -> k_writing k' = WClosed) -> reply_body (c_title c) allow (ekind e) g' (body ++ out) -> RK c R k' rx (g' :: gd).
Proof.
  intros Ek (Eo & _ & Eo') Hw H1 H2 Hcl Hb. apply (rk_done _ _ _ _ _ (ps ++ [PReply g' (bs ++ body ++ out)])); [..|exact Hw].
  - rewrite Ek, queued_app, Ew, Eo, wires_snoc. cbn [wire_of]. rewrite <- !app_assoc. reflexivity.
  - rewrite replies_app, Er. reflexivity.
  - rewrite Ek. apply pieces_snoc; [now apply pieces_more|]. rewrite Er, rev_length. cbn [pieces Nat.add]. split; [|exact Logic.I]. exists m, bs, e, (body ++ out). split; [reflexivity|]. split; [now apply head_same|]. split; [rewrite Eal0; exact Hb|auto].
  - rewrite Ek, answers_app, Eo', app_nil_r. exact El.
Qed.
Lemma to_broken k' l out rx g' : k_log k' = k_log k ++ l -> put l out -> k_writing k' = WClosed -> g_head g' = g_head g -> g_len g' = g_len g ->
  reply_begun (ekind e) g' (body ++ out) -> RK c R k' rx (g' :: gd).
Proof.
  intros Ek (Eo & _ & Eo') Hw H1 H2 Hb. apply (rk_broken _ _ _ _ _ g' gd ps (bs ++ body ++ out)); auto.
  - rewrite Ek, queued_app, Ew, Eo, <- !app_assoc. reflexivity.
  - rewrite Ek. now apply pieces_more.
  - left. exists m, bs, e, (body ++ out). split; [reflexivity|]. split; [|exact Hb]. rewrite Ek. now apply head_same.
Qed.
Lemma to_open k' l out rx g' x : k_log k' = k_log k ++ l -> put l out -> k_writing k' = WBody x -> g_head g' = g_head g -> g_len g' = g_len g -> k_trailers k' = k_trailers k ->
  reply_begun (ekind e) g' (body ++ out) -> goes_on e x g' -> (forall names, ekind e = KChunked names -> trailers_to_send (c_title c) names (g_trailers (seen allow g')) = []) ->
  (rx = false -> g_over g' = true \/ R) -> RK c R k' rx (g' :: gd).
Proof.
  intros Ek (Eo & _ & Eo') Hw H1 H2 H3 Hb Hg Ht Hr. apply (rk_open _ _ _ _ _ g' gd ps m bs e (body ++ out) x); auto.
  - rewrite Ek, queued_app, Ew, Eo, <- !app_assoc. reflexivity.
  - rewrite Ek. now apply pieces_more.
  - rewrite Ek, answers_app, Eo', app_nil_r. exact El.
  - rewrite Ek. now apply head_same.
  - rewrite H3, Eal0. exact Ea.
  - rewrite Eal0. exact Ht.
Qed.
Lemma RK_write_body room b : k_writing k = WBody e' -> good_data c b -> brem b =? 0 = false -> lenN (den b) <= u64_max ->
  RK c R (k_write_body c room k b) true (gupd (TData (den b)) g :: gd) /\ goes k (k_write_body c room k b).
Proof.
  intros Hw (W & V & P) Hne Hl. assert (den b <> []) as D by (intros F; rewrite brem_den, F in Hne; discriminate).
  destruct (P_Write.C27_encode (c_take_vec c) e' b W V D P) as (E1 & E2 & W1 & _).
  unfold k_write_body. rewrite Hw. destruct (encode_buf (c_take_vec c) e' b) as [e2 eb]. cbn [fst snd] in *.
  split; [|destruct (enc_is_eof e2); cbn [negb]; [exists ([LBody (buf_bytes eb)] ++ [LEnd])|exists [LBody (buf_bytes eb)]]; cbn; rewrite buffer_log', <- ?app_assoc; auto].
  rewrite (den_buf_bytes eb W1), E2. unfold encode in *. unfold goes_on in Eg. unfold reply_begun in Eb.
  assert (k_trailers (k_buffer room k eb) = k_trailers k) as Kt by (unfold k_buffer; destruct (wb_buffer _ _ _); reflexivity).
  assert (forall names, ekind e = KChunked names -> trailers_to_send (c_title c) names (g_trailers (seen allow (gupd (TData (den b)) g))) = []) as Et' by (intros names' Hn; rewrite seen_trailers by discriminate; apply (Et names' Hn)).
  destruct (ekind e) as [names|n|] eqn:Ek.
  - rewrite Eg in *. cbn [fst snd] in *. subst e2. unfold enc_is_eof. rewrite Eg. cbn [negb].
    eapply to_open; [cbn; rewrite buffer_log'; reflexivity|puts|reflexivity|reflexivity|reflexivity|exact Kt|rewrite Ek; now apply begun_chunk| |rewrite Ek; exact Et'|discriminate].
    unfold goes_on. now rewrite Ek.
  - destruct Eb as (Hbd & Hlt). rewrite Eg in *. set (r := n - lenN (g_data g)) in *.
    assert (r <> 0) as Hr by (unfold r; lia).
    destruct (N.ltb_spec r (lenN (den b))) as [L|L]; cbn [fst snd] in *; subst e2; cbn [negb].
    + eapply to_done; [unfold log, set_writing; cbn [k_log]; rewrite buffer_log', <- app_assoc; reflexivity|puts|cbn; intros x; destruct (is_last e'); discriminate|reflexivity|reflexivity|congruence|].
      rewrite Ek, Hbd. apply length_seen. cbn. rewrite takeN_split by lia. split; [reflexivity|]. rewrite lenN_app. lia.
    + unfold enc_is_eof. cbn [ekind]. destruct (r - lenN (den b)) as [|p] eqn:Erm; cbn [negb].
      * eapply to_done; [unfold log, set_writing; cbn [k_log]; rewrite buffer_log', <- app_assoc; reflexivity|puts|cbn; intros x; destruct (is_last e'); discriminate|reflexivity|reflexivity|congruence|].
        rewrite Ek, Hbd. apply length_seen. cbn. rewrite takeN_all; [|rewrite lenN_app; lia]. split; [reflexivity|]. rewrite lenN_app. lia.
      * eapply to_open; [cbn; rewrite buffer_log'; reflexivity|puts|reflexivity|reflexivity|reflexivity|exact Kt| | |rewrite Ek; exact Et'|discriminate].
        -- rewrite Ek, Hbd. cbn. rewrite lenN_app. split; [reflexivity|lia].
        -- unfold goes_on. rewrite Ek. cbn [ekind gupd g_data]. rewrite lenN_app. f_equal. lia.
  - rewrite Eg in *. cbn [fst snd] in *. subst e2. unfold enc_is_eof. rewrite Eg. cbn [negb].
    eapply to_open; [cbn; rewrite buffer_log'; reflexivity|puts|reflexivity|reflexivity|reflexivity|exact Kt| | |rewrite Ek; exact Et'|discriminate].
    + rewrite Ek, Eb. reflexivity.
    + unfold goes_on. now rewrite Ek.
Qed.
Lemma RK_write_body_and_end room b : k_writing k = WBody e' -> good_data c b -> brem b =? 0 = false -> lenN (den b) <= u64_max ->
  RK c R (k_write_body_and_end c room k b) false (gupd TOver (gupd (TData (den b)) g) :: gd) /\ goes k (k_write_body_and_end c room k b).
Proof.
  intros Hw (W & V & P) Hne Hl. assert (den b <> []) as D by (intros F; rewrite brem_den, F in Hne; discriminate).
  destruct (P_Write.C27_encode (c_take_vec c) e' b W V D P) as (_ & _ & _ & _ & E2 & W1 & _).
  unfold k_write_body_and_end. rewrite Hw. rewrite (den_buf_bytes _ W1), E2. set (eb := encode_and_end_buf _ _ _) in *. clearbody eb.
  split; [|eexists; split; [cbn; rewrite buffer_log'; reflexivity|]; destruct (match ekind e' with KLength n => _ | _ => _ end); split; reflexivity].
  unfold encode_and_end. unfold goes_on in Eg. unfold reply_begun in Eb. destruct (ekind e) as [names|n|] eqn:Ek.
  - rewrite Eg. cbn [fst]. eapply to_done; [unfold log, set_writing; cbn [k_log]; rewrite buffer_log'; reflexivity|puts|cbn; intros x; destruct (negb _); discriminate|reflexivity|reflexivity|congruence|].
    rewrite Ek. match goal with |- reply_body _ _ _ _ ?w => replace w with ((body ++ chunk_size (lenN (den b)) ++ den b ++ CRLF) ++ B "0" ++ CRLF ++ CRLF) by (rewrite <- !app_assoc; reflexivity) end.
    apply whole_seen; [|reflexivity|].
    + pose proof (begun_chunk names g body (den b) Eb D Hl) as H. exact H.
    + rewrite !seen_trailers by discriminate. rewrite (Et names eq_refl). reflexivity.
  - destruct Eb as (Hbd & Hlt). rewrite Eg. set (r := n - lenN (g_data g)). assert (r <> 0) as Hr by (unfold r; lia). rewrite brem_den.
    assert (fst (match lenN (den b) ?= r with Eq => (den b, negb (is_last e')) | Lt => (den b, false) | Gt => (takeN r (den b), negb (is_last e')) end) = takeN r (den b)) as ->.
    { destruct (N.compare_spec (lenN (den b)) r); cbn [fst]; [symmetry; apply takeN_all; lia..|reflexivity]. }
    destruct (N.ltb_spec (lenN (den b)) r) as [L|L].
    + eapply to_broken; [cbn; rewrite buffer_log'; reflexivity|puts|reflexivity|reflexivity|reflexivity|].
      rewrite Ek, Hbd. cbn. rewrite takeN_all by lia. rewrite lenN_app. split; [reflexivity|lia].
    + eapply to_done; [unfold log, set_writing; cbn [k_log]; rewrite buffer_log'; reflexivity|puts|cbn; intros x; destruct (is_last e'); discriminate|reflexivity|reflexivity|congruence|].
      rewrite Ek, Hbd. apply length_seen. cbn. rewrite takeN_split by lia. split; [reflexivity|]. rewrite lenN_app. lia.
  - rewrite Eg. cbn [fst]. eapply to_done; [unfold log, set_writing; cbn [k_log]; rewrite buffer_log'; reflexivity|puts|cbn; intros x; discriminate|reflexivity|reflexivity|intros _; reflexivity|].
    rewrite Ek, Eb. cbn. auto.
Qed.
Lemma RK_end_body room rx : k_writing k = WBody e' -> g_over g = true -> RK c R (fst (k_end_body room k)) rx (g :: gd) /\ goes k (fst (k_end_body room k)).
Proof.
  intros Hw Ho. unfold k_end_body. rewrite Hw. unfold enc_end. unfold goes_on in Eg. unfold reply_begun in Eb. destruct (ekind e) as [names|n|] eqn:Ek.
  - rewrite Eg. cbn [fst]. split; [|eexists; split; [cbn; rewrite buffer_log', <- app_assoc; reflexivity|split; reflexivity]].
    eapply to_done; [cbn; rewrite buffer_log', <- app_assoc; reflexivity|puts|cbn; intros x; destruct (_ || _); discriminate|reflexivity|reflexivity|congruence|].
    rewrite Ek. apply whole_seen; auto. now rewrite (Et names eq_refl).
  - destruct Eb as (Hbd & Hlt). rewrite Eg. destruct (n - lenN (g_data g)) as [|p] eqn:Erm; [lia|]. cbn [fst].
    split; [|exists [LAbort]; auto]. eapply to_broken; [reflexivity|puts|reflexivity|reflexivity|reflexivity|]. rewrite Ek, Hbd. cbn. rewrite app_nil_r. auto.
  - rewrite Eg. cbn [fst]. split; [|exists [LEnd]; auto].
    eapply to_done; [reflexivity|puts|cbn; intros x; destruct (_ || _); discriminate|reflexivity|reflexivity|intros _; cbn; unfold is_close_delimited; rewrite Eg, orb_true_r; reflexivity|]. rewrite Ek, Eb, app_nil_r. cbn. auto.
Qed.
Lemma begun_upd t w : (forall x, t <> TData x) -> reply_begun (ekind e) g w -> reply_begun (ekind e) (gupd t g) w.
Proof. intros H. destruct t; try exact (fun Q => Q). destruct (H x eq_refl). Qed.
Lemma RK_stay t0 : k_writing k = WBody e' -> (t0 = TOver \/ exists t, t0 = TTrailers t /\ forall names, ekind e = KChunked names -> trailers_to_send (c_title c) names (g_trailers (seen allow (gupd t0 g))) = []) ->
  RK c R k false (gupd TOver (gupd t0 g) :: gd).
Proof.
  intros Hw Ht.
  assert (g_data (gupd TOver (gupd t0 g)) = g_data g /\ g_head (gupd TOver (gupd t0 g)) = g_head g /\ g_len (gupd TOver (gupd t0 g)) = g_len g) as (D1 & D2 & D3) by (destruct Ht as [-> | (t & -> & _)]; auto).
  eapply to_open; [symmetry; apply app_nil_r|puts|exact Hw|exact D2|exact D3|reflexivity| | | |intros _; left; reflexivity].
  - rewrite app_nil_r. unfold reply_begun, begun_body in *. rewrite D1. exact Eb.
  - unfold goes_on in *. rewrite D1. exact Eg.
  - intros names Hn. rewrite seen_trailers by discriminate. destruct Ht as [-> | (t & -> & Hz)]; [rewrite seen_trailers by discriminate; now apply Et|now apply Hz].
Qed.
Lemma RK_write_trailers room t : c_server c = true -> k_writing k = WBody e' -> hm_wf t -> RK c R (k_write_trailers c room k t) false (gupd TOver (gupd (TTrailers t) g) :: gd) /\ goes k (k_write_trailers c room k t).
Proof.
  intros Hs Hw Ht. unfold k_write_trailers. rewrite Hs, Hw. cbn [andb]. rewrite Ea.
  assert (goes k k) as G0 by (exists []; rewrite app_nil_r; auto).
  assert (allow = true \/ allow = false) as [Eal|Eal] by (destruct allow; auto); rewrite Eal; cbn [negb].
  2:{ split; [|exact G0]. apply RK_stay; [exact Hw|]. right. exists t. split; [reflexivity|]. intros names _. unfold seen. rewrite Eal. cbn. destruct names; reflexivity. }
  pose proof Eg as Eg2. pose proof Eb as Eb2. unfold encode_trailers. unfold goes_on in Eg2. case_eq (ekind e); [intros names Ek|intros n Ek|intros Ek]; rewrite Ek in Eg2, Eb2.
  - rewrite Eg2. destruct names as [names|].
    + rewrite (block_lines _ _ _ Ht). destruct (trailer_lines (trailers_to_send (c_title c) (Some names) (Some t))) as [|y block] eqn:Elb.
      * split; [|exact G0]. apply RK_stay; [exact Hw|]. right. exists t. split; [reflexivity|]. intros names' Hn. assert (names' = Some names) as -> by congruence. unfold seen. rewrite Eal. cbn [gupd g_trailers].
        destruct (trailers_to_send (c_title c) (Some names) (Some t)) as [|x l]; [reflexivity|]. unfold trailer_lines in Elb. cbn in Elb. destruct x; discriminate.
      * remember (y :: block) as bl eqn:Eq. split; [|eexists; split; [unfold log, set_writing; cbn [k_log]; rewrite buffer_log'; reflexivity|split; reflexivity]].
        eapply to_done; [unfold log, set_writing; cbn [k_log]; rewrite buffer_log'; reflexivity|puts|cbn; intros x; destruct (_ || _); discriminate|reflexivity|reflexivity|congruence|].
        rewrite Ek. apply (whole_seen _ _ _ (gupd TOver (gupd (TTrailers t) g))); [exact Eb2|reflexivity|]. unfold seen. rewrite Eal. cbn [gupd g_trailers]. rewrite Elb. reflexivity.
    + split; [|exact G0]. apply RK_stay; [exact Hw|]. right. exists t. split; [reflexivity|]. intros names' Hn. assert (names' = None) as -> by congruence. reflexivity.
  - rewrite Eg2. split; [|exact G0]. apply RK_stay; [exact Hw|]. right. exists t. split; [reflexivity|]. intros names' Hn. congruence.
  - rewrite Eg2. split; [|exact G0]. apply RK_stay; [exact Hw|]. right. exists t. split; [reflexivity|]. intros names' Hn. congruence.
Qed.
End Open.

(* ---- poll_write ---- *)
(* What the application may hand over: a response where a response is due, buffers
   that keep the contract of Buf and have a length, maps of fields *)
Definition good_service (c : cfg) (i : inp) : Prop :=
  match i_msg i with Ready (Ok (h, _)) => exists st re, o_subject h = OResponse st re | _ => True end /\ good_inp c i /\
  match i_frame i with
  | Ready (Some (Ok (M_Dispatch.UData b))) => lenN (den b) <= u64_max
  | Ready (Some (Ok (M_Dispatch.UTrailers t))) => hm_wf t
  | _ => True
  end.
Lemma RK_write_it c (R : Prop) i d gs : c_server c = true -> good_service c i -> ~ R -> SInv d -> MI (d_in_flight d) (d_conn d) -> RK c R (d_conn d) (d_body_rx d) gs ->
  let (d', r) := poll_write_it c i d in RK c (is_err r) (d_conn d') (d_body_rx d') (fold_left give (offers c i d) gs) /\ MI (d_in_flight d') (d_conn d').
Proof.
  intros Hs (Hr & Hg & Hf) NR HI HM H.
  assert (forall Q : Prop, RK c Q (d_conn d) (d_body_rx d) gs) as H0 by (intros Q; eapply RK_sq; [exact H|apply sq_refl|intros; contradiction]).
  unfold poll_write_it, offers. destruct (d_closing d); [split; [apply H0|exact HM]|].
  destruct (negb (d_body_rx d) && can_write_head c (d_conn d) && should_poll c d) eqn:Eh.
  - apply andb_prop in Eh as [Eh Efl]. apply andb_prop in Eh as [Erx Eh]. apply negb_true_iff in Erx. unfold should_poll in Efl. rewrite Hs in Efl.
    assert (k_writing (d_conn d) = WInit) as Hw by (unfold can_write_head in Eh; destruct (_ && _) in Eh; [discriminate|]; destruct (k_writing (d_conn d)); auto; discriminate).
    unfold d_poll_msg. rewrite Hs. destruct (i_msg i) as [|[[h b]|u]]; cbn [snd fst].
    + split; [apply H0|exact HM].
    + cbn [fold_left give]. change (mkG h b [] None _) with (fresh h b). destruct HM as (HM & _). destruct (HM Efl) as (M1 & M2). destruct (M2 Hw) as (m & M3 & M4 & M5).
      cbn [d_conn dset_conn dset_body_rx d_body_rx d_in_flight dset_in_flight]. apply (RK_head c _ (d_conn d) h b gs m); auto. rewrite <- Erx. apply H0.
    + split; [apply H0|exact HM].
  - destruct (can_buffer_body c (d_conn d)) eqn:Ecb; cbn [negb andb].
    2:{ pose proof (sqd_flush c i d) as Q. assert (mv c d (fst (d_flush c i d))) as Qm by (now apply mv_quiet). pose proof (MI_mv c _ _ HI HM Qm) as Q3. destruct Q as (Q1 & Q2 & _). destruct (d_flush c i d) as [d' [|[u|e]]]; cbn [fst] in Q1, Q2, Q3; rewrite Q2; (split; [eapply RK_sq; [apply (H0 False)|exact Q1|contradiction]|exact Q3]). }
    destruct (d_body_rx d) eqn:Erx; cbn [andb].
    + destruct (k_can_write_body (d_conn d)) eqn:Ec; cbn [negb].
      2:{ cbn. split; [|exact HM]. assert (forall e, k_writing (d_conn d) <> WBody e) as Hn by (intros e He; unfold k_can_write_body in Ec; rewrite He in Ec; discriminate).
          destruct (H0 (is_err Cont)) as [ps E P F L W|g gd ps m bs e body e' E1 E2 P F L Hh Hb' W G K T X|g gd ps w E1 E2 P F S W]; [eapply rk_done; eassumption|destruct (Hn _ W)|eapply rk_broken; eassumption]. }
      destruct (H0 False) as [ps E P F L W|g gd ps m bs e body e' -> E2 P F L Hh Hb' W G K T X|g gd ps w E1 E2 P F S W];
        [unfold k_can_write_body in Ec; destruct (k_writing (d_conn d)) eqn:Q; try discriminate; destruct (W _ eq_refl)| |unfold k_can_write_body in Ec; rewrite W in Ec; discriminate].
      assert (d_in_flight d = false) as Efl by (destruct (d_in_flight d) eqn:Efl; [|reflexivity]; destruct HI as (x & _ & _ & _ & HJ); rewrite Efl in HJ; destruct (HJ eq_refl) as (_ & _ & _ & [Q|Q]); congruence).
      assert (forall k', goes (d_conn d) k' -> MI (d_in_flight d) k') as Go by (intros k' Hk; rewrite Efl in *; eapply MI_goes; eassumption).
      destruct (i_frame i) as [|[[[b|t|]|u]|]] eqn:Ei; cbn [fold_left give].
      * rewrite Erx. split; [apply H0|exact HM].
      * unfold good_inp in Hg. rewrite Ei in Hg. destruct (i_eos i).
        -- destruct (brem b =? 0) eqn:Eb.
           ++ assert (den b = []) as Db by (rewrite brem_den in Eb; apply N.eqb_eq in Eb; now apply lenN_0). rewrite Db. cbn [fold_left give]. rewrite (gupd_nil g).
              unfold end_body_it. cbn [d_conn dset_body_rx].
              assert (forall RR, RK c RR (fst (k_end_body (i_room i) (d_conn d))) false (gupd TOver g :: gd) /\ goes (d_conn d) (fst (k_end_body (i_room i) (d_conn d)))) as Q1.
              { intros RR. eapply (RK_end_body c RR (d_conn d) (gupd TOver g) gd ps m bs e body e'); eauto. rewrite seen_trailers by discriminate. eauto. }
              destruct (k_end_body (i_room i) (d_conn d)) as [k' [u|err]]; cbn [fst] in Q1; (split; [apply Q1|apply Go, (Q1 False)]).
           ++ cbn [fold_left give]. cbn [d_conn dset_conn d_body_rx dset_body_rx d_in_flight].
              assert (forall RR, RK c RR (k_write_body_and_end c (i_room i) (d_conn d) b) false (gupd TOver (gupd (TData (den b)) g) :: gd) /\ goes (d_conn d) (k_write_body_and_end c (i_room i) (d_conn d) b)) as Q1 by (intros RR; eapply (RK_write_body_and_end c RR (d_conn d) g gd ps m bs e body e'); eauto).
              split; [apply Q1|apply Go, (Q1 False)].
        -- cbn [fold_left]. destruct (brem b =? 0) eqn:Eb.
           ++ assert (den b = []) as Db by (rewrite brem_den in Eb; apply N.eqb_eq in Eb; now apply lenN_0). rewrite Db. rewrite (gupd_nil g). rewrite Erx. split; [apply H0|exact HM].
           ++ cbn [d_conn dset_conn d_body_rx d_in_flight]. rewrite Erx.
              assert (forall RR, RK c RR (k_write_body c (i_room i) (d_conn d) b) true (gupd (TData (den b)) g :: gd) /\ goes (d_conn d) (k_write_body c (i_room i) (d_conn d) b)) as Q1 by (intros RR; eapply (RK_write_body c RR (d_conn d) g gd ps m bs e body e'); eauto).
              split; [apply Q1|apply Go, (Q1 False)].
      * cbn [d_conn dset_conn d_body_rx dset_body_rx d_in_flight].
        assert (forall RR, RK c RR (k_write_trailers c (i_room i) (d_conn d) t) false (gupd TOver (gupd (TTrailers t) g) :: gd) /\ goes (d_conn d) (k_write_trailers c (i_room i) (d_conn d) t)) as Q1 by (intros RR; eapply (RK_write_trailers c RR (d_conn d) g gd ps m bs e body e'); eauto).
        split; [apply Q1|apply Go, (Q1 False)].
      * rewrite Erx. split; [apply H0|exact HM].
      * split; [|exact HM]. apply (rk_open _ _ _ _ _ g gd ps m bs e body e'); auto. intros _. right. exists user_error. reflexivity.
      * unfold end_body_it. cbn [d_conn dset_body_rx].
        assert (forall RR, RK c RR (fst (k_end_body (i_room i) (d_conn d))) false (gupd TOver g :: gd) /\ goes (d_conn d) (fst (k_end_body (i_room i) (d_conn d)))) as Q1.
        { intros RR. eapply (RK_end_body c RR (d_conn d) (gupd TOver g) gd ps m bs e body e'); eauto. rewrite seen_trailers by discriminate. eauto. }
        destruct (k_end_body (i_room i) (d_conn d)) as [k' [u|err]]; cbn [fst] in Q1; (split; [apply Q1|apply Go, (Q1 False)]).
    + cbn [fold_left]. destruct (k_can_write_body (d_conn d)) eqn:Ec; [|rewrite Erx; split; [apply H0|exact HM]].
      destruct (H0 False) as [ps E P F L W|g gd ps m bs e body e' -> E2 P F L Hh Hb' W G K T X|g gd ps w E1 E2 P F S W];
        [unfold k_can_write_body in Ec; destruct (k_writing (d_conn d)) eqn:Q; try discriminate; destruct (W _ eq_refl)| |unfold k_can_write_body in Ec; rewrite W in Ec; discriminate].
      assert (d_in_flight d = false) as Efl by (destruct (d_in_flight d) eqn:Efl; [|reflexivity]; destruct HI as (x & _ & _ & _ & HJ); rewrite Efl in HJ; destruct (HJ eq_refl) as (_ & _ & _ & [Q|Q]); congruence).
      assert (forall k', goes (d_conn d) k' -> MI (d_in_flight d) k') as Go by (intros k' Hk; rewrite Efl in *; eapply MI_goes; eassumption).
      assert (g_over g = true) as Ho by (destruct (X eq_refl); [assumption|contradiction]).
      unfold end_body_it.
      assert (forall RR, RK c RR (fst (k_end_body (i_room i) (d_conn d))) false (g :: gd) /\ goes (d_conn d) (fst (k_end_body (i_room i) (d_conn d)))) as Q1.
      { intros RR. eapply (RK_end_body c RR (d_conn d) g gd ps m bs e body e'); eauto. }
      destruct (k_end_body (i_room i) (d_conn d)) as [k' [u|err]]; cbn [fst] in Q1; cbn [d_conn dset_conn d_body_rx d_in_flight]; rewrite Erx; (split; [apply Q1|apply Go, (Q1 False)]).
Qed.

(* ---- Executions ---- *)
Definition RD (c : cfg) (d : disp) (gs : list gmsg) : Prop :=
  SInv d /\ MI (d_in_flight d) (d_conn d) /\ RK c (d_pc d = PDead) (d_conn d) (d_body_rx d) gs.
Definition service_moves (c : cfg) (ms : list move) : Prop := Forall (fun m => match m with Step i => good_service c i | Env _ => True end) ms.
Lemma SInv_move c m d : c_server c = true -> SInv d -> SInv (dmove c m d).
Proof. intros Hs H. exact (Inv_run c _ _ (server_stable c Hs) (fun _ => Logic.I) [m] d H). Qed.
Lemma dead_in_flight c m d : d_pc d = PDead -> d_in_flight (dmove c m d) = d_in_flight d.
Proof.
  intros H. destruct m as [i|e]; cbn [dmove]; [unfold dstep; now rewrite H|]. destruct e; cbn [estep]; rewrite ?H; auto. destruct (c_server c); auto.
Qed.
Lemma fail_logs c d e : c_server c = true -> exists l, d_conn (d_fail c d e) = log (d_conn d) l /\ forallb squiet l = true /\ d_in_flight (d_fail c d e) = d_in_flight d.
Proof.
  intros Hs. unfold d_fail, recv_error. rewrite Hs. unfold d_complete. rewrite d_drop_eq. cbn [d_conn d_in_flight].
  match goal with |- context [drop_events ?x] => assert (forallb squiet (drop_events x) = true) as Q by (unfold drop_events; rewrite !forallb_app, squiet_outs; destruct (d_body_tx x), (d_callback x); reflexivity); remember (drop_events x) as l0 eqn:E0; clear E0 end.
  destruct (d_body_tx d).
  - exists ([LBodyFail; LReturn (Some e)] ++ l0). rewrite forallb_app, Q. unfold dlog, log. cbn. rewrite <- !app_assoc. auto.
  - exists ([LReturn (Some e)] ++ l0). rewrite forallb_app, Q. unfold dlog, log. cbn. rewrite <- !app_assoc. auto.
Qed.
Lemma MI_logs fl k l : forallb squiet l = true -> MI fl k -> MI fl (log k l).
Proof. intros H M. destruct (squiet_nil l H) as (_ & A & B'). unfold MI in *. cbn [log k_log k_writing k_method k_trailers]. rewrite requests_app, answers_app, A, B', !app_nil_r. exact M. Qed.
Lemma RD_move c m d gs : c_server c = true -> (match m with Step i => good_service c i | Env _ => True end) -> RD c d gs -> RD c (dmove c m d) (fold_left give (tells c m d) gs).
Proof.
  intros Hs Hg (HI & HM & H). split; [now apply SInv_move|].
  assert (d_pc d = PDead \/ d_pc d <> PDead) as [Hd|Hd] by (destruct (d_pc d); auto; right; discriminate).
  { pose proof (dead_in_flight c m d Hd) as F. destruct (dead_stays c m d Hd) as (A & B' & C & ->). rewrite A, B', C, F. rewrite Hd in H. split; [exact HM|exact H]. }
  assert (tells c m d = [] -> mv c d (dmove c m d) -> MI (d_in_flight (dmove c m d)) (d_conn (dmove c m d)) /\ RK c (d_pc (dmove c m d) = PDead) (d_conn (dmove c m d)) (d_body_rx (dmove c m d)) (fold_left give (tells c m d) gs)) as Quiet.
  { intros -> Q. split; [eapply MI_mv; eassumption|]. eapply RK_mv; [exact H|exact Q|]. intros; contradiction. }
  destruct m as [i|e]; [|apply Quiet; [reflexivity|apply mv_move; [exact Hs|exact HI|discriminate]]].
  assert (forall n, d_pc d = PWrite n \/ d_pc d = PWrite2 n -> MI (d_in_flight (dmove c (Step i) d)) (d_conn (dmove c (Step i) d)) /\ RK c (d_pc (dmove c (Step i) d) = PDead) (d_conn (dmove c (Step i) d)) (d_body_rx (dmove c (Step i) d)) (fold_left give (tells c (Step i) d) gs)) as Wr.
  { intros n Hp. assert (tells c (Step i) d = offers c i d) as -> by (cbn; destruct Hp as [-> | ->]; reflexivity).
    pose proof (RK_write_it c _ i d gs Hs Hg Hd HI HM H) as W. 
    assert (forall d' e, MI (d_in_flight d') (d_conn d') -> MI (d_in_flight (d_fail c d' e)) (d_conn (d_fail c d' e))) as MF.
    { intros d' e M. destruct (fail_logs c d' e Hs) as (l & -> & Hl & ->). now apply MI_logs. }
    cbn [dmove]. unfold dstep.
    destruct Hp as [-> | ->]; destruct (poll_write_it c i d) as [d' [|[|[u|e]]]]; destruct W as (W & WM);
      try (split; [exact WM|eapply RK_sq; [exact W|apply sq_refl|intros (e & He); discriminate]]);
      (destruct (sqd_fail c d' e) as (Q1 & Q2 & _); rewrite Q2; split; [now apply MF|eapply RK_sq; [exact W|exact Q1|intros _; apply fail_dead]]). }
  destruct (d_pc d) eqn:Ep; try (apply Quiet; [cbn; rewrite Ep; reflexivity|apply mv_move; [exact Hs|exact HI|intros; rewrite Ep; split; discriminate]]); apply (Wr n); auto.
Qed.
Lemma RD_run c ms : c_server c = true -> forall d gs, service_moves c ms -> RD c d gs -> RD c (run c ms d) (fold_left give (told_in c ms d) gs).
Proof.
  intros Hs. induction ms as [|m ms IH]; intros d gs G H; [exact H|]. inversion G; subst. cbn [told_in run]. rewrite fold_left_app. apply (IH (dmove c m d)); [assumption|]. now apply RD_move.
Qed.
