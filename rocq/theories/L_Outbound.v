(* Lemmas: the bytes that a client connection queues are the requests that it was
   given. *)
From Verif Require Import Base M_Src M_Decode M_HeaderMap M_Headers M_Encode M_Role M_RoleEncode M_Buf M_WriteBuf M_Read M_Conn M_Dispatch S_Conn S_Client S_Buf S_Chunked S_Send S_Outbound L_Buf L_WriteBuf L_Conn L_Moves L_ConnS L_ConnC L_Ext L_Encode L_Encode2 L_Stream L_BodyTx.
From Verif Require P_Write.

(* ---- Moves that write nothing ---- *)
Definition oquiet (e : levent) : bool := match e with LHead _ _ _ | LHeadFail _ | LBody _ => false | _ => true end.
Definition wr_rel (w w' : writing) : Prop := w' = w \/ w' = WClosed \/ (w = WKeepAlive /\ w' = WInit).
Definition oq (k k' : conn) : Prop :=
  exists l, k_log k' = k_log k ++ l /\ forallb oquiet l = true /\ wr_rel (k_writing k) (k_writing k').
Lemma wr_trans a b c : wr_rel a b -> wr_rel b c -> wr_rel a c.
Proof. unfold wr_rel. intros [-> | [-> | [-> ->]]] [-> | [-> | [E ->]]]; auto; discriminate. Qed.
Lemma oq_refl k : oq k k.
Proof. exists []. rewrite app_nil_r. unfold wr_rel. auto. Qed.
Lemma oq_trans k k' k'' : oq k k' -> oq k' k'' -> oq k k''.
Proof. intros (a & A1 & A2 & A3) (b & B1 & B2 & B3). exists (a ++ b). rewrite B1, A1, app_assoc, forallb_app, A2, B2. split; [reflexivity|]. split; [reflexivity|]. eapply wr_trans; eassumption. Qed.
Lemma oq_same k k' : k_log k' = k_log k -> wr_rel (k_writing k) (k_writing k') -> oq k k'.
Proof. intros H1 H2. exists []. rewrite app_nil_r. auto. Qed.
Lemma oq_log k l : forallb oquiet l = true -> oq k (log k l).
Proof. intros H. exists l. unfold wr_rel. auto. Qed.
Ltac osame := apply oq_same; [reflexivity|first [left; reflexivity | right; left; reflexivity]].
Lemma oq_st_try c k : oq k (st_try_keep_alive c k).
Proof.
  unfold st_try_keep_alive, idle. destruct (k_reading k) eqn:Er; try apply oq_refl; destruct (k_writing k) eqn:Ew; try apply oq_refl; try osame.
  destruct (k_ka k); try osame. destruct (c_server c), (c_timeout c); (apply oq_same; [reflexivity|]; right; right; split; [exact Ew|reflexivity]).
Qed.
Lemma read_io_writing k : k_writing (fst (read_io k)) = k_writing k.
Proof. unfold read_io. destruct (r_read_io (k_rd k)). reflexivity. Qed.
Lemma oq_read_io k : oq k (fst (read_io k)).
Proof. unfold read_io. destruct (r_read_io (k_rd k)). osame. Qed.
Lemma oq_maybe_notify blk k : oq k (maybe_notify blk k).
Proof.
  unfold maybe_notify. pose proof (oq_read_io k) as H'.
  destruct (k_reading k); try apply oq_refl. destruct (k_writing k); try apply oq_refl;
  (destruct blk; [apply oq_refl|]; destruct (r_buf (k_rd k)); [|osame];
   destruct (read_io k) as [k' [|[n|e]]]; cbn [fst] in H'; [exact H'| |eapply oq_trans; [exact H'|osame]];
   destruct (n =? 0); [destruct (is_idle k')|]; (eapply oq_trans; [exact H'|osame])).
Qed.
Lemma oq_try c blk k : oq k (try_keep_alive c blk k).
Proof. eapply oq_trans; [apply oq_st_try|apply oq_maybe_notify]. Qed.
Lemma oq_flush c blk wevs k : oq k (fst (k_poll_flush c blk wevs k)).
Proof.
  unfold k_poll_flush. destruct (wb_flush _ _ _ _) as [[[w ev] sent] r].
  assert (oq k (log (set_wb k w) (match sent with [] => [] | _ => [LSent sent] end))) as H1.
  { destruct sent as [|x sent]; (eapply oq_trans; [|apply oq_log; reflexivity]); osame. }
  destruct r as [|[u|e]]; cbn [fst]; [exact H1|eapply oq_trans; [exact H1|apply oq_try]|exact H1].
Qed.
Lemma oq_read_head_error c k e : c_server c = false -> oq k (fst (on_read_head_error c k e)).
Proof.
  intros Hs. unfold on_read_head_error. destruct (_ || _); [|osame].
  unfold on_parse_error. destruct (k_writing (set_rd (close_read k) _)); try osame. destruct (has_h2_prefix _); [osame|].
  unfold t_on_error. rewrite Hs. osame.
Qed.
Lemma oq_got_head c blk k m : oq k (got_head c blk k m).
Proof.
  unfold got_head.
  set (k1 := log _ [LIn m]).
  assert (oq k k1) as H1.
  { subst k1. eapply oq_trans; [|apply oq_log; reflexivity]. unfold busy, st_disable_keep_alive. destruct (c_server c), (in_keep m), (k_ka k) eqn:Ek; (apply oq_same; [cbn; rewrite ?Ek; reflexivity|left; cbn; rewrite ?Ek; reflexivity]). }
  clearbody k1. eapply oq_trans; [exact H1|].
  match goal with |- oq _ (set_trailers ?x _) => assert (oq k1 x) as H2; [|eapply oq_trans; [exact H2|osame]] end.
  assert (oq k1 (log (set_reading k1 RKeepAlive) [LInEnd])) as H3 by (eapply oq_trans; [|now apply oq_log]; osame).
  destruct (in_decode m =? DL_ZERO).
  - destruct (c_server c); [exact H3|]. eapply oq_trans; [exact H3|apply oq_try].
  - destruct (_ && _); osame.
Qed.
Lemma oq_poll_read_head c now blk k : c_server c = false -> oq k (fst (k_poll_read_head c now blk k)).
Proof.
  intros Hs. unfold k_poll_read_head.
  assert (oq k (start_timer c now k)) as H0 by (unfold start_timer; destruct (k_running k); [osame|]; destruct (c_timeout c); osame).
  remember (start_timer c now k) as k0 eqn:E0. clear E0. eapply oq_trans; [exact H0|]. clear H0 k.
  destruct (io_parse _ _ (k_rd k0)) as [rd [|[m|e]]].
  - cbn [k_running k_timer set_rd]. destruct (k_running k0); [|osame]. destruct (k_timer k0) as [t|]; [|osame]. destruct (t <=? now); osame.
  - cbn [fst]. eapply oq_trans; [|apply oq_got_head]. osame.
  - destruct (parse_failure e) as [e' n]. eapply oq_trans; [|apply oq_read_head_error; exact Hs]. osame.
Qed.
Lemma oq_read_body_state c blk k d : oq k (fst (read_body_state c blk k d)).
Proof.
  unfold read_body_state, k_decode.
  destruct (decode (c_dt c) d _) as [[d' sc] r].
  set (k1 := set_rd k _). assert (oq k k1) as H1 by osame. clearbody k1.
  eapply oq_trans; [exact H1|]. clear H1.
  destruct r as [|[[x|t]|e]].
  - osame.
  - destruct (is_eof d').
    + destruct x as [|b x]; cbn [fst app]; (eapply oq_trans; [|apply oq_try]); eapply oq_trans; [|apply oq_log; reflexivity| |apply oq_log; reflexivity]; osame.
    + destruct x as [|b x]; cbn [fst]; [eapply oq_trans; [|apply oq_try]; osame|]. eapply oq_trans; [|apply oq_log; reflexivity]. osame.
  - cbn [fst]. (eapply oq_trans; [|apply oq_try]). eapply oq_trans; [|apply oq_log; reflexivity]. osame.
  - cbn [fst]. (eapply oq_trans; [|apply oq_try]). eapply oq_trans; [|apply oq_log; reflexivity]. osame.
Qed.
Lemma oq_poll_read_body c blk k : oq k (fst (k_poll_read_body c blk k)).
Proof.
  unfold k_poll_read_body. destruct (k_reading k); try apply oq_refl; [|apply oq_read_body_state].
  eapply oq_trans; [|apply oq_read_body_state].
  eapply oq_trans; [|apply (oq_same (match k_writing k with WInit => log (set_wb k (wb_head (k_wb k) continue_bytes)) [LContinue] | _ => k end)); [reflexivity|left; reflexivity]].
  destruct (k_writing k); try apply oq_refl. eapply oq_trans; [|apply oq_log; reflexivity]. osame.
Qed.
Lemma oq_drain c blk k : oq k (drain_or_close_read c blk k).
Proof.
  unfold drain_or_close_read. set (k1 := match k_reading k with RContinue d => _ | _ => k end).
  assert (oq k k1) as H1 by (subst k1; destruct (k_reading k); osame). clearbody k1. eapply oq_trans; [exact H1|].
  eapply oq_trans; [apply (oq_poll_read_body c blk)|]. destruct (k_reading (fst (k_poll_read_body c blk k1))); try apply oq_refl; osame.
Qed.
Lemma oq_keep_alive c k : oq k (fst (k_poll_read_keep_alive c k)).
Proof.
  unfold k_poll_read_keep_alive, mid_message_detect_eof, require_empty_read, force_io_read.
  pose proof (oq_read_io k) as H1.
  destruct (is_read_closed k); [apply oq_refl|]. destruct (is_mid_message k).
  - destruct (_ || _); [apply oq_refl|]. destruct (read_io k) as [k' [|[n|e]]]; cbn [fst] in *; [exact H1| |eapply oq_trans; [exact H1|osame]].
    destruct (n =? 0); [eapply oq_trans; [exact H1|osame]|exact H1].
  - destruct (r_buf (k_rd k)); [|apply oq_refl]. destruct (read_io k) as [k' [|[n|e]]]; cbn [fst] in *; [exact H1| |eapply oq_trans; [exact H1|osame]].
    destruct (n =? 0); [eapply oq_trans; [exact H1|osame]|exact H1].
Qed.

(* The dispatcher *)
Definition oqd (d d' : disp) : Prop := oq (d_conn d) (d_conn d') /\ d_body_rx d' = d_body_rx d.
Lemma oqd_refl d : oqd d d.
Proof. split; [apply oq_refl|reflexivity]. Qed.
Lemma oqd_trans d d' d'' : oqd d d' -> oqd d' d'' -> oqd d d''.
Proof. intros (A & A') (B & B'). split; [eapply oq_trans; eassumption|congruence]. Qed.
Lemma oqd_conn d k : oq (d_conn d) k -> oqd d (dset_conn d k).
Proof. intros H. split; [exact H|reflexivity]. Qed.
Lemma oqd_same d d' : d_conn d' = d_conn d -> d_body_rx d' = d_body_rx d -> oqd d d'.
Proof. intros A B'. split; [rewrite A; apply oq_refl|exact B']. Qed.
Lemma oqd_close d : oqd d (d_close d).
Proof. split; [osame|reflexivity]. Qed.
Lemma oqd_log d l : forallb oquiet l = true -> oqd d (dlog d l).
Proof. intros H. apply oqd_conn, oq_log, H. Qed.
Lemma oqd_recv_error c d e : oqd d (fst (recv_error c d e)).
Proof.
  unfold recv_error. destruct (c_server c); [apply oqd_refl|]. destruct (d_callback d) as [id|]; [split; [apply oq_log; reflexivity|reflexivity]|].
  destruct (d_rx_closed d); [apply oqd_refl|]. destruct (ch_try_recv _) as [ch [id|]]; [split; [apply oq_log; reflexivity|reflexivity]|apply oqd_same; reflexivity].
Qed.
Lemma oquiet_outs l : forallb oquiet (map (fun id => LOutcome id OReturned) l) = true.
Proof. induction l; auto. Qed.
Lemma oqd_drop d : oqd d (d_drop d).
Proof.
  rewrite d_drop_eq. split; [|reflexivity]. cbn [d_conn]. apply oq_log. unfold drop_events.
  rewrite !forallb_app, oquiet_outs. destruct (d_body_tx d), (d_callback d); reflexivity.
Qed.
Lemma oqd_complete d r : oqd d (d_complete d r).
Proof. unfold d_complete. eapply oqd_trans; [|apply oqd_drop]. now apply oqd_log. Qed.
Lemma oqd_fail c d e : oqd d (d_fail c d e).
Proof.
  unfold d_fail. set (d1 := if d_body_tx d then _ else d).
  assert (oqd d d1) as H1 by (subst d1; destruct (d_body_tx d); [split; [apply oq_log; reflexivity|reflexivity]|apply oqd_refl]).
  clearbody d1. eapply oqd_trans; [exact H1|]. pose proof (oqd_recv_error c d1 e) as H2. destruct (recv_error c d1 e) as [d2 b]. cbn [fst] in H2.
  eapply oqd_trans; [exact H2|apply oqd_complete].
Qed.
Lemma oqd_read_head c i d : c_server c = false -> oqd d (fst (d_poll_read_head c i d)).
Proof.
  intros Hs. unfold d_poll_read_head. destruct (d_poll_ready c i d) as [|[u|u]]; [apply oqd_refl| |apply oqd_close].
  pose proof (oq_poll_read_head c (i_now i) (i_blk i) (d_conn d) Hs) as H. destruct (k_poll_read_head c (i_now i) (i_blk i) (d_conn d)) as [k r]. cbn [fst] in H.
  apply oqd_conn in H. remember (dset_conn d k) as d0 eqn:E0. clear E0. destruct r as [|[[m|e]|]].
  - exact H.
  - eapply oqd_trans; [exact H|]. clear H.
    set (d1 := if in_decode m =? DL_ZERO then _ else _).
    assert (oqd d0 d1) as H1.
    { subst d1. destruct (in_decode m =? DL_ZERO); [apply oqd_refl|]. destruct (d_body_tx d0); [split; [apply oq_log; reflexivity|reflexivity]|apply oqd_same; reflexivity]. }
    clearbody d1. eapply oqd_trans; [exact H1|]. set (d2 := if in_upgrade m then _ else d1).
    assert (oqd d1 d2) as H2 by (subst d2; destruct (in_upgrade m); [apply oqd_conn; osame|apply oqd_refl]).
    clearbody d2. eapply oqd_trans; [exact H2|]. unfold recv_ok. destruct (c_server c); [apply oqd_same; reflexivity|]. destruct (d_callback d2); [split; [apply oq_log; reflexivity|reflexivity]|apply oqd_refl].
  - pose proof (oqd_recv_error c d0 e) as H2. destruct (recv_error c d0 e) as [d2 [|]]; cbn [fst] in *; (eapply oqd_trans; [exact H|]); [exact H2|]. eapply oqd_trans; [exact H2|apply oqd_close].
  - cbn [fst]. destruct (is_write_closed (d_conn d0)); [|exact H]. eapply oqd_trans; [exact H|apply oqd_close].
Qed.
Lemma oqd_read c i d : c_server c = false -> oqd d (fst (poll_read_it c i d)).
Proof.
  intros Hs. unfold poll_read_it. destruct (d_closing d); [apply oqd_refl|]. destruct (can_read_head c (d_conn d)); [now apply oqd_read_head|].
  destruct (d_body_tx d).
  - destruct (can_read_body (d_conn d)); [|split; [apply oq_log; reflexivity|reflexivity]].
    destruct (i_body i); [|apply oqd_refl|split; [apply oq_drain|reflexivity]].
    pose proof (oq_poll_read_body c (i_blk i) (log (d_conn d) [LWant])) as H.
    assert (oq (d_conn d) (log (d_conn d) [LWant])) as H0 by (apply oq_log; reflexivity).
    pose proof (oq_trans _ _ _ H0 H) as H1. destruct (k_poll_read_body c (i_blk i) (log (d_conn d) [LWant])) as [k r]. cbn [fst] in H1.
    apply oqd_conn in H1. remember (dset_conn d k) as d0 eqn:E0. clear E0.
    destruct r as [|[[f|e]|]]; cbn [fst]; [exact H1| |eapply oqd_trans; [exact H1|]; split; [apply oq_log; reflexivity|reflexivity]..].
    destruct (i_send i); cbn [fst]; [exact H1|]. eapply oqd_trans; [exact H1|]. cbn [d_conn dset_body_tx]. destruct (can_read_body (d_conn d0)); [split; [osame|reflexivity]|apply oqd_same; reflexivity].
  - pose proof (oq_keep_alive c (d_conn d)) as H. destruct (k_poll_read_keep_alive c (d_conn d)) as [k r]. apply oqd_conn, H.
Qed.
Lemma oqd_flush c i d : oqd d (fst (d_flush c i d)).
Proof. unfold d_flush. pose proof (oq_flush c (i_blk i) (i_wevs i) (d_conn d)) as H. destruct (k_poll_flush c (i_blk i) (i_wevs i) (d_conn d)) as [k r]. apply oqd_conn, H. Qed.
Lemma oqd_take_error c d : oqd d (match take_error (d_conn d) with (k, Ok _) => d_complete (dset_conn d k) None | (k, Err e) => d_fail c (dset_conn d k) e end).
Proof.
  assert (oqd d (dset_conn d (fst (take_error (d_conn d))))) as Q by (apply oqd_conn; unfold take_error; destruct (k_error (d_conn d)); osame).
  destruct (take_error (d_conn d)) as [k [u|e]]; (eapply oqd_trans; [exact Q|]); [apply oqd_complete|apply oqd_fail].
Qed.
(* Everything but poll_write *)
Lemma oqd_move c m d : c_server c = false -> (forall i n, m = Step i -> d_pc d <> PWrite n /\ d_pc d <> PWrite2 n) -> oqd d (dmove c m d).
Proof.
  intros Hs. destruct m as [i|e]; cbn [dmove]; intros Hm.
  - unfold dstep. destruct (d_pc d) as [|n|n|n wr|n| | |] eqn:Ep.
    + apply oqd_same; reflexivity.
    + pose proof (oqd_read c i d Hs) as H1. destruct (poll_read_it c i d) as [d' [|[|[u|e]]]]; cbn [fst] in H1; try exact H1. eapply oqd_trans; [exact H1|apply oqd_fail].
    + destruct (Hm i n eq_refl) as [Q _]. congruence.
    + pose proof (oqd_flush c i d) as H1. destruct (d_flush c i d) as [d' [|[u|e]]]; cbn [fst] in H1; [| |eapply oqd_trans; [exact H1|apply oqd_fail]];
        (eapply oqd_trans; [exact H1|]); split; try reflexivity; osame.
    + destruct (Hm i n eq_refl) as [_ Q]. congruence.
    + pose proof (oqd_flush c i d) as H1. destruct (d_flush c i d) as [d' [|[u|e]]]; cbn [fst] in H1; try exact H1. eapply oqd_trans; [exact H1|apply oqd_fail].
    + destruct (d_is_done c d); [|apply oqd_same; reflexivity]. unfold pending_upgrade. set (d1 := dset_conn d (set_upgrade (d_conn d) false)).
      assert (oqd d d1) as H1 by (apply oqd_conn; osame). eapply oqd_trans; [exact H1|]. clearbody d1. clear H1.
      destruct (k_upgrade (d_conn d)); [apply oqd_take_error|].
      destruct (wb_flush _ _ _ _) as [[[w ev] sent] r].
      set (d2 := dset_conn d1 _). assert (oqd d1 d2) as H2.
      { apply oqd_conn. destruct sent as [|x sent]; (eapply oq_trans; [|apply oq_log; reflexivity]); osame. }
      eapply oqd_trans; [exact H2|]. clearbody d2. destruct r as [|[u|e]]; [apply oqd_same; reflexivity| |apply oqd_fail].
      destruct (i_shutdown i) as [|[u'|e']]; [apply oqd_same; reflexivity| |apply oqd_fail].
      eapply oqd_trans; [|apply oqd_take_error]. apply oqd_log. reflexivity.
    + apply oqd_refl.
  - destruct e as [s| | |]; cbn [estep].
    + destruct (c_server c); apply oqd_same; reflexivity.
    + destruct (d_pc d); try apply oqd_refl. rewrite Hs. apply oqd_refl.
    + destruct (d_pc d); try apply oqd_refl. apply oqd_drop.
    + destruct (d_pc d), (k_log (d_conn d)); try apply oqd_refl. rewrite Hs. apply oqd_refl.
Qed.
Lemma dead_stays c m d : d_pc d = PDead -> d_pc (dmove c m d) = PDead /\ d_conn (dmove c m d) = d_conn d /\ d_body_rx (dmove c m d) = d_body_rx d /\ tells c m d = [].
Proof.
  intros H. destruct m as [i|e]; cbn [dmove tells].
  - unfold dstep. rewrite H. auto.
  - destruct e; cbn [estep]; rewrite ?H; auto. destruct (c_server c); auto.
Qed.

(* ---- What is written ---- *)
Definition wput (e : levent) : bytes := match e with LHead _ _ b | LHeadFail b | LBody b => b | _ => [] end.
Definition wbytes (l : list levent) : bytes := flat_map wput l.
Lemma wbytes_app a b : wbytes (a ++ b) = wbytes a ++ wbytes b.
Proof. apply flat_map_app. Qed.
Lemma oquiet_wbytes l : forallb oquiet l = true -> wbytes l = [].
Proof. induction l as [|e l IH]; [reflexivity|]. cbn. intros H. apply andb_prop in H as [H1 H2]. unfold wbytes in IH. rewrite (IH H2). destruct e; try discriminate; reflexivity. Qed.

(* How the encoder of the state is related to the one the head announced *)
Definition goes_on (e e' : encoder) (g : gmsg) : Prop :=
  match ekind e with KLength n => ekind e' = KLength (n - lenN (g_data g)) | x => ekind e' = x end.
Inductive OK (c : cfg) (R : Prop) (k : conn) (rx : bool) (gs : list gmsg) : Prop :=
| ok_done ws : wbytes (k_log k) = concat ws -> Forall2 (sent c (k_log k)) ws (rev gs) -> (forall e, k_writing k <> WBody e) -> OK c R k rx gs
| ok_open g gd ws bs e body e' : gs = g :: gd -> wbytes (k_log k) = concat ws ++ bs ++ body -> Forall2 (sent c (k_log k)) ws (rev gd) ->
    head_written c (k_log k) g bs e -> begun_body (ekind e) g body -> k_writing k = WBody e' -> goes_on e e' g ->
    (forall names, ekind e = KChunked names -> trailers_to_send (c_title c) names (g_trailers g) = []) ->
    (rx = false -> g_over g = true \/ R) -> OK c R k rx gs
| ok_broken g gd ws w : gs = g :: gd -> wbytes (k_log k) = concat ws ++ w -> Forall2 (sent c (k_log k)) ws (rev gd) ->
    (w = [] \/ sent_part c (k_log k) w g) -> k_writing k = WClosed -> OK c R k rx gs.

Lemma head_written_more c l l' g bs e : head_written c l g bs e -> head_written c (l ++ l') g bs e.
Proof. intros (h' & me & ta & A & B' & C & D). exists h', me, ta. rewrite in_app_iff. auto. Qed.
Lemma sent_more c l l' w g : sent c l w g -> sent c (l ++ l') w g.
Proof. intros (bs & e & body & A & B' & C). exists bs, e, body. auto using head_written_more. Qed.
Lemma sent_part_more c l l' w g : sent_part c l w g -> sent_part c (l ++ l') w g.
Proof. intros (bs & e & body & A & B' & C). exists bs, e, body. auto using head_written_more. Qed.
Lemma sents_more c l l' ws gs : Forall2 (sent c l) ws gs -> Forall2 (sent c (l ++ l')) ws gs.
Proof. intros H. induction H; constructor; auto using sent_more. Qed.

Lemma OK_oq c (R R' : Prop) k k' rx gs : OK c R k rx gs -> oq k k' -> (R -> R') -> OK c R' k' rx gs.
Proof.
  intros H (l & El & Hl & Hw) HR. pose proof (oquiet_wbytes l Hl) as Q.
  assert (wbytes (k_log k') = wbytes (k_log k)) as Hb by (rewrite El, wbytes_app, Q, app_nil_r; reflexivity).
  destruct H as [ws E F W|g gd ws bs e body e' E1 E2 F Hh Hb' W G T X|g gd ws w E1 E2 F S W].
  - apply (ok_done _ _ _ _ _ ws); [congruence|rewrite El; now apply sents_more|]. intros e He. destruct Hw as [Hw | [Hw | [_ Hw]]]; [apply (W e)|..]; congruence.
  - rewrite W in Hw. destruct Hw as [Hw | [Hw | [Hw _]]]; [..|discriminate].
    + apply (ok_open _ _ _ _ _ g gd ws bs e body e'); auto; [congruence|rewrite El; now apply sents_more|rewrite El; now apply head_written_more|]. intros Hx. destruct (X Hx); auto.
    + apply (ok_broken _ _ _ _ _ g gd ws (bs ++ body)); auto; [congruence|rewrite El; now apply sents_more|]. right. exists bs, e, body. rewrite El. auto using head_written_more.
  - apply (ok_broken _ _ _ _ _ g gd ws w); auto; [congruence|rewrite El; now apply sents_more|rewrite El; destruct S; auto using sent_part_more|]. rewrite W in Hw. destruct Hw as [Hw | [Hw | [Hw _]]]; [exact Hw|exact Hw|discriminate].
Qed.

(* Heads *)
Lemma client_kind m out e : client_encode m = Some (out, e) -> ekind e <> KCloseDelimited.
Proof.
  unfold client_encode. destruct (set_length _ _ _ _) as [h' e'] eqn:Es. intros E.
  assert (e' = e) as -> by (destruct (match c_version m with HTTP10 => _ | _ => _ end); [injection E; auto|discriminate]).
  assert (forall h, ekind (with_trailer_names h enc_chunked) <> KCloseDelimited) as Q.
  { intros h. unfold with_trailer_names. repeat match goal with |- context [match ?x with _ => _ end] => destruct x end; discriminate. }
  clear E. unfold set_length, set_content_length in Es. repeat match type of Es with (match ?x with _ => _ end) = _ => destruct x end; injection Es as <- <-; try discriminate; try apply Q.
Qed.
Lemma enforce_for k h : head_for h (snd (enforce_version k h)).
Proof.
  unfold enforce_version, fix_keep_alive, head_for. destruct (k_version k); cbn [snd]; auto 10.
  - destruct (match hm_get _ _ with Some _ => _ | None => _ end); cbn; auto 10. destruct (o_version h); cbn; auto 10.
    destruct (wants_keep_alive k); cbn; auto 10. repeat split; auto. right. exists (B "keep-alive"). auto.
  - destruct (k_ka k); cbn; auto 10. repeat split; auto. right. exists (B "close"). auto.
Qed.
Definition fresh (h : ohead) (b : option body_length) : gmsg := mkG h b [] None (match b with None => true | _ => false end).
Lemma OK_head c R k h b gs : c_server c = false -> (exists me ta, o_subject h = ORequest me ta) -> k_writing k = WInit -> OK c R k false gs ->
  OK c R (write_head c false k h b) (match b with None => false | _ => true end) (fresh h b :: gs).
Proof.
  intros Hs (me & ta & Ho) Hw H.
  destruct H as [ws E F W|g gd ws bs e body e' _ _ _ _ _ W _ _ _|g gd ws w _ _ _ _ W]; [|congruence..].
  unfold write_head, encode_head. rewrite Hs.
  set (k0 := if connection_any_close _ then _ else _).
  assert (k_log k0 = k_log k) as L0 by (subst k0; unfold busy; destruct (connection_any_close _), (k_ka k); reflexivity).
  clearbody k0. pose proof (enforce_for k0 h) as Hf. pose proof (enforce_frame k0 h) as Q. destruct (enforce_version k0 h) as [k1 h1]. cbn [snd] in Hf. destruct Q as (Q & _).
  unfold t_encode. rewrite (proj1 Hf), Ho. destruct (client_encode _) as [[out e]|] eqn:Ec.
  - assert (k_log (log (set_method (set_wb k1 (wb_head (k_wb k1) out)) (Some me)) [LHead false h1 out]) = k_log k ++ [LHead false h1 out]) as L1 by (cbn; congruence).
    set (k2 := log (set_method _ _) [LHead false h1 out]) in *. clearbody k2.
    assert (head_written c (k_log k ++ [LHead false h1 out]) (fresh h b) out e) as Hh.
    { exists h1, me, ta. split; [exact Hf|]. split; [rewrite (proj1 Hf); exact Ho|]. split; [apply in_app_iff; right; left; reflexivity|exact Ec]. }
    pose proof (client_kind _ _ _ Ec) as Hk. unfold after_head. destruct (enc_is_eof e) eqn:Ee; cbn [negb].
    + apply (ok_done _ _ _ _ _ (ws ++ [out])).
      * cbn [log set_writing k_log]. rewrite L1, !wbytes_app, E, concat_app. cbn. rewrite !app_nil_r. reflexivity.
      * cbn [log set_writing k_log rev]. rewrite L1. apply Forall2_app; [do 2 apply sents_more; exact F|]. constructor; [|constructor].
        exists out, e, []. split; [now rewrite app_nil_r|]. split; [apply head_written_more, Hh|]. unfold enc_is_eof in Ee. destruct (ekind e) as [|n|]; try discriminate. destruct n; [|discriminate]. cbn. split; [reflexivity|lia].
      * cbn. intros x. destruct (is_last e); discriminate.
    + apply (ok_open _ _ _ _ _ (fresh h b) gs ws out e [] e); auto.
      * cbn [log set_writing k_log]. rewrite L1, !wbytes_app, E. cbn. rewrite !app_nil_r. reflexivity.
      * cbn [log set_writing k_log]. rewrite L1. do 2 apply sents_more. exact F.
      * cbn [log set_writing k_log]. rewrite L1. apply head_written_more, Hh.
      * unfold enc_is_eof in Ee. destruct (ekind e) as [a|n|]; [|destruct n; [discriminate|]|congruence]; cbn.
        -- exists []. repeat split; constructor.
        -- split; [reflexivity|]. change (lenN []) with 0. lia.
      * unfold goes_on. destruct (ekind e); auto. cbn. now rewrite N.sub_0_r.
      * intros names _. cbn. destruct names; reflexivity.
      * destruct b; [discriminate|]. intros _. left. reflexivity.
  - apply (ok_broken _ _ _ _ _ (fresh h b) gs ws []); auto.
    + cbn. rewrite Q, L0, wbytes_app, E. cbn. now rewrite !app_nil_r.
    + cbn. rewrite Q, L0. apply sents_more. exact F.
Qed.

(* Bodies *)
Lemma buffer_log' room k b : k_log (k_buffer room k b) = k_log k.
Proof. unfold k_buffer. destruct (wb_buffer _ _ _); reflexivity. Qed.
Lemma head_written_upd c l g t bs e : head_written c l g bs e -> head_written c l (gupd t g) bs e.
Proof. destruct t; exact (fun H => H). Qed.
Lemma takeN_split {A} n (a b : list A) : lenN a <= n -> takeN n (a ++ b) = a ++ takeN (n - lenN a) b.
Proof. apply takeN_app_ge. Qed.
Lemma plain_no_ext d : ext_bytes (ch_line (plain_chunk d)) = [].
Proof. reflexivity. Qed.
Lemma no_ext_total cs ls : Forall (fun x => ext_bytes (ch_line x) = []) cs -> ext_total (mkBody cs (plain_line 0) ls) = 0.
Proof. intros H. unfold ext_total. cbn [cb_chunks cb_last]. induction H as [|x cs Hx H IH]; [reflexivity|]. cbn [map fold_right]. rewrite Hx. exact IH. Qed.
Lemma zero_line : valid_line (plain_line 0) /\ hex_num (sl_digits (plain_line 0)) = 0.
Proof. split; [apply plain_line_valid; discriminate|reflexivity]. Qed.
(* The end of a chunked body *)
Lemma whole_chunked title names g w tail : begun_body (KChunked names) g w -> g_over g = true ->
  tail = B "0" ++ CRLF ++ trailer_lines (trailers_to_send title names (g_trailers g)) ++ CRLF -> whole_body title (KChunked names) g (w ++ tail).
Proof.
  intros (cs & -> & V & X & D) Ho ->. split; [exact Ho|]. exists (mkBody cs (plain_line 0) (trailers_to_send title names (g_trailers g))).
  split; [unfold render; cbn [cb_chunks cb_last cb_trailers]; rewrite <- last_bytes, <- !app_assoc; reflexivity|]. split; [now apply no_ext_total|]. split; [exact D|]. split; [exact V|]. split; [apply zero_line|]. split; [apply zero_line|reflexivity].
Qed.
Lemma begun_chunk names g w x : begun_body (KChunked names) g w -> x <> [] -> lenN x <= u64_max -> begun_body (KChunked names) (gupd (TData x) g) (w ++ chunk_size (lenN x) ++ x ++ CRLF).
Proof.
  intros (cs & -> & V & X & D) Hx Hl. exists (cs ++ [plain_chunk x]). rewrite !map_app, !concat_app. cbn [map concat]. rewrite chunk_bytes, !app_nil_r. split; [reflexivity|].
  split; [apply Forall_app; split; [exact V|]; constructor; [now apply plain_chunk_valid|constructor]|]. split; [apply Forall_app; split; [exact X|]; repeat constructor|]. cbn. now rewrite D.
Qed.

Lemma wb1 x : wbytes [LBody x] = x.
Proof. apply app_nil_r. Qed.
Lemma wb2 x : wbytes [LBody x; LEnd] = x.
Proof. apply app_nil_r. Qed.
Lemma wb3 x : wbytes [LBody x; LAbort] = x.
Proof. apply app_nil_r. Qed.
Lemma wb4 x : wbytes ([LBody x] ++ [LEnd]) = x.
Proof. apply app_nil_r. Qed.

(* The pieces of the body.  [k'] is the connection after a body function that
   logged [l]. *)
Section Open.
Variables (c : cfg) (R : Prop) (k : conn) (g : gmsg) (gd : list gmsg) (ws : list bytes) (bs : bytes) (e : encoder) (body : bytes) (e' : encoder).
Hypothesis Ew : wbytes (k_log k) = concat ws ++ bs ++ body.
Hypothesis Ef : Forall2 (sent c (k_log k)) ws (rev gd).
Hypothesis Eh : head_written c (k_log k) g bs e.
Hypothesis Eb : begun_body (ekind e) g body.
Hypothesis Eg : goes_on e e' g.
Hypothesis Et : forall names, ekind e = KChunked names -> trailers_to_send (c_title c) names (g_trailers g) = [].

Lemma to_done k' l out rx g' : k_log k' = k_log k ++ l -> wbytes l = out -> (forall x, k_writing k' <> WBody x) -> g_head g' = g_head g -> g_len g' = g_len g ->
  whole_body (c_title c) (ekind e) g' (body ++ out) -> OK c R k' rx (g' :: gd).
Proof.
  intros El Eo Hw H1 H2 Hb. apply (ok_done _ _ _ _ _ (ws ++ [bs ++ body ++ out])); [|rewrite El; cbn [rev]; apply Forall2_app; [now apply sents_more|]|exact Hw].
  - rewrite El, wbytes_app, Ew, Eo, concat_app. cbn. rewrite app_nil_r, <- !app_assoc. reflexivity.
  - constructor; [|constructor]. exists bs, e, (body ++ out). split; [reflexivity|]. split; [|exact Hb]. apply head_written_more. unfold head_written in *. rewrite H1, H2. exact Eh.
Qed.
Lemma to_broken k' l out rx g' : k_log k' = k_log k ++ l -> wbytes l = out -> k_writing k' = WClosed -> g_head g' = g_head g -> g_len g' = g_len g ->
  begun_body (ekind e) g' (body ++ out) -> OK c R k' rx (g' :: gd).
Proof.
  intros El Eo Hw H1 H2 Hb. apply (ok_broken _ _ _ _ _ g' gd ws (bs ++ body ++ out)); auto.
  - rewrite El, wbytes_app, Ew, Eo, <- !app_assoc. reflexivity.
  - rewrite El. now apply sents_more.
  - right. exists bs, e, (body ++ out). split; [reflexivity|]. split; [|exact Hb]. rewrite El. apply head_written_more. unfold head_written in *. rewrite H1, H2. exact Eh.
Qed.
Lemma to_open k' l out rx g' x : k_log k' = k_log k ++ l -> wbytes l = out -> k_writing k' = WBody x -> g_head g' = g_head g -> g_len g' = g_len g ->
  begun_body (ekind e) g' (body ++ out) -> goes_on e x g' -> (forall names, ekind e = KChunked names -> trailers_to_send (c_title c) names (g_trailers g') = []) ->
  (rx = false -> g_over g' = true \/ R) -> OK c R k' rx (g' :: gd).
Proof.
  intros El Eo Hw H1 H2 Hb Hg Ht Hr. apply (ok_open _ _ _ _ _ g' gd ws bs e (body ++ out) x); auto.
  - rewrite El, wbytes_app, Ew, Eo, <- !app_assoc. reflexivity.
  - rewrite El. now apply sents_more.
  - rewrite El. apply head_written_more. unfold head_written in *. rewrite H1, H2. exact Eh.
Qed.

Lemma OK_write_body room b : k_writing k = WBody e' -> good_data c b -> brem b =? 0 = false -> lenN (den b) <= u64_max ->
  OK c R (k_write_body c room k b) true (gupd (TData (den b)) g :: gd).
Proof.
  intros Hw (W & V & P) Hne Hl. assert (den b <> []) as D by (intros F; rewrite brem_den, F in Hne; discriminate).
  destruct (P_Write.C27_encode (c_take_vec c) e' b W V D P) as (E1 & E2 & W1 & _).
  unfold k_write_body. rewrite Hw. destruct (encode_buf (c_take_vec c) e' b) as [e2 eb]. cbn [fst snd] in *.
  rewrite (den_buf_bytes eb W1), E2. unfold encode in *. unfold goes_on in Eg. destruct (ekind e) as [names|n|] eqn:Ek; [| |destruct Eb].
  - rewrite Eg in *. cbn [fst snd] in *. subst e2. unfold enc_is_eof. rewrite Eg. cbn [negb].
    eapply to_open; [cbn; rewrite buffer_log'; reflexivity|first [apply wb1|apply wb2|apply wb3|apply wb4]|reflexivity|reflexivity|reflexivity|rewrite Ek; now apply begun_chunk| | |discriminate].
    + unfold goes_on. now rewrite Ek.
    + intros names' Hn. cbn. rewrite Ek in Hn. apply (Et names' Hn).
  - destruct Eb as (Hbd & Hlt). rewrite Eg in *. set (r := n - lenN (g_data g)) in *.
    assert (r <> 0) as Hr by (unfold r; lia).
    destruct (N.ltb_spec r (lenN (den b))) as [L|L]; cbn [fst snd] in *; subst e2; cbn [negb].
    + eapply to_done; [unfold log, set_writing; cbn [k_log]; rewrite buffer_log', <- app_assoc; reflexivity|first [apply wb1|apply wb2|apply wb3|apply wb4]|cbn; intros x; destruct (is_last e'); discriminate|reflexivity|reflexivity|].
      rewrite Ek, Hbd. cbn. rewrite takeN_split by lia. split; [reflexivity|]. rewrite lenN_app. lia.
    + unfold enc_is_eof. cbn [ekind]. destruct (r - lenN (den b)) as [|p] eqn:Er; cbn [negb].
      * eapply to_done; [unfold log, set_writing; cbn [k_log]; rewrite buffer_log', <- app_assoc; reflexivity|first [apply wb1|apply wb2|apply wb3|apply wb4]|cbn; intros x; destruct (is_last e'); discriminate|reflexivity|reflexivity|].
        rewrite Ek, Hbd. cbn. rewrite takeN_all; [|rewrite lenN_app; lia]. split; [reflexivity|]. rewrite lenN_app. lia.
      * eapply to_open; [cbn; rewrite buffer_log'; reflexivity|first [apply wb1|apply wb2|apply wb3|apply wb4]|reflexivity|reflexivity|reflexivity| | | |discriminate].
        -- rewrite Ek, Hbd. cbn. rewrite lenN_app. split; [reflexivity|lia].
        -- unfold goes_on. rewrite Ek. cbn [ekind gupd g_data]. rewrite lenN_app. f_equal. lia.
        -- intros names' Hn. congruence.
Qed.
Lemma OK_write_body_and_end room b : k_writing k = WBody e' -> good_data c b -> brem b =? 0 = false -> lenN (den b) <= u64_max ->
  OK c R (k_write_body_and_end c room k b) false (gupd TOver (gupd (TData (den b)) g) :: gd).
Proof.
  intros Hw (W & V & P) Hne Hl. assert (den b <> []) as D by (intros F; rewrite brem_den, F in Hne; discriminate).
  destruct (P_Write.C27_encode (c_take_vec c) e' b W V D P) as (_ & _ & _ & _ & E2 & W1 & _).
  unfold k_write_body_and_end. rewrite Hw. rewrite (den_buf_bytes _ W1), E2. set (eb := encode_and_end_buf _ _ _) in *. clearbody eb.
  unfold encode_and_end. unfold goes_on in Eg. destruct (ekind e) as [names|n|] eqn:Ek; [| |destruct Eb].
  - rewrite Eg. cbn [fst]. eapply to_done; [unfold log, set_writing; cbn [k_log]; rewrite buffer_log'; reflexivity|first [apply wb1|apply wb2|apply wb3|apply wb4]|cbn; intros x; destruct (negb _); discriminate|reflexivity|reflexivity|].
    rewrite Ek. match goal with |- whole_body _ _ _ ?w => replace w with ((body ++ chunk_size (lenN (den b)) ++ den b ++ CRLF) ++ B "0" ++ CRLF ++ CRLF) by (rewrite <- !app_assoc; reflexivity) end.
    apply whole_chunked; [|reflexivity|].
    + pose proof (begun_chunk names g body (den b) Eb D Hl) as H. exact H.
    + cbn [gupd g_trailers]. rewrite (Et names eq_refl). reflexivity.
  - destruct Eb as (Hbd & Hlt). rewrite Eg. set (r := n - lenN (g_data g)). assert (r <> 0) as Hr by (unfold r; lia). rewrite brem_den.
    assert (fst (match lenN (den b) ?= r with Eq => (den b, negb (is_last e')) | Lt => (den b, false) | Gt => (takeN r (den b), negb (is_last e')) end) = takeN r (den b)) as ->.
    { destruct (N.compare_spec (lenN (den b)) r); cbn [fst]; [symmetry; apply takeN_all; lia..|reflexivity]. }
    destruct (N.ltb_spec (lenN (den b)) r) as [L|L].
    + eapply to_broken; [cbn; rewrite buffer_log'; reflexivity|first [apply wb1|apply wb2|apply wb3|apply wb4]|reflexivity|reflexivity|reflexivity|].
      rewrite Ek, Hbd. cbn. rewrite takeN_all by lia. rewrite lenN_app. split; [reflexivity|lia].
    + eapply to_done; [unfold log, set_writing; cbn [k_log]; rewrite buffer_log'; reflexivity|first [apply wb1|apply wb2|apply wb3|apply wb4]|cbn; intros x; destruct (is_last e'); discriminate|reflexivity|reflexivity|].
      rewrite Ek, Hbd. cbn. rewrite takeN_split by lia. split; [reflexivity|]. rewrite lenN_app. lia.
Qed.
Lemma OK_end_body room rx : k_writing k = WBody e' -> g_over g = true -> OK c R (fst (k_end_body room k)) rx (g :: gd).
Proof.
  intros Hw Ho. unfold k_end_body. rewrite Hw. unfold enc_end. unfold goes_on in Eg. destruct (ekind e) as [names|n|] eqn:Ek; [| |destruct Eb].
  - rewrite Eg. cbn [fst]. eapply to_done; [cbn; rewrite buffer_log', <- app_assoc; reflexivity|first [apply wb1|apply wb2|apply wb3|apply wb4]|cbn; intros x; destruct (_ || _); discriminate|reflexivity|reflexivity|].
    rewrite Ek. apply whole_chunked; auto. now rewrite (Et names eq_refl).
  - destruct Eb as (Hbd & Hlt). rewrite Eg. destruct (n - lenN (g_data g)) as [|p] eqn:Er; [lia|]. cbn [fst].
    eapply to_broken; [reflexivity|reflexivity|reflexivity|reflexivity|reflexivity|]. rewrite Ek, Hbd. cbn. rewrite app_nil_r. auto.
Qed.
Lemma block_lines title names t : hm_wf t -> write_headers title (filter_trailers names t) = trailer_lines (trailers_to_send title (Some names) (Some t)).
Proof. intros H. rewrite write_headers_lines, filter_trailers_iter by exact H. cbn [trailers_to_send]. rewrite sendable_keep. reflexivity. Qed.
Lemma OK_write_trailers room t : c_server c = false -> k_writing k = WBody e' -> hm_wf t -> OK c R (k_write_trailers c room k t) false (gupd TOver (gupd (TTrailers t) g) :: gd).
Proof.
  intros Hs Hw Ht. unfold k_write_trailers. rewrite Hs, Hw. cbn [andb]. unfold encode_trailers. unfold goes_on in Eg. destruct (ekind e) as [names|n|] eqn:Ek; [| |destruct Eb].
  - rewrite Eg. destruct names as [names|].
    + rewrite (block_lines _ _ _ Ht). destruct (trailer_lines (trailers_to_send (c_title c) (Some names) (Some t))) as [|y block] eqn:El.
      * assert (trailers_to_send (c_title c) (Some names) (Some t) = []) as Z.
        { clear - El. destruct (trailers_to_send (c_title c) (Some names) (Some t)) as [|x l]; [reflexivity|]. unfold trailer_lines in El. cbn in El. destruct x; discriminate. }
        eapply to_open; [symmetry; apply app_nil_r|reflexivity|exact Hw|reflexivity|reflexivity| | | |intros _; left; reflexivity].
        -- rewrite app_nil_r, Ek. exact Eb.
        -- unfold goes_on. now rewrite Ek.
        -- intros names' Hn. assert (names' = Some names) as -> by congruence. exact Z.
      * remember (y :: block) as bl eqn:Eq. assert (bl <> []) as Hn by (subst; discriminate).
        eapply to_done; [unfold log, set_writing; cbn [k_log]; rewrite buffer_log'; reflexivity|first [apply wb1|apply wb2|apply wb3|apply wb4]|cbn; intros x; destruct (_ || _); discriminate|reflexivity|reflexivity|].
        rewrite Ek. apply (whole_chunked _ _ (gupd TOver (gupd (TTrailers t) g))); [exact Eb|reflexivity|]. cbn [gupd g_trailers]. rewrite El. reflexivity.
    + eapply to_open; [symmetry; apply app_nil_r|reflexivity|exact Hw|reflexivity|reflexivity| | | |intros _; left; reflexivity].
      * rewrite app_nil_r, Ek. exact Eb.
      * unfold goes_on. now rewrite Ek.
      * intros names' Hn. assert (names' = None) as -> by congruence. reflexivity.
  - rewrite Eg. destruct Eb as (Hbd & Hlt). eapply to_open; [symmetry; apply app_nil_r|reflexivity|exact Hw|reflexivity|reflexivity| | | |intros _; left; reflexivity].
    + rewrite app_nil_r, Ek, Hbd. cbn. auto.
    + unfold goes_on. rewrite Ek. exact Eg.
    + intros names' Hn. congruence.
Qed.
Lemma OK_over : k_writing k = WBody e' -> OK c R k false (gupd TOver g :: gd).
Proof.
  intros Hw. eapply to_open; [symmetry; apply app_nil_r|reflexivity|exact Hw|reflexivity|reflexivity| | | |intros _; left; reflexivity].
  - rewrite app_nil_r. unfold begun_body in *. destruct (ekind e); exact Eb.
  - exact Eg.
  - exact Et.
Qed.
End Open.

(* ---- poll_write ---- *)
(* What the application may hand over: a request where a request is due, buffers
   that keep the contract of Buf and have a length, maps of fields *)
Definition good_app (c : cfg) (i : inp) : Prop :=
  (exists me ta, o_subject (fst (i_req i)) = ORequest me ta) /\ good_inp c i /\
  match i_frame i with
  | Ready (Some (Ok (M_Dispatch.UData b))) => lenN (den b) <= u64_max
  | Ready (Some (Ok (M_Dispatch.UTrailers t))) => hm_wf t
  | _ => True
  end.
Definition is_err (r : it) : Prop := exists e, r = Ret (Ready (Err e)).
Lemma gupd_nil g : gupd (TData []) g = g.
Proof. destruct g. cbn. now rewrite app_nil_r. Qed.
Lemma gupd_over_idem g : g_over g = true -> gupd TOver g = g.
Proof. destruct g. cbn. now intros ->. Qed.
Lemma OK_write_it c (R : Prop) i d gs : c_server c = false -> good_app c i -> ~ R -> OK c R (d_conn d) (d_body_rx d) gs ->
  let (d', r) := poll_write_it c i d in OK c (is_err r) (d_conn d') (d_body_rx d') (fold_left give (offers c i d) gs).
Proof.
  intros Hs ((me & ta & Hr) & Hg & Hf) NR H.
  assert (forall Q : Prop, OK c Q (d_conn d) (d_body_rx d) gs) as H0 by (intros Q; eapply OK_oq; [exact H|apply oq_refl|intros; contradiction]).
  unfold poll_write_it, offers. destruct (d_closing d); [apply H0|].
  destruct (negb (d_body_rx d) && can_write_head c (d_conn d) && should_poll c d) eqn:Eh.
  - apply andb_prop in Eh as [Eh _]. apply andb_prop in Eh as [Erx Eh]. apply negb_true_iff in Erx.
    assert (k_writing (d_conn d) = WInit) as Hw by (unfold can_write_head in Eh; destruct (_ && _) in Eh; [discriminate|]; destruct (k_writing (d_conn d)); auto; discriminate).
    unfold d_poll_msg. rewrite Hs. destruct (ch_poll_recv (i_race i) (d_chan d)) as [ch [|[id|]]]; cbn [snd].
    + apply H0.
    + destruct (i_canceled i); cbn [snd].
      * eapply OK_oq; [apply (H0 False)| |contradiction]. eapply oq_trans; [apply (oq_log _ [LOutcome id OGone]); reflexivity|]. apply oqd_close.
      * destruct (i_req i) as [h b]. cbn [fst] in Hr. cbn [fold_left give]. change (mkG h b [] None _) with (fresh h b).
        apply OK_head; auto; [exists me, ta; exact Hr|]. eapply OK_oq; [|apply (oq_log _ [LStart id]); reflexivity|exact (fun Q => Q)]. rewrite <- Erx. apply H0.
    + eapply OK_oq; [apply (H0 False)| |contradiction]. apply (oqd_close (dset_client d (d_callback d) true ch)).
  - destruct (can_buffer_body c (d_conn d)) eqn:Ecb; cbn [negb andb].
    2:{ pose proof (oqd_flush c i d) as (Q1 & Q2). destruct (d_flush c i d) as [d' [|[u|e]]]; cbn [fst] in Q1, Q2; rewrite Q2; (eapply OK_oq; [apply (H0 False)|exact Q1|contradiction]). }
    destruct (d_body_rx d) eqn:Erx; cbn [andb].
    + destruct (k_can_write_body (d_conn d)) eqn:Ec; cbn [negb].
      2:{ cbn. assert (forall e, k_writing (d_conn d) <> WBody e) as Hn by (intros e He; unfold k_can_write_body in Ec; rewrite He in Ec; discriminate).
          destruct (H0 (is_err Cont)) as [ws E F W|g gd ws bs e body e' E1 E2 F Hh Hb' W G T X|g gd ws w E1 E2 F S W]; [eapply ok_done; eassumption|destruct (Hn _ W)|eapply ok_broken; eassumption]. }
      destruct (H0 False) as [ws E F W|g gd ws bs e body e' -> E2 F Hh Hb' W G T X|g gd ws w E1 E2 F S W];
        [unfold k_can_write_body in Ec; destruct (k_writing (d_conn d)) eqn:Q; try discriminate; destruct (W _ eq_refl)| |unfold k_can_write_body in Ec; rewrite W in Ec; discriminate].
      destruct (i_frame i) as [|[[[b|t|]|u]|]] eqn:Ei; cbn [fold_left give].
      * rewrite Erx. apply H0.
      * unfold good_inp in Hg. rewrite Ei in Hg. destruct (i_eos i).
        -- destruct (brem b =? 0) eqn:Eb.
           ++ assert (den b = []) as Db by (rewrite brem_den in Eb; apply N.eqb_eq in Eb; now apply lenN_0). rewrite Db. cbn [fold_left give]. rewrite (gupd_nil g).
              pose proof (fun RR => OK_end_body c RR (d_conn d) (gupd TOver (gupd (TData []) g)) gd ws bs e body e') as Q. rewrite (gupd_nil g) in Q.
              unfold end_body_it. cbn [d_conn dset_body_rx].
              match type of Q with forall RR, ?P1 -> ?P2 -> ?P3 -> ?P4 -> ?P5 -> ?P6 -> _ => assert (P3 /\ P4 /\ P5 /\ P6) as (A3 & A4 & A5 & A6) end.
              { split; [exact Hh|]. split; [unfold begun_body in *; destruct (ekind e); exact Hb'|]. split; [exact G|exact T]. }
              assert (forall RR, OK c RR (fst (k_end_body (i_room i) (d_conn d))) false (gupd TOver g :: gd)) as Q1 by (intros RR; apply Q; auto). clear Q.
              destruct (k_end_body (i_room i) (d_conn d)) as [k' [u|err]]; cbn [fst] in Q1; apply Q1.
           ++ cbn [fold_left give]. apply (OK_write_body_and_end c _ (d_conn d) g gd ws bs e body e'); auto.
        -- cbn [fold_left]. destruct (brem b =? 0) eqn:Eb.
           ++ assert (den b = []) as Db by (rewrite brem_den in Eb; apply N.eqb_eq in Eb; now apply lenN_0). rewrite Db. rewrite (gupd_nil g). rewrite Erx. apply H0.
           ++ cbn [d_conn dset_conn d_body_rx]. rewrite Erx. apply (OK_write_body c _ (d_conn d) g gd ws bs e body e'); auto.
      * apply (OK_write_trailers c _ (d_conn d) g gd ws bs e body e'); auto.
      * rewrite Erx. apply H0.
      * apply (ok_open _ _ _ _ _ g gd ws bs e body e'); auto. intros _. right. exists user_error. reflexivity.
      * unfold end_body_it. cbn [d_conn dset_body_rx].
        assert (forall RR, OK c RR (fst (k_end_body (i_room i) (d_conn d))) false (gupd TOver g :: gd)) as Q1.
        { intros RR. apply (OK_end_body c RR (d_conn d) (gupd TOver g) gd ws bs e body e'); auto. }
        destruct (k_end_body (i_room i) (d_conn d)) as [k' [u|err]]; cbn [fst] in Q1; apply Q1.
    + cbn [fold_left]. destruct (k_can_write_body (d_conn d)) eqn:Ec; [|rewrite Erx; apply H0].
      destruct (H0 False) as [ws E F W|g gd ws bs e body e' -> E2 F Hh Hb' W G T X|g gd ws w E1 E2 F S W];
        [unfold k_can_write_body in Ec; destruct (k_writing (d_conn d)) eqn:Q; try discriminate; destruct (W _ eq_refl)| |unfold k_can_write_body in Ec; rewrite W in Ec; discriminate].
      assert (g_over g = true) as Ho by (destruct (X eq_refl); [assumption|contradiction]).
      unfold end_body_it.
      assert (forall RR, OK c RR (fst (k_end_body (i_room i) (d_conn d))) false (g :: gd)) as Q1.
      { intros RR. apply (OK_end_body c RR (d_conn d) g gd ws bs e body e'); auto. }
      destruct (k_end_body (i_room i) (d_conn d)) as [k' [u|err]]; cbn [fst] in Q1; cbn [d_conn dset_conn d_body_rx]; rewrite Erx; apply Q1.
Qed.

(* ---- Executions ---- *)
Definition OD (c : cfg) (d : disp) (gs : list gmsg) : Prop := OK c (d_pc d = PDead) (d_conn d) (d_body_rx d) gs.
Lemma fail_dead c d e : d_pc (d_fail c d e) = PDead.
Proof. unfold d_fail, d_complete. destruct (recv_error _ _ _). rewrite d_drop_eq. reflexivity. Qed.
Definition app_moves (c : cfg) (ms : list move) : Prop := Forall (fun m => match m with Step i => good_app c i | Env _ => True end) ms.
Lemma OD_move c m d gs : c_server c = false -> (match m with Step i => good_app c i | Env _ => True end) -> OD c d gs -> OD c (dmove c m d) (fold_left give (tells c m d) gs).
Proof.
  intros Hs Hg H. unfold OD in *.
  assert (d_pc d = PDead \/ d_pc d <> PDead) as [Hd|Hd] by (destruct (d_pc d); auto; right; discriminate).
  { destruct (dead_stays c m d Hd) as (A & B' & C & ->). rewrite A, B', C, <- Hd. rewrite Hd in H. rewrite Hd. exact H. }
  assert (tells c m d = [] -> oqd d (dmove c m d) -> OK c (d_pc (dmove c m d) = PDead) (d_conn (dmove c m d)) (d_body_rx (dmove c m d)) (fold_left give (tells c m d) gs)) as Quiet.
  { intros -> (Q1 & Q2). rewrite Q2. eapply OK_oq; [exact H|exact Q1|]. intros; contradiction. }
  destruct m as [i|e]; [|apply Quiet; [reflexivity|apply oqd_move; [exact Hs|discriminate]]].
  assert (forall n, d_pc d = PWrite n \/ d_pc d = PWrite2 n -> OK c (d_pc (dmove c (Step i) d) = PDead) (d_conn (dmove c (Step i) d)) (d_body_rx (dmove c (Step i) d)) (fold_left give (tells c (Step i) d) gs)) as Wr.
  { intros n Hp. assert (tells c (Step i) d = offers c i d) as -> by (cbn; destruct Hp as [-> | ->]; reflexivity).
    pose proof (OK_write_it c _ i d gs Hs Hg Hd H) as W. cbn [dmove]. unfold dstep.
    destruct Hp as [-> | ->]; destruct (poll_write_it c i d) as [d' [|[|[u|e]]]];
      try (eapply OK_oq; [exact W|apply oq_refl|intros (e & He); discriminate]);
      (destruct (oqd_fail c d' e) as (Q1 & Q2); rewrite Q2; eapply OK_oq; [exact W|exact Q1|intros _; apply fail_dead]). }
  destruct (d_pc d) eqn:Ep; try (apply Quiet; [cbn; rewrite Ep; reflexivity|apply oqd_move; [exact Hs|intros; rewrite Ep; split; discriminate]]); apply (Wr n); auto.
Qed.
Lemma OD_run c ms : c_server c = false -> forall d gs, app_moves c ms -> OD c d gs -> OD c (run c ms d) (fold_left give (told_in c ms d) gs).
Proof.
  intros Hs. induction ms as [|m ms IH]; intros d gs G H; [exact H|]. inversion G; subst. cbn [told_in run]. rewrite fold_left_app. apply (IH (dmove c m d)); [assumption|]. now apply OD_move.
Qed.
