(* Lemmas: how a client connection becomes idle, and what it does then. *)
From Verif Require Import Base M_Src M_Decode M_HeaderMap M_Headers M_Encode M_Role M_RoleEncode M_Buf M_WriteBuf M_Read M_Conn M_Dispatch S_Conn L_Conn L_Moves L_ConnS L_ConnC L_BodyTx S_Rest L_Rest S_Idle.

(* ---- No request waits for its response ---- *)
(* The writer is at its start, or a response is being read or has been read *)
Definition loose (k : conn) : Prop := k_writing k = WInit \/ (k_reading k <> RInit /\ k_reading k <> RClosed).
Definition lo (k k' : conn) : Prop := loose k' -> loose k.
Lemma lo_refl k : lo k k. Proof. intros H; exact H. Qed.
Lemma lo_trans k k' k'' : lo k k' -> lo k' k'' -> lo k k''. Proof. unfold lo. auto. Qed.
Lemma lo_same k k' : k_reading k' = k_reading k -> k_writing k' = k_writing k -> lo k k'.
Proof. intros A B'. unfold lo, loose. now rewrite A, B'. Qed.
Lemma lo_shut k k' : k_writing k' = WClosed -> k_reading k' = RClosed -> lo k k'.
Proof. intros A B'. unfold lo, loose. rewrite A, B'. intros [F|(_ & F)]; congruence. Qed.
Lemma lo_close_read k : lo k (close_read k).
Proof. unfold lo, loose. cbn. intros [F|(_ & F)]; [now left|congruence]. Qed.
Lemma lo_st_try c k : lo k (st_try_keep_alive c k).
Proof.
  unfold st_try_keep_alive. destruct (k_reading k) eqn:Er; try apply lo_refl; destruct (k_writing k) eqn:Ew; try apply lo_refl; try (apply lo_shut; reflexivity).
  intros _. right. rewrite Er. split; discriminate.
Qed.
Lemma lo_read_io k k' r : read_io k = (k', r) -> lo k k'.
Proof. intros E. apply read_io_rd in E. destruct E as (A & B' & _). apply lo_same; auto. Qed.
Lemma lo_notify blk k : lo k (maybe_notify blk k).
Proof.
  unfold maybe_notify. destruct (k_reading k) eqn:Er; try apply lo_refl. destruct (k_writing k) eqn:Ew; try apply lo_refl; destruct blk; try apply lo_refl; (destruct (r_buf (k_rd k)); [|apply lo_same; reflexivity]).
  all: destruct (read_io k) as [k1 [|[n|e]]] eqn:Ei; pose proof (lo_read_io _ _ _ Ei) as L; try exact L; try (apply lo_shut; reflexivity).
  all: destruct (n =? 0); [|exact L]; destruct (is_idle k1); [apply lo_shut; reflexivity|]; exact (lo_trans _ _ _ L (lo_close_read k1)).
Qed.
Lemma lo_try c blk k : lo k (try_keep_alive c blk k).
Proof. unfold try_keep_alive. eapply lo_trans; [apply lo_st_try|apply lo_notify]. Qed.
Lemma lo_flush c blk wevs k : lo k (fst (k_poll_flush c blk wevs k)).
Proof.
  unfold k_poll_flush. destruct (wb_flush _ _ _ _) as [[[w ev] sent] [|[u|e]]]; cbn [fst]; try (apply lo_same; reflexivity).
  eapply lo_trans; [|apply lo_try]. apply lo_same; reflexivity.
Qed.
Lemma loose_body k d : k_reading k = RBody d \/ k_reading k = RContinue d -> loose k.
Proof. intros [H|H]; right; rewrite H; split; discriminate. Qed.
Lemma can_loose k : can_read_body k = true -> loose k.
Proof. unfold can_read_body. destruct (k_reading k) eqn:E; try discriminate; intros _; apply (loose_body k d); auto. Qed.
Lemma lo_keep_alive c k : lo k (fst (k_poll_read_keep_alive c k)).
Proof.
  unfold k_poll_read_keep_alive, mid_message_detect_eof, require_empty_read, force_io_read. destruct (is_read_closed k); [apply lo_refl|].
  destruct (read_io k) as [k1 r] eqn:Ei. pose proof (lo_read_io _ _ _ Ei) as L.
  destruct (is_mid_message k); [destruct (_ || _); [apply lo_refl|]|destruct (r_buf (k_rd k)); [|apply lo_refl]].
  all: destruct r as [|[n|e]]; cbn [fst]; try exact L; try (apply lo_shut; reflexivity).
  all: destruct (n =? 0); cbn [fst]; [|exact L]; exact (lo_trans _ _ _ L (lo_close_read k1)).
Qed.
Lemma lo_effect k k' : body_effect k k' -> lo k k'.
Proof.
  intros [->|(e & l & w' & A & R & _ & W & _ & F)]; [apply lo_refl|]. unfold lo, loose. rewrite R. intros [Q|Q]; [|now right].
  destruct F as [(bs & _ & e' & F)|[(_ & [F|F])|(_ & F)]]; congruence.
Qed.
Lemma head_client c now blk k : c_server c = false -> k_writing k <> WInit -> match snd (k_poll_read_head c now blk k) with Ready (Some (Ok _)) => True | _ => lo k (fst (k_poll_read_head c now blk k)) end.
Proof.
  intros Hs Hw. unfold k_poll_read_head. set (k0 := start_timer c now k). assert (k_writing k0 = k_writing k /\ k_reading k0 = k_reading k) as (W0 & R0) by (subst k0; unfold start_timer; destruct (k_running k); [auto|]; destruct (c_timeout c); auto). clearbody k0.
  destruct (io_parse _ _ (k_rd k0)) as [rd [|[m|e]]]; [|exact I|].
  - cbn [k_running k_timer set_rd]. destruct (k_running k0), (k_timer k0) as [t|]; try (apply lo_same; cbn; congruence). destruct (t <=? now); apply lo_same; cbn; congruence.
  - destruct (parse_failure e) as [e' n]. unfold on_read_head_error. set (k1 := set_rd (close_read _) _). assert (lo k k1 /\ k_writing k1 <> WInit) as (L1 & W1).
    { split; [|cbn; congruence]. unfold lo, loose. cbn. intros [F|(_ & F)]; congruence. }
    clearbody k1. destruct (_ || _).
    + unfold on_parse_error. destruct (k_writing k1) eqn:E; [congruence|..]; exact L1.
    + cbn [fst snd]. intros [F|F]; [discriminate F|]. apply L1. right. exact F.
Qed.
(* While a request waits for its response the connection is not loose *)
Definition CB (d : disp) : Prop := loose (d_conn d) -> d_callback d = None.
Lemma CB_conn d k : lo (d_conn d) k -> CB d -> CB (dset_conn d k).
Proof. unfold CB, lo. cbn. auto. Qed.
Lemma CB_close d : CB (d_close d).
Proof. unfold CB, loose. cbn. intros [F|(_ & F)]; congruence. Qed.
Lemma CB_none d : d_callback d = None -> CB d. Proof. intros H _; exact H. Qed.
Lemma CB_read c i d : c_server c = false -> CB d -> match poll_read_it c i d with (_, Ret (Ready (Err _))) => True | (d', _) => CB d' end.
Proof.
  intros Hs H. unfold poll_read_it. destruct (d_closing d); [exact H|]. destruct (can_read_head c (d_conn d)) eqn:Eh.
  - unfold d_poll_read_head, d_poll_ready. rewrite Hs. destruct (d_callback d) as [id|] eqn:Ec; [|apply CB_close]. destruct (i_canceled i); [apply CB_close|].
    assert (k_writing (d_conn d) <> WInit) as Hw by (unfold can_read_head in Eh; rewrite Hs in Eh; destruct (k_reading (d_conn d)), (k_writing (d_conn d)); discriminate || congruence).
    pose proof (head_client c (i_now i) (i_blk i) (d_conn d) Hs Hw) as Q. destruct (k_poll_read_head c _ _ _) as [k [|[[m|e]|]]]; cbn [fst snd] in Q.
    + apply CB_conn; auto.
    + match goal with |- context [recv_ok c ?x m] => generalize x end. intros d1. unfold recv_ok. rewrite Hs. destruct (d_callback d1); [|exact I]. apply CB_none. reflexivity.
    + unfold recv_error. rewrite Hs. cbn [d_callback dset_conn]. rewrite Ec. apply CB_close.
    + cbn [d_conn dset_conn]. destruct (is_write_closed k); [apply CB_close|apply CB_conn; auto].
  - destruct (d_body_tx d).
    + destruct (can_read_body (d_conn d)) eqn:Eb; [|exact H]. pose proof (H (can_loose _ Eb)) as N. destruct (i_body i); [|exact H|apply CB_none; exact N].
      destruct (k_poll_read_body c _ _) as [k [|[[x|e]|]]]; try (apply CB_none; exact N). destruct (i_send i); [apply CB_none; exact N|]. cbn [d_conn dset_body_tx dset_conn]. destruct (can_read_body k); apply CB_none; exact N.
    + pose proof (lo_keep_alive c (d_conn d)) as Q. destruct (k_poll_read_keep_alive c (d_conn d)) as [k [|[u|e]]]; cbn [fst] in Q; try exact I; apply CB_conn; auto.
Qed.
Lemma CB_flush c i d : CB d -> CB (fst (d_flush c i d)).
Proof. intros H. unfold d_flush. pose proof (lo_flush c (i_blk i) (i_wevs i) (d_conn d)) as Q. destruct (k_poll_flush c _ _ _) as [k r]. apply CB_conn; auto. Qed.
Lemma write_head_started c auto k h body : k_writing (write_head c auto k h body) <> WInit.
Proof.
  unfold write_head. destruct (encode_head c auto k h body) as [k' [e|]] eqn:E.
  - cbn [log set_writing k_writing]. unfold after_head. destruct (negb (enc_is_eof e)); [discriminate|]. destruct (is_last e); discriminate.
  - unfold encode_head in E. destruct (enforce_version _ h) as [k1 h1]. destruct (t_encode c k1 h1 body) as [[out m] [e|e]]; [discriminate E|]. injection E as <-. discriminate.
Qed.
Lemma CB_end c i d : CB d -> CB (fst (end_body_it c i d)).
Proof. intros H. unfold end_body_it. pose proof (lo_effect _ _ (end_body_effect (i_room i) (d_conn d))) as Q. destruct (k_end_body _ _) as [k [u|e]]; cbn [fst] in *; apply CB_conn; auto. Qed.
Lemma CB_rx d b : CB d -> CB (dset_body_rx d b). Proof. intros H; exact H. Qed.
Lemma CB_write c i d : c_server c = false -> CInv d -> CB d -> CB (fst (poll_write_it c i d)).
Proof.
  intros Hs HC H. unfold poll_write_it. destruct (d_closing d); [exact H|]. destruct (negb (d_body_rx d) && can_write_head c (d_conn d) && should_poll c d) eqn:Eg.
  { apply andb_prop in Eg. destruct Eg as (Eg & _). apply andb_prop in Eg. destruct Eg as (_ & Eg).
    unfold d_poll_msg. rewrite Hs. destruct (ch_poll_recv (i_race i) (d_chan d)) as [ch [|[id|]]]; [exact H| |apply CB_close]. destruct (i_canceled i); [apply CB_close|].
    destruct (i_req i) as [h body]. cbn [fst]. intros L. exfalso. cbn in L.
    match type of L with loose (write_head ?c ?a ?k ?h ?b) => pose proof (write_head_started c a k h b) as W; pose proof (ws_write_head c a k h b) as (_ & R & _) end.
    destruct L as [L|(L1 & L2)]; [contradiction|]. rewrite R in L1, L2. cbn in L1, L2. unfold can_write_head in Eg. rewrite Hs in Eg. cbn [negb andb] in Eg.
    destruct HC as (x & _ & (_ & J & _)). unfold is_read_closed in Eg. destruct (k_reading (d_conn d)); try congruence; destruct (k_writing (d_conn d)); try discriminate Eg; destruct J; discriminate. }
  destruct (negb (can_buffer_body c (d_conn d))).
  { pose proof (CB_flush c i d H) as Q. destruct (d_flush c i d) as [d' [|[u|e]]]; exact Q. }
  destruct (d_body_rx d).
  - destruct (negb (k_can_write_body (d_conn d))); [exact H|]. destruct (i_frame i) as [|[[[b|t|]|u]|]]; try exact H.
    + destruct (i_eos i); destruct (brem b =? 0); cbn [fst]; try exact H; [apply CB_end; exact H|apply CB_conn; [apply lo_effect, write_body_and_end_effect|exact H]|apply CB_conn; [apply lo_effect, write_body_effect|exact H]].
    + cbn [fst]. apply CB_conn; [apply lo_effect, write_trailers_effect|exact H].
    + apply CB_end; exact H.
  - destruct (k_can_write_body _); [apply CB_end; exact H|exact H].
Qed.

(* ---- Becoming idle ---- *)
Definition at_start (k : conn) : Prop := k_reading k = RInit /\ k_writing k = WInit.
Lemma notify_start blk k : at_start (maybe_notify blk k) -> at_start k.
Proof.
  unfold at_start, maybe_notify. destruct (k_reading k) eqn:Er; try (intros (F & _); congruence). destruct (k_writing k) eqn:Ew; try (intros (_ & F); congruence); auto.
  all: destruct blk; [intros (_ & F); congruence|]; (destruct (r_buf (k_rd k)); [|intros (_ & F); cbn in F; congruence]).
  all: destruct (read_io k) as [k1 [|[n|e]]] eqn:Ei; apply read_io_rd in Ei; destruct Ei as (I1 & I2 & _); cbn; try (intros (_ & F); congruence).
  all: destruct (n =? 0); [destruct (is_idle k1)|]; cbn; intros (F & F'); congruence.
Qed.
Lemma flush_start c blk wevs k : c_server c = false -> at_start (fst (k_poll_flush c blk wevs k)) ->
  k_notify (fst (k_poll_flush c blk wevs k)) = true \/ at_start k.
Proof.
  intros Hs. unfold k_poll_flush. destruct (wb_flush _ _ _ _) as [[[w ev] sent] [|[u|e]]]; cbn [fst]; auto. set (k1 := log (set_wb k w) _). assert (at_start k1 -> at_start k) as B1 by (intros H; exact H). clearbody k1.
  unfold try_keep_alive. intros H. pose proof (notify_start _ _ H) as H'. unfold st_try_keep_alive in *. destruct (k_reading k1) eqn:Er; try (destruct H' as (F & _); cbn in F; congruence); destruct (k_writing k1) eqn:Ew; auto; try (destruct H' as (F & F'); cbn in F, F'; congruence).
  destruct (k_ka k1); try (destruct H' as (F & F'); cbn in F, F'; congruence). left. apply notify_keeps. unfold idle. rewrite Hs. destruct (c_timeout c); reflexivity.
Qed.
Lemma flush_pending_start c blk wevs k : snd (k_poll_flush c blk wevs k) = Pending -> at_start (fst (k_poll_flush c blk wevs k)) -> at_start k.
Proof. unfold k_poll_flush. destruct (wb_flush _ _ _ _) as [[[w ev] sent] [|[u|e]]]; cbn [fst snd]; try discriminate. auto. Qed.
Lemma flush_notify c blk wevs k : k_notify k = true -> k_notify (fst (k_poll_flush c blk wevs k)) = true.
Proof.
  intros H. unfold k_poll_flush. destruct (wb_flush _ _ _ _) as [[[w ev] sent] [|[u|e]]]; cbn [fst]; auto. set (k1 := log (set_wb k w) _). assert (k_notify k1 = true) as H1 by exact H. clearbody k1. apply notify_keeps. unfold st_try_keep_alive.
  destruct (k_reading k1), (k_writing k1); try exact H1. destruct (k_ka k1); try exact H1. unfold idle. destruct (c_server c), (c_timeout c); try reflexivity; exact H1.
Qed.

(* ---- The channel ---- *)
Lemma may_send_make ch s : may_send ch -> may_send (smake ch s).
Proof.
  unfold may_send, smake, ch_give, ch_push. intros H. destruct ch as [q w o g t r n]. cbn in *. destruct s; cbn.
  - destruct t, g; cbn; auto. destruct (w || negb o); cbn; auto; discriminate.
  - destruct t, g; cbn; auto. destruct r; cbn; try discriminate. intros _ _ _ F. destruct q; discriminate F.
  - destruct g; cbn; auto; discriminate.
Qed.
Lemma may_send_ask ch : may_send (ch_ask ch). Proof. intros _ _ _ _. reflexivity. Qed.
(* A write that has stopped with the connection free has asked for a request *)
Lemma write_asks c i d d' : c_server c = false -> CB d -> wflat (k_wb (d_conn d)) = true -> flatq (k_wb (d_conn d)) ->
  (poll_write_it c i d = (d', Ret Pending) \/ poll_write_it c i d = (d', Ret (Ready (Ok tt)))) -> free d' -> may_send (d_chan d').
Proof.
  intros Hs HB Hf Hq E ((F1 & F2) & F3). unfold poll_write_it in E. destruct (d_closing d) eqn:Hc; [destruct E as [E|E]; injection E as <-; congruence|].
  assert (at_start (d_conn d) -> d_body_rx d = false -> negb (d_body_rx d) && can_write_head c (d_conn d) && should_poll c d = true) as Z.
  { intros (R & W) X. rewrite X. unfold can_write_head, is_read_closed, should_poll, can_headers_buf. rewrite Hs, R, W, (Hq Hf), (HB (or_introl W)). reflexivity. }
  destruct (negb (d_body_rx d) && can_write_head c (d_conn d) && should_poll c d) eqn:Eg.
  { unfold d_poll_msg in E. rewrite Hs in E. destruct (ch_poll_recv (i_race i) (d_chan d)) as [ch [|[id|]]] eqn:Er.
    - destruct E as [E|E]; [|discriminate E]. injection E as <-. cbn [d_chan dset_client]. unfold ch_poll_recv in Er. destruct (ch_queue (d_chan d)); [|discriminate Er]. destruct (ch_tx (d_chan d) && ch_rx (d_chan d)); [|discriminate Er]. injection Er as <-. apply may_send_ask.
    - destruct (i_canceled i); [destruct E as [E|E]; [discriminate E|injection E as <-; discriminate F1]|]. destruct (i_req i) as [h body]. destruct E; discriminate.
    - destruct E as [E|E]; [discriminate E|]. injection E as <-. discriminate F1. }
  exfalso. assert (at_start (d_conn d) /\ d_body_rx d = false -> False) as Z' by (intros (Y & X); specialize (Z Y X); discriminate). clear Z.
  destruct (negb (can_buffer_body c (d_conn d))).
  { unfold d_flush in E. pose proof (flush_pending_start c (i_blk i) (i_wevs i) (d_conn d)) as Q. destruct (k_poll_flush c _ _ _) as [k [|[u|e]]]; cbn [fst snd] in Q; destruct E as [E|E]; try discriminate E. injection E as <-. apply Z'. split; [apply Q; [reflexivity|exact F2]|exact F3]. }
  assert (forall d1, (end_body_it c i d1 = (d', Ret Pending) \/ end_body_it c i d1 = (d', Ret (Ready (Ok tt)))) -> False) as En by (intros d1; unfold end_body_it; destruct (k_end_body _ _) as [k [u|e]]; intros [X|X]; discriminate X).
  destruct (d_body_rx d) eqn:Erx.
  - destruct (negb (k_can_write_body (d_conn d))) eqn:Ew; [destruct E; discriminate|]. destruct (i_frame i) as [|[[[b|t|]|u]|]]; try (destruct E; discriminate).
    + destruct E as [E|E]; [|discriminate E]. injection E as <-. destruct F2 as (_ & F2). unfold k_can_write_body in Ew. rewrite F2 in Ew. discriminate Ew.
    + destruct (i_eos i); destruct (brem b =? 0); try (destruct E; discriminate). exact (En _ E).
    + exact (En _ E).
  - destruct (k_can_write_body (d_conn d)) eqn:Ew; [exact (En _ E)|]. destruct E as [E|E]; [|discriminate E]. injection E as <-. apply Z'. auto.
Qed.

(* ---- A step, and what the sender may do ---- *)
Definition WA (d : disp) : Prop :=
  match d_pc d with
  | PFlush _ _ | PFlush2 | PFinish => free d -> may_send (d_chan d) \/ k_notify (d_conn d) = true
  | _ => True
  end.
Lemma WA_any d : (free d -> may_send (d_chan d) \/ k_notify (d_conn d) = true) -> WA d.
Proof. unfold WA. destruct (d_pc d); auto. Qed.
Lemma d_flush_free c i d : c_server c = false -> free (fst (d_flush c i d)) -> k_notify (d_conn (fst (d_flush c i d))) = true \/ free d.
Proof.
  intros Hs ((F1 & F2) & F3). unfold d_flush in *. pose proof (flush_start c (i_blk i) (i_wevs i) (d_conn d) Hs) as Q. destruct (k_poll_flush c _ _ _) as [k r]. cbn [fst d_conn dset_conn] in *.
  destruct (Q F2) as [N|N]; [now left|right]. split; [split; [exact F1|exact N]|exact F3].
Qed.
Lemma d_flush_chan c i d : d_chan (fst (d_flush c i d)) = d_chan d.
Proof. unfold d_flush. destruct (k_poll_flush c _ _ _) as [k r]. reflexivity. Qed.
Lemma d_flush_notify c i d : k_notify (d_conn d) = true -> k_notify (d_conn (fst (d_flush c i d))) = true.
Proof. rewrite d_flush_conn. apply flush_notify. Qed.
Lemma d_flush_asked c i d : c_server c = false -> (free d -> may_send (d_chan d) \/ k_notify (d_conn d) = true) ->
  free (fst (d_flush c i d)) -> may_send (d_chan (fst (d_flush c i d))) \/ k_notify (d_conn (fst (d_flush c i d))) = true.
Proof.
  intros Hs H F. destruct (d_flush_free c i d Hs F) as [N|N]; [now right|]. rewrite d_flush_chan. destruct (H N) as [A|A]; [now left|right]. apply d_flush_notify, A.
Qed.
Lemma WA_step c i d : c_server c = false -> CB d -> wflat (k_wb (d_conn d)) = true -> flatq (k_wb (d_conn d)) -> WA d ->
  d_pc (dstep c i d) = PDead \/ WA (dstep c i d) /\
  (d_pc (dstep c i d) = PFinish -> d_pc d <> PFlush2 -> free (dstep c i d) -> may_send (d_chan (dstep c i d))).
Proof.
  intros Hs HB Hf Hq H. unfold WA in H. unfold dstep. destruct (d_pc d) as [|n|n|n wr|n| | |] eqn:Ep.
  - right. split; [exact I|discriminate].
  - pose proof (pc_read c i d) as P. destruct (poll_read_it c i d) as [d' [|[|[u|e]]]]; cbn [fst] in P; try (left; apply dead_fail); right; (split; [|try discriminate; rewrite P, Ep; discriminate]); [unfold WA; rewrite P, Ep; exact I|exact I..].
  - pose proof (pc_write c i d) as P. pose proof (write_asks c i d) as Q. destruct (poll_write_it c i d) as [d' [|[|[[]|e]]]]; cbn [fst] in P; try (left; apply dead_fail); right.
    + split; [unfold WA; rewrite P, Ep; exact I|rewrite P, Ep; discriminate].
    + split; [|discriminate]. apply WA_any. intros F. left. apply (Q d' Hs HB Hf Hq (or_introl eq_refl) F).
    + split; [|discriminate]. apply WA_any. intros F. left. apply (Q d' Hs HB Hf Hq (or_intror eq_refl) F).
  - pose proof (d_flush_asked c i d Hs H) as Q. destruct (d_flush c i d) as [d' [|[u|e]]]; cbn [fst] in Q; try (left; apply dead_fail); right.
    all: cbn [wants_read_again d_conn dset_conn dset_pc d_pc]; destruct (k_notify (d_conn d')) eqn:En; [split; [unfold WA; cbn; destruct n as [|[|n]]; exact I|cbn; destruct n as [|[|n]]; discriminate]|].
    all: assert (forall p, free (dset_pc (dset_conn d' (set_notify (d_conn d') false)) p) -> may_send (d_chan d')) as Z by (intros p F; destruct (Q F) as [A|A]; [exact A|congruence]).
    all: split; [apply WA_any; intros F; left; exact (Z _ F)|intros _ _ F; exact (Z _ F)].
  - pose proof (pc_write c i d) as P. pose proof (write_asks c i d) as Q. destruct (poll_write_it c i d) as [d' [|[|[[]|e]]]]; cbn [fst] in P; try (left; apply dead_fail); right.
    + split; [unfold WA; rewrite P, Ep; exact I|rewrite P, Ep; discriminate].
    + pose proof (Q d' Hs HB Hf Hq (or_introl eq_refl)) as Z. split; [apply WA_any; intros F; left; exact (Z F)|intros _ _ F; exact (Z F)].
    + split; [unfold WA; cbn; destruct n as [|[|n]]; exact I|cbn; destruct n as [|[|n]]; discriminate].
  - pose proof (d_flush_asked c i d Hs H) as Q. destruct (d_flush c i d) as [d' [|[u|e]]]; cbn [fst] in Q; try (left; apply dead_fail); right; (split; [apply WA_any; exact Q|congruence]).
  - destruct (d_is_done c d); [|right; split; [exact I|discriminate]]. cbn [pending_upgrade]. destruct (k_upgrade (d_conn d)).
    + left. unfold take_error. destruct (k_error _); [apply dead_fail|apply dead_complete].
    + destruct (wb_flush _ _ _ _) as [[[w ev] sent] [|[u|e]]]; [right; split; [exact I|discriminate]| |left; apply dead_fail].
      destruct (i_shutdown i) as [|[u'|e]]; [right; split; [exact I|discriminate]| |left; apply dead_fail]. left. unfold take_error. destruct (k_error _); [apply dead_fail|apply dead_complete].
  - now left.
Qed.
Lemma CB_step c i d : c_server c = false -> CInv d -> CB d -> d_pc (dstep c i d) = PDead \/ CB (dstep c i d).
Proof.
  intros Hs HC H. unfold dstep. destruct (d_pc d) as [|n|n|n wr|n| | |] eqn:Ep; [right; exact H|..].
  - pose proof (CB_read c i d Hs H) as Q. destruct (poll_read_it c i d) as [d' [|[|[u|e]]]]; try (left; apply dead_fail); right; exact Q.
  - pose proof (CB_write c i d Hs HC H) as Q. destruct (poll_write_it c i d) as [d' [|[|[u|e]]]]; cbn [fst] in Q; try (left; apply dead_fail); right; exact Q.
  - pose proof (CB_flush c i d H) as Q. destruct (d_flush c i d) as [d' [|[u|e]]]; cbn [fst] in Q; try (left; apply dead_fail); right; exact Q.
  - pose proof (CB_write c i d Hs HC H) as Q. destruct (poll_write_it c i d) as [d' [|[|[u|e]]]]; cbn [fst] in Q; try (left; apply dead_fail); right; exact Q.
  - pose proof (CB_flush c i d H) as Q. destruct (d_flush c i d) as [d' [|[u|e]]]; cbn [fst] in Q; try (left; apply dead_fail); right; exact Q.
  - destruct (d_is_done c d); [|right; exact H]. cbn [pending_upgrade]. destruct (k_upgrade (d_conn d)).
    + left. unfold take_error. destruct (k_error _); [apply dead_fail|apply dead_complete].
    + destruct (wb_flush _ _ _ _) as [[[w ev] sent] [|[u|e]]]; [right; exact H| |left; apply dead_fail].
      destruct (i_shutdown i) as [|[u'|e]]; [right; exact H| |left; apply dead_fail]. left. unfold take_error. destruct (k_error _); [apply dead_fail|apply dead_complete].
  - now left.
Qed.

(* ---- Bytes that nobody has looked at ---- *)
Lemma notify_heeded_c blk k : heeded k -> (blk = true -> seen (maybe_notify blk k)) -> heeded (maybe_notify blk k).
Proof.
  intros H Hb U. unfold maybe_notify in *. destruct (k_reading k) eqn:Er; try (destruct U as (U & _); congruence).
  destruct (k_writing k) eqn:Ew; [|exact (H U)|..].
  all: destruct blk; [exact (H U)|].
  all: destruct (r_buf (k_rd k)) as [|x b] eqn:Eb; [|reflexivity].
  all: destruct (read_io k) as [k1 [|[n|e]]] eqn:Ei; apply read_io_rd in Ei; destruct Ei as (I1 & I2 & I3 & I4 & _ & _ & I5).
  all: try (destruct U as (_ & U & _); rewrite (I5 eq_refl) in U; congruence).
  all: try reflexivity.
  all: destruct (n =? 0); [|reflexivity].
  all: destruct (is_idle k1); destruct U as (U & _); discriminate U.
Qed.
Lemma st_try_heeded c k : c_server c = false -> heeded k -> heeded (st_try_keep_alive c k).
Proof.
  intros Hs H. unfold st_try_keep_alive. destruct (k_reading k) eqn:Er; try exact H; destruct (k_writing k); try exact H; try (apply closed_heeded; discriminate).
  destruct (k_ka k); try (apply closed_heeded; discriminate). intros _. unfold idle. rewrite Hs. destruct (c_timeout c); reflexivity.
Qed.
Lemma flush_heeded_c c i d : c_server c = false -> (i_blk i = true -> seen (d_conn (fst (d_flush c i d)))) -> heeded (d_conn d) -> heeded (d_conn (fst (d_flush c i d))).
Proof.
  intros Hs. rewrite d_flush_conn. unfold k_poll_flush. destruct (wb_flush _ _ _ _) as [[[w ev] sent] r] eqn:Ef. apply wq_flush in Ef. intros Hb H.
  set (k1 := log (set_wb (d_conn d) w) _) in *. assert (ws (d_conn d) k1) as W by (unfold ws, k1; cbn; auto).
  destruct r as [|[u|e]]; cbn [fst] in *; try exact (ws_heeded _ _ W H). apply notify_heeded_c; [|exact Hb]. apply st_try_heeded; [exact Hs|]. exact (ws_heeded _ _ W H).
Qed.
Definition HC (d : disp) : Prop := d_closing d = false -> heeded (d_conn d).
Lemma keep_alive_client c k : c_server c = false -> can_read_head c k = false -> match snd (k_poll_read_keep_alive c k) with Ready (Err _) => True | _ => heeded (fst (k_poll_read_keep_alive c k)) end.
Proof.
  intros Hs Eh. unfold can_read_head in Eh. rewrite Hs in Eh. unfold k_poll_read_keep_alive, is_mid_message. destruct (is_read_closed k) eqn:Ec; [cbn; apply closed_heeded; unfold is_read_closed in Ec; destruct (k_reading k); congruence|].
  destruct (k_reading k) eqn:Er.
  { destruct (k_writing k); try discriminate Eh. unfold require_empty_read, force_io_read. destruct (r_buf (k_rd k)) eqn:Eb; [|exact I]. destruct (read_io k) as [k1 r] eqn:Ei. apply read_io_rd in Ei. destruct Ei as (J1 & _ & _ & _ & _ & _ & J2).
    destruct r as [|[n|e]]; cbn [fst snd]; [|destruct (n =? 0); [|exact I]; cbn [fst snd]|exact I].
    - intros (_ & U & _). rewrite (J2 eq_refl) in U. congruence.
    - destruct (if should_error_on_eof c k1 then _ else _); [|exact I]. apply closed_heeded. discriminate. }
  all: unfold mid_message_detect_eof, force_io_read; destruct (read_io k) as [k1 r] eqn:Ei; apply read_io_rd in Ei; destruct Ei as (J1 & _).
  all: destruct (_ || _); [apply closed_heeded; cbn; congruence|]; destruct r as [|[m|e]]; cbn [fst snd]; [apply closed_heeded; congruence|destruct (m =? 0); cbn [fst snd]; [exact I|apply closed_heeded; congruence]|exact I].
Qed.
Lemma read_heeded_c c i d : c_server c = false -> match poll_read_it c i d with (_, Ret (Ready (Err _))) => True | (_, Cont) => True | (d', _) => HC d' end.
Proof.
  intros Hs. unfold poll_read_it. destruct (d_closing d) eqn:Hc; [intros F; congruence|]. destruct (can_read_head c (d_conn d)) eqn:Eh.
  - unfold d_poll_read_head, d_poll_ready. rewrite Hs. destruct (d_callback d) as [id|] eqn:Ec; [|exact I]. destruct (i_canceled i); [exact I|].
    destruct (k_poll_read_head c _ _ _) as [k [|[[m|e]|]]] eqn:Ek.
    + apply head_pending in Ek. intros _. destruct Ek as [F|F]; [apply closed_heeded; cbn; congruence|]. intros (_ & U1 & U2). cbn in *. destruct F; contradiction.
    + match goal with |- context [recv_ok c ?x m] => generalize x end. intros d1. unfold recv_ok. rewrite Hs. destruct (d_callback d1); exact I.
    + unfold recv_error. rewrite Hs. cbn [d_callback dset_conn]. rewrite Ec. exact I.
    + exact I.
  - destruct (d_body_tx d).
    + destruct (can_read_body (d_conn d)) eqn:Eb; [|exact I]. destruct (i_body i); [|intros _; apply closed_heeded; unfold can_read_body in Eb; intros F; rewrite F in Eb; discriminate Eb|exact I].
      pose proof (read_body_pending c (i_blk i) (log (d_conn d) [LWant])) as Q. destruct (k_poll_read_body c _ _) as [k [|[[x|e]|]]]; [|destruct (i_send i); exact I|exact I..].
      intros _. apply closed_heeded. cbn in *. apply Q. reflexivity.
    + pose proof (keep_alive_client c (d_conn d) Hs Eh) as Q. destruct (k_poll_read_keep_alive c (d_conn d)) as [k [|[u|e]]]; cbn [fst snd] in Q; try exact I; intros _; exact Q.
Qed.
Lemma closing_flush c i d : d_closing (fst (d_flush c i d)) = d_closing d.
Proof. apply in_flight_flush. Qed.
Lemma write_heeded_c c i d : c_server c = false -> (i_blk i = true -> seen (d_conn (fst (poll_write_it c i d)))) -> HC d -> HC (fst (poll_write_it c i d)).
Proof.
  intros Hs Hb H F. destruct (write_any c i d) as [W|[(_ & W & _)|(W0 & _ & r & W)]]; [|congruence|].
  - apply (ws_heeded _ _ W). apply H. destruct (d_closing d) eqn:E; [|reflexivity]. unfold poll_write_it in F. rewrite E in F. cbn [fst] in F. congruence.
  - rewrite W in *. cbn [fst] in *. apply flush_heeded_c; auto.
Qed.
Definition NC (d : disp) : Prop := match d_pc d with PWrite _ | PFlush _ _ | PWrite2 _ | PFlush2 | PFinish => HC d | _ => True end.
Lemma NC_any d : HC d -> NC d. Proof. intros H. unfold NC. destruct (d_pc d); auto. Qed.
Lemma NC_step c i d : c_server c = false -> (i_blk i = true -> seen (d_conn (dstep c i d))) -> NC d ->
  d_pc (dstep c i d) = PDead \/ NC (dstep c i d) /\ (forall n w, d_pc d = PFlush n w -> d_pc (dstep c i d) = PFinish -> d_closing (dstep c i d) = false -> ~ unread (d_conn (dstep c i d))).
Proof.
  intros Hs Hb H. unfold NC in H. unfold dstep in *. destruct (d_pc d) as [|n|n|n wr|n| | |] eqn:Ep.
  - right. split; [exact I|discriminate].
  - pose proof (read_heeded_c c i d Hs) as Q. pose proof (pc_read c i d) as P. destruct (poll_read_it c i d) as [d' [|[|[u|e]]]]; cbn [fst] in *; try (left; apply dead_fail); right; (split; [|discriminate]); [unfold NC; now rewrite P, Ep|exact Q..].
  - pose proof (write_heeded_c c i d Hs) as Q. destruct (poll_write_it c i d) as [d' [|[|[u|e]]]]; cbn [fst] in *; try (left; apply dead_fail); right; (split; [|discriminate]); apply NC_any; apply Q; auto.
  - pose proof (flush_heeded_c c i d Hs) as Q. pose proof (closing_flush c i d) as C. destruct (d_flush c i d) as [d' [|[u|e]]]; cbn [fst] in *; try (left; apply dead_fail); right; cbn [wants_read_again d_conn dset_conn dset_pc d_pc] in *.
    all: destruct (k_notify (d_conn d')) eqn:En; [split; [unfold NC; cbn; destruct n as [|[|n]]; exact I|intros n' w' _; cbn; destruct n as [|[|n]]; discriminate]|].
    all: assert (d_closing d' = false -> ~ unread (d_conn d')) as Z by (intros F U; rewrite C in F; apply (Q Hb (H F)) in U; congruence).
    all: split; [apply NC_any; intros F U; exfalso; exact (Z F U)|intros n' w' _ _ F U; exact (Z F U)].
  - pose proof (write_heeded_c c i d Hs) as Q. destruct (poll_write_it c i d) as [d' [|[|[u|e]]]]; cbn [fst] in *; try (left; apply dead_fail); right; (split; [|discriminate]); apply NC_any; apply Q; auto.
  - pose proof (flush_heeded_c c i d Hs) as Q. pose proof (closing_flush c i d) as C. destruct (d_flush c i d) as [d' [|[u|e]]]; cbn [fst] in *; try (left; apply dead_fail); right; (split; [|discriminate]); apply NC_any; intros F; apply (Q Hb); apply H; rewrite <- C; exact F.
  - destruct (d_is_done c d); [|right; split; [exact I|discriminate]]. cbn [pending_upgrade]. destruct (k_upgrade (d_conn d)).
    + left. unfold take_error. destruct (k_error _); [apply dead_fail|apply dead_complete].
    + destruct (wb_flush _ _ _ _) as [[[w ev] sent] [|[u|e]]]; [right; split; [exact I|discriminate]| |left; apply dead_fail].
      destruct (i_shutdown i) as [|[u'|e]]; [right; split; [exact I|discriminate]| |left; apply dead_fail]. left. unfold take_error. destruct (k_error _); [apply dead_fail|apply dead_complete].
  - now left.
Qed.


(* ---- Nothing outside says Pending ---- *)
Lemma read_ready_c c i d : c_server c = false -> BT d -> nk (d_conn d) -> i_body i <> BPending ->
  match poll_read_it c i d with
  | (d', Cont) => nk (d_conn d')
  | (_, Ret (Ready (Err _))) => True
  | (d', Ret _) => nk (d_conn d') /\ (d_closing d' = false -> settled (d_conn d'))
  end.
Proof.
  intros Hs HB Hn Hi. unfold poll_read_it. destruct (d_closing d) eqn:Hc; [split; [exact Hn|congruence]|].
  destruct (can_read_head c (d_conn d)) eqn:Eh.
  - unfold d_poll_read_head, d_poll_ready. rewrite Hs. destruct (d_callback d) as [id|] eqn:Ec; [|exact Hn]. destruct (i_canceled i); [exact Hn|].
    destruct (head_nowait c (i_now i) (i_blk i) (d_conn d) Hn) as (Q1 & Q2).
    destruct (k_poll_read_head c _ _ _) as [k [|[[m|e]|]]]; cbn [fst snd] in *.
    + split; [exact Q1|]. intros _. specialize (Q2 eq_refl). cbn. split; [unfold can_read_body; now rewrite Q2|congruence].
    + set (d1 := if in_upgrade m then _ else _). assert (nk (d_conn d1)) as N1 by (subst d1; destruct (in_upgrade m); cbn; (destruct (in_decode m =? DL_ZERO); [exact Q1|]); cbn; destruct (d_body_tx d); exact Q1). clearbody d1.
      unfold recv_ok. rewrite Hs. destruct (d_callback d1); [exact N1|exact I].
    + unfold recv_error. rewrite Hs. cbn [d_callback dset_conn]. rewrite Ec. exact Q1.
    + cbn [d_conn dset_conn]. destruct (is_write_closed k); exact Q1.
  - destruct (d_body_tx d) eqn:Et.
    + destruct (can_read_body (d_conn d)) eqn:Eb; [|exact Hn]. destruct (i_body i); [|congruence|apply drain_nowait; exact Hn].
      destruct (read_body_nowait c (i_blk i) (log (d_conn d) [LWant]) Hn) as (Q1 & Q2). specialize (Q2 Eb).
      destruct (k_poll_read_body c _ _) as [k [|[[x|e]|]]]; cbn [fst snd] in *; [congruence|..|exact Q1|exact Q1]. destruct (i_send i); [exact Q1|]. cbn [d_conn dset_conn dset_body_tx]. destruct (can_read_body k); exact Q1.
    + pose proof (keep_alive_nowait c (d_conn d) Hn) as Q1. assert (can_read_body (d_conn d) = false) as Eb by (destruct (can_read_body (d_conn d)) eqn:E; [apply HB in E; congruence|reflexivity]).
      assert (match snd (k_poll_read_keep_alive c (d_conn d)) with Ready (Err _) => True | _ => settled (fst (k_poll_read_keep_alive c (d_conn d))) end) as Q2.
      { unfold k_poll_read_keep_alive, is_mid_message. destruct (is_read_closed (d_conn d)) eqn:Ec; [cbn; split; [exact Eb|]; unfold is_read_closed in Ec; destruct (k_reading (d_conn d)); congruence|].
        destruct (k_reading (d_conn d)) eqn:Er.
        { unfold can_read_head in Eh. rewrite Hs, Er in Eh. destruct (k_writing (d_conn d)); try discriminate Eh. unfold require_empty_read, force_io_read. destruct (r_buf (k_rd (d_conn d))) eqn:Ebf; [|exact I]. destruct (read_io (d_conn d)) as [k1 r] eqn:Ei.
          destruct (read_io_nowait _ _ _ Hn Ei) as (_ & J). destruct r as [|[n|e]]; cbn [fst snd]; [congruence|destruct (n =? 0); [|exact I]; cbn [fst snd]|exact I].
          destruct (if should_error_on_eof c k1 then _ else _); [|exact I]. split; [reflexivity|discriminate]. }
        all: pose proof (keep_alive_reading c (d_conn d)) as K; unfold k_poll_read_keep_alive, is_mid_message in K; rewrite Ec, Er in K; cbn [negb andb fst snd] in K |- *.
        all: match goal with |- context [let (_, _) := ?x in _] => idtac | |- context [mid_message_detect_eof ?c ?k] => destruct (mid_message_detect_eof c k) as [k1 [|[u|e]]] end; cbn [fst snd] in *; try exact I; unfold settled, can_read_body in *; rewrite Er in Eb; destruct K as [-> | ->]; split; congruence. }
      destruct (k_poll_read_keep_alive c (d_conn d)) as [k [|[u|e]]]; cbn [fst snd] in *; try exact I; (split; [exact Q1|intros _; exact Q2]).
Qed.
Lemma write_ready_c c i d : c_server c = false -> CInv d -> nk (d_conn d) -> (d_closing d = false -> settled (d_conn d)) -> prompt_step c i d ->
  match poll_write_it c i d with
  | (_, Ret (Ready (Err _))) => True
  | (d', Ret (Ready (Ok _))) => nk (d_conn d') /\ d_closing d' = true
  | (d', Cont) => nk (d_conn d') /\ (d_closing d' = false -> settled (d_conn d'))
  | (d', Ret Pending) => nk (d_conn d') /\ settled (d_conn d') /\ d_body_rx d' = false /\ k_can_write_body (d_conn d') = false
  end.
Proof.
  intros Hs HC Hn Hst (A2 & A3 & A4 & A5). unfold poll_write_it. destruct (d_closing d) eqn:Hc; [auto|]. specialize (Hst eq_refl).
  assert (forall d', ws (d_conn d) (d_conn d') -> nk (d_conn d') /\ (d_closing d' = false -> settled (d_conn d'))) as Z by (intros d' W; split; [exact (wq_nowait _ _ W Hn)|intros _; exact (ws_settled _ _ W Hst)]).
  destruct (negb (d_body_rx d) && can_write_head c (d_conn d) && should_poll c d) eqn:Ec.
  { apply andb_prop in Ec. destruct Ec as (Ec & _). apply andb_prop in Ec. destruct Ec as (Ex & Ec). apply negb_true_iff in Ex.
    unfold d_poll_msg. rewrite Hs. destruct (ch_poll_recv (i_race i) (d_chan d)) as [ch [|[id|]]]; [|destruct (i_canceled i); [split; [exact Hn|reflexivity]|]|split; [exact Hn|reflexivity]].
    - split; [exact Hn|]. split; [exact Hst|]. split; [exact Ex|]. cbn. unfold can_write_head in Ec. rewrite Hs in Ec. cbn [negb andb] in Ec. unfold k_can_write_body, can_write_body. destruct (is_read_closed (d_conn d)); [discriminate Ec|]. destruct (k_writing (d_conn d)); try discriminate Ec; reflexivity.
    - destruct (i_req i) as [h body]. apply Z. cbn. eapply ws_trans; [|apply ws_write_head]. apply ws_log. }
  clear Ec. destruct (negb (can_buffer_body c (d_conn d))).
  { pose proof (flush_settled c (i_wevs i) (d_conn d) Hn Hst) as Q. pose proof (flush_nowait c (i_blk i) (i_wevs i) (d_conn d) Hn) as Q'. rewrite <- A4, <- d_flush_conn in Q. rewrite <- d_flush_conn in Q'.
    destruct (d_flush c i d) as [d' [|[u|e]]]; cbn [fst snd] in *; [congruence| |exact I]. auto. }
  assert (forall rx, match end_body_it c i (dset_body_rx d rx) with (_, Ret (Ready (Err _))) => True | (d', Ret (Ready (Ok _))) => nk (d_conn d') /\ d_closing d' = true | (d', Cont) => nk (d_conn d') /\ (d_closing d' = false -> settled (d_conn d'))
    | (d', Ret Pending) => nk (d_conn d') /\ settled (d_conn d') /\ d_body_rx d' = false /\ k_can_write_body (d_conn d') = false end) as En.
  { intros rx. pose proof (end_body_ws c i (dset_body_rx d rx)) as W. unfold end_body_it in *. destruct (k_end_body _ _) as [k [u|e]]; [|exact I]. apply Z. exact W. }
  destruct (d_body_rx d) eqn:Erx.
  - destruct (negb (k_can_write_body (d_conn d))); [apply (Z (dset_body_rx d false)), ws_refl|]. destruct (i_frame i) as [|[[[b|t|]|u]|]]; [congruence|..|exact I|apply En].
    + destruct (i_eos i); destruct (brem b =? 0); [apply En|apply Z, ws_body_and_end|apply Z, ws_refl|apply Z, ws_write_body].
    + apply Z, ws_write_trailers.
    + apply Z, ws_refl.
  - destruct (k_can_write_body (d_conn d)) eqn:Ew; [|split; [exact Hn|]; split; [exact Hst|]; auto].
    pose proof (En (d_body_rx d)) as Q. replace (dset_body_rx d (d_body_rx d)) with d in Q by (destruct d; reflexivity). exact Q.
Qed.
Definition RC (c : cfg) (d : disp) : Prop := nk (d_conn d) /\
  match d_pc d with
  | PWrite _ => d_closing d = false -> settled (d_conn d)
  | PFlush _ _ => d_closing d = false -> settled (d_conn d) /\ d_body_rx d = false /\ k_can_write_body (d_conn d) = false
  | PWrite2 _ | PFlush2 => False
  | PFinish => d_is_done c d = true
  | _ => True
  end.
Lemma RC_step c i d : c_server c = false -> CInv d -> BT d -> prompt_step c i d -> RC c d -> d_pc (dstep c i d) = PDead \/ RC c (dstep c i d).
Proof.
  intros Hs HC HB Ha (Hn & H). unfold dstep. destruct (d_pc d) as [|n|n|n wr|n| | |] eqn:Ep.
  - right. split; [exact Hn|exact I].
  - destruct Ha as (_ & Ha & _). pose proof (read_ready_c c i d Hs HB Hn Ha) as Q. pose proof (pc_read c i d) as P. destruct (poll_read_it c i d) as [d' [|[|[u|e]]]]; cbn [fst] in P; try (left; apply dead_fail); right.
    + split; [exact Q|]. rewrite P, Ep. exact I.
    + split; [apply Q|]. cbn. apply Q.
    + split; [apply Q|]. cbn. apply Q.
  - pose proof (write_ready_c c i d Hs HC Hn H Ha) as Q. pose proof (pc_write c i d) as P. destruct (poll_write_it c i d) as [d' [|[|[u|e]]]]; cbn [fst] in P; try (left; apply dead_fail); right.
    + split; [apply Q|]. rewrite P, Ep. apply Q.
    + split; [apply Q|]. cbn. intros _. apply Q.
    + split; [apply Q|]. cbn. destruct Q; congruence.
  - destruct Ha as (_ & _ & A4 & A5). pose proof (flush_nowait c (i_blk i) (i_wevs i) (d_conn d) Hn) as N'. rewrite <- d_flush_conn in N'.
    destruct (in_flight_flush c i d) as (F1 & F2 & F3).
    assert (d_closing d = false -> snd (d_flush c i d) = Ready (Ok tt) -> let k' := d_conn (fst (d_flush c i d)) in k_notify k' = true \/ is_read_closed k' = true /\ (is_write_closed k' = true \/ k_writing (d_conn d) = WInit /\ k_writing k' = WInit) \/ k_reading (d_conn d) = RKeepAlive /\ k_writing (d_conn d) = WInit /\ k_writing k' = WInit) as Q.
    { intros Hc Hf. cbn zeta. destruct (H Hc) as (S1 & _ & S3). rewrite d_flush_conn, A4. apply (flush_stops c (i_wevs i) (d_conn d) Hn S1 S3). unfold d_flush in Hf. rewrite A4 in Hf. destruct (k_poll_flush c false (i_wevs i) (d_conn d)) as [k [|[[]|e]]]; cbn in *; congruence. }
    destruct (d_flush c i d) as [d' [|[[]|e]]]; cbn [fst snd] in *; [congruence| |left; apply dead_fail]. right. split; [exact N'|].
    cbn [wants_read_again d_conn dset_conn dset_pc d_pc]. destruct (k_notify (d_conn d')) eqn:En; [destruct n as [|[|n]]; exact I|].
    unfold can_write_again. rewrite F2, F3. destruct (d_closing d) eqn:Hc.
    { cbn [negb andb]. unfold d_is_done. cbn. now rewrite F2. }
    destruct (H eq_refl) as (S1 & S2 & S3). rewrite S2. cbn [negb andb]. unfold d_is_done. cbn [d_closing dset_pc dset_conn d_conn]. rewrite F2, Hs. cbn [negb andb].
    destruct (Q eq_refl eq_refl) as [F|[(G1 & _)|(G1 & G2 & _)]]; [congruence|..].
    + unfold is_read_closed in *. cbn. now rewrite G1.
    + exfalso. destruct HC as (x & _ & (_ & J & _)). rewrite G1, G2 in J. destruct J; discriminate.
  - destruct H.
  - destruct H.
  - destruct (d_is_done c d); [|right; split; [exact Hn|exact I]]. cbn [pending_upgrade]. destruct (k_upgrade (d_conn d)).
    + left. unfold take_error. destruct (k_error _); [apply dead_fail|apply dead_complete].
    + destruct (wb_flush _ _ _ _) as [[[w ev] sent] [|[u|e]]]; [right; split; [exact Hn|exact I]| |left; apply dead_fail].
      destruct (i_shutdown i) as [|[u'|e]]; [right; split; [exact Hn|exact I]| |left; apply dead_fail]. left. unfold take_error. destruct (k_error _); [apply dead_fail|apply dead_complete].
  - now left.
Qed.
