(* For C68: what a connection leaves behind when a poll of it ends. *)
From Verif Require Import Base M_Src M_Decode M_HeaderMap M_Headers M_Encode M_Role M_RoleEncode M_Buf M_WriteBuf M_Read M_Conn M_Dispatch S_Conn L_Conn L_Moves L_ConnS L_BodyTx L_Done S_Rest.

(* ---- Writing leaves the read side alone; a flattened buffer has no queue ---- *)
Definition flatq (w : wbuf) : Prop := wflat w = true -> wqueue w = [].
Definition wq (w w' : wbuf) : Prop := wflat w' = wflat w /\ (flatq w -> flatq w').
Definition ws (k k' : conn) : Prop :=
  k_rd k' = k_rd k /\ k_reading k' = k_reading k /\ k_notify k' = k_notify k /\ wq (k_wb k) (k_wb k').
Lemma wq_refl w : wq w w. Proof. split; auto. Qed.
Lemma wq_trans w w' w'' : wq w w' -> wq w' w'' -> wq w w''.
Proof. intros (A & A') (B' & B''). split; [congruence|auto]. Qed.
Lemma ws_refl k : ws k k. Proof. unfold ws. auto using wq_refl. Qed.
Lemma ws_trans k k' k'' : ws k k' -> ws k' k'' -> ws k k''.
Proof. intros (A1 & A2 & A3 & A4) (B1 & B2 & B3 & B4). unfold ws. split; [congruence|]. split; [congruence|]. split; [congruence|]. eapply wq_trans; eauto. Qed.
Lemma wq_head w bs : wq w (wb_head w bs).
Proof. split; [reflexivity|]. intros H F. exact (H F). Qed.
Lemma wq_buffer room w b w' : wb_buffer room w b = Some w' -> wq w w'.
Proof.
  unfold wb_buffer. destruct (wflat w) eqn:Ef.
  - destruct (flatten _ _ _); [|discriminate]. intros E; injection E as <-. split; [cbn; congruence|]. intros H _. apply H. exact Ef.
  - intros E; injection E as <-. split; [cbn; congruence|]. intros _ F. cbn in F. congruence.
Qed.
Lemma ws_buffer room k b : ws k (k_buffer room k b).
Proof. unfold k_buffer. destruct (wb_buffer room (k_wb k) b) eqn:E; [|apply ws_refl]. apply wq_buffer in E. unfold ws. cbn. auto. Qed.
Lemma ws_log k l : ws k (log k l). Proof. unfold ws. cbn. auto using wq_refl. Qed.
Lemma ws_writing k w : ws k (set_writing k w). Proof. unfold ws. cbn. auto using wq_refl. Qed.
Lemma ws_same k k' : k_rd k' = k_rd k -> k_reading k' = k_reading k -> k_notify k' = k_notify k -> k_wb k' = k_wb k -> ws k k'.
Proof. intros A B' C D. unfold ws. rewrite D. auto using wq_refl. Qed.
Lemma ws_encode_head c auto k h body : ws k (fst (encode_head c auto k h body)).
Proof.
  unfold encode_head. set (k1 := if c_server c then k else _).
  assert (ws k k1) as H1. { subst k1. destruct (c_server c); [apply ws_refl|]. unfold busy. destruct (k_ka k); destruct (connection_any_close _); apply ws_same; reflexivity. }
  clearbody k1. destruct (enforce_version k1 h) as [k2 h2] eqn:Ev.
  assert (ws k1 k2) as H2.
  { unfold enforce_version, fix_keep_alive in Ev. destruct (k_version k1); try (injection Ev as <- _; apply ws_refl).
    - destruct (match hm_get _ _ with Some _ => _ | None => _ end); [injection Ev as <- _; apply ws_refl|]. destruct (o_version h); try (injection Ev as <- _; apply ws_refl).
      + injection Ev as <- _. apply ws_same; reflexivity.
      + destruct (wants_keep_alive k1); injection Ev as <- _; apply ws_refl.
    - destruct (k_ka k1); injection Ev as <- _; apply ws_refl. }
  destruct (t_encode c k2 h2 body) as [[out m] r].
  assert (ws k2 (set_method (set_wb k2 (wb_head (k_wb k2) out)) m)) as H3 by (unfold ws; cbn; auto using wq_head).
  eapply ws_trans; [exact H1|]. eapply ws_trans; [exact H2|]. eapply ws_trans; [exact H3|]. destruct r; cbn [fst]; apply ws_same; reflexivity.
Qed.
Lemma ws_write_head c auto k h body : ws k (write_head c auto k h body).
Proof.
  unfold write_head. pose proof (ws_encode_head c auto k h body) as H. destruct (encode_head c auto k h body) as [k1 [e|]]; [|exact H]. cbn [fst] in H.
  eapply ws_trans; [exact H|]. apply ws_same; reflexivity.
Qed.
Lemma ws_write_body c room k b : ws k (k_write_body c room k b).
Proof.
  unfold k_write_body. destruct (k_writing k); try apply ws_refl. destruct (encode_buf _ e b) as [e' eb].
  eapply ws_trans; [apply (ws_buffer room k eb)|]. destruct (negb (enc_is_eof e')); apply ws_same; reflexivity.
Qed.
Lemma ws_write_trailers c room k t : ws k (k_write_trailers c room k t).
Proof.
  unfold k_write_trailers. destruct (c_server c && _); [apply ws_refl|]. destruct (k_writing k); try apply ws_refl.
  destruct (encode_trailers _ _ _) as [out|]; [|apply ws_refl]. eapply ws_trans; [apply ws_buffer|]. apply ws_same; reflexivity.
Qed.
Lemma ws_body_and_end c room k b : ws k (k_write_body_and_end c room k b).
Proof. unfold k_write_body_and_end. destruct (k_writing k); try apply ws_refl. eapply ws_trans; [apply ws_buffer|]. apply ws_same; reflexivity. Qed.
Lemma ws_end_body room k : ws k (fst (k_end_body room k)).
Proof.
  unfold k_end_body. destruct (k_writing k); try apply ws_refl. destruct (enc_end e) as [out|err]; cbn [fst]; [|apply ws_same; reflexivity].
  destruct out as [|o out]; [apply ws_same; reflexivity|]. eapply ws_trans; [apply ws_buffer|]. apply ws_same; reflexivity.
Qed.
Lemma wq_io_flush w sent evs w' a b r : io_flush w sent evs = (w', a, b, r) -> wq w w'.
Proof. unfold io_flush. destruct evs as [|[| |n] evs]; intros E; injection E as <- _ _ _; apply wq_refl. Qed.
Lemma wq_flush_flat : forall evs w sent w' a b r, flush_flat w sent evs = (w', a, b, r) -> wq w w'.
Proof.
  induction evs as [|[| |n] evs IH]; intros w sent w' a b r; cbn [flush_flat]; try (intros E; injection E as <- _ _ _; apply wq_refl).
  destruct (cur_rem _ =? 0).
  - intros E. apply wq_io_flush in E. exact E.
  - destruct (_ =? 0); [intros E; injection E as <- _ _ _; split; auto|]. intros E. apply IH in E. exact E.
Qed.
Lemma wq_adv n w w' : wflat w = false -> wb_adv n w = Some w' -> wq w w'.
Proof.
  intros Hf. unfold wb_adv. destruct (_ ?= n); [| |]; [|destruct (bl_adv _ _); [|discriminate]|]; intros E; injection E as <-; (split; [reflexivity|]); intros _ F; cbn in F; congruence.
Qed.
Lemma wq_flush_queue : forall evs w sent w' a b r, wflat w = false -> flush_queue w sent evs = (w', a, b, r) -> wq w w'.
Proof.
  induction evs as [|[| |n] evs IH]; intros w sent w' a b r Hf; cbn [flush_queue]; try (intros E; injection E as <- _ _ _; apply wq_refl).
  destruct (wb_adv _ w) as [w1|] eqn:Ea; [|intros E; injection E as <- _ _ _; apply wq_refl]. apply (wq_adv _ _ _ Hf) in Ea.
  destruct (wb_rem w1 =? 0).
  - intros E. apply wq_io_flush in E. eapply wq_trans; eauto.
  - destruct (_ =? 0); [intros E; injection E as <- _ _ _; exact Ea|]. intros E. apply IH in E; [|destruct Ea; congruence]. eapply wq_trans; eauto.
Qed.
Lemma wq_flush p u w evs w' a b r : wb_flush p u w evs = (w', a, b, r) -> wq w w'.
Proof.
  unfold wb_flush. destruct (p && u); [intros E; injection E as <- _ _ _; apply wq_refl|]. destruct (wb_rem w =? 0); [apply wq_io_flush|].
  destruct (wflat w) eqn:Ef; [apply wq_flush_flat|now apply wq_flush_queue].
Qed.

(* ---- Bytes nobody has looked at ---- *)
Definition heeded (k : conn) : Prop := unread k -> k_notify k = true.
Lemma ws_unread k k' : ws k k' -> unread k' -> unread k.
Proof. intros (A & B' & _) (C & D & E). unfold unread. rewrite <- A, <- B'. auto. Qed.
Lemma ws_heeded k k' : ws k k' -> heeded k -> heeded k'.
Proof. intros W H U. pose proof (ws_unread _ _ W U) as U'. destruct W as (_ & _ & -> & _). auto. Qed.
Lemma closed_heeded k : k_reading k <> RInit -> heeded k.
Proof. intros H (F & _). congruence. Qed.
Lemma read_io_rd k k' r : read_io k = (k', r) -> k_reading k' = k_reading k /\ k_writing k' = k_writing k /\ k_notify k' = k_notify k /\ k_ka k' = k_ka k /\ k_wb k' = k_wb k /\ k_log k' = k_log k /\
  (r = Pending -> r_buf (k_rd k') = r_buf (k_rd k)).
Proof.
  unfold read_io, r_read_io, poll_read_from_io. cbn [rbuf M_Src.evs]. destruct (r_evs (k_rd k)) as [|[|d|] ev]; intros E; injection E as <- <-; cbn; repeat (split; [reflexivity|]); intros F; try reflexivity; discriminate F.
Qed.
Lemma notify_heeded blk k : (k_writing (maybe_notify blk k) = WInit \/ k_reading (maybe_notify blk k) <> RInit) ->
  (blk = true -> seen (maybe_notify blk k)) -> heeded (maybe_notify blk k).
Proof.
  intros Hw Hb U. unfold maybe_notify in *. destruct (k_reading k) eqn:Er; try (destruct U as (U & _); congruence).
  destruct (k_writing k) eqn:Ew.
  2: { destruct Hw; congruence. }
  all: destruct blk; [destruct U as (_ & U1 & U2); destruct (Hb eq_refl); congruence|].
  all: destruct (r_buf (k_rd k)) as [|x b] eqn:Eb; [|reflexivity].
  all: destruct (read_io k) as [k1 [|[n|e]]] eqn:Ei; apply read_io_rd in Ei; destruct Ei as (I1 & I2 & I3 & I4 & _ & _ & I5).
  all: try (destruct U as (_ & U & _); rewrite (I5 eq_refl) in U; congruence).
  all: try reflexivity.
  all: destruct (n =? 0); [|reflexivity].
  all: destruct (is_idle k1); destruct U as (U & _); discriminate U.
Qed.
Lemma flush_heeded c blk wevs k : (k_reading (fst (k_poll_flush c blk wevs k)) = RInit -> k_writing (fst (k_poll_flush c blk wevs k)) = WInit) ->
  (blk = true -> seen (fst (k_poll_flush c blk wevs k))) -> heeded k -> heeded (fst (k_poll_flush c blk wevs k)).
Proof.
  unfold k_poll_flush. destruct (wb_flush _ _ _ _) as [[[w ev] sent] r] eqn:Ef. apply wq_flush in Ef. intros Hw Hb H.
  set (k1 := log (set_wb k w) _) in *. assert (ws k k1) as W by (unfold ws, k1; cbn; auto).
  destruct r as [|[u|e]]; cbn [fst] in *; try exact (ws_heeded _ _ W H).
  apply notify_heeded; [|exact Hb]. unfold try_keep_alive in Hw. destruct (k_reading (maybe_notify blk (st_try_keep_alive c k1))); auto; right; discriminate.
Qed.

(* ---- The transport has nothing to wait for ---- *)
Lemma nowait_cons e evs : nowait (e :: evs) -> e <> EvPending /\ nowait evs.
Proof. intros H. split; [intros ->; apply H; now left|intros F; apply H; now right]. Qed.
Lemma read_mem_nowait s len s' r : nowait (evs s) -> read_mem s len = (s', r) -> nowait (evs s') /\ r <> Pending.
Proof.
  intros H. unfold read_mem, poll_read_from_io. destruct (rbuf s).
  - destruct (evs s) as [|[|d|] ev] eqn:Ev; intros E; apply pair_equal_spec in E; destruct E as (<- & <-); cbn [evs]; rewrite ?Ev; try (split; [exact H || (apply nowait_cons in H; apply H)|discriminate]).
    apply nowait_cons in H. destruct H. congruence.
  - intros E; apply pair_equal_spec in E; destruct E as (<- & <-). split; [exact H|discriminate].
Qed.
Lemma with_byte_nowait c s f c' s' r : nowait (evs s) -> with_byte c s f = (c', s', r) -> nowait (evs s') /\ r <> Pending.
Proof.
  intros H. unfold with_byte. destruct (read_mem s 1) as [s1 r1] eqn:E. apply read_mem_nowait in E; [|exact H]. destruct E as (E1 & E2).
  destruct r1 as [|[[|x d]|e]]; [congruence|..]; try (intros E; injection E as <- <- <-; split; [exact E1|discriminate]).
  destruct (f c x) as [c1 [e|]]; intros E; injection E as <- <- <-; (split; [exact E1|discriminate]).
Qed.
Lemma cstep_nowait c s c' s' r : nowait (evs s) -> cstep c s = (c', s', r) -> nowait (evs s') /\ r <> Pending.
Proof.
  intros H. unfold cstep. destruct (cs c); try (apply with_byte_nowait; exact H).
  - unfold read_body. destruct (read_mem s (chunk_len c)) as [s1 r1] eqn:E. apply read_mem_nowait in E; [|exact H]. destruct E as (E1 & E2).
    destruct r1 as [|[[|x d]|e]]; [congruence|..]; intros E; injection E as <- <- <-; (split; [exact E1|discriminate]).
  - intros E; injection E as <- <- <-. split; [exact H|discriminate].
Qed.
Lemma cdecode_nowait {H} (dt : bytes -> N -> option H) fuel : forall c s c' s' r, nowait (evs s) -> cdecode dt fuel c s = (c', s', r) -> nowait (evs s') /\ r <> Pending.
Proof.
  induction fuel as [|fuel IH]; intros c s c' s' r Hn; cbn [cdecode]; [intros E; injection E as <- <- <-; split; [exact Hn|discriminate]|].
  destruct (cstep c s) as [[c1 s1] r1] eqn:E1. apply cstep_nowait in E1; [|exact Hn]. destruct E1 as (N1 & R1).
  destruct r1 as [|[buf|e]]; [congruence| |intros E; injection E as <- <- <-; split; [exact N1|discriminate]].
  destruct (cs c1); try (destruct buf; [intros E; injection E as <- <- <-; split; [exact N1|discriminate]|apply IH; exact N1]).
  destruct (tbuf c1); [destruct (dt _ _)|]; intros E; injection E as <- <- <-; (split; [exact N1|discriminate]).
Qed.

Lemma decode_nowait {H} (dt : bytes -> N -> option H) d s d' s' r : nowait (evs s) -> decode dt d s = (d', s', r) -> nowait (evs s') /\ r <> Pending.
Proof.
  intros Hn. unfold decode. destruct d as [n|c|[|]].
  - destruct (n =? 0); [intros E; injection E as <- <- <-; split; [exact Hn|discriminate]|].
    destruct (read_mem s n) as [s1 r1] eqn:E1. apply read_mem_nowait in E1; [|exact Hn]. destruct E1 as (N1 & R1).
    destruct r1 as [|[buf|e]]; [congruence| |intros E; injection E as <- <- <-; split; [exact N1|discriminate]].
    destruct (n <? lenN buf); [|destruct (lenN buf =? 0)]; intros E; injection E as <- <- <-; (split; [exact N1|discriminate]).
  - destruct (cdecode dt _ c s) as [[c1 s1] r1] eqn:E1. apply cdecode_nowait in E1; [|exact Hn]. intros E; injection E as <- <- <-. exact E1.
  - intros E; injection E as <- <- <-; split; [exact Hn|discriminate].
  - destruct (read_mem s 8192) as [s1 r1] eqn:E1. apply read_mem_nowait in E1; [|exact Hn]. destruct E1 as (N1 & R1).
    destruct r1 as [|[buf|e]]; [congruence| |]; intros E; injection E as <- <- <-; (split; [exact N1|discriminate]).
Qed.
Definition nk (k : conn) : Prop := nowait (r_evs (k_rd k)).
Lemma read_io_nowait k k' r : nk k -> read_io k = (k', r) -> nk k' /\ r <> Pending.
Proof.
  unfold nk, read_io, r_read_io, poll_read_from_io. cbn [rbuf M_Src.evs]. intros H. destruct (r_evs (k_rd k)) as [|[|d|] ev]; intros E; injection E as <- <-; cbn.
  1: split; [intros []|discriminate].
  all: apply nowait_cons in H; destruct H; split; congruence || auto; discriminate.
Qed.
Lemma st_try_rd c k : k_rd (st_try_keep_alive c k) = k_rd k.
Proof. unfold st_try_keep_alive, idle. destruct (k_reading k), (k_writing k); try reflexivity. destruct (k_ka k); try reflexivity. destruct (c_server c), (c_timeout c); reflexivity. Qed.
Lemma notify_nowait blk k : nk k -> nk (maybe_notify blk k).
Proof.
  intros H. unfold maybe_notify. destruct (k_reading k); try exact H. destruct (k_writing k); try exact H; (destruct blk; [exact H|]); (destruct (r_buf (k_rd k)); [|exact H]).
  all: destruct (read_io k) as [k1 [|[n|e]]] eqn:Ei; apply read_io_nowait in Ei; auto; destruct Ei as (I1 & I2); try exact I1.
  all: destruct (n =? 0); [|exact I1]; destruct (is_idle k1); exact I1.
Qed.
Lemma try_nowait c blk k : nk k -> nk (try_keep_alive c blk k).
Proof. intros H. apply notify_nowait. unfold nk. now rewrite st_try_rd. Qed.
Lemma flush_nowait c blk wevs k : nk k -> nk (fst (k_poll_flush c blk wevs k)).
Proof.
  intros H. unfold k_poll_flush. destruct (wb_flush _ _ _ _) as [[[w ev] sent] [|[u|e]]]; cbn [fst]; try exact H. apply try_nowait, H.
Qed.
(* With a transport that is ready, a connection that waits for a message and
   whose response is over notices what there is to read *)
Lemma notify_settles k : nk k -> k_reading k = RInit -> k_writing k = WInit ->
  let k' := maybe_notify false k in k_notify k' = true /\ (k_reading k' = RInit \/ k_reading k' = RClosed) \/ k_reading k' = RClosed /\ (is_idle k = true -> k_writing k' = WClosed).
Proof.
  intros Hn Er Ew. cbn zeta. unfold maybe_notify. rewrite Er, Ew. destruct (r_buf (k_rd k)); [|cbn; auto].
  destruct (read_io k) as [k1 [|[n|e]]] eqn:Ei; pose proof (read_io_nowait _ _ _ Hn Ei) as (I1 & I2); apply read_io_rd in Ei; destruct Ei as (J1 & J2 & J3 & J4 & _); [congruence| |].
  - destruct (n =? 0); [|left; cbn; split; [reflexivity|left; congruence]]. right. assert (is_idle k1 = is_idle k) as -> by (unfold is_idle; now rewrite J4). destruct (is_idle k); cbn; split; auto; discriminate.
  - left. cbn. auto.
Qed.
Lemma notify_keeps blk k : k_notify k = true -> k_notify (maybe_notify blk k) = true.
Proof.
  intros H. unfold maybe_notify. destruct (k_reading k); try exact H. destruct (k_writing k); try exact H; (destruct blk; [exact H|]); (destruct (r_buf (k_rd k)); [|reflexivity]).
  all: destruct (read_io k) as [k1 [|[n|e]]] eqn:Ei; apply read_io_rd in Ei; destruct Ei as (J1 & J2 & J3 & J4 & _); try reflexivity; try congruence.
  all: destruct (n =? 0); [|reflexivity]; destruct (is_idle k1); cbn; congruence.
Qed.
Lemma parse_nowait {M E} (P : bytes -> presult M E) max : forall evs b partial s r, nowait evs -> parse_loop P max b partial evs = (s, r) -> nowait (r_evs s) /\ r <> Pending.
Proof.
  induction evs as [|e evs IH]; intros b partial s r Hn; cbn [parse_loop]; destruct (parse_headers P b partial) as [n|n m|e'];
    try (intros X; injection X as <- <-; split; [exact Hn|discriminate]).
  all: destruct (max <=? _); [intros X; injection X as <- <-; split; [exact Hn|discriminate]|].
  - intros X; injection X as <- <-. split; [exact Hn|discriminate].
  - apply nowait_cons in Hn. destruct Hn as (N1 & N2). destruct e as [|d|]; [congruence| |intros X; injection X as <- <-; split; [exact N2|discriminate]].
    destruct (lenN d =? 0); [intros X; injection X as <- <-; split; [exact N2|discriminate]|]. apply IH. exact N2.
Qed.
(* What a parser that asks for more has been given *)
Lemma parse_pending {M E} (P : bytes -> presult M E) max : forall evs b partial s, parse_loop P max b partial evs = (s, Pending) -> r_buf s = [] \/ r_partial s <> None.
Proof.
  induction evs as [|e evs IH]; intros b partial s; cbn [parse_loop]; destruct (parse_headers P b partial) as [n|n m|e']; try discriminate.
  all: destruct (max <=? _); [discriminate|]; try discriminate.
  destruct e as [|d|]; [|destruct (lenN d =? 0); [discriminate|apply IH]|discriminate].
  intros X; injection X as <-. cbn [r_buf r_partial]. destruct (dropN n b) as [|y z]; [now left|right]. rewrite lenN_cons. destruct (N.ltb_spec 0 (1 + lenN z)); [discriminate|lia].
Qed.

(* ---- The dispatcher ---- *)
Definition fatal (x : it) : Prop := exists e, x = Ret (Ready (Err e)).
(* A body that is being read has a sender *)
Definition BT (d : disp) : Prop := can_read_body (d_conn d) = true -> d_body_tx d = true.
Lemma bq_can k k' : bq k k' -> can_read_body k' = can_read_body k.
Proof. now intros (l & _ & _ & H). Qed.
Lemma BT_read c i d : BT d -> BT (fst (poll_read_it c i d)) \/ fatal (snd (poll_read_it c i d)).
Proof.
  intros H. unfold poll_read_it. destruct (d_closing d); [now left|]. destruct (can_read_head c (d_conn d)) eqn:Eh.
  - unfold d_poll_read_head. destruct (d_poll_ready c i d) as [|[u|u]]; [now left| |left; discriminate].
    pose proof (poll_read_head_body c (i_now i) (i_blk i) (d_conn d) (head_not_body _ _ Eh)) as Q. pose proof (head_not_body _ _ Eh) as Hb.
    destruct (k_poll_read_head c _ _ _) as [k [|[[m|e]|]]].
    + left. cbn. unfold BT. cbn. apply bq_can in Q. congruence.
    + set (d1 := if in_decode m =? DL_ZERO then _ else _).
      assert (BT d1) as H1.
      { subst d1. destruct (in_decode m =? DL_ZERO); [destruct Q as (_ & Q); unfold BT; cbn; congruence|]. intros _. reflexivity. }
      clearbody d1. set (d2 := if in_upgrade m then _ else d1). assert (BT d2) as H2 by (subst d2; destruct (in_upgrade m); exact H1). clearbody d2.
      unfold recv_ok. destruct (c_server c); [left; exact H2|]. destruct (d_callback d2); [left; exact H2|right; eexists; reflexivity].
    + unfold recv_error. destruct (c_server c); cbn; [right; eexists; reflexivity|]. destruct (d_callback d); cbn; [left; discriminate|]. destruct (d_rx_closed d); [right; eexists; reflexivity|].
      destruct (ch_try_recv _) as [ch [id|]]; cbn; [left; discriminate|right; eexists; reflexivity].
    + left. cbn [fst d_conn dset_conn]. apply bq_can in Q. destruct (is_write_closed k); [discriminate|]. unfold BT. cbn. congruence.
  - destruct (d_body_tx d) eqn:Et.
    + destruct (can_read_body (d_conn d)) eqn:Eb; [|left; unfold BT; cbn; intros F; unfold can_read_body in *; cbn in F; congruence].
      destruct (i_body i); cbn [fst snd].
      * assert (can_read_body (log (d_conn d) [LWant]) = true) as Eb' by exact Eb. destruct (poll_read_body_body c (i_blk i) _ Eb') as (l & _ & _ & Q).
        destruct (k_poll_read_body c _ _) as [k [|[[x|e]|]]]; cbn [fst snd].
        -- left. intros _. exact Et.
        -- destruct (i_send i); cbn [fst snd]; [left; intros _; exact Et|]. left. cbn [d_conn dset_body_tx dset_conn]. destruct (can_read_body k) eqn:Ek; [discriminate|]. unfold BT. cbn. congruence.
        -- left. unfold BT. cbn. intros F. unfold can_read_body in *. cbn in F. congruence.
        -- left. unfold BT. cbn. intros F. destruct Q as (_ & Q). unfold can_read_body in *. cbn in F. congruence.
      * left. intros _. exact Et.
      * left. unfold BT. cbn. destruct (drain_body c (i_blk i) _ Eb) as (l & _ & _ & Q). congruence.
    + destruct (keep_alive_body c (d_conn d)) as (l & _ & _ & Q). destruct (k_poll_read_keep_alive c (d_conn d)) as [k r]. left. cbn in *. intros F. apply Q, H in F. congruence.
Qed.
(* What one write does to the connection *)
Lemma flush_can c blk wevs k : can_read_body (fst (k_poll_flush c blk wevs k)) = can_read_body k.
Proof. apply bq_can, bq_flush. Qed.
Lemma BT_write c i d : BT d -> BT (fst (poll_write_it c i d)).
Proof.
  intros H. assert (forall k, can_read_body k = can_read_body (d_conn d) -> forall rx fl cb rc ch p, BT (mkD k (d_body_tx d) rx (d_closing d) fl cb rc ch p)) as Z by (intros k F rx fl cb rc ch p; unfold BT; cbn; rewrite F; exact H).
  unfold poll_write_it. destruct (d_closing d) eqn:Hc; [exact H|]. destruct (_ && should_poll c d).
  - unfold d_poll_msg. destruct (c_server c).
    + destruct (i_msg i) as [|[[h body]|u]]; try exact H. cbn. unfold dset_conn, dset_body_rx, dset_in_flight. cbn. rewrite Hc. apply Z. apply bq_can, bq_write_head.
    + destruct (ch_poll_recv _ _) as [ch [|[id|]]]; [exact H| |discriminate]. destruct (i_canceled i); [discriminate|]. destruct (i_req i) as [h body]. unfold dset_conn, dset_body_rx, dset_in_flight. cbn. rewrite Hc. apply Z.
      erewrite (bq_can _ _ (bq_write_head _ _ _ _ _)). reflexivity.
  - destruct (negb (can_buffer_body c (d_conn d))).
    + unfold d_flush. pose proof (flush_can c (i_blk i) (i_wevs i) (d_conn d)) as Q. destruct (k_poll_flush c _ _ _) as [k [|[u|e]]]; cbn [fst] in *; unfold dset_conn; rewrite Hc; apply Z, Q.
    + assert (forall rx, BT (fst (end_body_it c i (dset_body_rx d rx)))) as En.
      { intros rx. unfold end_body_it. cbn [d_conn dset_body_rx]. pose proof (bq_can _ _ (bq_effect _ _ (end_body_effect (i_room i) (d_conn d)))) as Q. destruct (k_end_body _ _) as [k [u|e]]; cbn [fst] in *; unfold dset_conn; cbn; rewrite Hc; apply Z, Q. }
      destruct (d_body_rx d) eqn:Erx.
      * destruct (negb (k_can_write_body (d_conn d))); [exact H|]. destruct (i_frame i) as [|[[[b|t|]|u]|]]; try exact H; [| |apply En].
        -- destruct (i_eos i); destruct (brem b =? 0); try exact H; [apply En| |].
           ++ cbn. unfold dset_conn. cbn. rewrite Hc. apply Z. apply bq_can, bq_effect, write_body_and_end_effect.
           ++ cbn. unfold dset_conn. cbn. rewrite Hc. apply Z. apply bq_can, bq_effect, write_body_effect.
        -- cbn. unfold dset_conn. cbn. rewrite Hc. apply Z. apply bq_can, bq_effect, write_trailers_effect.
      * destruct (k_can_write_body (d_conn d)); [|exact H]. replace d with (dset_body_rx d (d_body_rx d)) by (destruct d; reflexivity). apply En.
Qed.
Lemma BT_pc d p : BT d -> BT (dset_pc d p). Proof. auto. Qed.
Lemma dead_complete d r : d_pc (d_complete d r) = PDead.
Proof. unfold d_complete. now rewrite d_drop_eq. Qed.
Lemma dead_fail c d e : d_pc (d_fail c d e) = PDead.
Proof. unfold d_fail. destruct (recv_error c _ e) as [d1 b]. apply dead_complete. Qed.
Lemma BT_flush c i d : BT d -> BT (fst (d_flush c i d)).
Proof. intros H. unfold d_flush. pose proof (flush_can c (i_blk i) (i_wevs i) (d_conn d)) as Q. destruct (k_poll_flush c _ _ _) as [k r]. unfold BT in *. cbn in *. now rewrite Q. Qed.
Lemma BT_step c i d : BT d -> d_pc (dstep c i d) = PDead \/ BT (dstep c i d).
Proof.
  intros H. unfold dstep. destruct (d_pc d) as [|n|n|n wr|n| | |] eqn:Ep; [now right|..].
  - pose proof (BT_read c i d H) as Q. destruct (poll_read_it c i d) as [d' [|[|[u|e]]]]; cbn [fst snd] in Q; try (left; apply dead_fail); right; destruct Q as [Q|(e' & Q)]; try discriminate Q; exact Q.
  - pose proof (BT_write c i d H) as Q. destruct (poll_write_it c i d) as [d' [|[|[u|e]]]]; cbn [fst] in Q; try (left; apply dead_fail); right; exact Q.
  - pose proof (BT_flush c i d H) as Q. destruct (d_flush c i d) as [d' [|[u|e]]]; cbn [fst] in Q; try (left; apply dead_fail); right; exact Q.
  - pose proof (BT_write c i d H) as Q. destruct (poll_write_it c i d) as [d' [|[|[u|e]]]]; cbn [fst] in Q; try (left; apply dead_fail); right; exact Q.
  - pose proof (BT_flush c i d H) as Q. destruct (d_flush c i d) as [d' [|[u|e]]]; cbn [fst] in Q; try (left; apply dead_fail); right; exact Q.
  - destruct (d_is_done c d); [|now right]. cbn [pending_upgrade]. destruct (k_upgrade (d_conn d)).
    + left. unfold take_error. destruct (k_error _); [apply dead_fail|apply dead_complete].
    + destruct (wb_flush _ _ _ _) as [[[w ev] sent] [|[u|e]]]; [now right| |left; apply dead_fail].
      destruct (i_shutdown i) as [|[u'|e]]; [now right| |left; apply dead_fail]. left. unfold take_error. destruct (k_error _); [apply dead_fail|apply dead_complete].
  - now left.
Qed.

(* When a read is over, nothing is left unseen *)
Lemma keep_alive_reading c k : k_reading (fst (k_poll_read_keep_alive c k)) = k_reading k \/ k_reading (fst (k_poll_read_keep_alive c k)) = RClosed.
Proof.
  unfold k_poll_read_keep_alive, mid_message_detect_eof, require_empty_read, force_io_read. destruct (is_read_closed k); [now left|].
  destruct (read_io k) as [k1 r] eqn:Ei. apply read_io_rd in Ei. destruct Ei as (J1 & _).
  destruct (is_mid_message k); [destruct (_ || _); [now left|]|destruct (r_buf (k_rd k)); [|now left]].
  all: destruct r as [|[n|e]]; try (now left); try (now right); destruct (n =? 0); cbn; auto.
Qed.
Lemma head_pending c now blk k k' : k_poll_read_head c now blk k = (k', Pending) -> k_reading k' = RClosed \/ seen k'.
Proof.
  unfold k_poll_read_head. set (k0 := start_timer c now k). clearbody k0. destruct (io_parse _ _ (k_rd k0)) as [rd [|[m|e]]] eqn:Ep; unfold io_parse in Ep.
  - apply parse_pending in Ep. cbn [k_running k_timer set_rd]. destruct (k_running k0); [|intros E; injection E as <-; right; exact Ep]. destruct (k_timer k0) as [t|]; [|intros E; injection E as <-; right; exact Ep].
    destruct (t <=? now); [discriminate|]. intros E; injection E as <-; right; exact Ep.
  - discriminate.
  - destruct (parse_failure e) as [e' n]. unfold on_read_head_error. destruct (_ || _); [|discriminate]. unfold on_parse_error.
    destruct (k_writing _); try discriminate. destruct (has_h2_prefix _); [discriminate|]. destruct (t_on_error c e'); [|discriminate]. intros E; injection E as <-. left. cbn [set_error k_reading]. destruct (ws_write_head c true (set_rd (close_read (set_rd (set_rd k0 rd) (mkR (dropN n (r_buf rd)) (r_partial rd) (r_evs rd)))) (consume_leading_lines (mkR (dropN n (r_buf rd)) (r_partial rd) (r_evs rd)))) (mkO HTTP11 (OResponse n0 None) [] None) None) as (_ & A & _). etransitivity; [exact A|reflexivity].
Qed.
Lemma read_body_pending c blk k : snd (k_poll_read_body c blk k) = Pending -> k_reading (fst (k_poll_read_body c blk k)) <> RInit.
Proof.
  assert (forall k d, snd (read_body_state c blk k d) = Pending -> k_reading (fst (read_body_state c blk k d)) <> RInit) as S.
  { clear. intros k d. unfold read_body_state, k_decode. destruct (decode (c_dt c) d _) as [[d' s'] [|[[x|t]|e]]]; cbn [fst snd]; try discriminate.
    destruct (is_eof d'); destruct x; discriminate. }
  unfold k_poll_read_body. destruct (k_reading k) eqn:Er; cbn [fst snd]; try discriminate; apply S.
Qed.
Lemma read_heeded c i d : c_server c = true -> DD d -> match poll_read_it c i d with (d', Ret (Ready (Err _))) => True | (_, Cont) => True | (d', _) => heeded (d_conn d') end.
Proof.
  intros Hs (H1 & H2). unfold poll_read_it. destruct (d_closing d) eqn:Hc; [apply closed_heeded; destruct (H2 eq_refl); congruence|].
  destruct (can_read_head c (d_conn d)) eqn:Eh.
  - assert (k_reading (d_conn d) = RInit) as Er by (unfold can_read_head in Eh; destruct (k_reading (d_conn d)); try discriminate Eh; reflexivity).
    unfold d_poll_read_head, d_poll_ready. rewrite Hs, (DI_init_false _ _ H1 Er).
    destruct (k_poll_read_head c _ _ _) as [k [|[[m|e]|]]] eqn:Ek.
    + apply head_pending in Ek. destruct Ek as [F|F]; [apply closed_heeded; cbn; congruence|]. intros (_ & U1 & U2). cbn in *. destruct F; contradiction.
    + unfold recv_ok. rewrite Hs. exact I.
    + unfold recv_error. rewrite Hs. exact I.
    + exact I.
  - assert (k_reading (d_conn d) <> RInit) as Hr by (unfold can_read_head in Eh; rewrite Hs in Eh; intros F; rewrite F in Eh; discriminate Eh).
    destruct (d_body_tx d).
    + destruct (can_read_body (d_conn d)) eqn:Eb; [|exact I]. destruct (i_body i); [|apply closed_heeded; exact Hr|exact I].
      pose proof (read_body_pending c (i_blk i) (log (d_conn d) [LWant])) as Q. destruct (k_poll_read_body c _ _) as [k [|[[x|e]|]]]; [|destruct (i_send i); exact I|exact I..].
      apply closed_heeded. cbn in *. apply Q. reflexivity.
    + pose proof (keep_alive_reading c (d_conn d)) as Q. destruct (k_poll_read_keep_alive c (d_conn d)) as [k [|[u|e]]]; [..|exact I]; apply closed_heeded; cbn in *; destruct Q; congruence.
Qed.
(* A write: nothing on the read side, or a flush *)
Lemma end_body_ws c i d : ws (d_conn d) (d_conn (fst (end_body_it c i d))).
Proof. unfold end_body_it. pose proof (ws_end_body (i_room i) (d_conn d)) as H. destruct (k_end_body _ _) as [k [u|e]]; exact H. Qed.
Lemma write_any c i d : ws (d_conn d) (d_conn (fst (poll_write_it c i d))) \/
  (c_server c = false /\ d_closing (fst (poll_write_it c i d)) = true /\ k_wb (d_conn (fst (poll_write_it c i d))) = k_wb (d_conn d) /\ snd (poll_write_it c i d) = Ret (Ready (Ok tt))) \/ d_closing d = false /\ can_buffer_body c (d_conn d) = false /\ exists r, poll_write_it c i d = (fst (d_flush c i d), r).
Proof.
  unfold poll_write_it. destruct (d_closing d); [left; apply ws_refl|]. destruct (_ && should_poll c d).
  { unfold d_poll_msg. destruct (c_server c); [left; destruct (i_msg i) as [|[[h body]|u]]; cbn; try apply ws_refl; apply ws_write_head|].
    destruct (ch_poll_recv (i_race i) (d_chan d)) as [ch [|[id|]]]; [left; apply ws_refl| |right; left; auto]. destruct (i_canceled i); [right; left; auto|]. left.
    destruct (i_req i) as [h body]. cbn. eapply ws_trans; [apply (ws_log (d_conn d) [LStart id])|apply ws_write_head]. }
  destruct (can_buffer_body c (d_conn d)) eqn:Eb; cbn [negb].
  2: { right. right. split; [reflexivity|]. split; [reflexivity|]. destruct (d_flush c i d) as [d' [|[u|e]]]; eauto. }
  left. destruct (d_body_rx d).
  - destruct (negb _); [apply ws_refl|]. destruct (i_frame i) as [|[[[b|t|]|u]|]]; try apply ws_refl.
    + destruct (i_eos i); destruct (brem b =? 0); try apply ws_refl; [apply (end_body_ws c i (dset_body_rx d false))|apply ws_body_and_end|apply ws_write_body].
    + apply ws_write_trailers.
    + apply (end_body_ws c i (dset_body_rx d false)).
  - destruct (k_can_write_body _); [apply end_body_ws|apply ws_refl].
Qed.
Lemma write_ws c i d : c_server c = true -> ws (d_conn d) (d_conn (fst (poll_write_it c i d))) \/ d_closing d = false /\ can_buffer_body c (d_conn d) = false /\ exists r, poll_write_it c i d = (fst (d_flush c i d), r).
Proof. intros Hs. destruct (write_any c i d) as [W|[(W & _)|W]]; auto; congruence. Qed.
Lemma d_flush_conn c i d : d_conn (fst (d_flush c i d)) = fst (k_poll_flush c (i_blk i) (i_wevs i) (d_conn d)).
Proof. unfold d_flush. destruct (k_poll_flush c _ _ _) as [k r]. reflexivity. Qed.
Lemma d_flush_heeded c i d : DD d -> (i_blk i = true -> seen (d_conn (fst (d_flush c i d)))) -> heeded (d_conn d) -> heeded (d_conn (fst (d_flush c i d))).
Proof.
  intros (HD & _) Hb H. rewrite d_flush_conn in *. apply flush_heeded; auto. intros F. apply (di_init _ _ (DI_flush c _ (i_blk i) (i_wevs i) _ HD)). exact F.
Qed.
Lemma write_heeded c i d : c_server c = true -> DD d -> (i_blk i = true -> seen (d_conn (fst (poll_write_it c i d)))) -> heeded (d_conn d) -> heeded (d_conn (fst (poll_write_it c i d))).
Proof.
  intros Hs HD Hb H. destruct (write_ws c i d Hs) as [W|(_ & _ & r & W)]; [exact (ws_heeded _ _ W H)|]. rewrite W in *. apply d_flush_heeded; auto.
Qed.
(* Where the loop is does not change inside an iteration *)
Lemma pc_read c i d : d_pc (fst (poll_read_it c i d)) = d_pc d.
Proof.
  unfold poll_read_it. destruct (d_closing d); [reflexivity|]. destruct (can_read_head c (d_conn d)).
  - unfold d_poll_read_head. destruct (d_poll_ready c i d) as [|[u|u]]; try reflexivity. destruct (k_poll_read_head c _ _ _) as [k [|[[m|e]|]]]; cbn [fst]; try reflexivity.
    + set (d1 := if in_decode m =? DL_ZERO then _ else _). assert (d_pc d1 = d_pc d) as H1 by (subst d1; destruct (in_decode m =? DL_ZERO); cbn; [reflexivity|destruct (d_body_tx d); reflexivity]). clearbody d1.
      set (d2 := if in_upgrade m then _ else d1). assert (d_pc d2 = d_pc d) as H2 by (subst d2; destruct (in_upgrade m); exact H1). clearbody d2.
      unfold recv_ok. destruct (c_server c); [exact H2|]. destruct (d_callback d2); exact H2.
    + unfold recv_error. destruct (c_server c); [reflexivity|]. destruct (d_callback (dset_conn d k)); [reflexivity|]. destruct (d_rx_closed (dset_conn d k)); [reflexivity|]. destruct (ch_try_recv _) as [ch [id|]]; reflexivity.
    + cbn [d_conn dset_conn]. destruct (is_write_closed k); reflexivity.
  - destruct (d_body_tx d).
    + destruct (can_read_body (d_conn d)); [|reflexivity]. destruct (i_body i); try reflexivity. destruct (k_poll_read_body c _ _) as [k [|[[x|e]|]]]; try reflexivity. destruct (i_send i); [reflexivity|]. cbn [fst d_conn dset_body_tx dset_conn]. destruct (can_read_body k); reflexivity.
    + destruct (k_poll_read_keep_alive c (d_conn d)) as [k r]. reflexivity.
Qed.
Lemma pc_flush c i d : d_pc (fst (d_flush c i d)) = d_pc d.
Proof. unfold d_flush. destruct (k_poll_flush c _ _ _) as [k r]. reflexivity. Qed.
Lemma pc_end c i d : d_pc (fst (end_body_it c i d)) = d_pc d.
Proof. unfold end_body_it. destruct (k_end_body _ _) as [k [u|e]]; reflexivity. Qed.
Lemma pc_write c i d : d_pc (fst (poll_write_it c i d)) = d_pc d.
Proof.
  unfold poll_write_it. destruct (d_closing d); [reflexivity|]. destruct (_ && should_poll c d).
  - unfold d_poll_msg. destruct (c_server c); [destruct (i_msg i) as [|[[h body]|u]]; reflexivity|].
    destruct (ch_poll_recv _ _) as [ch [|[id|]]]; try reflexivity. destruct (i_canceled i); [reflexivity|]. destruct (i_req i) as [h body]; reflexivity.
  - destruct (negb (can_buffer_body c (d_conn d))); [pose proof (pc_flush c i d) as Q; destruct (d_flush c i d) as [d' [|[u|e]]]; exact Q|]. destruct (d_body_rx d).
    + destruct (negb _); [reflexivity|]. destruct (i_frame i) as [|[[[b|t|]|u]|]]; try reflexivity.
      * destruct (i_eos i); destruct (brem b =? 0); try reflexivity. apply (pc_end c i (dset_body_rx d false)).
      * apply (pc_end c i (dset_body_rx d false)).
    + destruct (k_can_write_body _); [apply pc_end|reflexivity].
Qed.
(* Between the end of a read and the end of the poll *)
Definition NI (d : disp) : Prop := match d_pc d with PWrite _ | PFlush _ _ | PWrite2 _ | PFlush2 | PFinish => heeded (d_conn d) | _ => True end.
Lemma NI_dead d : d_pc d = PDead -> NI d. Proof. intros H. unfold NI. now rewrite H. Qed.
Lemma NI_any d : heeded (d_conn d) -> NI d. Proof. intros H. unfold NI. destruct (d_pc d); auto. Qed.
Lemma NI_step c i d : c_server c = true -> DD d -> (i_blk i = true -> seen (d_conn (dstep c i d))) -> NI d ->
  NI (dstep c i d) /\ (forall n w, d_pc d = PFlush n w -> d_pc (dstep c i d) = PFinish -> ~ unread (d_conn (dstep c i d))).
Proof.
  intros Hs HD Hb H. unfold NI in H. unfold dstep in *. destruct (d_pc d) as [|n|n|n wr|n| | |] eqn:Ep; (split; [|try (intros; discriminate)]).
  - exact I.
  - pose proof (read_heeded c i d Hs HD) as Q. pose proof (pc_read c i d) as P. destruct (poll_read_it c i d) as [d' [|[|[u|e]]]]; cbn [fst] in *.
    + unfold NI. now rewrite P, Ep.
    + exact Q.
    + exact Q.
    + apply NI_dead, dead_fail.
  - pose proof (write_heeded c i d Hs HD) as Q. destruct (poll_write_it c i d) as [d' [|[|[u|e]]]]; cbn [fst] in *; try (apply NI_dead, dead_fail); apply NI_any; auto.
  - pose proof (d_flush_heeded c i d HD) as Q. destruct (d_flush c i d) as [d' [|[u|e]]]; cbn [fst] in *; try (apply NI_dead, dead_fail); cbn [wants_read_again d_conn dset_conn dset_pc] in *.
    all: destruct (k_notify (d_conn d')) eqn:En; [unfold NI; cbn; destruct n as [|[|n]]; exact I|].
    all: specialize (Q Hb H); apply NI_any; cbn; intros U; assert (unread (d_conn d')) as U' by exact U; apply Q in U'; congruence.
  - intros n' w _. pose proof (d_flush_heeded c i d HD) as Q. destruct (d_flush c i d) as [d' [|[u|e]]]; cbn [fst] in *; try (rewrite dead_fail; discriminate); cbn [wants_read_again d_conn dset_conn dset_pc] in *.
    all: destruct (k_notify (d_conn d')) eqn:En; [cbn; destruct n as [|[|n]]; discriminate|].
    all: intros _ U; assert (unread (d_conn d')) as U' by exact U; specialize (Q Hb H); apply Q in U'; congruence.
  - pose proof (write_heeded c i d Hs HD) as Q. destruct (poll_write_it c i d) as [d' [|[|[u|e]]]]; cbn [fst] in *; try (apply NI_dead, dead_fail); try (apply NI_any; auto; fail).
  - pose proof (d_flush_heeded c i d HD) as Q. destruct (d_flush c i d) as [d' [|[u|e]]]; cbn [fst] in *; try (apply NI_dead, dead_fail); apply NI_any; auto.
  - destruct (d_is_done c d); [|exact I]. cbn [pending_upgrade]. destruct (k_upgrade (d_conn d)).
    + apply NI_dead. unfold take_error. destruct (k_error _); [apply dead_fail|apply dead_complete].
    + destruct (wb_flush _ _ _ _) as [[[w ev] sent] [|[u|e]]]; [exact I| |apply NI_dead, dead_fail].
      destruct (i_shutdown i) as [|[u'|e]]; [exact I| |apply NI_dead, dead_fail]. apply NI_dead. unfold take_error. destruct (k_error _); [apply dead_fail|apply dead_complete].
  - apply NI_dead. exact Ep.
Qed.

(* ---- A poll in which nothing has to be waited for ---- *)
Lemma read_body_nowait c blk k : nk k -> nk (fst (k_poll_read_body c blk k)) /\ (can_read_body k = true -> snd (k_poll_read_body c blk k) <> Pending).
Proof.
  assert (forall k d, nk k -> nk (fst (read_body_state c blk k d)) /\ snd (read_body_state c blk k d) <> Pending) as S.
  { clear. intros k d H. unfold read_body_state, k_decode. destruct (decode (c_dt c) d _) as [[d' s'] r] eqn:Ed. apply decode_nowait in Ed; [|exact H]. destruct Ed as (E1 & E2).
    set (k1 := set_rd k _). assert (nk k1) as H1 by exact E1. clearbody k1. destruct r as [|[[x|t]|e]]; [congruence|..].
    - destruct (is_eof d'); destruct x; cbn [fst snd]; (split; [|discriminate]); try (apply try_nowait; exact H1); exact H1.
    - cbn [fst snd]. split; [apply try_nowait; exact H1|discriminate].
    - cbn [fst snd]. split; [apply try_nowait; exact H1|discriminate]. }
  intros H. unfold k_poll_read_body, can_read_body. destruct (k_reading k); cbn [fst snd]; try (split; [exact H|discriminate]).
  - destruct (S (set_reading (match k_writing k with WInit => log (set_wb k (wb_head (k_wb k) continue_bytes)) [LContinue] | _ => k end) (RBody d)) d); [destruct (k_writing k); exact H|]. auto.
  - destruct (S k d H). auto.
Qed.
Lemma drain_nowait c blk k : nk k -> nk (drain_or_close_read c blk k).
Proof.
  intros H. unfold drain_or_close_read. set (k1 := match k_reading k with RContinue d => _ | _ => k end). assert (nk k1) as H1 by (subst k1; destruct (k_reading k); exact H). clearbody k1.
  destruct (read_body_nowait c blk k1 H1) as (Q & _). destruct (k_reading (fst (k_poll_read_body c blk k1))); exact Q.
Qed.
Lemma keep_alive_nowait c k : nk k -> nk (fst (k_poll_read_keep_alive c k)).
Proof.
  intros H. unfold k_poll_read_keep_alive, mid_message_detect_eof, require_empty_read, force_io_read. destruct (is_read_closed k); [exact H|].
  destruct (read_io k) as [k1 r] eqn:Ei. apply read_io_nowait in Ei; [|exact H]. destruct Ei as (E1 & _).
  destruct (is_mid_message k); [destruct (_ || _); [exact H|]|destruct (r_buf (k_rd k)); [|exact H]].
  all: destruct r as [|[n|e]]; try exact E1; destruct (n =? 0); exact E1.
Qed.
Lemma head_nowait c now blk k : nk k -> nk (fst (k_poll_read_head c now blk k)) /\ (snd (k_poll_read_head c now blk k) = Pending -> k_reading (fst (k_poll_read_head c now blk k)) = RClosed).
Proof.
  intros H. unfold k_poll_read_head. set (k0 := start_timer c now k). assert (nk k0) as H0 by (subst k0; unfold start_timer; destruct (k_running k); [exact H|]; destruct (c_timeout c); exact H). clearbody k0.
  destruct (io_parse _ _ (k_rd k0)) as [rd r] eqn:Ep; unfold io_parse in Ep. apply parse_nowait in Ep; [|exact H0]. destruct Ep as (E1 & E2). destruct r as [|[m|e]]; [congruence|..].
  - cbn [fst snd]. split; [|discriminate]. unfold got_head. set (k2 := if c_server c then set_method _ _ else _). assert (nk k2) as N2 by (subst k2; destruct (c_server c); exact E1). clearbody k2.
    set (k3 := log _ [LIn m]). assert (nk k3) as N3 by (subst k3; unfold busy; cbn; destruct (in_keep m), (k_ka k2); exact N2). clearbody k3.
    destruct (in_decode m =? DL_ZERO); [|destruct (_ && _); exact N3]. destruct (c_server c); [exact N3|]. exact (try_nowait c blk (log (set_reading k3 RKeepAlive) [LInEnd]) N3).
  - destruct (parse_failure e) as [e' n]. unfold on_read_head_error. set (k1 := set_rd (close_read _) _). assert (nk k1 /\ k_reading k1 = RClosed) as (N1 & R1) by (split; [exact E1|reflexivity]). clearbody k1.
    destruct (_ || _); [|cbn [fst snd]; split; [exact N1|discriminate]]. unfold on_parse_error.
    destruct (k_writing k1); try (cbn [fst snd]; split; [exact N1|discriminate]). destruct (has_h2_prefix k1); [cbn [fst snd]; split; [exact N1|discriminate]|].
    destruct (t_on_error c e'); [|cbn [fst snd]; split; [exact N1|discriminate]]. cbn [fst snd set_error k_reading]. destruct (ws_write_head c true k1 (mkO HTTP11 (OResponse n0 None) [] None) None) as (A & A' & _).
    split; [unfold nk; cbn; rewrite A; exact N1|intros _; congruence].
Qed.
Definition settled (k : conn) : Prop := can_read_body k = false /\ (k_reading k = RInit -> k_notify k = true).
Lemma read_ready c i d : c_server c = true -> DD d -> BT d -> nk (d_conn d) -> i_body i <> BPending ->
  match poll_read_it c i d with
  | (d', Cont) => nk (d_conn d')
  | (_, Ret (Ready (Err _))) => True
  | (d', Ret _) => nk (d_conn d') /\ (d_closing d' = false -> settled (d_conn d'))
  end.
Proof.
  intros Hs (H1 & H2) HB Hn Hi. unfold poll_read_it. destruct (d_closing d) eqn:Hc; [split; [exact Hn|congruence]|].
  destruct (can_read_head c (d_conn d)) eqn:Eh.
  - assert (k_reading (d_conn d) = RInit) as Er by (unfold can_read_head in Eh; destruct (k_reading (d_conn d)); try discriminate Eh; reflexivity).
    unfold d_poll_read_head, d_poll_ready. rewrite Hs, (DI_init_false _ _ H1 Er). destruct (head_nowait c (i_now i) (i_blk i) (d_conn d) Hn) as (Q1 & Q2).
    destruct (k_poll_read_head c _ _ _) as [k [|[[m|e]|]]]; cbn [fst snd] in *.
    + split; [exact Q1|]. intros _. specialize (Q2 eq_refl). cbn. split; [unfold can_read_body; now rewrite Q2|congruence].
    + unfold recv_ok. rewrite Hs. set (d1 := if in_decode m =? DL_ZERO then _ else _). assert (nk (d_conn d1)) as N1 by (subst d1; destruct (in_decode m =? DL_ZERO); [exact Q1|]; cbn; destruct (d_body_tx d); exact Q1). clearbody d1.
      destruct (in_upgrade m); exact N1.
    + unfold recv_error. rewrite Hs. exact I.
    + cbn [d_conn dset_conn]. destruct (is_write_closed k); exact Q1.
  - assert (k_reading (d_conn d) <> RInit) as Hr by (unfold can_read_head in Eh; rewrite Hs in Eh; intros F; rewrite F in Eh; discriminate Eh).
    destruct (d_body_tx d) eqn:Et.
    + destruct (can_read_body (d_conn d)) eqn:Eb; [|exact Hn]. destruct (i_body i); [|congruence|apply drain_nowait; exact Hn].
      destruct (read_body_nowait c (i_blk i) (log (d_conn d) [LWant]) Hn) as (Q1 & Q2). specialize (Q2 Eb).
      destruct (k_poll_read_body c _ _) as [k [|[[x|e]|]]]; cbn [fst snd] in *; [congruence|..|exact Q1|exact Q1]. destruct (i_send i); [exact Q1|]. cbn [d_conn dset_conn dset_body_tx]. destruct (can_read_body k); exact Q1.
    + pose proof (keep_alive_nowait c (d_conn d) Hn) as Q1. pose proof (keep_alive_reading c (d_conn d)) as Q2. assert (can_read_body (d_conn d) = false) as Eb by (destruct (can_read_body (d_conn d)) eqn:E; [apply HB in E; congruence|reflexivity]).
      destruct (k_poll_read_keep_alive c (d_conn d)) as [k [|[u|e]]]; cbn [fst] in *; [..|exact I].
      all: split; [exact Q1|]; intros _; cbn; unfold settled, can_read_body in *; destruct Q2 as [-> | ->]; split; auto; congruence.
Qed.
Lemma flush_settled c wevs k : nk k -> settled k -> settled (fst (k_poll_flush c false wevs k)).
Proof.
  intros Hn (S1 & S2). unfold k_poll_flush. destruct (wb_flush _ _ _ _) as [[[w ev] sent] [|[u|e]]]; cbn [fst]; try (split; [exact S1|exact S2]).
  set (k1 := log (set_wb k w) _). assert (nk k1) as N1 by exact Hn. assert (settled k1) as (T1 & T2) by (split; [exact S1|exact S2]). clearbody k1. clear - N1 T1 T2.
  unfold try_keep_alive. destruct (k_reading k1) eqn:Er; try (unfold can_read_body in T1; rewrite Er in T1; discriminate T1).
  - assert (st_try_keep_alive c k1 = k1) as -> by (unfold st_try_keep_alive; now rewrite Er). split; [now rewrite (bq_can _ _ (bq_maybe_notify false k1))|]. intros _. apply notify_keeps. auto.
  - destruct (k_writing k1) eqn:Ew.
    1,2: assert (st_try_keep_alive c k1 = k1) as -> by (unfold st_try_keep_alive; now rewrite Er, Ew).
    1,2: unfold maybe_notify; rewrite Er; split; [exact T1|congruence].
    + unfold st_try_keep_alive. rewrite Er, Ew. destruct (k_ka k1); try (split; [reflexivity|discriminate]).
      set (k2 := idle c k1). assert (nk k2 /\ k_reading k2 = RInit /\ k_writing k2 = WInit) as (N2 & R2 & W2) by (subst k2; unfold idle; destruct (c_server c), (c_timeout c); auto). clearbody k2.
      split; [rewrite (bq_can _ _ (bq_maybe_notify false k2)); unfold can_read_body; now rewrite R2|]. intros F. destruct (notify_settles k2 N2 R2 W2) as [(G & _)|(G & _)]; congruence.
    + unfold st_try_keep_alive. rewrite Er, Ew. split; [reflexivity|discriminate].
  - assert (k_reading (st_try_keep_alive c k1) = RClosed) as Q by (unfold st_try_keep_alive; rewrite Er; destruct (k_writing k1); auto). unfold maybe_notify. rewrite Q. split; [unfold can_read_body; now rewrite Q|congruence].
Qed.
(* How a flush leaves a connection whose reading and writing have come to a stop *)
Lemma flush_stops c wevs k : nk k -> settled k -> k_can_write_body k = false -> snd (k_poll_flush c false wevs k) = Ready (Ok tt) ->
  let k' := fst (k_poll_flush c false wevs k) in
  k_notify k' = true \/ is_read_closed k' = true /\ (is_write_closed k' = true \/ k_writing k = WInit /\ k_writing k' = WInit) \/ k_reading k = RKeepAlive /\ k_writing k = WInit /\ k_writing k' = WInit.
Proof.
  intros Hn (S1 & S2) Hw. cbn zeta. unfold k_poll_flush. destruct (wb_flush _ _ _ _) as [[[w ev] sent] [|[u|e]]]; cbn [fst snd]; try discriminate. intros _.
  set (k1 := log (set_wb k w) _). assert (nk k1) as N1 by exact Hn. assert (settled k1) as (T1 & T2) by (split; [exact S1|exact S2]).
  assert (k_reading k1 = k_reading k /\ k_writing k1 = k_writing k) as (<- & <-) by (split; reflexivity). assert (k_can_write_body k1 = false) as W1 by exact Hw. clearbody k1. clear - N1 T1 T2 W1.
  unfold k_can_write_body, can_write_body in W1. unfold try_keep_alive. destruct (k_reading k1) eqn:Er; try (unfold can_read_body in T1; rewrite Er in T1; discriminate T1).
  - left. assert (st_try_keep_alive c k1 = k1) as -> by (unfold st_try_keep_alive; now rewrite Er). apply notify_keeps. auto.
  - destruct (k_writing k1) eqn:Ew; try discriminate W1.
    + right. right. assert (st_try_keep_alive c k1 = k1) as -> by (unfold st_try_keep_alive; now rewrite Er, Ew). unfold maybe_notify. rewrite Er. auto.
    + unfold st_try_keep_alive. rewrite Er, Ew. destruct (k_ka k1) eqn:Ek; try (right; left; split; [reflexivity|left; reflexivity]).
      set (k2 := idle c k1). assert (nk k2 /\ k_reading k2 = RInit /\ k_writing k2 = WInit /\ is_idle k2 = true) as (N2 & R2 & W2 & I2) by (subst k2; unfold idle; destruct (c_server c), (c_timeout c); auto). clearbody k2.
      destruct (notify_settles k2 N2 R2 W2) as [(G & _)|(G & G')]; [now left|]. right. left. unfold is_read_closed, is_write_closed. rewrite G, (G' I2). auto.
    + unfold st_try_keep_alive. rewrite Er, Ew. right. left. split; [reflexivity|left; reflexivity].
  - right. left. destruct (k_writing k1) eqn:Ew; try discriminate W1.
    + assert (st_try_keep_alive c k1 = k1) as -> by (unfold st_try_keep_alive; now rewrite Er, Ew). unfold maybe_notify. rewrite Er. unfold is_read_closed. rewrite Er. auto.
    + unfold st_try_keep_alive. rewrite Er, Ew. split; [reflexivity|left; reflexivity].
    + assert (st_try_keep_alive c k1 = k1) as -> by (unfold st_try_keep_alive; now rewrite Er, Ew). unfold maybe_notify. rewrite Er. unfold is_read_closed, is_write_closed. rewrite Er, Ew. auto.
Qed.

(* A request without a response is owed one *)
Lemma unanswered_owed : forall l x, x_run x_server x_start l = Some x -> x_in x <> INone -> x_out x = ONone -> x_over x = false -> owed l = true.
Proof.
  induction l as [|e l IH] using rev_ind; intros x Hx Hi Ho Hv; [injection Hx as <-; cbn in Hi; congruence|].
  rewrite x_run_app in Hx. destruct (x_run x_server x_start l) as [y|] eqn:Ey; [|discriminate Hx]. cbn [x_run] in Hx. destruct (x_server y e) as [x'|] eqn:Ex; [|discriminate Hx]. injection Hx as ->.
  unfold owed. rewrite owes_app. fold (owed l). destruct y as [yi yo yk yw yv].
  assert (x = mkX yi yo yk yw yv -> owed l = true) as Q by (intros ->; exact (IH _ eq_refl Hi Ho Hv)).
  assert (forall m' yk' yw', x = mkX m' yo yk' yw' yv -> yi <> INone -> owed l = true) as Q' by (intros m' yk' yw' -> Hy; exact (IH _ eq_refl Hy Ho Hv)).
  destruct e as [m| | | | | | |[|] h bs| | | | | | | | | | |]; cbn [x_server x_common owes] in *.
  all: try reflexivity.
  all: repeat match type of Ex with
       | (if ?b then _ else _) = Some _ => destruct b
       | match ?b with _ => _ end = Some _ => destruct b
       | None = Some _ => discriminate Ex
       | Some _ = Some _ => injection Ex as Ex
       end; try (rewrite <- Ex in *; cbn in Ho, Hv; congruence); try (apply Q; congruence); try (eapply Q'; [symmetry; eassumption|discriminate]).
Qed.
Lemma in_flight_keeps fl k : SI fl k -> DI fl k -> k_reading k = RKeepAlive -> k_writing k = WInit -> fl = true.
Proof.
  intros (x & Hx & Hr & Hw & _) HD Er Ew. rewrite Er in *. rewrite Ew in *. destruct Hr as (Hv & m & Hi). destruct Hw as [F|[F|(F & _)]]; try discriminate F.
  destruct (di_winit _ _ HD Ew) as [G|G]; [exact G|]. rewrite (unanswered_owed _ _ Hx) in G; congruence.
Qed.

(* ---- The buffer of a connection that flattens has no queue ---- *)
Definition wk (k k' : conn) : Prop := wq (k_wb k) (k_wb k').
Lemma wk_refl k : wk k k. Proof. apply wq_refl. Qed.
Lemma wk_trans k k' k'' : wk k k' -> wk k' k'' -> wk k k''. Proof. apply wq_trans. Qed.
Lemma wk_same k k' : k_wb k' = k_wb k -> wk k k'. Proof. intros H. unfold wk. rewrite H. apply wq_refl. Qed.
Lemma ws_wk k k' : ws k k' -> wk k k'. Proof. now intros (_ & _ & _ & H). Qed.
Lemma st_try_wb c k : k_wb (st_try_keep_alive c k) = k_wb k.
Proof. unfold st_try_keep_alive, idle. destruct (k_reading k), (k_writing k); try reflexivity. destruct (k_ka k); try reflexivity. destruct (c_server c), (c_timeout c); reflexivity. Qed.
Lemma notify_wb blk k : k_wb (maybe_notify blk k) = k_wb k.
Proof.
  unfold maybe_notify. destruct (read_io k) as [k1 r] eqn:Ei. apply read_io_rd in Ei. destruct Ei as (_ & _ & _ & _ & J & _).
  destruct (k_reading k); try reflexivity. destruct (k_writing k); try reflexivity; (destruct blk; [reflexivity|]); (destruct (r_buf (k_rd k)); [|reflexivity]).
  all: destruct r as [|[n|e]]; try exact J; destruct (n =? 0); [destruct (is_idle k1)|]; exact J.
Qed.
Lemma try_wb c blk k : k_wb (try_keep_alive c blk k) = k_wb k.
Proof. unfold try_keep_alive. now rewrite notify_wb, st_try_wb. Qed.
Lemma wk_flush c blk wevs k : wk k (fst (k_poll_flush c blk wevs k)).
Proof.
  unfold k_poll_flush. destruct (wb_flush _ _ _ _) as [[[w ev] sent] r] eqn:Ef. apply wq_flush in Ef. destruct r as [|[u|e]]; cbn [fst]; try exact Ef. unfold wk. rewrite try_wb. exact Ef.
Qed.
Lemma wk_read_body c blk k : wk k (fst (k_poll_read_body c blk k)).
Proof.
  assert (forall k d, wk k (fst (read_body_state c blk k d))) as S.
  { clear. intros k d. unfold read_body_state, k_decode. destruct (decode (c_dt c) d _) as [[d' s'] [|[[x|t]|e]]]; [..|].
    - apply wk_same. reflexivity.
    - destruct (is_eof d'); destruct x; cbn [fst]; apply wk_same; try (rewrite try_wb); reflexivity.
    - apply wk_same. cbn [fst]. now rewrite try_wb.
    - apply wk_same. cbn [fst]. now rewrite try_wb. }
  unfold k_poll_read_body. destruct (k_reading k); try apply wk_refl; [|apply S]. eapply wk_trans; [|apply S]. destruct (k_writing k); try (apply wk_same; reflexivity). unfold wk. cbn. apply wq_head.
Qed.
Lemma wk_drain c blk k : wk k (drain_or_close_read c blk k).
Proof.
  unfold drain_or_close_read. set (k1 := match k_reading k with RContinue d => _ | _ => k end). assert (wk k k1) as H1 by (subst k1; destruct (k_reading k); apply wk_same; reflexivity). clearbody k1.
  eapply wk_trans; [exact H1|]. eapply wk_trans; [apply (wk_read_body c blk k1)|]. destruct (k_reading (fst (k_poll_read_body c blk k1))); apply wk_same; reflexivity.
Qed.
Lemma wk_keep_alive c k : wk k (fst (k_poll_read_keep_alive c k)).
Proof.
  unfold k_poll_read_keep_alive, mid_message_detect_eof, require_empty_read, force_io_read. destruct (is_read_closed k); [apply wk_refl|].
  destruct (read_io k) as [k1 r] eqn:Ei. apply read_io_rd in Ei. destruct Ei as (_ & _ & _ & _ & J & _).
  destruct (is_mid_message k); [destruct (_ || _); [apply wk_refl|]|destruct (r_buf (k_rd k)); [|apply wk_refl]].
  all: destruct r as [|[n|e]]; try (apply wk_same; exact J); destruct (n =? 0); apply wk_same; exact J.
Qed.
Lemma wk_head c now blk k : wk k (fst (k_poll_read_head c now blk k)).
Proof.
  unfold k_poll_read_head. set (k0 := start_timer c now k). assert (k_wb k0 = k_wb k) as H0 by (subst k0; unfold start_timer; destruct (k_running k); [reflexivity|]; destruct (c_timeout c); reflexivity). unfold wk. rewrite <- H0. clearbody k0.
  destruct (io_parse _ _ (k_rd k0)) as [rd [|[m|e]]].
  - cbn [k_running k_timer set_rd]. destruct (k_running k0); [|apply wq_refl]. destruct (k_timer k0) as [t|]; [|apply wq_refl]. destruct (t <=? now); apply wq_refl.
  - cbn [fst]. unfold got_head. cbn [set_trailers k_wb]. set (k1 := log _ [LIn m]). assert (k_wb k1 = k_wb k0) as <- by (subst k1; unfold busy; destruct (c_server c), (in_keep m), (k_ka k0) eqn:Ek; cbn; rewrite ?Ek; reflexivity). clearbody k1.
    destruct (in_decode m =? DL_ZERO); [destruct (c_server c); [apply wq_refl|rewrite try_wb; apply wq_refl]|destruct (_ && _); apply wq_refl].
  - destruct (parse_failure e) as [e' n]. unfold on_read_head_error. set (k1 := set_rd (close_read _) _). assert (k_wb k1 = k_wb k0) as <- by reflexivity. clearbody k1.
    destruct (_ || _); [|apply wq_refl]. unfold on_parse_error. destruct (k_writing k1); try apply wq_refl. destruct (has_h2_prefix k1); [apply wq_refl|].
    destruct (t_on_error c e'); [|apply wq_refl]. cbn [fst]. exact (ws_wk _ _ (ws_write_head c true k1 _ None)).
Qed.
Lemma wk_read c i d : wk (d_conn d) (d_conn (fst (poll_read_it c i d))).
Proof.
  unfold poll_read_it. destruct (d_closing d); [apply wk_refl|]. destruct (can_read_head c (d_conn d)).
  - unfold d_poll_read_head. destruct (d_poll_ready c i d) as [|[u|u]]; try (apply wk_same; reflexivity). pose proof (wk_head c (i_now i) (i_blk i) (d_conn d)) as Q. destruct (k_poll_read_head c _ _ _) as [k [|[[m|e]|]]]; cbn [fst] in *.
    + exact Q.
    + unfold recv_ok. set (d1 := if in_decode m =? DL_ZERO then _ else _). assert (k_wb (d_conn d1) = k_wb k) as N1 by (subst d1; destruct (in_decode m =? DL_ZERO); [reflexivity|]; cbn; destruct (d_body_tx d); reflexivity). clearbody d1.
      set (d2 := if in_upgrade m then _ else d1). assert (k_wb (d_conn d2) = k_wb k) as N2 by (subst d2; destruct (in_upgrade m); exact N1). clearbody d2.
      unfold wk in *. destruct (c_server c); [cbn; rewrite N2; exact Q|]. destruct (d_callback d2); cbn; rewrite N2; exact Q.
    + unfold recv_error. destruct (c_server c); [exact Q|]. destruct (d_callback (dset_conn d k)); [exact Q|]. destruct (d_rx_closed (dset_conn d k)); [exact Q|]. destruct (ch_try_recv _) as [ch [id|]]; exact Q.
    + cbn [d_conn dset_conn]. destruct (is_write_closed k); exact Q.
  - destruct (d_body_tx d).
    + destruct (can_read_body (d_conn d)); [|apply wk_same; reflexivity]. destruct (i_body i); [|apply wk_refl|apply wk_drain].
      pose proof (wk_read_body c (i_blk i) (log (d_conn d) [LWant])) as Q. destruct (k_poll_read_body c _ _) as [k [|[[x|e]|]]]; cbn [fst] in *; try exact Q. destruct (i_send i); [exact Q|]. cbn [d_conn dset_conn dset_body_tx]. destruct (can_read_body k); exact Q.
    + pose proof (wk_keep_alive c (d_conn d)) as Q. destruct (k_poll_read_keep_alive c (d_conn d)) as [k r]. exact Q.
Qed.
Lemma wk_write c i d : wk (d_conn d) (d_conn (fst (poll_write_it c i d))).
Proof. destruct (write_any c i d) as [W|[(_ & _ & W & _)|(_ & _ & r & W)]]; [exact (ws_wk _ _ W)|exact (wk_same _ _ W)|]. rewrite W. cbn [fst]. rewrite d_flush_conn. apply wk_flush. Qed.
Lemma wk_step c i d : d_pc (dstep c i d) = PDead \/ wk (d_conn d) (d_conn (dstep c i d)).
Proof.
  unfold dstep. destruct (d_pc d) as [|n|n|n wr|n| | |] eqn:Ep; [right; apply wk_refl|..].
  - pose proof (wk_read c i d) as Q. destruct (poll_read_it c i d) as [d' [|[|[u|e]]]]; cbn [fst] in Q; try (left; apply dead_fail); right; exact Q.
  - pose proof (wk_write c i d) as Q. destruct (poll_write_it c i d) as [d' [|[|[u|e]]]]; cbn [fst] in Q; try (left; apply dead_fail); right; exact Q.
  - pose proof (wk_flush c (i_blk i) (i_wevs i) (d_conn d)) as Q. rewrite <- d_flush_conn in Q. destruct (d_flush c i d) as [d' [|[u|e]]]; cbn [fst] in Q; try (left; apply dead_fail); right; exact Q.
  - pose proof (wk_write c i d) as Q. destruct (poll_write_it c i d) as [d' [|[|[u|e]]]]; cbn [fst] in Q; try (left; apply dead_fail); right; exact Q.
  - pose proof (wk_flush c (i_blk i) (i_wevs i) (d_conn d)) as Q. rewrite <- d_flush_conn in Q. destruct (d_flush c i d) as [d' [|[u|e]]]; cbn [fst] in Q; try (left; apply dead_fail); right; exact Q.
  - destruct (d_is_done c d); [|right; apply wk_refl]. cbn [pending_upgrade]. destruct (k_upgrade (d_conn d)).
    + left. unfold take_error. destruct (k_error _); [apply dead_fail|apply dead_complete].
    + destruct (wb_flush _ _ _ _) as [[[w ev] sent] [|[u|e]]] eqn:Ef; [right| |left; apply dead_fail].
      * apply wq_flush in Ef. exact Ef.
      * destruct (i_shutdown i) as [|[u'|e]]; [right; apply wq_flush in Ef; exact Ef| |left; apply dead_fail]. left. unfold take_error. destruct (k_error _); [apply dead_fail|apply dead_complete].
  - now left.
Qed.

(* ---- A poll in which everything is ready, step by step ---- *)
Definition RI (c : cfg) (d : disp) : Prop := nk (d_conn d) /\
  match d_pc d with
  | PWrite _ => d_closing d = false -> settled (d_conn d)
  | PFlush _ _ => d_closing d = false -> settled (d_conn d) /\ d_body_rx d = false /\ k_can_write_body (d_conn d) = false /\
      (k_writing (d_conn d) = WInit -> d_in_flight d = true -> wflat (k_wb (d_conn d)) = false)
  | PWrite2 _ | PFlush2 => False
  | PFinish => d_is_done c d = true \/ held d
  | _ => True
  end.
Lemma wq_nowait k k' : ws k k' -> nk k -> nk k'.
Proof. intros (A & _) H. unfold nk. now rewrite A. Qed.
Lemma ws_settled k k' : ws k k' -> settled k -> settled k'.
Proof. intros (_ & A & B' & _) (S1 & S2). unfold settled, can_read_body in *. rewrite A, B'. auto. Qed.
Lemma write_ready c i d : c_server c = true -> DD d -> flatq (k_wb (d_conn d)) -> nk (d_conn d) -> (d_closing d = false -> settled (d_conn d)) -> at_once c i d ->
  match poll_write_it c i d with
  | (_, Ret (Ready (Err _))) => True
  | (d', Ret (Ready (Ok _))) => nk (d_conn d') /\ d_closing d' = true
  | (d', Cont) => nk (d_conn d') /\ (d_closing d' = false -> settled (d_conn d'))
  | (d', Ret Pending) => nk (d_conn d') /\ settled (d_conn d') /\ d_body_rx d' = false /\ k_can_write_body (d_conn d') = false /\ (k_writing (d_conn d') = WInit -> d_in_flight d' = true -> wflat (k_wb (d_conn d')) = false)
  end.
Proof.
  intros Hs (HD & _) Hq Hn Hst (A1 & A2 & A3 & A4 & A5). unfold poll_write_it. destruct (d_closing d) eqn:Hc; [auto|]. specialize (Hst eq_refl).
  assert (forall d', ws (d_conn d) (d_conn d') -> nk (d_conn d') /\ (d_closing d' = false -> settled (d_conn d'))) as Z by (intros d' W; split; [exact (wq_nowait _ _ W Hn)|intros _; exact (ws_settled _ _ W Hst)]).
  destruct (negb (d_body_rx d) && can_write_head c (d_conn d) && should_poll c d) eqn:Ec.
  { unfold d_poll_msg. rewrite Hs. destruct (i_msg i) as [|[[h body]|u]]; [congruence| |exact I]. apply Z. cbn. apply ws_write_head. }
  destruct (negb (can_buffer_body c (d_conn d))).
  { pose proof (flush_settled c (i_wevs i) (d_conn d) Hn Hst) as Q. pose proof (flush_nowait c (i_blk i) (i_wevs i) (d_conn d) Hn) as Q'. rewrite <- A4, <- d_flush_conn in Q. rewrite <- d_flush_conn in Q'.
    destruct (d_flush c i d) as [d' [|[u|e]]]; cbn [fst snd] in *; [congruence| |exact I]. auto. }
  assert (forall rx, match end_body_it c i (dset_body_rx d rx) with (_, Ret (Ready (Err _))) => True | (d', Ret (Ready (Ok _))) => nk (d_conn d') /\ d_closing d' = true | (d', Cont) => nk (d_conn d') /\ (d_closing d' = false -> settled (d_conn d'))
    | (d', Ret Pending) => nk (d_conn d') /\ settled (d_conn d') /\ d_body_rx d' = false /\ k_can_write_body (d_conn d') = false /\ (k_writing (d_conn d') = WInit -> d_in_flight d' = true -> wflat (k_wb (d_conn d')) = false) end) as En.
  { intros rx. pose proof (end_body_ws c i (dset_body_rx d rx)) as W. unfold end_body_it in *. destruct (k_end_body _ _) as [k [u|e]]; [|exact I]. apply Z. exact W. }
  destruct (d_body_rx d) eqn:Erx.
  - destruct (negb (k_can_write_body (d_conn d))); [apply (Z (dset_body_rx d false)), ws_refl|]. destruct (i_frame i) as [|[[[b|t|]|u]|]]; [congruence|..|exact I|apply En].
    + destruct (i_eos i); destruct (brem b =? 0); [apply En|apply Z, ws_body_and_end|apply Z, ws_refl|apply Z, ws_write_body].
    + apply Z, ws_write_trailers.
    + apply Z, ws_refl.
  - destruct (k_can_write_body (d_conn d)) eqn:Ew.
    + pose proof (En (d_body_rx d)) as Q. replace (dset_body_rx d (d_body_rx d)) with d in Q by (destruct d; reflexivity). exact Q.
    + split; [exact Hn|]. split; [exact Hst|]. split; [exact Erx|]. split; [exact Ew|]. intros Wi Fl. cbn [negb andb] in Ec. unfold can_write_head, should_poll in Ec. rewrite Hs, Wi, Fl in Ec. cbn [negb andb] in Ec. rewrite andb_true_r in Ec.
      destruct (wflat (k_wb (d_conn d))) eqn:Ef; [|reflexivity]. unfold can_headers_buf in Ec. rewrite (Hq Ef) in Ec. discriminate Ec.
Qed.
Lemma in_flight_flush c i d : d_in_flight (fst (d_flush c i d)) = d_in_flight d /\ d_closing (fst (d_flush c i d)) = d_closing d /\ d_body_rx (fst (d_flush c i d)) = d_body_rx d.
Proof. unfold d_flush. destruct (k_poll_flush c _ _ _) as [k r]. auto. Qed.
Lemma RI_step c i d : c_server c = true -> DD d -> SInv d -> BT d -> flatq (k_wb (d_conn d)) -> at_once c i d -> RI c d -> d_pc (dstep c i d) = PDead \/ RI c (dstep c i d).
Proof.
  intros Hs HD HS HB Hq Ha (Hn & H). unfold dstep. destruct (d_pc d) as [|n|n|n wr|n| | |] eqn:Ep.
  - right. split; [exact Hn|exact I].
  - destruct Ha as (_ & _ & Ha & _). pose proof (read_ready c i d Hs HD HB Hn Ha) as Q. pose proof (pc_read c i d) as P. destruct (poll_read_it c i d) as [d' [|[|[u|e]]]]; cbn [fst] in P; try (left; apply dead_fail); right.
    + split; [exact Q|]. rewrite P, Ep. exact I.
    + split; [apply Q|]. cbn. apply Q.
    + split; [apply Q|]. cbn. apply Q.
  - pose proof (write_ready c i d Hs HD Hq Hn H Ha) as Q. pose proof (pc_write c i d) as P. destruct (poll_write_it c i d) as [d' [|[|[u|e]]]]; cbn [fst] in P; try (left; apply dead_fail); right.
    + split; [apply Q|]. rewrite P, Ep. apply Q.
    + split; [apply Q|]. cbn. intros _. apply Q.
    + split; [apply Q|]. cbn. destruct Q; congruence.
  - destruct Ha as (_ & _ & _ & A4 & A5). pose proof (flush_nowait c (i_blk i) (i_wevs i) (d_conn d) Hn) as N'. rewrite <- d_flush_conn in N'.
    destruct (in_flight_flush c i d) as (F1 & F2 & F3). pose proof (wk_flush c (i_blk i) (i_wevs i) (d_conn d)) as (W' & _). rewrite <- d_flush_conn in W'.
    assert (d_closing d = false -> snd (d_flush c i d) = Ready (Ok tt) -> let k' := d_conn (fst (d_flush c i d)) in k_notify k' = true \/ is_read_closed k' = true /\ (is_write_closed k' = true \/ k_writing (d_conn d) = WInit /\ k_writing k' = WInit) \/ k_reading (d_conn d) = RKeepAlive /\ k_writing (d_conn d) = WInit /\ k_writing k' = WInit) as Q.
    { intros Hc Hf. cbn zeta. destruct (H Hc) as (S1 & _ & S3 & _). rewrite d_flush_conn, A4. apply (flush_stops c (i_wevs i) (d_conn d) Hn S1 S3). unfold d_flush in Hf. rewrite A4 in Hf. destruct (k_poll_flush c false (i_wevs i) (d_conn d)) as [k [|[[]|e]]]; cbn in *; congruence. }
    pose proof (flush_can c (i_blk i) (i_wevs i) (d_conn d)) as Q2. rewrite <- d_flush_conn in Q2.
    destruct (d_flush c i d) as [d' [|[[]|e]]]; cbn [fst snd] in *; [congruence| |left; apply dead_fail]. right. split; [exact N'|].
    cbn [wants_read_again d_conn dset_conn dset_pc d_pc]. destruct (k_notify (d_conn d')) eqn:En; [destruct n as [|[|n]]; exact I|].
    unfold can_write_again. rewrite F2, F3. destruct (d_closing d) eqn:Hc.
    { cbn [negb andb]. left. unfold d_is_done. cbn. now rewrite F2. }
    destruct (H eq_refl) as (S1 & S2 & S3 & S4). rewrite S2. cbn [negb andb]. unfold d_is_done, held. cbn [d_closing dset_pc dset_conn d_conn set_notify k_writing k_wb d_in_flight]. rewrite F1, F2, Hs. cbn [negb andb]. unfold should_poll. rewrite Hs. cbn [d_in_flight d_body_rx dset_pc dset_conn]. rewrite F1, F3, S2, andb_true_r. rewrite W'.
    destruct (Q eq_refl eq_refl) as [F|[(G1 & [G2|(G2 & G3)])|(G1 & G2 & G3)]]; [congruence|left|..].
    + unfold is_read_closed, is_write_closed in *. cbn. now rewrite G1, G2.
    + destruct (d_in_flight d) eqn:Ef; [right; auto|left]. unfold is_read_closed in *. cbn. rewrite G1. now rewrite orb_true_r.
    + right. assert (d_in_flight d = true) as Fl by (exact (in_flight_keeps _ _ HS (proj1 HD) G1 G2)). auto.
  - destruct H.
  - destruct H.
  - destruct (d_is_done c d); [|right; split; [exact Hn|exact I]]. cbn [pending_upgrade]. destruct (k_upgrade (d_conn d)).
    + left. unfold take_error. destruct (k_error _); [apply dead_fail|apply dead_complete].
    + destruct (wb_flush _ _ _ _) as [[[w ev] sent] [|[u|e]]]; [right; split; [exact Hn|exact I]| |left; apply dead_fail].
      destruct (i_shutdown i) as [|[u'|e]]; [right; split; [exact Hn|exact I]| |left; apply dead_fail]. left. unfold take_error. destruct (k_error _); [apply dead_fail|apply dead_complete].
  - now left.
Qed.
