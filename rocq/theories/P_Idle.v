(* C72: when a client connection goes to rest. *)
From Verif Require Import Base M_Src M_Decode M_HeaderMap M_Headers M_Encode M_Role M_RoleEncode M_Buf M_WriteBuf M_Read M_Conn M_Dispatch S_Conn L_Conn L_Moves L_ConnS L_ConnC L_BodyTx L_Done L_Exch P_Conn L_Return P_Graceful S_Rest L_Rest P_Rest S_Idle L_Idle.

Section Client.
  Variables (c : cfg) (h09 flat : bool) (wmax : N) (evs : list event).
  Hypothesis Hc : client_cfg c.
  Let st ms := after c h09 flat wmax evs ms.
  Let Hs : c_server c = false := proj1 Hc.
  Lemma snoc_c ms m : st (ms ++ [m]) = dmove c m (st ms).
  Proof. unfold st, after. rewrite run_app. reflexivity. Qed.
  (* What the outside does to a client's connection: nothing but to drop it and to
     use its sender *)
  Lemma env_c e d : d_pc (estep c e d) = PDead \/ estep c e d = d \/ exists s, estep c e d = dset_client d (d_callback d) (d_rx_closed d) (smake (d_chan d) s).
  Proof.
    destruct e as [s| | |]; cbn [estep]; rewrite ?Hs.
    - right. right. now exists s.
    - right. left. destruct (d_pc d); reflexivity.
    - destruct (d_pc d) eqn:Ep; auto.
    - right. left. destruct (d_pc d), (k_log (d_conn d)); reflexivity.
  Qed.
  Lemma inv_c ms : CInv (st ms). Proof. apply (client_inv c Hc ms _ (CInv_start h09 flat wmax evs)). Qed.
  Lemma BT_c ms : d_pc (st ms) = PDead \/ BT (st ms) /\ CB (st ms) /\ wflat (k_wb (d_conn (st ms))) = flat /\ flatq (k_wb (d_conn (st ms))).
  Proof.
    induction ms as [|m ms IH] using rev_ind; [right; split; [discriminate|]; split; [intros _; reflexivity|]; split; [reflexivity|intros _; reflexivity]|]. pose proof (inv_c ms) as HI. rewrite snoc_c.
    destruct IH as [F|(HB & HC & HF & HQ)]; [left; apply (dead_stays c m _ F)|]. destruct m as [i|e]; cbn [dmove].
    - destruct (BT_step c i (st ms) HB) as [F|B1]; [now left|]. destruct (CB_step c i (st ms) Hs HI HC) as [F|B2]; [now left|]. destruct (wk_step c i (st ms)) as [F|(W1 & W2)]; [now left|].
      right. split; [exact B1|]. split; [exact B2|]. split; [congruence|auto].
    - destruct (env_c e (st ms)) as [F|[F|(s & F)]]; [now left|rewrite F; auto..].
  Qed.
  Lemma WA_c ms : flat = true -> d_pc (st ms) = PDead \/ WA (st ms).
  Proof.
    intros Hf. induction ms as [|m ms IH] using rev_ind; [right; exact I|]. destruct (BT_c ms) as [F|(_ & HC & HF & HQ)]; [rewrite snoc_c; left; apply (dead_stays c m _ F)|]. rewrite Hf in HF. rewrite snoc_c.
    destruct IH as [F|HW]; [left; apply (dead_stays c m _ F)|]. destruct m as [i|e]; cbn [dmove].
    - destruct (WA_step c i (st ms) Hs HC HF HQ HW) as [F|(F & _)]; auto.
    - destruct (env_c e (st ms)) as [F|[F|(s & F)]]; [now left|rewrite F; auto..]. right. unfold WA in *. cbn [d_pc dset_client].
      destruct (d_pc (st ms)); auto; intros Fr; (destruct (HW Fr) as [A|A]; [left|right; exact A]); apply may_send_make, A.
  Qed.
  (* A poll that ends with the flush of line 181, or with the second write of line
     210, leaves no idle connection behind whose sender may not send. *)
  Theorem C72_asked : forall ms i, flat = true -> d_pc (st ms) <> PFlush2 -> d_pc (st (ms ++ [Step i])) = PFinish ->
    free (st (ms ++ [Step i])) -> may_send (d_chan (st (ms ++ [Step i]))).
  Proof.
    intros ms i Hf Hp Ep. rewrite snoc_c in *. destruct (BT_c ms) as [F|(_ & HC & HF & HQ)]; [destruct (dead_stays c (Step i) _ F) as (G & _); rewrite Ep in G; discriminate G|]. rewrite Hf in HF.
    destruct (WA_c ms Hf) as [F|HW]; [destruct (dead_stays c (Step i) _ F) as (G & _); rewrite Ep in G; discriminate G|]. cbn [dmove] in *. destruct (WA_step c i (st ms) Hs HC HF HQ HW) as [F|(_ & F)]; [congruence|]. exact (F Ep Hp).
  Qed.
  (* However it ends: if the sender may not send, the connection knows that it has
     to go round again. *)
  Theorem C72_flagged : forall ms, flat = true -> d_pc (st ms) = PFinish -> free (st ms) -> may_send (d_chan (st ms)) \/ k_notify (d_conn (st ms)) = true.
  Proof. intros ms Hf Ep. destruct (WA_c ms Hf) as [F|H]; [congruence|]. unfold WA in H. rewrite Ep in H. exact H. Qed.

  Lemma truthful_c ms m : truthful c h09 flat wmax evs (ms ++ [m]) -> truthful c h09 flat wmax evs ms /\ forall i, m = Step i -> i_blk i = true -> seen (d_conn (dstep c i (st ms))).
  Proof.
    intros H. split.
    - intros a i b -> Hb. apply (H a i (b ++ [m])); [|exact Hb]. now rewrite <- app_assoc.
    - intros i -> Hb. specialize (H ms i [] eq_refl Hb). change (after c h09 flat wmax evs (ms ++ [Step i])) with (st (ms ++ [Step i])) in H. rewrite snoc_c in H. exact H.
  Qed.
  Lemma NC_c ms : truthful c h09 flat wmax evs ms -> d_pc (st ms) = PDead \/ NC (st ms).
  Proof.
    induction ms as [|m ms IH] using rev_ind; intros Ht; [right; exact I|]. apply truthful_c in Ht. destruct Ht as (Ht & Hi). rewrite snoc_c.
    destruct (IH Ht) as [F|HN]; [left; apply (dead_stays c m _ F)|]. destruct m as [i|e].
    - destruct (NC_step c i (st ms) Hs (Hi i eq_refl) HN) as [F|(F & _)]; auto.
    - cbn [dmove]. destruct (env_c e (st ms)) as [F|[F|(s & F)]]; [now left|rewrite F; auto..].
  Qed.
  (* Bytes that nobody has looked at are not left behind either. *)
  Theorem C72_seen : forall ms i n w, truthful c h09 flat wmax evs (ms ++ [Step i]) -> d_pc (st ms) = PFlush n w -> d_pc (st (ms ++ [Step i])) = PFinish ->
    d_closing (st (ms ++ [Step i])) = false -> ~ unread (d_conn (st (ms ++ [Step i]))).
  Proof.
    intros ms i n w Ht Ep. rewrite snoc_c. cbn [dmove]. apply truthful_c in Ht. destruct Ht as (Ht & Hi). destruct (NC_c ms Ht) as [F|HN]; [congruence|].
    intros Eq Ec. destruct (NC_step c i (st ms) Hs (Hi i eq_refl) HN) as [F|(_ & F)]; [congruence|]. apply (F n w); auto.
  Qed.

  Lemma RC_run is : forall ms, all_prompt c is (st ms) -> RC c (st ms) -> d_pc (st (ms ++ map Step is)) = PDead \/ RC c (st (ms ++ map Step is)).
  Proof.
    induction is as [|i is IH]; intros ms Ha H; [rewrite app_nil_r; now right|]. destruct Ha as (Ha & Hr). cbn [map].
    replace (ms ++ Step i :: map Step is) with ((ms ++ [Step i]) ++ map Step is) by (rewrite <- app_assoc; reflexivity).
    assert (forall l ms, d_pc (st ms) = PDead -> d_pc (st (ms ++ l)) = PDead) as D.
    { clear - Hs. induction l as [|m l IHl]; intros ms F; [now rewrite app_nil_r|]. replace (ms ++ m :: l) with ((ms ++ [m]) ++ l) by (rewrite <- app_assoc; reflexivity). apply IHl. rewrite snoc_c. apply (dead_stays c m _ F). }
    destruct (BT_c ms) as [F|(HB & _)]; [left; apply D, D, F|].
    destruct (RC_step c i (st ms) Hs (inv_c ms) HB Ha H) as [F|R].
    - left. apply D. rewrite snoc_c. exact F.
    - apply IH; rewrite snoc_c; [exact Hr|exact R].
  Qed.
  (* When nothing outside says Pending, a poll ends only if the connection is done:
     it does not wait for its sender without watching the transport too. *)
  Theorem C72_ready : forall ms is, (d_pc (st ms) = PIdle \/ exists n, d_pc (st ms) = PRead n) -> nowait (r_evs (k_rd (d_conn (st ms)))) -> all_prompt c is (st ms) ->
    d_pc (st (ms ++ map Step is)) = PFinish -> d_is_done c (st (ms ++ map Step is)) = true.
  Proof.
    intros ms is Hp Hn Ha Hf. destruct (RC_run is ms Ha) as [F|(_ & H)]; [|congruence|rewrite Hf in H; exact H].
    split; [exact Hn|]. destruct Hp as [-> |(n & ->)]; exact I.
  Qed.
End Client.

(* ---- Examples ---- *)
Definition idle_cfg : cfg := ex_cfg false false None.
Definition idle_client : client_cfg idle_cfg := ex_client false None.
Definition send1 : list move := [Env (ESender SGive); Env (ESender SPush)].
Definition res200 : bytes := line (B "HTTP/1.1 200 OK").
Definition idle_evs : list event := EvPending :: EvData res200 :: repeat EvPending 20.
(* A request, its response, and the poll after which the connection is idle *)
Notation served n := (after idle_cfg false true 8192 idle_evs (send1 ++ steps n (ask get))).
Example C72_asked_ex : d_pc (served 11) = PFlush 14 false /\ d_pc (served 12) = PFinish /\ free (served 12) /\ ch_tx (d_chan (served 12)) = true /\ ch_rx (d_chan (served 12)) = true /\
  ch_given (d_chan (served 12)) = false /\ ch_queue (d_chan (served 12)) = [].
Proof. split; [vm_compute; reflexivity|]. split; [vm_compute; reflexivity|]. split; [repeat split; vm_compute; reflexivity|]. repeat split; vm_compute; reflexivity. Qed.

(* ---- The stronger claims ---- *)
Definition post : ohead := mkO HTTP11 (ORequest (B "POST") (B "/")) [] None.
Definition posting (fr : poll (option (result uframe unit))) : inp :=
  mkI 0 false true [WAccept 65536; WAccept 65536; WAccept 65536] false BReady true Pending (post, Some Unknown) fr true (Ready (Ok tt)) [].
(* The response is there before the request body is over, and the end of the body
   shows up in the second write of a round (dispatch.rs 199-218): the connection
   becomes idle in the flush after that write, where the flag that asks for another
   round is not looked at, and so it rests without having asked for a request
   (finding F52). *)
Notation late_end := (after idle_cfg false true 8192 idle_evs (send1 ++ steps 12 (posting Pending) ++ steps 3 (posting (Ready None)))).
Lemma late_end_state : d_pc late_end = PFinish /\ free late_end /\ d_is_done idle_cfg late_end = false /\ d_chan late_end = mkCh [] false true false true true 1 /\ k_notify (d_conn late_end) = true.
Proof. split; [vm_compute; reflexivity|]. split; [repeat split; vm_compute; reflexivity|]. repeat split; vm_compute; reflexivity. Qed.
Theorem C72_asked_always_refuted : exists c h09 wmax evs ms, client_cfg c /\ d_pc (after c h09 true wmax evs ms) = PFinish /\ free (after c h09 true wmax evs ms) /\
  d_is_done c (after c h09 true wmax evs ms) = false /\ ~ may_send (d_chan (after c h09 true wmax evs ms)).
Proof.
  exists idle_cfg, false, 8192, idle_evs, (send1 ++ steps 12 (posting Pending) ++ steps 3 (posting (Ready None))). destruct late_end_state as (A & B' & C & D & _).
  split; [exact idle_client|]. split; [exact A|]. split; [exact B'|]. split; [exact C|]. rewrite D. intros F. discriminate (F eq_refl eq_refl eq_refl eq_refl).
Qed.
(* The response is there before the transport has taken the request, on a
   connection that queues the buffers of bodies: nothing is asked for while the
   queue holds bytes (conn.rs 550-567, io.rs 135-137), and the flush that empties
   it does not make the loop go round again (finding F53). *)
Definition sending (w : list wevent) : inp :=
  mkI 0 false true w false BReady true Pending (post, Some (Known 2)) (Ready (Some (Ok (UData (Segs true [B "ok"]))))) true (Ready (Ok tt)) [].
Notation slow_tx := (after idle_cfg false false 8192 idle_evs (send1 ++ steps 16 (sending []) ++ steps 4 (sending [WAccept 65536]))).
Lemma slow_tx_state : d_pc slow_tx = PFinish /\ free slow_tx /\ d_is_done idle_cfg slow_tx = false /\ d_chan slow_tx = mkCh [] false true false true true 1 /\ k_notify (d_conn slow_tx) = false /\
  wqueue (k_wb (d_conn slow_tx)) = [].
Proof. split; [vm_compute; reflexivity|]. split; [repeat split; vm_compute; reflexivity|]. repeat split; vm_compute; reflexivity. Qed.
Theorem C72_flagged_queue_refuted : exists c h09 wmax evs ms, client_cfg c /\ d_pc (after c h09 false wmax evs ms) = PFinish /\ free (after c h09 false wmax evs ms) /\
  d_is_done c (after c h09 false wmax evs ms) = false /\ ~ may_send (d_chan (after c h09 false wmax evs ms)) /\ k_notify (d_conn (after c h09 false wmax evs ms)) = false.
Proof.
  exists idle_cfg, false, 8192, idle_evs, (send1 ++ steps 16 (sending []) ++ steps 4 (sending [WAccept 65536])). destruct slow_tx_state as (A & B' & C & D & E & _).
  split; [exact idle_client|]. split; [exact A|]. split; [exact B'|]. split; [exact C|]. split; [|exact E]. rewrite D. intros F. discriminate (F eq_refl eq_refl eq_refl eq_refl).
Qed.

(* Everything ready, until the peer has closed the transport *)
Lemma flushes_prompt c is : forall d, Forall (fun i => i_frame i <> Pending /\ i_body i <> BPending /\ i_blk i = false) is -> flushes c is d = true -> all_prompt c is d.
Proof.
  induction is as [|i is IH]; intros d H F; [exact I|]. inversion H as [|? ? (B' & C & D) H']; subst. cbn [flushes] in F. destruct (snd (d_flush c i d)) eqn:E; [discriminate F|].
  split; [split; [exact B'|]; split; [exact C|]; split; [exact D|]; congruence|]. apply IH; auto.
Qed.
Definition at_hand : inp := inp_of Pending get (Ready None).
(* a first poll finds the transport empty; then the response and the end are there *)
Notation gone n := (after idle_cfg false true 8192 [EvPending; EvPending; EvData res200] (send1 ++ steps 6 at_hand ++ steps n at_hand)).
Example C72_ready_ex : d_pc (gone 0) = PIdle /\ nowait (r_evs (k_rd (d_conn (gone 0)))) /\ all_prompt idle_cfg (repeat at_hand 8) (gone 0) /\ d_pc (gone 8) = PFinish /\ d_is_done idle_cfg (gone 8) = true.
Proof.
  split; [vm_compute; reflexivity|]. split; [vm_compute; intros [F|[]]; discriminate F|].
  split; [apply flushes_prompt; [repeat constructor; discriminate|vm_compute; reflexivity]|]. split; vm_compute; reflexivity.
Qed.
(* Half of a response head: it has been given to the parser, and the transport is
   found empty *)
Definition blocked (i : inp) : inp :=
  mkI (i_now i) true (i_room i) (i_wevs i) (i_canceled i) (i_body i) (i_send i) (i_msg i) (i_req i) (i_frame i) (i_eos i) (i_shutdown i) (i_race i).
Definition half_evs : list event := EvPending :: EvData (B "HTTP/1.1") :: repeat EvPending 20.
Definition half_moves : list move := send1 ++ steps 7 (ask get).
Notation half := (after idle_cfg false true 8192 half_evs (half_moves ++ [Step (blocked (ask get))])).
Lemma blocked_last c h09 flat wmax evs ms j : Forall (fun m => match m with Step i => i_blk i = false | Env _ => True end) ms -> seen (d_conn (after c h09 flat wmax evs (ms ++ [Step j]))) ->
  truthful c h09 flat wmax evs (ms ++ [Step j]).
Proof.
  intros H S a i b E F. destruct b as [|m b] using rev_ind.
  - apply app_inj_tail in E. destruct E as (<- & E). injection E as <-. exact S.
  - clear IHb. rewrite app_comm_cons, app_assoc in E. apply app_inj_tail in E. destruct E as (-> & _). apply Forall_app in H. destruct H as (_ & H). inversion H; subst. congruence.
Qed.
Example C72_seen_ex : truthful idle_cfg false true 8192 half_evs (half_moves ++ [Step (blocked (ask get))]) /\
  d_pc (after idle_cfg false true 8192 half_evs half_moves) = PFlush 15 false /\ d_pc half = PFinish /\ d_closing half = false /\ r_buf (k_rd (d_conn half)) = B "HTTP/1.1".
Proof.
  split; [|repeat split; vm_compute; reflexivity]. apply blocked_last; [repeat constructor|]. right. vm_compute. discriminate.
Qed.
Print Assumptions C72_asked.
Print Assumptions C72_flagged.
Print Assumptions C72_seen.
Print Assumptions C72_ready.
Print Assumptions C72_asked_always_refuted.
Print Assumptions C72_flagged_queue_refuted.
