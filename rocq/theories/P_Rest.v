(* C68: when a server connection goes to rest. *)
From Verif Require Import Base M_Src M_Decode M_HeaderMap M_Headers M_Encode M_Role M_RoleEncode M_Buf M_WriteBuf M_Read M_Conn M_Dispatch S_Conn L_Conn L_Moves L_ConnS L_BodyTx L_Done L_Exch P_Conn L_Return P_Graceful S_Rest L_Rest.

(* [i_blk] is an input of the model (io.rs 224-269, read_blocked): it may
   only be set if the last read found the transport empty.  Then the buffer is
   empty or has been given to the parser. *)
Definition truthful (c : cfg) (h09 flat : bool) (wmax : N) (evs : list event) (ms : list move) : Prop :=
  forall a i b, ms = a ++ Step i :: b -> i_blk i = true -> seen (d_conn (after c h09 flat wmax evs (a ++ [Step i]))).

Section Server.
  Variables (c : cfg) (h09 flat : bool) (wmax : N) (evs : list event).
  Hypothesis Hs : c_server c = true.
  Let st ms := after c h09 flat wmax evs ms.
  Lemma snoc ms m : st (ms ++ [m]) = dmove c m (st ms).
  Proof. unfold st, after. rewrite run_app. reflexivity. Qed.
  Lemma env_pc e d : d_pc (estep c e d) = PDead \/ (d_pc (estep c e d) = d_pc d /\ (d_conn (estep c e d) = d_conn d \/ d_pc d = PIdle)).
  Proof.
    destruct e as [s| | |]; cbn [estep].
    - destruct (c_server c); auto.
    - destruct (d_pc d) eqn:Ep; auto. rewrite Hs. right. split; [|now right]. unfold d_graceful. destruct (_ || _); exact Ep.
    - destruct (d_pc d) eqn:Ep; auto.
    - destruct (d_pc d) eqn:Ep, (k_log (d_conn d)); auto. rewrite Hs. auto.
  Qed.
  Lemma truthful_app ms m : truthful c h09 flat wmax evs (ms ++ [m]) -> truthful c h09 flat wmax evs ms /\ forall i, m = Step i -> i_blk i = true -> seen (d_conn (dstep c i (st ms))).
  Proof.
    intros H. split.
    - intros a i b -> Hb. apply (H a i (b ++ [m])); [|exact Hb]. now rewrite <- app_assoc.
    - intros i -> Hb. specialize (H ms i [] eq_refl Hb). change (after c h09 flat wmax evs (ms ++ [Step i])) with (st (ms ++ [Step i])) in H. rewrite snoc in H. exact H.
  Qed.
  Lemma NI_all ms : truthful c h09 flat wmax evs ms -> d_pc (st ms) = PDead \/ NI (st ms).
  Proof.
    induction ms as [|m ms IH] using rev_ind; intros Ht; [right; exact I|]. apply truthful_app in Ht. destruct Ht as (Ht & Hi). rewrite snoc.
    destruct (IH Ht) as [F|HN]; [left; apply (dead_stays c m _ F)|].
    destruct (DD_all c h09 flat wmax evs Hs ms) as [F|(HD & _)]; [left; apply (dead_stays c m _ F)|]. destruct m as [i|e].
    - right. apply (NI_step c i (st ms) Hs HD); auto.
    - cbn [dmove]. destruct (env_pc e (st ms)) as [F|(P & [Q|Q])]; [now left|right..].
      + unfold NI in *. now rewrite P, Q.
      + unfold NI. now rewrite P, Q.
  Qed.
  (* A round that ends with the flush of line 181 leaves no bytes behind that
     nobody has looked at. *)
  Theorem C68_seen : forall ms i n w, truthful c h09 flat wmax evs (ms ++ [Step i]) ->
    d_pc (st ms) = PFlush n w -> d_pc (st (ms ++ [Step i])) = PFinish -> ~ unread (d_conn (st (ms ++ [Step i]))).
  Proof.
    intros ms i n w Ht Ep. rewrite snoc. cbn [dmove]. apply truthful_app in Ht. destruct Ht as (Ht & Hi).
    destruct (NI_all ms Ht) as [F|HN]; [congruence|]. destruct (DD_all c h09 flat wmax evs Hs ms) as [F|(HD & _)]; [change (d_pc (st ms) = PDead) in F; congruence|].
    apply (NI_step c i (st ms) Hs HD) with (n := n) (w := w); auto.
  Qed.
  (* Whenever such bytes are left at the end of a poll, the connection knows it. *)
  Theorem C68_flagged : forall ms, truthful c h09 flat wmax evs ms ->
    d_pc (st ms) = PFinish -> unread (d_conn (st ms)) -> k_notify (d_conn (st ms)) = true.
  Proof. intros ms Ht Ep U. destruct (NI_all ms Ht) as [F|HN]; [congruence|]. unfold NI in HN. rewrite Ep in HN. auto. Qed.

  Lemma BT_all ms : d_pc (st ms) = PDead \/ BT (st ms) /\ (wflat (k_wb (d_conn (st ms))) = flat /\ flatq (k_wb (d_conn (st ms)))).
  Proof.
    induction ms as [|m ms IH] using rev_ind; [right; split; [discriminate|split; [reflexivity|intros _; reflexivity]]|]. rewrite snoc.
    destruct IH as [F|(HB & HF & HQ)]; [left; apply (dead_stays c m _ F)|]. destruct m as [i|e]; cbn [dmove].
    - destruct (BT_step c i (st ms) HB) as [F|B1]; [now left|]. destruct (wk_step c i (st ms)) as [F|(W1 & W2)]; [now left|]. right. split; [exact B1|]. split; [congruence|auto].
    - destruct e as [s| | |]; cbn [estep].
      + rewrite Hs. auto.
      + destruct (d_pc (st ms)); auto. rewrite Hs. right. unfold d_graceful, k_disable_keep_alive, BT. destruct (is_idle (d_conn (st ms))) eqn:Ei; cbn [d_conn dset_conn].
        * cbn [is_write_closed st_close set_ka set_writing k_writing orb]. cbn. split; [discriminate|auto].
        * destruct (_ || _); cbn; (split; [discriminate || exact HB|auto]).
      + destruct (d_pc (st ms)); auto.
      + right. destruct (d_pc (st ms)), (k_log (d_conn (st ms))); auto. rewrite Hs. unfold BT in *. cbn. auto.
  Qed.
  Lemma RI_run is : forall ms, all_at_once c is (st ms) -> RI c (st ms) -> d_pc (st (ms ++ map Step is)) = PDead \/ RI c (st (ms ++ map Step is)).
  Proof.
    induction is as [|i is IH]; intros ms Ha H; [rewrite app_nil_r; now right|]. destruct Ha as (Ha & Hr). cbn [map].
    replace (ms ++ Step i :: map Step is) with ((ms ++ [Step i]) ++ map Step is) by (rewrite <- app_assoc; reflexivity).
    assert (forall l ms, d_pc (st ms) = PDead -> d_pc (st (ms ++ l)) = PDead) as D.
    { clear - Hs. induction l as [|m l IHl]; intros ms F; [now rewrite app_nil_r|]. replace (ms ++ m :: l) with ((ms ++ [m]) ++ l) by (rewrite <- app_assoc; reflexivity). apply IHl. rewrite snoc. apply (dead_stays c m _ F). }
    destruct (DD_all c h09 flat wmax evs Hs ms) as [F|(HD & _)]; [left; apply D, D, F|]. destruct (BT_all ms) as [F|(HB & _ & HQ)]; [left; apply D, D, F|].
    destruct (RI_step c i (st ms) Hs HD (server_inv c Hs ms _ (SInv_start h09 flat wmax evs)) HB HQ Ha H) as [F|R].
    - left. apply D. rewrite snoc. exact F.
    - apply IH; rewrite snoc; [exact Hr|exact R].
  Qed.
  (* When nothing outside says Pending, a poll ends only if the connection is
     done, or if it has left a request to its service without asking it for the
     response. *)
  Theorem C68_ready : forall ms is, (d_pc (st ms) = PIdle \/ exists n, d_pc (st ms) = PRead n) -> nowait (r_evs (k_rd (d_conn (st ms)))) -> all_at_once c is (st ms) ->
    d_pc (st (ms ++ map Step is)) = PFinish -> d_is_done c (st (ms ++ map Step is)) = true \/ held (st (ms ++ map Step is)).
  Proof.
    intros ms is Hp Hn Ha Hf. destruct (RI_run is ms Ha) as [F|(_ & H)]; [|congruence|rewrite Hf in H; exact H].
    split; [exact Hn|]. destruct Hp as [-> |(n & ->)]; exact I.
  Qed.
  (* The second does not happen to a connection that flattens its buffers. *)
  Theorem C68_ready_flat : forall ms is, flat = true -> (d_pc (st ms) = PIdle \/ exists n, d_pc (st ms) = PRead n) -> nowait (r_evs (k_rd (d_conn (st ms)))) -> all_at_once c is (st ms) ->
    d_pc (st (ms ++ map Step is)) = PFinish -> d_is_done c (st (ms ++ map Step is)) = true.
  Proof.
    intros ms is Hfl Hp Hn Ha Hf. destruct (C68_ready ms is Hp Hn Ha Hf) as [H|(_ & _ & H)]; [exact H|].
    destruct (BT_all (ms ++ map Step is)) as [F|(_ & F & _)]; congruence.
  Qed.
End Server.

(* ---- Examples ---- *)
Definition two_gets : bytes := line (B "GET / HTTP/1.1") ++ line (B "GET / HTTP/1.1").
Definition rest_cfg : cfg := ex_cfg true false None.
Definition with_writes (i : inp) (w : list wevent) : inp :=
  mkI (i_now i) (i_blk i) (i_room i) w (i_canceled i) (i_body i) (i_send i) (i_msg i) (i_req i) (i_frame i) (i_eos i) (i_shutdown i) (i_race i).
Definition with_reader (i : inp) (b : bready) : inp :=
  mkI (i_now i) (i_blk i) (i_room i) (i_wevs i) (i_canceled i) b (i_send i) (i_msg i) (i_req i) (i_frame i) (i_eos i) (i_shutdown i) (i_race i).
Lemma never_blocked c h09 flat wmax evs ms : Forall (fun m => match m with Step i => i_blk i = false | Env _ => True end) ms -> truthful c h09 flat wmax evs ms.
Proof. intros H a i b -> F. apply Forall_app in H. destruct H as (_ & H). inversion H; subst. congruence. Qed.

(* A response whose body is not there yet; then the body is over *)
Definition body_later : inp := inp_of (Ready (Ok (ok200, Some Unknown))) get Pending.
Definition body_over : inp := inp_of Pending get (Ready None).
(* A poll that ends while the second of two requests waits for its response *)
Example C68_seen_ex : exists ms i,
  truthful rest_cfg false true 8192 (open_with two_gets) (ms ++ [Step i]) /\
  d_pc (after rest_cfg false true 8192 (open_with two_gets) ms) = PFlush 15 false /\
  d_pc (after rest_cfg false true 8192 (open_with two_gets) (ms ++ [Step i])) = PFinish.
Proof. exists (steps 6 (answer ok200) ++ steps 3 (ask get)), (ask get). split; [apply never_blocked; repeat constructor|]. split; vm_compute; reflexivity. Qed.

(* ---- The stronger claims ---- *)
(* The end of a response body that shows up in the second write of a round
   (dispatch.rs 199-218) makes the connection idle in the flush after it, and
   the flag that asks for another read is not looked at there: the connection
   goes to rest with a whole request in its buffer and with nothing it waits
   for (finding F46). *)
Notation stall := (after rest_cfg false true 8192 [EvData two_gets] (steps 6 body_later ++ steps 3 body_over)).
Lemma stall_state : d_pc stall = PFinish /\ unread (d_conn stall) /\ d_is_done rest_cfg stall = false.
Proof. split; [vm_compute; reflexivity|]. split; [split; [vm_compute; reflexivity|split; vm_compute; [discriminate|reflexivity]]|vm_compute; reflexivity]. Qed.
Theorem C68_seen_always_refuted : exists c h09 flat wmax evs ms, c_server c = true /\ truthful c h09 flat wmax evs ms /\
  d_pc (after c h09 flat wmax evs ms) = PFinish /\ unread (d_conn (after c h09 flat wmax evs ms)) /\ d_is_done c (after c h09 flat wmax evs ms) = false.
Proof.
  exists rest_cfg, false, true, 8192, [EvData two_gets], (steps 6 body_later ++ steps 3 body_over). split; [reflexivity|].
  split; [apply never_blocked; repeat constructor|]. exact stall_state.
Qed.

(* A response that is finished before its request has been received, while the
   transport does not take it; then the rest of that request; then the transport
   takes everything and another request is there. *)
Definition put_line : bytes := line (B "PUT / HTTP/1.1").
Definition early : inp := with_writes (inp_of (Ready (Ok (ok200, Some (Known 2)))) get (Ready (Some (Ok (UData (Segs true [B "ok"])))))) [].
Definition late_evs : list event := [EvData put_line; EvData (B "abc"); EvPending; EvPending; EvData two_gets].
Definition late_moves : list move := steps 8 (with_reader early BPending) ++ steps 6 early.
Definition prompt : inp := inp_of (Ready (Ok (ok200, None))) get (Ready None).
Notation late n := (after rest_cfg false false 8192 late_evs (late_moves ++ steps n prompt)).
Lemma steps_map n i : steps n i = map Step (repeat i n).
Proof. unfold steps. induction n as [|n IH]; [reflexivity|]. cbn. now rewrite IH. Qed.
Fixpoint flushes (c : cfg) (is : list inp) (d : disp) : bool :=
  match is with
  | [] => true
  | i :: r => match snd (d_flush c i d) with Pending => false | _ => flushes c r (dstep c i d) end
  end.
Lemma flushes_at_once c is : forall d, Forall (fun i => i_msg i <> Pending /\ i_frame i <> Pending /\ i_body i <> BPending /\ i_blk i = false) is -> flushes c is d = true -> all_at_once c is d.
Proof.
  induction is as [|i is IH]; intros d H F; [exact I|]. inversion H as [|? ? (A & B' & C & D) H']; subst. cbn [flushes] in F. destruct (snd (d_flush c i d)) eqn:E; [discriminate F|].
  split; [split; [exact A|]; split; [exact B'|]; split; [exact C|]; split; [exact D|]; congruence|]. apply IH; auto.
Qed.
Lemma prompt_all n : Forall (fun i => i_msg i <> Pending /\ i_frame i <> Pending /\ i_body i <> BPending /\ i_blk i = false) (repeat prompt n).
Proof. induction n; constructor; auto. repeat split; discriminate. Qed.
Lemma late_state : d_pc (late 0) = PIdle /\ nowait (r_evs (k_rd (d_conn (late 0)))) /\ flushes rest_cfg (repeat prompt 6) (late 0) = true /\
  d_pc (late 6) = PFinish /\ held (late 6) /\ d_is_done rest_cfg (late 6) = false.
Proof.
  split; [vm_compute; reflexivity|]. split; [vm_compute; intros [F|[]]; discriminate F|]. split; [vm_compute; reflexivity|]. split; [vm_compute; reflexivity|].
  split; [split; [vm_compute; reflexivity|split; vm_compute; reflexivity]|vm_compute; reflexivity].
Qed.
(* The head of the next response cannot be written while the queue holds bytes
   (conn.rs 569-578, io.rs 135-137), so the service is not asked; the flush that
   empties the queue comes after that, and nothing makes the loop go round
   again: the connection rests although the service and everything else is ready
   (finding F47). *)
Theorem C68_ready_always_refuted : exists c h09 flat wmax evs ms is, c_server c = true /\
  d_pc (after c h09 flat wmax evs ms) = PIdle /\ nowait (r_evs (k_rd (d_conn (after c h09 flat wmax evs ms)))) /\ all_at_once c is (after c h09 flat wmax evs ms) /\
  d_pc (after c h09 flat wmax evs (ms ++ map Step is)) = PFinish /\ d_is_done c (after c h09 flat wmax evs (ms ++ map Step is)) = false.
Proof.
  exists rest_cfg, false, false, 8192, late_evs, late_moves, (repeat prompt 6). destruct late_state as (A & B' & C & D & _ & E). rewrite (steps_map 6) in D, E. cbn [steps repeat] in A, B', C. rewrite app_nil_r in A, B', C.
  split; [reflexivity|]. split; [exact A|]. split; [exact B'|]. split; [apply flushes_at_once; [apply prompt_all|exact C]|]. split; [exact D|exact E].
Qed.
(* Everything ready, until the peer has closed its side *)
Definition half_cfg : cfg := let c := rest_cfg in
  mkCfg true (c_parse c) (c_dt c) (c_reason c) (c_date c) (c_date_header c) (c_title c) (c_max_headers c) (c_max c) (c_pipeline c) (c_take_vec c) true (c_timeout c).
Definition all_there (n : nat) : disp := after half_cfg false true 8192 [EvData two_gets] (steps n prompt).
Example C68_ready_ex : nowait (r_evs (k_rd (d_conn (all_there 0)))) /\ all_at_once half_cfg (repeat prompt 11) (all_there 0) /\ d_pc (all_there 0) = PIdle /\ d_pc (all_there 11) = PFinish /\ d_is_done half_cfg (all_there 11) = true.
Proof. split; [intros [F|[]]; discriminate F|]. split; [apply flushes_at_once; [apply prompt_all|vm_compute; reflexivity]|]. split; [reflexivity|]. split; vm_compute; reflexivity. Qed.
Print Assumptions C68_seen.
Print Assumptions C68_flagged.
Print Assumptions C68_ready.
Print Assumptions C68_ready_flat.
Print Assumptions C68_seen_always_refuted.
Print Assumptions C68_ready_always_refuted.
