(* Theorems about the byte stream that a connection writes: C58. *)
From Verif Require Import Base M_Src M_Decode M_HeaderMap M_Headers M_Encode M_Role M_RoleEncode M_Buf M_WriteBuf M_Read M_Conn M_Dispatch S_Conn S_Client S_Buf L_Buf L_WriteBuf L_Conn L_Moves L_ConnS L_ConnC L_Ext L_Exch L_Ka L_Outcome L_Stream P_Conn.

(* The application's body buffers keep the contract of the Buf trait *)
Definition good_moves (c : cfg) (ms : list move) : Prop := Forall (fun m => match m with Step i => good_inp c i | Env _ => True end) ms.
(* Who is safe: a client, a connection whose transport has no vectored writes,
   or a server as long as it has written nothing of its own accord *)
Definition in_order (c : cfg) (flat : bool) (l : list levent) : Prop :=
  flat = true \/ client_cfg c \/ forallb (fun e => negb (unasked e)) l = true.

Lemma TInv_start pl h09 flat wmax evs : TInv pl flat (start h09 flat wmax evs).
Proof.
  split; [right|intros a b E; destruct a; discriminate].
  split; [|split; [reflexivity|split; [reflexivity|discriminate]]]. unfold wb_wf. cbn. repeat split; auto; lia.
Qed.
Lemma not_wild c flat h09 wmax evs ms : in_order c flat (history c h09 flat wmax evs ms) ->
  ~ (flat = false /\ existsb unasked (history c h09 flat wmax evs ms) = true).
Proof.
  intros O (F & W). apply existsb_exists in W. destruct W as (e & Hi & He). destruct O as [O|[O|O]].
  - congruence.
  - pose proof (client_inv c O ms _ (CInv_start h09 flat wmax evs)) as (x & Hx & _).
    change (k_log (d_conn (run c ms (start h09 flat wmax evs)))) with (history c h09 flat wmax evs ms) in Hx.
    apply in_split in Hi. destruct Hi as (a & b & E). rewrite E in Hx. clear - Hx He.
    assert (forall a x0, x_run x_client x0 (a ++ e :: b) = Some x -> False) as Q; [|exact (Q _ _ Hx)].
    clear a Hx. induction a as [|y a IH]; intros [i o k w ov] H; cbn in H.
    + destruct e as [| | | | | | |[]| | | | | | | | | | |]; discriminate.
    + destruct (x_client (mkX i o k w ov) y) as [x1|] eqn:E1; cbn in E1; rewrite E1 in H; [exact (IH _ H)|discriminate].
  - rewrite forallb_forall in O. specialize (O e Hi). rewrite He in O. discriminate.
Qed.
Lemma stream_ok c h09 flat wmax evs ms : good_moves c ms -> TInv (c_pipeline c) flat (after c h09 flat wmax evs ms).
Proof. intros G. unfold after. apply (Inv_run_good c (TInv (c_pipeline c) flat) (good_inp c) (stream_stable flat c)); [exact G|apply TInv_start]. Qed.

(* What the transport took, followed by what is in the write buffer, is what was
   queued, in the order of the messages *)
Theorem C58_stream_order : forall c h09 flat wmax evs ms, good_moves c ms ->
  in_order c flat (history c h09 flat wmax evs ms) ->
  let k := d_conn (after c h09 flat wmax evs ms) in
  taken (history c h09 flat wmax evs ms) ++ wb_den (k_wb k) = queued (history c h09 flat wmax evs ms) /\
  (has_buffered_write k = false -> taken (history c h09 flat wmax evs ms) = queued (history c h09 flat wmax evs ms)).
Proof.
  intros c h09 flat wmax evs ms G O k. destruct (stream_ok c h09 flat wmax evs ms G) as (T & _).
  destruct T as [T|(W & _ & Q & _)]; [destruct (not_wild _ _ _ _ _ _ O T)|].
  change (k_log (d_conn (after c h09 flat wmax evs ms))) with (history c h09 flat wmax evs ms) in Q.
  split; [exact Q|]. intros H. unfold has_buffered_write in H. rewrite wb_rem_den in H.
  assert (wb_den (k_wb k) = []) as E by (apply lenN_0; destruct (lenN (wb_den (k_wb k))); [reflexivity|discriminate]).
  unfold k in *. rewrite E, app_nil_r in Q. exact Q.
Qed.
(* The transport is shut down only when it has taken everything *)
Theorem C58_shutdown_complete : forall c h09 flat wmax evs ms a b, good_moves c ms -> c_pipeline c = false ->
  in_order c flat (history c h09 flat wmax evs ms) ->
  history c h09 flat wmax evs ms = a ++ LShutdown :: b -> taken a = queued a.
Proof.
  intros c h09 flat wmax evs ms a b G P O E. destruct (stream_ok c h09 flat wmax evs ms G) as (_ & S).
  destruct (S a b E) as [F|[(F & W)|Q]]; [congruence| |exact Q].
  destruct (not_wild _ _ _ _ _ _ O). split; [exact F|]. rewrite E, existsb_app, W. reflexivity.
Qed.

(* A response with a body, written in pieces *)
Definition hello : buf := Segs true [B "hel"; B "lo"].
Definition say_hello (b : bready) (wevs : list wevent) : inp :=
  mkI 0 false true wevs false b true (Ready (Ok (ok200, Some (Known 5)))) (get, None) (Ready (Some (Ok (UData hello)))) true (Ready (Ok tt)) [].
Lemma good_hello pl b wevs : good_inp (ex_cfg true pl None) (say_hello b wevs).
Proof. unfold good_inp. cbn. split; [repeat constructor; discriminate|]. split; [left; reflexivity|]. right. split; [reflexivity|]. cbn. lia. Qed.
Lemma good_answer c m r : good_inp c (inp_of m r Pending).
Proof. exact I. Qed.
Lemma good_steps c n i : good_inp c i -> good_moves c (steps n i).
Proof. intros H. apply Forall_forall. intros m Hm. apply repeat_spec in Hm. subst m. exact H. Qed.
Example C58_ex : exists ms a b, good_moves (ex_cfg true false None) ms /\
  in_order (ex_cfg true false None) false (history (ex_cfg true false None) false false 8192 (open_with (line (B "GET /last HTTP/1.1"))) ms) /\
  history (ex_cfg true false None) false false 8192 (open_with (line (B "GET /last HTTP/1.1"))) ms = a ++ LShutdown :: b /\
  In (LSent (B "HTTP/1.1 200 OK" ++ CRLF ++ B "connec")) a /\ lenN (taken a) = 62.
Proof.
  exists (steps 60 (say_hello BReady [WAccept 3; WAccept 20; WPending; WAccept 50])).
  eexists [_; _; _; _; _; _; _; _], _.
  split; [apply good_steps, good_hello|]. split; [right; right; vm_compute; reflexivity|]. split; [vm_compute; reflexivity|].
  split; [|vm_compute; reflexivity]. cbn. auto 12.
Qed.

(* Finding: a server whose transport has vectored writes puts the head of an
   automatic error response, or a 100 Continue, before the body of the previous
   response if that body is still in the queue *)
Definition waiting (b : bready) (wevs : list wevent) : inp :=
  mkI 0 false true wevs false b true Pending (get, None) Pending true (Ready (Ok tt)) [].
Definition late (next : bytes) : list event := EvData (line (B "PUT / HTTP/1.1")) :: EvPending :: EvData (B "abc" ++ next) :: repeat EvPending 100.
Definition blocked : list move :=
  steps 8 (say_hello BPending [WPending]) ++ steps 20 (waiting BReady [WPending]) ++ steps 40 (waiting BReady [WAccept 65536]).
Lemma good_blocked pl : good_moves (ex_cfg true pl None) blocked.
Proof. apply Forall_app. split; [apply good_steps, good_hello|]. apply Forall_app. split; apply good_steps; exact I. Qed.
Theorem C58_order_refuted : exists ms evs a h bad b, good_moves (ex_cfg true false None) ms /\
  history (ex_cfg true false None) false false 8192 evs ms = a ++ LHead true h bad :: b /\
  queued (history (ex_cfg true false None) false false 8192 evs ms) = queued a ++ bad /\
  (exists head, queued a = head ++ B "hello" /\
    taken (history (ex_cfg true false None) false false 8192 evs ms) = head ++ bad ++ B "hello").
Proof.
  exists blocked, (late (B "some bytes that are not a request")). eexists [_; _; _; _; _; _; _; _], _, _, _. split; [apply good_blocked|].
  split; [vm_compute; reflexivity|]. split; [vm_compute; reflexivity|]. exists (B "HTTP/1.1 200 OK" ++ CRLF ++ line (B "content-length: 5")). split; vm_compute; reflexivity.
Qed.
Theorem C58_continue_order_refuted : exists ms evs, good_moves (ex_cfg true false None) ms /\
  exists head, queued (history (ex_cfg true false None) false false 8192 evs ms) = head ++ B "hello" ++ line (B "HTTP/1.1 100 Continue") /\
    taken (history (ex_cfg true false None) false false 8192 evs ms) = head ++ line (B "HTTP/1.1 100 Continue") ++ B "hello".
Proof.
  exists blocked, (late (line (B "PUT / HTTP/1.1"))). split; [apply good_blocked|].
  exists (B "HTTP/1.1 200 OK" ++ CRLF ++ line (B "content-length: 5")). split; vm_compute; reflexivity.
Qed.
(* Finding: with pipeline_flush the last response is never written if the peer
   has sent anything after the last request *)
Theorem C58_pipeline_refuted : exists ms evs a h bs b, good_moves (ex_cfg true true None) ms /\
  history (ex_cfg true true None) false true 8192 evs ms = a ++ LHead false h bs :: LEnd :: LShutdown :: b /\
  o_subject h = OResponse 200 None /\ bs <> [] /\ taken (history (ex_cfg true true None) false true 8192 evs ms) = [] /\ In (LReturn None) b.
Proof.
  exists (steps 60 (answer ok200)), (open_with (line (B "GET /last HTTP/1.1") ++ B "x")). eexists [_; _], _, _, _.
  split; [apply good_steps; exact I|]. split; [vm_compute; reflexivity|]. split; [reflexivity|]. split; [discriminate|]. split; [vm_compute; reflexivity|]. cbn. auto.
Qed.

Print Assumptions C58_stream_order.
Print Assumptions C58_shutdown_complete.
Print Assumptions C58_order_refuted.
Print Assumptions C58_continue_order_refuted.
Print Assumptions C58_pipeline_refuted.
