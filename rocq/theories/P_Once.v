(* C70: a server that was built with keep_alive(false) *)
From Verif Require Import Base M_Src M_Decode M_HeaderMap M_Headers M_Encode M_Role M_RoleEncode M_Buf M_WriteBuf M_Read M_Conn M_Dispatch S_Conn L_Conn L_Moves L_ConnS L_Ka L_Exch L_Framing P_Conn P_Graceful.

(* ---- Specification ---- *)
(* Every execution of such a server begins with the builder's call *)
Notation served_once c h09 flat wmax evs ms := (history c h09 flat wmax evs (Env EOff :: ms)).
(* The application's own heads do not contain the word *)
Definition app_never_names (word : bytes) (ms : list move) : Prop := moves_ok (fun h => ~ names h word) ms.

(* ---- Theorems ---- *)
(* It is what the builder does to a new connection (server/conn/http1.rs 463-465) *)
Lemma off_is_disable c h09 flat wmax evs : c_server c = true ->
  estep c EOff (start h09 flat wmax evs) = dset_conn (start h09 flat wmax evs) (k_disable_keep_alive (conn_new h09 flat wmax evs)).
Proof. intros Hs. cbn [estep]. rewrite Hs. reflexivity. Qed.
Lemma off_state c h09 flat wmax evs : c_server c = true ->
  let d := after c h09 flat wmax evs [Env EOff] in k_ka (d_conn d) = KDisabled /\ k_log (d_conn d) = [] /\ k_version (d_conn d) = HTTP11.
Proof. intros Hs. cbn zeta. unfold after. cbn [run fold_left dmove]. rewrite off_is_disable by exact Hs. auto. Qed.

(* One request is taken in and one response is written, whatever the client and
   the application do *)
Theorem C70_once : forall c h09 flat wmax evs ms, c_server c = true ->
  (count is_LIn (served_once c h09 flat wmax evs ms) <= 1)%nat /\ (count is_LHead (served_once c h09 flat wmax evs ms) <= 1)%nat.
Proof.
  intros c h09 flat wmax evs ms Hs. destruct (off_state c h09 flat wmax evs Hs) as (Hk & Hl & _).
  destruct (C29_ruled_out c h09 flat wmax evs [Env EOff] ms (or_introl Hs) Hk) as (l & L & H1 & _ & H2 & _).
  change ([Env EOff] ++ ms) with (Env EOff :: ms) in L. unfold history in *. rewrite L. change (run c [Env EOff] (start h09 flat wmax evs)) with (after c h09 flat wmax evs [Env EOff]). rewrite Hl. auto.
Qed.
(* The response tells an HTTP/1.1 client so *)
Theorem C70_says_close : forall c h09 flat wmax evs ms a auto h bs b, c_server c = true ->
  served_once c h09 flat wmax evs ms = a ++ LHead auto h bs :: b -> vlast HTTP11 a = HTTP11 -> names h (B "close").
Proof.
  intros c h09 flat wmax evs ms a auto h bs b Hs E Hv. destruct (off_state c h09 flat wmax evs Hs) as (Hk & Hl & Hv0).
  destruct (disabled_says_close c (after c h09 flat wmax evs [Env EOff]) ms Hs) as (l & L & Q); [apply ok_run; [now left|apply ok_start]|exact Hk|now rewrite Hl|].
  rewrite Hl in *. cbn [app] in L, Q. apply (Q a auto h bs b); [|exact Hv]. rewrite <- L, <- E. reflexivity.
Qed.

(* The head that goes out when keep-alive is ruled out promises nothing that the
   application's head did not *)
Lemma no_promise c auto k h body : c_server c = true -> k_ka k = KDisabled -> ~ names h (B "keep-alive") ->
  forall auto' h' bs, In (LHead auto' h' bs) (k_log (write_head c auto k h body)) -> In (LHead auto' h' bs) (k_log k) \/ ~ names h' (B "keep-alive").
Proof.
  intros Hs Hk Hn auto' h' bs. unfold write_head, encode_head. rewrite Hs.
  assert (let (k1, h1) := enforce_version k h in k_log k1 = k_log k /\ ~ names h1 (B "keep-alive")) as Q.
  { unfold enforce_version. destruct (k_version k); auto.
    - unfold fix_keep_alive, wants_keep_alive. destruct (match hm_get _ _ with Some _ => _ | None => _ end); [auto|]. destruct (o_version h); auto. rewrite Hk. auto.
    - rewrite Hk. split; [reflexivity|]. intros (v & Hv & T). cbn [o_headers o_set_headers] in Hv. rewrite hm_get_all_insert, beq_refl in Hv. destruct Hv as [<- |[]].
      apply connection_keep_spec in T. discriminate T. }
  destruct (enforce_version k h) as [k1 h1]. destruct Q as (Q1 & Q2).
  destruct (t_encode c k1 h1 body) as [[out m] [e|e]]; cbn [k_log log set_writing set_method set_wb set_error]; rewrite ?in_app_iff, Q1.
  - intros [[F|F]|F]; [now left|right|]; [destruct F as [F|[]]; injection F as _ <- _; exact Q2|]. destruct (enc_is_eof e); [destruct F as [F|[]]; discriminate F|destruct F].
  - intros [F|F]; [now left|]. destruct F as [F|[]]. discriminate F.
Qed.
(* No client is promised another exchange, unless by the application's own header *)
Theorem C70_no_promise : forall c h09 flat wmax evs ms auto h bs, c_server c = true -> app_never_names (B "keep-alive") ms ->
  In (LHead auto h bs) (served_once c h09 flat wmax evs ms) -> ~ names h (B "keep-alive").
Proof.
  intros c h09 flat wmax evs ms auto h bs Hs Hm Hi. destruct (off_state c h09 flat wmax evs Hs) as (Hk & Hl & _).
  set (P := fun k => k_ka k = KDisabled /\ forall auto h bs, In (LHead auto h bs) (k_log k) -> ~ names h (B "keep-alive")).
  assert (P (d_conn (run c ms (after c h09 flat wmax evs [Env EOff])))) as (_ & Q).
  { apply (run_P c (fun h => ~ names h (B "keep-alive")) P (or_introl Hs)).
    - intros h0 (st & p & -> & _) (v & [] & _).
    - intros k k' (P1 & P2) (l & (L & _ & D & _) & Hc & _). split; [apply (D P1)|]. intros auto0 h0 bs0 F. rewrite L in F. apply in_app_or in F. destruct F as [F|F]; [now apply (P2 _ _ _ F)|].
      exfalso. apply in_split in F. destruct F as (a & b & ->). rewrite count_app, count_cons in Hc. cbn in Hc. lia.
    - intros auto0 k h0 body (P1 & P2) Hw Hr Hn _. rewrite Hs in Hr. destruct (write_head_ka c auto0 k h0 body Hw (fun _ => Hr)) as (l & (_ & _ & D & _) & _). split; [apply (D P1)|].
      intros auto1 h1 bs1 F. destruct (no_promise c auto0 k h0 body Hs P1 Hn _ _ _ F) as [G|G]; [now apply (P2 _ _ _ G)|exact G].
    - exact Hm.
    - apply ok_run; [now left|apply ok_start].
    - split; [exact Hk|]. rewrite Hl. intros ? ? ? []. }
  apply (Q auto h bs Hi).
Qed.

(* The full statement: no client is promised another exchange.  It fails: an
   HTTP/1.0 client that asks for keep-alive is told so by an application that
   echoes the header, and the connection is shut down after that response. *)
Definition never_promised : Prop := forall c h09 flat wmax evs ms auto h bs, c_server c = true ->
  In (LHead auto h bs) (served_once c h09 flat wmax evs ms) -> ~ names h (B "keep-alive").
Definition ok200_keep : ohead := mkO HTTP11 (OResponse 200 None) [(B "connection", [B "keep-alive"]); (B "content-length", [B "0"])] None.
Lemma promise_broken : exists a h bs b,
  served_once (ex_cfg true false None) false true 8192 (open_with (line (B "GET / HTTP/1.0") ++ line (B "GET / HTTP/1.0"))) (steps 30 (answer ok200_keep)) = a ++ LHead false h bs :: b /\
  names h (B "keep-alive") /\ In LShutdown b.
Proof.
  eexists [_; _], _, _, _. split; [vm_compute; reflexivity|]. split; [|vm_compute; tauto].
  exists (B "keep-alive"). split; [now left|]. apply connection_keep_spec. reflexivity.
Qed.
Theorem C70_no_promise_refuted : ~ never_promised.
Proof.
  intros H. destruct promise_broken as (a & h & bs & b & E & N & _).
  refine (H (ex_cfg true false None) _ _ _ _ _ false h bs eq_refl _ N). rewrite E. apply in_or_app. right. now left.
Qed.

(* ---- Examples ---- *)
(* Two requests arrive at once: the first is answered, the response says close,
   the second is never taken in, and the connection ends. *)
Example C70_ex : exists a h bs b,
  served_once (ex_cfg true false None) false true 8192 (open_with (line (B "GET / HTTP/1.1") ++ line (B "GET / HTTP/1.1"))) (steps 30 (answer ok200)) = a ++ LHead false h bs :: b ++ [LShutdown; LReturn None] /\
  names h (B "close") /\ count is_LIn a = 1%nat /\ app_never_names (B "keep-alive") (steps 30 (answer ok200)).
Proof.
  eexists [_; _], _, _, [_; _]. split; [vm_compute; reflexivity|]. split; [exists (B "close"); split; [vm_compute; auto|apply connection_close_spec; reflexivity]|]. split; [reflexivity|].
  apply Forall_forall. intros m Hm. apply repeat_spec in Hm. subst m. split; intros (v & [] & _).
Qed.
(* Without the call both are *)
Example C70_ex_default : count is_LIn (history (ex_cfg true false None) false true 8192 (open_with (line (B "GET / HTTP/1.1") ++ line (B "GET / HTTP/1.1"))) (steps 30 (answer ok200))) = 2%nat.
Proof. vm_compute. reflexivity. Qed.

Print Assumptions C70_once.
Print Assumptions C70_says_close.
Print Assumptions C70_no_promise.
Print Assumptions C70_no_promise_refuted.
