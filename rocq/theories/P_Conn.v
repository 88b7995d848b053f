(* Theorems about whole HTTP/1 connections: C28-C32, C56. *)
From Verif Require Import Base M_Src M_Decode M_HeaderMap M_Headers M_Encode M_Role M_RoleEncode M_Buf M_WriteBuf M_Read M_Conn M_Dispatch S_Conn L_Conn L_Moves L_ConnS L_ConnC L_Ka L_Exch S_Framing L_Framing.

(* Everything that was logged in an execution from a new connection *)
Definition history (c : cfg) (h09 flat : bool) (wmax : N) (evs : list event) (ms : list move) : list levent :=
  k_log (d_conn (run c ms (start h09 flat wmax evs))).

(* ------------------------------------------------------------------ *)
(* For the examples: a parser that knows three requests and two responses *)
Definition ex_msg (v : version) (status : N) (len : dlen) (expect keep : bool) : inmsg :=
  mkIn v (Some (B "GET")) status [] len expect keep false.
Definition line (s : bytes) : bytes := s ++ CRLF ++ CRLF.
Definition ex_requests : list (bytes * inmsg) :=
  [ (line (B "GET / HTTP/1.1"), ex_msg HTTP11 0 0 false true)
  ; (line (B "GET /last HTTP/1.1"), ex_msg HTTP11 0 0 false false)
  ; (line (B "GET / HTTP/1.0"), ex_msg HTTP10 0 0 false true)
  ; (line (B "PUT / HTTP/1.1"), ex_msg HTTP11 0 3 true true) ].
Definition ex_responses : list (bytes * inmsg) :=
  [ (line (B "HTTP/1.1 200 OK"), ex_msg HTTP11 200 0 false true)
  ; (line (B "HTTP/1.0 200 OK"), ex_msg HTTP10 200 0 false true)
  ; (line (B "HTTP/1.1 204 No"), ex_msg HTTP11 204 0 false false) ].
Fixpoint ex_find (l : list (bytes * inmsg)) (b : bytes) : presult inmsg (parse_error * N) :=
  match l with
  | [] => if 20 <? lenN b then PFail (PMethod, 0) else PMore 0
  | (x, m) :: r => if beq (takeN (lenN x) b) x then PDone (lenN x) m else ex_find r b
  end.
Definition ex_cfg (server pipeline : bool) (timeout : option N) : cfg :=
  mkCfg server (fun _ _ b => ex_find (if server then ex_requests else ex_responses) b) (fun _ _ => None) (fun _ => Some (B "OK")) (B "now") false false None
    8192 pipeline true false timeout.
Lemma ex_client pipeline timeout : client_cfg (ex_cfg false pipeline timeout).
Proof.
  split; [reflexivity|]. intros me h b n m. cbn [c_parse ex_cfg]. unfold ex_responses. cbn [ex_find].
  repeat (destruct (beq _ _); [intros E; inversion E; reflexivity|]). destruct (_ <? _); discriminate.
Qed.
Definition ok200 : ohead := mkO HTTP11 (OResponse 200 None) [] None.
Definition ok200_close : ohead := mkO HTTP11 (OResponse 200 None) [(B "connection", [B "close"])] None.
Definition get : ohead := mkO HTTP11 (ORequest (B "GET") (B "/")) [] None.
Definition get_close : ohead := mkO HTTP11 (ORequest (B "GET") (B "/")) [(B "connection", [B "close"])] None.
Definition inp_of (msg : poll (result (ohead * option body_length) unit)) (req : ohead) (fr : poll (option (result uframe unit))) : inp :=
  mkI 0 false true [WAccept 65536; WAccept 65536; WAccept 65536] false BReady true msg (req, None) fr true (Ready (Ok tt)) [].
(* One delivery, then nothing more for a while *)
Definition open_with (d : bytes) : list event := EvData d :: repeat EvPending 100.
(* n steps with the same input *)
Definition steps (n : nat) (i : inp) : list move := repeat (Step i) n.
Definition answer (h : ohead) : inp := inp_of (Ready (Ok (h, None))) get Pending.
Definition ask (h : ohead) : inp := inp_of Pending h Pending.

(* ------------------------------------------------------------------ *)
(* C28 *)
Theorem C28_one_exchange_at_a_time : forall c h09 flat wmax evs ms, c_server c = true ->
  server_ok (history c h09 flat wmax evs ms).
Proof.
  intros c h09 flat wmax evs ms Hs. pose proof (server_inv c Hs ms _ (SInv_start h09 flat wmax evs)) as (x & Hx & _).
  unfold server_ok, history. now rewrite Hx.
Qed.
(* Between two requests: the first was read to its end, and exactly one response
   was written, to its end. *)
Theorem C28_exchange_complete : forall c h09 flat wmax evs ms a m b m' z, c_server c = true ->
  history c h09 flat wmax evs ms = a ++ LIn m :: b ++ LIn m' :: z -> count is_LIn b = 0%nat ->
  In LInEnd b /\ count is_LHead b = 1%nat /\
  exists b1 h bs b2 b3, b = b1 ++ LHead false h bs :: b2 ++ LEnd :: b3.
Proof.
  intros c h09 flat wmax evs ms a m b m' z Hs E Hc.
  pose proof (server_inv c Hs ms _ (SInv_start h09 flat wmax evs)) as (x & Hx & _).
  unfold history in E. rewrite E, x_run_app in Hx.
  destruct (x_run x_server x_start a) as [xa|]; [|discriminate]. cbn in Hx.
  destruct (x_server xa (LIn m)) as [xm|] eqn:Em; [|discriminate].
  rewrite x_run_app in Hx. destruct (x_run x_server xm b) as [xb|] eqn:Eb; [|discriminate]. cbn in Hx.
  destruct (x_server xb (LIn m')) as [xm'|] eqn:Em'; [|discriminate]. clear Hx E.
  assert (x_in xm = IOpen m /\ x_out xm = ONone /\ x_over xm = false) as (I1 & O1 & V1).
  { destruct xa as [i o k w ov]. cbn in Em. destruct (_ && _) in Em; [|discriminate]. inversion Em. auto. }
  assert (at_rest xb = true /\ x_over xb = false) as (R & V).
  { destruct xb as [i o k w ov]. cbn [x_server] in Em'. destruct (at_rest _ && negb ov) eqn:Q in Em'; [|discriminate].
    apply andb_prop in Q. destruct Q as [Q1 Q2]. split; [exact Q1|]. destruct ov; [discriminate|reflexivity]. }
  assert (x_in xb <> INone) as NI.
  { clear - Eb I1. assert (forall l x y, x_in x <> INone -> x_run x_server x l = Some y -> x_in y <> INone) as Q.
    { induction l as [|e l IH]; intros x y H1 H2; cbn in H2; [congruence|]. destruct (x_server x e) as [z|] eqn:Ez; [|discriminate].
      apply (IH z y); [|exact H2]. destruct x as [i o k w ov]. cbn in H1. destruct e; cbn in Ez;
        repeat match type of Ez with context [match ?v with _ => _ end] => destruct v eqn:?; try discriminate end; inversion Ez; cbn; try discriminate; exact H1. }
    apply (Q b xm xb); [rewrite I1; discriminate|exact Eb]. }
  unfold at_rest in R. destruct (x_in xb) as [|?|md|?] eqn:Ib; try discriminate; [congruence|].
  destruct (x_out xb) eqn:Ob; try discriminate.
  split; [eapply in_run; eauto|].
  pose proof (out_run b xm xb Eb Hc V Ob) as Q. rewrite O1 in Q. destruct Q as (b1 & h & bs & b2 & b3 & Q1 & Q2). split; [exact Q2|]. eauto 10.
Qed.
(* Two requests arrive in one read; each is answered before the next is taken. *)
Example C28_ex : exists ms a m b m' z,
  history (ex_cfg true false None) false true 8192
    (open_with (line (B "GET / HTTP/1.1") ++ line (B "GET /last HTTP/1.1"))) ms = a ++ LIn m :: b ++ LIn m' :: z
  /\ count is_LIn b = 0%nat /\ count is_LHead z = 1%nat.
Proof.
  exists (steps 60 (answer ok200)).
  eexists [], (ex_msg HTTP11 0 0 false true), [_; _; _; _], (ex_msg HTTP11 0 0 false false), _. vm_compute. repeat split.
Qed.

(* The same for a client *)
Theorem C28_client : forall c h09 flat wmax evs ms, client_cfg c -> client_ok (history c h09 flat wmax evs ms).
Proof.
  intros c h09 flat wmax evs ms Hc. pose proof (client_inv c Hc ms _ (CInv_start h09 flat wmax evs)) as (x & Hx & _).
  unfold client_ok, history. now rewrite Hx.
Qed.

(* ------------------------------------------------------------------ *)
(* C29 *)
Definition names (h : ohead) (word : bytes) : Prop :=
  exists v, In v (hm_get_all (o_headers h) (B "connection")) /\ text v /\ list_member v word.
Lemma names_close h : names h (B "close") -> connection_any_close (o_headers h) = true.
Proof.
  intros (v & Hi & Hv). unfold connection_any_close. apply existsb_exists. exists v. split; [exact Hi|now apply connection_close_spec].
Qed.
Lemma history_K c h09 flat wmax evs ms : side c ->
  exists k, KL c (history c h09 flat wmax evs ms) (conn_new h09 flat wmax evs) k.
Proof.
  intros Hs. destruct (run_K c ms (start h09 flat wmax evs) Hs (ok_start c h09 flat wmax evs)) as (l & H).
  exists (d_conn (run c ms (start h09 flat wmax evs))). unfold history.
  assert (l = k_log (d_conn (run c ms (start h09 flat wmax evs)))) as <-; [|exact H].
  symmetry. exact (proj1 H).
Qed.
Lemma history_over c h09 flat wmax evs ms a e b : side c -> history c h09 flat wmax evs ms = a ++ e :: b ->
  exists k, over c e b k.
Proof.
  intros Hs E. destruct (history_K c h09 flat wmax evs ms Hs) as (k & _ & _ & _ & _ & _ & H). exists k. eapply H, E.
Qed.
(* A message came in that ends the connection: no other comes in; a server
   still writes at most one response, a client writes nothing more. *)
Theorem C29_incoming_close : forall c h09 flat wmax evs ms a m b, side c ->
  history c h09 flat wmax evs ms = a ++ LIn m :: b -> in_keep m = false ->
  count is_LIn b = 0%nat /\ (count is_LHead b <= 1)%nat /\ (c_server c = false -> count is_LHead b = 0%nat).
Proof.
  intros c h09 flat wmax evs ms a m b Hs E Hk. destruct (history_over _ _ _ _ _ _ _ _ _ Hs E) as (k & H).
  destruct (H Hk) as (_ & H1 & H2 & H3). split; [lia|]. split; [lia|]. intros Hc. specialize (H3 Hc). lia.
Qed.
(* A response that says close is the last message of a server connection. *)
Theorem C29_response_close : forall c h09 flat wmax evs ms a auto h st rs bs b, c_server c = true ->
  history c h09 flat wmax evs ms = a ++ LHead auto h bs :: b -> o_subject h = OResponse st rs -> names h (B "close") ->
  count is_LIn b = 0%nat /\ count is_LHead b = 0%nat.
Proof.
  intros c h09 flat wmax evs ms a auto h st rs bs b Hs E Ho Hn.
  destruct (history_over _ _ _ _ _ _ _ _ _ (or_introl Hs) E) as (k & H). cbn in H. rewrite Hs, Ho in H.
  destruct (H (names_close h Hn)) as (_ & H1). exact H1.
Qed.
(* A request that says close is the last one of a client connection. *)
Theorem C29_request_close : forall c h09 flat wmax evs ms a auto h bs b, client_cfg c ->
  history c h09 flat wmax evs ms = a ++ LHead auto h bs :: b -> names h (B "close") ->
  count is_LHead b = 0%nat /\ (count is_LIn b <= 1)%nat.
Proof.
  intros c h09 flat wmax evs ms a auto h bs b Hc E Hn.
  destruct (history_over _ _ _ _ _ _ _ _ _ (or_intror Hc) E) as (k & H). cbn in H. rewrite (proj1 Hc) in H.
  destruct (H (names_close h Hn)) as (_ & H1 & H2). split; lia.
Qed.
(* A message that could not be read or written to its end is the last one. *)
Definition broken (e : levent) : bool := match e with LInError _ | LAbort | LHeadFail _ => true | _ => false end.
Definition torn (x : exch) : Prop := (exists m, x_in x = IBroken m) \/ x_out x = OBroken.
Lemma torn_server l : forall x y, torn x -> x_run x_server x l = Some y -> count is_LIn l = 0%nat.
Proof.
  induction l as [|e l IH]; intros x y Ht H; [reflexivity|]. cbn [x_run] in H. destruct (x_server x e) as [z|] eqn:Ez; [|discriminate].
  rewrite count_cons. destruct x as [i o k w ov]. unfold torn in Ht. cbn [x_in x_out] in Ht.
  assert (is_LIn e = false /\ torn z) as [-> Hz]; [|cbn; eapply IH; eassumption].
  unfold torn. destruct Ht as [(m & ->)| ->]; [|destruct i]; destruct e; cbn in Ez;
    repeat match type of Ez with context [match ?v with _ => _ end] => destruct v eqn:?; try discriminate end;
    inversion Ez; cbn; (split; [reflexivity|]); eauto.
Qed.
Lemma torn_client l : forall x y, torn x -> x_run x_client x l = Some y -> count is_LHead l = 0%nat.
Proof.
  induction l as [|e l IH]; intros x y Ht H; [reflexivity|]. cbn [x_run] in H. destruct (x_client x e) as [z|] eqn:Ez; [|discriminate].
  rewrite count_cons. destruct x as [i o k w ov]. unfold torn in Ht. cbn [x_in x_out] in Ht.
  assert (is_LHead e = false /\ torn z) as [-> Hz]; [|cbn; eapply IH; eassumption].
  unfold torn. destruct Ht as [(m & ->)| ->]; [|destruct i]; destruct e; cbn in Ez;
    repeat match type of Ez with context [match ?v with _ => _ end] => destruct v eqn:?; try discriminate end;
    inversion Ez; cbn; (split; [reflexivity|]); eauto.
Qed.
Theorem C29_broken_server : forall c h09 flat wmax evs ms a e b, c_server c = true ->
  history c h09 flat wmax evs ms = a ++ e :: b -> broken e = true -> count is_LIn b = 0%nat.
Proof.
  intros c h09 flat wmax evs ms a e b Hs E Hb. pose proof (server_inv c Hs ms _ (SInv_start h09 flat wmax evs)) as (x & Hx & _).
  unfold history in E. rewrite E, x_run_app in Hx.
  destruct (x_run x_server x_start a) as [xa|]; [|discriminate]. cbn in Hx.
  destruct (x_server xa e) as [xe|] eqn:Ee; [|discriminate]. eapply torn_server; [|exact Hx].
  unfold torn. destruct xa as [i o k w ov]. destruct e; try discriminate; cbn in Ee;
    repeat match type of Ee with context [match ?v with _ => _ end] => destruct v eqn:?; try discriminate end; inversion Ee; cbn; eauto.
Qed.
Theorem C29_broken_client : forall c h09 flat wmax evs ms a e b, client_cfg c ->
  history c h09 flat wmax evs ms = a ++ e :: b -> broken e = true -> count is_LHead b = 0%nat.
Proof.
  intros c h09 flat wmax evs ms a e b Hs E Hb. pose proof (client_inv c Hs ms _ (CInv_start h09 flat wmax evs)) as (x & Hx & _).
  unfold history in E. rewrite E, x_run_app in Hx.
  destruct (x_run x_client x_start a) as [xa|]; [|discriminate]. cbn in Hx.
  destruct (x_client xa e) as [xe|] eqn:Ee; [|discriminate]. eapply torn_client; [|exact Hx].
  unfold torn. destruct xa as [i o k w ov]. destruct e; try discriminate; cbn in Ee;
    repeat match type of Ee with context [match ?v with _ => _ end] => destruct v eqn:?; try discriminate end; inversion Ee; cbn; eauto.
Qed.
(* From any moment on at which keep-alive has been ruled out, for whatever
   reason: at most the request that is being received still comes in, and none
   if one has come in already; at most one response head is written; a client
   writes no request. *)
Definition after (c : cfg) (h09 flat : bool) (wmax : N) (evs : list event) (ms : list move) : disp :=
  run c ms (start h09 flat wmax evs).
Lemma run_app c a b d : run c (a ++ b) d = run c b (run c a d).
Proof. apply fold_left_app. Qed.
Theorem C29_ruled_out : forall c h09 flat wmax evs ms ms', side c ->
  let k := d_conn (after c h09 flat wmax evs ms) in
  k_ka k = KDisabled ->
  exists l, history c h09 flat wmax evs (ms ++ ms') = history c h09 flat wmax evs ms ++ l /\
    (count is_LIn l <= 1)%nat /\ (k_reading k <> RInit -> count is_LIn l = 0%nat) /\
    (count is_LHead l <= 1)%nat /\ (c_server c = false -> count is_LHead l = 0%nat).
Proof.
  intros c h09 flat wmax evs ms ms' Hs k Hk. subst k.
  assert (ok_state c (after c h09 flat wmax evs ms)) as Hok by (apply ok_run; [exact Hs|apply ok_start]).
  unfold history. rewrite run_app. change (run c ms (start h09 flat wmax evs)) with (after c h09 flat wmax evs ms).
  remember (after c h09 flat wmax evs ms) as d eqn:Ed. clear Ed.
  destruct (run_K c ms' d Hs Hok) as (l & L & _ & D & _). destruct (D Hk) as (Hk' & Hi & Ho).
  exists l. split; [exact L|].
  assert (bin (d_conn d) <= 1)%nat by (unfold bin; destruct (k_reading (d_conn d)); lia).
  assert (bout (d_conn d) <= 1)%nat by (unfold bout; destruct (k_writing (d_conn d)); lia).
  split; [lia|]. split; [intros Hr; assert (bin (d_conn d) = 0)%nat by (unfold bin; destruct (k_reading (d_conn d)); congruence); lia|].
  split; [lia|]. intros Hcl.
  assert (exists l0, k_log (d_conn (run c ms' d)) = k_log (d_conn d) ++ l0 /\ count is_LHead l0 = 0%nat /\ k_ka (d_conn (run c ms' d)) = KDisabled) as (l0 & L0 & Hz & _).
  { apply (run_P c (fun _ => True) (fun k' => exists l0, k_log k' = k_log (d_conn d) ++ l0 /\ count is_LHead l0 = 0%nat /\ k_ka k' = KDisabled) Hs (fun _ _ => I)).
    - intros k k' (l0 & L0 & Z0 & K0') (l1 & (L1 & _ & D1 & _) & Z1 & _). exists (l0 ++ l1). rewrite L1, L0, app_assoc, count_app, Z0, Z1.
      split; [reflexivity|]. split; [reflexivity|]. apply (D1 K0').
    - intros auto k h body (l0 & _ & _ & Kd) _ Hr. rewrite Hcl in Hr. destruct Hr as (_ & _ & F). contradiction.
    - apply moves_ok_any.
    - exact Hok.
    - exists []. rewrite app_nil_r. auto. }
  rewrite L in L0. apply app_inv_head in L0. congruence.
Qed.
(* A graceful shutdown rules keep-alive out. *)
Theorem C29_graceful : forall c h09 flat wmax evs ms, c_server c = true ->
  d_pc (after c h09 flat wmax evs ms) = PIdle ->
  k_ka (d_conn (after c h09 flat wmax evs (ms ++ [Env EGraceful]))) = KDisabled.
Proof.
  intros c h09 flat wmax evs ms Hs Hp. unfold after. rewrite run_app. change (run c ms (start h09 flat wmax evs)) with (after c h09 flat wmax evs ms).
  cbn [run fold_left dmove estep]. rewrite Hp, Hs. unfold d_graceful.
  assert (k_ka (k_disable_keep_alive (d_conn (after c h09 flat wmax evs ms))) = KDisabled) as Hd by (unfold k_disable_keep_alive; destruct (is_idle _); reflexivity).
  destruct (_ || _); [reflexivity|exact Hd].
Qed.
(* The second request says that it is the last; the third is never taken. *)
Example C29_ex : exists ms a m b,
  history (ex_cfg true false None) false true 8192
    (open_with (line (B "GET / HTTP/1.1") ++ line (B "GET /last HTTP/1.1") ++ line (B "GET / HTTP/1.1"))) ms = a ++ LIn m :: b
  /\ in_keep m = false /\ count is_LHead b = 1%nat.
Proof. exists (steps 60 (answer ok200)). eexists [_; _; _; _; _], (ex_msg HTTP11 0 0 false false), _. vm_compute. repeat split. Qed.
Example C29_ex_response : exists ms a h bs b,
  history (ex_cfg true false None) false true 8192
    (open_with (line (B "GET / HTTP/1.1") ++ line (B "GET / HTTP/1.1"))) ms = a ++ LHead false h bs :: b
  /\ o_subject h = OResponse 200 None /\ names h (B "close") /\ In LShutdown b.
Proof.
  exists (steps 60 (answer ok200_close)). eexists [_; _], ok200_close, _, _. split; [vm_compute; reflexivity|]. split; [reflexivity|].
  split; [|cbn; auto]. exists (B "close"). split; [now left|]. apply connection_close_spec. reflexivity.
Qed.
Example C29_ex_request : exists ms a h bs b,
  history (ex_cfg false false None) false true 8192 (EvPending :: open_with (line (B "HTTP/1.1 200 OK"))) ms = a ++ LHead false h bs :: b
  /\ names h (B "close") /\ count is_LIn b = 1%nat.
Proof.
  exists (Env (ESender SGive) :: Env (ESender SPush) :: steps 60 (ask get_close)). eexists [_], get_close, _, _. split; [vm_compute; reflexivity|].
  split; [|reflexivity]. exists (B "close"). split; [now left|]. apply connection_close_spec. reflexivity.
Qed.
(* A graceful shutdown while the first of two requests is being answered *)
Example C29_ex_graceful : exists ms ms' l, let c := ex_cfg true false None in
  let evs := open_with (line (B "GET / HTTP/1.1") ++ line (B "GET / HTTP/1.1")) in
  d_pc (after c false true 8192 evs ms) = PIdle /\
  history c false true 8192 evs (ms ++ Env EGraceful :: ms') = history c false true 8192 evs ms ++ l /\
  count is_LIn (history c false true 8192 evs ms) = 1%nat /\ count is_LHead l = 1%nat /\ count is_LIn l = 0%nat.
Proof.
  exists (steps 6 (inp_of Pending get Pending)), (steps 60 (answer ok200)). eexists. cbn zeta.
  split; [vm_compute; reflexivity|]. split; [vm_compute; reflexivity|]. vm_compute. repeat split.
Qed.

(* ------------------------------------------------------------------ *)
(* C30 *)
Theorem C30_idle_means_complete : forall c h09 flat wmax evs ms, client_cfg c ->
  k_ka (d_conn (after c h09 flat wmax evs ms)) = KIdle ->
  let l := history c h09 flat wmax evs ms in
  (exists a h bs b m, l = a ++ LHead false h bs :: b /\ count is_LHead b = 0%nat /\ In LEnd b /\
     In (LIn m) b /\ count is_LIn b = 1%nat /\ In LInEnd b) /\
  (forall m, In (LIn m) l -> in_keep m = true) /\
  (forall auto h bs, In (LHead auto h bs) l -> ~ names h (B "close")).
Proof.
  intros c h09 flat wmax evs ms Hc Hk l.
  pose proof (client_inv c Hc ms _ (CInv_start h09 flat wmax evs)) as (x & Hx & Hr & Hw & Hi & _).
  change (run c ms (start h09 flat wmax evs)) with (after c h09 flat wmax evs ms) in *.
  destruct (Hi Hk) as (Er & Ew & m & Em). rewrite Er, Ew in Hr. unfold at_rest in Hr. rewrite Em in Hr.
  destruct (x_out x) eqn:Eo; try discriminate.
  pose proof (client_part _ _ Hx) as Q. rewrite Eo, Em in Q. destruct Q as (a & e & b & Q1 & _ & Q2 & Q3 & _ & Q4 & Q5 & Q6).
  destruct (Q3 eq_refl) as [(h & bs & ->) Q7].
  destruct (run_K c ms (start h09 flat wmax evs) (or_intror Hc) (ok_start c h09 flat wmax evs)) as (l' & L & _ & _ & A & _).
  change (run c ms (start h09 flat wmax evs)) with (after c h09 flat wmax evs ms) in *.
  assert (l' = l) as -> by (symmetry; exact L).
  split; [exists a, h, bs, b, m; repeat split; auto|]. rewrite Hk in A. destruct A as [_ A]; [discriminate|].
  rewrite Forall_forall in A. split.
  - intros m' Hm. exact (A _ Hm).
  - intros auto h' bs' Hh F. specialize (A _ Hh (proj1 Hc)). rewrite (names_close h' F) in A. discriminate.
Qed.
Example C30_ex : exists ms,
  let d := after (ex_cfg false false None) false true 8192 (EvPending :: open_with (line (B "HTTP/1.1 200 OK"))) ms in
  k_ka (d_conn d) = KIdle /\ client_cfg (ex_cfg false false None).
Proof.
  exists (Env (ESender SGive) :: Env (ESender SPush) :: steps 20 (ask get)). cbn zeta. split; [vm_compute; reflexivity|]. apply ex_client.
Qed.

(* ------------------------------------------------------------------ *)
(* C31 *)
(* A 100 Continue belongs to a request that came in before it; for that request
   there was no 100 Continue and no response head yet, it asked for one with
   HTTP/1.1, its body is not complete, and the application has asked for the
   body. *)
Theorem C31_continue_once : forall c h09 flat wmax evs ms a b, c_server c = true ->
  history c h09 flat wmax evs ms = a ++ LContinue :: b ->
  exists m a1 a2, a = a1 ++ LIn m :: a2 /\ in_expect m = true /\ in_version m <> HTTP09 /\ in_version m <> HTTP10 /\
    In LWant a2 /\ ~ In LContinue a2 /\ count is_LHead a2 = 0%nat /\ count is_LIn a2 = 0%nat /\ ~ In LInEnd a2.
Proof.
  intros c h09 flat wmax evs ms a b Hs E. pose proof (server_inv c Hs ms _ (SInv_start h09 flat wmax evs)) as (x & Hx & _).
  unfold history in E. rewrite E, x_run_app in Hx. destruct (x_run x_server x_start a) as [xa|] eqn:Ea; [|discriminate]. cbn in Hx.
  destruct (x_server xa LContinue) as [xe|] eqn:Ee; [|discriminate].
  pose proof (server_part _ _ Ea) as P. destruct xa as [i o k w ov]. cbn in Ee. destruct i as [|m| |]; try discriminate. destruct o; try discriminate.
  destruct (_ && _) eqn:Q in Ee; [|discriminate]. clear Ee.
  apply andb_prop in Q. destruct Q as [Q Hw]. apply andb_prop in Q. destruct Q as [Q Hk]. apply andb_prop in Q. destruct Q as [He Hv].
  cbn in P. destruct P as (a1 & a2 & -> & P1 & P2 & P3 & P4). destruct k; [discriminate|].
  exists m, a1, a2. split; [reflexivity|]. split; [exact He|]. split; [intros X; rewrite X in Hv; discriminate|].
  split; [intros X; rewrite X in Hv; discriminate|]. split; [auto|]. split; [auto|]. split; [auto|]. split; [exact P1|].
  intros X. apply in_split in X. destruct X as (b1 & b2 & ->).
  rewrite x_run_app in Ea. destruct (x_run x_server x_start a1) as [x1|]; [|discriminate]. cbn [x_run] in Ea.
  destruct (x_server x1 (LIn m)) as [x2|]; [|discriminate]. rewrite x_run_app in Ea. destruct (x_run x_server x2 b1) as [x3|]; [|discriminate].
  cbn [x_run] in Ea. destruct (x_server x3 LInEnd) as [x4|] eqn:E4; [|discriminate].
  assert (x_in x4 = IDone (match x_in x3 with IOpen m => m | _ => m end)) as E5.
  { destruct x3 as [i3 o3 k3 w3 v3]. cbn in E4. destruct i3; try discriminate. inversion E4. reflexivity. }
  rewrite count_app, count_cons in P1. assert (count is_LIn b2 = 0%nat) as P5 by (cbn in P1; lia). clear - Ea E5 P5.
  assert (forall l x y m, count is_LIn l = 0%nat -> x_in x = IDone m -> x_run x_server x l = Some y -> x_in y = IDone m) as Q.
  { clear. induction l as [|e l IH]; intros x y m Hc Hi H; cbn in H; [congruence|]. rewrite count_cons in Hc.
    destruct (x_server x e) as [z|] eqn:Ez; [|discriminate]. apply (IH z y m); [lia| |exact H].
    destruct x as [i o k w ov]. cbn in Hi. subst i. destruct e; try discriminate; cbn in Ez;
      repeat match type of Ez with context [match ?v with _ => _ end] => destruct v eqn:?; try discriminate end; inversion Ez; reflexivity. }
  specialize (Q _ _ _ _ P5 E5 Ea). discriminate.
Qed.
(* The body of the request is read before the response is ready. *)
Example C31_ex : exists ms a b,
  history (ex_cfg true false None) false true 8192 (EvData (line (B "PUT / HTTP/1.1")) :: EvPending :: open_with (B "abc")) ms
  = a ++ LContinue :: b /\ count is_LHead b = 1%nat /\ In LInEnd b.
Proof.
  exists (steps 20 (inp_of Pending get Pending) ++ steps 20 (answer ok200)). eexists [_; _], _. split; [vm_compute; reflexivity|].
  split; [reflexivity|]. cbn. auto.
Qed.

(* ------------------------------------------------------------------ *)
(* C32 *)
(* [vlast]: the version of the last head from the peer.  While the application
   gives versions 1.0 and 1.1 only: after an HTTP/1.0 message of the peer, a
   head is written as HTTP/1.0; it says keep-alive, or no other exchange
   follows. *)
Definition explicit (c : cfg) (k : conn) : Prop :=
  k_version k = vlast HTTP11 (k_log k) /\
  forall a auto h bs b, k_log k = a ++ LHead auto h bs :: b -> vlast HTTP11 a = HTTP10 ->
    o_version h = HTTP10 /\
    (names h (B "keep-alive") \/
     k_ka k = KDisabled /\ (count is_LHead b + bout k = 0)%nat /\ (c_server c = true -> count is_LIn b + bin k = 0)%nat).
Lemma says_names h : says_keep_alive h -> names h (B "keep-alive").
Proof.
  intros (v & H1 & H2). exists v. split.
  - unfold hm_get in H1. destruct (hm_get_all _ _); [discriminate|]. inversion H1. now left.
  - now apply connection_keep_spec.
Qed.
Lemma explicit_run c ms d : side c -> moves_ok (fun h => old_version (o_version h)) ms -> ok_state c d -> explicit c (d_conn d) -> explicit c (d_conn (run c ms d)).
Proof.
  intros Hs Hm Hok He. apply (run_P c (fun h => old_version (o_version h)) (explicit c) Hs); auto.
  - intros h (st & p & -> & _). now right.
  - intros k k' (V & Q) (l & (L & V' & D & _) & Hc & _). split.
    + rewrite L, vlast_app, <- V. exact V'.
    + intros a auto h bs b El Hv. rewrite L in El. destruct (app_cons_split _ _ _ _ _ El) as [(b' & E1 & ->)|(a' & -> & E2)].
      * destruct (Q _ _ _ _ _ E1 Hv) as (Q1 & [Q2|(Q2 & Q3 & Q4)]); (split; [exact Q1|]); [now left|right].
        destruct (D Q2) as (D1 & D2 & D3). split; [exact D1|]. rewrite !count_app, Hc. split; [lia|]. intros Hsv. specialize (Q4 Hsv). lia.
      * rewrite E2, count_app, count_cons in Hc. cbn in Hc. lia.
  - intros auto k h body (V & Q) Hw Hr Ho _.
    destruct (write_head_ka c auto k h body Hw) as (l & (L & V' & D & _) & Er & Hn & R); [intros Hsv; rewrite Hsv in Hr; exact Hr|].
    split; [rewrite L, vlast_app, <- V; exact V'|].
    assert (bout k = 1%nat) as B1 by (unfold bout; now rewrite Hw).
    assert (bout (write_head c auto k h body) = 0%nat) as B2 by (unfold bout; destruct (k_writing (write_head c auto k h body)); congruence).
    intros a auto' h' bs b El Hv. rewrite L in El. destruct (app_cons_split _ _ _ _ _ El) as [(b' & E1 & ->)|(a' & -> & E2)].
    + destruct (Q _ _ _ _ _ E1 Hv) as (Q1 & [Q2|(Q2 & Q3 & Q4)]); (split; [exact Q1|]); [now left|exfalso; lia].
    + destruct R as [(out & -> & _)|(h1 & out & Hl & _ & R)].
      { destruct a' as [|? [|? ?]]; discriminate. }
      assert (a' = [] /\ h' = h1 /\ (b = [] \/ b = [LEnd])) as (-> & -> & Hb).
      { destruct Hl as [-> | ->]; destruct a' as [|? a']; cbn in E2; inversion E2; subst; auto; destruct a' as [|? [|? ?]]; discriminate. }
      rewrite app_nil_r, <- V in Hv. destruct (R Hv) as (R1 & R2). split; [exact R1|].
      destruct (k_ka (write_head c auto k h body)) eqn:Ek; [left; apply says_names, R2; auto; discriminate|left; apply says_names, R2; auto; discriminate|right].
      split; [reflexivity|]. rewrite B2. split; [destruct Hb as [-> | ->]; reflexivity|]. intros Hsv. rewrite Hsv in Hr.
      assert (bin (write_head c auto k h body) = 0%nat) as -> by (unfold bin; rewrite Er; destruct (k_reading k); congruence).
      destruct Hb as [-> | ->]; reflexivity.
Qed.
Theorem C32_http10_explicit : forall c h09 flat wmax evs ms a auto h bs b, side c -> moves_ok (fun h => old_version (o_version h)) ms ->
  history c h09 flat wmax evs ms = a ++ LHead auto h bs :: b -> vlast HTTP11 a = HTTP10 ->
  o_version h = HTTP10 /\
  (names h (B "keep-alive") \/ count is_LHead b = 0%nat /\ (c_server c = true -> count is_LIn b = 0%nat)).
Proof.
  intros c h09 flat wmax evs ms a auto h bs b Hs Hm E Hv.
  assert (explicit c (conn_new h09 flat wmax evs)) as H0.
  { split; [reflexivity|]. intros a' ? ? ? b' F. cbn in F. destruct a'; discriminate. }
  destruct (explicit_run c ms (start h09 flat wmax evs) Hs Hm (ok_start c h09 flat wmax evs) H0) as (_ & Q).
  destruct (Q _ _ _ _ _ E Hv) as (Q1 & [Q2|(Q2 & Q3 & Q4)]); (split; [exact Q1|]); [now left|right]. split; [lia|]. intros Hsv. specialize (Q4 Hsv). lia.
Qed.
Example C32_ex : exists ms a h bs b,
  history (ex_cfg true false None) false true 8192
    (open_with (line (B "GET / HTTP/1.0") ++ line (B "GET / HTTP/1.0"))) ms = a ++ LHead false h bs :: b
  /\ vlast HTTP11 a = HTTP10 /\ moves_ok (fun h => old_version (o_version h)) ms /\ count is_LIn b = 1%nat.
Proof.
  exists (steps 60 (answer ok200)). eexists [_; _], _, _, _. split; [vm_compute; reflexivity|]. split; [reflexivity|].
  split; [|reflexivity]. apply Forall_forall. intros m Hm. apply repeat_spec in Hm. subst m. split; right; reflexivity.
Qed.
(* Without the restriction it is false: a response with version HTTP/2 (a proxy
   passing on a response) is written as HTTP/1.0, does not say keep-alive, and
   the connection is kept. *)
Definition ok200_v2 : ohead := mkO HTTP2 (OResponse 200 None) [] None.
Theorem C32_any_version_refuted : exists c h09 flat wmax evs ms a auto h bs b, side c /\
  history c h09 flat wmax evs ms = a ++ LHead auto h bs :: b /\ vlast HTTP11 a = HTTP10 /\
  ~ (o_version h = HTTP10 /\
     (names h (B "keep-alive") \/ count is_LHead b = 0%nat /\ (c_server c = true -> count is_LIn b = 0%nat))).
Proof.
  exists (ex_cfg true false None), false, true, 8192, (open_with (line (B "GET / HTTP/1.0") ++ line (B "GET / HTTP/1.0"))), (steps 60 (answer ok200_v2)).
  eexists [_; _], _, _, _, _. split; [now left|]. split; [vm_compute; reflexivity|]. split; [reflexivity|].
  intros (_ & [(v & [] & _)|(F & _)]). vm_compute in F. discriminate.
Qed.

(* ------------------------------------------------------------------ *)
(* C56 *)
(* An automatic response: it has one of three statuses; it is written when no
   exchange is going on; no message comes in or goes out after it; the
   connection is done. *)
Theorem C56_one_error_response : forall c h09 flat wmax evs ms a h bs b, c_server c = true ->
  history c h09 flat wmax evs ms = a ++ LHead true h bs :: b ->
  (exists st, (st = 400 \/ st = 414 \/ st = 431) /\ o_subject h = OResponse st None) /\
  (exists x, x_run x_server x_start a = Some x /\ at_rest x = true) /\
  count is_LHead b = 0%nat /\ count is_LIn b = 0%nat /\
  d_is_done c (after c h09 flat wmax evs ms) = true.
Proof.
  intros c h09 flat wmax evs ms a h bs b Hs E.
  pose proof (server_inv c Hs ms _ (SInv_start h09 flat wmax evs)) as (x & Hx & Hr & _ & _).
  assert (forall a h bs b, history c h09 flat wmax evs ms = a ++ LHead true h bs :: b ->
    (exists st, (st = 400 \/ st = 414 \/ st = 431) /\ o_subject h = OResponse st None) /\ k_writing (d_conn (after c h09 flat wmax evs ms)) = WClosed /\ count is_LHead b = 0%nat) as Q.
  { apply (run_P c (fun _ => True) (fun k => forall a h bs b, k_log k = a ++ LHead true h bs :: b ->
      (exists st, (st = 400 \/ st = 414 \/ st = 431) /\ o_subject h = OResponse st None) /\ k_writing k = WClosed /\ count is_LHead b = 0%nat) (or_introl Hs) (fun _ _ => I)).
    - intros k k' P (l & (L & _) & Hc & Hw) a0 h0 bs0 b0 E0. rewrite L in E0. destruct (app_cons_split _ _ _ _ _ E0) as [(b' & E1 & ->)|(a' & -> & E2)].
      + destruct (P _ _ _ _ E1) as (P1 & P2 & P3). split; [exact P1|]. split; [auto|]. rewrite count_app. lia.
      + rewrite E2, count_app, count_cons in Hc. cbn in Hc. lia.
    - intros auto k h0 body P Hw Hrd _ Ha a0 h1 bs0 b0 E0.
      destruct auto.
      + destruct (Ha eq_refl) as (A1 & -> & A3). destruct (write_auto c k h0 Hs A1 A3) as (W1 & h' & out & L & Ho). rewrite L in E0.
        destruct (app_cons_split _ _ _ _ _ E0) as [(b' & E1 & ->)|(a' & -> & E2)].
        * destruct (P _ _ _ _ E1) as (_ & F & _). congruence.
        * destruct a' as [|? [|? [|? ?]]]; cbn in E2; inversion E2. subst h1 bs0 b0. split; [|split; [exact W1|reflexivity]].
          destruct A1 as (st & p & -> & Hp). exists st. split; [eapply auto_status, Hp|exact Ho].
      + rewrite Hs in Hrd. destruct (write_head_ka c false k h0 body Hw) as (l & (L & _) & _ & _ & R); [auto|]. rewrite L in E0.
        destruct (app_cons_split _ _ _ _ _ E0) as [(b' & E1 & ->)|(a' & -> & E2)].
        * destruct (P _ _ _ _ E1) as (_ & F & _). congruence.
        * destruct R as [(out & -> & _)|(h' & out & [-> | ->] & _)]; destruct a' as [|? [|? [|? ?]]]; discriminate.
    - apply moves_ok_any.
    - apply ok_start.
    - intros a0 ? ? b0 F. destruct a0; discriminate. }
  destruct (Q _ _ _ _ E) as (Q1 & Q2 & Q3). split; [exact Q1|].
  pose proof Hx as Hx'. unfold history in E. rewrite E, x_run_app in Hx'. destruct (x_run x_server x_start a) as [xa|]; [|discriminate]. cbn [x_run] in Hx'.
  destruct (x_server xa (LHead true h bs)) as [xe|] eqn:Ee; [|discriminate].
  assert (at_rest xa = true /\ x_over xe = true) as [Hat Hov].
  { destruct xa as [i o k w ov]. cbn [x_server] in Ee. destruct (at_rest (mkX i o k w ov) && negb ov) eqn:Q4 in Ee; [|discriminate].
    apply andb_prop in Q4. inversion Ee. split; [apply Q4|reflexivity]. }
  split; [exists xa; auto|]. split; [exact Q3|].
  assert (forall l x y, x_over x = true -> x_run x_server x l = Some y -> count is_LIn l = 0%nat /\ x_over y = true) as R.
  { clear. induction l as [|e l IH]; intros x y Ho H; cbn in H; [split; [reflexivity|congruence]|].
    destruct (x_server x e) as [z|] eqn:Ez; [|discriminate]. pose proof (x_over_step _ _ _ Ez Ho) as Hz. destruct (IH _ _ Hz H) as [I1 I2].
    split; [|exact I2]. rewrite count_cons, I1. destruct e; try reflexivity. destruct x as [i o k w ov]. cbn in Ho. subst ov. cbn in Ez. rewrite andb_false_r in Ez. discriminate. }
  destruct (R _ _ _ Hov Hx') as [R1 R2]. split; [exact R1|].
  change (run c ms (start h09 flat wmax evs)) with (after c h09 flat wmax evs ms) in *.
  assert (k_reading (d_conn (after c h09 flat wmax evs ms)) = RClosed) as Er.
  { destruct (k_reading _); try reflexivity; exfalso; [destruct Hr as (_ & _ & _ & F)|destruct Hr as (F & _)..]; congruence. }
  unfold d_is_done, is_read_closed, is_write_closed. rewrite Er, Q2, Hs. destruct (d_closing _); reflexivity.
Qed.
Example C56_ex : exists ms a h bs b,
  history (ex_cfg true false None) false true 8192 (open_with (line (B "GET / HTTP/1.1") ++ B "some bytes that are not a request")) ms
  = a ++ LHead true h bs :: b /\ In LShutdown b /\ In (LReturn (Some (CParse PMethod))) b.
Proof.
  exists (steps 60 (answer ok200)). eexists [_; _; _; _; _], _, _, _. split; [vm_compute; reflexivity|]. cbn. auto 10.
Qed.

Print Assumptions C28_one_exchange_at_a_time.
Print Assumptions C28_exchange_complete.
Print Assumptions C28_client.
Print Assumptions C29_incoming_close.
Print Assumptions C29_response_close.
Print Assumptions C29_request_close.
Print Assumptions C29_broken_server.
Print Assumptions C29_broken_client.
Print Assumptions C29_ruled_out.
Print Assumptions C29_graceful.
Print Assumptions C30_idle_means_complete.
Print Assumptions C31_continue_once.
Print Assumptions C32_http10_explicit.
Print Assumptions C32_any_version_refuted.
Print Assumptions C56_one_error_response.
