(* C63: each message is read and written in the light of the exchange it belongs
   to.  Also C55 and C56 for whole connections. *)
From Verif Require Import Base M_Src M_Decode M_HeaderMap M_Headers M_Encode M_Role M_RoleEncode M_Buf M_WriteBuf M_Read M_Conn M_Dispatch S_Conn S_Head L_Conn L_Moves L_ConnS L_Ext L_Ka L_Exch L_RoleEncode2 L_BodyTx S_Client P_Conn P_Requests L_Done L_View.

Lemma VD_all c h09 flat wmax evs ms : VD c h09 (after c h09 flat wmax evs ms).
Proof.
  apply (Inv_run _ _ _ (VD_stable c h09)); [intros; exact Logic.I|].
  constructor; try reflexivity; cbn; intros; try discriminate; try (split; [reflexivity|now left]).
  - now rewrite andb_true_r.
  - destruct a; discriminate.
Qed.

(* ---- What was said last ---- *)
(* The method of the last request that came in *)
Definition last_in (l : list levent) : option bytes := fold_left (fun o e => match e with LIn m => in_method m | _ => o end) l None.
(* The method of the last request that went out *)
Definition last_out (l : list levent) : option bytes :=
  fold_left (fun o e => match e with LHead _ (mkO _ (ORequest m _) _ _) _ => Some m | LHead _ _ _ => None | _ => o end) l None.
Definition nothing_in (l : list levent) : bool := forallb (fun e => match e with LIn _ => false | _ => true end) l.
Definition head_failed (l : list levent) : Prop := exists b, In (LHeadFail b) l.
(* Whether the last message that came in said TE: trailers *)
Definition wants_trailers (l : list levent) : bool := fold_left (fun o e => match e with LIn m => te_is_trailers (in_headers m) | _ => o end) l false.

Lemma last_out_eq l : last_out l = mout l.
Proof.
  assert (forall l o, fold_left (fun o e => match e with LHead _ (mkO _ (ORequest m _) _ _) _ => Some m | LHead _ _ _ => None | _ => o end) l o = fold_left ostep l o) as Q.
  { clear l. induction l as [|e l IH]; intros o; [reflexivity|]. cbn [fold_left]. rewrite IH. f_equal. destruct e; try reflexivity. destruct h as [v [st rs|me t] hs cs]; reflexivity. }
  apply Q.
Qed.

(* ---- Reading ---- *)
(* A server parses each request as one that belongs to no earlier request; as
   possibly HTTP/0.9 only the first. *)
Theorem C63_request_parsed : forall c h09 flat wmax evs ms a m b, c_server c = true ->
  history c h09 flat wmax evs ms = a ++ LIn m :: b -> exists buf n, c_parse c None (h09 && nothing_in a) buf = PDone n m.
Proof.
  intros c h09 flat wmax evs ms a m b Hs E. pose proof (vi_ev _ _ _ _ (VD_all c h09 flat wmax evs ms) _ _ _ E) as H. cbn in H. rewrite Hs in H. apply H. auto.
Qed.
(* A client parses each response with the method of the last request that it
   sent, on which the framing depends; as HTTP/0.9 only the first. *)
Theorem C63_response_parsed : forall c h09 flat wmax evs ms a m b, c_server c = false ->
  history c h09 flat wmax evs ms = a ++ LIn m :: b -> ~ head_failed a -> exists buf n, c_parse c (last_out a) (h09 && nothing_in a) buf = PDone n m.
Proof.
  intros c h09 flat wmax evs ms a m b Hs E Hf. pose proof (vi_ev _ _ _ _ (VD_all c h09 flat wmax evs ms) _ _ _ E) as H. cbn in H. rewrite Hs in H. rewrite last_out_eq. apply H. right.
  apply forallb_forall. intros e He. destruct e; try reflexivity. destruct Hf. eexists. exact He.
Qed.

(* ---- Writing ---- *)
(* A server's response is encoded for the method of the last request. *)
Theorem C63_response_encoded : forall c h09 flat wmax evs ms a h bs b st rs, c_server c = true ->
  history c h09 flat wmax evs ms = a ++ LHead false h bs :: b -> o_subject h = OResponse st rs ->
  exists body ka e, server_encode (c_reason c) (c_date c)
    (mkSmsg (o_version h) st (last_in a) body (o_headers h) ka (c_date_header c) (c_title c) (o_case h) rs) = (bs, Ok e).
Proof.
  intros c h09 flat wmax evs ms a h bs b st rs Hs E Ho. destruct (vi_ev _ _ _ _ (VD_all c h09 flat wmax evs ms) _ _ _ E) as (_ & H).
  destruct (H Hs) as (body & e & He & _). destruct (He st rs Ho) as (ka & Hk). exists body, ka, e. exact Hk.
Qed.
Lemma forbidden_eof reason date m out e : body_forbidden (m_method m) (m_status m) -> server_encode reason date m = (out, Ok e) -> enc_is_eof e = true.
Proof.
  intros Hf. assert (can_have_body (m_method m) (m_status m) = false) as Hb.
  { change (can_chunked (m_method m) (m_status m) = false). destruct (can_chunked _ _) eqn:Ec; [|reflexivity]. apply can_chunked_spec in Ec. contradiction. }
  assert (forall w line l wl, match encode_headers m w date line l wl with None => True | Some (_, e) => enc_is_eof e = true end) as Q.
  { intros w line l wl. unfold encode_headers. destruct (s_headers _ _ _ _); [|exact Logic.I]. unfold s_finish. rewrite Hb. reflexivity. }
  unfold server_encode. destruct (m_status m =? 101); [|destruct (_ && _); [|destruct (is_informational (m_status m))]]; destruct (status_line _ _); try discriminate;
    match goal with |- context [encode_headers ?a ?b ?c ?d ?e ?f] => specialize (Q b d e f); destruct (encode_headers a b c d e f) as [[? ?]|] end; try discriminate; intros F; injection F as _ <-; exact Q.
Qed.
(* After LEnd the next byte of a body comes after another head *)
Lemma ended_silent : forall u x y z v, (x_out x = ODone \/ x_out x = ONone \/ x_out x = OBroken) -> x_run x_server x (u ++ LBody z :: v) = Some y -> exists au h bs, In (LHead au h bs) u.
Proof.
  induction u as [|e u IH]; intros [i o k w ov] y z v Hx H; cbn [app x_run] in H.
  - cbn in Hx, H. destruct o; try discriminate H. destruct Hx as [F|[F|F]]; discriminate F.
  - destruct (x_server _ e) as [x'|] eqn:Ex; [|discriminate H].
    assert ((x_out x' = ODone \/ x_out x' = ONone \/ x_out x' = OBroken) \/ exists au h bs, e = LHead au h bs) as [Q|(au & h & bs & ->)].
    { cbn in Hx. destruct e; cbn in Ex; eauto; left;
        repeat match type of Ex with context [match ?t with _ => _ end] => destruct t; try discriminate Ex end; injection Ex as <-; cbn; auto;
        match goal with F : _ \/ _ |- _ => destruct F as [F|[F|F]]; discriminate F end. }
    + destruct (IH _ _ _ _ Q H) as (au & h & bs & F). exists au, h, bs. now right.
    + exists au, h, bs. now left.
Qed.
(* Where the last request or the status forbids a body, nothing of a body is
   written until the next head. *)
Theorem C55_connection : forall c h09 flat wmax evs ms a h bs b st rs, c_server c = true ->
  history c h09 flat wmax evs ms = a ++ LHead false h bs :: b -> o_subject h = OResponse st rs -> body_forbidden (last_in a) st ->
  (exists b', b = LEnd :: b') /\ forall u x v, b = u ++ LBody x :: v -> exists au h' bs', In (LHead au h' bs') u.
Proof.
  intros c h09 flat wmax evs ms a h bs b st rs Hs E Ho Hf. destruct (vi_ev _ _ _ _ (VD_all c h09 flat wmax evs ms) _ _ _ E) as (_ & H).
  destruct (H Hs) as (body & e & He & Hb & _). destruct (He st rs Ho) as (ka & Hk). destruct (Hb (forbidden_eof _ _ (mkSmsg (o_version h) st (last_in a) body (o_headers h) ka (c_date_header c) (c_title c) (o_case h) rs) _ _ Hf Hk)) as (b' & ->). split; [eauto|].
  intros u x v Eb. destruct (server_inv c Hs ms _ (SInv_start h09 flat wmax evs)) as (y & Hx & _). unfold history in E. rewrite E, x_run_app in Hx.
  destruct (x_run x_server x_start a) as [x1|]; [|discriminate Hx]. cbn [x_run] in Hx. destruct (x_server x1 (LHead false h bs)) as [x2|]; [|discriminate Hx].
  destruct u as [|e0 u]; [discriminate Eb|]. cbn in Eb. injection Eb as <- ->. destruct (x_server x2 LEnd) as [x3|] eqn:Ex; [|discriminate Hx].
  destruct (ended_silent u x3 y x v) as (au & h' & bs' & F); [|exact Hx|exists au, h', bs'; now right].
  destruct x2 as [i o k w ov]. cbn in Ex. destruct o; try discriminate Ex. injection Ex as <-. now left.
Qed.
(* A server writes trailers only for a request that said TE: trailers: when its
   last request did not, a step that gets trailers from the response body leaves
   the history - and so the output - as it is. *)
Theorem C63_trailers : forall c h09 flat wmax evs ms i n t, c_server c = true -> let d := after c h09 flat wmax evs ms in
  (d_pc d = PWrite n \/ d_pc d = PWrite2 n) -> d_body_rx d = true -> can_buffer_body c (d_conn d) = true ->
  i_frame i = Ready (Some (Ok (UTrailers t))) -> wants_trailers (history c h09 flat wmax evs ms) = false ->
  history c h09 flat wmax evs (ms ++ [Step i]) = history c h09 flat wmax evs ms.
Proof.
  intros c h09 flat wmax evs ms i n t Hs d Hp Hr Hb Hf Ht. pose proof (vi_t _ _ _ _ (VD_all c h09 flat wmax evs ms)) as V.
  unfold history. rewrite run_app. fold (after c h09 flat wmax evs ms). fold d. change (k_log (d_conn (run c ms (start h09 flat wmax evs)))) with (k_log (d_conn d)).
  change (run c [Step i] d) with (dstep c i d). fold d in V. assert (k_trailers (d_conn d) = false) as Kt by (rewrite V; exact Ht). clearbody d. clear V Ht.
  assert (k_log (d_conn (fst (poll_write_it c i d))) = k_log (d_conn d) /\ (exists x, snd (poll_write_it c i d) = Cont \/ snd (poll_write_it c i d) = Ret (Ready (Ok x)))) as (Q1 & Q2).
  { unfold poll_write_it. rewrite Hr, Hb, Hf. cbn [negb andb]. destruct (d_closing d); [split; [reflexivity|exists tt; auto]|]. destruct (k_can_write_body (d_conn d)); cbn [negb]; [|split; [reflexivity|exists tt; auto]].
    cbn [fst snd]. split; [|exists tt; auto]. unfold k_write_trailers. cbn [dset_body_rx d_conn dset_conn]. rewrite Hs, Kt. reflexivity. }
  unfold dstep. destruct Hp as [-> | ->]; destruct (poll_write_it c i d) as [d' r]; cbn [fst snd] in *; destruct Q2 as (x & [-> | ->]); exact Q1.
Qed.

(* ---- C56: the automatic response ---- *)
(* Its text *)
Definition error_text (c : cfg) (v : version) (st : N) : bytes :=
  let title (a b : bytes) := if c_title c then a else b in
  start_line (ver_eqb v HTTP10) (dec st) (match c_reason c st with Some r => r | None => B "<none>" end) ++
  (render_lines (if ver_eqb v HTTP11 then [(title (B "Connection") (B "connection"), B "close")] else []) ++
   render_lines [(title (B "Content-Length") (B "content-length"), B "0")] ++
   render_lines (if c_date_header c then [(title (B "Date") (B "date"), c_date c)] else [])) ++ CRLF.
Lemma auto_bytes v st ka dh (title : bool) date q : can_have_implicit_zero_content_length None st = true ->
  let w := if title then WOrig [] true else WLower in
  let hs := match v with HTTP11 => [(B "connection", [B "close"])] | _ => [] end in
  let v' := match v with HTTP10 => HTTP10 | _ => HTTP11 end in
  exists e, encode_headers (mkSmsg v' st None None hs ka dh title None None) w date q (negb ka) false =
  Some (q ++ (render_lines (if ver_eqb v HTTP11 then [(if title then B "Connection" else B "connection", B "close")] else []) ++
                render_lines [(if title then B "Content-Length" else B "content-length", B "0")] ++
                render_lines (if dh then [(if title then B "Date" else B "date", date)] else [])) ++ CRLF, e).
Proof.
  intros D. cbv zeta. unfold encode_headers, s_finish, s_default_len.
  cbn [m_headers m_body m_method m_status m_date_header]. rewrite D. clear D.
  assert (connection_close (B "close") = true) as Hc by reflexivity.
  unfold render_lines. destruct title, dh, ka, v; eexists; cbn [ver_eqb s_headers s_values]; unfold s_value; rewrite ?Hc;
    try match goal with |- match ?x with None => None | Some s => _ end = _ => let r := eval lazy -[app] in x in change x with r end; cbv beta iota;
    match goal with |- Some (?x, ?y) = Some (?z, _) => cut (x = z); [intros ->; reflexivity|] end;
    lazy -[app]; rewrite <- ?app_assoc; reflexivity.
Qed.
(* The text depends on the error's status and on the version that the last
   request had, and on nothing else that happened before. *)
Theorem C56_text : forall c h09 flat wmax evs ms a h bs b, c_server c = true ->
  history c h09 flat wmax evs ms = a ++ LHead true h bs :: b ->
  exists st, (st = 400 \/ st = 414 \/ st = 431) /\ o_subject h = OResponse st None /\ bs = error_text c (vlast HTTP11 a) st.
Proof.
  intros c h09 flat wmax evs ms a h bs b Hs E. destruct (C56_one_error_response _ _ _ _ _ _ _ _ _ _ Hs E) as ((st & Hst & Ho) & _). exists st. split; [exact Hst|]. split; [exact Ho|].
  destruct (vi_ev _ _ _ _ (VD_all c h09 flat wmax evs ms) _ _ _ E) as (_ & H). destruct (H Hs) as (body & e & He & _ & Ha). destruct (Ha eq_refl) as (-> & st' & ->).
  cbn in Ho. injection Ho as ->. destruct (He st None eq_refl) as (ka & Hk). clear - Hst Hk. unfold auto_dressed in Hk. cbn [o_version o_headers o_case] in Hk.
  revert Hk. unfold server_encode, status_line, error_text, start_line. cbn [m_status m_version m_method m_keep_alive m_case m_title_case m_reason].
  assert (st =? 101 = false /\ is_success st = false /\ is_informational st = false) as (A & B' & C) by (destruct Hst as [->|[->| ->]]; repeat split; reflexivity).
  assert (can_have_implicit_zero_content_length None st = true) as D by (destruct Hst as [->|[->| ->]]; reflexivity).
  rewrite A, C. cbn [method_is andb negb m_status m_version m_case m_title_case m_reason]. clear A B' C Hst.
  destruct (auto_bytes (vlast HTTP11 a) st ka (c_date_header c) (c_title c) (c_date c)
    ((if ver_eqb (vlast HTTP11 a) HTTP10 then B "HTTP/1.0 " else B "HTTP/1.1 ") ++ dec st ++ B " " ++ match c_reason c st with Some r => r | None => B "<none>" end ++ CRLF) D) as (e' & Q).
  cbv zeta in Q. destruct (vlast HTTP11 a); cbn [ver_eqb] in *; rewrite Q; intros F; injection F as <- _; reflexivity.
Qed.

(* ---- HTTP/2 ---- *)
Lemma auto_only c now blk k au h bs a b : let k' := fst (k_poll_read_head c now blk k) in
  k_log k' = k_log k ++ a ++ LHead au h bs :: b -> takeN 24 (r_buf (k_rd k')) <> h2_preface.
Proof.
  cbn zeta. unfold k_poll_read_head.
  assert (k_log (start_timer c now k) = k_log k) as <- by (unfold start_timer; destruct (k_running k); [|destruct (c_timeout c)]; reflexivity).
  remember (start_timer c now k) as k0 eqn:Ek. clear Ek.
  destruct (io_parse _ _ (k_rd k0)) as [rd [|[m|e]]] eqn:Ep.
  - cbn [k_running k_timer set_rd]. assert (forall k', k_log k' = k_log k0 -> k_log k' = k_log k0 ++ a ++ LHead au h bs :: b -> takeN 24 (r_buf (k_rd k')) <> h2_preface) as Q.
    { intros k' E E'. rewrite E in E'. rewrite <- (app_nil_r (k_log k0)) in E' at 1. apply app_inv_head in E'. destruct a; discriminate E'. }
    destruct (k_running k0), (k_timer k0) as [t|]; try (cbn [fst]; apply Q; reflexivity). destruct (t <=? now); cbn [fst]; apply Q; reflexivity.
  - cbn [fst]. destruct (view_got_head c blk (set_rd k0 rd) m) as ((l & L1 & L2) & _). cbn zeta in *. rewrite L1. cbn [k_log set_rd]. intros E. apply app_inv_head in E. exfalso.
    destruct a as [|x a]; [discriminate E|]. cbn in E. injection E as _ ->. rewrite forallb_app in L2. apply andb_prop in L2. destruct L2 as (_ & L2). discriminate L2.
  - destruct (parse_failure e) as [e' n]. unfold on_read_head_error.
    set (k1 := set_rd (close_read (set_rd (set_rd k0 rd) _)) _). assert (k_log k1 = k_log k0) as <- by reflexivity. clearbody k1.
    assert (k_log k1 = k_log k1 ++ a ++ LHead au h bs :: b -> False) as N0.
    { intros E. rewrite <- (app_nil_r (k_log k1)) in E at 1. apply app_inv_head in E. destruct a; discriminate E. }
    destruct (_ || _).
    + unfold on_parse_error. destruct (k_writing k1) eqn:W1; try (cbn [fst]; intros E; destruct (N0 E)).
      destruct (has_h2_prefix k1) eqn:Hp; [cbn [fst]; intros E; destruct (N0 E)|]. destruct (t_on_error c e') as [st|]; [|cbn [fst]; intros E; destruct (N0 E)].
      cbn [fst]. intros _. unfold has_h2_prefix in Hp. intros E.
      assert (k_rd (write_head c true k1 (mkO HTTP11 (OResponse st None) [] None) None) = k_rd k1) as R.
      { unfold write_head, encode_head. set (x := if c_server c then k1 else _). assert (k_rd x = k_rd k1) as <- by (subst x; destruct (c_server c); [reflexivity|]; unfold busy, st_disable_keep_alive; cbn [o_headers]; destruct (connection_any_close _), (k_ka k1); reflexivity).
        clearbody x. pose proof (enforce_frame x (mkO HTTP11 (OResponse st None) [] None)) as Q. destruct (enforce_version x _) as [k2 h2]. destruct Q as (_ & _ & _ & _ & <- & _).
        destruct (t_encode _ _ _ _) as [[out me] [en|en]]; reflexivity. }
      cbn [k_rd set_error] in E. rewrite R in E. rewrite E in Hp. discriminate Hp.
    + cbn [fst]. intros E. destruct (N0 E).
Qed.
Lemma still_nohead l au h bs a b : forallb still l = true -> l <> a ++ LHead au h bs :: b.
Proof. intros H ->. rewrite forallb_app in H. apply andb_prop in H. destruct H as (_ & H). discriminate H. Qed.
(* An automatic response is never an answer to the HTTP/2 preface: what had come
   in, apart from leading empty lines, does not begin with it. *)
Theorem C56_not_http2 : forall c h09 flat wmax evs ms i n a h bs b, let d := after c h09 flat wmax evs ms in d_pc d = PRead n ->
  let d' := after c h09 flat wmax evs (ms ++ [Step i]) in
  history c h09 flat wmax evs (ms ++ [Step i]) = history c h09 flat wmax evs ms ++ a ++ LHead true h bs :: b ->
  takeN 24 (r_buf (k_rd (d_conn d'))) <> B "PRI * HTTP/2.0" ++ CRLF ++ CRLF ++ B "SM" ++ CRLF ++ CRLF.
Proof.
  intros c h09 flat wmax evs ms i n a h bs b d Hp d'. pose proof (VD_all c h09 flat wmax evs ms) as V. change (VD c h09 d) in V.
  change (history c h09 flat wmax evs (ms ++ [Step i])) with (k_log (d_conn d')). change (history c h09 flat wmax evs ms) with (k_log (d_conn d)).
  assert (d' = dstep c i d) as -> by (subst d' d; unfold after; now rewrite run_app). clearbody d. clear ms evs wmax flat.
  (* what follows adds no head and leaves the input alone *)
  set (tail := fun d1 d2 : disp => exists q, k_log (d_conn d2) = k_log (d_conn d1) ++ q /\ forallb still q = true /\ k_rd (d_conn d2) = k_rd (d_conn d1)).
  assert (forall d1 d2 d3, tail d1 d2 -> tail d2 d3 -> tail d1 d3) as Tt.
  { intros d1 d2 d3 (q & A1 & A2 & A3) (q' & B1 & B2 & B3). exists (q ++ q'). rewrite B1, A1, app_assoc, forallb_app, A2, B2, B3, A3. auto. }
  assert (forall d1, tail d1 d1) as Tr by (intros d1; exists []; rewrite app_nil_r; auto).
  assert (forall d1 l, forallb still l = true -> tail d1 (dlog d1 l)) as Tl by (intros d1 l Hl; exists l; auto).
  assert (forall d1 e, tail d1 (fst (recv_error c d1 e))) as Te.
  { intros d1 e. unfold recv_error. destruct (c_server c); [apply Tr|]. destruct (d_callback d1); [apply (Tl (dset_client d1 _ _ _)); reflexivity|]. destruct (d_rx_closed d1); [apply Tr|].
    destruct (ch_try_recv _) as [ch [id|]]; [apply (Tl (dset_client d1 _ _ _)); reflexivity|apply (Tr (dset_client d1 None false ch))]. }
  assert (forall d1, tail d1 (d_drop d1)) as Td.
  { intros d1. rewrite d_drop_eq. apply (Tl (mkD _ _ _ _ _ _ _ _ _)). unfold drop_events. rewrite !forallb_app. destruct (d_body_tx d1), (d_callback d1); cbn [forallb still andb]; induction (ch_queue (d_chan d1)); auto. }
  assert (forall d1 e, tail d1 (d_fail c d1 e)) as Tf.
  { intros d1 e. unfold d_fail. set (d2 := if d_body_tx d1 then _ else d1). assert (tail d1 d2) as T2 by (subst d2; destruct (d_body_tx d1); [apply (Tl (dset_body_tx d1 false)); reflexivity|apply Tr]). clearbody d2.
    pose proof (Te d2 e) as T3. destruct (recv_error c d2 e) as [d3 x]. cbn [fst] in T3. unfold d_complete. eapply Tt; [exact T2|]. eapply Tt; [exact T3|]. eapply Tt; [|apply Td]. apply (Tl d3). destruct x; reflexivity. }
  set (safe := fun d1 : disp => (exists l, k_log (d_conn d1) = k_log (d_conn d) ++ l) /\ forall a h bs b, k_log (d_conn d1) = k_log (d_conn d) ++ a ++ LHead true h bs :: b -> takeN 24 (r_buf (k_rd (d_conn d1))) <> h2_preface).
  assert (forall d1 d2, safe d1 -> tail d1 d2 -> safe d2) as Key.
  { clear a h bs b. intros d1 d2 ((l & Hl) & H1) (q & A1 & A2 & A3). split; [exists (l ++ q); now rewrite A1, Hl, app_assoc|]. intros a h bs b E. rewrite A3. rewrite A1, Hl, <- app_assoc in E. apply app_inv_head in E.
    assert (exists a' b', l = a' ++ LHead true h bs :: b') as (a' & b' & ->).
    { assert (In (LHead true h bs) (l ++ q)) as I0 by (rewrite E, in_app_iff; right; now left). apply in_app_iff in I0. destruct I0 as [I0|I0]; [now apply in_split|].
      rewrite forallb_forall in A2. specialize (A2 _ I0). discriminate A2. }
    apply (H1 a' h bs b'). exact Hl. }
  assert (forall d1, fr (d_conn d) (d_conn d1) -> safe d1) as Kf.
  { clear a h bs b. intros d1 [(l & L1 & L2) _ _ _ _]. split; [eauto|]. intros a h bs b E. rewrite L1 in E. apply app_inv_head in E. destruct (still_nohead l true h bs a b L2 E). }
  assert (safe (dstep c i d)) as (_ & Q); [|apply Q]. clear a h bs b.
  assert (safe (fst (poll_read_it c i d))) as Hr; cycle 1.
  { unfold dstep. rewrite Hp. destruct (poll_read_it c i d) as [d1 r]. cbn [fst] in Hr. destruct r as [|[|[u|e]]]; [exact Hr|..]; apply (Key d1); try exact Hr; [exists []; rewrite app_nil_r; auto..|apply Tf]. }
  unfold poll_read_it. destruct (d_closing d); [apply Kf, fr_refl|]. destruct (can_read_head c (d_conn d)) eqn:Hc.
  - unfold d_poll_read_head. destruct (d_poll_ready c i d) as [|[u|e]]; [apply Kf, fr_refl| |apply Kf; now apply fr_closed].
    pose proof (ext_poll_read_head c (i_now i) (i_blk i) (d_conn d)) as X. pose proof (auto_only c (i_now i) (i_blk i) (d_conn d)) as A0. cbn zeta in A0.
    destruct (k_poll_read_head c _ _ _) as [k r]. cbn [fst] in *. assert (safe (dset_conn d k)) as S1. { split; [destruct X as (l & X & _); eauto|]. intros a h bs b. exact (A0 true h bs a b). }
    clear A0 X. assert (forall d1, tail d1 (d_close d1)) as Tc by (intros d1; exists []; rewrite app_nil_r; auto).
    destruct r as [|[[m|e]|]].
    + exact S1.
    + set (d1 := if in_decode m =? DL_ZERO then _ else _). assert (tail (dset_conn d k) d1) as T1.
      { subst d1. destruct (in_decode m =? DL_ZERO); [apply Tr|]. cbn [d_body_tx dset_conn]. destruct (d_body_tx d); [|apply (Tr (dset_conn d k))]. apply (Tl (dset_conn d k)). reflexivity. }
      clearbody d1. set (d2 := if in_upgrade m then _ else _). assert (tail (dset_conn d k) d2) as T2 by (subst d2; destruct (in_upgrade m); exact T1). clearbody d2. clear T1.
      apply (Key (dset_conn d k)); [exact S1|]. eapply Tt; [exact T2|]. unfold recv_ok. destruct (c_server c); [exact (Tr d2)|]. destruct (d_callback d2); cbn [fst]; [|exact (Tr d2)].
      apply (Tl (dset_client d2 _ _ _)). reflexivity.
    + pose proof (Te (dset_conn d k) e) as T1. destruct (recv_error c (dset_conn d k) e) as [d1 [|]]; cbn [fst] in *; apply (Key (dset_conn d k)); eauto.
    + cbn [fst d_conn dset_conn]. destruct (is_write_closed k); [|exact S1]. apply (Key (dset_conn d k)); auto.
  - destruct (d_body_tx d).
    + destruct (can_read_body (d_conn d)); [|apply Kf, fr_logged; reflexivity]. destruct (i_body i); [|apply Kf, fr_refl|apply Kf, fr_drain].
      pose proof (fr_read_body c (i_blk i) (log (d_conn d) [LWant])) as F. destruct (k_poll_read_body _ _ _) as [k r]. cbn [fst] in F. assert (fr (d_conn d) k) as F1 by (eapply fr_trans; [apply fr_logged|exact F]; reflexivity).
      destruct r as [|[[x|e]|]]; cbn [fst]; [apply Kf, F1| |apply Kf; eapply fr_trans; [exact F1|apply fr_logged; reflexivity]|apply Kf; eapply fr_trans; [exact F1|apply fr_logged; reflexivity]].
      destruct (i_send i); [apply Kf, F1|]. cbn [fst]. destruct (can_read_body _); apply Kf; [|exact F1]. eapply fr_trans; [exact F1|apply fr_close_read].
    + pose proof (fr_keep_alive c (d_conn d)) as F. destruct (k_poll_read_keep_alive c (d_conn d)) as [k r]. apply Kf, F.
Qed.

(* ---- Examples ---- *)
(* A parser that sees HEAD and GET, with and without TE: trailers *)
Definition v_msg (m : bytes) (te : bool) : inmsg := mkIn HTTP11 (Some m) 0 (if te then [(B "te", [B "trailers"])] else []) 0 false true false.
Definition v_requests : list (bytes * inmsg) :=
  [ (line (B "HEAD / HTTP/1.1"), v_msg (B "HEAD") false); (line (B "GET / HTTP/1.1"), v_msg (B "GET") false); (line (B "GET /te HTTP/1.1"), v_msg (B "GET") true) ].
Definition v_cfg : cfg := mkCfg true (fun _ _ b => ex_find v_requests b) (fun _ _ => None) (fun _ => Some (B "OK")) (B "now") false false None 8192 false true false None.
(* each response has a body of unknown length, one byte long *)
Definition v_inp (f : uframe) : inp :=
  mkI 0 false true [WAccept 65536; WAccept 65536; WAccept 65536] false BReady true (Ready (Ok (ok200, Some Unknown))) (get, None) (Ready (Some (Ok f))) true (Ready (Ok tt)) [].
(* A HEAD request and then a GET request: the first response has no body, the
   second one has *)
Example C55_ex_connection : exists ms a h bs b h' bs' b2,
  history v_cfg false true 8192 (open_with (line (B "HEAD / HTTP/1.1") ++ line (B "GET / HTTP/1.1"))) ms = a ++ LHead false h bs :: b /\
  last_in a = Some (B "HEAD") /\ o_subject h = OResponse 200 None /\ body_forbidden (last_in a) 200 /\
  b = LEnd :: [LSent bs; LIn (v_msg (B "GET") false); LInEnd] ++ LHead false h' bs' :: b2 /\ In (LBody (B "1" ++ CRLF ++ B "x" ++ CRLF ++ B "0" ++ CRLF ++ CRLF)) b2.
Proof.
  exists (steps 30 (v_inp (UData (Segs true [B "x"])))). eexists [_; _], _, _, _, _, _, _. vm_compute. split; [reflexivity|]. split; [reflexivity|]. split; [reflexivity|]. split; [now left|]. split; [reflexivity|]. now left.
Qed.

(* A client that sends HEAD and then GET reads a body only for the second; its
   parser is told the method *)
Definition vc_cfg : cfg :=
  mkCfg false (fun me _ b => ex_find [(line (B "HTTP/1.1 200 OK"), mkIn HTTP11 None 200 [] (match me with Some m => if beq m (B "HEAD") then 0 else 3 | None => 7 end) false true false)] b)
    (fun _ _ => None) (fun _ => Some (B "OK")) (B "now") false false None 8192 false true false None.
Definition head_req : ohead := mkO HTTP11 (ORequest (B "HEAD") (B "/")) [] None.
Example C63_ex_client : exists ms a m a2 m' b, let evs := EvPending :: EvData (line (B "HTTP/1.1 200 OK")) :: repeat EvPending 6 ++ open_with (line (B "HTTP/1.1 200 OK") ++ B "abc") in
  history vc_cfg false true 8192 evs ms = a ++ LIn m :: a2 ++ LIn m' :: b /\
  last_out a = Some (B "HEAD") /\ in_decode m = 0 /\ last_out (a ++ LIn m :: a2) = Some (B "GET") /\ in_decode m' = 3 /\ ~ head_failed (a ++ LIn m :: a2).
Proof.
  exists (Env (ESender SGive) :: Env (ESender SPush) :: steps 12 (ask head_req) ++ Env (ESender SGive) :: Env (ESender SPush) :: steps 60 (ask get)).
  eexists [_; _; _; _], _, [_; _; _; _; _; _], _, _. cbn zeta. split; [vm_compute; reflexivity|]. split; [reflexivity|]. split; [reflexivity|]. split; [reflexivity|]. split; [reflexivity|].
  intros (x & H). repeat (destruct H as [H|H]; [discriminate H|]). exact H.
Qed.
(* Trailers: a response that announces the trailer a, for a request without and
   with TE: trailers; the state just before the body yields the trailer *)
Definition with_trailer : ohead := mkO HTTP11 (OResponse 200 None) [(B "trailer", [B "a"])] None.
Definition v_resp (f : uframe) : inp :=
  mkI 0 false true [WAccept 65536; WAccept 65536; WAccept 65536] false BReady true (Ready (Ok (with_trailer, Some Unknown))) (get, None) (Ready (Some (Ok f))) false (Ready (Ok tt)) [].
Definition v_moves : list move := steps 4 (v_resp UOther).
Definition v_trailer : inp := v_resp (UTrailers [(B "a", [B "1"])]).
Example C63_ex_trailers : let d := after v_cfg false true 8192 (open_with (line (B "GET / HTTP/1.1"))) v_moves in
  d_pc d = PWrite 16 /\ d_body_rx d = true /\ can_buffer_body v_cfg (d_conn d) = true /\ k_can_write_body (d_conn d) = true /\
  wants_trailers (history v_cfg false true 8192 (open_with (line (B "GET / HTTP/1.1"))) v_moves) = false.
Proof. vm_compute. auto 10. Qed.
Example C63_ex_trailers_te : let d := after v_cfg false true 8192 (open_with (line (B "GET /te HTTP/1.1"))) v_moves in
  d_pc d = PWrite 16 /\ d_body_rx d = true /\ can_buffer_body v_cfg (d_conn d) = true /\
  wants_trailers (history v_cfg false true 8192 (open_with (line (B "GET /te HTTP/1.1"))) v_moves) = true /\
  history v_cfg false true 8192 (open_with (line (B "GET /te HTTP/1.1"))) (v_moves ++ [Step v_trailer]) =
  history v_cfg false true 8192 (open_with (line (B "GET /te HTTP/1.1"))) v_moves ++ [LBody (B "0" ++ CRLF ++ B "a: 1" ++ CRLF ++ CRLF); LEnd].
Proof. vm_compute. auto 10. Qed.
(* An automatic response after an HTTP/1.0 request *)
Example C56_ex_text : exists ms a h b,
  history (ex_cfg true false None) false true 8192 (open_with (line (B "GET / HTTP/1.0") ++ B "some bytes that are not a request")) ms =
  a ++ LHead true h (B "HTTP/1.0 400 OK" ++ CRLF ++ B "content-length: 0" ++ CRLF ++ CRLF) :: b /\ vlast HTTP11 a = HTTP10.
Proof. exists (steps 60 (answer (mkO HTTP10 (OResponse 200 None) [(B "connection", [B "keep-alive"])] None))). eexists [_; _; _; _; _], _, _. split; vm_compute; reflexivity. Qed.
(* One step that writes the automatic response, and the HTTP/2 preface, for which
   nothing is written *)
Example C56_ex_http2 : let evs := open_with (B "some bytes that are not a request") in
  d_pc (after (ex_cfg true false None) false true 8192 evs (steps 1 (answer ok200))) = PRead 16 /\
  exists h bs, history (ex_cfg true false None) false true 8192 evs (steps 1 (answer ok200) ++ [Step (answer ok200)]) =
    history (ex_cfg true false None) false true 8192 evs (steps 1 (answer ok200)) ++ [] ++ LHead true h bs :: [LEnd].
Proof. split; [vm_compute; reflexivity|]. eexists _, _. vm_compute. reflexivity. Qed.
Example C56_ex_preface : 
  history (ex_cfg true false None) false true 8192 (open_with (B "PRI * HTTP/2.0" ++ CRLF ++ CRLF ++ B "SM" ++ CRLF ++ CRLF)) (steps 20 (answer ok200)) = [LReturn (Some (CParse PVersionH2))].
Proof. vm_compute. reflexivity. Qed.

Print Assumptions C63_request_parsed.
Print Assumptions C63_response_parsed.
Print Assumptions C63_response_encoded.
Print Assumptions C63_trailers.
Print Assumptions C55_connection.
Print Assumptions C56_text.
Print Assumptions C56_not_http2.
