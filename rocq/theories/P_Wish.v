(* C69: a server does for a request what its lines ask for. *)
From Verif Require Import Base M_Src M_Decode S_Chunked S_Read S_Transport S_Buf M_HeaderMap M_Headers M_Encode M_Role M_RoleEncode M_Buf M_WriteBuf M_Read M_Conn M_Dispatch M_Parse S_Conn S_Inbound S_Framing S_Parse S_Wish L_Headers L_Framing L_Conn L_Moves L_ConnS L_Ka L_Exch L_BodyTx L_View L_Inbound P_Framing P_Conn P_Requests P_View P_Upgrade P_Inbound P_Parse.

(* ---- The lines ---- *)
Definition WL (v11 : bool) (method : bytes) (p : list S_Framing.line) (l : ploop) : Prop :=
  (l_expect l = match rev (field_values (B "expect") p) with v :: _ => eq_ic v (B "100-continue") | [] => false end) /\
  (l_upgrade l = match field_values (B "upgrade") p with [] => beq method (B "CONNECT") | _ => v11 end).
Lemma WL_line v11 method p l x l' : WL v11 method p l -> server_line v11 l x = Ok l' -> WL v11 method (p ++ [x]) l'.
Proof.
  intros (H1 & H2) E. destruct x as [raw value]. unfold server_line in E. cbn [fst snd] in E. unfold WL. rewrite !fv_snoc. cbn [fst snd].
  assert (forall n v, beq n v = true -> n = v) as Bq by (intros n v; apply beq_eq).
  remember (lower raw) as name eqn:En. clear En.
  assert (name = B "expect" \/ name = B "upgrade" \/ (beq name (B "expect") = false /\ beq name (B "upgrade") = false)) as [-> |[-> |(N1 & N2)]].
  { destruct (beq name (B "expect")) eqn:A; [left; auto|]. destruct (beq name (B "upgrade")) eqn:C; auto. }
  - cbn in E. injection E as <-. cbn. rewrite app_nil_r, rev_app_distr. split; [reflexivity|exact H2].
  - cbn in E. injection E as <-. cbn. rewrite app_nil_r. split; [exact H1|]. match goal with |- context [?x ++ [value]] => destruct x; reflexivity end.
  - rewrite N1, N2, !app_nil_r. rewrite N1, N2 in E. 
    repeat match type of E with
    | Err _ = Ok _ => discriminate E
    | Ok _ = Ok _ => injection E as <-; split; assumption
    | context [if ?b then _ else _] => destruct b
    | context [match ?b with _ => _ end] => destruct b
    end.
Qed.
Lemma WL_lines v11 method lines : forall p l l', WL v11 method p l -> server_lines v11 l lines = Ok l' -> WL v11 method (p ++ lines) l'.
Proof.
  induction lines as [|x r IH]; intros p l l' H E; cbn [server_lines] in E; [injection E as <-; now rewrite app_nil_r|].
  destruct (server_line v11 l x) as [l1|] eqn:E1; [|discriminate E]. replace (p ++ x :: r) with ((p ++ [x]) ++ r) by (now rewrite <- app_assoc). eapply IH; [|exact E]. eapply WL_line; eauto.
Qed.
(* What the parser notes of a request is what its lines say. *)
Theorem C69_lines : forall http11 method lines m, server_parse http11 method lines = Ok m ->
  (pm_expect m = true <-> says_continue lines) /\ (pm_upgrade m = true <-> asks_tunnel http11 method lines).
Proof.
  intros v11 me lines m. unfold server_parse. destruct (server_lines _ _ lines) as [l|e] eqn:E; [|discriminate].
  assert (WL v11 me [] (loop_start v11 me)) as H0 by (split; reflexivity). destruct (WL_lines v11 me lines [] _ _ H0 E) as (H1 & H2). cbn [app] in *.
  destruct (_ && _); [discriminate|]. intros F. injection F as <-. cbn [pm_expect pm_upgrade]. split.
  - rewrite H1. unfold says_continue. generalize (field_values (B "expect") lines). intros vs. destruct vs as [|w r _] using rev_ind.
    + cbn. split; [discriminate|]. intros (b & v & F & _). destruct b; discriminate F.
    + rewrite rev_app_distr. cbn [rev app]. rewrite eq_ic_eq. split; [intros F; exists r, w; auto|]. intros (b & v & F & G). apply app_inj_tail in F. destruct F as (_ & ->). exact G.
  - rewrite H2. unfold asks_tunnel. destruct (field_values (B "upgrade") lines); [apply beq_eq|reflexivity].
Qed.

(* ---- Every message that was read ---- *)
Definition heard (c : cfg) (input : bytes) (a : list levent) (m : inmsg) : Prop := exists wires sk head rest,
  input = concat wires ++ sk ++ head ++ rest /\ Forall2 (message_wire c) wires (received a) /\ receiving a = None /\ skipped c sk /\ head_wire c head m.
Definition HD (c : cfg) (input : bytes) (d : disp) : Prop := forall a m b, k_log (d_conn d) = a ++ LIn m :: b -> heard c input a m /\ (in_decode m = DL_ZERO -> exists b', b = LInEnd :: b').
Definition goes (k k' : conn) : Prop := exists l, k_log k' = k_log k ++ l /\ forallb no_in l = true.
Lemma goes_same k k' : k_log k' = k_log k -> goes k k'.
Proof. intros E. exists []. now rewrite app_nil_r. Qed.
Lemma goes_trans k k' k'' : goes k k' -> goes k' k'' -> goes k k''.
Proof. intros (a & A1 & A2) (b & B1 & B2). exists (a ++ b). rewrite B1, A1, app_assoc, forallb_app, A2, B2. auto. Qed.
Lemma goes_log k l : forallb no_in l = true -> goes k (log k l).
Proof. intros H. exists l. auto. Qed.
Lemma outer_no_in l : forallb outer l = true -> forallb no_in l = true.
Proof. induction l as [|e l IH]; [reflexivity|]. cbn [forallb]. intros H. apply andb_prop in H. destruct H as (H1 & H2). rewrite (IH H2). destruct e; try discriminate H1; reflexivity. Qed.
Lemma goes_rk k k' : rk k k' -> goes k k'.
Proof. intros [(l & E & H) _ _]. exists l. split; [exact E|now apply outer_no_in]. Qed.
Lemma goes_body_state c blk k d : goes k (fst (read_body_state c blk k d)).
Proof.
  unfold read_body_state, k_decode. destruct (decode (c_dt c) d _) as [[d' s'] r]. destruct r as [|[[x|t]|e]]; cbn [fst].
  - now apply goes_same.
  - destruct (is_eof d').
    + destruct x; cbn [fst]; (eapply goes_trans; [|apply goes_rk, rk_try]); (eapply goes_trans; [|apply goes_log; reflexivity]); now apply goes_same.
    + destruct x; cbn [fst]; [eapply goes_trans; [|apply goes_rk, rk_try]; now apply goes_same|]. eapply goes_trans; [|apply goes_log; reflexivity]. now apply goes_same.
  - eapply goes_trans; [|apply goes_rk, rk_try]. eapply goes_trans; [|apply goes_log; reflexivity]. now apply goes_same.
  - eapply goes_trans; [|apply goes_rk, rk_try]. eapply goes_trans; [|apply goes_log; reflexivity]. now apply goes_same.
Qed.
Lemma goes_read_body c blk k : goes k (fst (k_poll_read_body c blk k)).
Proof.
  unfold k_poll_read_body. destruct (k_reading k); try (now apply goes_same); [|apply goes_body_state]. eapply goes_trans; [|apply goes_body_state].
  destruct (k_writing k); try (now apply goes_same). exists [LContinue]. auto.
Qed.
Lemma goes_drain c blk k : goes k (drain_or_close_read c blk k).
Proof.
  unfold drain_or_close_read. set (k1 := match k_reading k with RContinue d => _ | _ => k end). assert (goes k k1) as H by (subst k1; destruct (k_reading k); now apply goes_same). clearbody k1.
  eapply goes_trans; [exact H|]. eapply goes_trans; [apply (goes_read_body c blk)|]. destruct (k_reading (fst _)); now apply goes_same.
Qed.
Lemma HD_goes c input d d' : goes (d_conn d) (d_conn d') -> HD c input d -> HD c input d'.
Proof.
  intros (l & E & G) H a m b F. rewrite E in F. destruct (app_cons_split _ _ _ _ _ F) as [(b' & E1 & ->)|(a' & -> & E2)]; [destruct (H _ _ _ E1) as (H1 & H2); split; [exact H1|]; intros Z; destruct (H2 Z) as (b0 & ->); cbn; eauto|].
  rewrite E2, forallb_app in G. apply andb_prop in G. destruct G as (_ & G). discriminate G.
Qed.
Lemma hear_head c input now blk k : parser_bounded c -> k_reading k = RInit -> RI (fun _ => True) c input k ->
  let k' := fst (k_poll_read_head c now blk k) in goes k k' \/ exists m l, k_log k' = k_log k ++ LIn m :: l /\ forallb no_in l = true /\ heard c input (k_log k) m /\ (in_decode m = DL_ZERO -> exists b', l = LInEnd :: b').
Proof.
  intros Hb Er H. cbn zeta. unfold k_poll_read_head.
  assert (k_rd (start_timer c now k) = k_rd k /\ k_log (start_timer c now k) = k_log k) as (D0 & L0).
  { unfold start_timer. destruct (k_running k); [auto|]. destruct (c_timeout c); auto. }
  remember (start_timer c now k) as k0 eqn:Ek. clear Ek.
  destruct (io_parse _ _ (k_rd k0)) as [rd r] eqn:Ep. destruct r as [|[m|e]].
  - left. apply goes_same. cbn [k_running k_timer set_rd]. destruct (k_running k0), (k_timer k0) as [t|]; try exact L0. destruct (t <=? now); exact L0.
  - right. cbn [fst]. exists m.
    assert (heard c input (k_log k) m) as Hh.
    { destruct H as (wires & tail & E1 & E2 & E3). unfold inpos in E3. destruct (receiving (k_log k)) as [g|] eqn:Eg.
      { rewrite Er in E3. destruct E3 as (? & ? & ? & ? & ? & _ & _ & _ & _ & _ & F). destruct F. }
      rewrite Er in E3. destruct E3 as (sk0 & A1 & A2). unfold io_parse in Ep. apply (parse_part c _ _ _ Hb) in Ep. destruct Ep as (sk & u & P1 & P2 & P3). rewrite D0 in P1. change (r_buf (k_rd k) ++ data_of (r_evs (k_rd k))) with (stream (k_rd k)) in P1.
      exists wires, (sk0 ++ sk), u, (stream rd). rewrite E1, A2, P1, <- !app_assoc. do 3 (split; [auto|]). split; [now apply skipped_app|exact P3]. }
    unfold got_head. set (k1 := log _ [LIn m]).
    assert (k_log k1 = k_log k ++ [LIn m]) as L1.
    { subst k1. unfold busy, st_disable_keep_alive. destruct (c_server c), (in_keep m), (k_ka k0) eqn:Ek; cbn; rewrite ?Ek; cbn; rewrite ?L0; reflexivity. }
    clearbody k1. match goal with |- context [set_trailers ?x _] => set (k2 := x) end. assert (exists l, k_log k2 = k_log k1 ++ l /\ forallb no_in l = true /\ (in_decode m = DL_ZERO -> exists b', l = LInEnd :: b')) as (l & G1 & G2 & G3).
    { subst k2. destruct (N.eqb_spec (in_decode m) DL_ZERO) as [Z|Z].
      - destruct (c_server c); [exists [LInEnd]; cbn; eauto|]. destruct (goes_rk _ _ (rk_try c blk (log (set_reading k1 RKeepAlive) [LInEnd]))) as (l & G1 & G2). exists (LInEnd :: l). rewrite G1. cbn. rewrite <- app_assoc. eauto.
      - exists []. rewrite app_nil_r. destruct (_ && _); cbn; (split; [reflexivity|]); (split; [reflexivity|]); intros F; contradiction. }
    exists l. split; [cbn [k_log set_trailers]; rewrite G1, L1, <- app_assoc; reflexivity|]. auto.
  - left. destruct (parse_failure e) as [e' n]. unfold on_read_head_error. set (k1 := set_rd (close_read (set_rd (set_rd k0 rd) _)) _).
    assert (k_log k1 = k_log k) as L1 by exact L0. clearbody k1.
    destruct (_ || _); [|now apply goes_same]. unfold on_parse_error. destruct (k_writing k1); try (now apply goes_same). destruct (has_h2_prefix k1); [now apply goes_same|].
    destruct (t_on_error c e'); [|now apply goes_same]. cbn [fst]. apply (goes_trans _ k1); [now apply goes_same|]. eapply goes_trans; [apply goes_rk, rk_write_head|]. now apply goes_same.
Qed.
Lemma HD_stable c input : c_server c = true -> parser_bounded c -> stable c (fun _ => True) (RD (fun _ => True) c input) (HD c input).
Proof.
  intros Hs Hb. assert (forall d k, goes (d_conn d) k -> HD c input d -> HD c input (dset_conn d k)) as RC by (intros d k; exact (HD_goes c input d (dset_conn d k))).
  assert (forall d l, forallb no_in l = true -> HD c input d -> HD c input (dlog d l)) as RL by (intros d l F; apply RC, goes_log, F).
  assert (forall d, HD c input d -> HD c input (d_close d)) as Cl by (intros d; apply HD_goes; now apply goes_same).
  assert (forall d, HD c input d -> HD c input (d_drop d)) as Dr.
  { intros d H. rewrite d_drop_eq. apply (HD_goes c input d); [|exact H]. apply goes_log. unfold drop_events. rewrite !forallb_app.
    destruct (d_body_tx d), (d_callback d); cbn [forallb no_in andb]; induction (ch_queue (d_chan d)); auto. }
  apply stable_introJ.
  - intros d tx rx p _ H. exact H.
  - intros d e He _ H. apply RL; [|exact H]. destruct e; try discriminate He; reflexivity.
  - intros d _ H. split; [|split; [|split]]; intros; (apply RC; [|exact H]); unfold wants_read_again, pending_upgrade, take_error; cbn [fst]; [now apply goes_same|now apply goes_same| |].
    + destruct (k_error (d_conn d)); now apply goes_same.
    + eapply goes_trans; [|apply goes_log; destruct sent; reflexivity]. now apply goes_same.
  - intros d _ H _. now apply Cl.
  - intros i d Hj H _ Hc Hp. unfold d_poll_read_head. rewrite Hp.
    assert (k_reading (d_conn d) = RInit) as Er by (unfold can_read_head in Hc; destruct (k_reading (d_conn d)); try discriminate Hc; reflexivity).
    pose proof (hear_head c input (i_now i) (i_blk i) (d_conn d) Hb Er Hj) as R. cbn zeta in R. destruct (k_poll_read_head c _ _ _) as [k r]. cbn [fst] in R.
    assert (HD c input (dset_conn d k)) as R0.
    { destruct R as [R|(m & l & R & R' & Rh & Rz)]; [now apply RC|]. intros a m' b F. cbn [d_conn dset_conn] in F. rewrite R in F. destruct (app_cons_split _ _ _ _ _ F) as [(b' & E1 & ->)|(a' & -> & E2)]; [destruct (H _ _ _ E1) as (H1 & H2); split; [exact H1|]; intros Z; destruct (H2 Z) as (b0 & ->); cbn; eauto|].
      destruct a' as [|e1 a']; cbn [app] in E2; injection E2 as <- E2; [subst b; now rewrite app_nil_r|]. exfalso. rewrite E2, forallb_app in R'. apply andb_prop in R'. destruct R' as (_ & R'). discriminate R'. }
    destruct r as [|[[m|e]|]].
    + exact R0.
    + set (d1 := if in_decode m =? DL_ZERO then _ else _). assert (HD c input d1) as R1.
      { subst d1. destruct (in_decode m =? DL_ZERO); [exact R0|]. cbn [d_body_tx dset_conn]. destruct (d_body_tx d); [|exact R0]. apply (RL (dset_conn d k)); [reflexivity|exact R0]. }
      clearbody d1. set (d2 := if in_upgrade m then _ else _). assert (HD c input d2) as R2 by (subst d2; destruct (in_upgrade m); [apply RC; [now apply goes_same|exact R1]|exact R1]). clearbody d2.
      unfold recv_ok. rewrite Hs. exact R2.
    + unfold recv_error. rewrite Hs. exact R0.
    + cbn [fst d_conn dset_conn]. destruct (is_write_closed k); [now apply Cl|exact R0].
  - intros i d _ H _ _. apply RC; [apply goes_drain|exact H].
  - intros i d _ H _ _. apply RC; [|exact H]. eapply goes_trans; [apply (goes_log (d_conn d) [LWant]); reflexivity|apply goes_read_body].
  - intros d _ H _. apply RC; [apply goes_rk, rk_close_read|exact H].
  - intros d _ H _ _ _. apply RC; [apply goes_rk, rk_keep_alive|exact H].
  - intros i d _ H. apply RC; [apply goes_rk, rk_flush|exact H].
  - intros i d _ _ H _ Hc Hp. unfold d_poll_msg. rewrite Hs. destruct (i_msg i) as [|[[h body]|e]]; [exact H| |exact H]. apply (RC (dset_in_flight d false)); [apply goes_rk, rk_write_head|exact H].
  - intros i d _ H _. apply RC; [|exact H]. apply goes_rk, rk_effect; [apply end_body_effect|apply rd_end].
  - intros i d b _ H _ _. apply RC; [|exact H]. apply goes_rk, rk_effect; [apply write_body_effect|apply rd_body].
  - intros i d b _ H _ _. apply RC; [|exact H]. apply goes_rk, rk_effect; [apply write_body_and_end_effect|apply rd_body_and_end].
  - intros i d t _ H _ _. apply RC; [|exact H]. apply goes_rk, rk_effect; [apply write_trailers_effect|apply rd_trailers].
  - intros d e _ H. unfold recv_error. rewrite Hs. exact H.
  - intros d _ H. now apply Dr.
  - intros e d _ H. destruct e as [s| | |]; cbn [estep].
    + destruct (c_server c); exact H.
    + destruct (d_pc d); try exact H. destruct (c_server c); [|exact H]. unfold d_graceful, k_disable_keep_alive.
      set (d1 := dset_conn d _). assert (HD c input d1) as H1 by (apply RC; [destruct (is_idle (d_conn d)); now apply goes_same|exact H]). clearbody d1.
      destruct (_ || _); [|exact H1]. now apply Cl.
    + destruct (d_pc d); try exact H. now apply Dr.
    + destruct (d_pc d), (k_log (d_conn d)); try exact H. destruct (c_server c); [|exact H]. apply RC; [now apply goes_same|exact H].
Qed.
Lemma wires_requests c o wires gs : c_server c = true -> parses_with c o -> hp_ok o -> Forall2 (message_wire c) wires gs -> Forall2 (request_wire c o) wires gs.
Proof.
  intros Hs U Ho F. pose proof (C66_request_parser c o Hs U Ho) as R. induction F as [|w g ws gs M F IH]; constructor; [|exact IH].
  destruct M as (sk & head & body & -> & K & H & Hb). rewrite (never_skipped c sk R K). destruct (head_request c o head _ Hs U Ho H) as (q & p & Q & _ & Es & Em).
  pose proof (C12_request_framing (q_minor1 q) (q_method q) (q_lines q)) as Hf. rewrite Es in Hf. destruct Hf as (Hf & _).
  exists head, body, q, (framing_of (pm_decode p)). rewrite Em. cbn [in_version in_method in_headers]. split; [reflexivity|]. split; [exact Q|]. split; [reflexivity|]. split; [reflexivity|]. split; [|split; [exact Hf|]].
  - intros n Hn. destruct (server_parse_view _ _ _ _ Es) as (V & _). rewrite V. destruct (beq n CL) eqn:En; [|reflexivity]. apply beq_eq in En. contradiction.
  - apply body_framed in Hb. rewrite Em in Hb. exact Hb.
Qed.

(* ---- Theorems ---- *)
(* The request that the server is told of when it has got through the complete
   requests [wires]: it begins where they end *)
Definition next_request (c : cfg) (o : hparse) (input : bytes) (a : list levent) (q : hp_request) : Prop := exists wires head rest,
  input = concat wires ++ head ++ rest /\ Forall2 (request_wire c o) wires (received a) /\ receiving a = None /\ is_request o head q.
Lemma HD_all c o h09 flat wmax evs ms : c_server c = true -> parses_with c o -> hp_ok o -> HD c (data_of evs) (after c h09 flat wmax evs ms).
Proof.
  intros Hs U Ho. pose proof (request_bounded c (C66_request_parser c o Hs U Ho)) as Hb.
  enough (RD (fun _ => True) c (data_of evs) (after c h09 flat wmax evs ms) /\ HD c (data_of evs) (after c h09 flat wmax evs ms)) as (_ & H) by exact H.
  apply (Inv_run _ _ _ (stable_conj _ _ _ _ (RD_stable (fun _ => True) (fun _ _ _ H => H) c (data_of evs) (fun _ => True) Hb (fun _ _ _ => Logic.I)) (HD_stable c (data_of evs) Hs Hb))); [intros; exact Logic.I|].
  split; [|intros a0 m0 b0 F; destruct a0; discriminate F]. exists [], (data_of evs). split; [reflexivity|]. split; [constructor|]. cbn. exists []. split; [constructor|reflexivity].
Qed.
(* Every request that is handed out is the one that the bytes stand for, and its
   wishes are those of its lines. *)
Theorem C69_heard : forall c o h09 flat wmax evs ms a m b, c_server c = true -> parses_with c o -> hp_ok o ->
  history c h09 flat wmax evs ms = a ++ LIn m :: b ->
  exists q, next_request c o (data_of evs) a q /\ in_method m = Some (q_method q) /\ in_version m = (if q_minor1 q then HTTP11 else HTTP10) /\
    request_framing (q_minor1 q) (q_lines q) (framing_of (in_decode m)) /\
    (in_expect m = true <-> says_continue (q_lines q)) /\ (in_upgrade m = true <-> asks_tunnel (q_minor1 q) (q_method q) (q_lines q)).
Proof.
  intros c o h09 flat wmax evs ms a m b Hs U Ho E. pose proof (C66_request_parser c o Hs U Ho) as R.
  destruct (HD_all c o h09 flat wmax evs ms Hs U Ho a m b E) as ((wires & sk & head & rest & E1 & E2 & E3 & E4 & E5) & _). rewrite (never_skipped c sk R E4) in E1. destruct (head_request c o head _ Hs U Ho E5) as (q & p & Q & _ & Es & ->).
  exists q. split; [exists wires, head, rest; split; [exact E1|]; split; [now apply wires_requests|auto]|]. cbn [in_method in_version in_decode in_expect in_upgrade]. do 2 (split; [reflexivity|]).
  split; [|exact (C69_lines _ _ _ _ Es)]. pose proof (C12_request_framing (q_minor1 q) (q_method q) (q_lines q)) as Hf. rewrite Es in Hf. apply Hf.
Qed.
(* 100 Continue is sent only for a request of HTTP/1.1 whose lines ask for it
   and which has a body that is not known to be empty. *)
Theorem C69_continue : forall c o h09 flat wmax evs ms a b, c_server c = true -> parses_with c o -> hp_ok o ->
  history c h09 flat wmax evs ms = a ++ LContinue :: b ->
  exists a1 m a2 q, a = a1 ++ LIn m :: a2 /\ count is_LIn a2 = 0%nat /\ next_request c o (data_of evs) a1 q /\
    q_minor1 q = true /\ says_continue (q_lines q) /\ ~ request_framing true (q_lines q) (FLength 0).
Proof.
  intros c o h09 flat wmax evs ms a b Hs U Ho E. destruct (C31_continue_once c h09 flat wmax evs ms a b Hs E) as (m & a1 & a2 & -> & He & V1 & V2 & _ & _ & _ & Hc & Hn).
  rewrite <- app_assoc in E. cbn [app] in E. destruct (C69_heard c o h09 flat wmax evs ms a1 m _ Hs U Ho E) as (q & N & _ & Hv & Hf & Hx & _).
  assert (q_minor1 q = true) as Q1 by (destruct (q_minor1 q); [reflexivity|congruence]). exists a1, m, a2, q. split; [reflexivity|]. split; [exact Hc|]. split; [exact N|]. split; [exact Q1|]. split; [now apply Hx|].
  intros F. rewrite Q1 in Hf. assert (framing_of (in_decode m) = FLength 0) as Z by (eapply request_framing_fun; eassumption).
  assert (in_decode m = DL_ZERO) as Z'. { unfold framing_of in Z. destruct (_ =? _); [discriminate Z|]. destruct (in_decode m =? DL_CLOSE_DELIMITED); [discriminate Z|]. now injection Z. }
  destruct (HD_all c o h09 flat wmax evs ms Hs U Ho a1 m _ E) as (_ & H). destruct (H Z') as (b' & B'). destruct a2 as [|e a2]; [discriminate B'|]. injection B' as -> _. apply Hn. now left.
Qed.
(* The transport is handed over only if one of the requests asked for that in its
   lines or by its method. *)
Theorem C69_tunnel : forall c o h09 flat wmax evs ms a, c_server c = true -> parses_with c o -> hp_ok o ->
  handed_over (history c h09 flat wmax evs ms) a ->
  exists a1 m a2 q, a = a1 ++ LIn m :: a2 /\ next_request c o (data_of evs) a1 q /\ asks_tunnel (q_minor1 q) (q_method q) (q_lines q).
Proof.
  intros c o h09 flat wmax evs ms a Hs U Ho H. destruct (C64_only_asked c h09 flat wmax evs Hs ms a H) as (m & Hm & Hu). destruct H as ((b & E) & _).
  apply in_split in Hm. destruct Hm as (a1 & a2 & ->). rewrite <- app_assoc in E. cbn [app] in E. destruct (C69_heard c o h09 flat wmax evs ms a1 m _ Hs U Ho E) as (q & N & _ & _ & _ & _ & Hx).
  exists a1, m, a2, q. split; [reflexivity|]. split; [exact N|]. now apply Hx.
Qed.

(* ---- Whoever waits for 100 Continue gets it ---- *)
Definition waits (m : inmsg) : Prop := in_expect m = true /\ after_http10 (in_version m) = true /\ in_decode m <> DL_ZERO.
Definition owes (o : option inmsg) (e : levent) : option inmsg :=
  match e with
  | LIn m => Some m
  | LWant | LHead _ _ _ | LHeadFail _ | LInEnd | LInError _ => None
  | _ => o
  end.
Definition owed (l : list levent) : option inmsg := fold_left owes l None.
Definition cready (k : conn) : Prop := (exists d, k_reading k = RContinue d) /\ k_writing k = WInit \/ k_reading k = RClosed.
Definition CN (d : disp) : Prop := (forall m, owed (k_log (d_conn d)) = Some m -> waits m -> cready (d_conn d)) /\
  (forall a b m, k_log (d_conn d) = a ++ LWant :: b -> owed a = Some m -> waits m -> exists b', b = LContinue :: b').
Definition nwant (e : levent) : bool := match e with LIn _ | LWant => false | _ => true end.
Definition hold (k k' : conn) : Prop := exists l, k_log k' = k_log k ++ l /\ forallb nwant l = true /\ (owed (k_log k') = None \/ (cready k -> cready k')).
Lemma owed_app a b : owed (a ++ b) = fold_left owes b (owed a).
Proof. apply fold_left_app. Qed.
Lemma owed_less l : forallb nwant l = true -> forall o m, fold_left owes l o = Some m -> o = Some m.
Proof. induction l as [|e l IH]; intros H o m E; [exact E|]. cbn [forallb] in H. apply andb_prop in H. destruct H as (H1 & H2). cbn [fold_left] in E. apply (IH H2) in E. destruct e; try discriminate H1; try discriminate E; exact E. Qed.
Lemma nwant_split l a b : forallb nwant l = true -> l <> a ++ LWant :: b.
Proof. intros H ->. rewrite forallb_app in H. apply andb_prop in H. destruct H as (_ & H). discriminate H. Qed.
Lemma CN_hold d d' : hold (d_conn d) (d_conn d') -> CN d -> CN d'.
Proof.
  intros (l & E & G & K) (H1 & H2). split.
  - intros m Ho Hw. rewrite E, owed_app in Ho. pose proof (owed_less l G _ _ Ho) as Ho'. destruct K as [K|K]; [rewrite E, owed_app in K; congruence|]. apply K. eauto.
  - intros a b m F Ho Hw. rewrite E in F. destruct (app_cons_split _ _ _ _ _ F) as [(b' & E1 & ->)|(a' & -> & E2)]; [|destruct (nwant_split _ _ _ G E2)].
    destruct (H2 _ _ _ E1 Ho Hw) as (b0 & ->). cbn. eauto.
Qed.
Lemma hold_same k k' l : k_log k' = k_log k ++ l -> forallb nwant l = true -> k_reading k' = k_reading k -> k_writing k' = k_writing k -> hold k k'.
Proof. intros E G R W. exists l. split; [exact E|]. split; [exact G|]. right. unfold cready. now rewrite R, W. Qed.
Lemma hold_eq k k' : k_log k' = k_log k -> k_reading k' = k_reading k -> k_writing k' = k_writing k -> hold k k'.
Proof. intros E. apply hold_same with (l := []); [now rewrite app_nil_r|reflexivity]. Qed.
Lemma hold_closed k k' : k_log k' = k_log k -> k_reading k' = RClosed -> hold k k'.
Proof. intros E R. exists []. split; [now rewrite app_nil_r|]. split; [reflexivity|]. right. intros _. now right. Qed.
Lemma hold_trans k k' k'' : hold k k' -> hold k' k'' -> hold k k''.
Proof.
  intros (a & A1 & A2 & A3) (b & B1 & B2 & B3). exists (a ++ b). split; [now rewrite B1, A1, app_assoc|]. split; [now rewrite forallb_app, A2, B2|].
  destruct B3 as [B3|B3]; [now left|]. destruct A3 as [A3|A3]; [|right; auto]. left. rewrite B1, owed_app, A3. destruct (fold_left owes b None) as [m|] eqn:E; [|reflexivity]. apply (owed_less b B2) in E. discriminate E.
Qed.
Lemma hold_try c blk k : hold k (try_keep_alive c blk k).
Proof.
  unfold try_keep_alive. assert (hold k (st_try_keep_alive c k)) as H.
  { unfold st_try_keep_alive. destruct (k_reading k) eqn:Er, (k_writing k) eqn:Ew; try (now apply hold_eq); try (apply hold_closed; reflexivity).
    destruct (k_ka k); try (apply hold_closed; reflexivity).
    exists []. split; [unfold idle; destruct (c_server c), (c_timeout c); cbn; now rewrite app_nil_r|]. split; [reflexivity|]. right. intros [((d & F) & _)|F]; rewrite Er in F; discriminate F. }
  eapply hold_trans; [exact H|]. set (k1 := st_try_keep_alive c k). clearbody k1. unfold maybe_notify, read_io. destruct (k_reading k1) eqn:Er; try (now apply hold_eq). destruct (k_writing k1) eqn:Ew; try (now apply hold_eq);
    (destruct blk; [now apply hold_eq|]); (destruct (r_buf (k_rd k1)); [|now apply hold_eq]); destruct (r_read_io (k_rd k1)) as [rd [|[n|e]]]; try (now apply hold_eq);
    try (destruct (n =? 0); [|now apply hold_eq]; destruct (is_idle _); apply hold_closed; reflexivity); apply hold_closed; reflexivity.
Qed.
Lemma try_closed c blk k : k_reading k = RClosed -> k_reading (try_keep_alive c blk k) = RClosed.
Proof. intros H. unfold try_keep_alive, st_try_keep_alive. rewrite H. destruct (k_writing k); unfold maybe_notify; cbn [k_reading st_close set_reading set_writing set_ka]; rewrite ?H; auto. Qed.
(* reading the body: on to the body, or the connection is closed, or the body is over *)
Lemma body_state_owed c blk k d : exists l, k_log (fst (read_body_state c blk k d)) = k_log k ++ l /\ forallb nwant l = true /\
  (owed (k_log (fst (read_body_state c blk k d))) = None \/ (exists d', k_reading (fst (read_body_state c blk k d)) = M_Conn.RBody d') \/ k_reading (fst (read_body_state c blk k d)) = RClosed).
Proof.
  assert (forall k1 l, k_log k1 = k_log k ++ l -> forallb nwant l = true -> owed (k_log k1) = None -> exists l', k_log (try_keep_alive c blk k1) = k_log k ++ l' /\ forallb nwant l' = true /\ owed (k_log (try_keep_alive c blk k1)) = None) as T.
  { intros k1 l E G O. destruct (hold_try c blk k1) as (l' & E' & G' & _). exists (l ++ l'). split; [now rewrite E', E, app_assoc|]. split; [now rewrite forallb_app, G, G'|]. rewrite E', owed_app, O.
    destruct (fold_left owes l' None) as [m|] eqn:Em; [|reflexivity]. apply (owed_less l' G') in Em. discriminate Em. }
  assert (forall k1 l, k_log k1 = k_log k ++ l -> forallb nwant l = true -> k_reading k1 = RClosed -> exists l', k_log (try_keep_alive c blk k1) = k_log k ++ l' /\ forallb nwant l' = true /\ k_reading (try_keep_alive c blk k1) = RClosed) as T2.
  { intros k1 l E G O. destruct (hold_try c blk k1) as (l' & E' & G' & _). exists (l ++ l'). split; [now rewrite E', E, app_assoc|]. split; [now rewrite forallb_app, G, G'|]. now apply try_closed. }
  unfold read_body_state, k_decode. destruct (decode (c_dt c) d _) as [[d' s'] r]. destruct r as [|[[x|t]|e]]; cbn [fst].
  - exists []. rewrite app_nil_r. split; [reflexivity|]. split; [reflexivity|]. right. left. eexists. reflexivity.
  - destruct (is_eof d').
    + destruct x as [|y x]; cbn [fst].
      * match goal with |- context [try_keep_alive c blk ?kk] => destruct (T kk [LInEnd]) as (l & H1 & H2 & H3) end; [reflexivity|reflexivity|cbn [k_log log set_reading set_rd app]; now rewrite owed_app|]. eauto.
      * match goal with |- context [try_keep_alive c blk ?kk] => destruct (T kk [LInData (y :: x); LInEnd]) as (l & H1 & H2 & H3) end; [reflexivity|reflexivity|cbn [k_log log set_reading set_rd app]; now rewrite owed_app|]. eauto.
    + destruct x as [|y x]; cbn [fst].
      * match goal with |- context [try_keep_alive c blk ?kk] => destruct (T2 kk []) as (l & H1 & H2 & H3) end; [cbn; now rewrite app_nil_r|reflexivity|reflexivity|]. exists l. auto.
      * exists [LInData (y :: x)]. split; [reflexivity|]. split; [reflexivity|]. right. left. eexists. reflexivity.
  - match goal with |- context [try_keep_alive c blk ?kk] => destruct (T kk [LInTrailers t; LInEnd]) as (l & H1 & H2 & H3) end; [reflexivity|reflexivity|cbn [k_log log set_reading set_rd app]; now rewrite owed_app|]. eauto.
  - match goal with |- context [try_keep_alive c blk ?kk] => destruct (T kk [LInError e]) as (l & H1 & H2 & H3) end; [reflexivity|reflexivity|cbn [k_log log set_reading set_rd app]; now rewrite owed_app|]. eauto.
Qed.
Lemma hold_drain c blk k : can_read_body k = true -> hold k (drain_or_close_read c blk k).
Proof.
  intros Hc. unfold drain_or_close_read. set (k1 := match k_reading k with RContinue d => _ | _ => k end).
  assert (exists d, k_reading k1 = M_Conn.RBody d /\ k_log k1 = k_log k) as (d & R1 & L1). { subst k1. unfold can_read_body in Hc. destruct (k_reading k) eqn:Er; try discriminate Hc; eexists; split; try reflexivity; exact Er. }
  clearbody k1. unfold k_poll_read_body. rewrite R1. destruct (body_state_owed c blk k1 d) as (l & E & G & K). set (k2 := fst _) in *. clearbody k2. rewrite L1 in E.
  assert (hold k (close_read k2)) as Hc2. { exists l. cbn [k_log close_read set_ka set_reading]. split; [exact E|]. split; [exact G|]. right. intros _. now right. }
  destruct (k_reading k2) eqn:R2; try exact Hc2; (destruct K as [K|[(d' & K)|K]]; try discriminate K; exists l; auto).
Qed.
Lemma hold_logged k l : forallb nwant l = true -> hold k (log k l).
Proof. intros H. now apply hold_same with (l := l). Qed.
Lemma hold_write_head c auto k h body : hold k (write_head c auto k h body).
Proof.
  destruct (write_head_cases c auto k h body) as (_ & _ & B').
  destruct B' as [(h' & out & e & _ & Lg & _)|[(h' & out & Lg & _)|(out & Lg & _)]]; eexists; (split; [exact Lg|]); (split; [reflexivity|]); left; rewrite Lg, owed_app; reflexivity.
Qed.
Lemma hold_effect k k' : body_effect k k' -> hold k k'.
Proof.
  intros [-> |(e & l & w' & Ew & Er & El & Ew' & Ek & F)]; [now apply hold_eq|]. exists l. split; [exact El|].
  split; [destruct F as [(bs & -> & _)|[[[-> |(bs & ->)] _]|[[-> |(bs & ->)] _]]]; reflexivity|]. right. intros [(_ & H)|H]; [rewrite Ew in H; discriminate H|]. right. now rewrite Er.
Qed.
Lemma hold_flush c blk wevs k : hold k (fst (k_poll_flush c blk wevs k)).
Proof.
  unfold k_poll_flush. destruct (wb_flush _ _ _ _) as [[[w ev] sent] r].
  assert (hold k (log (set_wb k w) (match sent with [] => [] | _ => [LSent sent] end))) as H1 by (eapply hold_same; [reflexivity|destruct sent; reflexivity|reflexivity|reflexivity]).
  destruct r as [|[u|e]]; cbn [fst]; [exact H1|eapply hold_trans; [exact H1|apply hold_try]|exact H1].
Qed.
Lemma hold_keep_alive c k : hold k (fst (k_poll_read_keep_alive c k)).
Proof.
  unfold k_poll_read_keep_alive, mid_message_detect_eof, require_empty_read, force_io_read, read_io.
  destruct (is_read_closed k); [now apply hold_eq|]. destruct (is_mid_message k).
  - destruct (_ || _); [now apply hold_eq|]. destruct (r_read_io _) as [rd [|[n|e]]]; cbn [fst snd]; [now apply hold_eq| |now apply hold_closed]. destruct (n =? 0); cbn [fst]; [now apply hold_closed|now apply hold_eq].
  - destruct (r_buf (k_rd k)); [|now apply hold_eq]. destruct (r_read_io _) as [rd [|[n|e]]]; cbn [fst snd]; [now apply hold_eq| |now apply hold_closed]. destruct (n =? 0); cbn [fst]; [now apply hold_closed|now apply hold_eq].
Qed.
(* reading a head: nothing is owed then, or what it says is remembered *)
Lemma CN_head c now blk d : c_server c = true -> k_reading (d_conn d) = RInit -> k_writing (d_conn d) = WInit -> CN d -> CN (dset_conn d (fst (k_poll_read_head c now blk (d_conn d)))).
Proof.
  intros Hs Er Ew H. set (k := d_conn d) in *. unfold k_poll_read_head.
  assert (k_reading (start_timer c now k) = RInit /\ k_writing (start_timer c now k) = WInit /\ k_log (start_timer c now k) = k_log k) as (D0 & D1 & L0).
  { unfold start_timer. destruct (k_running k); [auto|]. destruct (c_timeout c); auto. }
  remember (start_timer c now k) as k0 eqn:Ek. clear Ek.
  assert (forall k', k_log k' = k_log k -> k_reading k' = RInit -> k_writing k' = WInit -> CN (dset_conn d k')) as T.
  { intros k' A B' C. apply (CN_hold d); [|exact H]. apply hold_eq; cbn [d_conn dset_conn]; fold k; congruence. }
  destruct (io_parse _ _ (k_rd k0)) as [rd r] eqn:Ep. destruct r as [|[m|e]].
  - cbn [k_running k_timer set_rd]. destruct (k_running k0), (k_timer k0) as [t|]; try (now apply T). destruct (t <=? now); now apply T.
  - cbn [fst]. unfold got_head. set (k1 := log _ [LIn m]).
    assert (k_log k1 = k_log k ++ [LIn m] /\ k_writing k1 = WInit) as (L1 & W1).
    { subst k1. unfold busy, st_disable_keep_alive. destruct (c_server c), (in_keep m), (k_ka k0) eqn:Ek; cbn; rewrite ?Ek; cbn; rewrite ?L0; auto. }
    clearbody k1. match goal with |- context [set_trailers ?x _] => set (k2 := x) end.
    assert (exists l, k_log k2 = k_log k ++ LIn m :: l /\ forallb nwant l = true /\ (owed (k_log k2) = Some m -> waits m -> cready k2)) as (l & G1 & G2 & G3).
    { subst k2. rewrite Hs. destruct (N.eqb_spec (in_decode m) DL_ZERO) as [Z|Z].
      - exists [LInEnd]. cbn [k_log log set_reading]. rewrite L1, <- app_assoc. split; [reflexivity|]. split; [reflexivity|]. intros _ (_ & _ & F). contradiction.
      - exists []. destruct (in_expect m && after_http10 (in_version m)) eqn:Ec; cbn [k_log set_reading]; rewrite L1; (split; [reflexivity|]); (split; [reflexivity|]); intros _ (F1 & F2 & _).
        + left. split; [eexists; reflexivity|exact W1].
        + rewrite F1, F2 in Ec. discriminate Ec. }
    clearbody k2. destruct H as (_ & H2). split; cbn [d_conn dset_conn k_log set_trailers].
    + intros m' Ho Hw. assert (m' = m) as ->. { rewrite G1, owed_app in Ho. cbn [fold_left owes] in Ho. apply (owed_less l G2) in Ho. congruence. } exact (G3 Ho Hw).
    + intros a b m' F. rewrite G1 in F. destruct (app_cons_split _ _ _ _ _ F) as [(b' & E1 & ->)|(a' & -> & E2)].
      * intros A1 A2. destruct (H2 _ _ _ E1 A1 A2) as (b0 & ->). cbn. eauto.
      * exfalso. destruct a' as [|e1 a']; cbn [app] in E2; [discriminate E2|]. injection E2 as _ E2. exact (nwant_split _ _ _ G2 E2).
  - destruct (parse_failure e) as [e' n]. unfold on_read_head_error. set (k1 := set_rd (close_read (set_rd (set_rd k0 rd) _)) _).
    assert (hold k k1) as H1 by (apply hold_closed; [exact L0|reflexivity]). assert (k_reading k1 = RClosed) as R1 by reflexivity. clearbody k1.
    enough (forall x : conn * poll (option (result inmsg cerr)), hold k1 (fst x) -> CN (dset_conn d (fst x))) as Q.
    { apply Q. destruct (_ || _); [|now apply hold_closed]. unfold on_parse_error. destruct (k_writing k1); try (now apply hold_eq). destruct (has_h2_prefix k1); [now apply hold_eq|].
      destruct (t_on_error c e'); [|now apply hold_eq]. cbn [fst]. eapply hold_trans; [apply hold_write_head|]. now apply hold_eq. }
    intros x Hx. apply (CN_hold d); [|exact H]. cbn [d_conn dset_conn]. now apply hold_trans with k1.
Qed.
Lemma CN_want c blk d : can_read_body (d_conn d) = true -> CN d -> CN (dset_conn d (fst (k_poll_read_body c blk (log (d_conn d) [LWant])))).
Proof.
  intros Hc (H1 & H2). set (k := d_conn d) in *. set (k1 := log k [LWant]).
  assert (exists l, k_log (fst (k_poll_read_body c blk k1)) = k_log k ++ LWant :: l /\ forallb nwant l = true /\ ((exists m, owed (k_log k) = Some m /\ waits m) -> exists b', l = LContinue :: b')) as (l & G1 & G2 & G3).
  { unfold k_poll_read_body. unfold can_read_body in Hc. change (k_reading k1) with (k_reading k). destruct (k_reading k) eqn:Er; try discriminate Hc.
    - match goal with |- context [read_body_state c blk ?x d0] => set (k2 := x) end. destruct (body_state_owed c blk k2 d0) as (l & E & G & _). change (k_writing k1) with (k_writing k) in k2.
      destruct (k_writing k) eqn:Ew.
      + exists (LContinue :: l). rewrite E. subst k2 k1. cbn [k_log log set_reading set_wb]. rewrite <- !app_assoc. split; [reflexivity|]. split; [exact G|]. eauto.
      + exists l. rewrite E. subst k2 k1. cbn [k_log log set_reading set_wb]. rewrite <- !app_assoc. split; [reflexivity|]. split; [exact G|]. intros (m & A & B'). destruct (H1 m A B') as [(_ & F)|F]; congruence.
      + exists l. rewrite E. subst k2 k1. cbn [k_log log set_reading set_wb]. rewrite <- !app_assoc. split; [reflexivity|]. split; [exact G|]. intros (m & A & B'). destruct (H1 m A B') as [(_ & F)|F]; congruence.
      + exists l. rewrite E. subst k2 k1. cbn [k_log log set_reading set_wb]. rewrite <- !app_assoc. split; [reflexivity|]. split; [exact G|]. intros (m & A & B'). destruct (H1 m A B') as [(_ & F)|F]; congruence.
    - destruct (body_state_owed c blk k1 d0) as (l & E & G & _). exists l. rewrite E. subst k1. cbn [k_log log]. rewrite <- app_assoc. split; [reflexivity|]. split; [exact G|].
      intros (m & A & B'). destruct (H1 m A B') as [((x & F) & _)|F]; congruence. }
  split; cbn [d_conn dset_conn].
  - intros m Ho _. rewrite G1, owed_app in Ho. cbn [fold_left owes] in Ho. apply (owed_less l G2) in Ho. discriminate Ho.
  - intros a b m F A1 A2. rewrite G1 in F. destruct (app_cons_split _ _ _ _ _ F) as [(b' & E1 & ->)|(a' & -> & E2)].
    + destruct (H2 _ _ _ E1 A1 A2) as (b0 & ->). cbn. eauto.
    + destruct a' as [|e1 a']; cbn [app] in E2; [|exfalso; injection E2 as _ E2; exact (nwant_split _ _ _ G2 E2)]. injection E2 as <-. rewrite app_nil_r in A1. apply G3. eauto.
Qed.
Lemma CN_stable c : c_server c = true -> stable c (fun _ => True) SInv CN.
Proof.
  intros Hs. assert (forall d k, hold (d_conn d) k -> CN d -> CN (dset_conn d k)) as RC by (intros d k; exact (CN_hold d (dset_conn d k))).
  assert (forall d l, forallb nwant l = true -> CN d -> CN (dlog d l)) as RL by (intros d l F; apply RC, hold_logged, F).
  assert (forall d, CN d -> CN (d_close d)) as Cl by (intros d; apply CN_hold; now apply hold_closed).
  assert (forall d, CN d -> CN (d_drop d)) as Dr.
  { intros d H. rewrite d_drop_eq. apply (CN_hold d); [|exact H]. apply hold_logged. unfold drop_events. rewrite !forallb_app.
    destruct (d_body_tx d), (d_callback d); cbn [forallb nwant andb]; induction (ch_queue (d_chan d)); auto. }
  apply stable_introJ.
  - intros d tx rx p _ H. exact H.
  - intros d e He _ H. apply RL; [|exact H]. destruct e; try discriminate He; reflexivity.
  - intros d _ H. split; [|split; [|split]]; intros; (apply RC; [|exact H]); unfold wants_read_again, pending_upgrade, take_error; cbn [fst]; [now apply hold_eq|now apply hold_eq| |].
    + destruct (k_error (d_conn d)); now apply hold_eq.
    + eapply hold_trans; [|apply hold_logged; destruct sent; reflexivity]. now apply hold_eq.
  - intros d _ H _. now apply Cl.
  - intros i d Hj H _ Hc Hp. unfold d_poll_read_head. rewrite Hp.
    assert (k_reading (d_conn d) = RInit) as Er by (unfold can_read_head in Hc; destruct (k_reading (d_conn d)); try discriminate Hc; reflexivity).
    assert (k_writing (d_conn d) = WInit) as Ew by (destruct Hj as (x & _ & Hj & _); rewrite Er in Hj; apply Hj).
    pose proof (CN_head c (i_now i) (i_blk i) d Hs Er Ew H) as R0. destruct (k_poll_read_head c _ _ _) as [k r]. cbn [fst] in R0.
    destruct r as [|[[m|e]|]].
    + exact R0.
    + set (d1 := if in_decode m =? DL_ZERO then _ else _). assert (CN d1) as R1.
      { subst d1. destruct (in_decode m =? DL_ZERO); [exact R0|]. cbn [d_body_tx dset_conn]. destruct (d_body_tx d); [|exact R0]. apply (RL (dset_conn d k)); [reflexivity|exact R0]. }
      clearbody d1. set (d2 := if in_upgrade m then _ else _). assert (CN d2) as R2 by (subst d2; destruct (in_upgrade m); [apply RC; [now apply hold_eq|exact R1]|exact R1]). clearbody d2.
      unfold recv_ok. rewrite Hs. exact R2.
    + unfold recv_error. rewrite Hs. exact R0.
    + cbn [fst d_conn dset_conn]. destruct (is_write_closed k); [now apply Cl|exact R0].
  - intros i d _ H _ Hc. apply RC; [now apply hold_drain|exact H].
  - intros i d _ H _ Hc. now apply CN_want.
  - intros d _ H _. apply RC; [now apply hold_closed|exact H].
  - intros d _ H _ _ _. apply RC; [apply hold_keep_alive|exact H].
  - intros i d _ H. apply RC; [apply hold_flush|exact H].
  - intros i d _ _ H _ Hc Hp. unfold d_poll_msg. rewrite Hs. destruct (i_msg i) as [|[[h body]|e]]; [exact H| |exact H]. apply (RC (dset_in_flight d false)); [apply hold_write_head|exact H].
  - intros i d _ H _. apply RC; [|exact H]. apply hold_effect, end_body_effect.
  - intros i d b _ H _ _. apply RC; [|exact H]. apply hold_effect, write_body_effect.
  - intros i d b _ H _ _. apply RC; [|exact H]. apply hold_effect, write_body_and_end_effect.
  - intros i d t _ H _ _. apply RC; [|exact H]. apply hold_effect, write_trailers_effect.
  - intros d e _ H. unfold recv_error. rewrite Hs. exact H.
  - intros d _ H. now apply Dr.
  - intros e d _ H. destruct e as [s| | |]; cbn [estep].
    + destruct (c_server c); exact H.
    + destruct (d_pc d); try exact H. destruct (c_server c); [|exact H]. unfold d_graceful, k_disable_keep_alive.
      set (d1 := dset_conn d _). assert (CN d1) as H1 by (apply RC; [destruct (is_idle (d_conn d)); [now apply hold_closed|now apply hold_eq]|exact H]). clearbody d1.
      destruct (_ || _); [|exact H1]. now apply Cl.
    + destruct (d_pc d); try exact H. now apply Dr.
    + destruct (d_pc d), (k_log (d_conn d)); try exact H. destruct (c_server c); [|exact H]. apply RC; [now apply hold_eq|exact H].
Qed.
Lemma CN_all c h09 flat wmax evs ms : c_server c = true -> CN (after c h09 flat wmax evs ms).
Proof.
  intros Hs. enough (SInv (after c h09 flat wmax evs ms) /\ CN (after c h09 flat wmax evs ms)) as (_ & H) by exact H.
  apply (Inv_run _ _ _ (stable_conj _ _ _ _ (server_stable c Hs) (CN_stable c Hs))); [intros; exact Logic.I|].
  split; [apply SInv_start|]. split; [intros m F; discriminate F|]. intros a b m F. destruct a; discriminate F.
Qed.
Lemma last_in a m b a' m' b' : a ++ LIn m :: b = a' ++ LIn m' :: b' -> count is_LIn b = 0%nat -> count is_LIn b' = 0%nat -> a = a' /\ m = m' /\ b = b'.
Proof.
  intros E H1 H2. destruct (app_cons_split _ _ _ _ _ E) as [(x & -> & ->)|(x & -> & E')].
  - exfalso. rewrite count_app, count_cons in H2. cbn [is_LIn] in H2. lia.
  - destruct x as [|e x]; cbn [app] in E'.
    + injection E' as -> ->. rewrite app_nil_r. auto.
    + injection E' as <- ->. exfalso. rewrite count_app, count_cons in H1. cbn [is_LIn] in H1. lia.
Qed.
(* What ends the waiting: the answer has been begun, the body is over or failed, or
   it has been asked for before *)
Definition settles (e : levent) : Prop := match e with LIn _ | LWant | LHead _ _ _ | LHeadFail _ | LInEnd | LInError _ => True | _ => False end.
(* The other direction: when the application first asks for the body of such a
   request, and no answer has been begun, 100 Continue is put out at once; for
   another request it is not. *)
Theorem C69_answered : forall c o h09 flat wmax evs ms a1 m a2 b, c_server c = true -> parses_with c o -> hp_ok o ->
  history c h09 flat wmax evs ms = a1 ++ LIn m :: a2 ++ LWant :: b -> (forall e, In e a2 -> ~ settles e) ->
  exists q, next_request c o (data_of evs) a1 q /\
    ((exists b', b = LContinue :: b') <-> q_minor1 q = true /\ says_continue (q_lines q) /\ ~ request_framing true (q_lines q) (FLength 0)).
Proof.
  intros c o h09 flat wmax evs ms a1 m a2 b Hs U Ho E Hq. destruct (C69_heard c o h09 flat wmax evs ms a1 m _ Hs U Ho E) as (q & N & _ & Hv & Hf & Hx & _).
  exists q. split; [exact N|]. split.
  - intros (b' & ->). assert (history c h09 flat wmax evs ms = (a1 ++ LIn m :: a2 ++ [LWant]) ++ LContinue :: b') as E' by (rewrite E; rewrite <- app_assoc; cbn; now rewrite <- app_assoc).
    destruct (C31_continue_once c h09 flat wmax evs ms _ _ Hs E') as (m' & a1' & a2' & X & He & V1 & V2 & _ & _ & _ & Hc & Hn).
    assert (count is_LIn (a2 ++ [LWant]) = 0%nat) as F1.
    { rewrite count_snoc. cbn [is_LIn]. rewrite Nat.add_0_r. clear - Hq. induction a2 as [|e a2 IH]; [reflexivity|]. rewrite count_cons, IH by (intros e' He'; apply Hq; now right). specialize (Hq e (or_introl eq_refl)). destruct e; try reflexivity. exfalso. apply Hq. exact Logic.I. }
    destruct (last_in _ _ _ _ _ _ X F1 Hc) as (<- & <- & <-).
    assert (q_minor1 q = true) as Q1 by (destruct (q_minor1 q); [reflexivity|congruence]). split; [exact Q1|]. split; [now apply Hx|].
    intros F. rewrite Q1 in Hf. assert (framing_of (in_decode m) = FLength 0) as Z by (eapply request_framing_fun; eassumption).
    assert (in_decode m = DL_ZERO) as Z'. { unfold framing_of in Z. destruct (_ =? _); [discriminate Z|]. destruct (in_decode m =? DL_CLOSE_DELIMITED); [discriminate Z|]. now injection Z. }
    destruct (HD_all c o h09 flat wmax evs ms Hs U Ho a1 m _ E) as (_ & H). destruct (H Z') as (b0 & B'). destruct a2 as [|e a2]; [discriminate B'|]. injection B' as -> _. apply Hn. now left.
  - intros (Q1 & Q2 & Q3). destruct (CN_all c h09 flat wmax evs ms Hs) as (_ & H). change (k_log (d_conn (after c h09 flat wmax evs ms))) with (history c h09 flat wmax evs ms) in H.
    apply (H (a1 ++ LIn m :: a2) b m); [rewrite E, <- app_assoc; reflexivity| |].
    + rewrite owed_app. cbn [fold_left owes]. clear - Hq. assert (forall o, fold_left owes a2 o = o) as T; [|apply T].
      induction a2 as [|e a2 IH]; intros o; [reflexivity|]. cbn [fold_left]. rewrite IH by (intros e' He'; apply Hq; now right). specialize (Hq e (or_introl eq_refl)). destruct e; try reflexivity; exfalso; apply Hq; exact Logic.I.
    + split; [now apply Hx|]. rewrite Hv, Q1. split; [reflexivity|]. intros Z. rewrite Q1, Z in Hf. apply Q3. exact Hf.
Qed.

(* ---- Refuted: a CONNECT request always asks for a tunnel (RFC 9110 9.3.6) ----
   An Upgrade line in a request of HTTP/1.0 is to be ignored (RFC 9110 7.8), but
   it takes back what the method CONNECT has set (role.rs 243 and 325-328): the
   server answers 200 to such a request and shuts the connection down. *)
Definition C69_connect : Prop := forall c o h09 flat wmax evs ms a m b, c_server c = true -> parses_with c o -> hp_ok o ->
  history c h09 flat wmax evs ms = a ++ LIn m :: b -> in_method m = Some (B "CONNECT") -> in_upgrade m = true.
Definition connect_old : bytes := text_lines [B "CONNECT h:1 HTTP/1.0"; B "Upgrade: x"; B "Connection: keep-alive"; []].
Lemma connect_shut : exists m h bs b, history (ref_cfg true) false true 8192 (cut 100 31 connect_old) (steps 60 (answer ok200)) = [] ++ LIn m :: LInEnd :: LHead false h bs :: b /\
  in_method m = Some (B "CONNECT") /\ in_upgrade m = false /\ o_subject h = OResponse 200 None /\ In LShutdown b.
Proof. eexists _, _, _, _. split; [vm_compute; reflexivity|]. repeat split. cbn. auto. Qed.
Theorem C69_connect_refuted : ~ C69_connect.
Proof.
  intros H. destruct connect_shut as (m & h & bs & b & E & Em & Eu & _). specialize (H (ref_cfg true) (ref_hp 100 true) _ _ _ _ _ _ _ _ eq_refl (ref_parses true) (ref_ok 100 true) E Em). congruence.
Qed.
(* Without that line the same request has the connection handed over. *)
Theorem C69_connect_alone : forall v11 lines m, field_values (B "upgrade") lines = [] -> server_parse v11 (B "CONNECT") lines = Ok m -> pm_upgrade m = true.
Proof. intros v11 lines m H E. apply (proj2 (C69_lines _ _ _ _ E)). unfold asks_tunnel. now rewrite H. Qed.

(* ---- Examples ---- *)
Example C69_lines_ex : (exists m, server_parse true (B "PUT") [(B "Expect", B "x"); (B "expect", B "100-Continue"); (B "Content-Length", B "3")] = Ok m /\ pm_expect m = true /\ pm_upgrade m = false) /\
  (exists m, server_parse false (B "CONNECT") [(B "Host", B "h:1")] = Ok m /\ pm_expect m = false /\ pm_upgrade m = true) /\
  (exists m, server_parse true (B "GET") [(B "Upgrade", B "ws")] = Ok m /\ pm_upgrade m = true).
Proof. repeat split; eexists; (split; [vm_compute; reflexivity|]); try split; reflexivity. Qed.
Definition put_waits : bytes := text_lines [B "PUT / HTTP/1.1"; B "Expect: 100-Continue"; B "Content-Length: 3"; []].
Example C69_heard_ex : exists m b, history (ref_cfg true) false true 8192 (cut 100 31 (put_waits ++ B "abc")) (steps 60 (answer ok200)) = [] ++ LIn m :: b /\
  in_expect m = true /\ in_upgrade m = false /\ in_decode m = 3.
Proof. eexists _, _. split; [vm_compute; reflexivity|]. repeat split. Qed.
Example C69_continue_ex : exists m b, history (ref_cfg true) false true 8192 (cut 100 31 (put_waits ++ B "abc")) (steps 60 (answer ok200)) = [LIn m; LWant] ++ LContinue :: b /\ In LInEnd b.
Proof. eexists _, _. split; [vm_compute; reflexivity|]. cbn. auto. Qed.
Example C69_answered_ex : (exists m b, history (ref_cfg true) false true 8192 (cut 100 31 (put_waits ++ B "abc")) (steps 60 (answer ok200)) = [] ++ LIn m :: [] ++ LWant :: LContinue :: b) /\
  exists m e b, history (ref_cfg true) false true 8192 (cut 100 31 (text_lines [B "PUT / HTTP/1.1"; B "Content-Length: 3"; []] ++ B "abc")) (steps 60 (answer ok200)) = [] ++ LIn m :: [] ++ LWant :: e :: b /\ e <> LContinue.
Proof. split; [eexists _, _; vm_compute; reflexivity|]. eexists _, _, _. split; [vm_compute; reflexivity|discriminate]. Qed.
Example C69_tunnel_ex : exists m h bs a, handed_over (history (ref_cfg true) false true 8192 (cut 100 31 (text_lines [B "CONNECT h:1 HTTP/1.0"; []])) (steps 60 (answer ok200))) (LIn m :: LInEnd :: LHead false h bs :: a) /\ in_upgrade m = true.
Proof.
  eexists _, _, _, [_; _]. split; [split; [eexists; vm_compute; reflexivity|]|reflexivity]. intros F. cbn in F. repeat (destruct F as [F|F]; [discriminate F|]). exact F.
Qed.

Print Assumptions C69_lines.
Print Assumptions C69_heard.
Print Assumptions C69_continue.
Print Assumptions C69_answered.
Print Assumptions C69_tunnel.
Print Assumptions C69_connect_refuted.
Print Assumptions C69_connect_alone.
