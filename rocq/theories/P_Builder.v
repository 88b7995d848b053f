(* C85: the settings of a connection are the ones asked for; what cannot be done
   is refused when the connection is built. *)
From Verif Require P_Once.
From Verif Require Import Base M_WriteBuf M_Read M_Conn M_Dispatch S_Conn L_Moves P_Conn M_Builder S_Builder.

Fixpoint chain {B C} (step : B -> C -> option B) (b : B) (cs : list C) : option B :=
  match cs with [] => Some b | c :: r => match step b c with Some b' => chain step b' r | None => None end end.
Lemma s_chain cs : forall b, s_calls b cs = chain s_call b cs.
Proof. induction cs as [|c cs IH]; intros b; cbn; [reflexivity|]. destruct (s_call b c); auto. Qed.
Lemma c_chain cs : forall b, c_calls b cs = chain c_call b cs.
Proof. induction cs as [|c cs IH]; intros b; cbn; [reflexivity|]. destruct (c_call b c); auto. Qed.
Lemma h_chain cs : forall b, h_calls b cs = chain h_call b cs.
Proof. induction cs as [|c cs IH]; intros b; cbn; [reflexivity|]. destruct (h_call b c); auto. Qed.

Lemma set_cons {C A} (f : C -> option A) d c cs x : set_to f (match f c with Some y => y | None => d end) cs x -> set_to f d (c :: cs) x.
Proof.
  intros [(a & c' & b & -> & H)|(H & ->)]; [left; now exists (c :: a), c', b|].
  destruct (f c) as [y|] eqn:E; [left; now exists [], c, cs|right; split; [now constructor|reflexivity]].
Qed.
Lemma chain_set {B C A} (step : B -> C -> option B) (proj : B -> A) (f : C -> option A) :
  (forall b c b', step b c = Some b' -> proj b' = match f c with Some x => x | None => proj b end) ->
  forall cs b b', chain step b cs = Some b' -> set_to f (proj b) cs (proj b').
Proof.
  intros H. induction cs as [|c cs IH]; intros b b' E; cbn [chain] in E.
  - injection E as <-. right. split; [constructor|reflexivity].
  - destruct (step b c) as [b1|] eqn:Eb; [|discriminate]. apply set_cons. rewrite <- (H _ _ _ Eb). now apply IH.
Qed.
Lemma set_unique {C A} (f : C -> option A) d cs x y : set_to f d cs x -> set_to f d cs y -> x = y.
Proof.
  revert d. induction cs as [|c cs IH] using rev_ind; intros d Hx Hy.
  - destruct Hx as [(a & c & b & E & _)|(_ & ->)]; [destruct a; discriminate|]. destruct Hy as [(a & c & b & E & _)|(_ & ->)]; [destruct a; discriminate|reflexivity].
  - assert (forall z, set_to f d (cs ++ [c]) z -> match f c with Some w => z = w | None => set_to f d cs z end) as K.
    { intros z [(a & c' & b & E & F & G)|(G & ->)].
      - destruct b as [|c'' b _] using rev_ind.
        + apply app_inj_tail in E. destruct E as (-> & ->). now rewrite F.
        + rewrite app_comm_cons, app_assoc in E. apply app_inj_tail in E. destruct E as (-> & ->). apply Forall_app in G. destruct G as (G & G'). apply Forall_inv in G'. rewrite G'. left. now exists a, c', b.
      - apply Forall_app in G. destruct G as (G & G'). apply Forall_inv in G'. rewrite G'. now right. }
    apply K in Hx. apply K in Hy. destruct (f c); [congruence|eauto].
Qed.
Lemma chain_fails {B C} (step : B -> C -> option B) (bad : C -> Prop) : (forall b c, step b c = None <-> bad c) ->
  forall cs b, chain step b cs = None <-> Exists bad cs.
Proof.
  intros H. induction cs as [|c cs IH]; intros b; cbn [chain]; [split; [discriminate|intros F; inversion F]|]. rewrite Exists_cons, <- (H b c).
  destruct (step b c) as [b'|]; [rewrite (IH b'); split; [auto|intros [F|F]; [discriminate|exact F]]|]. split; auto.
Qed.

(* ---- HTTP/1 server ---- *)
Ltac field := intros [? ? ? ? ? ? ? ? ? ? ? ?] [] bb EE; cbn in EE; try (destruct (_ <? _) in EE; [discriminate EE|]); injection EE as <-; reflexivity.
Definition wait_of (d : dur) : option (option N) := match d with DConfigured x => Some x | DDefault _ => None end.
Lemma default_stays cs : forall b b', chain s_call b cs = Some b' -> (forall x, b_timeout b = DDefault x -> x = Some 30) -> forall x, b_timeout b' = DDefault x -> x = Some 30.
Proof.
  induction cs as [|c cs IH]; intros b b' E H; cbn [chain] in E; [injection E as <-; exact H|]. destruct (s_call b c) as [b1|] eqn:Eb; [|discriminate]. apply (IH _ _ E).
  destruct b as [? ? ? ? ? ? ? rt ? ? ? ?], c; cbn in *; try (destruct (_ <? _) in Eb; [discriminate Eb|]); injection Eb as <-; cbn; try exact H. discriminate.
Qed.
Lemma big_stays cs : forall b b', chain s_call b cs = Some b' -> (forall n, b_max_buf b = Some n -> minimum_max_buffer_size <= n) -> forall n, b_max_buf b' = Some n -> minimum_max_buffer_size <= n.
Proof.
  induction cs as [|c cs IH]; intros b b' E H; cbn [chain] in E; [injection E as <-; exact H|]. destruct (s_call b c) as [b1|] eqn:Eb; [|discriminate]. apply (IH _ _ E).
  destruct b as [? ? ? ? ? ? ? rt ? ? ? ?], c as [| | | | | | | | |n0| | | ]; cbn in *; try (injection Eb as <-; exact H). destruct (N.ltb_spec n0 minimum_max_buffer_size); [discriminate|]. injection Eb as <-. cbn. intros n [= <-]. assumption.
Qed.

(* Each setting of a server connection is the one that was asked for last, or the
   default.  Where two settings meet: without a timer the default timeout of 30
   seconds is not used; flushing in pipelines means flattening. *)
Theorem C85_server vectored cs s : server_conn vectored cs = Some s ->
  set_to s_half false cs (st_half s) /\ set_to s_title false cs (st_title s) /\ set_to s_case false cs (st_case s) /\
  set_to s_spaces false cs (pc_spaces (st_parser s)) /\ set_to s_ignore false cs (pc_ignore_req (st_parser s)) /\
  set_to s_headers None cs (st_max_headers s) /\ set_to s_date true cs (st_date s) /\ set_to s_timer TEmpty cs (st_timer s) /\ set_to s_flush false cs (st_flush s) /\
  set_to s_max default_max_buffer_size cs (st_wmax s) /\ st_read s = with_max (st_wmax s) /\
  (exists k, set_to s_keep true cs k /\ st_ka s = if k then KBusy else KDisabled) /\
  (exists w, set_to s_writev None cs w /\ st_flat s = st_flush s || negb (match w with Some b => b | None => vectored end)) /\
  (exists d, set_to s_wait None cs d /\ st_timeout s = match d with Some x => x | None => match st_timer s with TEmpty => None | TTimer _ => Some 30 end end).
Proof.
  unfold server_conn. rewrite s_chain. destruct (chain s_call sb_new cs) as [b|] eqn:E; [|discriminate]. intros H.
  pose proof (chain_set s_call b_half s_half ltac:(field) cs _ _ E) as S1. pose proof (chain_set s_call b_title s_title ltac:(field) cs _ _ E) as S2.
  pose proof (chain_set s_call b_case s_case ltac:(field) cs _ _ E) as S3. pose proof (chain_set s_call (fun b => pc_spaces (b_parser b)) s_spaces ltac:(field) cs _ _ E) as S4.
  pose proof (chain_set s_call (fun b => pc_ignore_req (b_parser b)) s_ignore ltac:(field) cs _ _ E) as S5. pose proof (chain_set s_call b_max_headers s_headers ltac:(field) cs _ _ E) as S6.
  pose proof (chain_set s_call b_date s_date ltac:(field) cs _ _ E) as S7. pose proof (chain_set s_call b_timer s_timer ltac:(field) cs _ _ E) as S8.
  pose proof (chain_set s_call b_flush s_flush ltac:(field) cs _ _ E) as S9. pose proof (chain_set s_call (fun b => match b_max_buf b with Some n => n | None => default_max_buffer_size end) s_max ltac:(field) cs _ _ E) as S10.
  pose proof (chain_set s_call b_ka s_keep ltac:(field) cs _ _ E) as S11. pose proof (chain_set s_call b_writev s_writev ltac:(field) cs _ _ E) as S12.
  pose proof (chain_set s_call (fun b => wait_of (b_timeout b)) s_wait ltac:(field) cs _ _ E) as S13.
  pose proof (default_stays cs _ _ E ltac:(cbn; congruence)) as D. clear E.
  destruct b as [p tm hc k ti ca mh rt wv mb fl da]. cbn in *. unfold serve_connection in H. cbn in H. rewrite !orb_false_r, andb_true_r in H.
  destruct (t_check tm rt) as [t|] eqn:Et; [|discriminate].
  assert (st_half s = hc /\ st_title s = ti /\ st_case s = ca /\ st_parser s = p /\ st_max_headers s = mh /\ st_date s = da /\ st_timer s = tm /\ st_flush s = fl /\
    st_wmax s = match mb with Some n => n | None => default_max_buffer_size end /\ st_read s = with_max (st_wmax s) /\ st_ka s = (if k then KBusy else KDisabled) /\
    st_flat s = fl || negb (match wv with Some b => b | None => vectored end) /\ st_timeout s = t) as (-> & -> & -> & -> & -> & -> & -> & -> & -> & R & -> & -> & ->).
  { destruct mb as [n|]; [unfold set_max_buf in H; destruct (n <? _) in H; [discriminate|]|]; injection H as <-; destruct t, wv, mh; cbn; auto 20. }
  do 10 (split; [assumption|]). split; [exact R|]. split; [eauto|]. split; [eauto|]. exists (wait_of rt). split; [exact S13|].
  destruct rt as [[x|]|[x|]]; cbn in *; [specialize (D _ eq_refl); injection D as ->|specialize (D _ eq_refl); discriminate| |]; destruct tm; congruence.
Qed.

(* Building fails exactly if a limit below the minimum was asked for at some point,
   or if the last word on the timeout is a duration and no timer was given *)
Theorem C85_server_panics vectored cs : server_conn vectored cs = None <->
  Exists (fun c => exists n, c = SMaxBuf n /\ n < 8192) cs \/
  (exists d, set_to s_wait None cs (Some (Some d))) /\ never_asked s_timer cs.
Proof.
  change 8192 with minimum_max_buffer_size.
  unfold server_conn. rewrite s_chain.
  assert (forall b c, s_call b c = None <-> exists n, c = SMaxBuf n /\ n < minimum_max_buffer_size) as K.
  { intros [? ? ? ? ? ? ? ? ? ? ? ?] c. destruct c as [| | | | | | | | |n| | | ]; cbn; try (split; [discriminate|intros (n0 & F & _); discriminate F]). destruct (N.ltb_spec n minimum_max_buffer_size); split; eauto; [discriminate|intros (n0 & [= ->] & F); lia]. }
  pose proof (chain_fails s_call _ K cs sb_new) as F. destruct (chain s_call sb_new cs) as [b|] eqn:E; [|split; [intros _; left; now apply F|reflexivity]].
  assert (~ Exists (fun c => exists n, c = SMaxBuf n /\ n < minimum_max_buffer_size) cs) as NF by (intros G; apply F in G; discriminate). clear F K.
  pose proof (chain_set s_call b_timer s_timer ltac:(field) cs _ _ E) as S8. pose proof (chain_set s_call (fun b => wait_of (b_timeout b)) s_wait ltac:(field) cs _ _ E) as S13.
  pose proof (big_stays cs _ _ E ltac:(cbn; discriminate)) as G. cbn in S8, S13. clear E.
  assert (serve_connection vectored b = None <-> t_check (b_timer b) (b_timeout b) = None) as ->.
  { unfold serve_connection. destruct (t_check (b_timer b) (b_timeout b)) as [t|]; [|tauto]. split; [|discriminate]. destruct (b_max_buf b) as [n|] eqn:Eb; [|discriminate]. unfold set_max_buf. destruct (N.ltb_spec n minimum_max_buffer_size) as [L|L]; [specialize (G _ eq_refl); lia|discriminate]. }
  split.
  - intros Ht. right. destruct (b_timeout b) as [[x|]|[x|]], (b_timer b) as [|t]; try discriminate Ht. split; [exists x; exact S13|]. destruct S8 as [(a & c & r & _ & Hc & _)|(Hn & _)]; [destruct c; discriminate Hc|exact Hn].
  - intros [Hx|((d & Hd) & Hn)]; [contradiction|]. pose proof (set_unique _ _ _ _ _ S13 Hd) as W. assert (b_timer b = TEmpty) as -> by (apply (set_unique _ _ _ _ _ S8); now right).
    destruct (b_timeout b) as [x|x]; [discriminate W|]. injection W as ->. reflexivity.
Qed.

(* So a connection that was built never panics for want of a timer, whatever the
   state of its timeout, and what it does is what the connection model does *)
Theorem C85_no_later_panic vectored cs s c k now : server_conn vectored cs = Some s -> c_timeout c = st_timeout s ->
  header_timer s now (k_running k) (k_timer k) = Some (k_running (start_timer c now k), k_timer (start_timer c now k)).
Proof.
  intros H Hc. destruct (C85_server _ _ _ H) as (_ & _ & _ & _ & _ & _ & _ & St & _ & _ & _ & _ & _ & d & Sd & Ed). unfold header_timer, start_timer. rewrite Hc.
  destruct (k_running k) eqn:Er; [now rewrite Er|]. destruct (st_timeout s) as [x|] eqn:Ex; [|now rewrite Er].
  destruct (st_timer s) as [|t] eqn:Et; [|reflexivity]. exfalso. destruct d as [d|]; [subst d|discriminate].
  assert (server_conn vectored cs = None) as F; [|congruence]. apply C85_server_panics. right. split; [eauto|]. destruct St as [(a & c0 & b & _ & F & _)|(F & _)]; [destruct c0; discriminate F|exact F].
Qed.

(* The connection of C70 is the one that is built if the last word on keep_alive
   is false: it serves one request *)
Theorem C85_once vectored cs s c evs ms : server_conn vectored cs = Some s -> set_to s_keep true cs false -> c_server c = true ->
  d_conn (P_Conn.after c (st_h09 s) (st_flat s) (st_wmax s) evs [Env EOff]) = set_ka (conn_new (st_h09 s) (st_flat s) (st_wmax s) evs) (st_ka s) /\
  (count is_LIn (P_Once.served_once c (st_h09 s) (st_flat s) (st_wmax s) evs ms) <= 1)%nat.
Proof.
  intros H Hk Hs. destruct (C85_server _ _ _ H) as (_ & _ & _ & _ & _ & _ & _ & _ & _ & _ & _ & (k & Sk & ->) & _). rewrite (set_unique _ _ _ _ _ Sk Hk). split; [|now apply P_Once.C70_once].
  cbn. rewrite Hs. reflexivity.
Qed.

(* ---- HTTP/1 client ---- *)
Ltac cfield := intros [? ? ? ? ? ? ? ?] [] bb EE; cbn in EE; try (destruct (_ <? _) in EE; [discriminate EE|]); injection EE as <-; try reflexivity.
Definition size_of (b : cbuilder) : option (bool * N) := match cb_max_buf b, cb_exact b with Some n, _ => Some (false, n) | None, Some n => Some (true, n) | None, None => None end.
Lemma cbig_stays cs : forall b b', chain c_call b cs = Some b' -> (forall n, cb_max_buf b = Some n -> minimum_max_buffer_size <= n) -> forall n, cb_max_buf b' = Some n -> minimum_max_buffer_size <= n.
Proof.
  induction cs as [|c cs IH]; intros b b' E H; cbn [chain] in E; [injection E as <-; exact H|]. destruct (c_call b c) as [b1|] eqn:Eb; [|discriminate]. apply (IH _ _ E).
  destruct b as [? ? ? ? ? ? ? ?], c as [| | | | | | | |n0|n0]; cbn in *; try (injection Eb as <-; exact H); [injection Eb as <-; cbn; discriminate|]. destruct (N.ltb_spec n0 minimum_max_buffer_size); [discriminate|]. injection Eb as <-. cbn. intros n [= <-]. assumption.
Qed.
Theorem C85_client vectored cs s : client_conn vectored cs = Some s ->
  set_to c_h09 false cs (st_h09 s) /\ set_to c_titled false cs (st_title s) /\ set_to c_cased false cs (st_case s) /\
  set_to c_after false cs (pc_after_name (st_parser s)) /\ set_to c_multi false cs (pc_multiline (st_parser s)) /\ set_to c_ignore false cs (pc_ignore_res (st_parser s)) /\
  set_to c_headers None cs (st_max_headers s) /\ st_ka s = KBusy /\
  (exists w, set_to c_writev None cs w /\ st_flat s = negb (match w with Some b => b | None => vectored end)) /\
  (exists z, set_to c_size None cs z /\
     st_read s = match z with Some (true, n) => Exact n | Some (false, n) => with_max n | None => with_max default_max_buffer_size end /\
     st_wmax s = match z with Some (false, n) => n | _ => default_max_buffer_size end).
Proof.
  unfold client_conn. rewrite c_chain. destruct (chain c_call cb_new cs) as [b|] eqn:E; [|discriminate]. intros H.
  pose proof (chain_set c_call cb_h09 c_h09 ltac:(cfield) cs _ _ E) as S1. pose proof (chain_set c_call cb_title c_titled ltac:(cfield) cs _ _ E) as S2.
  pose proof (chain_set c_call cb_case c_cased ltac:(cfield) cs _ _ E) as S3. pose proof (chain_set c_call (fun b => pc_after_name (cb_parser b)) c_after ltac:(cfield) cs _ _ E) as S4.
  pose proof (chain_set c_call (fun b => pc_multiline (cb_parser b)) c_multi ltac:(cfield) cs _ _ E) as S5. pose proof (chain_set c_call (fun b => pc_ignore_res (cb_parser b)) c_ignore ltac:(cfield) cs _ _ E) as S6.
  pose proof (chain_set c_call cb_max_headers c_headers ltac:(cfield) cs _ _ E) as S7. pose proof (chain_set c_call cb_writev c_writev ltac:(cfield) cs _ _ E) as S8.
  assert (set_to c_size None cs (size_of b)) as S9.
  { refine (chain_set c_call size_of c_size _ cs _ _ E). cfield. now destruct n. }
  clear E.
  destruct b as [h9 wv ex p ti ca mh mb]. cbn in *. unfold handshake in H. cbn in H. rewrite !orb_false_r in H.
  assert (st_h09 s = h9 /\ st_title s = ti /\ st_case s = ca /\ st_parser s = p /\ st_max_headers s = mh /\ st_ka s = KBusy /\ st_flat s = negb (match wv with Some b => b | None => vectored end)) as (-> & -> & -> & -> & -> & -> & ->).
  { destruct mb as [n|]; [unfold set_max_buf in H; destruct (n <? _) in H; [discriminate|]|]; injection H as <-; destruct ex, wv, mh; cbn; auto 20. }
  do 8 (split; [assumption || reflexivity|]). split; [eauto|]. exists (size_of (mkCb h9 wv ex p ti ca mh mb)). split; [exact S9|]. unfold size_of; cbn.
  destruct mb as [n|]; [unfold set_max_buf in H; destruct (n <? _) in H; [discriminate|]|]; injection H as <-; destruct ex; cbn; auto.
Qed.
Theorem C85_client_panics vectored cs : client_conn vectored cs = None <-> Exists (fun c => exists n, c = CMaxBuf n /\ n < 8192) cs.
Proof.
  change 8192 with minimum_max_buffer_size.
  unfold client_conn. rewrite c_chain.
  assert (forall b c, c_call b c = None <-> exists n, c = CMaxBuf n /\ n < minimum_max_buffer_size) as K.
  { intros [? ? ? ? ? ? ? ?] c. destruct c as [| | | | | | | | |n]; cbn; try (split; [discriminate|intros (n0 & F & _); discriminate F]). destruct (N.ltb_spec n minimum_max_buffer_size); split; eauto; [discriminate|intros (n0 & [= ->] & F); lia]. }
  rewrite <- (chain_fails c_call _ K cs cb_new). destruct (chain c_call cb_new cs) as [b|] eqn:E; [|tauto]. split; [|discriminate].
  pose proof (cbig_stays cs _ _ E ltac:(cbn; discriminate)) as G. unfold handshake. destruct (cb_max_buf b) as [n|]; [|discriminate]. unfold set_max_buf. destruct (N.ltb_spec n minimum_max_buffer_size); [specialize (G _ eq_refl); lia|discriminate].
Qed.

(* A call that asks for no exact size should leave the limit as it is.  It does
   not: the limit is back at its default. *)
Theorem C85_no_exact_size_refuted : ~ (forall vectored cs s s', client_conn vectored cs = Some s -> client_conn vectored (cs ++ [CExactSize None]) = Some s' -> rs_max (st_read s') <= rs_max (st_read s)).
Proof. intros H. specialize (H true [CMaxBuf 16384] _ _ eq_refl eq_refl). vm_compute in H. now apply H. Qed.

(* ---- HTTP/2 ---- *)
Ltac hfield := intros [? ? ? ? ? ? ? ? ?] [[]|[]|[]| | | | | | ] bb EE; cbn in EE; try (destruct (_ <? _) in EE; [discriminate EE|]); injection EE as <-; reflexivity.
Lemma adaptive_window cs : forall b b', chain h_call b cs = Some b' -> (h_adaptive b = true -> h_conn_window b = 65535 /\ h_stream_window b = 65535) -> h_adaptive b' = true -> h_conn_window b' = 65535 /\ h_stream_window b' = 65535.
Proof.
  induction cs as [|c cs IH]; intros b b' E H; cbn [chain] in E; [injection E as <-; exact H|]. destruct (h_call b c) as [b1|] eqn:Eb; [|discriminate]. apply (IH _ _ E).
  destruct b as [? ? ? ? ? ? ? ? ?], c as [[]|[]|[]| | | | | | ]; cbn in *; try (destruct (_ <? _) in Eb; [discriminate Eb|]); injection Eb as <-; cbn; auto; discriminate.
Qed.
Theorem C85_h2 server cs h : h2_conn server cs = Some h ->
  set_to h_streams (if server then 1048576 else 2097152) cs (hc_stream_window h) /\ set_to h_conns (if server then 1048576 else 5242880) cs (hc_conn_window h) /\
  set_to h_buffer (if server then 409600 else 1048576) cs (hc_send_buf h) /\
  set_to h_dated server cs (hc_date h) /\ set_to h_timed TEmpty cs (hc_timer h) /\
  set_to h_every None cs (pg_interval (hc_ping h)) /\ set_to h_within 20 cs (pg_timeout (hc_ping h)) /\
  (if server then pg_idle (hc_ping h) = true else set_to h_idled false cs (pg_idle (hc_ping h))) /\
  (exists a, set_to h_adapt false cs a /\ pg_bdp (hc_ping h) = (if a then Some 65535 else None) /\ (a = true -> hc_conn_window h = 65535 /\ hc_stream_window h = 65535)).
Proof.
  unfold h2_conn. rewrite h_chain. destruct (chain h_call (hb_new server) cs) as [b|] eqn:E; [|discriminate]. intros [= <-]. unfold h_new. cbn [hc_stream_window hc_conn_window hc_send_buf hc_date hc_timer hc_ping pg_interval pg_timeout pg_idle pg_bdp].
  pose proof (chain_set h_call h_stream_window h_streams ltac:(hfield) cs _ _ E) as S1. pose proof (chain_set h_call h_conn_window h_conns ltac:(hfield) cs _ _ E) as S2.
  pose proof (chain_set h_call h_send_buf h_buffer ltac:(hfield) cs _ _ E) as S3. pose proof (chain_set h_call h_date h_dated ltac:(hfield) cs _ _ E) as S4.
  pose proof (chain_set h_call h_timer h_timed ltac:(hfield) cs _ _ E) as S5. pose proof (chain_set h_call h_interval h_every ltac:(hfield) cs _ _ E) as S6.
  pose proof (chain_set h_call h_timeout h_within ltac:(hfield) cs _ _ E) as S7. pose proof (chain_set h_call h_idle h_idled ltac:(hfield) cs _ _ E) as S8.
  pose proof (chain_set h_call h_adaptive h_adapt ltac:(hfield) cs _ _ E) as S9. assert (h_adaptive b = true -> h_conn_window b = 65535 /\ h_stream_window b = 65535) as A by (apply (adaptive_window cs _ _ E); destruct server; discriminate).
  destruct server; cbn in *; do 8 (split; [first [assumption|reflexivity]|]); exists (h_adaptive b); (split; [exact S9|]); (split; [|exact A]); (destruct (h_adaptive b); [|reflexivity]); now rewrite (proj2 (A eq_refl)).
Qed.
Theorem C85_h2_refused server cs : h2_conn server cs = None <-> Exists (fun c => exists n, c = HSendBuf n /\ 4294967295 < n) cs.
Proof.
  unfold h2_conn. rewrite h_chain.
  assert (forall b c, h_call b c = None <-> exists n, c = HSendBuf n /\ 4294967295 < n) as K.
  { intros [? ? ? ? ? ? ? ? ?] c. destruct c as [[]|[]| | | | |n| | ]; cbn [h_call]; try (split; [discriminate|intros (n0 & F & _); discriminate F]). destruct (N.ltb_spec 4294967295 n); split; eauto; [discriminate|intros (n0 & [= ->] & F); lia]. }
  rewrite <- (chain_fails h_call _ K cs (hb_new server)). destruct (chain h_call (hb_new server) cs); split; intros F; try discriminate F; reflexivity.
Qed.
(* The panic comes with the end of the handshake, exactly if an interval is set
   and no timer was given *)
Theorem C85_h2_panics server cs h now : h2_conn server cs = Some h -> (h2_handshaken h now = None <-> (exists d, set_to h_every None cs (Some d)) /\ never_asked h_timed cs).
Proof.
  intros H. destruct (C85_h2 _ _ _ H) as (_ & _ & _ & _ & St & Si & _). unfold h2_handshaken, ping_enabled. split.
  - intros F. destruct (pg_interval (hc_ping h)) as [d|]; [|destruct (pg_bdp (hc_ping h)); discriminate F]. split; [eauto|]. destruct St as [(a & c & b & _ & G & _)|(G & _)]; [|exact G].
    destruct (hc_timer h) as [|t]; [destruct c; discriminate G|]. destruct (pg_bdp (hc_ping h)); discriminate F.
  - intros ((d & Hd) & Hn). rewrite (set_unique _ _ _ _ _ Si Hd), (set_unique _ _ _ _ _ St (or_intror (conj Hn eq_refl))). now destruct (pg_bdp (hc_ping h)).
Qed.
(* Otherwise pings are set up exactly if something asks for them *)
Theorem C85_h2_pings server cs h now r : h2_conn server cs = Some h -> h2_handshaken h now = Some r ->
  exists a i, set_to h_adapt false cs a /\ set_to h_every None cs i /\
    r = match a, i with false, None => None | _, _ => Some (if a then Some 65535 else None, match i with Some d => Some (now + d) | None => None end) end.
Proof.
  intros H E. destruct (C85_h2 _ _ _ H) as (_ & _ & _ & _ & _ & Si & _ & _ & a & Sa & Eb & _). exists a, (pg_interval (hc_ping h)). do 2 (split; [assumption|]).
  unfold h2_handshaken, ping_enabled in E. rewrite Eb in E. destruct a, (pg_interval (hc_ping h)); try (now injection E as <-); destruct (hc_timer h); try discriminate E; now injection E as <-.
Qed.
(* What C85_no_later_panic says of HTTP/1 is not so of HTTP/2: on a server the
   connection has been handed out by then, on a client the future is running *)
Theorem C85_h2_no_later_panic_refuted : forall server, ~ (forall cs h now, h2_conn server cs = Some h -> h2_handshaken h now <> None).
Proof. intros server H. destruct server; now apply (H [HInterval (Some 10)] _ 0 eq_refl). Qed.
Print Assumptions C85_server.
Print Assumptions C85_server_panics.
Print Assumptions C85_no_later_panic.
Print Assumptions C85_once.
Print Assumptions C85_client.
Print Assumptions C85_client_panics.
Print Assumptions C85_no_exact_size_refuted.
Print Assumptions C85_h2.
Print Assumptions C85_h2_refused.
Print Assumptions C85_h2_panics.
Print Assumptions C85_h2_pings.
Print Assumptions C85_h2_no_later_panic_refuted.

(* ---- Examples ---- *)
Example C85_server_ex : exists s, server_conn true [SReadTimeout (Some 5); SKeepAlive false; SPipelineFlush true; SWritev true; STimer 1; SMaxBuf 8192; SReadTimeout (Some 7)] = Some s /\
  st_timeout s = Some 7 /\ st_ka s = KDisabled /\ st_flat s = true /\ st_wmax s = 8192.
Proof. eexists. split; vm_compute; auto. Qed.
Example C85_server_panics_ex : server_conn true [SReadTimeout (Some 5)] = None /\ (exists s, server_conn true [SReadTimeout (Some 5); SReadTimeout None] = Some s) /\ server_conn true [SMaxBuf 100; SMaxBuf 10000] = None.
Proof. split; [reflexivity|]. split; [eexists; reflexivity|reflexivity]. Qed.
Example C85_client_ex : exists s, client_conn false [CMaxBuf 9000; CExactSize (Some 4096)] = Some s /\ st_read s = Exact 4096 /\ st_wmax s = 417792.
Proof. eexists. split; vm_compute; auto. Qed.
Example C85_h2_ex : exists h, h2_conn true [HStreamWindow (Some 5); HAdaptive true; HConnWindow None; HInterval (Some 10); HTimer 1] = Some h /\ h2_handshaken h 3 = Some (Some (Some 65535, Some 13)).
Proof. eexists. split; vm_compute; reflexivity. Qed.
Example C85_h2_client_ex : exists h, h2_conn false [HIdle true; HAdaptive true; HStreamWindow (Some 70000); HTimeout 3] = Some h /\ hc_conn_window h = 65535 /\ hc_stream_window h = 70000 /\ hc_ping h = mkPing None None 3 true /\ h2_handshaken h 3 = Some None.
Proof. eexists. split; vm_compute; auto. Qed.
