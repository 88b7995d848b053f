(* C59 and C60: HTTP/2 responses, and the end of an HTTP/2 server connection. *)
From Verif Require Import Base M_HeaderMap M_Headers M_RoleEncode M_H2Headers M_H2Body M_H2Server.
From Verif Require Import S_Framing L_Framing P_H2Body P_H2Headers.

(* ==== C59 ==== *)
(* ---- Specification ---- *)
Definition CL : bytes := B "content-length".
(* All that h2 can be given for one request: nothing yet; a reset; the head of a
   tunnel; a head that ends the stream; a head and a beginning of the frames that
   the body stands for *)
Inductive sent_for (connect : bool) (a : answer) : list sout -> Prop :=
| sf_tunnel h : connect = true -> 200 <= a_status a <= 299 -> hm_get_all h CL = [] -> sent_for connect a [OTunnel h (a_status a)]
| sf_empty h : a_eos a = true -> sent_for connect a [OHead h (a_status a) true]
| sf_body h fs rest : a_eos a = false -> fs ++ rest = script (a_body a) -> sent_for connect a (OHead h (a_status a) false :: map OFrame fs).

(* The lines of Content-Length announce a body that is not empty *)
Definition nonzero_length (vs : list bytes) : Prop := exists n, cl_list_means vs n /\ 0 < n <= u64_max.
(* The lines of Content-Length on a head whose body follows: those of the program,
   else the size of the body if that is known *)
Definition length_lines (mine : list bytes) (known : option N) : list bytes :=
  match mine, known with [], Some n => [dec n] | _, _ => mine end.

(* ---- Lemmas ---- *)
Lemma response_shape date connect st eos exact h :
  match h2_response date connect st eos exact h with
  | M_H2Headers.HReset => connect = true
  | HTunnel h' => connect = true /\ 200 <= st <= 299 /\ hm_get_all h' CL = []
  | HSend h' e => e = eos
  end.
Proof.
  unfold h2_response. destruct (connect && is_success st) eqn:E.
  - apply andb_prop in E. destruct E as (-> & E). unfold is_success in E. apply andb_prop in E. destruct E as (E1 & E2). apply N.leb_le in E1, E2.
    destruct (content_length_parse_all _) as [n|]; [destruct (n =? 0)|]; cbn; auto; (split; [reflexivity|split; [auto|rewrite hm_get_all_remove, beq_refl; reflexivity]]).
  - destruct eos; reflexivity.
Qed.
Lemma iter_log i p p' o : pipe_iter i p = (p', o) -> exists l, pp_log p' = pp_log p ++ l.
Proof.
  unfold pipe_iter, pp_send. destruct p as [bf bd lg]. cbn [pp_buffered pp_body pp_log].
  destruct (hi_reset i); [|intros E; inversion E; subst; exists []; symmetry; apply app_nil_r..].
  assert (forall l0 : list hev, exists l, l0 = l0 ++ l) as Z by (intros l0; exists []; symmetry; apply app_nil_r).
  destruct bf as [[d eos]|].
  - destruct (hi_cap i); try (intros E; inversion E; subst; apply Z). destruct (hi_sent i); intros E; inversion E; subst; cbn [pp_log]; [eexists; reflexivity|apply Z].
  - destruct bd as [|[d eos|h| | |] r]; try (destruct (lenN d =? 0)); try (destruct (hi_sent i)); intros E; inversion E; subst; cbn [pp_log]; try apply Z; eexists; reflexivity.
Qed.
Lemma dropN_app_exact {A} (a b : list A) : dropN (lenN a) (a ++ b) = b.
Proof. rewrite dropN_app_ge by lia. rewrite N.sub_diag. apply dropN_0. Qed.
Lemma hs_run_cons date connect i l s : hs_run date connect (i :: l) s = hs_run date connect l (hs_step date connect i s).
Proof. reflexivity. Qed.
(* From the state Body on, the log is what the pipe sends *)
Lemma body_run date connect : forall l p lg, exists p2 o, pipe_run false p (map (fun i => (false, si_pipe i)) l) = (p2, o) /\
  exists fs, pp_log p2 = pp_log p ++ fs /\ hs_log (hs_run date connect l (mkHs (HsBody p) lg)) = lg ++ map OFrame fs /\
  (o = None -> hs_st (hs_run date connect l (mkHs (HsBody p) lg)) = HsBody p2) /\ (o <> None -> hs_st (hs_run date connect l (mkHs (HsBody p) lg)) = HsDone).
Proof.
  assert (forall l s, hs_st s = HsDone -> hs_run date connect l s = s) as D.
  { induction l as [|i l IH]; intros s E; [reflexivity|]. rewrite hs_run_cons. unfold hs_step. rewrite E. apply IH, E. }
  assert (forall l p s s', pipe_run s p (map (fun i => (false, si_pipe i)) l) = pipe_run s' p (map (fun i => (false, si_pipe i)) l)) as St.
  { intros [|i l] p s s'; [reflexivity|]. cbn. rewrite !andb_false_r. reflexivity. }
  induction l as [|i l IH]; intros p lg.
  - exists p, None. split; [reflexivity|]. exists []. rewrite !app_nil_r. cbn. repeat split; congruence.
  - cbn [map pipe_run]. rewrite andb_false_r. destruct (pipe_iter (si_pipe i) p) as [p1 o1] eqn:E. destruct (iter_log _ _ _ _ E) as (f1 & F1).
    assert (hs_step date connect i (mkHs (HsBody p) lg) = match o1 with PoLoop | PoPending => mkHs (HsBody p1) (lg ++ map OFrame f1) | _ => mkHs HsDone (lg ++ map OFrame f1) end) as Hs.
    { unfold hs_step. cbn [hs_st hs_log]. rewrite E, F1, dropN_app_exact. reflexivity. }
    assert (forall o2 : pout, hs_run date connect (i :: l) (mkHs (HsBody p) lg) = mkHs HsDone (lg ++ map OFrame f1) ->
      exists fs, pp_log p1 = pp_log p ++ fs /\ hs_log (hs_run date connect (i :: l) (mkHs (HsBody p) lg)) = lg ++ map OFrame fs /\ (Some o2 = None -> hs_st (hs_run date connect (i :: l) (mkHs (HsBody p) lg)) = HsBody p1) /\ (Some o2 <> None -> hs_st (hs_run date connect (i :: l) (mkHs (HsBody p) lg)) = HsDone)) as Fin.
    { intros o2 ->. exists f1. cbn. split; [exact F1|]. split; [reflexivity|]. split; [discriminate|reflexivity]. }
    assert (o1 = PoLoop \/ o1 = PoPending -> hs_run date connect (i :: l) (mkHs (HsBody p) lg) = hs_run date connect l (mkHs (HsBody p1) (lg ++ map OFrame f1))) as Go.
    { intros Q. rewrite hs_run_cons, Hs. destruct Q as [-> | ->]; reflexivity. }
    destruct (IH p1 (lg ++ map OFrame f1)) as (p2 & o & E2 & fs & A1 & A2 & A3).
    destruct o1.
    + exists p2, o. split; [exact E2|]. exists (f1 ++ fs). rewrite Go by auto. rewrite A1, F1, map_app, !app_assoc. split; [reflexivity|]. split; [exact A2|exact A3].
    + exists p2, o. rewrite (St l p1 true false). split; [exact E2|]. exists (f1 ++ fs). rewrite Go by auto. rewrite A1, F1, map_app, !app_assoc. split; [reflexivity|]. split; [exact A2|exact A3].
    + exists p1, (Some PoOk). split; [reflexivity|]. apply Fin. rewrite hs_run_cons, Hs. apply D. reflexivity.
    + exists p1, (Some PoErr). split; [reflexivity|]. apply Fin. rewrite hs_run_cons, Hs. apply D. reflexivity.
    + exists p1, (Some PoUser). split; [reflexivity|]. apply Fin. rewrite hs_run_cons, Hs. apply D. reflexivity.
Qed.
Lemma todo_sent : forall l p p' o, pipe_run false p (map (fun i => (false, si_pipe i)) l) = (p', o) -> exists rest, pp_log p' ++ rest = pp_log p ++ todo p.
Proof.
  induction l as [|i l IH]; intros p p' o H; cbn [map pipe_run] in H; [injection H as <- <-; eexists; reflexivity|]. rewrite andb_false_r in H.
  destruct (pipe_iter (si_pipe i) p) as [q x] eqn:E. apply iter_todo in E. destruct x.
  - apply IH in H. rewrite <- E. exact H.
  - assert (pipe_run true q (map (fun i => (false, si_pipe i)) l) = pipe_run false q (map (fun i => (false, si_pipe i)) l)) as St by (destruct l; reflexivity).
    rewrite St in H. apply IH in H. rewrite <- E. exact H.
  - injection H as <- <-. exists []. rewrite app_nil_r. apply E.
  - injection H as <- <-. rewrite E. eexists. reflexivity.
  - injection H as <- <-. exists []. rewrite app_nil_r. apply E.
Qed.
Lemma script_sent body l p o : pipe_run false (pipe_new body) (map (fun i => (false, si_pipe i)) l) = (p, o) -> exists rest, pp_log p ++ rest = script body.
Proof. apply todo_sent. Qed.

(* ---- Theorems ---- *)
(* For every service, every behaviour of h2 and at every moment, h2 has been given
   nothing, only a reset, or one head and a beginning of its body's frames *)
Theorem C59_one_answer : forall date connect l, let lg := hs_log (hs_run date connect l hs_new) in
  lg = [] \/ lg = [OReset] \/ exists a, In (SvOk a) (map si_service l) /\ sent_for connect a lg.
Proof.
  intros date connect l. unfold hs_new. assert (forall l lg, hs_log (hs_run date connect l (mkHs HsDone lg)) = lg) as D.
  { clear. induction l as [|i l IH]; intros lg; [reflexivity|]. cbn. apply IH. }
  induction l as [|i l IH]; [left; reflexivity|]. cbn [hs_run fold_left]. change (fold_left (fun s i => hs_step date connect i s) l) with (hs_run date connect l).
  destruct (hs_step date connect i (mkHs HsService [])) as [st lg] eqn:E. cbv zeta in *. unfold hs_step in E. cbn [hs_st hs_log app] in E.
  destruct (si_service i) as [| |a] eqn:Ei.
  - destruct (si_reset i); inversion E; subst; [|rewrite D; auto..]. destruct IH as [IH|[IH|(a & I1 & I2)]]; auto. right. right. exists a. split; [right; exact I1|exact I2].
  - inversion E; subst. rewrite D. auto.
  - pose proof (response_shape date connect (a_status a) (a_eos a) (a_exact a) (a_headers a)) as R. unfold hs_reply in E. cbn [hs_log app] in E.
    destruct (h2_response date connect (a_status a) (a_eos a) (a_exact a) (a_headers a)) as [|h|h e].
    + inversion E; subst. rewrite D. auto.
    + destruct (si_sent i); inversion E; subst; rewrite D; auto. right. right. exists a. split; [left; exact Ei|]. destruct R as (R1 & R2 & R3). now apply sf_tunnel.
    + subst e. destruct (a_eos a) eqn:Ea.
      * destruct (si_sent i); inversion E; subst; rewrite D; auto. right. right. exists a. split; [left; exact Ei|]. now apply sf_empty.
      * destruct (si_sent i); inversion E; subst; [|rewrite D; auto]. right. right. exists a. split; [left; exact Ei|].
        destruct (body_run date connect l (pipe_new (a_body a)) [OHead h (a_status a) false]) as (p2 & o & E1 & fs & E2 & E3 & _). cbn in E2. rewrite E3. destruct (script_sent _ _ _ _ E1) as (rest & Er). rewrite E2 in Er. cbn [app]. now apply sf_body with (rest := rest).
Qed.

(* The lengths that are announced *)
(* Of what every HeaderMap satisfies: no name without a value *)
Definition full (h : hmap) : Prop := Forall (fun g => snd g <> []) h.
Lemma contains_get h n : full h -> hm_contains h n = match hm_get_all h n with [] => false | _ => true end.
Proof.
  induction 1 as [|[k vs] h Hv _ IH]; [reflexivity|]. cbn [hm_contains hm_get_all]. destruct (beq k n); [|exact IH]. cbn in Hv. destruct vs; [congruence|reflexivity].
Qed.
Lemma full_remove h n : full h -> full (hm_remove h n).
Proof. unfold full, hm_remove. intros H. rewrite Forall_forall in *. intros x Hx. apply filter_In in Hx. apply H, Hx. Qed.
Lemma full_append h n v : full h -> full (hm_append h n v).
Proof.
  induction 1 as [|[k vs] h Hv Hh IH]; cbn [hm_append]; [repeat constructor; discriminate|]. destruct (beq k n); constructor; auto. cbn. now destruct vs.
Qed.
Lemma full_strip k h : full h -> full (strip_connection_headers h k).
Proof.
  intros H. unfold strip_connection_headers. assert (forall l h, full h -> full (fold_left hm_remove l h)) as F1 by (induction l as [|n l IH]; intros h0 H0; [exact H0|apply IH, full_remove, H0]).
  assert (forall l h, full h -> full (fold_left (fun h name => hm_remove_str h (trim name)) l h)) as F2.
  { induction l as [|n l IH]; intros h0 H0; [exact H0|]. apply IH. unfold hm_remove_str. destruct (header_name _); [apply full_remove|]; exact H0. }
  apply (F1 CONNECTION_HEADERS) in H. remember (fold_left hm_remove CONNECTION_HEADERS h) as h1. clear Heqh1.
  assert (full (match k with KRequest => match hm_get h1 (B "te") with Some v => if beq v (B "trailers") then h1 else hm_remove h1 (B "te") | None => h1 end | KResponse => hm_remove h1 (B "te") end)) as H2.
  { destruct k; [destruct (hm_get _ _); [destruct (beq _ _)|]|]; auto using full_remove. }
  remember (match k with KRequest => _ | KResponse => _ end) as h2. clear Heqh2. destruct (hm_get h2 _); [|exact H2]. destruct (to_str _); auto using full_remove.
Qed.
Lemma missing_length h n : full h -> hm_get_all (set_content_length_if_missing h n) CL = length_lines (hm_get_all h CL) (Some n).
Proof.
  intros F. unfold set_content_length_if_missing. fold CL. rewrite (contains_get h CL F). destruct (hm_get_all h CL) eqn:E; [|exact E].
  rewrite hm_get_all_append, beq_refl, E. reflexivity.
Qed.
Lemma strip_length k h : ~ named h CL -> hm_get_all (strip_connection_headers h k) CL = hm_get_all h CL.
Proof.
  intros N0. destruct (C41_stripped k h) as (_ & _ & _ & _ & A). apply A; auto; [|cbn; intuition discriminate|discriminate].
  pose proof fixed_names as F. rewrite Forall_forall in F. apply F. cbn. tauto.
Qed.
Lemma parse_nonzero h : match content_length_parse_all h with Some n => negb (n =? 0) | None => false end = true <-> nonzero_length (hm_get_all h CL).
Proof.
  unfold content_length_parse_all, nonzero_length. fold CL. split.
  - destruct (content_length_parse_all_values (hm_get_all h CL)) as [n|] eqn:E; [|discriminate]. intros H. apply cl_all_spec in E. destruct E as (E1 & E2). exists n. split; [exact E1|].
    split; [|exact E2]. destruct (n =? 0) eqn:Z; [discriminate|]. apply N.eqb_neq in Z. clear - Z. destruct n; [congruence|reflexivity].
  - intros (n & E1 & E2 & E3). assert (content_length_parse_all_values (hm_get_all h CL) = Some n) as -> by (apply cl_all_spec; auto).
    destruct (n =? 0) eqn:Z; [|reflexivity]. apply N.eqb_eq in Z. subst n. inversion E2.
Qed.
(* A response: END_STREAM on the head exactly if the body says that it has ended;
   the program's Content-Length, or the exact size of a body that follows; a
   success for CONNECT is a tunnel, or a reset if it announces a body *)
Theorem C59_response : forall date connect st eos exact h, hm_wf h -> ~ named h CL ->
  if connect && ((200 <=? st) && (st <=? 299)) then
    (nonzero_length (hm_get_all h CL) -> h2_response date connect st eos exact h = M_H2Headers.HReset) /\
    (~ nonzero_length (hm_get_all h CL) -> exists h', h2_response date connect st eos exact h = HTunnel h' /\ hm_get_all h' CL = [])
  else exists h', h2_response date connect st eos exact h = HSend h' eos /\
    hm_get_all h' CL = length_lines (hm_get_all h CL) (if eos then None else exact).
Proof.
  intros date connect st eos exact h (_ & W) N0. apply (full_strip KResponse) in W. unfold h2_response, is_success. pose proof (strip_length KResponse h N0) as Hs.
  remember (strip_connection_headers h KResponse) as h1 eqn:E1. clear E1.
  assert (full (match date with Some d => hm_or_insert h1 (B "date") d | None => h1 end)) as Wd by (destruct date; [unfold hm_or_insert; destruct (hm_contains _ _)|]; auto using full_append).
  assert (hm_get_all (match date with Some d => hm_or_insert h1 (B "date") d | None => h1 end) CL = hm_get_all h CL) as Hd.
  { destruct date as [d|]; [|exact Hs]. unfold hm_or_insert. destruct (hm_contains _ _); [exact Hs|]. rewrite hm_get_all_append. exact Hs. }
  remember (match date with Some d => hm_or_insert h1 (B "date") d | None => h1 end) as h2 eqn:E2. clear E2.
  destruct (connect && _).
  - rewrite <- Hd. pose proof (parse_nonzero h2) as P. destruct (content_length_parse_all h2) as [n|] eqn:En; [destruct (n =? 0)|].
    1,3: split; [intros Q; apply P in Q; discriminate Q|]; intros _; eexists; (split; [reflexivity|]); rewrite hm_get_all_remove; fold CL; rewrite beq_refl; reflexivity.
    split; [reflexivity|]. intros Q. destruct Q. apply P. reflexivity.
  - destruct eos; [exists h2; split; [reflexivity|]; rewrite Hd; destruct (hm_get_all h CL); reflexivity|]. eexists. split; [reflexivity|]. destruct exact as [n|].
    + rewrite missing_length, Hd by exact Wd. reflexivity.
    + rewrite Hd. destruct (hm_get_all h CL); reflexivity.
Qed.
(* A request: the same; the stream of a CONNECT never ends with the head, and a
   CONNECT that announces a body is refused.  A body of size 0 is announced for
   the methods that expect one. *)
Theorem C59_request : forall m eos exact h, hm_wf h -> ~ named h CL ->
  let lens := length_lines (hm_get_all h CL) (match exact with
    | Some 0 => if existsb (beq m) [B "GET"; B "HEAD"; B "DELETE"; B "CONNECT"] then None else Some 0
    | x => x end) in
  (m = B "CONNECT" /\ nonzero_length lens -> h2_request m eos exact h = None) /\
  (~ (m = B "CONNECT" /\ nonzero_length lens) -> exists h' e, h2_request m eos exact h = Some (h', e) /\ hm_get_all h' CL = lens /\
    (e = true <-> eos = true /\ m <> B "CONNECT")).
Proof.
  intros m eos exact h (_ & W) N0 lens. apply (full_strip KRequest) in W. unfold h2_request. pose proof (strip_length KRequest h N0) as Hs. remember (strip_connection_headers h KRequest) as h1 eqn:E1. clear E1.
  set (h2 := match exact with Some n => _ | None => h1 end).
  assert (hm_get_all h2 CL = lens) as Hl.
  { assert (length_lines (hm_get_all h CL) None = hm_get_all h CL) as Z by (destruct (hm_get_all h CL); reflexivity).
    unfold h2, lens, method_has_defined_payload_semantics. destruct exact as [[|n]|].
    - cbn [N.eqb negb orb]. assert (existsb (beq m) [B "GET"; B "HEAD"; B "DELETE"; B "CONNECT"] = beq m (B "GET") || beq m (B "HEAD") || beq m (B "DELETE") || beq m (B "CONNECT")) as -> by (cbn [existsb]; rewrite orb_false_r, !orb_assoc; reflexivity).
      destruct (beq m (B "GET") || _ || _ || _) eqn:E.
      + cbn [negb]. rewrite Z. exact Hs.
      + cbn [negb]. rewrite missing_length, Hs by exact W. reflexivity.
    - cbn [N.eqb negb orb]. rewrite missing_length, Hs by exact W. reflexivity.
    - rewrite Z. exact Hs. }
  clearbody h2. rewrite <- Hl. pose proof (parse_nonzero h2) as P. destruct (beq m (B "CONNECT")) eqn:Em.
  - apply beq_eq in Em. subst m. cbn [andb negb]. destruct (match content_length_parse_all h2 with Some n => _ | None => false end).
    + split; [reflexivity|]. intros Q. destruct Q. split; [reflexivity|]. now apply P.
    + split; [intros (_ & Q); apply P in Q; discriminate Q|]. intros _. exists h2, false. split; [reflexivity|]. split; [reflexivity|]. split; [discriminate|]. intros (_ & Q). now destruct Q.
  - cbn [andb negb]. split; [intros (-> & _); rewrite beq_refl in Em; discriminate Em|]. intros _. exists h2, eos. split; [reflexivity|]. split; [reflexivity|]. split; [|tauto].
    intros ->. split; [reflexivity|]. intros ->. rewrite beq_refl in Em. discriminate Em.
Qed.
(* When the service answers and h2 takes what it is given, the whole answer is sent;
   the announced length is the number of bytes that follow if the body's size hint
   was right *)
Definition taking (i : sin) : Prop := si_sent i = true /\ si_pipe i = mkHin RNone CapYes true.
Theorem C59_sent : forall date connect a i l, si_service i = SvOk a -> Forall taking (i :: l) -> (2 * length (a_body a) < length l)%nat ->
  connect && ((200 <=? a_status a) && (a_status a <=? 299)) = false -> hm_wf (a_headers a) -> ~ named (a_headers a) CL ->
  exists h, hs_run date connect (i :: l) hs_new = mkHs HsDone (if a_eos a then [OHead h (a_status a) true] else OHead h (a_status a) false :: map OFrame (script (a_body a))) /\
  (forall n, hm_get_all (a_headers a) CL = [] -> a_eos a = false -> a_exact a = Some n -> hm_get_all h CL = [dec n]) /\
  (honest (a_body a) -> ~ In BErr (a_body a) -> data_sent (script (a_body a)) = data_of_body (a_body a)).
Proof.
  intros date connect a i l Ha Fi Hl Hc W0 N0. inversion Fi as [|x y (T1 & T2) Fl]; subst. pose proof (C59_response date connect (a_status a) (a_eos a) (a_exact a) (a_headers a) W0 N0) as R. rewrite Hc in R. destruct R as (h & R1 & R2).
  exists h. assert (forall l lg, hs_run date connect l (mkHs HsDone lg) = mkHs HsDone lg) as D by (clear; induction l as [|i l IH]; intros lg; [reflexivity|cbn; apply IH]).
  split; [|split].
  - cbn [hs_run fold_left]. change (fold_left (fun s i => hs_step date connect i s) l) with (hs_run date connect l). unfold hs_step, hs_new, hs_reply. cbn [hs_st hs_log app]. rewrite Ha, R1, T1.
    destruct (a_eos a); [apply D|]. destruct (body_run date connect l (pipe_new (a_body a)) [OHead h (a_status a) false]) as (p2 & o & E1 & fs & E2 & E3 & E4 & E5).
    assert (Forall willing (map (fun i => (false, si_pipe i)) l)) as W.
    { rewrite Forall_map. eapply Forall_impl; [|exact Fl]. intros x (_ & X). unfold willing. now rewrite X. }
    destruct (C42_finishes (a_body a) false _ W ltac:(rewrite map_length; exact Hl)) as (p & o' & E6 & E7). rewrite E6 in E1. injection E1 as <- <-. cbn in E2. specialize (E5 ltac:(discriminate)).
    destruct (hs_run date connect l (mkHs (HsBody (pipe_new (a_body a))) [OHead h (a_status a) false])) as [st lg]. cbn [hs_st hs_log] in *. subst st lg. cbn [app]. rewrite <- E2, E7. reflexivity.
  - intros n H1 H2 H3. rewrite R2, H1, H2, H3. reflexivity.
  - intros Hh Hb. clear - Hh Hb. induction (a_body a) as [|b body IH]; [reflexivity|]. assert (~ In BErr body) as Nb by (intros Q; apply Hb; now right).
    assert (forall r, Forall (fun e => e = BPending \/ e = BOther) r -> data_of_body r = []) as T by (intros r F; induction F as [|x r [-> | ->] F IHr]; [reflexivity|exact IHr..]).
    destruct b as [d [|]|h0| | |]; cbn [script honest] in *.
    + cbn. pose proof (T _ Hh) as Q. unfold data_of_body in Q. now rewrite Q.
    + cbn. f_equal. apply IH; assumption.
    + cbn. symmetry. apply T, Hh.
    + apply IH; assumption.
    + destruct Hb. now left.
    + apply IH; assumption.
Qed.
Definition ex_answer (st : N) : answer := mkAns st [(B "server", [B "x"])] false (Some 3) [BData [1; 2] false; BPending; BData [3] true].
Definition ex_in (v : service) : sin := mkSin v RNone true (mkHin RNone CapYes true).
Example C59_ex : Forall taking (ex_in (SvOk (ex_answer 200)) :: repeat (ex_in SvPending) 7) /\ hm_wf (a_headers (ex_answer 200)) /\ ~ named (a_headers (ex_answer 200)) CL /\
  hs_run None false (ex_in SvPending :: ex_in (SvOk (ex_answer 200)) :: repeat (ex_in SvPending) 7) hs_new =
  mkHs HsDone [OHead [(B "server", [B "x"]); (B "content-length", [B "3"])] 200 false; OFrame (HData [1; 2] false); OFrame (HData [3] true)].
Proof. split; [repeat constructor|]. split; [split; repeat constructor; cbn; intuition discriminate|]. split; [|vm_compute; reflexivity]. intros (v & r & H & _). discriminate H. Qed.
Example C59_ex_connect : nonzero_length [B "5"] /\ ~ nonzero_length [B "0"] /\
  hs_log (hs_run None true [ex_in (SvOk (mkAns 200 [(CL, [B "5"])] false None []))] hs_new) = [OReset] /\
  hs_log (hs_run None true [ex_in (SvOk (mkAns 200 [(CL, [B "0"])] false None []))] hs_new) = [OTunnel [] 200] /\
  h2_request (B "CONNECT") true (Some 0) [] = Some ([], false) /\ h2_request (B "CONNECT") false (Some 2) [] = None /\
  h2_request (B "POST") true (Some 0) [] = Some ([(CL, [B "0"])], true).
Proof.
  split; [|split].
  - exists 5. split; [|split; [reflexivity|vm_compute; discriminate]]. apply cl_all_spec. vm_compute. reflexivity.
  - intros (n & H1 & H2 & H3). assert (content_length_parse_all_values [B "0"] = Some n) as E by (apply cl_all_spec; auto). vm_compute in E. injection E as <-. inversion H2.
  - repeat split.
Qed.
(* Finding: the method HEAD and the statuses 204 and 304 are not looked at; a body
   the program gives is announced and sent *)
Theorem C59_bodiless_refuted : forall st, st = 200 \/ st = 204 \/ st = 304 -> exists l h,
  hs_log (hs_run None (beq (B "HEAD") (B "CONNECT")) l hs_new) = [OHead h st false; OFrame (HData [1; 2] false); OFrame (HData [3] true)] /\ hm_get_all h CL = [B "3"].
Proof.
  intros st H. exists (ex_in (SvOk (ex_answer st)) :: repeat (ex_in SvPending) 7). destruct H as [-> |[-> | ->]]; eexists; split; vm_compute; reflexivity.
Qed.

(* ==== C60 ==== *)
(* ---- Specification ---- *)
Definition accepted (l : list sev) : list sreq := flat_map (fun e => match e with SAccept q => [q] | _ => [] end) l.
Definition called (l : list sev) : list sreq := flat_map (fun e => match e with SCall q => [q] | _ => [] end) l.
(* A CONNECT that announces a body *)
Definition connect_with_body (q : sreq) : Prop := q_method q = B "CONNECT" /\ nonzero_length (hm_get_all (q_headers q) CL).
Definition returned (l : list sev) : bool := existsb (fun e => match e with SReturn _ => true | _ => false end) l.

(* ---- Lemmas ---- *)
Lemma refused_spec q : refused q = true <-> connect_with_body q.
Proof.
  unfold refused, connect_with_body. rewrite <- parse_nonzero. split.
  - intros H. apply andb_prop in H. destruct H as (H1 & H2). apply beq_eq in H1. auto.
  - intros (-> & ->). rewrite beq_refl. reflexivity.
Qed.
Lemma accepted_app a b : accepted (a ++ b) = accepted a ++ accepted b.
Proof. apply flat_map_app. Qed.
Lemma called_app a b : called (a ++ b) = called a ++ called b.
Proof. apply flat_map_app. Qed.
Lemma returned_app a b : returned (a ++ b) = returned a || returned b.
Proof. apply existsb_app. Qed.
(* What one move adds *)
Lemma move_cases s m : exists l, sc_log (sc_move s m) = sc_log s ++ l /\
  match sc_pc s with
  | CDone => l = [] /\ sc_move s m = s
  | CHandshake => (sc_pc (sc_move s m) = CDone /\ l = [SReturn false]) \/ (l = [] /\ sc_pc (sc_move s m) <> CDone)
  | CServing => sc_pc (sc_move s m) <> CDone /\ Forall (fun e => e = SGraceful) l
  | CLoop => (sc_pc (sc_move s m) <> CDone /\ (Forall (fun e => match e with SWindow _ | SAbrupt => True | _ => False end) l \/
                exists pre q, Forall (fun e => match e with SWindow _ | SAbrupt => True | _ => False end) pre /\ l = pre ++ [SAccept q; SCall q] /\ ~ connect_with_body q)) \/
             (sc_pc (sc_move s m) = CDone /\ exists pre i, m = CStep i /\ Forall (fun e => match e with SWindow _ | SAbrupt => True | _ => False end) pre /\
                ((exists q, ci_accept i = AcRequest q /\ connect_with_body q /\ l = pre ++ [SAccept q; SRefuse q; SReturn true]) \/
                 (ci_accept i = AcErr /\ l = pre ++ [SReturn false]) \/
                 (ci_accept i = AcNone /\ l = pre ++ [SReturn (negb (ci_timed_out i))])))
  end.
Proof.
  destruct s as [pc cp lg]. destruct m as [i|]; cbn [sc_move sc_pc].
  2:{ unfold sc_graceful, sc_to. destruct pc; cbn [sc_pc sc_log sc_close_pending].
      - exists []. rewrite app_nil_r. split; [reflexivity|]. right. split; [reflexivity|discriminate].
      - exists [SGraceful]. split; [reflexivity|]. split; [discriminate|repeat constructor].
      - exists []. rewrite app_nil_r. split; [reflexivity|]. left. split; [discriminate|left; constructor].
      - exists []. rewrite app_nil_r. auto. }
  unfold sc_step, sc_to. destruct pc; cbn [sc_pc sc_log sc_close_pending].
  - destruct (ci_hs i); cbn [sc_pc sc_log].
    + exists []. rewrite app_nil_r. split; [reflexivity|]. right. split; [reflexivity|discriminate].
    + exists [SReturn false]. auto.
    + exists []. split; [reflexivity|]. right. split; [reflexivity|discriminate].
  - eexists. split; [reflexivity|]. split; [discriminate|]. destruct cp; repeat constructor.
  - assert (Forall (fun e => match e with SWindow _ | SAbrupt => True | _ => False end) (sc_ping (ci_ping i))) as Fp by (destruct (ci_ping i); cbn; repeat constructor).
    destruct (ci_accept i) as [|q| |] eqn:Ea; cbn [sc_pc sc_log].
    + exists (sc_ping (ci_ping i)). rewrite app_nil_r. split; [reflexivity|]. left. split; [discriminate|auto].
    + pose proof (refused_spec q) as R. destruct (refused q); cbn [sc_pc sc_log].
      * exists (sc_ping (ci_ping i) ++ [SAccept q; SRefuse q; SReturn true]). rewrite app_assoc. split; [reflexivity|]. right. split; [reflexivity|]. exists (sc_ping (ci_ping i)), i. split; [reflexivity|]. split; [exact Fp|]. left. exists q. split; [exact Ea|]. split; [now apply R|reflexivity].
      * exists (sc_ping (ci_ping i) ++ [SAccept q; SCall q]). rewrite app_assoc. split; [reflexivity|]. left. split; [discriminate|]. right. exists (sc_ping (ci_ping i)), q. split; [exact Fp|]. split; [reflexivity|]. intros Q. apply R in Q. discriminate Q.
    + exists (sc_ping (ci_ping i) ++ [SReturn false]). rewrite app_assoc. split; [reflexivity|]. right. split; [reflexivity|]. exists (sc_ping (ci_ping i)), i. auto 6.
    + exists (sc_ping (ci_ping i) ++ [SReturn (negb (ci_timed_out i))]). rewrite app_assoc. split; [reflexivity|]. right. split; [reflexivity|]. exists (sc_ping (ci_ping i)), i. auto 6.
  - exists []. rewrite app_nil_r. auto.
Qed.
Lemma quiet_pings l : Forall (fun e => match e with SWindow _ | SAbrupt => True | _ => False end) l -> accepted l = [] /\ called l = [] /\ returned l = false /\ ~ In SGraceful l.
Proof. induction 1 as [|e l He _ (A & B0 & C & D)]; [repeat split; intros []|]. destruct e; try contradiction; (split; [exact A|split; [exact B0|split; [exact C|]]]); intros [Q|Q]; [discriminate Q|auto|discriminate Q|auto]. Qed.
Lemma run_snoc ms m s : sc_run (ms ++ [m]) s = sc_move (sc_run ms s) m.
Proof. unfold sc_run. rewrite fold_left_app. reflexivity. Qed.
Lemma graceful_only l : Forall (fun e => e = SGraceful) l -> accepted l = [] /\ called l = [] /\ returned l = false.
Proof. induction 1 as [|e l -> _ IH]; [auto|exact IH]. Qed.
(* The history of a run *)
Lemma run_history ms : let s := sc_run ms sc_new in
  (sc_pc s <> CDone -> returned (sc_log s) = false /\ called (sc_log s) = accepted (sc_log s)) /\
  (sc_pc s = CDone -> exists a ok, sc_log s = a ++ [SReturn ok] /\ returned a = false /\
     (called a = accepted a \/ exists q, ok = true /\ connect_with_body q /\ accepted a = called a ++ [q])).
Proof.
  induction ms as [|m ms (I1 & I2)] using rev_ind; [cbn; split; [auto|discriminate]|]. rewrite run_snoc. set (s := sc_run ms sc_new) in *. cbv zeta in *.
  destruct (move_cases s m) as (l & El & C). rewrite El. destruct (sc_pc s) eqn:Ep.
  - destruct (I1 ltac:(discriminate)) as (J1 & J2). destruct C as [(C1 & ->)|(-> & C1)].
    + rewrite C1. split; [congruence|]. intros _. exists (sc_log s), false. auto.
    + rewrite app_nil_r. split; [auto|congruence].
  - destruct (I1 ltac:(discriminate)) as (J1 & J2). destruct C as (C1 & F). apply graceful_only in F. destruct F as (F1 & F2 & F3). split; [|congruence]. intros _. rewrite returned_app, called_app, accepted_app, F1, F2, F3, J1, J2. auto.
  - destruct (I1 ltac:(discriminate)) as (J1 & J2). destruct C as [(C1 & C2)|(C1 & pre & i & _ & Fp & C2)].
    + split; [|congruence]. intros _. destruct C2 as [F|(pre & q & F & -> & _)]; apply quiet_pings in F; destruct F as (F1 & F2 & F3 & _); rewrite ?returned_app, ?called_app, ?accepted_app, ?F1, ?F2, ?F3, J1, J2; auto.
    + split; [congruence|]. intros _. apply quiet_pings in Fp. destruct Fp as (F1 & F2 & F3 & _). destruct C2 as [(q & _ & Q & ->)|[(_ & ->)|(_ & ->)]].
      * exists (sc_log s ++ pre ++ [SAccept q; SRefuse q]), true. rewrite !app_assoc_reverse. split; [reflexivity|]. rewrite !returned_app, !called_app, !accepted_app, F1, F2, F3, J1, J2. cbn. split; [reflexivity|]. right. exists q. rewrite app_nil_r. auto.
      * exists (sc_log s ++ pre), false. rewrite app_assoc. split; [reflexivity|]. rewrite returned_app, called_app, accepted_app, F1, F2, F3, J1, J2. auto.
      * exists (sc_log s ++ pre), (negb (ci_timed_out i)). rewrite app_assoc. split; [reflexivity|]. rewrite returned_app, called_app, accepted_app, F1, F2, F3, J1, J2. auto.
  - destruct C as (-> & ->). rewrite app_nil_r. split; [congruence|]. intros _. apply I2. reflexivity.
Qed.

(* ---- Theorems ---- *)
(* Every request that h2 gives is passed to the service, once and in order, except
   a last CONNECT with a body; the future returns at most once and nothing happens
   after it has returned *)
Theorem C60_each_request_served : forall ms, let lg := sc_log (sc_run ms sc_new) in
  (called lg = accepted lg \/ exists q, connect_with_body q /\ accepted lg = called lg ++ [q] /\ exists a, lg = a ++ [SReturn true]) /\
  (forall a ok b, lg = a ++ SReturn ok :: b -> b = [] /\ returned a = false /\ forall ms', sc_log (sc_run (ms ++ ms') sc_new) = lg).
Proof.
  intros ms lg. destruct (run_history ms) as (H1 & H2). fold lg in H1, H2. cbv zeta in *. destruct (sc_pc (sc_run ms sc_new)) eqn:Ep.
  1,2,3: destruct (H1 ltac:(discriminate)) as (A & A0); (split; [left; exact A0|]); intros a ok b E; rewrite E, returned_app in A; cbn in A; rewrite orb_true_r in A; discriminate A.
  destruct (H2 eq_refl) as (a0 & ok0 & E0 & R0 & C0). split.
  - rewrite E0, called_app, accepted_app. cbn [called accepted flat_map app]. rewrite !app_nil_r. destruct C0 as [C0|(q & -> & Q1 & Q2)]; [auto|]. right. exists q. split; [exact Q1|]. split; [exact Q2|]. eauto.
  - intros a ok b E. assert (b = [] /\ returned a = false) as (-> & Ra).
    { rewrite E0 in E. destruct (exists_last (l := SReturn ok :: b) ltac:(discriminate)) as (y & z & Ey). rewrite Ey, app_assoc in E. apply app_inj_tail in E. destruct E as (E & <-).
      destruct y as [|w y]; cbn in Ey; injection Ey as E1 E2; [subst b; rewrite app_nil_r in E; subst a0; auto|]. subst w a0. rewrite returned_app in R0. cbn in R0. rewrite orb_true_r in R0. discriminate R0. }
    split; [reflexivity|]. split; [exact Ra|]. intros ms'. unfold sc_run. rewrite fold_left_app. fold (sc_run ms sc_new). fold (sc_run ms' (sc_run ms sc_new)). clear - Ep.
    subst lg. revert Ep. generalize (sc_run ms sc_new) as s. induction ms' as [|m ms' IH]; intros s Ep; [reflexivity|]. cbn [sc_run fold_left]. fold (sc_run ms' (sc_move s m)). destruct (move_cases s m) as (l & _ & C). rewrite Ep in C. destruct C as (_ & ->). apply IH, Ep.
Qed.
(* The connection ends well only when h2 says that it has ended (and keep-alive has
   not timed out), or for a CONNECT with a body *)
Theorem C60_when_it_ends : forall ms m, returned (sc_log (sc_run ms sc_new)) = false -> In (SReturn true) (sc_log (sc_run (ms ++ [m]) sc_new)) ->
  exists i, m = CStep i /\ ((ci_accept i = AcNone /\ ci_timed_out i = false) \/ exists q, ci_accept i = AcRequest q /\ connect_with_body q).
Proof.
  intros ms m R H. rewrite run_snoc in H. destruct (move_cases (sc_run ms sc_new) m) as (l & El & C). rewrite El in H. apply in_app_or in H.
  assert (forall x, returned x = false -> ~ In (SReturn true) x) as No.
  { intros x Rx Q. assert (returned x = true) as E by (apply existsb_exists; exists (SReturn true); auto). congruence. }
  destruct H as [H|H]; [destruct (No _ R H)|]. destruct (sc_pc (sc_run ms sc_new)).
  - destruct C as [(_ & ->)|(-> & _)]; [destruct H as [H|[]]; discriminate H|destruct H].
  - destruct C as (_ & F). destruct (No l); [apply graceful_only, F|exact H].
  - destruct C as [(_ & [F|(pre & q & F & -> & _)])|(_ & pre & i & -> & Fp & C)].
    + destruct (No l); [apply quiet_pings, F|exact H].
    + apply in_app_or in H. destruct H as [H|[H|[H|[]]]]; try discriminate H. destruct (No pre); [apply quiet_pings, F|exact H].
    + exists i. split; [reflexivity|]. assert (~ In (SReturn true) pre) as Np by (apply No, quiet_pings, Fp). destruct C as [(q & C1 & C2 & _)|[(_ & ->)|(C1 & ->)]].
      * right. exists q. auto.
      * apply in_app_or in H. destruct H as [H|[H|[]]]; [contradiction|discriminate H].
      * apply in_app_or in H. destruct H as [H|[H|[]]]; [contradiction|]. left. split; [exact C1|]. destruct (ci_timed_out i); [discriminate H|reflexivity].
  - destruct C as (-> & _). destruct H.
Qed.
(* Without a CONNECT with a body, every request is passed to the service and the
   future ends well only when h2 has ended *)
Theorem C60_no_such_connect : forall ms, (forall i q, In (CStep i) ms -> ci_accept i = AcRequest q -> ~ connect_with_body q) ->
  let lg := sc_log (sc_run ms sc_new) in called lg = accepted lg /\
  (In (SReturn true) lg -> exists i, In (CStep i) ms /\ ci_accept i = AcNone /\ ci_timed_out i = false).
Proof.
  intros ms. induction ms as [|m ms IH] using rev_ind; intros H lg; [cbn; split; [reflexivity|intros []]|].
  destruct (IH (fun i q Hi => H i q (in_or_app _ _ _ (or_introl Hi)))) as (I1 & I2). clear IH. subst lg. pose proof (run_snoc ms m sc_new) as Es. destruct (move_cases (sc_run ms sc_new) m) as (l & El & C). rewrite <- Es in El. split.
  - rewrite El, called_app, accepted_app, I1. f_equal. destruct (sc_pc (sc_run ms sc_new)).
    + destruct C as [(_ & ->)|(-> & _)]; reflexivity.
    + destruct C as (_ & F). apply graceful_only in F. destruct F as (-> & -> & _). reflexivity.
    + destruct C as [(_ & [F|(pre & q & F & -> & _)])|(_ & pre & i & -> & Fp & C)].
      * apply quiet_pings in F. destruct F as (-> & -> & _). reflexivity.
      * apply quiet_pings in F. rewrite called_app, accepted_app. destruct F as (-> & -> & _). reflexivity.
      * apply quiet_pings in Fp. destruct Fp as (F1 & F2 & _). destruct C as [(q & C1 & C2 & _)|[(_ & ->)|(C1 & ->)]]; [|rewrite called_app, accepted_app, F1, F2; reflexivity..].
        destruct (H i q); [apply in_or_app; right; left; reflexivity|exact C1|exact C2].
    + destruct C as (-> & _). reflexivity.
  - intros Hr. destruct (returned (sc_log (sc_run ms sc_new))) eqn:R.
    + destruct (C60_each_request_served ms) as (_ & T). apply existsb_exists in R. destruct R as (e & E1 & E2). destruct e as [| | | | | |ok]; try discriminate E2. apply in_split in E1. destruct E1 as (a & b & E1). destruct (T a ok b E1) as (_ & _ & T2). specialize (T2 [m]). rewrite T2 in Hr. destruct (I2 Hr) as (i & J1 & J2). exists i. split; [apply in_or_app; left; exact J1|exact J2].
    + destruct (C60_when_it_ends ms m R Hr) as (i & -> & [E|(q & E1 & E2)]).
      * exists i. split; [apply in_or_app; right; left; reflexivity|exact E].
      * destruct (H i q); [apply in_or_app; right; left; reflexivity|exact E1|exact E2].
Qed.
(* A graceful shutdown asked for between polls is passed to h2 before another
   request is accepted *)
Theorem C60_graceful_first : forall ms ms2, sc_pc (sc_run ms sc_new) = CHandshake \/ sc_pc (sc_run ms sc_new) = CServing ->
  exists l, sc_log (sc_run (ms ++ CGraceful :: ms2) sc_new) = sc_log (sc_run ms sc_new) ++ l /\
  forall a q b, l = a ++ SAccept q :: b -> In SGraceful a.
Proof.
  intros ms ms2 Hp. unfold sc_run at 1. rewrite fold_left_app. cbn [fold_left]. fold (sc_run ms sc_new). fold (sc_run ms2 (sc_move (sc_run ms sc_new) CGraceful)).
  assert (forall ms2 s, exists l, sc_log (sc_run ms2 s) = sc_log s ++ l) as Grow.
  { clear. induction ms2 as [|m ms2 IH]; intros s; [exists []; symmetry; apply app_nil_r|]. destruct (move_cases s m) as (l1 & E1 & _). destruct (IH (sc_move s m)) as (l2 & E2). exists (l1 ++ l2). cbn [sc_run fold_left]. fold (sc_run ms2 (sc_move s m)). rewrite E2, E1, app_assoc. reflexivity. }
  destruct (sc_run ms sc_new) as [pc cp lg]. cbn [sc_pc] in Hp. destruct Hp as [-> | ->].
  - cbn [sc_move sc_graceful sc_pc sc_log]. induction ms2 as [|m ms2 IH]; [exists []; rewrite app_nil_r; split; [reflexivity|]; intros [|x a] q b E; discriminate E|].
    cbn [sc_run fold_left]. fold (sc_run ms2 (sc_move (mkSc CHandshake true lg) m)). destruct m as [i|]; [|exact IH]. cbn [sc_move sc_step sc_pc]. unfold sc_step. cbn [sc_pc]. destruct (ci_hs i); [exact IH| |].
    + clear IH. exists [SReturn false]. assert (forall ms2 s, sc_pc s = CDone -> sc_run ms2 s = s) as D.
      { clear. induction ms2 as [|m ms2 IH]; intros s Ep; [reflexivity|]. cbn [sc_run fold_left]. fold (sc_run ms2 (sc_move s m)). destruct (move_cases s m) as (l & _ & C). rewrite Ep in C. destruct C as (_ & ->). apply IH, Ep. }
      rewrite D by reflexivity. split; [reflexivity|]. intros [|x [|y a]] q b E; discriminate E.
    + clear IH. unfold sc_to. cbn [sc_close_pending sc_log]. rewrite app_nil_r. destruct ms2 as [|m ms2]; [exists []; rewrite app_nil_r; split; [reflexivity|]; intros [|x a] q b E; discriminate E|].
      cbn [sc_run fold_left]. fold (sc_run ms2 (sc_move (mkSc CServing true lg) m)). destruct (Grow ms2 (sc_move (mkSc CServing true lg) m)) as (l & El). exists (SGraceful :: l).
      assert (sc_log (sc_move (mkSc CServing true lg) m) = lg ++ [SGraceful]) as E1 by (destruct m; reflexivity). rewrite El, E1, <- app_assoc. split; [reflexivity|].
      intros [|x a] q b E; [discriminate E|]. injection E as <- _. left. reflexivity.
  - cbn [sc_move sc_graceful sc_pc sc_log]. destruct (Grow ms2 (sc_to CServing [SGraceful] (mkSc CServing cp lg))) as (l & El). exists (SGraceful :: l). cbn [sc_graceful sc_pc]. unfold sc_graceful. cbn [sc_pc]. rewrite El. cbn [sc_to sc_log]. rewrite <- app_assoc. split; [reflexivity|].
    intros [|x a] q b E; [discriminate E|]. injection E as <- _. left. reflexivity.
Qed.
Definition ex_get : sreq := mkQ (B "GET") [].
Definition ex_connect : sreq := mkQ (B "CONNECT") [(CL, [B "5"])].
Definition ex_at (a : accept) : cmove := CStep (mkCin HkOk SpNone a false).
Example C60_ex : sc_log (sc_run [CGraceful; ex_at AcPending; ex_at AcPending; ex_at (AcRequest ex_get); ex_at AcPending; ex_at AcPending; ex_at AcNone] sc_new) =
  [SGraceful; SAccept ex_get; SCall ex_get; SGraceful; SReturn true] /\
  (forall i q, In (CStep i) [ex_at (AcRequest ex_get); ex_at AcNone] -> ci_accept i = AcRequest q -> ~ connect_with_body q) /\
  sc_pc (sc_run [ex_at AcPending; ex_at AcPending; ex_at AcPending] sc_new) = CServing.
Proof.
  split; [reflexivity|]. split; [|reflexivity]. intros i q [E|[E|[]]] H (Q & _); injection E as <-; inversion H; subst. discriminate Q.
Qed.
(* Finding: one CONNECT that announces a body ends the whole connection, with
   success, while other requests are being served and the peer has not ended *)
Theorem C60_ends_early_refuted : exists ms, (forall i, In (CStep i) ms -> ci_accept i <> AcNone /\ ci_accept i <> AcErr) /\
  sc_log (sc_run ms sc_new) = [SAccept ex_get; SCall ex_get; SAccept ex_connect; SRefuse ex_connect; SReturn true].
Proof.
  exists [ex_at AcPending; ex_at AcPending; ex_at (AcRequest ex_get); ex_at (AcRequest ex_connect)]. split; [|vm_compute; reflexivity].
  intros i [E|[E|[E|[E|[]]]]]; injection E as <-; split; discriminate.
Qed.

(* When the keep-alive gives the peer up, h2 is told to shut down at once, and a new
   window is passed on, in the iteration that learns it and before anything else *)
Theorem C60_gives_up : forall ms i, sc_pc (sc_run ms sc_new) = CLoop ->
  exists l, sc_log (sc_run (ms ++ [CStep i]) sc_new) = sc_log (sc_run ms sc_new) ++ match ci_ping i with SpTimedOut => [SAbrupt] | SpWindow w => [SWindow w] | SpNone => [] end ++ l /\
    ~ In SAbrupt l /\ (forall w, ~ In (SWindow w) l) /\
    (ci_accept i = AcNone -> l = [SReturn (negb (ci_timed_out i))]).
Proof.
  intros ms i Hp. unfold sc_run. rewrite fold_left_app. cbn [fold_left]. fold (sc_run ms sc_new). cbn [sc_move]. unfold sc_step. rewrite Hp. unfold sc_to. cbn [sc_log].
  assert (sc_ping (ci_ping i) = match ci_ping i with SpTimedOut => [SAbrupt] | SpWindow w => [SWindow w] | SpNone => [] end) as -> by (destruct (ci_ping i); reflexivity).
  destruct (ci_accept i) as [|q| |]; [|destruct (refused q)| |]; cbn [sc_log]; rewrite <- app_assoc; (eexists; split; [reflexivity|]); cbn; (split; [intuition discriminate|]); (split; [intros w; intuition discriminate|]); intros E; try discriminate E; reflexivity.
Qed.
Example C60_gives_up_ex : sc_pc (sc_run [CStep (mkCin HkOk SpNone AcPending false); CStep (mkCin HkPending SpNone AcPending false)] sc_new) = CLoop /\
  sc_log (sc_run [CStep (mkCin HkOk SpNone AcPending false); CStep (mkCin HkPending SpNone AcPending false); CStep (mkCin HkPending SpTimedOut AcNone true)] sc_new) = [SAbrupt; SReturn false].
Proof. split; reflexivity. Qed.
Print Assumptions C59_one_answer.
Print Assumptions C59_response.
Print Assumptions C59_request.
Print Assumptions C59_sent.
Print Assumptions C59_bodiless_refuted.
Print Assumptions C60_each_request_served.
Print Assumptions C60_when_it_ends.
Print Assumptions C60_no_such_connect.
Print Assumptions C60_graceful_first.
Print Assumptions C60_ends_early_refuted.
Print Assumptions C60_gives_up.
