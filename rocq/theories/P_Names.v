(* Theorems about the spelling of header names: C76. *)
From Verif Require Import Base M_HeaderMap M_Httparse M_Headers M_Encode M_Role M_RoleEncode
  S_Send S_Framing S_Head S_Names L_Encode2 L_Headers L_Framing L_RoleEncode L_RoleEncode2 L_Wire L_Client L_Server P_Client P_Role P_H2Headers.

(* ---- What is recorded ---- *)
Lemma lines_of_app n a b : lines_of n (a ++ b) = lines_of n a ++ lines_of n b.
Proof. apply filter_app. Qed.
Lemma lines_snoc n l x : lines_of n (l ++ [x]) = lines_of n l ++ (if beq (lower (fst x)) n then [x] else []).
Proof. rewrite lines_of_app. reflexivity. Qed.

Lemma server_line_case v11 l x l' n : server_line v11 l x = Ok l' -> beq n CL = false ->
  hm_get_all (l_case l') n = hm_get_all (l_case l) n ++ (if beq (lower (fst x)) n then [fst x] else []).
Proof.
  intros E Hn. destruct x as [raw value]. unfold server_line in E. cbn [fst].
  assert (forall k, beq k n = false -> hm_get_all (l_case l) n = hm_get_all (l_case l) n ++ (if beq k n then [raw] else [])) as Q by (intros k ->; now rewrite app_nil_r).
  destruct (beq (lower raw) (B "transfer-encoding")).
  { destruct (negb v11); [discriminate|]. injection E as <-. unfold l_append. cbn [l_case]. rewrite hm_get_all_append. destruct (beq (lower raw) n); [reflexivity|now rewrite app_nil_r]. }
  destruct (beq (lower raw) (B "content-length")) eqn:Ec.
  { apply beq_eq in Ec. assert (beq (lower raw) n = false) as Hx by (rewrite Ec, beq_sym; exact Hn). cbn [l_is_te l_con_len] in E.
    destruct (l_is_te l); [injection E as <-; now apply Q|]. destruct (content_length_parse value); [|discriminate]. destruct (l_con_len l) as [p|].
    - destruct (negb (p =? n0)); [discriminate|]. injection E as <-. now apply Q.
    - destruct (dl_checked_new n0); [|discriminate]. injection E as <-. unfold l_append. cbn [l_case]. rewrite hm_get_all_append, Hx. symmetry. apply app_nil_r. }
  repeat match type of E with (if ?c then _ else _) = _ => destruct c end; injection E as <-; unfold l_append; cbn [l_case]; rewrite hm_get_all_append; destruct (beq (lower raw) n); try reflexivity; now rewrite app_nil_r.
Qed.
Lemma server_lines_case v11 n : beq n CL = false -> forall lines l l', server_lines v11 l lines = Ok l' ->
  hm_get_all (l_case l') n = hm_get_all (l_case l) n ++ map fst (lines_of n lines).
Proof.
  intros Hn. induction lines as [|x r IH]; intros l l' E; cbn [server_lines] in E; [injection E as <-; now rewrite app_nil_r|].
  destruct (server_line v11 l x) as [l1|] eqn:E1; [|discriminate]. rewrite (IH _ _ E), (server_line_case _ _ _ _ _ E1 Hn). cbn [lines_of filter]. fold (lines_of n r).
  destruct (beq (lower (fst x)) n); cbn [map app]; rewrite <- app_assoc; reflexivity.
Qed.

(* A server records for every field other than Content-Length the names of its lines *)
Theorem C76_server_records : forall v11 method lines pm, server_parse v11 method lines = Ok pm ->
  forall n, n <> B "content-length" -> hm_get_all (pm_case pm) n = map fst (lines_of n lines) /\ hm_get_all (pm_headers pm) n = map snd (lines_of n lines).
Proof.
  intros v11 method lines pm E n Hn. unfold server_parse in E. destruct (server_lines _ _ _) as [l|] eqn:El; [|discriminate].
  assert (beq n CL = false) as Hb by now apply beq_false_ne.
  destruct (l_is_te l && negb (l_te_chunked l)); [discriminate|]. injection E as <-. cbn [pm_case pm_headers]. split.
  - rewrite (server_lines_case _ _ Hb _ _ _ El). reflexivity.
  - pose proof (server_lines_inv v11 lines [] _ (inv_start v11 method)) as I. rewrite El in I. cbn [app] in I. rewrite (i_hdr _ _ _ I), Hb. reflexivity.
Qed.
(* ... a client for every field *)
Theorem C76_client_records : forall ver status lines method pm, client_parse_head ver status lines method = Ok (Some pm) ->
  forall n, hm_get_all (pm_case pm) n = map fst (lines_of n lines) /\ hm_get_all (pm_headers pm) n = map snd (lines_of n lines).
Proof.
  intros ver status lines method pm E n. unfold client_parse_head in E. destruct (client_lines ver lines) as [[h c] k] eqn:Ec.
  assert (forall ls h0 c0 k0 h c k, fold_left client_line ls (h0, c0, k0) = (h, c, k) ->
     hm_get_all c n = hm_get_all c0 n ++ map fst (lines_of n ls) /\ hm_get_all h n = hm_get_all h0 n ++ map snd (lines_of n ls)) as Q.
  { clear. induction ls as [|[raw value] ls IH]; intros h0 c0 k0 h c k E; cbn [fold_left] in E; [injection E as -> -> _; now rewrite !app_nil_r|].
    unfold client_line at 2 in E. destruct (IH _ _ _ _ _ _ E) as (-> & ->). rewrite !hm_get_all_append. cbn [lines_of filter fst]. fold (lines_of n ls). destruct (beq (lower raw) n); cbn [map fst snd]; rewrite <- ?app_assoc; auto. }
  unfold client_lines in Ec. apply Q in Ec as (Q1 & Q2). destruct (client_decoder _ _ _ _) as [[[d u]|]|]; try discriminate. injection E as <-. cbn [pm_case pm_headers]. auto.
Qed.

(* ---- What is written: requests ---- *)
Lemma spelt_cons o names dflt v vs ls : spelt names dflt vs ls -> spelt (o :: names) dflt (v :: vs) ((o, v) :: ls).
Proof. intros (L & H). split; [cbn [length]; now rewrite L|]. intros [|i] x E; cbn in E |- *; [injection E as <-; reflexivity|]. now apply H. Qed.
Lemma spelt_more dflt v vs ls : spelt [] dflt vs ls -> spelt [] dflt (v :: vs) ((dflt, v) :: ls).
Proof. intros (L & H). split; [cbn [length]; now rewrite L|]. intros [|i] x E; cbn in E |- *; [injection E as <-; reflexivity|]. rewrite (H _ _ E). now destruct i. Qed.
Lemma spelt_nil names dflt : spelt names dflt [] [].
Proof. split; [reflexivity|]. intros [|i] x E; discriminate. Qed.
Lemma zip_spelt title n vs : forall names, spelt names (usual title n) vs (zip_names title n names vs).
Proof. induction vs as [|v vs IH]; intros names; [apply spelt_nil|]. cbn [zip_names]. destruct names as [|o names]; [apply spelt_more, IH|apply spelt_cons, IH]. Qed.
Lemma none_of n k ls : Forall (fun l : line => lower (fst l) = k) ls -> beq k n = false -> lines_of n ls = [].
Proof. intros H Hk. induction H as [|x l Hx _ IH]; [reflexivity|]. cbn. rewrite Hx, Hk. exact IH. Qed.
Lemma all_of n ls : Forall (fun l : line => lower (fst l) = n) ls -> lines_of n ls = ls.
Proof. intros H. induction H as [|x l Hx _ IH]; [reflexivity|]. cbn [lines_of filter]. fold (lines_of n l). now rewrite Hx, beq_refl, IH. Qed.

Lemma client_lines_spelt title case h n : headers_ok h -> (forall c, case = Some c -> case_ok c) ->
  spelt (match case with Some c => hm_get_all c n | None => [] end) (usual title n) (hm_get_all h n) (lines_of n (client_lines_of title case h)).
Proof.
  intros [[H0 H1] H2] Hc.
  assert (Hcase : forall n, Forall (fun o => lower o = n) (match case with Some c => hm_get_all c n | None => [] end)).
  { intros k. destruct case; [apply case_get; auto|constructor]. }
  unfold client_lines_of. induction H2 as [|[k vs] h [G1 G2] H2 IH]; [apply spelt_nil|]. cbn [fst snd] in *. inversion H0 as [|? ? X1 X2]; subst. inversion H1; subst.
  destruct (zip_ok title k vs _ G1 (Hcase k) G2) as [Z1 _]. assert (Forall (fun l : line => lower (fst l) = k) (zip_names title k (match case with Some c => hm_get_all c k | None => [] end) vs)) as Z by (eapply Forall_impl; [|exact Z1]; intros ? [_ X]; exact X).
  cbn [flat_map fst snd hm_get_all]. rewrite lines_of_app. destruct (beq k n) eqn:E.
  - apply beq_eq in E. subst k. rewrite (all_of _ _ Z). specialize (IH X2 H5). assert (hm_get_all h n = []) as Hn.
    { clear - X1. induction h as [|[j ws] h IH]; [reflexivity|]. cbn. destruct (beq j n) eqn:E; [apply beq_eq in E; subst; exfalso; apply X1; now left|]. apply IH. intros Y. apply X1. now right. }
    rewrite Hn in IH. destruct IH as (L & _). destruct (lines_of n _); [|discriminate]. rewrite app_nil_r. apply zip_spelt.
  - rewrite (none_of _ _ _ Z E). apply IH; auto.
Qed.

(* The lines that a client writes: spelt as recorded, else in the usual way *)
Theorem C76_request : forall m out e, cmsg_ok m -> client_encode m = Some (out, e) ->
  exists tight lines, out = request_line (ver_eqb (c_version m) HTTP10) (c_method m) (c_target m) ++ flat_map (render_line tight) lines ++ CRLF /\ Forall wire_line lines /\
    forall n, n <> B "content-length" -> n <> B "transfer-encoding" ->
      spelt (match c_case m with Some c => hm_get_all c n | None => [] end) (usual (c_title_case m) n) (hm_get_all (c_headers m) n) (lines_of n lines).
Proof.
  intros m out e [Hh Hc] E. unfold client_encode in E. destruct (set_length _ _ _ _) as [h' e'] eqn:Es.
  destruct (set_length_ok _ _ _ _ _ _ Hh Es) as (Ok & Ho & _). destruct (client_lines_ok (c_title_case m) (c_case m) h' Ok Hc) as [W _].
  exists (match c_case m with Some _ => true | None => false end), (client_lines_of (c_title_case m) (c_case m) h'). sp; [|exact W|].
  - unfold request_line. destruct (c_version m); try discriminate; apply Some_inj, pair_equal_spec in E as [<- <-];
    rewrite <- !app_assoc; repeat f_equal; destruct (c_case m); auto using section_orig, section_none.
  - intros n N1 N2. rewrite <- (Ho n) by assumption. now apply client_lines_spelt.
Qed.

(* ---- What is written: responses ---- *)
Definition wnames (w : name_writer) (n : bytes) : list bytes := match w with WLower => [] | WOrig c _ => hm_get_all c n end.
Definition wtitle (w : name_writer) : bool := match w with WLower => false | WOrig _ t => t end.

Section Response.
Variable m : smsg.
Variable w : name_writer.
Variable pre : bytes.
Hypothesis Hw : writer_ok w.
Variable n : bytes.
Hypothesis Hs : special n = false.
Hypothesis Hd : n <> B "date".
Definition opened (pend : list line) : bytes := flat_map (fun l => fst l ++ B ": " ++ snd l) pend.
(* what is written so far; the lines of [n] are [done] *)
Record Q (s : es) (done : list line) : Prop := {
  q_cur : cur_ok (s_cur s);
  q_out : exists lines pend, s_dst s = pre ++ render_lines lines ++ opened pend /\ Forall wire_line (lines ++ pend) /\ lines_of n lines = done /\
     match pend with [] => s_written s = false | [(nm, v)] => s_written s = true /\ beq (lower nm) n = false | _ => False end
}.
Definition G (name : bytes) (s : es) : Prop := s_written s = true -> special name = true /\
  (name = CL -> match m_body m with Some Unknown => s_prev s <> None | Some (Known _) => True | None => False end).

Lemma Q_same s s' done : Q s done -> s_dst s' = s_dst s -> s_written s' = s_written s -> s_cur s' = s_cur s -> Q s' done.
Proof. intros [C O] E1 E2 E3. constructor; rewrite ?E1, ?E2, ?E3; auto. Qed.
Lemma Q_open s done name value : Q s done -> s_written s = false -> wf_name name -> value_chars value -> beq name n = false -> Q (s_open w s name value) done.
Proof.
  intros [C (lines & pend & D & W & L & P)] Ew Hn Hv Hb. unfold s_open. destruct (write_name w (s_cur s) name) as [nm cur] eqn:E. destruct (write_name_ok _ _ _ _ _ Hw C Hn E) as (El & C').
  assert (pend = []) as -> by (destruct pend as [|[a b] [|]]; [reflexivity|destruct P; congruence|destruct P]). cbn [opened flat_map] in D. rewrite !app_nil_r in *.
  constructor; cbn [s_cur s_dst s_written]; [exact C'|]. exists lines, [(nm, value)]. rewrite D. unfold opened. cbn [flat_map fst snd]. rewrite app_nil_r, <- !app_assoc. sp; auto; [|congruence].
  apply Forall_app. split; [exact W|]. constructor; [|constructor]. now apply (wire_ok_open nm name).
Qed.
Lemma Q_more s done value : Q s done -> s_written s = true -> value_chars value -> Q (s_more s value) done.
Proof.
  intros [C (lines & pend & D & W & L & P)] Ew Hv. destruct pend as [|[nm v] [|]]; [congruence| |destruct P]. unfold s_more. constructor; cbn [s_cur s_dst s_written]; [exact C|].
  exists lines, [(nm, v ++ B ", " ++ value)]. rewrite D. unfold opened. cbn [flat_map fst snd]. rewrite !app_nil_r, <- !app_assoc. sp; auto; [|apply P].
  apply Forall_app in W as [W1 W2]. apply Forall_app. split; auto. constructor; [|constructor]. apply Forall_inv in W2 as [Wa Wb]. split; auto. cbn [snd] in *. apply value_chars_app; auto. apply value_chars_app; auto. apply value_chars_comma.
Qed.
Lemma Q_line s done name value : Q s done -> s_written s = false -> wf_name name -> value_chars value ->
  Q (s_line w s name value) (done ++ if beq name n then [(fst (write_name w (s_cur s) name), value)] else []).
Proof.
  intros [C (lines & pend & D & W & L & P)] Ew Hn Hv. unfold s_line. destruct (write_name w (s_cur s) name) as [nm cur] eqn:E. destruct (write_name_ok _ _ _ _ _ Hw C Hn E) as (El & C').
  assert (pend = []) as -> by (destruct pend as [|[a b] [|]]; [reflexivity|destruct P; congruence|destruct P]). cbn [opened flat_map] in D. rewrite !app_nil_r in *.
  constructor; cbn [s_cur s_dst s_written]; [exact C'|]. exists (lines ++ [(nm, value)]), []. rewrite D, render_app. unfold render_lines at 3. cbn [opened flat_map fst snd]. rewrite !app_nil_r, <- !app_assoc. sp; auto.
  - apply Forall_app. split; [exact W|]. constructor; [|constructor]. now apply (wire_ok_open nm name).
  - rewrite lines_snoc, L. cbn [fst]. now rewrite El.
Qed.
Lemma Q_flush s done : Q s done -> Q (s_new_name s) done.
Proof.
  intros [C (lines & pend & D & W & L & P)]. constructor; cbn [s_new_name s_cur s_dst s_written]; [exact C|]. destruct pend as [|[nm v] [|]]; [| |destruct P].
  - exists lines, []. unfold s_flush. rewrite P. auto.
  - destruct P as (Ew & Hb). remember (if s_must s then v ++ B ", chunked" else v) as v' eqn:Ev. exists (lines ++ [(nm, v')]), []. unfold s_flush. rewrite Ew, D, render_app. unfold render_lines at 3. unfold opened. cbn [flat_map fst snd]. sp; auto.
    + rewrite Ev. destruct (s_must s); rewrite <- ?app_assoc; cbn [app]; rewrite ?app_nil_r; reflexivity.
    + rewrite app_nil_r. apply Forall_app in W as [W1 W2]. apply Forall_app. split; auto. apply Forall_inv in W2 as [Wa Wb]. constructor; [|constructor]. split; auto. cbn [snd] in *. rewrite Ev. destruct (s_must s); auto. apply value_chars_app; [exact Wb|apply value_chars_chunked].
    + rewrite lines_snoc, L. cbn [fst]. rewrite Hb. apply app_nil_r.
Qed.

Lemma open_proj s name value : let s' := s_open w s name value in s_written s' = true /\ s_prev s' = s_prev s /\ s_dst s' = s_dst (s_open w s name value).
Proof. unfold s_open. destruct (write_name w (s_cur s) name). auto. Qed.
Lemma line_proj s name value : s_written (s_line w s name value) = s_written s /\ s_prev (s_line w s name value) = s_prev s.
Proof. unfold s_line. destruct (write_name w (s_cur s) name). auto. Qed.
Lemma Q_join s done name value : Q s done -> wf_name name -> value_chars value -> beq name n = false -> Q (s_join w s name value) done.
Proof. intros H Hn Hv Hb. unfold s_join. destruct (s_written s) eqn:E; [now apply Q_more|now apply Q_open]. Qed.

(* one value of another name *)
Lemma value_other name value s s' done : beq name n = false -> wf_name name -> value_chars value -> Q s done -> G name s -> s_value m w name value s = Some s' -> Q s' done /\ G name s'.
Proof.
  intros Hb Hn Hv HQ HG E. unfold s_value in E. change (B "content-length") with CL in E. change (B "transfer-encoding") with TE in E. change (B "connection") with CO in E. change (B "trailer") with TR in E.
  destruct (beq name CL) eqn:E1.
  { apply beq_eq in E1. subst name. destruct (s_wrote_len s && negb (s_written s)); [discriminate|]. destruct (m_body m) as [[k|]|] eqn:Eb.
    - destruct (s_written s) eqn:Ew; [injection E as <-; auto|]. injection E as <-. split.
      + apply (Q_same (s_open w (s_set_enc s (enc_length k)) CL value)); try reflexivity. apply Q_open; auto. now apply (Q_same s).
      + intros _. split; [reflexivity|]. intros _. now rewrite Eb.
    - destruct (content_length_parse value) as [len|]; [|discriminate]. destruct (s_prev s) as [p|] eqn:Ep.
      + destruct (negb (p =? len)); [discriminate|]. injection E as <-. auto.
      + assert (s_written s = false) as Ew. { destruct (s_written s) eqn:Ew; [|reflexivity]. destruct (HG Ew) as (_ & X). specialize (X eq_refl). rewrite Eb in X. contradiction. }
        injection E as <-. split.
        * apply (Q_same (s_open w (s_set_enc s (enc_length len)) CL value)); try reflexivity. apply Q_open; auto. now apply (Q_same s).
        * intros _. split; [reflexivity|]. intros _. rewrite Eb. discriminate.
    - assert (s_written s = false) as Ew. { destruct (s_written s) eqn:Ew; [|reflexivity]. destruct (HG Ew) as (_ & X). specialize (X eq_refl). rewrite Eb in X. contradiction. }
      destruct (method_is _ _); [|injection E as <-; auto]. injection E as <-. split.
      + pose proof (Q_line (s_set_len s) done CL value) as X. rewrite Hb, app_nil_r in X. apply X; auto. now apply (Q_same s).
      + intros X. destruct (line_proj (s_set_len s) CL value) as (Y & _). rewrite Y in X. cbn [s_set_len s_written] in X. congruence. }
  assert (forall s0, special name = true -> G name s0) as Gsp. { intros s0 Sp _. split; [exact Sp|]. intros ->. discriminate. }
  destruct (beq name TE) eqn:E2.
  { apply beq_eq in E2. subst name. destruct (s_wrote_len s && negb (s_written s)); [discriminate|]. destruct (_ || _); [injection E as <-; auto|].
    set (s0 := s_set_must (s_set_len s) (negb (is_chunked_ value))) in E. assert (Q s0 done) as H0 by now apply (Q_same s). destruct (s_written s0) eqn:Ew; injection E as <-; (split; [|now apply Gsp]).
    - now apply Q_more.
    - apply Q_open; auto. now apply (Q_same s0). }
  destruct (beq name CO) eqn:E3.
  { apply beq_eq in E3. subst name. injection E as <-. split; [|now apply Gsp]. apply Q_join; auto. destruct (_ && _); [now apply (Q_same s)|exact HQ]. }
  destruct (beq name (B "date")) eqn:E4.
  { apply beq_eq in E4. subst name. injection E as <-. assert (s_written s = false) as Ew. { destruct (s_written s) eqn:Ew; [|reflexivity]. destruct (HG Ew) as (X & _). discriminate X. } split.
    - pose proof (Q_line (s_set_date s) done (B "date") value) as X. rewrite Hb, app_nil_r in X. apply X; auto. now apply (Q_same s).
    - intros X. destruct (line_proj (s_set_date s) (B "date") value) as (Y & _). rewrite Y in X. cbn [s_set_date s_written] in X. congruence. }
  destruct (beq name TR) eqn:E5.
  { apply beq_eq in E5. subst name. destruct (_ || _); [injection E as <-; auto|]. injection E as <-. split; [|now apply Gsp].
    apply (Q_same (s_join w s TR value)); [now apply Q_join|..]; unfold s_allow; destruct (to_str value); reflexivity. }
  injection E as <-. assert (s_written s = false) as Ew. { destruct (s_written s) eqn:Ew; [|reflexivity]. destruct (HG Ew) as (X & _). unfold special in X. rewrite E1, E2, E3, E5 in X. discriminate X. } split.
  - pose proof (Q_line s done name value) as X. rewrite Hb, app_nil_r in X. now apply X.
  - intros X. destruct (line_proj s name value) as (Y & _). rewrite Y in X. congruence.
Qed.
Lemma value_this value s : s_value m w n value s = Some (s_line w s n value).
Proof.
  unfold s_value. change (B "content-length") with CL. change (B "transfer-encoding") with TE. change (B "connection") with CO. change (B "trailer") with TR.
  destruct (special_false n Hs) as (S1 & S2 & S3 & S4). rewrite (beq_sym n CL), (beq_sym n TE), (beq_sym n CO), (beq_sym n TR), S1, S2, S3, S4. assert (beq n (B "date") = false) as -> by now apply beq_false_ne. reflexivity.
Qed.
Lemma values_other name vs : beq name n = false -> wf_name name -> Forall value_chars vs -> forall s s' done, Q s done -> G name s -> s_values m w name vs s = Some s' -> Q s' done.
Proof.
  intros Hb Hn. induction vs as [|v vs IH]; intros F s s' done HQ HG E; cbn [s_values] in E; [injection E as <-; exact HQ|]. inversion F; subst.
  destruct (s_value m w name v s) as [s1|] eqn:E1; [|discriminate]. destruct (value_other name v s s1 done) as (Q1 & G1); auto. eapply IH; eauto.
Qed.
(* which name is the current one *)
Definition curname (s : es) : option bytes := match s_cur s with Some (k, _) => Some k | None => None end.
Lemma values_this names vs : wf_name n -> Forall value_chars vs -> forall s s' done,
  Q s done -> s_written s = false -> (match w with WLower => names = [] | WOrig c _ => names = match s_cur s with Some (k, r) => if beq k n then r else hm_get_all c n | None => hm_get_all c n end end) ->
  s_values m w n vs s = Some s' -> exists ls, Q s' (done ++ ls) /\ spelt names (usual (wtitle w) n) vs ls.
Proof.
  intros Hn F. revert names. induction F as [|v vs Hv F IH]; intros names s s' done HQ Ew Hnm E; cbn [s_values] in E.
  - injection E as <-. exists []. rewrite app_nil_r. split; [exact HQ|apply spelt_nil].
  - rewrite value_this in E. pose proof (Q_line s done n v HQ Ew Hn Hv) as Q1. rewrite beq_refl in Q1. destruct (line_proj s n v) as (Y & _).
    assert (exists nm names', fst (write_name w (s_cur s) n) = nm /\ (names = nm :: names' \/ names = [] /\ names' = [] /\ nm = usual (wtitle w) n) /\
       match w with WLower => names' = [] | WOrig c _ => names' = match s_cur (s_line w s n v) with Some (k, r) => if beq k n then r else hm_get_all c n | None => hm_get_all c n end end) as (nm & names' & En & C & Hn').
    { clear - Hnm. unfold s_line, write_name. destruct w as [|c t].
      - exists n, []. cbn [fst s_cur]. sp; auto.
      - destruct (match s_cur s with Some (last, vs0) => if beq last n then vs0 else hm_get_all c n | None => hm_get_all c n end) as [|o r] eqn:Eo.
        + exists (usual t n), []. cbn [fst snd s_cur]. rewrite beq_refl. sp; auto; congruence.
        + exists o, r. cbn [fst snd s_cur]. rewrite beq_refl. sp; auto; left; congruence. }
    rewrite En in Q1. destruct (IH names' _ _ _ Q1 (eq_trans Y Ew) Hn' E) as (ls & Q2 & S). exists ((nm, v) :: ls). rewrite <- app_assoc in Q2. split; [exact Q2|].
    destruct C as [-> |(-> & -> & ->)]; [now apply spelt_cons|now apply spelt_more].
Qed.

Lemma name_cur cur name : match snd (write_name w cur name) with Some (k, _) => k = name \/ (exists r, cur = Some (k, r)) | None => True end.
Proof.
  unfold write_name. destruct w as [|c t]; cbn [snd]; [destruct cur as [[k r]|]; eauto|]. destruct (match cur with Some (last, vs0) => _ | None => _ end); cbn [snd]; auto.
Qed.
Lemma value_cur name value s s' : s_value m w name value s = Some s' -> match s_cur s' with Some (k, _) => k = name \/ (exists r, s_cur s = Some (k, r)) | None => True end.
Proof.
  assert (match s_cur s with Some (k, _) => k = name \/ (exists r, s_cur s = Some (k, r)) | None => True end) as R by (destruct (s_cur s) as [[k r]|]; eauto).
  pose proof (name_cur (s_cur s) name) as Nc.
  assert (forall t v, s_cur t = s_cur s -> s_cur (s_line w t name v) = snd (write_name w (s_cur s) name) /\ s_cur (s_open w t name v) = snd (write_name w (s_cur s) name)) as L.
  { intros t v Et. unfold s_line, s_open. rewrite Et. destruct (write_name w (s_cur s) name). auto. }
  assert (forall t v, s_cur t = s_cur s -> s_cur (s_join w t name v) = snd (write_name w (s_cur s) name) \/ s_cur (s_join w t name v) = s_cur s) as J.
  { intros t v Et. unfold s_join. destruct (s_written t); [right; exact Et|left; now apply L]. }
  assert (forall t, s_cur t = snd (write_name w (s_cur s) name) \/ s_cur t = s_cur s -> match s_cur t with Some (k, _) => k = name \/ (exists r, s_cur s = Some (k, r)) | None => True end) as D by (intros t [-> | ->]; assumption).
  unfold s_value. intros E. apply D. clear D R Nc. cbv zeta in E.
  assert (forall t, s_cur (s_allow t value) = s_cur t) as Al by (intros t; unfold s_allow; destruct (to_str value); reflexivity).
  repeat match type of E with
  | Some _ = Some _ => injection E as <-
  | None = Some _ => discriminate E
  | (if ?c then _ else _) = _ => destruct c
  | match ?c with _ => _ end = _ => destruct c
  end; auto; rewrite ?Al; first [left; apply L; reflexivity|left; cbn [s_set_len s_set_prev s_cur]; apply L; reflexivity|apply J; reflexivity|apply J; destruct (_ && _); reflexivity|idtac].
Qed.
Lemma values_cur name vs : forall s s', s_values m w name vs s = Some s' -> match s_cur s' with Some (k, _) => k = name \/ (exists r, s_cur s = Some (k, r)) | None => True end.
Proof.
  induction vs as [|v vs IH]; intros s s' E; cbn [s_values] in E; [injection E as <-; destruct (s_cur s) as [[k r]|]; eauto|].
  destruct (s_value m w name v s) as [s1|] eqn:E1; [|discriminate]. pose proof (value_cur _ _ _ _ E1) as C1. pose proof (IH _ _ E) as C2. destruct (s_cur s') as [[k r]|]; [|exact Logic.I]. destruct C2 as [C2|(r' & C2)]; [auto|]. rewrite C2 in C1. exact C1.
Qed.

Lemma headers_spelt h : NoDup (map fst h) -> Forall (fun g => wf_name (fst g) /\ Forall value_chars (snd g)) h -> forall s s' done,
  Q s done -> (match s_cur s with Some (k, _) => ~ In k (map fst h) | None => True end) -> s_headers m w h s = Some s' ->
  exists ls, Q s' (done ++ ls) /\ spelt (wnames w n) (usual (wtitle w) n) (hm_get_all h n) ls.
Proof.
  induction h as [|[k vs] h IH]; intros Nd F s s' done HQ Hc E; cbn [s_headers] in E.
  - injection E as <-. exists []. rewrite app_nil_r. split; [exact HQ|apply spelt_nil].
  - inversion Nd as [|? ? N1 N2]; subst. inversion F as [|? ? [F1 F2] F3]; subst. cbn [fst snd map] in *. destruct (s_values m w k vs (s_new_name s)) as [s1|] eqn:E1; [|discriminate].
    assert (G k (s_new_name s)) as G0 by (intros X; discriminate X). pose proof (values_cur _ _ _ _ E1) as C1. cbn [s_new_name s_cur] in C1.
    assert (match s_cur s1 with Some (k', _) => ~ In k' (map fst h) | None => True end) as Hc1.
    { destruct (s_cur s1) as [[k' r]|]; [|exact Logic.I]. destruct C1 as [-> |(r' & C1)]; [exact N1|]. rewrite C1 in Hc. intros X. apply Hc. now right. }
    cbn [hm_get_all]. destruct (beq k n) eqn:Eb.
    + apply beq_eq in Eb. subst k. destruct (values_this (wnames w n) vs F1 F2 (s_new_name s) s1 done (Q_flush _ _ HQ) eq_refl) as (ls & Q1 & S); [|exact E1|].
      * cbn [s_new_name s_cur]. unfold wnames. destruct w; [reflexivity|]. destruct (s_cur s) as [[k r]|]; [|reflexivity]. destruct (beq k n) eqn:Ek; [|reflexivity]. apply beq_eq in Ek. subst k. exfalso. apply Hc. now left.
      * destruct (IH N2 F3 _ _ _ Q1 Hc1 E) as (ls2 & Q2 & S2). assert (hm_get_all h n = []) as Hn.
        { clear - N1. induction h as [|[j ws] h IH]; [reflexivity|]. cbn. destruct (beq j n) eqn:E; [apply beq_eq in E; subst; exfalso; apply N1; now left|]. apply IH. intros Y. apply N1. now right. }
        rewrite Hn in S2. destruct S2 as (L & _). destruct ls2; [|discriminate]. rewrite app_nil_r in Q2. exists ls. auto.
    + apply (IH N2 F3 s1); auto. exact (values_other k vs Eb F1 F2 (s_new_name s) s1 done (Q_flush _ _ HQ) G0 E1).
Qed.

Lemma encode_spelt date last0 len0 out e : headers_ok (m_headers m) -> value_chars date -> encode_headers m w date pre last0 len0 = Some (out, e) ->
  exists lines, out = pre ++ render_lines lines ++ CRLF /\ Forall wire_line lines /\ spelt (wnames w n) (usual (wtitle w) n) (hm_get_all (m_headers m) n) (lines_of n lines).
Proof.
  intros [[H0 H1] H2] Hdate E. unfold encode_headers in E. destruct (s_headers m w _ _) as [s0|] eqn:E0; [|discriminate]. apply Some_inj in E.
  assert (Q (mkEs pre (enc_length 0) None false false false None len0 last0 None) []) as Q00 by (constructor; [exact Logic.I|exists [], []; cbn; rewrite app_nil_r; auto]).
  destruct (headers_spelt (m_headers m) H0 H2 _ s0 [] Q00 Logic.I E0) as (ls & Q0 & S). cbn [app] in Q0. apply Q_flush in Q0.
  set (s := s_new_name s0) in *. assert (s_written s = false) as Ew by reflexivity. clearbody s. clear E0.
  destruct (special_false n Hs) as (S1 & S2 & _ & _).
  assert (forall t name v, Q t ls -> s_written t = false -> wf_name name -> value_chars v -> beq name n = false -> Q (s_line w t name v) ls /\ s_written (s_line w t name v) = false) as AL.
  { intros t name v Qt Wt Hn Hv Hb. destruct (line_proj t name v) as (Y & _). split; [|congruence]. pose proof (Q_line t ls name v Qt Wt Hn Hv) as X. rewrite Hb, app_nil_r in X. exact X. }
  assert (Q (s_default_len m w s) ls /\ s_written (s_default_len m w s) = false) as (Q1 & W1).
  { unfold s_default_len. destruct (s_wrote_len s); [auto|]. change (B "content-length") with CL. change (B "transfer-encoding") with TE.
    assert (forall t e, Q t ls /\ s_written t = false -> Q (s_set_enc t e) ls /\ s_written (s_set_enc t e) = false) as SE by (intros t x (Qt & Wt); split; [now apply (Q_same t)|exact Wt]).
    destruct (m_body m) as [[[|p]|]|].
    - apply SE. destruct (can_have_implicit_zero_content_length _ _); [|auto]. apply AL; auto using wf_CL, chars_zero.
    - destruct (negb _); apply SE; [auto|]. apply AL; auto using wf_CL, dec_chars.
    - destruct (_ || _); apply SE; [auto|]. apply AL; auto using wf_TE, chars_chunked0.
    - apply SE. destruct (can_have_implicit_zero_content_length _ _); [|auto]. apply AL; auto using wf_CL, chars_zero. }
  unfold s_finish in E. set (t := s_default_len m w s) in *. cbv zeta in E. apply pair_equal_spec in E as [<- _].
  assert (Q (if negb (s_date t) && m_date_header m then s_line w t (B "date") date else t) ls /\ s_written (if negb (s_date t) && m_date_header m then s_line w t (B "date") date else t) = false) as (Q2 & W2).
  { destruct (_ && _); [|auto]. apply AL; auto using wf_date. apply beq_false_ne. congruence. }
  destruct Q2 as [_ (lines & pend & D & W & L & P)]. destruct pend as [|[a b] [|]]; [| destruct P; congruence|destruct P]. exists lines. cbn [opened flat_map] in D. rewrite app_nil_r in *. rewrite D, <- app_assoc. subst ls. auto.
Qed.
End Response.

(* Written lines can be told apart *)
Lemma cut_eq (A : Type) (x : A) a : forall b r t, ~ In x a -> ~ In x b -> a ++ x :: r = b ++ x :: t -> a = b /\ r = t.
Proof.
  induction a as [|y a IH]; intros [|z b] r t Ha Hb E; cbn in *.
  - injection E as ->. auto.
  - injection E as <- _. tauto.
  - injection E as -> _. tauto.
  - injection E as <- E. destruct (IH b r t) as (-> & ->); auto.
Qed.
Lemma name_no_colon l : wire_line l -> ~ In 58 (fst l).
Proof.
  intros ((_ & H) & _) I. apply (in_map to_lower) in I. change (map to_lower (fst l)) with (lower (fst l)) in I. rewrite Forall_forall in H. specialize (H _ I). vm_compute in H. discriminate.
Qed.
Lemma value_no_cr l : wire_line l -> ~ In 13 (snd l).
Proof. intros (_ & H) I. unfold value_chars in H; rewrite Forall_forall in H. destruct (H _ I) as [X|(X & _)]; lia. Qed.
Lemma render_inj a : forall b, Forall wire_line a -> Forall wire_line b -> render_lines a ++ CRLF = render_lines b ++ CRLF -> a = b.
Proof.
  assert (forall l r, wire_line l -> (fst l ++ B ": " ++ snd l ++ CRLF) ++ r = CRLF -> False) as No.
  { intros [nm v] r W E. cbn [fst snd] in E. destruct nm as [|x nm]; [destruct W as ((W & _) & _); now apply W|]. injection E as -> E. destruct nm as [|y nm]; [discriminate|]. injection E as -> E. destruct nm; discriminate. }
  induction a as [|x a IH]; intros [|y b] Fa Fb E; [reflexivity|..].
  - exfalso. inversion Fb; subst. apply (No y (render_lines b ++ CRLF)); auto. symmetry. etransitivity; [exact E|]. unfold render_lines. cbn [flat_map]. now rewrite <- !app_assoc.
  - exfalso. inversion Fa; subst. apply (No x (render_lines a ++ CRLF)); auto. etransitivity; [|exact E]. unfold render_lines. cbn [flat_map]. now rewrite <- !app_assoc.
  - inversion Fa as [|? ? Wx Fa']; inversion Fb as [|? ? Wy Fb']; subst. unfold render_lines in E. cbn [flat_map] in E. rewrite <- !app_assoc in E. cbn [B app] in E.
    apply cut_eq in E as (E1 & E); [|now apply name_no_colon..]. injection E as E. apply cut_eq in E as (E2 & E); [|now apply value_no_cr..]. injection E as E. fold (render_lines a) (render_lines b) in E.
    rewrite (IH b Fa' Fb' E). f_equal. destruct x, y; cbn in *; congruence.
Qed.

(* A written head comes from the loop over the headers *)
Lemma encoded reason date m out e : server_encode reason date m = (out, Ok e) -> exists last len, encode_headers m (sw m) date (head_start reason m) last len = Some (out, e).
Proof.
  intros E. unfold server_encode in E.
    assert (forall last0 len0 (err : bool), match status_line reason m with None => ([], Err EPanicVersion)
     | Some line => match encode_headers m (sw m) date line last0 len0 with None => ([], Err EUserHeader) | Some (o, e) => (o, if err then Err EUnsupportedStatus else Ok e) end
     end = (out, Ok e) -> exists last len, encode_headers m (sw m) date (head_start reason m) last len = Some (out, e)) as Hgo.
    { intros l0 n0 err X. destruct (status_line reason m) as [line|] eqn:Es; [|discriminate]. apply status_line_eq in Es as [-> _]. destruct (encode_headers _ _ _ _ _ _) as [[o x]|] eqn:Ee; [|discriminate]. destruct err; [discriminate|]. injection X as <- <-. eauto. }
    destruct (m_status m =? 101); [exact (Hgo true false false E)|]. destruct (_ && _); [exact (Hgo true true false E)|]. destruct (is_informational (m_status m)).
    { destruct (status_line _ _); [|discriminate]. destruct (encode_headers _ _ _ _ _ _) as [[? ?]|]; discriminate. }
    exact (Hgo _ false false E).
Qed.

(* The lines that a server writes *)
Theorem C76_response : forall reason date m out e, smsg_ok m -> value_chars date -> server_encode reason date m = (out, Ok e) ->
  exists lines, out = head_start reason m ++ render_lines lines ++ CRLF /\ Forall wire_line lines /\
    forall n, ~ In n (map B ["content-length"; "transfer-encoding"; "connection"; "trailer"; "date"]%string) ->
      spelt (match m_case m with Some c => hm_get_all c n | None => [] end) (usual (m_title_case m) n) (hm_get_all (m_headers m) n) (lines_of n lines).
Proof.
  intros reason date m out e Hm Hd E. destruct (server_encode_ok _ _ _ _ _ Hm Hd E) as (lines & last0 & Ho & Hni & _).
  pose proof (ho_out _ _ _ _ _ _ _ Ho) as Eo. pose proof (ho_wire _ _ _ _ _ _ _ Ho) as Wl. exists lines. sp; [exact Eo|exact Wl|]. intros n Hn.
  assert (special n = false /\ n <> B "date") as (Hs & Hdn).
  { cbn [map In] in Hn. split; [|intros ->; tauto]. unfold special, CL, TE, CO, TR. destruct (beq n (B "content-length")) eqn:E1; [apply beq_eq in E1; subst; tauto|].
    destruct (beq n (B "transfer-encoding")) eqn:E2; [apply beq_eq in E2; subst; tauto|]. destruct (beq n (B "connection")) eqn:E3; [apply beq_eq in E3; subst; tauto|].
    destruct (beq n (B "trailer")) eqn:E4; [apply beq_eq in E4; subst; tauto|]. reflexivity. }
  destruct (encoded _ _ _ _ _ E) as (last & len & Ee).
  destruct (encode_spelt m (sw m) _ (sw_ok m Hm) n Hs Hdn date last len out e (proj1 Hm) Hd Ee) as (lines' & Eo' & Wl' & S).
  rewrite Eo in Eo'. apply app_inv_head in Eo'. apply render_inj in Eo'; auto. subst lines'. unfold sw in S. destruct (m_case m); [exact S|]. destruct (m_title_case m) eqn:Et; exact S.
Qed.

(* ---- A proxy ---- *)
Lemma spelt_same ls dflt ls' : spelt (map fst ls) dflt (map snd ls) ls' -> ls' = ls.
Proof.
  intros (L & H). rewrite map_length in L. apply nth_ext with (d := ([], [])) (d' := ([], [])); [exact L|]. intros i Hi. rewrite L in Hi.
  destruct (nth_error ls i) as [[o v]|] eqn:E; [|apply nth_error_None in E; lia]. specialize (H i v). rewrite !nth_error_map, E in H. specialize (H eq_refl). cbn in H.
  rewrite (nth_error_nth _ _ _ E), (nth_error_nth _ _ _ H). reflexivity.
Qed.
(* A request that is passed on with what was recorded: the lines of every field
   that the application left alone are those that were received. *)
Theorem C76_request_passed_on : forall v11 method lines pm m out e, server_parse v11 method lines = Ok pm ->
  cmsg_ok m -> c_case m = Some (pm_case pm) -> client_encode m = Some (out, e) ->
  exists tight lines', out = request_line (ver_eqb (c_version m) HTTP10) (c_method m) (c_target m) ++ flat_map (render_line tight) lines' ++ CRLF /\ Forall wire_line lines' /\
    forall n, n <> B "content-length" -> n <> B "transfer-encoding" -> hm_get_all (c_headers m) n = hm_get_all (pm_headers pm) n -> lines_of n lines' = lines_of n lines.
Proof.
  intros v11 method lines pm m out e Ep Hm Ec E. destruct (C76_request m out e Hm E) as (tight & lines' & Eo & W & S). exists tight, lines'. sp; [exact Eo|exact W|].
  intros n N1 N2 Eh. specialize (S n N1 N2). destruct (C76_server_records _ _ _ _ Ep n N1) as (R1 & R2). rewrite Ec, R1, Eh, R2 in S. exact (spelt_same _ _ _ S).
Qed.
Theorem C76_response_passed_on : forall ver status lines method pm reason date m out e, client_parse_head ver status lines method = Ok (Some pm) ->
  smsg_ok m -> value_chars date -> m_case m = Some (pm_case pm) -> server_encode reason date m = (out, Ok e) ->
  exists lines', out = head_start reason m ++ render_lines lines' ++ CRLF /\ Forall wire_line lines' /\
    forall n, ~ In n (map B ["content-length"; "transfer-encoding"; "connection"; "trailer"; "date"]%string) ->
      hm_get_all (m_headers m) n = hm_get_all (pm_headers pm) n -> lines_of n lines' = lines_of n lines.
Proof.
  intros ver status lines method pm reason date m out e Ep Hm Hd Ec E. destruct (C76_response reason date m out e Hm Hd E) as (lines' & Eo & W & S). exists lines'. sp; [exact Eo|exact W|].
  intros n Hn Eh. specialize (S n Hn). destruct (C76_client_records _ _ _ _ _ Ep n) as (R1 & R2). rewrite Ec, R1, Eh, R2 in S. exact (spelt_same _ _ _ S).
Qed.

(* ---- Examples ---- *)
Definition names_ex : list line := [(B "X-a", B "1"); (B "HOST", B "h"); (B "x-A", B "2"); (B "X-B", [])].
Example C76_request_ex : exists pm out e, server_parse true (B "GET") names_ex = Ok pm /\
  let m := mkCmsg HTTP11 (B "GET") (B "/") None (pm_headers pm) false (Some (pm_case pm)) in
  cmsg_ok m /\ client_encode m = Some (out, e) /\
  out = B "GET / HTTP/1.1" ++ CRLF ++ B "X-a: 1" ++ CRLF ++ B "x-A: 2" ++ CRLF ++ B "HOST: h" ++ CRLF ++ B "X-B:" ++ CRLF ++ CRLF.
Proof.
  eexists _, _, _. split; [vm_compute; reflexivity|]. cbv zeta. split; [|split; [vm_compute; reflexivity|vm_compute; reflexivity]]. split; [now apply headers_okb_ok|]. intros c Hc. injection Hc as <-. vm_compute. repeat constructor.
Qed.
Example C76_response_ex : exists pm e, client_parse_head HTTP11 200 names_ex (Some (B "GET")) = Ok (Some pm) /\
  let m := mkSmsg HTTP11 200 (Some (B "GET")) None (hm_append (pm_headers pm) (B "x-a") (B "3")) true false true (Some (pm_case pm)) None in
  smsg_ok m /\ server_encode ok_reason ex_date m = (B "HTTP/1.1 200 OK" ++ CRLF ++ B "X-a: 1" ++ CRLF ++ B "x-A: 2" ++ CRLF ++ B "X-A: 3" ++ CRLF ++ B "HOST: h" ++ CRLF ++ B "X-B: " ++ CRLF ++ B "Content-Length: 0" ++ CRLF ++ CRLF, Ok e).
Proof.
  eexists _, _. split; [vm_compute; reflexivity|]. cbv zeta. split; [|vm_compute; reflexivity]. split; [now apply headers_okb_ok|]. split; [|discriminate]. intros c Hc. injection Hc as <-. vm_compute. repeat constructor.
Qed.

Print Assumptions C76_server_records.
Print Assumptions C76_client_records.
Print Assumptions C76_request.
Print Assumptions C76_response.
Print Assumptions C76_request_passed_on.
Print Assumptions C76_response_passed_on.

(* ---- Which trailers may be sent ---- *)
(* A Trailer field of the head names [n]: a token, as a member of the list *)
Definition announced (h : hmap) (n : bytes) : Prop := exists v, In v (hm_get_all h (B "trailer")) /\ text v /\ list_member v n /\ wf_name n.
Definition names_in (v : bytes) : list bytes :=
  match to_str v with Some s => flat_map (fun x => match header_name (trim x) with Some n => [n] | None => [] end) (split_comma s) | None => [] end.
Lemma tchar_token b : is_tchar b = token_char (to_lower b).
Proof.
  unfold is_tchar, token_char, to_lower. destruct ((65 <=? b) && (b <=? 90))%bool eqn:E; [|now rewrite orb_false_r].
  assert ((97 <=? b + 32) && (b + 32 <=? 122) = true) as -> by lia. now rewrite !orb_true_r.
Qed.
Lemma header_name_spec x n : lenN n <= 65535 -> (header_name x = Some n <-> wf_name n /\ lower x = n).
Proof.
  intros Hl. assert (forallb is_tchar x = forallb token_char (lower x)) as Ef by (unfold lower; induction x as [|b x IH]; [reflexivity|]; cbn; now rewrite IH, tchar_token).
  assert (lenN (lower x) = lenN x) as El by (unfold lenN, lower; now rewrite map_length). unfold header_name. destruct x as [|b x].
  { split; [discriminate|]. intros ((H & _) & E). cbn in E. congruence. }
  set (y := b :: x) in *. rewrite Ef. split.
  - destruct (forallb token_char (lower y) && (lenN y <=? 65535)) eqn:E; [|discriminate]. intros X. injection X as <-. apply andb_prop in E as [E _]. split; [|reflexivity]. split; [unfold y; discriminate|]. now apply Forall_forall, forallb_forall.
  - intros ((_ & H) & <-). rewrite El in Hl. apply N.leb_le in Hl. rewrite Hl. rewrite (proj2 (forallb_forall _ _) (proj1 (Forall_forall _ _) H)). reflexivity.
Qed.
Lemma names_in_spec v n : lenN n <= 65535 -> (In n (names_in v) <-> text v /\ list_member v n /\ wf_name n).
Proof.
  intros Hl. unfold names_in. assert (wf_name n -> connection_has v n = true <-> text v /\ list_member v n) as C.
  { intros (_ & W). destruct (token_lower n W) as (T1 & _ & T3 & T4). now apply connection_has_spec. }
  unfold connection_has in C. destruct (to_str v) as [s|]; [|split; [intros []|intros (T & M & W); exfalso; assert (false = true) by (apply C; auto); discriminate]].
  rewrite in_flat_map. split.
  - intros (x & Ix & H). destruct (header_name (trim x)) as [k|] eqn:E; [|destruct H]. destruct H as [-> |[]]. apply header_name_spec in E as (W & E); [|exact Hl].
    assert (text v /\ list_member v n) as (T & M); [|auto]. apply (C W). apply existsb_exists. exists x. split; [exact Ix|]. unfold eq_ic. rewrite E. destruct (token_lower n (proj2 W)) as (-> & _). apply beq_refl.
  - intros (T & M & W). assert (existsb (fun x => eq_ic (trim x) n) (split_comma s) = true) as X by (apply (C W); auto). apply existsb_exists in X as (x & Ix & E). exists x. split; [exact Ix|].
    unfold eq_ic in E. apply beq_eq in E. destruct (token_lower n (proj2 W)) as (L & _). rewrite L in E. rewrite (proj2 (header_name_spec (trim x) n Hl) (conj W E)). now left.
Qed.
Lemma all_names_spec h n : lenN n <= 65535 -> (In n (flat_map names_in (hm_get_all h (B "trailer"))) <-> announced h n).
Proof.
  intros Hl. rewrite in_flat_map. unfold announced. split; intros (v & I & H); exists v; (split; [exact I|]); now apply (names_in_spec v n Hl).
Qed.
Definition names_of (k : enc_kind) : list bytes := match k with KChunked (Some names) => names | _ => [] end.
Lemma with_names h : names_of (ekind (with_trailer_names h enc_chunked)) = flat_map names_in (hm_get_all h (B "trailer")).
Proof. change (flat_map names_in (hm_get_all h (B "trailer"))) with (trailer_names h). unfold with_trailer_names. cbn [enc_is_chunked enc_chunked ekind]. destruct (trailer_names h); reflexivity. Qed.
(* The trailers that a request with a chunked body may carry are those announced *)
Theorem C11_request_announced : forall m out e, client_encode m = Some (out, e) ->
  forall n, lenN n <= 65535 -> (In n (names_of (ekind e)) -> announced (c_headers m) n) /\ (forall k, ekind e = KChunked k -> announced (c_headers m) n -> In n (names_of (ekind e))).
Proof.
  intros m out e E n Hl. unfold client_encode in E. destruct (set_length _ _ _ _) as [h' e'] eqn:Es. assert (e' = e) as -> by (destruct (c_version m); try discriminate; now injection E).
  clear E. enough ((In n (names_of (ekind e)) -> In n (flat_map names_in (hm_get_all (c_headers m) (B "trailer")))) /\ (forall k, ekind e = KChunked k -> In n (flat_map names_in (hm_get_all (c_headers m) (B "trailer"))) -> In n (names_of (ekind e)))) as (X1 & X2) by (pose proof (all_names_spec (c_headers m) n Hl) as A; split; [intros X; apply A; auto|intros k Ek X; apply (X2 k Ek); now apply A]). unfold set_length, set_content_length in Es. set (h := c_headers m) in *.
  assert (forall x, names_of (KLength x) = []) as K0 by reflexivity.
  destruct (c_body m) as [b|]; [|injection Es as _ <-; cbn; split; [intros []|discriminate]].
  destruct (negb _).
  { destruct (content_length_parse_all h); [injection Es as _ <-; cbn; split; [intros []|discriminate]|]. destruct b; injection Es as _ <-; cbn; (split; [intros []|discriminate]). }
  assert (hm_get_all (if is_chunked (hm_get_all h (B "transfer-encoding")) then h else hm_update h (B "transfer-encoding") add_chunked) (B "trailer") = hm_get_all h (B "trailer")) as U.
  { destruct (is_chunked _); [reflexivity|]. clear. induction h as [|[k vs] h IH]; [reflexivity|]. cbn [hm_update]. destruct (beq k (B "transfer-encoding")) eqn:E; cbn [hm_get_all]; [apply beq_eq in E; subst; reflexivity|]. destruct (beq k (B "trailer")); [reflexivity|exact IH]. }
  destruct (hm_contains h _).
  { apply pair_equal_spec in Es as [_ <-]. rewrite with_names, U. auto. }
  destruct (content_length_parse_all h); [injection Es as _ <-; cbn; split; [intros []|discriminate]|]. destruct b as [len|]; [injection Es as _ <-; cbn; split; [intros []|discriminate]|].
  destruct (_ || _); [injection Es as _ <-; cbn; split; [intros []|discriminate]|]. apply pair_equal_spec in Es as [_ <-]. rewrite with_names, hm_get_all_append. auto.
Qed.

(* ... and so for a response *)
Definition allowed (s : es) : list bytes := match s_allowed s with Some l => l | None => [] end.
Lemma value_allowed m w name v s s' : s_value m w name v s = Some s' -> allowed s' = allowed s ++ if beq name TR && can_te m then names_in v else [].
Proof.
  assert (forall t n v, allowed (s_line w t n v) = allowed t /\ allowed (s_open w t n v) = allowed t /\ allowed (s_join w t n v) = allowed t) as L.
  { intros t n0 v0. unfold s_line, s_join, s_open. destruct (write_name w (s_cur t) n0). destruct (s_written t); auto. }
  assert (forall t t' n0 v0, s_allowed t = s_allowed s -> s_allowed t' = s_allowed (s_open w t n0 v0) \/ s_allowed t' = s_allowed (s_line w t n0 v0) -> allowed t' = allowed s) as L2.
  { intros t t' n0 v0 Et D. unfold allowed. destruct D as [-> | ->]; unfold s_open, s_line; destruct (write_name w (s_cur t) n0); cbn [s_allowed]; now rewrite Et. }
  unfold s_value. change (B "content-length") with CL. change (B "transfer-encoding") with TE. change (B "connection") with CO. change (B "trailer") with TR. intros E.
  assert (forall x, beq name x = true -> beq x TR = false -> allowed s = allowed s ++ if beq name TR && can_te m then names_in v else []) as No by (intros x Ex Et; apply beq_eq in Ex; subst x; rewrite Et; symmetry; apply app_nil_r).
  destruct (beq name CL) eqn:E1.
  { rewrite <- (No CL E1 eq_refl). repeat match type of E with Some _ = Some _ => injection E as <- | None = Some _ => discriminate E | (if ?c then _ else _) = _ => destruct c | match ?c with _ => _ end = _ => destruct c end; try reflexivity; first [eapply L2; [|left; reflexivity]; reflexivity|eapply L2; [|right; reflexivity]; reflexivity]. }
  destruct (beq name TE) eqn:E2.
  { rewrite <- (No TE E2 eq_refl). cbv zeta in E. repeat match type of E with Some _ = Some _ => injection E as <- | None = Some _ => discriminate E | (if ?c then _ else _) = _ => destruct c end; try reflexivity; eapply L2; [|left; reflexivity]; reflexivity. }
  destruct (beq name CO) eqn:E3.
  { rewrite <- (No CO E3 eq_refl). cbv zeta in E. injection E as <-. rewrite (proj2 (proj2 (L _ _ _))). destruct (negb (s_last s) && connection_close v); reflexivity. }
  destruct (beq name (B "date")) eqn:E4; [rewrite <- (No _ E4 eq_refl); injection E as <-; eapply L2; [|right; reflexivity]; reflexivity|].
  destruct (beq name TR) eqn:E5; cbn [andb]; [|injection E as <-; rewrite app_nil_r; apply L].
  unfold can_te. destruct (_ || _) eqn:Eo; [injection E as <-; rewrite (can_te_false _ _ Eo); symmetry; apply app_nil_r|]. rewrite (can_te_true _ _ Eo). injection E as <-.
  pose proof (proj2 (proj2 (L s name v))) as J. revert J. generalize (s_join w s name v) as t. intros t J. unfold s_allow, names_in. destruct (to_str v); [|rewrite app_nil_r; exact J]. unfold allowed in *. cbn [s_allowed]. destruct (s_allowed t); rewrite <- J; reflexivity.
Qed.
Lemma values_allowed m w name vs : forall s s', s_values m w name vs s = Some s' -> allowed s' = allowed s ++ if beq name TR && can_te m then flat_map names_in vs else [].
Proof.
  induction vs as [|v vs IH]; intros s s' E; cbn [s_values] in E; [injection E as <-; destruct (_ && _); symmetry; apply app_nil_r|]. destruct (s_value m w name v s) as [s1|] eqn:E1; [|discriminate].
  rewrite (IH _ _ E), (value_allowed _ _ _ _ _ _ E1). destruct (_ && _); cbn [flat_map]; rewrite <- app_assoc; reflexivity.
Qed.
Lemma headers_allowed m w h : NoDup (map fst h) -> forall s s', s_headers m w h s = Some s' -> can_te m = true -> allowed s' = allowed s ++ flat_map names_in (hm_get_all h TR).
Proof.
  induction h as [|[k vs] h IH]; intros Nd s s' E Hc; cbn [s_headers] in E; [injection E as <-; symmetry; apply app_nil_r|]. inversion Nd as [|? ? N1 N2]; subst. destruct (s_values m w k vs _) as [s1|] eqn:E1; [|discriminate].
  rewrite (IH N2 _ _ E Hc), (values_allowed _ _ _ _ _ _ E1), Hc, andb_true_r. change (allowed (s_new_name s)) with (allowed s). cbn [hm_get_all]. destruct (beq k TR) eqn:Eb; [|now rewrite app_nil_r].
  apply beq_eq in Eb. subst k. assert (hm_get_all h TR = []) as ->; [|cbn [flat_map]; now rewrite app_nil_r]. clear - N1. induction h as [|[j ws] h IH]; [reflexivity|]. cbn [hm_get_all]. destruct (beq j TR) eqn:E; [apply beq_eq in E; subst; exfalso; apply N1; now left|]. apply IH. intros Y. apply N1. now right.
Qed.
(* the encoder chosen from the lines has no names of its own yet *)
Definition plain (s : es) : Prop := names_of (ekind (s_enc s)) = [].
Lemma value_plain m w name v s s' : s_value m w name v s = Some s' -> plain s -> plain s'.
Proof.
  assert (forall t n v, s_enc (s_line w t n v) = s_enc t /\ s_enc (s_open w t n v) = s_enc t /\ s_enc (s_join w t n v) = s_enc t) as L.
  { intros t n0 v0. unfold s_line, s_join, s_open. destruct (write_name w (s_cur t) n0). destruct (s_written t); auto. }
  unfold s_value. intros E Hp.
  destruct (beq name (B "content-length")) eqn:E1.
  { repeat match type of E with Some _ = Some _ => injection E as <- | None = Some _ => discriminate E | (if ?c then _ else _) = _ => destruct c | match ?c with _ => _ end = _ => destruct c end; try exact Hp; try reflexivity; unfold plain, s_set_prev, s_set_len in *; cbn [s_enc]; rewrite ?(proj1 (L _ _ _)), ?(proj1 (proj2 (L _ _ _))); first [exact Hp|reflexivity]. }
  destruct (beq name (B "transfer-encoding")) eqn:E2.
  { cbv zeta in E. repeat match type of E with Some _ = Some _ => injection E as <- | None = Some _ => discriminate E | (if ?c then _ else _) = _ => destruct c end; try exact Hp; try reflexivity; unfold plain, s_set_prev, s_set_len in *; cbn [s_enc]; rewrite ?(proj1 (proj2 (L _ _ _))); first [exact Hp|reflexivity]. }
  destruct (beq name (B "connection")) eqn:E3.
  { cbv zeta in E. injection E as <-. unfold plain. rewrite (proj2 (proj2 (L _ _ _))). destruct (negb (s_last s) && connection_close v); exact Hp. }
  destruct (beq name (B "date")) eqn:E4; [injection E as <-; unfold plain; rewrite (proj1 (L _ _ _)); exact Hp|].
  destruct (beq name (B "trailer")) eqn:E5; [|injection E as <-; unfold plain; rewrite (proj1 (L _ _ _)); exact Hp].
  destruct (_ || _); injection E as <-; [exact Hp|]. unfold s_allow, plain. destruct (to_str v); cbn [s_enc]; rewrite (proj2 (proj2 (L _ _ _))); exact Hp.
Qed.
Lemma headers_plain m w h : forall s s', s_headers m w h s = Some s' -> plain s -> plain s'.
Proof.
  assert (forall name vs s s', s_values m w name vs s = Some s' -> plain s -> plain s') as V.
  { intros name vs. induction vs as [|v vs IH]; intros s s' E Hp; cbn [s_values] in E; [now injection E as <-|]. destruct (s_value m w name v s) as [s1|] eqn:E1; [|discriminate]. eapply IH; [exact E|]. eapply value_plain; eassumption. }
  induction h as [|[k vs] h IH]; intros s s' E Hp; cbn [s_headers] in E; [now injection E as <-|]. destruct (s_values m w k vs _) as [s1|] eqn:E1; [|discriminate]. eapply IH; [exact E|]. eapply V; [exact E1|exact Hp].
Qed.
Theorem C11_response_announced : forall reason date m out e, smsg_ok m -> value_chars date -> server_encode reason date m = (out, Ok e) ->
  forall n, lenN n <= 65535 -> (In n (names_of (ekind e)) -> announced (m_headers m) n) /\ (forall k, ekind e = KChunked k -> announced (m_headers m) n -> In n (names_of (ekind e))).
Proof.
  intros reason date m out e Hm Hd E n Hl. destruct (server_encode_ok _ _ _ _ _ Hm Hd E) as (lines & last0 & Ho & Hni & _). pose proof (all_names_spec (m_headers m) n Hl) as Sp.
  destruct (ekind e) as [k| |] eqn:Ek; [|cbn; split; [intros []|discriminate]|cbn; split; [intros []|discriminate]].
  assert (can_te m = true) as Hc.
  { pose proof (ho_fr _ _ _ _ _ _ _ Ho) as F. rewrite Ek in F. unfold fields_match in F. pose proof (ho_none _ _ _ _ _ _ _ Ho) as Hn. rewrite Ek in Hn. assert (can_chunked (m_method m) (m_status m) = true) as Hcc by (destruct (can_chunked _ _); [reflexivity|discriminate (Hn eq_refl)]).
    destruct (te_values lines) as [|v [|]], (cl_lines lines) as [|c [|]]; try (destruct F; fail); [destruct (F Hcc) as (X & _); discriminate X|destruct (F Hcc) as (x & X & _); discriminate X|apply F]. }
  assert (exists last len, encode_headers m (sw m) date (head_start reason m) last len = Some (out, e)) as (last & len & Ee) by now apply (encoded reason date m out e).
  unfold encode_headers in Ee. destruct (s_headers m (sw m) _ _) as [s0|] eqn:E0; [|discriminate]. apply Some_inj in Ee. destruct Hm as [[[H0 _] _] _].
  pose proof (headers_allowed m (sw m) _ H0 _ _ E0 Hc) as A. cbn [allowed s_allowed app] in A. unfold s_finish in Ee. cbv zeta in Ee. apply pair_equal_spec in Ee as [_ Ee].
  set (t := s_default_len m (sw m) (s_new_name s0)) in *. set (e1 := if can_have_body (m_method m) (m_status m) then s_enc t else enc_length 0) in *.
  assert (allowed (if negb (s_date t) && m_date_header m then s_line (sw m) t (B "date") date else t) = flat_map names_in (hm_get_all (m_headers m) TR)) as At.
  { assert (forall x nm v, allowed (s_line (sw m) x nm v) = allowed x) as L by (intros x nm v; unfold s_line; destruct (write_name (sw m) (s_cur x) nm); reflexivity).
    assert (allowed t = allowed s0) as T. { unfold t, s_default_len. repeat match goal with |- context [match ?c with _ => _ end] => destruct c end; try reflexivity; try apply L; exact (L (s_new_name s0) _ _). }
    destruct (_ && _); rewrite ?L, T; exact A. }
  unfold allowed in At. set (t2 := if negb (s_date t) && m_date_header m then _ else _) in *. assert (names_of (KChunked k) = flat_map names_in (hm_get_all (m_headers m) TR)) as ->; [|split; [apply Sp|intros; now apply Sp]].
  rewrite <- At, <- Ek, <- Ee. rewrite <- Ee in Ek. unfold set_last in Ek |- *. cbn [ekind] in Ek |- *. unfold enc_is_chunked, into_chunked_with_trailing_fields in *.
  assert (names_of (ekind e1) = []) as Pe.
  { unfold e1. destruct (can_have_body _ _); [|reflexivity]. assert (plain s0) as P0 by (eapply headers_plain; [exact E0|reflexivity]). unfold t, s_default_len. unfold plain in P0.
    assert (forall x nm v, s_enc (s_line (sw m) x nm v) = s_enc x) as L by (intros x nm v; unfold s_line; destruct (write_name (sw m) (s_cur x) nm); reflexivity).
    repeat match goal with |- context [match ?c with _ => _ end] => destruct c end; cbn [s_enc]; rewrite ?L; first [exact P0|reflexivity]. }
  destruct (ekind e1) eqn:E1; [|rewrite E1 in Ek; discriminate|rewrite E1 in Ek; discriminate]. destruct (s_allowed t2); [reflexivity|]. now rewrite E1.
Qed.
(* two names are announced, one of them with odd case; a third member is no name *)
Example C11_request_announced_ex : exists out e,
  client_encode (mkCmsg HTTP11 (B "POST") (B "/") (Some Unknown) [(B "trailer", [B "X-Sum, a b"; B "x-len"])] false None) = Some (out, e) /\ ekind e = KChunked (Some [B "x-sum"; B "x-len"]) /\
  announced [(B "trailer", [B "X-Sum, a b"; B "x-len"])] (B "x-len").
Proof.
  eexists _, _. split; [vm_compute; reflexivity|]. split; [vm_compute; reflexivity|]. apply all_names_spec; [vm_compute; discriminate|]. vm_compute. auto.
Qed.
Example C11_response_announced_ex : exists out e, let m := mkSmsg HTTP11 200 (Some (B "GET")) (Some Unknown) [(B "trailer", [B "X-Sum, a b"; B "x-len"])] true false true None None in
  smsg_ok m /\ server_encode ok_reason ex_date m = (out, Ok e) /\ ekind e = KChunked (Some [B "x-sum"; B "x-len"]).
Proof.
  eexists _, _. cbv zeta. split; [split; [now apply headers_okb_ok|split; discriminate]|]. split; [vm_compute; reflexivity|vm_compute; reflexivity].
Qed.
Print Assumptions C11_request_announced.
Print Assumptions C11_response_announced.
