(* The end of encode_headers and Server::encode. *)
From Verif Require Import Base M_HeaderMap M_Httparse M_Headers M_Encode M_Role M_RoleEncode
  S_Send S_Framing S_Head L_Encode2 L_Headers L_Framing L_RoleEncode.

(* ---- decimal numbers ---- *)
Lemma dec_f_spec fuel : forall n, n < 10 ^ N.of_nat fuel -> fuel <> O ->
  dec_f fuel n <> [] /\ Forall digit (dec_f fuel n) /\ dec_num (dec_f fuel n) = n.
Proof.
  induction fuel as [|f IH]; intros n Hn Hf; [congruence|]. cbn [dec_f].
  destruct (N.ltb_spec n 10).
  - split; [discriminate|]. split; [repeat constructor; lia|]. unfold dec_num. cbn [fold_left]. lia.
  - assert (Hd : n / 10 < 10 ^ N.of_nat f).
    { apply N.div_lt_upper_bound; [lia|]. rewrite <- N.pow_succ_r'. replace (N.succ (N.of_nat f)) with (N.of_nat (S f)) by lia. exact Hn. }
    assert (f <> O). { intros ->. cbn in Hd. assert (1 <= n / 10) by (apply N.div_le_lower_bound; lia). lia. }
    destruct (IH _ Hd H0) as (H1 & H2 & H3). pose proof (N.mod_lt n 10 ltac:(lia)) as Hm. sp.
    + destruct (dec_f f (n / 10)); discriminate.
    + apply Forall_app. split; auto. repeat constructor; lia.
    + unfold dec_num in *. rewrite fold_left_app, H3. cbn [fold_left]. pose proof (N.div_mod n 10 ltac:(lia)). lia.
Qed.
Lemma dec_means n : cl_means (dec n) n.
Proof.
  unfold dec. apply dec_f_spec; [|discriminate].
  replace (N.of_nat (S (N.size_nat n))) with (N.succ (N.size n)).
  - rewrite N.pow_succ_r'. pose proof (N.size_gt n). assert (2 ^ N.size n <= 10 ^ N.size n) by (apply N.pow_le_mono_l; lia).
    pose proof (N.pow_nonzero 10 (N.size n) ltac:(lia)). lia.
  - rewrite Nat2N.inj_succ. f_equal. destruct n as [|p]; [reflexivity|]. cbn. induction p; cbn; auto; rewrite <- Pos.succ_of_nat by lia; f_equal; lia.
Qed.
Lemma digit_value v : Forall digit v -> value_chars v.
Proof. apply Forall_impl. unfold digit. intros; lia. Qed.
Lemma dec_chars n : value_chars (dec n).
Proof. apply digit_value, dec_means. Qed.

(* ---- conditions ---- *)
Lemma can_chunked_spec method status : can_chunked method status = true <-> ~ body_forbidden method status.
Proof.
  unfold can_chunked, body_forbidden, is_success, is_informational, method_is.
  assert (Hm : forall x, (match method with Some y => beq y x | None => false end) = true <-> method = Some x).
  { intros x. destruct method as [y|]; [|split; discriminate]. rewrite beq_eq. split; congruence. }
  destruct (match method with Some y => beq y (B "HEAD") | None => false end) eqn:E1.
  { apply Hm in E1. cbn. split; [discriminate|tauto]. }
  assert (N1 : method <> Some (B "HEAD")) by (intros X; apply Hm in X; congruence).
  destruct (match method with Some y => beq y (B "CONNECT") | None => false end) eqn:E2.
  - apply Hm in E2. cbn [orb andb]. destruct ((200 <=? status) && (status <=? 299)) eqn:E3; cbn [orb].
    { split; [discriminate|]. intros H. exfalso. apply H. right. left. split; [auto|lia]. }
    destruct ((100 <=? status) && (status <=? 199)) eqn:E4.
    { split; [discriminate|]. intros H. exfalso. apply H. right. right. left. lia. }
    destruct (N.eqb_spec status 204); [cbn; split; [discriminate|tauto]|].
    destruct (N.eqb_spec status 304); [cbn; split; [discriminate|tauto]|].
    cbn. split; auto. intros _ [H|[[_ H]|[H|[H|H]]]]; [tauto|lia..].
  - assert (N2 : method <> Some (B "CONNECT")) by (intros X; apply Hm in X; congruence). cbn [orb andb].
    destruct ((100 <=? status) && (status <=? 199)) eqn:E4.
    { split; [discriminate|]. intros H. exfalso. apply H. right. right. left. lia. }
    destruct (N.eqb_spec status 204); [cbn; split; [discriminate|tauto]|].
    destruct (N.eqb_spec status 304); [cbn; split; [discriminate|tauto]|].
    cbn. split; auto. intros _ [H|[[H _]|[H|[H|H]]]]; [tauto|tauto|lia..].
Qed.
(* where a body may follow, a length may be announced *)
Lemma can_chunked_cl method status : can_chunked method status = true -> can_have_implicit_zero_content_length method status = true.
Proof.
  unfold can_have_implicit_zero_content_length, can_have_content_length, can_chunked.
  destruct (method_is method (B "HEAD")), (method_is method (B "CONNECT")), (is_success status), (is_informational status),
    (status =? 204), (status =? 304); cbn; auto.
Qed.
Lemma head_forbidden method status : method_is method (B "HEAD") = true -> can_chunked method status = false.
Proof. unfold can_chunked. intros ->. reflexivity. Qed.

Lemma wf_CL : wf_name CL. Proof. split; [discriminate|repeat constructor]. Qed.
Lemma wf_TE : wf_name TE. Proof. split; [discriminate|repeat constructor]. Qed.
Lemma wf_date : wf_name (B "date"). Proof. split; [discriminate|repeat constructor]. Qed.

(* what the framing fields [tes], [cls] of the finished head say about the encoder *)
Definition fields_match (m : smsg) (tes cls : list bytes) (k : enc_kind) : Prop :=
  match tes, cls with
  | [], [] => can_chunked (m_method m) (m_status m) = true -> k = KCloseDelimited /\ m_version m = HTTP10 /\ m_body m = Some Unknown
  | [v], [] => can_te m = true /\ (exists f, k = KChunked f) /\ (te_text m -> final_chunked [v])
  | [], [v] => can_chunked (m_method m) (m_status m) = true ->
      exists n, k = KLength n /\ (m_body m = Some Unknown \/ known_agrees m -> cl_means v n) /\ n <= u64_max
  | _, _ => False
  end.

Lemma text_chunked0 : text (B "chunked").
Proof. repeat constructor; cbn; lia. Qed.
Lemma chars_chunked0 : value_chars (B "chunked").
Proof. repeat constructor; cbn; lia. Qed.
Lemma chars_zero : value_chars (B "0").
Proof. repeat constructor; cbn; lia. Qed.
Lemma last_chunked : last_member (B "chunked") (B "chunked").
Proof. exists [], [], (B "chunked"), []. split; [reflexivity|]. split; [now left|]. split; [constructor|]. split; [constructor|]. split; [cbn; intuition discriminate|reflexivity]. Qed.

Lemma Some_inj A (x y : A) : Some x = Some y -> x = y.
Proof. congruence. Qed.

Section Finish.
Variable m : smsg.
Variable w : name_writer.
Variable pre : bytes.
Variable last0 len0 : bool.
Hypothesis Hw : writer_ok w.
Hypothesis Hlen0 : len0 = true -> can_chunked (m_method m) (m_status m) = false.
Hypothesis Hbody : forall n, m_body m = Some (Known n) -> n <= u64_max.

Let h := m_headers m.
Hypothesis Hh : headers_ok h.

Lemma ver_eqb_eq a b : ver_eqb a b = true <-> a = b.
Proof. destruct a, b; cbn; split; congruence. Qed.

(* the lines before the default framing and the Date field *)
Lemma headers_lines s : s_headers m w h (mkEs pre (enc_length 0) None false false false None len0 last0 None) = Some s ->
  exists lines, SI m pre last0 len0 [] (s_new_name s) (pairs h) lines [].
Proof.
  intros E. destruct Hh as [[Hd Hne] Hf]. rewrite Forall_forall in Hf.
  assert (I0 : SI m pre last0 len0 [] (mkEs pre (enc_length 0) None false false false None len0 last0 None) [] [] []).
  { constructor; cbn; auto.
    - now rewrite app_nil_r.
    - split; [split; reflexivity|discriminate].
    - discriminate.
    - now rewrite orb_false_r. }
  destruct (s_headers_step m w pre last0 len0 Hw h [] _ _ _ _ s I0) as (k & l & p & I); auto.
  - intros g Hg. specialize (Hf g Hg) as [F1 F2]. split; auto. apply Forall_forall. intros v Hv.
    rewrite Forall_forall in F2. specialize (F2 v Hv). split; auto.
    assert (Hin : In v (hm_get_all h (fst g))).
    { clear -Hd Hg Hv. induction h as [|[k vs] r IH]; [destruct Hg|]. cbn in *. inversion Hd; subst.
      destruct Hg as [<-|Hg]; [cbn in *; now rewrite beq_refl|].
      destruct (beq k (fst g)) eqn:Eb; [|now apply IH]. apply beq_eq in Eb. subst k. exfalso. apply H1. now apply in_map. }
    split.
    + intros Et Ht. unfold te_text in Ht. rewrite Forall_forall in Ht. apply Ht. fold h. now rewrite <- Et.
    + intros Ec Hk n Hb. specialize (Hk n Hb). rewrite Forall_forall in Hk. apply Hk. fold h. now rewrite <- Ec.
  - cbn [app] in I. apply (SI_new_name m pre last0 len0 k s (pairs h) l p []); auto.
    rewrite pvals_pairs by auto. clear -Hf. induction h as [|[k vs] r IH]; [reflexivity|]. cbn.
    destruct (beq k []) eqn:Eb; [|apply IH; intros x Hx; apply Hf; now right].
    apply beq_eq in Eb. subst k. destruct (Hf ([], vs) (or_introl eq_refl)) as [[X _] _]. now contradiction X.
Qed.

Definition joined (lines : list line) (n : bytes) : Prop :=
  match hm_get_all h n with
  | [] => field_values n lines = []
  | vs => n = TR /\ can_te m = false /\ field_values n lines = [] \/
          (n = TR -> can_te m = true) /\ (exists sfx, field_values n lines = [comma_join vs ++ sfx] /\ (sfx = [] \/ sfx = B ", chunked" /\ exists v, In v (hm_get_all h TE) /\ is_chunked_ v = false))
  end.

Record head_ok (out : bytes) (e : encoder) (date : bytes) (lines : list line) : Prop := {
  ho_out : out = pre ++ render_lines lines ++ CRLF;
  ho_wire : Forall wire_line lines;
  ho_fr : fields_match m (te_values lines) (cl_lines lines) (ekind e);
  ho_none : can_chunked (m_method m) (m_status m) = false -> ekind e = KLength 0;
  ho_plain : forall n, special n = false -> n <> B "date" -> field_values n lines = hm_get_all h n;
  ho_date : field_values (B "date") lines =
              match hm_get_all h (B "date") with [] => if m_date_header m then [date] else [] | vs => vs end;
  ho_join : forall n, joinable n -> joined lines n;
  ho_last : is_last e = last0 || existsb connection_close (hm_get_all h CO)
}.

Lemma add_line s name value lines : s_dst s = pre ++ render_lines lines -> cur_ok (s_cur s) -> wf_name name -> value_chars value ->
  let nm := fst (write_name w (s_cur s) name) in
  s_dst (s_line w s name value) = pre ++ render_lines (lines ++ [(nm, value)]) /\ cur_ok (s_cur (s_line w s name value)) /\
  lower nm = name /\ wire_line (nm, value).
Proof.
  intros D C Hn Hv nm. rewrite s_line_eq. cbn [s_dst s_cur]. sp.
  - rewrite D, render_app. unfold render_lines at 3. cbn [flat_map fst snd]. rewrite app_nil_r, <- !app_assoc. reflexivity.
  - now apply open_cur.
  - now apply open_lower.
  - split; [|exact Hv]. unfold wire_name. cbn [fst]. unfold nm. now rewrite open_lower.
Qed.

Lemma fm_te nm lines k : lower nm = TE -> te_values lines = [] -> cl_lines lines = [] -> can_te m = true -> k = KChunked None ->
  fields_match m (te_values (lines ++ [(nm, B "chunked")])) (cl_lines (lines ++ [(nm, B "chunked")])) k.
Proof.
  intros Hn H1 H2 H3 ->. unfold te_values, cl_lines in *. rewrite !fv_snoc. cbn [fst snd]. rewrite Hn, H1, H2.
  change (beq TE (B "transfer-encoding")) with true. change (beq TE (B "content-length")) with false. cbn [app fields_match].
  sp; eauto. intros _. apply final_single. split; [apply text_chunked0|]. apply last_chunked.
Qed.
Lemma fm_cl nm v n lines k : lower nm = CL -> te_values lines = [] -> cl_lines lines = [] -> cl_means v n -> n <= u64_max ->
  (can_chunked (m_method m) (m_status m) = true -> k = KLength n) ->
  fields_match m (te_values (lines ++ [(nm, v)])) (cl_lines (lines ++ [(nm, v)])) k.
Proof.
  intros Hn H1 H2 H3 H4 H5. unfold te_values, cl_lines in *. rewrite !fv_snoc. cbn [fst snd]. rewrite Hn, H1, H2.
  change (beq CL (B "transfer-encoding")) with false. change (beq CL (B "content-length")) with true. cbn [app fields_match].
  intros H. exists n. sp; auto.
Qed.
Lemma zero_max : 0 <= u64_max. Proof. apply N.le_0_l. Qed.

Lemma default_ok s lines : SI m pre last0 len0 [] s (pairs h) lines [] ->
  let s1 := s_default_len m w s in
  exists extra, s_dst s1 = pre ++ render_lines (lines ++ extra) /\ cur_ok (s_cur s1) /\ Forall wire_line extra /\
    (extra = [] \/ exists nm v, extra = [(nm, v)] /\ (lower nm = CL \/ lower nm = TE)) /\
    s_date s1 = s_date s /\ s_last s1 = s_last s /\ s_allowed s1 = s_allowed s /\
    fields_match m (te_values (lines ++ extra)) (cl_lines (lines ++ extra))
      (if can_chunked (m_method m) (m_status m) then ekind (s_enc s1) else KLength 0).
Proof.
  intros I s1. pose proof (si_dst _ _ _ _ _ _ _ _ _ I) as D. pose proof (si_cur _ _ _ _ _ _ _ _ _ I) as C.
  pose proof (si_fr _ _ _ _ _ _ _ _ _ I) as [F _]. cbn [flat_map] in D. rewrite app_nil_r in D, F. unfold s1, s_default_len.
  destruct (s_wrote_len s) eqn:El.
  - exists []. rewrite app_nil_r. sp; auto.
    unfold fields_match. destruct (te_values lines) as [|v [|]], (cl_lines lines) as [|c [|]]; try (destruct F; fail).
    + intros Hc. destruct F as [F _]. rewrite Hlen0 in Hc by auto. discriminate.
    + intros Hc. rewrite Hc. destruct F as (F1 & F2 & F3 & F4). destruct (m_body m) as [[n|]|] eqn:Eb.
      * destruct F4 as [F4 F5]. exists n. sp; auto. intros [X|X]; [discriminate|auto].
      * destruct F4 as (n & F4 & F5 & F6 & _). exists n. auto.
      * destruct F4 as [F4 _]. rewrite head_forbidden in Hc by auto. discriminate.
    + destruct F as (F1 & F2 & F3 & F4 & F5 & F6 & F7). sp; auto.
      unfold can_te in F4. apply andb_prop in F4 as [_ F4]. rewrite F4. eauto.
  - assert (Hf : te_values lines = [] /\ cl_lines lines = []).
    { destruct (te_values lines) as [|v [|]], (cl_lines lines) as [|c [|]]; try (destruct F; fail); auto; destruct F as (_ & F2 & _); congruence. }
    destruct Hf as [Ht Hc].
    assert (Hzero : forall e, exists extra,
       let s1 := s_set_enc (if can_have_implicit_zero_content_length (m_method m) (m_status m) then s_line w s (B "content-length") (B "0") else s) e in
       e = enc_length 0 ->
       s_dst s1 = pre ++ render_lines (lines ++ extra) /\ cur_ok (s_cur s1) /\ Forall wire_line extra /\
       (extra = [] \/ exists nm v, extra = [(nm, v)] /\ (lower nm = CL \/ lower nm = TE)) /\
       s_date s1 = s_date s /\ s_last s1 = s_last s /\ s_allowed s1 = s_allowed s /\
       fields_match m (te_values (lines ++ extra)) (cl_lines (lines ++ extra)) (if can_chunked (m_method m) (m_status m) then ekind (s_enc s1) else KLength 0)).
    { intros e. destruct (can_have_implicit_zero_content_length (m_method m) (m_status m)) eqn:Ez.
      - destruct (add_line s CL (B "0") lines D C wf_CL) as (A1 & A2 & A3 & A4); [apply chars_zero|].
        exists [(fst (write_name w (s_cur s) CL), B "0")]. intros s2 ->. unfold s2. sp; auto.
        + right. eauto.
        + now rewrite s_line_eq.
        + now rewrite s_line_eq.
        + now rewrite s_line_eq.
        + apply (fm_cl _ _ 0); auto using zero_max; [apply (dec_means 0)|]. now intros ->.
      - exists []. intros s2 ->. rewrite app_nil_r. unfold s2. sp; auto. rewrite Ht, Hc. cbn [fields_match].
        intros X. apply can_chunked_cl in X. congruence. }
    destruct (m_body m) as [[n|]|] eqn:Eb.
    + destruct n as [|p]; [destruct (Hzero (enc_length 0)) as [ex X]; exists ex; now apply X|].
      destruct (can_have_content_length (m_method m) (m_status m)) eqn:Ecl; cbn [negb].
      * destruct (add_line s CL (dec (N.pos p)) lines D C wf_CL (dec_chars _)) as (A1 & A2 & A3 & A4).
        exists [(fst (write_name w (s_cur s) CL), dec (N.pos p))]. sp; auto; try (cbn [s_set_enc s_date s_last s_allowed]; now rewrite s_line_eq).
        -- right. eauto.
        -- apply (fm_cl _ _ (N.pos p)); auto; [apply dec_means|]. now intros ->.
      * exists []. rewrite app_nil_r. sp; auto. rewrite Ht, Hc. cbn [fields_match]. intros X. apply can_chunked_cl in X.
        unfold can_have_implicit_zero_content_length in X. rewrite Ecl in X. discriminate.
    + destruct (ver_eqb (m_version m) HTTP10 || negb (can_chunked (m_method m) (m_status m))) eqn:Ec.
      * exists []. rewrite app_nil_r. sp; auto. rewrite Ht, Hc. cbn [fields_match]. intros X. rewrite X in *. cbn [s_set_enc s_enc].
        rewrite orb_false_r in Ec. apply ver_eqb_eq in Ec. auto.
      * destruct (add_line s TE (B "chunked") lines D C wf_TE) as (A1 & A2 & A3 & A4); [apply chars_chunked0|].
        apply can_te_true in Ec. fold (can_te m) in Ec.
        exists [(fst (write_name w (s_cur s) TE), B "chunked")]. sp; auto; try (cbn [s_set_enc s_date s_last s_allowed]; now rewrite s_line_eq).
        -- right. eauto.
        -- apply fm_te; auto. unfold can_te in Ec. apply andb_prop in Ec as [_ ->]. reflexivity.
    + destruct (Hzero (enc_length 0)) as [ex X]. exists ex. now apply X.
Qed.

Lemma fm_kind tes cls k k' : fields_match m tes cls k -> (k' = k \/ exists f g, k = KChunked f /\ k' = KChunked g) -> fields_match m tes cls k'.
Proof.
  intros H [-> |(f & g & -> & ->)]; auto. unfold fields_match in *.
  destruct tes as [|v [|]], cls as [|c [|]]; try (destruct H; fail).
  - intros X. destruct (H X) as [Y _]. discriminate.
  - intros X. destruct (H X) as (n & Y & _). discriminate.
  - destruct H as (H1 & H2 & H3). sp; eauto.
Qed.

Lemma encode_headers_ok date out e : value_chars date ->
  encode_headers m w date pre last0 len0 = Some (out, e) -> exists lines, head_ok out e date lines.
Proof.
  intros Hdate E. unfold encode_headers in E. fold h in E.
  destruct (s_headers m w h _) as [s0|] eqn:E0; [|discriminate]. apply Some_inj in E.
  destruct (headers_lines s0 E0) as (lines & I). remember (s_new_name s0) as s eqn:Es. clear Es E0 s0.
  destruct (default_ok s lines I) as (extra & D1 & D2 & D3 & D4 & D5 & D6 & D7 & D8).
  unfold s_finish in E. remember (s_default_len m w s) as s1 eqn:Es1. cbn zeta in E.
  remember (if negb (s_date s1) && m_date_header m then s_line w s1 (B "date") date else s1) as s2 eqn:Es2.
  unfold can_have_body in E.
  remember (if can_chunked (m_method m) (m_status m) then s_enc s1 else enc_length 0) as e1 eqn:Ee1.
  apply pair_equal_spec in E as [Eout Ee].
  assert (X : exists dl, s_dst s2 = pre ++ render_lines ((lines ++ extra) ++ dl) /\ s_last s2 = s_last s1 /\ s_allowed s2 = s_allowed s1 /\ Forall wire_line dl /\
     (negb (s_date s1) && m_date_header m = false /\ dl = [] \/
      negb (s_date s1) && m_date_header m = true /\ exists nm, dl = [(nm, date)] /\ lower nm = B "date")).
  { subst s2. destruct (negb (s_date s1) && m_date_header m).
    - destruct (add_line s1 (B "date") date _ D1 D2 wf_date Hdate) as (A1 & A2 & A3 & A4). eexists. split; [exact A1|].
      rewrite s_line_eq. sp; auto. right. split; auto. eexists. split; [reflexivity|exact A3].
    - exists []. rewrite app_nil_r. sp; auto. }
  destruct X as (dl & X1 & X2 & X3 & X4 & X5).
  assert (Hdl : forall n, n <> B "date" -> field_values n dl = []).
  { intros n Hn. destruct X5 as [[_ ->]|(_ & nm & -> & El)]; [reflexivity|]. rewrite fv_cons. cbn [fst snd]. rewrite El.
    assert (beq (B "date") n = false) as -> by (apply beq_false_ne; congruence). reflexivity. }
  assert (Hex : forall n, beq CL n = false -> beq TE n = false -> field_values n extra = []).
  { intros n H1 H2. destruct D4 as [-> |(nm & v & -> & El)]; [reflexivity|]. rewrite fv_cons. cbn [fst snd].
    destruct El as [-> | ->]; [rewrite H1|rewrite H2]; reflexivity. }
  assert (Hte : te_values ((lines ++ extra) ++ dl) = te_values (lines ++ extra)).
  { unfold te_values. rewrite fv_app, (Hdl (B "transfer-encoding")) by discriminate. now rewrite app_nil_r. }
  assert (Hcl : cl_lines ((lines ++ extra) ++ dl) = cl_lines (lines ++ extra)).
  { unfold cl_lines. rewrite fv_app, (Hdl (B "content-length")) by discriminate. now rewrite app_nil_r. }
  assert (Hnd : NoDup (map fst h)) by apply Hh.
  pose proof (si_wire _ _ _ _ _ _ _ _ _ I) as W. rewrite app_nil_r in W.
  assert (Hk : ekind e = ekind e1 \/ exists f g, ekind e1 = KChunked f /\ ekind e = KChunked g).
  { subst e. unfold set_last. cbn [ekind]. unfold enc_is_chunked, into_chunked_with_trailing_fields.
    destruct (ekind e1) eqn:Ek; auto. destruct (s_allowed s2); [|auto]. right. eexists; eexists. cbn. split; reflexivity. }
  assert (Hk1 : ekind e1 = if can_chunked (m_method m) (m_status m) then ekind (s_enc s1) else KLength 0)
    by (subst e1; destruct (can_chunked _ _); reflexivity).
  exists ((lines ++ extra) ++ dl). constructor.
  - rewrite <- Eout, X1, <- !app_assoc. reflexivity.
  - rewrite !Forall_app. auto.
  - rewrite Hte, Hcl. rewrite <- Hk1 in D8. eapply fm_kind; [exact D8|]. exact Hk.
  - intros Hc. rewrite Hc in Hk1. destruct Hk as [-> |(f & g & Y & _)]; [exact Hk1|congruence].
  - intros n Hs Hn. destruct (special_false n Hs) as (S1 & S2 & _). rewrite !fv_app, Hdl, Hex by auto. rewrite !app_nil_r.
    pose proof (si_plain _ _ _ _ _ _ _ _ _ I n Hs) as Hp. rewrite app_nil_r, pvals_pairs in Hp by auto. exact Hp.
  - rewrite !fv_app, Hex by reflexivity. rewrite app_nil_r.
    pose proof (si_plain _ _ _ _ _ _ _ _ _ I (B "date") eq_refl) as Hp. rewrite app_nil_r, pvals_pairs in Hp by auto. rewrite Hp.
    rewrite D5, (si_date _ _ _ _ _ _ _ _ _ I), pvals_pairs in X5 by auto.
    destruct (hm_get_all h (B "date")) as [|x xs]; cbn [nonempty negb andb] in X5.
    + destruct X5 as [[Y ->]|(Y & nm & -> & El)].
      * rewrite Y. reflexivity.
      * rewrite Y. rewrite fv_cons. cbn [fst snd]. rewrite El. reflexivity.
    + destruct X5 as [[_ ->]|[Y _]]; [|discriminate]. rewrite app_nil_r. reflexivity.
  - intros n Hj. assert (Hn : n <> B "date" /\ beq CL n = false /\ beq TE n = false) by (destruct Hj as [-> | ->]; sp; try reflexivity; discriminate).
    destruct Hn as (N1 & N2 & N3). pose proof (si_join _ _ _ _ _ _ _ _ _ I n Hj) as J. rewrite app_nil_r, pvals_pairs in J by auto.
    unfold joined. rewrite !fv_app, Hdl, Hex by auto. rewrite !app_nil_r. destruct (hm_get_all h n); auto.
    destruct J as [J|(J0 & sfx & J1 & J2 & _)]; [now left|]. right. split; auto. exists sfx. split; auto.
    destruct J2 as [J2|[J2 J2']]; [now left|right]. split; auto. unfold bad_te in J2'. now rewrite pvals_pairs in J2'.
  - subst e. unfold set_last. cbn [is_last]. rewrite X2, D6, (si_last _ _ _ _ _ _ _ _ _ I), pvals_pairs by auto. reflexivity.
Qed.
End Finish.
