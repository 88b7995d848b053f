(* Client::encode: set_length and the header writers. *)
From Verif Require Import Base M_HeaderMap M_Httparse M_Headers M_Encode M_Role M_RoleEncode
  S_Send S_Framing S_Head L_Encode L_Encode2 L_Headers L_Framing L_RoleEncode L_RoleEncode2 L_Wire.

(* ---- HeaderMap operations keep maps well-formed ---- *)
Definition group_ok (g : bytes * list bytes) : Prop := wf_name (fst g) /\ Forall value_chars (snd g).
Lemma ok_append h n v : headers_ok h -> wf_name n -> value_chars v -> headers_ok (hm_append h n v).
Proof.
  intros [H1 H2] Hn Hv. split; [now apply hm_append_wf|]. clear H1.
  induction H2 as [|[k vs] h H H2 IH]; cbn [hm_append]; [repeat constructor; auto; apply Hn|].
  destruct (beq k n); constructor; auto. destruct H as [A1 A2]. split; auto. cbn [snd] in *. apply Forall_app. auto.
Qed.
Lemma insert_names h n v : map fst (hm_insert h n v) = map fst (hm_append h n v).
Proof. induction h as [|[k vs] h IH]; cbn; auto. destruct (beq k n); cbn; congruence. Qed.
Lemma ok_insert h n v : headers_ok h -> wf_name n -> value_chars v -> headers_ok (hm_insert h n v).
Proof.
  intros [H1 H2] Hn Hv. split; [split|].
  - rewrite insert_names. now apply hm_append_wf.
  - destruct H1 as [_ H1]. clear H2. induction H1 as [|[k vs] h H H1 IH]; cbn; [repeat constructor; discriminate|].
    destruct (beq k n); constructor; auto. discriminate.
  - clear H1. induction H2 as [|[k vs] h H H2 IH]; cbn [hm_insert]; [repeat constructor; auto; apply Hn|].
    destruct (beq k n); constructor; auto. destruct H as [A1 A2]. split; auto. cbn. auto.
Qed.
Lemma ok_remove h n : headers_ok h -> headers_ok (hm_remove h n).
Proof.
  intros [[H0 H1] H2]. unfold hm_remove. split; [split|].
  - clear H1 H2. induction h as [|[k vs] h IH]; cbn; [constructor|]. cbn in H0. inversion H0 as [|? ? X1 X2]; subst.
    destruct (negb (beq k n)); cbn; auto. constructor; auto. intros X. apply X1. apply in_map_iff in X as (g & E & X). apply filter_In in X as [X _].
    rewrite <- E. now apply in_map.
  - apply Forall_forall. intros g Hg. apply filter_In in Hg as [Hg _]. rewrite Forall_forall in H1. auto.
  - apply Forall_forall. intros g Hg. apply filter_In in Hg as [Hg _]. rewrite Forall_forall in H2. auto.
Qed.
Lemma update_names h n f : map fst (hm_update h n f) = map fst h.
Proof. induction h as [|[k vs] h IH]; cbn; auto. destruct (beq k n); cbn; congruence. Qed.
Lemma hm_get_all_update h n f k : hm_contains h n = true ->
  hm_get_all (hm_update h n f) k = if beq n k then f (hm_get_all h k) else hm_get_all h k.
Proof.
  induction h as [|[j vs] h IH]; [discriminate|]. cbn. destruct (beq j n) eqn:E; cbn.
  - intros _. apply beq_eq in E. subst. destruct (beq n k) eqn:Ek; auto.
  - intros H. rewrite IH by auto. destruct (beq j k) eqn:Ej; auto. apply beq_eq in Ej. subst. now rewrite beq_sym, E.
Qed.
Lemma ok_update h n f : headers_ok h -> (forall vs, vs <> [] -> f vs <> []) -> (forall vs, vs <> [] -> Forall value_chars vs -> Forall value_chars (f vs)) ->
  headers_ok (hm_update h n f).
Proof.
  intros [[H0 H1] H2] Hf Hv. split; [split|].
  - now rewrite update_names.
  - clear H0 H2. induction H1 as [|[k vs] h H H1 IH]; cbn; [constructor|]. destruct (beq k n); constructor; auto. now apply Hf.
  - clear H0. induction H1 as [|[k vs] h H H1 IH]; cbn; [constructor|]. inversion H2 as [|? ? X1 X2]; subst. destruct (beq k n); constructor; auto.
    destruct X1 as [A1 A2]. split; auto. now apply Hv.
Qed.
Lemma add_chunked_snoc vs v : add_chunked (vs ++ [v]) = vs ++ [v ++ B ", chunked"].
Proof.
  induction vs as [|x vs IH]; [reflexivity|]. cbn [app add_chunked]. rewrite IH. destruct (vs ++ [v]) eqn:E; auto. destruct vs; discriminate.
Qed.
Lemma add_chunked_final vs : Forall text vs -> vs <> [] -> final_chunked (add_chunked vs).
Proof.
  intros Ht Hne. destruct vs as [|v vs _] using rev_ind; [congruence|]. rewrite add_chunked_snoc. apply Forall_app in Ht as [_ Ht]. apply Forall_inv in Ht.
  destruct (final_add v Ht) as (i & x & E & X). exists vs, (v ++ B ", chunked"). split; auto.
  destruct i as [|? i]; [|destruct i; discriminate]. inversion E; subst x. exact X.
Qed.
Lemma ok_add_chunked h n : headers_ok h -> headers_ok (hm_update h n add_chunked).
Proof.
  intros H. apply ok_update; auto.
  - intros vs Hv. destruct vs as [|v vs _] using rev_ind; [congruence|]. rewrite add_chunked_snoc. destruct vs; discriminate.
  - intros vs Hv Hf. destruct vs as [|v vs _] using rev_ind; [congruence|]. rewrite add_chunked_snoc. apply Forall_app in Hf as [F1 F2]. apply Forall_inv in F2.
    apply Forall_app. split; auto. repeat constructor. apply value_chars_app; auto. apply value_chars_chunked.
Qed.

Lemma get_chars h n : headers_ok h -> Forall value_chars (hm_get_all h n).
Proof.
  intros [_ H]. induction H as [|[k vs] h [_ H] Hh IH]; cbn; [constructor|]. destruct (beq k n); auto.
Qed.
Lemma contains_get h n : headers_ok h -> hm_contains h n = nonempty (hm_get_all h n).
Proof. intros [H _]. eapply hm_contains_fv; eauto. Qed.

(* ---- set_length ---- *)
Definition cl_ok (vs : list bytes) : Prop := vs = [] \/ exists n, cl_list_means vs n /\ n <= u64_max.
Lemma cl_ok_parse h : cl_ok (hm_get_all h CL) ->
  (hm_get_all h CL = [] /\ content_length_parse_all h = None) \/
  (exists n, content_length_parse_all h = Some n /\ cl_list_means (hm_get_all h CL) n).
Proof.
  intros [E|(n & H1 & H2)]; unfold content_length_parse_all; change (B "content-length") with CL.
  - left. now rewrite E.
  - right. exists n. split; auto. apply cl_all_spec. auto.
Qed.
Lemma kind_trailers h e : ekind e = KChunked None -> kind_framing (ekind (with_trailer_names h e)) = FChunked.
Proof.
  intros E. unfold with_trailer_names, enc_is_chunked, into_chunked_with_trailing_fields. rewrite E. destruct (trailer_names h); [now rewrite E|reflexivity].
Qed.
Lemma is_chunked_nonempty vs : is_chunked vs = true -> vs <> [].
Proof. destruct vs; [discriminate|congruence]. Qed.

Lemma set_length_spec ver method h body h' e : headers_ok h ->
  set_length ver method h body = (h', e) ->
  Forall text (hm_get_all h TE) -> cl_ok (hm_get_all h CL) ->
  (body = None -> hm_get_all h CL = [] \/ cl_list_means (hm_get_all h CL) 0) ->
  announces (hm_get_all h' TE) (hm_get_all h' CL) (kind_framing (ekind e)).
Proof.
  intros Hh E Ht Hc Hn. unfold set_length in E.
  change (B "transfer-encoding") with TE in E. change (B "content-length") with CL in E.
  destruct body as [body|].
  2:{ inversion E; subst. cbn [kind_framing enc_length ekind announces]. rewrite !hm_get_all_remove, beq_refl.
      change (beq TE CL) with false. cbn iota. split; auto. destruct (Hn eq_refl); auto. }
  destruct (negb (ver_eqb ver HTTP11)).
  { destruct (cl_ok_parse h Hc) as [[E0 ->]|(n & -> & Hm)] in E.
    - destruct body as [len|].
      + unfold set_content_length in E. inversion E; subst. cbn [kind_framing enc_length ekind announces].
        rewrite !hm_get_all_insert, !hm_get_all_remove, beq_refl. change (beq (B "content-length") TE) with false.
        change (beq (B "content-length") CL) with true. cbn iota. split; auto. left. apply cl_list_single, dec_means.
      + inversion E; subst. cbn [kind_framing enc_length ekind announces]. rewrite !hm_get_all_remove, beq_refl. change (beq TE CL) with false. auto.
    - inversion E; subst. cbn [kind_framing enc_length ekind announces]. rewrite !hm_get_all_remove, beq_refl. change (beq TE CL) with false. auto. }
  rewrite (contains_get h TE Hh) in E. destruct (nonempty (hm_get_all h TE)) eqn:En.
  - (* Transfer-Encoding present *)
    remember (if is_chunked (hm_get_all h TE) then h else hm_update h TE add_chunked) as h1 eqn:Eh1.
    assert (F1 : final_chunked (hm_get_all h1 TE)).
    { subst h1. destruct (is_chunked (hm_get_all h TE)) eqn:Ei; [now apply is_chunked_spec|].
      rewrite hm_get_all_update, beq_refl by (now rewrite contains_get). apply add_chunked_final; auto.
      destruct (hm_get_all h TE); [discriminate|congruence]. }
    assert (F2 : hm_get_all h1 CL = hm_get_all h CL).
    { subst h1. destruct (is_chunked (hm_get_all h TE)) eqn:Ei; auto. rewrite hm_get_all_update by (now rewrite contains_get). reflexivity. }
    apply pair_equal_spec in E as [E1 E2]. subst e. rewrite kind_trailers by reflexivity. cbn [announces].
    destruct (cl_ok_parse h Hc) as [[E0 Ep]|(n & Ep & Hm)]; rewrite Ep in E1; subst h'.
    + split; auto. now rewrite F2.
    + rewrite !hm_get_all_remove, beq_refl. change (beq CL TE) with false. auto.
  - assert (E0 : hm_get_all h TE = []) by (destruct (hm_get_all h TE); [reflexivity|discriminate]).
    destruct (cl_ok_parse h Hc) as [[E1 ->]|(n & -> & Hm)] in E.
    + destruct body as [len|].
      * unfold set_content_length in E. inversion E; subst. cbn [kind_framing enc_length ekind announces].
        rewrite !hm_get_all_insert. change (beq (B "content-length") TE) with false.
        change (beq (B "content-length") CL) with true. cbn iota. split; auto. left. apply cl_list_single, dec_means.
      * destruct (beq method (B "GET") || beq method (B "HEAD") || beq method (B "CONNECT")).
        -- inversion E; subst. cbn [kind_framing enc_length ekind announces]. auto.
        -- apply pair_equal_spec in E as [<- <-]. rewrite kind_trailers by reflexivity. cbn [announces].
           rewrite !hm_get_all_append, beq_refl, E0. change (beq TE CL) with false. cbn iota. split; auto.
           apply final_single. split; [apply text_chunked0|apply last_chunked].
    + inversion E; subst. cbn [kind_framing enc_length ekind announces]. auto.
Qed.

Lemma set_length_ok ver method h body h' e : headers_ok h -> set_length ver method h body = (h', e) ->
  headers_ok h' /\ (forall n, n <> CL -> n <> TE -> hm_get_all h' n = hm_get_all h n) /\
  (ver <> HTTP11 -> body = None \/ hm_get_all h' TE = []).
Proof.
  intros Hh E. unfold set_length in E. change (B "transfer-encoding") with TE in E. change (B "content-length") with CL in E.
  assert (Hcl : forall x, headers_ok x -> headers_ok (hm_remove x CL) /\ (forall n, n <> CL -> hm_get_all (hm_remove x CL) n = hm_get_all x n)).
  { intros x Hx. split; [now apply ok_remove|]. intros n Hn. rewrite hm_get_all_remove. assert (beq CL n = false) as -> by (apply beq_false_ne; congruence). reflexivity. }
  assert (Hte : forall x, headers_ok x -> headers_ok (hm_remove x TE) /\ (forall n, n <> TE -> hm_get_all (hm_remove x TE) n = hm_get_all x n)).
  { intros x Hx. split; [now apply ok_remove|]. intros n Hn. rewrite hm_get_all_remove. assert (beq TE n = false) as -> by (apply beq_false_ne; congruence). reflexivity. }
  assert (Hins : forall x len, headers_ok x -> headers_ok (hm_insert x CL (dec len)) /\ (forall n, n <> CL -> hm_get_all (hm_insert x CL (dec len)) n = hm_get_all x n)).
  { intros x len Hx. split; [apply ok_insert; auto using wf_CL, dec_chars|]. intros n Hn. rewrite hm_get_all_insert. assert (beq CL n = false) as -> by (apply beq_false_ne; congruence). reflexivity. }
  destruct body as [body|].
  2:{ inversion E; subst. destruct (Hte h Hh) as [A1 A2]. sp; auto. }
  destruct (ver_eqb ver HTTP11) eqn:Ev.
  - apply ver_eqb_eq in Ev. cbn [negb] in E. 
    assert (X : headers_ok h' /\ (forall n, n <> CL -> n <> TE -> hm_get_all h' n = hm_get_all h n)); [|destruct X; sp; auto; congruence].
    destruct (hm_contains h TE) eqn:Ec.
    + remember (if is_chunked (hm_get_all h TE) then h else hm_update h TE add_chunked) as h1 eqn:Eh1.
      assert (X : headers_ok h1 /\ (forall n, n <> CL -> n <> TE -> hm_get_all h1 n = hm_get_all h n)).
      { subst h1. destruct (is_chunked (hm_get_all h TE)) eqn:Ei; [auto|]. split; [now apply ok_add_chunked|]. intros n _ Hn.
        rewrite hm_get_all_update by auto. assert (beq TE n = false) as -> by (apply beq_false_ne; congruence). reflexivity. }
      destruct X as [X1 X2]. apply pair_equal_spec in E as [E1 E2]. subst h'.
      destruct (content_length_parse_all h); [|auto]. destruct (Hcl h1 X1) as [A1 A2]. split; auto. intros j N1 N2. rewrite A2; auto.
    + destruct (content_length_parse_all h); [inversion E; subst; auto|]. destruct body as [len|].
      * unfold set_content_length in E. inversion E; subst. destruct (Hins h len Hh). auto.
      * destruct (beq method (B "GET") || beq method (B "HEAD") || beq method (B "CONNECT")); [inversion E; subst; auto|].
        apply pair_equal_spec in E as [<- _]. split; [apply ok_append; auto using wf_TE, chars_chunked0|]. intros n _ Hn.
        rewrite hm_get_all_append. assert (beq TE n = false) as -> by (apply beq_false_ne; congruence). reflexivity.
  - cbn [negb] in E. destruct (Hte h Hh) as [A1 A2].
    assert (Hr : hm_get_all (hm_remove h TE) TE = []) by now rewrite hm_get_all_remove, beq_refl.
    destruct (content_length_parse_all h); [inversion E; subst; sp; auto|]. destruct body as [len|].
    + unfold set_content_length in E. inversion E; subst. destruct (Hins _ len A1) as [B1 B2]. sp; auto.
      * intros n N1 N2. change (B "content-length") with CL. rewrite B2; auto.
      * intros _. right. change (B "content-length") with CL. rewrite B2; auto. discriminate.
    + inversion E; subst. sp; auto.
Qed.

(* ---- the written section ---- *)
Fixpoint zip_names (title : bool) (name : bytes) (names vs : list bytes) : list line :=
  match vs with
  | [] => []
  | v :: r => (match names with o :: _ => o | [] => if title then title_case name else name end, v)
              :: zip_names title name (match names with _ :: t => t | [] => [] end) r
  end.
Definition client_lines_of (title : bool) (case : option hmap) (h : hmap) : list line :=
  flat_map (fun g => zip_names title (fst g) (match case with Some c => hm_get_all c (fst g) | None => [] end) (snd g)) h.

Lemma zip_none title name vs : zip_names title name [] vs = map (fun v => (if title then title_case name else name, v)) vs.
Proof. induction vs as [|v vs IH]; cbn; [reflexivity|]. now rewrite IH. Qed.

Lemma section_none title h : write_headers title h = flat_map (render_line false) (client_lines_of title None h).
Proof.
  unfold write_headers, client_lines_of, hm_iter.
  induction h as [|[k vs] h IH]; [reflexivity|]. cbn [flat_map]. rewrite !flat_map_app, IH. f_equal. cbn [fst snd].
  rewrite zip_none. clear IH. induction vs as [|v vs IH]; [reflexivity|]. cbn [map flat_map]. rewrite IH. f_equal.
  unfold render_line. cbn [fst snd]. destruct v; reflexivity.
Qed.
Lemma section_orig title h c : write_headers_original_case h c title = flat_map (render_line true) (client_lines_of title (Some c) h).
Proof.
  unfold write_headers_original_case, client_lines_of. induction h as [|[k vs] h IH]; [reflexivity|]. cbn [flat_map]. rewrite flat_map_app, IH. f_equal.
  cbn [fst snd]. generalize (hm_get_all c k). clear IH. induction vs as [|v vs IH]; intros names; [reflexivity|]. cbn [write_group_orig zip_names flat_map].
  rewrite <- IH. unfold render_line at 1. cbn [fst snd]. rewrite !app_assoc. f_equal. rewrite <- !app_assoc. f_equal. destruct v; reflexivity.
Qed.

Lemma zip_ok title name vs : forall names, wf_name name -> Forall (fun o => lower o = name) names -> Forall value_chars vs ->
  Forall (fun l => wire_line l /\ lower (fst l) = name) (zip_names title name names vs) /\ map snd (zip_names title name names vs) = vs.
Proof.
  induction vs as [|v vs IH]; intros names Hn Hc Hv; [split; [constructor|reflexivity]|].
  cbn [zip_names map]. inversion Hv; subst.
  assert (X : lower (match names with o :: _ => o | [] => if title then title_case name else name end) = name).
  { destruct names; [destruct title; [now apply title_lower|now apply wf_name_lower]|]. now inversion Hc. }
  destruct (IH (match names with _ :: t => t | [] => [] end)) as [I1 I2]; auto.
  { destruct names; [constructor|]. now inversion Hc. }
  split; [|cbn [snd]; congruence]. constructor; auto. cbn [fst]. split; auto. split; auto. cbn [fst]. unfold wire_name. now rewrite X.
Qed.
Lemma case_get c n : case_ok c -> Forall (fun o => lower o = n) (hm_get_all c n).
Proof.
  induction 1 as [|[k vs] c H Hc IH]; cbn; [constructor|]. destruct (beq k n) eqn:E; auto. apply beq_eq in E. subst. exact H.
Qed.

Lemma fv_same k n l : Forall (fun x : line => lower (fst x) = k) l -> field_values n l = if beq k n then map snd l else [].
Proof.
  induction 1 as [|x l H Hl IH]; [now destruct (beq k n)|]. rewrite fv_cons, IH, H. destruct (beq k n); reflexivity.
Qed.
Lemma client_lines_ok title case h : headers_ok h -> (forall c, case = Some c -> case_ok c) ->
  Forall wire_line (client_lines_of title case h) /\ forall n, field_values n (client_lines_of title case h) = hm_get_all h n.
Proof.
  intros [[H0 H1] H2] Hc.
  assert (Hcase : forall n, Forall (fun o => lower o = n) (match case with Some c => hm_get_all c n | None => [] end)).
  { intros n. destruct case; [apply case_get; auto|constructor]. }
  unfold client_lines_of. induction H2 as [|[k vs] h [G1 G2] H2 IH]; [split; [constructor|reflexivity]|].
  cbn [fst snd] in *. inversion H0 as [|? ? X1 X2]; subst. inversion H1; subst. destruct IH as [I1 I2]; auto.
  destruct (zip_ok title k vs _ G1 (Hcase k) G2) as [Z1 Z2]. cbn [flat_map fst snd]. split.
  - apply Forall_app. split; auto. eapply Forall_impl; [|exact Z1]. intros a [? ?]; auto.
  - intros n. rewrite fv_app, I2. cbn [hm_get_all].
    assert (F : field_values n (zip_names title k (match case with Some c => hm_get_all c k | None => [] end) vs) = if beq k n then vs else []).
    { rewrite (fv_same k) by (eapply Forall_impl; [|exact Z1]; intros a [? ?]; auto). now rewrite Z2. }
    rewrite F. destruct (beq k n) eqn:E; [|reflexivity]. apply beq_eq in E. subst.
    assert (hm_get_all h n = []) as ->; [|apply app_nil_r]. clear - X1. induction h as [|[j ws] h IH]; [reflexivity|].
    cbn. destruct (beq j n) eqn:E; [apply beq_eq in E; subst; exfalso; apply X1; now left|]. apply IH. intros Y. apply X1. now right.
Qed.

(* ---- what a reader gets ---- *)
Lemma render_raw tight l : render_line tight l = fst l ++ 58 :: (match snd l with [] => if tight then [] else [32] | v => 32 :: v end) ++ CRLF.
Proof. unfold render_line. destruct (snd l); [destruct tight|]; reflexivity. Qed.
Lemma parse_lines tight l tail count : Forall wire_line l -> lenN l <= count ->
  parse_block (flat_map (render_line tight) l ++ CRLF ++ tail) count = Some (map seen l).
Proof.
  intros H Hc. pose proof (parse_raw (map (fun x => (fst x, match snd x with [] => if tight then [] else [32] | v => 32 :: v end)) l) tail count) as P.
  unfold raw_lines in P. rewrite flat_map_concat_map, map_map in P. cbn [fst snd] in P.
  rewrite (flat_map_concat_map (render_line tight)), (map_ext _ _ (render_raw tight)). etransitivity; [apply P| ].
  - rewrite Forall_map. eapply Forall_impl; [|exact H]. intros x [X1 X2]. cbn [fst snd]. split; auto.
    assert (Y : value_chars (32 :: snd x)) by (constructor; [lia|auto]). destruct (snd x); [destruct tight; [constructor|exact Y]|exact Y].
  - unfold lenN in *. now rewrite map_length.
  - rewrite map_map. apply (f_equal (@Some (list line))). apply map_ext. intros x. unfold seen. cbn [fst snd]. destruct (snd x); [destruct tight|]; reflexivity.
Qed.

Lemma client_encode_ok m out e : headers_ok (c_headers m) -> (forall c, c_case m = Some c -> case_ok c) ->
  client_encode m = Some (out, e) ->
  exists h' tight lines, set_length (c_version m) (c_method m) (c_headers m) (c_body m) = (h', e) /\ headers_ok h' /\
    out = request_line (ver_eqb (c_version m) HTTP10) (c_method m) (c_target m) ++ flat_map (render_line tight) lines ++ CRLF /\
    Forall wire_line lines /\ (forall n, field_values n lines = hm_get_all h' n) /\
    (c_version m = HTTP10 \/ c_version m = HTTP11 \/ c_version m = HTTP2).
Proof.
  intros Hh Hc E. unfold client_encode in E. destruct (set_length _ _ _ _) as [h' e'] eqn:Es.
  destruct (set_length_ok _ _ _ _ _ _ Hh Es) as (Ok & _).
  destruct (client_lines_ok (c_title_case m) (c_case m) h' Ok Hc) as [W F].
  exists h', (match c_case m with Some _ => true | None => false end), (client_lines_of (c_title_case m) (c_case m) h').
  unfold request_line. destruct (c_version m); try discriminate; apply Some_inj, pair_equal_spec in E as [<- <-]; sp; auto;
    rewrite <- !app_assoc; repeat f_equal; destruct (c_case m); auto using section_orig, section_none.
Qed.

Lemma set_length_cls ver method h body h' e v : headers_ok h -> set_length ver method h body = (h', e) ->
  In v (hm_get_all h' CL) -> In v (hm_get_all h CL) \/ exists len, v = dec len.
Proof.
  intros Hh E. unfold set_length in E. change (B "transfer-encoding") with TE in E. change (B "content-length") with CL in E.
  assert (Hr : hm_get_all (hm_remove h TE) CL = hm_get_all h CL) by (rewrite hm_get_all_remove; reflexivity).
  destruct body as [body|]; [|inversion E; subst; rewrite Hr; auto].
  unfold set_content_length in E. change (B "content-length") with CL in E.
  destruct (negb (ver_eqb ver HTTP11)).
  - destruct (content_length_parse_all h); [inversion E; subst; rewrite Hr; auto|]. destruct body as [len|]; inversion E; subst.
    + rewrite hm_get_all_insert, beq_refl. intros [X|[]]; eauto.
    + rewrite Hr. auto.
  - destruct (hm_contains h TE) eqn:Ec.
    + apply pair_equal_spec in E as [E1 _].
      assert (X : hm_get_all (if is_chunked (hm_get_all h TE) then h else hm_update h TE add_chunked) CL = hm_get_all h CL).
      { destruct (is_chunked _); auto. rewrite hm_get_all_update by auto. reflexivity. }
      destruct (content_length_parse_all h); subst h'.
      * rewrite hm_get_all_remove, beq_refl. intros [].
      * rewrite X. auto.
    + destruct (content_length_parse_all h); [inversion E; subst; auto|]. destruct body as [len|].
      * inversion E; subst. rewrite hm_get_all_insert, beq_refl. intros [X|[]]; eauto.
      * destruct (beq method _ || _ || _); apply pair_equal_spec in E as [<- _]; auto. rewrite hm_get_all_append. auto.
Qed.

Lemma digits_no_blank v a d b : Forall digit v -> v = a ++ d ++ b -> blanks a -> blanks b -> v = d.
Proof.
  intros H E Ha Hb. rewrite E, !Forall_app in H. destruct H as (H1 & _ & H2).
  assert (N : forall x, Forall digit x -> blanks x -> x = []).
  { intros [|c x] X Y; auto. inversion X; inversion Y; subst. unfold digit in *. lia. }
  rewrite (N a), (N b) in E by auto. now rewrite app_nil_r in E.
Qed.
Lemma cl_list_single_inv cls n v k : cl_list_means cls n -> In v cls -> cl_means v k -> cl_means v n.
Proof.
  intros (_ & _ & H) Hin (H1 & H2 & H3). destruct (H v [] v [] Hin) as (w1 & d & w2 & E & B1 & B2 & Hd); auto.
  - now rewrite app_nil_r.
  - intros X. rewrite Forall_forall in H2. apply H2 in X. unfold digit in X. lia.
  - now rewrite (digits_no_blank v w1 d w2).
Qed.
Lemma final_snoc i v : final_chunked (i ++ [v]) <-> final_chunked [v].
Proof.
  rewrite final_single. split.
  - intros (j & x & E & H). apply app_inj_tail in E as [_ ->]. exact H.
  - intros H. exists i, v. auto.
Qed.
Lemma final_map_tb vs : final_chunked vs -> final_chunked (map tb vs).
Proof.
  intros (i & v & E & H). subst. rewrite map_app. cbn [map]. apply final_snoc, final_tb. apply final_single. exact H.
Qed.
Lemma announces_tb tes cls f : announces tes cls f -> (forall v, In v cls -> exists n, cl_means v n) ->
  announces (map tb tes) (map tb cls) f.
Proof.
  intros H Hc. destruct f as [n| |]; cbn [announces] in *; [| |destruct H].
  - destruct H as [-> H]. split; auto. destruct H as [H|[-> ->]]; [left|now right].
    assert (map tb cls = cls) as ->; auto. rewrite <- (map_id cls) at 2. apply map_ext_in. intros v Hv. destruct (Hc v Hv) as [k Hk].
    eapply cl_means_tb; eauto.
  - destruct H as [H ->]. split; auto. now apply final_map_tb.
Qed.
Lemma cl_lines_before l : cl_lines l = [] -> cl_lines (before_te l) = [].
Proof.
  unfold cl_lines. induction l as [|x l IH]; auto. rewrite fv_cons. intros H. apply app_eq_nil in H as [H1 H2].
  cbn [before_te]. destruct (beq (lower (fst x)) (B "transfer-encoding")); [reflexivity|]. rewrite fv_cons, H1. now apply IH.
Qed.
Lemma announces_request lines f http11 : announces (te_values lines) (cl_lines lines) f ->
  (forall v, In v (cl_lines lines) -> exists n, cl_means v n) ->
  (forall n, f = FLength n -> supported_length n) -> (f = FChunked -> http11 = true) ->
  request_framing http11 lines f.
Proof.
  intros H Hc Hs Hv. destruct f as [n| |]; cbn [announces] in *; [| |destruct H].
  - destruct H as [Ht [H|[H ->]]].
    + right. left. split; auto. split; [apply H|]. exists n. split; auto. split; auto. apply Forall_forall. intros v Hin.
      destruct (Hc v Hin) as [k Hk]. eapply cl_list_single_inv; eauto.
    + right. right. auto.
  - destruct H as [Hf H]. left. sp; auto.
    + destruct Hf as (i & v & -> & _). destruct i; discriminate.
    + exists 0. rewrite cl_lines_before by auto. split; [unfold supported_length; lia|constructor].
Qed.
