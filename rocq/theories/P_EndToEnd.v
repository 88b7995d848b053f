(* C75, with the parser: client and server of this code talk to each other. *)
From Verif Require P_Read.
From Verif Require Import M_Httparse.
From Verif Require Import Base M_Src M_Decode S_Buf L_Buf S_Transport S_Chunked S_Read S_Send L_Decode L_Chunked L_Body L_Read M_HeaderMap M_Headers M_Encode M_Role M_RoleEncode M_Buf M_WriteBuf M_Read M_Conn M_Dispatch S_Conn S_Client S_Framing L_Headers L_Framing L_Fold P_Framing S_Inbound S_Head L_Encode L_Encode2 L_RoleEncode L_RoleEncode2 L_Wire L_Server L_Client P_Client L_Conn L_Moves L_ConnC L_ConnS L_Exch L_Inbound L_Stream P_Stream P_Conn P_Inbound M_Parse S_Parse P_Parse S_Outbound L_Outbound P_Outbound.

(* ---- Values ---- *)
Lemma drop_blanks a r : blanks a -> drop_while is_blank (a ++ r) = drop_while is_blank r.
Proof. induction a as [|x a IH]; intros H; [reflexivity|]. inversion H; subst. cbn [app drop_while]. assert (is_blank x = true) as -> by (unfold is_blank; lia). now apply IH. Qed.
Lemma drop_none r : (forall x q, r = x :: q -> ~ blank x) -> drop_while is_blank r = r.
Proof. destruct r as [|x r]; intros H; [reflexivity|]. cbn. destruct (is_blank x) eqn:E; [|reflexivity]. exfalso. apply (H x r eq_refl). unfold is_blank, blank in *. lia. Qed.
Lemma drop_all a : blanks a -> drop_while is_blank a = [].
Proof. intros H. rewrite <- (app_nil_r a), drop_blanks by exact H. reflexivity. Qed.
Lemma drop_first r x q : drop_while is_blank r = x :: q -> ~ blank x.
Proof. induction r as [|y r IH]; [discriminate|]. cbn. destruct (is_blank y) eqn:E; [exact IH|]. intros H. injection H as -> ->. unfold is_blank, blank in *. lia. Qed.
Lemma blanks_rev a : blanks a -> blanks (rev a).
Proof. intros H. apply Forall_rev, H. Qed.
Lemma trimmed_tb v t : trimmed v t -> tb v = t.
Proof.
  intros (a & b & -> & Ha & Hb & H1 & H2). unfold tb, trim_end. rewrite drop_blanks by exact Ha. destruct t as [|x t].
  - cbn [app]. now rewrite (drop_all b Hb).
  - rewrite (drop_none ((x :: t) ++ b)) by (intros y q E; injection E as <- _; apply (H1 _ _ eq_refl)).
    rewrite rev_app_distr, drop_blanks by now apply blanks_rev. rewrite drop_none; [apply rev_involutive|].
    intros y q E. apply (H2 y (rev q)). rewrite <- (rev_involutive (x :: t)), E. reflexivity.
Qed.
Lemma tb_trimmed v : trimmed v (tb v).
Proof.
  destruct (tb_spec v) as (a & b & E & Ha & Hb). exists a, b. split; [exact E|]. split; [exact Ha|]. split; [exact Hb|]. split.
  - intros x r Ex. unfold tb, trim_end in Ex.
    assert (exists q, drop_while is_blank v = x :: q) as (q & Q).
    { assert (forall s, exists z, s = rev (drop_while is_blank (rev s)) ++ z) as P.
      { intros s. assert (forall u, exists y, u = y ++ drop_while is_blank u) as P0.
        { induction u as [|w u (y & IH)]; [exists []; reflexivity|]. cbn. destruct (is_blank w); [exists (w :: y); cbn; now rewrite <- IH|exists []; reflexivity]. }
        destruct (P0 (rev s)) as (y & Hy). exists (rev y). rewrite <- rev_app_distr, <- Hy. symmetry. apply rev_involutive. }
      destruct (P (drop_while is_blank v)) as (z & Hz). rewrite Ex in Hz. eauto. }
    exact (drop_first _ _ _ Q).
  - intros x r Ex. unfold tb, trim_end in Ex. apply (f_equal (@rev N)) in Ex. rewrite rev_involutive, rev_app_distr in Ex. exact (drop_first _ _ _ Ex).
Qed.
Lemma reads_values lines lines' n : reads_lines lines lines' -> field_values n lines' = map tb (field_values n lines).
Proof.
  intros H. unfold field_values. induction H as [|l l' lines lines' (H1 & H2) _ IH]; [reflexivity|]. cbn [filter]. rewrite H1. destruct (beq _ n); cbn [map]; rewrite IH; [|reflexivity]. now rewrite (trimmed_tb _ _ H2).
Qed.
Lemma seen_reads lines : reads_lines lines (map seen lines).
Proof. induction lines as [|l lines IH]; constructor; [|exact IH]. unfold seen. cbn [fst snd]. split; [apply lower_lower|apply tb_trimmed]. Qed.

Lemma lower_wf n : wf_name n -> lower n = n.
Proof.
  intros (_ & H). induction H as [|b r Hb _ IH]; [reflexivity|]. cbn. unfold lower in IH. rewrite IH. f_equal. unfold to_lower. destruct ((65 <=? b) && (b <=? 90))%bool eqn:E; [|reflexivity]. exfalso. unfold token_char in Hb. apply orb_prop in Hb as [Hb|Hb]; [lia|]. apply existsb_exists in Hb as (y & Iy & Ey). apply N.eqb_eq in Ey. subst y. cbn in Iy. lia.
Qed.

(* ---- The reference parser keeps the promise ---- *)
Lemma fe_skip l r : ~ In 10 l -> P_Read.find_end (l ++ r) = match P_Read.find_end r with Some c => Some (c + lenN l) | None => None end.
Proof.
  induction l as [|x l IH]; intros H; cbn [app]; [destruct (P_Read.find_end r); [now rewrite N.add_0_r|reflexivity]|]. cbn [P_Read.find_end].
  assert (x =? LF = false) as -> by (apply N.eqb_neq; intros ->; apply H; now left). cbn [andb]. rewrite IH by (intros F; apply H; now right). destruct (P_Read.find_end r); [|reflexivity]. rewrite lenN_cons. f_equal. lia.
Qed.
Lemma fe_lf x r : x <> 10 -> x <> 13 -> P_Read.find_end (10 :: x :: r) = match P_Read.find_end (x :: r) with Some c => Some (c + 1) | None => None end.
Proof.
  intros H1 H2. cbn [P_Read.find_end]. change (10 =? LF) with true. cbn [andb].
  assert (beq (takeN 1 (x :: r)) [LF] = false) as ->. { change (x :: r) with ([x] ++ r). rewrite takeN_app_le, takeN_all by (cbn; lia). apply beq_false_ne. intros E. injection E as ->. now apply H1. }
  assert (beq (takeN 2 (x :: r)) [CR; LF] = false) as ->. { apply beq_false_ne. intros E. destruct r; cbn in E; [discriminate|injection E as -> _; now apply H2]. }
  reflexivity.
Qed.
Definition line_text (tight : bool) (l : S_Framing.line) : bytes := fst l ++ (match snd l with [] => if tight then B ":" else B ": " | v => B ": " ++ v end).
Lemma render_text tight l : S_Head.render_line tight l = line_text tight l ++ CRLF.
Proof. unfold S_Head.render_line, line_text. now rewrite <- app_assoc. Qed.
Lemma wire_name_chars n : wire_name n -> Forall (fun b => token_char (to_lower b) = true) n /\ n <> [].
Proof. intros (H1 & H2). split; [|intros ->; now apply H1]. unfold lower in H2. rewrite Forall_map in H2. exact H2. Qed.
Lemma tchar_plain b : token_char (to_lower b) = true -> b <> 10 /\ b <> 13 /\ b <> 32.
Proof. intros H. destruct (tchar_of_lower b H) as (_ & H1 & H2). split; [exact H2|]. split; [exact H1|]. intros ->. vm_compute in H. discriminate. Qed.
Lemma text_no_lf tight l : wire_line l -> ~ In 10 (line_text tight l) /\ exists x r, line_text tight l = x :: r /\ x <> 10 /\ x <> 13.
Proof.
  intros (Hn & Hv). destruct (wire_name_chars _ Hn) as (H1 & H2). unfold line_text. split.
  - rewrite in_app_iff. intros [F|F].
    + rewrite Forall_forall in H1. apply H1 in F. now apply tchar_plain in F.
    + assert (forall v, value_chars v -> ~ In 10 v) as Q by (intros v V I; unfold value_chars in V; rewrite Forall_forall in V; apply V in I; lia).
      destruct (snd l) as [|x v]; [destruct tight; cbn in F; lia|]. change (In 10 (58 :: 32 :: x :: v)) in F. destruct F as [F|[F|F]]; [lia|lia|]. exact (Q _ Hv F).
  - destruct (fst l) as [|x r]; [contradiction|]. cbn [app]. eexists x, _. split; [reflexivity|]. inversion H1 as [|? ? Hx]; subst. apply tchar_plain in Hx. tauto.
Qed.
Lemma no_lf_cr l : ~ In 10 l -> ~ In 10 (l ++ [13]).
Proof. intros H F. apply in_app_or in F as [F|[F|F]]; [tauto|discriminate|destruct F]. Qed.
Lemma fe_head tight lines z : Forall wire_line lines -> forall l0, ~ In 10 l0 ->
  P_Read.find_end (l0 ++ CRLF ++ flat_map (S_Head.render_line tight) lines ++ CRLF ++ z) = Some (lenN (l0 ++ CRLF ++ flat_map (S_Head.render_line tight) lines ++ CRLF)).
Proof.
  induction 1 as [|l lines Hl _ IH]; intros l0 H0.
  - cbn [flat_map app]. replace (l0 ++ CRLF ++ CRLF ++ z) with ((l0 ++ [13]) ++ 10 :: 13 :: 10 :: z) by (rewrite <- app_assoc; reflexivity). rewrite fe_skip by now apply no_lf_cr.
    assert (P_Read.find_end (10 :: 13 :: 10 :: z) = Some 3) as ->. { cbn [P_Read.find_end]. rewrite (take_own [13] (10 :: z) : takeN 1 (13 :: 10 :: z) = _), (take_own [13; 10] z : takeN 2 (13 :: 10 :: z) = _). reflexivity. }
    f_equal. rewrite !lenN_app. change (lenN CRLF) with 2. change (lenN [13]) with 1. lia.
  - cbn [flat_map]. destruct (text_no_lf tight l Hl) as (T1 & x & r & T2 & T3 & T4). rewrite render_text, <- !app_assoc. specialize (IH _ T1).
    set (tail := line_text tight l ++ CRLF ++ flat_map (S_Head.render_line tight) lines ++ CRLF ++ z) in *. assert (exists r', tail = x :: r') as (r' & Er) by (unfold tail; rewrite T2; cbn [app]; eauto).
    replace (l0 ++ CRLF ++ tail) with ((l0 ++ [13]) ++ 10 :: tail) by (rewrite <- app_assoc; reflexivity). rewrite fe_skip by now apply no_lf_cr. rewrite Er, fe_lf, <- Er by assumption. rewrite IH.
    f_equal. rewrite !lenN_app. change (lenN CRLF) with 2. change (lenN [13]) with 1. lia.
Qed.
Lemma split1_at a r : ~ In 32 a -> split1 (a ++ 32 :: r) = (a, r).
Proof.
  intros H. unfold split1. assert (take_while (fun b => negb (b =? 32)) (a ++ 32 :: r) = a /\ drop_while (fun b => negb (b =? 32)) (a ++ 32 :: r) = 32 :: r) as (-> & ->).
  { induction a as [|x a IH]; [split; reflexivity|]. cbn [app take_while drop_while]. assert (x =? 32 = false) as -> by (apply N.eqb_neq; intros ->; apply H; now left). cbn [negb]. destruct IH as (-> & ->); [intros F; apply H; now right|]. split; reflexivity. }
  f_equal. exact (drop_own [32] r).
Qed.
Lemma ref_reads max fold : reads_requests (ref_hp max fold) max.
Proof.
  intros http10 me ta tight lines (Mn & Mt) (Tn & Tt) Hw Hl. exists (map seen lines). split; [apply seen_reads|]. intros z. cbn [ref_hp h_request]. unfold ref_request.
  set (ver := if http10 then B "HTTP/1.0" else B "HTTP/1.1"). set (l0 := me ++ 32 :: ta ++ 32 :: ver).
  assert (request_line http10 me ta = l0 ++ CRLF) as ->. { unfold request_line, l0. cbn. rewrite <- !app_assoc. cbn. rewrite <- !app_assoc. reflexivity. }
  assert (~ In 10 me /\ ~ In 32 me) as (M1 & M2). { rewrite Forall_forall in Mt. split; intros F; apply Mt in F; apply tchar_plain in F; tauto. }
  assert (~ In 10 ta /\ ~ In 32 ta) as (T1 & T2). { rewrite Forall_forall in Tt. split; intros F; apply Tt in F; lia. }
  assert (~ In 10 l0) as N0. { unfold l0. rewrite in_app_iff. intros [F|[F|F]]; [tauto|discriminate|]. rewrite in_app_iff in F. destruct F as [F|[F|F]]; [tauto|discriminate|]. unfold ver in F. destruct http10; cbn in F; lia. }
  rewrite <- !app_assoc. rewrite (fe_head tight lines z Hw l0 N0).
  set (head := l0 ++ CRLF ++ flat_map (S_Head.render_line tight) lines ++ CRLF).
  replace (l0 ++ CRLF ++ flat_map (S_Head.render_line tight) lines ++ CRLF ++ z) with (head ++ z) by (unfold head; rewrite <- !app_assoc; reflexivity). rewrite take_own. unfold head at 1.
  rewrite take_line_spec by exact N0. rewrite strip_cr_spec. unfold l0 at 1. rewrite split1_at by exact M2. rewrite split1_at by exact T2.
  assert (is_v11 ver = Some (negb http10)) as -> by (unfold ver; destruct http10; reflexivity).
  pose proof (parse_lines tight lines [] max Hw Hl) as P. rewrite app_nil_r in P. rewrite P. reflexivity.
Qed.

Lemma append_values ls : forall h n, hm_get_all (fold_left (fun h l => hm_append h (fst l) (snd l)) ls h) n = hm_get_all h n ++ map snd (filter (fun l => beq (fst l) n) ls).
Proof.
  induction ls as [|l ls IH]; intros h n; [now rewrite app_nil_r|]. cbn [fold_left filter]. rewrite IH, hm_get_all_append. destruct (beq (fst l) n); [cbn [map]; now rewrite <- app_assoc|reflexivity].
Qed.
Lemma ref_trailers server : reads_trailers (ref_cfg server).
Proof.
  intros title fields Hn Hf. set (ls := map (fun f => (if title then title_case (fst f) else fst f, snd f)) fields). cbn [ref_cfg c_dt].
  assert (trailer_lines (map (trailer_line title) fields) = render_lines ls) as ->. { unfold trailer_lines, render_lines, ls. rewrite flat_map_concat_map, !map_map. f_equal. apply map_ext. intros f. unfold trailer_line. cbn [fst snd]. now rewrite <- !app_assoc. }
  assert (forall f : bytes * bytes, wf_name (fst f) -> lower (if title then title_case (fst f) else fst f) = fst f) as Hlow. { intros f W. destruct title; [now apply title_lower|now apply lower_wf]. }
  pose proof (parse_rendered ls [] (lenN fields)) as P. rewrite app_nil_r in P. rewrite P.
  - eexists. split; [reflexivity|]. intros n. rewrite append_values. cbn [app hm_get_all]. unfold field_values, ls. clear - Hf Hlow. induction Hf as [|f fs (W & _) _ IH]; [constructor|]. cbn [map filter]. unfold seen at 1. cbn [fst snd]. rewrite (Hlow f W), (lower_wf _ W).
    destruct (beq (fst f) n); cbn [map]; [constructor; [apply tb_trimmed|exact IH]|exact IH].
  - unfold ls. apply Forall_map. eapply Forall_impl; [|exact Hf]. intros f (W & V). split; [|exact V]. cbn [fst]. unfold wire_name. rewrite (Hlow f W). exact W.
  - unfold ls, lenN. rewrite map_length. lia.
Qed.

(* ---- Heads ---- *)
(* What is asked of a request, for the server to accept it: a method and a target
   that the server takes for such; header values that http::HeaderMap takes; names
   below 64 KiB; if the application itself sets Transfer-Encoding or
   Content-Length, then visible text and one number, 0 if there is no body; not
   more lines than the server has room for; a length that can be represented;
   trailers within the server's limits. *)
Definition acceptable (s c : cfg) (o : hparse) (room : N) (l : list levent) (g : gmsg) : Prop :=
  let hs := o_headers (g_head g) in
  (exists me ta, o_subject (g_head g) = ORequest me ta /\ token me /\ plain_target ta /\ lenN ta <= MAX_URI_LEN /\ h_method o me = true /\ h_uri o ta = true) /\
  headers_ok hs /\ (forall x, o_case (g_head g) = Some x -> case_ok x) /\ (forall n, hm_get_all hs n <> [] -> lenN n < 65536) /\
  app_te_text hs /\ (forall v, In v (hm_get_all hs (B "content-length")) -> exists n, cl_means v n) /\
  (hm_get_all hs (B "content-length") = [] \/ exists n, cl_list_means (hm_get_all hs (B "content-length")) n /\ n <= 2 ^ 64 - 1 /\ (g_len g = None -> n = 0)) /\
  (forall t, g_trailers g = Some t -> headers_ok t) /\
  (forall bs e, head_written c l g bs e -> line_feeds bs <= room + 2 /\ (forall n, ekind e = KLength n -> supported_length n) /\
    (forall names, ekind e = KChunked names -> let ls := trailers_to_send (c_title c) names (g_trailers g) in
       lenN ls <= max_lines s /\ match trailer_block ls with None => True | Some t => lenN t < 16384 end)).
(* The head [m] that the server hands out is that of [g] *)
Definition same_head (o : hparse) (g : gmsg) (bs : bytes) (m : inmsg) : Prop :=
  exists me ta q, o_subject (g_head g) = ORequest me ta /\ is_request o bs q /\ q_method q = me /\ q_path q = ta /\
    in_method m = Some me /\ (in_version m = HTTP10 \/ (in_version m = HTTP11 /\ o_version (g_head g) <> HTTP10)) /\
    forall n, n <> B "content-length" -> n <> B "transfer-encoding" -> n <> B "connection" ->
      Forall2 trimmed (hm_get_all (o_headers (g_head g)) n) (hm_get_all (in_headers m) n).

Lemma feeds_app a b : line_feeds (a ++ b) = line_feeds a + line_feeds b.
Proof. unfold line_feeds. rewrite filter_app, lenN_app. reflexivity. Qed.
Lemma feeds_none a : ~ In 10 a -> line_feeds a = 0.
Proof.
  unfold line_feeds. induction a as [|x a IH]; intros H; [reflexivity|]. cbn [filter]. assert (x =? 10 = false) as -> by (apply N.eqb_neq; intros ->; apply H; now left). apply IH. intros F. apply H. now right.
Qed.
Lemma feeds_lines tight lines : Forall wire_line lines -> line_feeds (flat_map (S_Head.render_line tight) lines) = lenN lines.
Proof.
  induction 1 as [|l lines Hl _ IH]; [reflexivity|]. cbn [flat_map]. rewrite feeds_app, IH, render_text, feeds_app, feeds_none by (now apply text_no_lf). rewrite lenN_cons. change (line_feeds CRLF) with 1. lia.
Qed.
Lemma wf_CO : wf_name (B "connection").
Proof. now apply wf_nameb_ok. Qed.
Lemma head_for_facts h h' : headers_ok (o_headers h) -> head_for h h' -> headers_ok (o_headers h') /\ (forall n, n <> B "connection" -> hm_get_all (o_headers h') n = hm_get_all (o_headers h) n).
Proof.
  intros H (_ & _ & _ & [-> | (v & Hv & ->)]); [auto|]. split.
  - apply ok_insert; [exact H|exact wf_CO|]. destruct Hv as [-> | ->]; cbn; unfold value_chars; repeat (apply Forall_cons; [right; lia|]); apply Forall_nil.
  - intros n Hn. rewrite hm_get_all_insert. assert (beq (B "connection") n = false) as -> by (apply beq_false_ne; congruence). reflexivity.
Qed.
Lemma lower_len n : lenN (lower n) = lenN n.
Proof. unfold lenN, lower. now rewrite map_length. Qed.
Lemma in_values l lines : In l lines -> field_values (lower (fst l)) lines <> [].
Proof.
  intros H F. assert (In (snd l) (field_values (lower (fst l)) lines)) as Q; [|rewrite F in Q; exact Q]. unfold field_values. apply in_map, filter_In. split; [exact H|apply beq_refl].
Qed.

Lemma head_read s c o room l g bs e : c_server s = true -> parses_with s o -> reads_requests o room -> room <= 24576 ->
  acceptable s c o room l g -> head_written c l g bs e ->
  exists m, head_wire s bs m /\ framing_of (in_decode m) = kind_framing (ekind e) /\ same_head o g bs m.
Proof.
  intros Hsv U Hr Hroom ((me & ta & Hsub & Hme & Hta & Hmax & Hm1 & Hu1) & Hok & Hcase & Hnames & Hte & Hcl & Hlen & _ & Hlim) Hw.
  destruct (Hlim bs e Hw) as (Hlf & Hsup & _). destruct Hw as (h' & me' & ta' & Hf & Hs' & _ & E).
  destruct (head_for_facts _ _ Hok Hf) as (Hok' & Hget). destruct Hf as (Fs & Fc & Fv & _). assert (me' = me /\ ta' = ta) as (-> & ->) by (rewrite Fs, Hsub in Hs'; injection Hs'; auto).
  set (M := mkCmsg _ _ _ _ _ _ _) in E.
  assert (hm_get_all (o_headers h') CL = hm_get_all (o_headers (g_head g)) CL) as Ecl by (apply Hget; discriminate).
  assert (hm_get_all (o_headers h') TE = hm_get_all (o_headers (g_head g)) TE) as Ete by (apply Hget; discriminate).
  assert (cmsg_ok M) as HM by (split; [exact Hok'|]; cbn; intros x Hx; apply Hcase; congruence).
  assert (app_te_text (c_headers M)) as Ht. { unfold app_te_text. change (hm_get_all (c_headers M) (B "transfer-encoding")) with (hm_get_all (o_headers h') TE). rewrite Ete. exact Hte. }
  assert (app_length_sane M) as Hl. { unfold app_length_sane. change (hm_get_all (c_headers M) (B "content-length")) with (hm_get_all (o_headers h') CL). rewrite Ecl. exact Hlen. }
  destruct HM as (HM1 & HM2). destruct (client_encode_ok M bs e HM1 HM2 E) as (h2 & tight & lines & Es & Hok2 & Eo & Hwl & Hfv & Hver).
  destruct (sane_cl M Hl) as [L1 L2]. pose proof (set_length_spec _ _ _ _ _ _ HM1 Es Ht L1 L2) as A.
  destruct (set_length_ok _ _ _ _ _ _ HM1 Es) as (_ & Hother & Hnot11).
  set (http10 := ver_eqb (c_version M) HTTP10) in *. change (c_method M) with me in *. change (c_target M) with ta in *.
  assert (lenN lines <= room) as Hcount.
  { rewrite Eo, !feeds_app, (feeds_lines _ _ Hwl) in Hlf. change (line_feeds CRLF) with 1 in Hlf. unfold request_line in Hlf. rewrite !feeds_app in Hlf. change (line_feeds CRLF) with 1 in Hlf. lia. }
  destruct (Hr http10 me ta tight lines Hme Hta Hwl Hcount) as (lines' & Hrl & Hq). rewrite <- Eo in Hq.
  pose proof (fun n => reads_values lines lines' n Hrl) as Hvals.
  assert (Hd : forall v, In v (cl_lines lines) -> exists n, cl_means v n).
  { unfold cl_lines. rewrite Hfv. intros v Hv. destruct (set_length_cls _ _ _ _ _ _ v HM1 Es Hv) as [X|[len ->]]; [|exists len; apply dec_means]. apply Hcl. change (In v (hm_get_all (o_headers h') CL)) in X. rewrite Ecl in X. exact X. }
  assert (R : request_framing (negb http10) lines' (kind_framing (ekind e))).
  { apply announces_request.
    - unfold te_values, cl_lines. rewrite !Hvals, !Hfv. apply announces_tb; [exact A|]. unfold cl_lines in Hd. rewrite Hfv in Hd. exact Hd.
    - unfold cl_lines. rewrite Hvals. intros v Hv. apply in_map_iff in Hv as (x & <- & Hx). destruct (Hd x Hx) as [n Hn]. exists n. now rewrite (cl_means_tb _ _ Hn).
    - intros n Hn. apply Hsup. destruct (ekind e); cbn in Hn; congruence.
    - intros Hk. unfold http10. destruct Hver as [X|[X|X]]; rewrite X; auto. exfalso. destruct Hnot11 as [Y|Y]; [rewrite X; discriminate| |].
      + rewrite Y in Es. cbn [set_length] in Es. inversion Es; subst. discriminate.
      + rewrite Hk, Y in A. destruct A as [(i & v & Z & _) _]. destruct i; discriminate. }
  pose proof (C12_request_framing (negb http10) me lines') as P. destruct (server_parse (negb http10) me lines') as [pm|x] eqn:Ep; [|exfalso; eapply P; exact R].
  destruct (server_parse_view _ _ _ _ Ep) as (V & _).
  assert (names_fit lines' = true) as Hfit.
  { unfold names_fit. apply forallb_forall. intros l' Hl'. apply N.ltb_lt. rewrite <- lower_len.
    assert (exists l0, In l0 lines /\ lower (fst l') = lower (fst l0)) as (l0 & I0 & ->). { clear - Hrl Hl'. induction Hrl as [|a b la lb (Q & _) _ IH]; [destruct Hl'|]. destruct Hl' as [->|Hl']; [exists a; split; [now left|exact Q]|]. destruct (IH Hl') as (l0 & I & X). exists l0. split; [now right|exact X]. }
    pose proof (in_values l0 lines I0) as Nn. rewrite Hfv in Nn. destruct (beq (lower (fst l0)) CL) eqn:B1; [apply beq_eq in B1; rewrite B1; reflexivity|]. destruct (beq (lower (fst l0)) TE) eqn:B2; [apply beq_eq in B2; rewrite B2; reflexivity|].
    apply beq_false_ne in B1. apply beq_false_ne in B2. rewrite (Hother _ B1 B2) in Nn. destruct (beq (lower (fst l0)) (B "connection")) eqn:B3; [apply beq_eq in B3; rewrite B3; reflexivity|]. apply beq_false_ne in B3.
    change (hm_get_all (o_headers h') (lower (fst l0)) <> []) in Nn. rewrite (Hget _ B3) in Nn. now apply Hnames. }
  assert (reserves (lenN lines') = true) as Hres.
  { assert (lenN lines' = lenN lines) as -> by (unfold lenN; f_equal; symmetry; eapply Forall2_length; exact Hrl). unfold reserves. apply N.leb_le. pose proof (N.div_le_mono (lenN lines) 24576 3). change (24576 / 3) with 8192 in *. lia. }
  set (m := mkIn (if negb http10 then HTTP11 else HTTP10) (Some me) 0 (pm_headers pm) (pm_decode pm) (pm_expect pm) (pm_keep pm) (pm_upgrade pm)).
  exists m. split; [|split].
  - exists None, false, []. rewrite U, Hsv. unfold role_parse, parse_request. rewrite (Hq []). cbn [q_path q_method q_minor1 q_lines].
    assert (MAX_URI_LEN <? lenN ta = false) as -> by (apply N.ltb_ge; exact Hmax). rewrite Hm1, Hfit, Hu1. match goal with |- context [reserves ?x] => change (reserves x) with (reserves (lenN lines')) end. rewrite Hres, Ep. cbn [negb settle]. rewrite ?app_nil_r. reflexivity.
  - symmetry. cbn [m in_decode]. now apply P.
  - exists me, ta, (mkQ me ta (negb http10) lines'). split; [exact Hsub|]. split; [exact Hq|]. split; [reflexivity|]. split; [reflexivity|]. split; [reflexivity|]. split.
    + cbn [m in_version]. unfold http10. change (c_version M) with (o_version h'). destruct (ver_eqb (o_version h') HTTP10) eqn:Ev; cbn [negb]; [now left|right]. split; [reflexivity|].
      intros F. destruct Fv as [Fv|Fv]; rewrite Fv in Ev; [rewrite F in Ev|]; discriminate.
    + intros n N1 N2 N3. cbn [m in_headers]. rewrite V. assert (beq n CL = false) as -> by (apply beq_false_ne; exact N1). rewrite Hvals, Hfv, (Hother n N1 N2). change (c_headers M) with (o_headers h'). rewrite (Hget n N3).
      generalize (hm_get_all (o_headers (g_head g)) n). intros vs. induction vs as [|v vs IH]; constructor; [apply tb_trimmed|exact IH].
Qed.

(* ---- Trailers ---- *)
Lemma iter_ok t nv : headers_ok t -> In nv (hm_iter t) -> wf_name (fst nv) /\ value_chars (snd nv).
Proof.
  intros (_ & H) I. unfold hm_iter in I. apply in_flat_map in I as (g & Ig & Iv). rewrite Forall_forall in H. destruct (H g Ig) as (H1 & H2). apply in_map_iff in Iv as (v & <- & Iv). cbn [fst snd]. rewrite Forall_forall in H2. auto.
Qed.
Lemma trailers_valid title names t : (forall x, t = Some x -> headers_ok x) -> Forall valid_trailer (trailers_to_send title names t).
Proof.
  intros H. unfold trailers_to_send. destruct names as [names|]; [|constructor]. destruct t as [t|]; [|constructor]. specialize (H t eq_refl). apply Forall_forall. intros x Hx. apply in_map_iff in Hx as (nv & <- & I). apply filter_In in I as (I & _).
  destruct (iter_ok t nv H I) as ((N0 & N1) & V). unfold trailer_line. split; [intros F; apply app_eq_nil in F as [_ F]; discriminate|]. rewrite !in_app_iff. intros [F|[F|F]].
  - assert (Forall (fun b => token_char (to_lower b) = true) (if title then title_case (fst nv) else fst nv)) as Q.
    { assert (lower (if title then title_case (fst nv) else fst nv) = fst nv) as E by (destruct title; [apply title_lower|apply lower_wf]; split; assumption).
      rewrite <- E in N1. unfold lower in N1. rewrite Forall_map in N1. exact N1. }
    rewrite Forall_forall in Q. apply Q in F. apply tchar_plain in F. tauto.
  - cbn in F. lia.
  - unfold value_chars in V. rewrite Forall_forall in V. apply V in F. lia.
Qed.

Lemma trailers_fields title k g names : k = KChunked names -> trailers_to_send title names (g_trailers g) = map (trailer_line title) (fields_to_send k (g_trailers g)).
Proof. intros ->. unfold trailers_to_send, fields_to_send. destruct names; [|reflexivity]. destruct (g_trailers g); reflexivity. Qed.
Lemma fields_ok k t : (forall x, t = Some x -> headers_ok x) -> Forall (fun f => wf_name (fst f) /\ value_chars (snd f)) (fields_to_send k t).
Proof.
  intros H. unfold fields_to_send. destruct k as [[names|]| |]; try constructor. destruct t as [t|]; [|constructor]. apply Forall_forall. intros x Hx. apply filter_In in Hx as (I & _). exact (iter_ok t x (H t eq_refl) I).
Qed.
Lemma reads_block s title fields t : reads_trailers s -> Forall (fun f => wf_name (fst f) /\ value_chars (snd f)) fields -> trailer_block (map (trailer_line title) fields) = Some t ->
  exists h, c_dt s t (lenN (map (trailer_line title) fields)) = Some h /\ forall n, Forall2 trimmed (field_values n fields) (hm_get_all h n).
Proof.
  intros R F E. assert (fields <> []) as Hn by (intros ->; discriminate). assert (t = trailer_lines (map (trailer_line title) fields) ++ CRLF) as -> by (unfold trailer_block in E; destruct fields; [contradiction|]; cbn [map] in *; injection E as <-; reflexivity).
  assert (lenN (map (trailer_line title) fields) = lenN fields) as -> by (unfold lenN; now rewrite map_length). exact (R title fields Hn F).
Qed.

(* ---- From one application to the other ---- *)
(* The server is handed the request [g]: all of it, or the beginning of it *)
Definition same_request (c : cfg) (o : hparse) (l : list levent) (g : gmsg) (r : message) : Prop :=
  exists bs e, head_written c l g bs e /\ same_head o g bs (msg_head r) /\ framing_of (in_decode (msg_head r)) = kind_framing (ekind e) /\
    all_there (ekind e) g /\ msg_data r = body_of (ekind e) g /\
    match fields_to_send (ekind e) (g_trailers g) with
    | [] => msg_trailers r = None
    | fs => exists t, msg_trailers r = Some t /\ forall n, Forall2 trimmed (field_values n fs) (hm_get_all t n)
    end.
Definition begun_request (c : cfg) (o : hparse) (l : list levent) (g : gmsg) (r : message) : Prop :=
  exists bs e more, head_written c l g bs e /\ same_head o g bs (msg_head r) /\ framing_of (in_decode (msg_head r)) = kind_framing (ekind e) /\
    body_of (ekind e) g = msg_data r ++ more /\ msg_trailers r = None.

Section Meaning.
Variables (s c : cfg) (o : hparse) (room : N) (l : list levent).
Hypothesis Hsv : c_server s = true.
Hypothesis U : parses_with s o.
Hypothesis Ho : hp_ok o.
Hypothesis Hr : reads_requests o room.
Hypothesis Hroom : room <= 24576.
Hypothesis Htr : reads_trailers s.
Lemma self_alike : read_alike s s.
Proof. split; [|auto]. intros me h9 me' h9' x. rewrite !U, Hsv. reflexivity. Qed.
Lemma heads_some : some_head s.
Proof.
  intros me h09 x m E. rewrite U, Hsv in E. unfold role_parse, settle in E. destruct (parse_request o x) as [r| |] eqn:Er; [subst r|discriminate|discriminate].
  destruct (request_done _ _ _ _ Er) as (q & p & Eq & _). destruct (proj1 Ho _ _ _ Eq) as ((F & _) & _). exact (N.lt_irrefl 0 F).
Qed.
Lemma acceptable_understood g : acceptable s c o room l g -> understood s c l g.
Proof.
  intros A bs e Hw. split.
  - destruct (head_read s c o room l g bs e Hsv U Hr Hroom A Hw) as (m & H1 & H2 & _). eauto.
  - intros names Hk. destruct A as (_ & _ & _ & _ & _ & _ & _ & Ht & Hl). destruct (Hl bs e Hw) as (_ & _ & Q). destruct (Q names Hk) as (Q1 & Q2). split; [now apply trailers_valid|]. split; [exact Q1|].
    rewrite (trailers_fields (c_title c) (ekind e) g names Hk) in *. destruct (trailer_block _) as [t|] eqn:Et; [|exact Logic.I]. split; [exact Q2|]. destruct (reads_block s _ _ _ Htr (fields_ok (ekind e) _ Ht) Et) as (h & -> & _). discriminate.
Qed.
Lemma meant g bs e r : acceptable s c o room l g -> head_written c l g bs e -> head_wire s bs (msg_head r) ->
  same_head o g bs (msg_head r) /\ framing_of (in_decode (msg_head r)) = kind_framing (ekind e).
Proof.
  intros A Hw H. destruct (head_read s c o room l g bs e Hsv U Hr Hroom A Hw) as (m & H1 & H2 & H3).
  pose proof (C66_request_parser s o Hsv U Ho) as R. destruct (head_unique s s _ _ _ _ [] [] (proj1 R) (proj1 R) self_alike H H1 eq_refl) as (_ & -> & _). auto.
Qed.
Lemma trailers_meant g k title : acceptable s c o room l g ->
  match fields_to_send k (g_trailers g) with
  | [] => trailers_of s title k g = None
  | fs => exists t, trailers_of s title k g = Some t /\ forall n, Forall2 trimmed (field_values n fs) (hm_get_all t n)
  end.
Proof.
  intros (_ & _ & _ & _ & _ & _ & _ & Ht & _). destruct k as [names| |]; [|reflexivity|reflexivity]. unfold trailers_of. cbv zeta. rewrite (trailers_fields title _ g names eq_refl).
  pose proof (fields_ok (KChunked names) _ Ht) as F. pose proof (fun t => reads_block s title _ t Htr F) as R. destruct (fields_to_send (KChunked names) (g_trailers g)) as [|f fs]; [reflexivity|]. cbn [map trailer_block] in *. destruct (R _ eq_refl) as (h & E & V). exists h. auto.
Qed.
End Meaning.

Theorem C75_end_to_end : forall c h09 flat wmax evs ms s o room h09' flat' wmax' evs' ms' more,
  client_cfg c -> app_moves c ms -> c_server s = true -> parses_with s o -> hp_ok o -> reads_requests o room -> room <= 24576 -> reads_trailers s ->
  let l := history c h09 flat wmax evs ms in let l' := history s h09' flat' wmax' evs' ms' in
  Forall (acceptable s c o room l) (handed c h09 flat wmax evs ms) -> data_of evs' ++ more = taken l ->
  exists done rest, handed c h09 flat wmax evs ms = done ++ rest /\ Forall2 (same_request c o l) done (received l') /\
    match receiving l' with None => True | Some r => exists g tail, rest = g :: tail /\ begun_request c o l g r end.
Proof.
  intros c h09 flat wmax evs ms s o room h09' flat' wmax' evs' ms' more Hc Happ Hsv U Ho Hr Hroom Htr l l' A E.
  destruct (C75_delivered c h09 flat wmax evs ms s h09' flat' wmax' evs' ms' more Hc Happ (C66_request_parser s o Hsv U Ho) (heads_some s o Hsv U Ho) (self_alike s o Hsv U)) as (done & rest & Eh & F & G).
  - eapply Forall_impl; [|exact A]. intros g. now apply acceptable_understood.
  - exact E.
  - fold l in F, G. fold l' in F, G. rewrite Eh in *. exists done, rest. split; [reflexivity|]. apply Forall_app in A as [A1 A2]. split.
    + clear - F A1 Hsv U Ho Hr Hroom Htr. induction F as [|g r done rs H F IH]; constructor; [|inversion A1; auto]. inversion A1 as [|? ? A _]; subst. destruct H as (bs & e & H1 & H2 & H3 & H4 & H5).
      destruct (meant s c o room l Hsv U Ho Hr Hroom g bs e r A H1 H2) as (M1 & M2). exists bs, e. rewrite H5. pose proof (trailers_meant s c o room l Htr g (ekind e) (c_title c) A). auto 10.
    + destruct (receiving l') as [r|]; [|exact Logic.I]. destruct G as (g & tail & -> & bs & e & mo & H1 & H2 & H3 & H4). exists g, tail. split; [reflexivity|]. inversion A2 as [|? ? A _]; subst.
      destruct (meant s c o room l Hsv U Ho Hr Hroom g bs e r A H1 H2) as (M1 & M2). exists bs, e, mo. auto 10.
Qed.
Print Assumptions C75_end_to_end.

(* A client that parses with httparse is one of those in question *)
Lemma parsing_client c o : c_server c = false -> parses_with c o -> client_cfg c.
Proof.
  intros Hs U. split; [exact Hs|]. intros me h09 x n m E. rewrite U, Hs in E. unfold role_parse, client_call in E. revert E. generalize (S (length x)) as fuel, 0 as k, (@nil interim) as cb. intros fuel. revert x. induction fuel as [|fuel IH]; intros x k cb E; [discriminate|].
  cbn [parse_response] in E. destruct (client_round o me h09 x) as [r|j i] eqn:Er; [|destruct (dropN j x); [discriminate|exact (IH _ _ _ E)]]. cbn [snd] in E.
  assert (forall k' ver st lines r, response_head o me k' ver st lines = RdStop r -> forall n m, settle (shift k r) = PDone n m -> in_expect m = false) as Q.
  { clear. intros k' ver st lines r Er n m E. unfold response_head in Er. destruct (maybe_unfold o lines) as [ls|]; [|injection Er as <-; discriminate]. destruct (negb _); [injection Er as <-; discriminate|].
    unfold client_parse_head in Er. destruct (client_lines ver ls) as [[hs cs] kp]. destruct (client_decoder ver st hs me) as [[[d up]|]|e]; [|discriminate|injection Er as <-; discriminate]. injection Er as <-. cbn in E. injection E as _ <-. reflexivity. }
  unfold client_round in Er. destruct (h_response o x) as [j a| |e se]; [|injection Er as <-; discriminate|].
  - destruct (negb _); [injection Er as <-; discriminate|]. destruct (negb _); [injection Er as <-; discriminate|]. exact (Q _ _ _ _ _ Er _ _ E).
  - destruct e; try (injection Er as <-; discriminate). destruct h09; [|injection Er as <-; discriminate]. exact (Q _ _ _ _ _ Er _ _ E).
Qed.

(* ---- Examples ---- *)
Definition e2e_post : ohead := mkO HTTP11 (ORequest (B "POST") (B "/a")) [(B "host", [B "h"]); (B "x-note", [B " a "; B "b"]); (B "trailer", [B "x-sum"])] None.
Definition e2e_put : ohead := mkO HTTP11 (ORequest (B "PUT") (B "/b")) [(B "host", [B "h"])] None.
Definition e2e_inp (req : ohead * option body_length) (fr : poll (option (result M_Dispatch.uframe unit))) : inp :=
  mkI 0 false true [WAccept 65536; WAccept 65536; WAccept 65536] false BReady true Pending req fr false (Ready (Ok tt)) [].
Definition e2e_data (x : bytes) : poll (option (result M_Dispatch.uframe unit)) := Ready (Some (Ok (M_Dispatch.UData (Segs false [x])))).
Definition e2e_sum : poll (option (result M_Dispatch.uframe unit)) := Ready (Some (Ok (M_Dispatch.UTrailers [(B "x-sum", [B "1"])]))).
Definition e2e_ask : list move := [Env (ESender SGive); Env (ESender SPush)].
(* A request with four chunks and trailers, its response, a request with a length *)
Definition e2e_moves : list move :=
  e2e_ask ++ steps 7 (e2e_inp (e2e_post, Some Unknown) (e2e_data (B "ab"))) ++ steps 12 (e2e_inp (e2e_post, Some Unknown) e2e_sum) ++
  e2e_ask ++ steps 40 (e2e_inp (e2e_put, Some (Known 6)) (e2e_data (B "xyz"))).
Definition e2e_back : list event := EvPending :: EvData (text_lines [B "HTTP/1.1 200 OK"; B "content-length: 0"; []]) :: repeat EvPending 100.
Definition e2e_log : list levent := history (ref_cfg false) false true 8192 e2e_back e2e_moves.
Definition e2e_given : list gmsg := handed (ref_cfg false) false true 8192 e2e_back e2e_moves.
Lemma e2e_app : app_moves (ref_cfg false) e2e_moves.
Proof.
  assert (forall n i, good_app (ref_cfg false) i -> app_moves (ref_cfg false) (steps n i)) as Q by (intros n i H; induction n; constructor; auto).
  assert (forall x, lenN x <= u64_max -> x <> [] -> forall req, (exists me ta, o_subject (fst req) = ORequest me ta) -> good_app (ref_cfg false) (e2e_inp req (e2e_data x))) as D.
  { intros x Hx Hne req Hreq. split; [exact Hreq|]. split.
    - unfold good_inp, good_data. cbn. split; [now repeat constructor|]. split; [right; apply le_n|]. left. apply le_n.
    - cbn. rewrite app_nil_r. exact Hx. }
  assert (app_moves (ref_cfg false) e2e_ask) as K by (constructor; [exact Logic.I|constructor; [exact Logic.I|constructor]]).
  assert (forall a b, app_moves (ref_cfg false) a -> app_moves (ref_cfg false) b -> app_moves (ref_cfg false) (a ++ b)) as J by (intros a b Ha Hb; apply Forall_app; auto).
  unfold e2e_moves. apply J; [exact K|]. apply J; [apply Q, D; [vm_compute; discriminate|discriminate|eexists _, _; reflexivity]|]. apply J; [apply Q|apply J; [exact K|apply Q, D; [vm_compute; discriminate|discriminate|eexists _, _; reflexivity]]].
  split; [eexists _, _; reflexivity|]. split; [exact Logic.I|]. split; constructor; [intros []|constructor|discriminate|constructor].
Qed.
Lemma token_b n : n <> [] -> forallb (fun b => token_char (to_lower b)) n = true -> token n.
Proof. intros H F. split; [exact H|]. apply Forall_forall. now apply forallb_forall. Qed.
Lemma target_b n : n <> [] -> forallb (fun b => (33 <=? b) && (b <=? 126)) n = true -> plain_target n.
Proof. intros H F. split; [exact H|]. apply Forall_forall. rewrite forallb_forall in F. intros x Hx. apply F in Hx. lia. Qed.
Lemma e2e_ok : Forall (acceptable (ref_cfg true) (ref_cfg false) (ref_hp 100 true) 100 e2e_log) e2e_given.
Proof.
  assert (forall h bs, In (LHead false h bs) e2e_log -> h = e2e_post \/ h = e2e_put) as Q.
  { intros h bs. assert (forall x, In x e2e_log -> match x with LHead _ h _ => h = e2e_post \/ h = e2e_put | _ => True end) as P; [|intros H; exact (P _ H)].
    apply Forall_forall. vm_compute. repeat (apply Forall_cons; [first [exact Logic.I|left; reflexivity|right; reflexivity]|]). apply Forall_nil. }
  assert (forall g n, hm_get_all (o_headers (g_head g)) n <> [] -> forallb (fun x => lenN (fst x) <? 65536) (o_headers (g_head g)) = true -> lenN n < 65536) as Nm.
  { intros g n. generalize (o_headers (g_head g)). induction h as [|(k & vs) h IH]; [contradiction|]. cbn [hm_get_all forallb fst]. destruct (beq k n) eqn:E; intros H F; apply andb_prop in F as [F1 F2]; [apply beq_eq in E; subst k; now apply N.ltb_lt|auto]. }
  unfold e2e_given. set (gs := handed _ _ _ _ _ _). assert (exists g1 g2, gs = [g1; g2] /\ g_head g1 = e2e_post /\ g_len g1 = Some Unknown /\ g_trailers g1 = Some [(B "x-sum", [B "1"])] /\ g_head g2 = e2e_put /\ g_len g2 = Some (Known 6) /\ g_trailers g2 = None) as (g1 & g2 & -> & A1 & A2 & A3 & B1 & B2 & B3).
  { eexists _, _. split; [vm_compute; reflexivity|]. repeat split; reflexivity. }
  constructor; [|constructor; [|constructor]].
  - unfold acceptable. rewrite A1, A2, A3. split; [exists (B "POST"), (B "/a"); split; [reflexivity|]; split; [apply token_b; [discriminate|reflexivity]|]; split; [apply target_b; [discriminate|reflexivity]|]; split; [vm_compute; discriminate|split; reflexivity]|]. split; [now apply headers_okb_ok|]. split; [discriminate|].
    split; [intros n H; apply (Nm g1 n); [rewrite A1; exact H|rewrite A1; reflexivity]|]. split; [constructor|]. split; [intros v []|]. split; [now left|]. split; [intros t E; injection E as <-; now apply headers_okb_ok|].
    intros bs e (h' & me & ta & (Hf & _) & Hs & Hi & E). rewrite A1 in Hf. rewrite A2 in E. assert (h' = e2e_post) as -> by (destruct (Q _ _ Hi) as [->| ->]; [reflexivity|discriminate Hf]).
    injection Hs as <- <-. assert (line_feeds bs <= 102 /\ ekind e = KChunked (Some [B "x-sum"])) as (L0 & ->). { assert (match client_encode (mkCmsg HTTP11 (B "POST") (B "/a") (Some Unknown) (o_headers e2e_post) false None) with Some (x, y) => line_feeds x <= 102 /\ ekind y = KChunked (Some [B "x-sum"]) | None => False end) as Z by (vm_compute; split; [discriminate|reflexivity]). change (client_encode (mkCmsg HTTP11 (B "POST") (B "/a") (Some Unknown) (o_headers e2e_post) false None) = Some (bs, e)) in E. rewrite E in Z. exact Z. }
    split; [exact L0|]. split; [discriminate|]. intros names En. injection En as <-. split; [vm_compute; discriminate|]. vm_compute. reflexivity.
  - unfold acceptable. rewrite B1, B2, B3. split; [exists (B "PUT"), (B "/b"); split; [reflexivity|]; split; [apply token_b; [discriminate|reflexivity]|]; split; [apply target_b; [discriminate|reflexivity]|]; split; [vm_compute; discriminate|split; reflexivity]|]. split; [now apply headers_okb_ok|]. split; [discriminate|].
    split; [intros n H; apply (Nm g2 n); [rewrite B1; exact H|rewrite B1; reflexivity]|]. split; [constructor|]. split; [intros v []|]. split; [now left|]. split; [discriminate|].
    intros bs e (h' & me & ta & (Hf & _) & Hs & Hi & E). rewrite B1 in Hf. rewrite B2 in E. assert (h' = e2e_put) as -> by (destruct (Q _ _ Hi) as [->| ->]; [discriminate Hf|reflexivity]).
    injection Hs as <- <-. assert (line_feeds bs <= 102 /\ ekind e = KLength 6) as (L0 & ->). { assert (match client_encode (mkCmsg HTTP11 (B "PUT") (B "/b") (Some (Known 6)) (o_headers e2e_put) false None) with Some (x, y) => line_feeds x <= 102 /\ ekind y = KLength 6 | None => False end) as Z by (vm_compute; split; [discriminate|reflexivity]). change (client_encode (mkCmsg HTTP11 (B "PUT") (B "/b") (Some (Known 6)) (o_headers e2e_put) false None) = Some (bs, e)) in E. rewrite E in Z. exact Z. }
    split; [exact L0|]. split; [intros n En; injection En as <-; reflexivity|discriminate].
Qed.
(* All of the hypotheses of C75_end_to_end hold, and both requests arrive, the
   bytes cut in pieces of seven *)
Example C75_ex : client_cfg (ref_cfg false) /\ app_moves (ref_cfg false) e2e_moves /\ parses_with (ref_cfg true) (ref_hp 100 true) /\ hp_ok (ref_hp 100 true) /\ reads_requests (ref_hp 100 true) 100 /\ reads_trailers (ref_cfg true) /\
  Forall (acceptable (ref_cfg true) (ref_cfg false) (ref_hp 100 true) 100 e2e_log) e2e_given /\ data_of (cut 100 7 (taken e2e_log)) ++ [] = taken e2e_log /\
  map (fun g => (in_method (msg_head g), msg_data g, msg_trailers g)) (received (history (ref_cfg true) false true 8192 (cut 100 7 (taken e2e_log)) (steps 300 (answer ok200)))) =
    [(Some (B "POST"), B "abababab", Some [(B "x-sum", [B "1"])]); (Some (B "PUT"), B "xyzxyz", None)].
Proof.
  split; [exact (parsing_client (ref_cfg false) _ eq_refl (ref_parses false))|]. split; [exact e2e_app|]. split; [apply ref_parses|]. split; [apply ref_ok|]. split; [apply ref_reads|]. split; [apply ref_trailers|]. split; [exact e2e_ok|]. split; vm_compute; reflexivity.
Qed.
(* ... and what has come of a request in the middle of a chunk *)
Example C75_part_ex : let l' := history (ref_cfg true) false true 8192 [EvData (takeN 108 (taken e2e_log)); EvPending; EvPending; EvPending] (steps 12 (answer ok200)) in
  received l' = [] /\ exists r, receiving l' = Some r /\ msg_data r = B "aba".
Proof. cbv zeta. split; [vm_compute; reflexivity|]. eexists. split; vm_compute; reflexivity. Qed.
Example C75_sent_ex : queued e2e_log <> [] /\ length e2e_given = 2%nat.
Proof. split; [vm_compute; discriminate|vm_compute; reflexivity]. Qed.
