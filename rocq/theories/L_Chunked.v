(* The byte automaton accepts exactly the grammar of S_Chunked. *)
From Verif Require Import Base M_Src M_Decode S_Transport S_Chunked L_Decode.

Lemma hex_digit_spec b : hex_digit b = if is_hex b then Some (hex_val b) else None.
Proof.
  unfold hex_digit, is_hex, hex_val.
  destruct (N.leb_spec 48 b), (N.leb_spec b 57), (N.leb_spec 97 b), (N.leb_spec b 102),
    (N.leb_spec 65 b), (N.leb_spec b 70); cbn [andb orb]; try lia; f_equal; lia.
Qed.
Lemma hex_val_lt b : is_hex b = true -> hex_val b < 16.
Proof.
  unfold is_hex, hex_val.
  destruct (N.leb_spec 48 b), (N.leb_spec b 57), (N.leb_spec 97 b), (N.leb_spec b 102),
    (N.leb_spec 65 b), (N.leb_spec b 70); cbn [andb orb]; intros; try lia; discriminate.
Qed.

Definition hex_acc (n : N) (ds : bytes) : N := fold_left (fun n d => 16 * n + hex_val d) ds n.
Lemma hex_acc_mono ds : forall n, n <= hex_acc n ds.
Proof.
  induction ds as [|d ds IH]; intros n; cbn [hex_acc fold_left]; [lia|].
  specialize (IH (16 * n + hex_val d)). unfold hex_acc in IH. lia.
Qed.

Definition after_line (c : cdec) : cdec := set_cs c (if chunk_len c =? 0 then CEndCr else CBody).
Definition ext_opt_len (e : option bytes) : N := match e with None => 0 | Some x => lenN x end.
Definition render_ext (e : option bytes) : bytes := match e with None => [] | Some e => 59 :: e end.
Definition no_crlf (e : bytes) := Forall (fun b => b <> 13 /\ b <> 10) e.
Definition ext_ok (e : option bytes) := match e with None => True | Some x => no_crlf x end.

Ltac cn := cbn [cs chunk_len ext_cnt tbuf tcnt max_hdrs max_hdr_size set_cs set_len set_ext set_tbuf set_tcnt
                is_body is_end byte_fun app] in *.
Ltac eqbs := repeat match goal with
  | H : (_ =? _) = true |- _ => apply N.eqb_eq in H
  | H : (_ =? _) = false |- _ => apply N.eqb_neq in H
  | H : (_ <=? _) = true |- _ => apply N.leb_le in H
  | H : (_ <=? _) = false |- _ => apply N.leb_gt in H
  | H : (_ <? _) = true |- _ => apply N.ltb_lt in H
  | H : (_ <? _) = false |- _ => apply N.ltb_ge in H
  | H : (_ || _) = true |- _ => apply orb_true_iff in H
  | H : (_ || _) = false |- _ => apply orb_false_iff in H as [? ?]
  | H : (_ && _) = true |- _ => apply andb_true_iff in H as [? ?]
  end.

(* ---------------- forward: rendered lines are consumed ---------------- *)
Lemma fwd_sizelf c l : cs c = CSizeLf -> run c (LF :: l) = run (after_line c) l.
Proof.
  intros Hc. rewrite run_cons by congruence. rewrite Hc. cn. unfold read_size_lf, after_line. cbn [N.eqb LF Pos.eqb].
  destruct (chunk_len c =? 0); apply add_data_nil.
Qed.

Lemma fwd_ext e : forall c l, cs c = CExtension -> no_crlf e -> ext_cnt c + lenN e < CHUNKED_EXTENSIONS_LIMIT ->
  run c (e ++ CRLF ++ l) = run (after_line (set_ext c (ext_cnt c + lenN e))) l.
Proof.
  induction e as [|x e IH]; intros c l Hc He Hl; cbn [app CRLF].
  - rewrite run_cons by congruence. rewrite Hc. cn. unfold read_extension. cbn [N.eqb CR Pos.eqb].
    rewrite add_data_nil. rewrite fwd_sizelf by reflexivity.
    rewrite lenN_nil, N.add_0_r. destruct c; reflexivity.
  - inversion He as [|? ? [Hx1 Hx2] He']; subst. rewrite lenN_cons in Hl.
    rewrite run_cons by congruence. rewrite Hc. cn. unfold read_extension.
    destruct (N.eqb_spec x CR) as [Hq|Hq]; [unfold CR in Hq; lia|]. destruct (N.eqb_spec x LF) as [Hq'|Hq']; [unfold LF in Hq'; lia|].
    cn. destruct (N.leb_spec CHUNKED_EXTENSIONS_LIMIT (ext_cnt c + 1)); [lia|].
    rewrite add_data_nil. change (CR :: LF :: l) with (CRLF ++ l).
    rewrite IH; cn; auto; [|lia].
    rewrite lenN_cons, N.add_assoc. reflexivity.
Qed.

(* after the digits: white space, optional extension, CRLF *)
Lemma fwd_lws ws : forall c e l, (cs c = CSizeLws \/ cs c = CSize) ->
  Forall (fun b => b = 32 \/ b = 9) ws -> ext_ok e -> ext_cnt c + ext_opt_len e < CHUNKED_EXTENSIONS_LIMIT ->
  run c (ws ++ render_ext e ++ CRLF ++ l) = run (after_line (set_ext c (ext_cnt c + ext_opt_len e))) l.
Proof.
  induction ws as [|x ws IH]; intros c e l Hc Hw He Hl; cbn [app].
  - destruct e as [e|]; cbn [render_ext ext_opt_len ext_ok app] in *.
    + rewrite run_cons by (destruct Hc; congruence).
      assert (E : byte_fun (cs c) c 59 = (set_cs c CExtension, None)) by (destruct Hc as [-> | ->]; reflexivity).
      rewrite E. replace (is_body (cs c)) with false by (destruct Hc as [-> | ->]; reflexivity).
      rewrite add_data_nil. rewrite fwd_ext; auto.
    + cbn [CRLF app]. rewrite run_cons by (destruct Hc; congruence).
      assert (E : byte_fun (cs c) c CR = (set_cs c CSizeLf, None)) by (destruct Hc as [-> | ->]; reflexivity).
      rewrite E. replace (is_body (cs c)) with false by (destruct Hc as [-> | ->]; reflexivity).
      rewrite add_data_nil, N.add_0_r, fwd_sizelf by reflexivity. destruct c; reflexivity.
  - inversion Hw as [|? ? Hx Hw']; subst.
    rewrite run_cons by (destruct Hc; congruence).
    assert (E : byte_fun (cs c) c x = (set_cs c CSizeLws, None)).
    { destruct Hx as [-> | ->], Hc as [-> | ->]; reflexivity. }
    rewrite E. replace (is_body (cs c)) with false by (destruct Hc as [-> | ->]; reflexivity).
    rewrite add_data_nil, IH; cn; auto.
Qed.

Lemma push_digit_ok c b : is_hex b = true -> 16 * chunk_len c + hex_val b <= u64_max ->
  push_digit c (hex_val b) = (set_cs (set_len c (16 * chunk_len c + hex_val b)) CSize, None).
Proof.
  intros Hh Hl. unfold push_digit.
  replace (checked_mul (chunk_len c) 16) with (Some (16 * chunk_len c)).
  - replace (checked_add (16 * chunk_len c) (hex_val b)) with (Some (16 * chunk_len c + hex_val b)); [reflexivity|].
    symmetry. apply checked_add_some. lia.
  - symmetry. apply checked_mul_some. lia.
Qed.

Lemma fwd_size ds : forall c ws e l, cs c = CSize ->
  Forall (fun b => is_hex b = true) ds -> hex_acc (chunk_len c) ds <= u64_max ->
  Forall (fun b => b = 32 \/ b = 9) ws -> ext_ok e -> ext_cnt c + ext_opt_len e < CHUNKED_EXTENSIONS_LIMIT ->
  run c (ds ++ ws ++ render_ext e ++ CRLF ++ l) =
  run (after_line (set_ext (set_len c (hex_acc (chunk_len c) ds)) (ext_cnt c + ext_opt_len e))) l.
Proof.
  induction ds as [|x ds IH]; intros c ws e l Hc Hd Hn Hw He Hl; cbn [app].
  - rewrite fwd_lws by auto. cbn. destruct c; reflexivity.
  - inversion Hd as [|? ? Hx Hd']; subst. cbn [hex_acc fold_left] in Hn.
    pose proof (hex_acc_mono ds (16 * chunk_len c + hex_val x)) as Hm. unfold hex_acc in Hm.
    rewrite run_cons by congruence. rewrite Hc. cn. unfold read_size.
    rewrite hex_digit_spec, Hx, push_digit_ok by (auto; lia).
    rewrite add_data_nil, IH; cn; auto.
Qed.

Lemma fwd_line c sl l : cs c = CStart -> chunk_len c = 0 -> valid_line sl ->
  ext_cnt c + lenN (ext_bytes sl) < CHUNKED_EXTENSIONS_LIMIT ->
  run c (render_line sl ++ l) =
  run (after_line (set_ext (set_len c (hex_num (sl_digits sl))) (ext_cnt c + lenN (ext_bytes sl)))) l.
Proof.
  destruct sl as [ds ws e]. unfold valid_line, render_line, ext_bytes; cbn [sl_digits sl_ws sl_ext].
  intros Hc H0 (Hne & Hd & Hw & He & Hn) Hl.
  assert (Hlen : lenN (match e with None => [] | Some e => e end) = ext_opt_len e) by (destruct e; reflexivity).
  rewrite Hlen in *.
  assert (Heo : ext_ok e) by (destruct e; cbn; auto).
  destruct ds as [|x ds]; [congruence|]. inversion Hd as [|? ? Hx Hd']; subst.
  rewrite <- !app_assoc. cbn [app].
  rewrite run_cons by congruence. rewrite Hc. cn. unfold read_start.
  unfold hex_num in *. cbn [fold_left] in *.
  pose proof (hex_acc_mono ds (16 * 0 + hex_val x)) as Hm. unfold hex_acc in Hm.
  rewrite hex_digit_spec, Hx, push_digit_ok by (auto; rewrite H0; lia).
  rewrite add_data_nil. fold (render_ext e). rewrite fwd_size; cn; auto; rewrite H0; auto.
Qed.

Lemma fwd_body c d l : cs c = CBody -> d <> [] -> lenN d = chunk_len c ->
  run c (d ++ CRLF ++ l) = add_data d (run (set_cs (set_len c 0) CStart) l).
Proof.
  intros Hc Hd Hl. rewrite run_body by (auto; lia).
  f_equal. unfold after_body. cn. rewrite Hl, N.sub_diag. cbn [N.ltb N.compare CRLF app].
  rewrite run_cons by (cn; congruence). cn. unfold read_body_cr. cbn [N.eqb CR Pos.eqb]. cn. rewrite add_data_nil.
  rewrite run_cons by (cn; congruence). cn. unfold read_body_lf. cbn [N.eqb LF Pos.eqb]. cn. rewrite add_data_nil.
  reflexivity.
Qed.

Lemma fwd_chunks chs : forall c l, cs c = CStart -> chunk_len c = 0 -> Forall valid_chunk chs ->
  ext_cnt c + fold_right N.add 0 (map (fun c => lenN (ext_bytes (ch_line c))) chs) < CHUNKED_EXTENSIONS_LIMIT ->
  run c (concat (map render_chunk chs) ++ l) =
  add_data (concat (map ch_data chs))
    (run (set_ext c (ext_cnt c + fold_right N.add 0 (map (fun c => lenN (ext_bytes (ch_line c))) chs))) l).
Proof.
  induction chs as [|ch chs IH]; intros c l Hc H0 Hv Hl; cbn [map concat fold_right app] in *.
  - rewrite add_data_nil, N.add_0_r. destruct c; reflexivity.
  - inversion Hv as [|? ? (Hvl & Hd & Hn) Hv']; subst.
    unfold render_chunk at 1. rewrite <- !app_assoc.
    rewrite fwd_line by (auto; lia).
    unfold after_line. cn. rewrite fwd_body; auto; cn.
    + rewrite IH; cn; auto; [|lia].
      rewrite add_data_app, N.add_assoc. do 2 f_equal. destruct c; cbn in Hc, H0; subst; reflexivity.
    + rewrite Hn. pose proof (lenN_pos _ Hd). destruct (N.eqb_spec (lenN (ch_data ch)) 0); [lia|reflexivity].
Qed.

(* trailers *)
Definition old (c : cdec) : bytes := match tbuf c with None => [] | Some b => b end.

Lemma put_u8_ok c buf b k : lenN buf + 1 < max_hdr_size c ->
  put_u8 c buf b k = k (set_tbuf c (Some (buf ++ [b]))).
Proof.
  intros Hl. unfold put_u8. cn. rewrite lenN_app, lenN_cons, lenN_nil.
  destruct (N.leb_spec (max_hdr_size c) (lenN buf + (1 + 0))); [lia|reflexivity].
Qed.

Lemma fwd_trailer line : forall c buf l, cs c = CTrailer -> tbuf c = Some buf -> ~ In 13 line ->
  tcnt c < max_hdrs c -> lenN buf + lenN line + 2 < max_hdr_size c ->
  run c (line ++ CRLF ++ l) =
  run (set_cs (set_tbuf (set_tcnt c (tcnt c + 1)) (Some (buf ++ line ++ CRLF))) CEndCr) l.
Proof.
  induction line as [|x line IH]; intros c buf l Hc Hb Hi Ht Hl; cbn [app CRLF].
  - rewrite lenN_nil in Hl.
    rewrite run_cons by congruence. rewrite Hc. cn. unfold read_trailer. rewrite Hb, put_u8_ok by lia.
    cbn [N.eqb CR Pos.eqb]. rewrite add_data_nil. rewrite run_cons by (cn; congruence). cn.
    unfold read_trailer_lf. cbn [N.eqb LF Pos.eqb]. cn.
    destruct (N.leb_spec (max_hdrs c) (tcnt c)); [lia|]. rewrite put_u8_ok by (cn; rewrite lenN_app, lenN_cons, lenN_nil; lia).
    rewrite add_data_nil. cn. rewrite <- app_assoc. reflexivity.
  - rewrite lenN_cons in Hl. cbn [In] in Hi.
    rewrite run_cons by congruence. rewrite Hc. cn. unfold read_trailer. rewrite Hb, put_u8_ok by lia.
    destruct (N.eqb_spec x CR) as [->|Hx]; [unfold CR in Hi; tauto|].
    rewrite add_data_nil. change (CR :: LF :: l) with (CRLF ++ l).
    rewrite (IH _ (buf ++ [x])); cn; auto; [|rewrite lenN_app, lenN_cons, lenN_nil; lia].
    rewrite <- app_assoc. reflexivity.
Qed.

Lemma fwd_trailer_line line c l : cs c = CEndCr -> valid_trailer line ->
  tcnt c < max_hdrs c -> lenN (old c) + lenN line + 2 < max_hdr_size c ->
  run c (line ++ CRLF ++ l) =
  run (set_cs (set_tbuf (set_tcnt c (tcnt c + 1)) (Some (old c ++ line ++ CRLF))) CEndCr) l.
Proof.
  intros Hc [Hne Hi] Ht Hl. destruct line as [|x line]; [congruence|]. cbn [In] in Hi. rewrite lenN_cons in Hl.
  cbn [app]. rewrite run_cons by congruence. rewrite Hc. cn. unfold read_end_cr, old in *.
  destruct (N.eqb_spec x CR) as [->|Hx]; [unfold CR in Hi; tauto|].
  destruct (tbuf c) as [b|] eqn:Eb.
  - rewrite put_u8_ok by lia. rewrite add_data_nil.
    rewrite (fwd_trailer _ _ (b ++ [x])); cn; auto; [|rewrite lenN_app, lenN_cons, lenN_nil; lia].
    rewrite <- app_assoc. reflexivity.
  - rewrite lenN_nil in Hl. rewrite add_data_nil. rewrite (fwd_trailer _ _ [x]); cn; auto; rewrite lenN_cons, lenN_nil; lia.
Qed.

Definition final (c : cdec) (block : bytes) (n : N) (t : option bytes) : cdec :=
  mkC CEnd (chunk_len c) (ext_cnt c) t n (max_hdrs c) (max_hdr_size c).

Lemma fwd_trailers ls : forall c l, cs c = CEndCr -> Forall valid_trailer ls ->
  tcnt c + lenN ls <= max_hdrs c ->
  (ls <> [] \/ tbuf c <> None -> lenN (old c) + lenN (trailer_lines ls ++ CRLF) < max_hdr_size c) ->
  run c (trailer_lines ls ++ CRLF ++ l) =
  ([], ODone (mkC CEnd (chunk_len c) (ext_cnt c)
                (match ls, tbuf c with [], None => None | _, _ => Some (old c ++ trailer_lines ls ++ CRLF) end)
                (tcnt c + lenN ls) (max_hdrs c) (max_hdr_size c)) l).
Proof.
  unfold trailer_lines.
  induction ls as [|x ls IH]; intros c l Hc Hv Hn Hl; cbn [map concat] in *.
  - change ([] ++ CRLF ++ l) with (CR :: LF :: l). change ([] ++ CRLF) with CRLF in *.
    rewrite lenN_nil, N.add_0_r. rewrite run_cons by congruence. rewrite Hc. cn. unfold read_end_cr, old in *.
    cbn [N.eqb CR Pos.eqb]. destruct (tbuf c) as [b|] eqn:Eb; rewrite ?Eb in Hl.
    + unshelve epose proof (Hl _) as Hl2; [right; discriminate|clear Hl; rename Hl2 into Hl]. change (lenN CRLF) with 2 in *.
      rewrite put_u8_ok by lia. rewrite add_data_nil, run_cons by (cn; congruence). cn. unfold read_end_lf.
      cbn [N.eqb LF Pos.eqb]. cn. rewrite put_u8_ok by (cn; rewrite lenN_app, lenN_cons, lenN_nil; lia).
      rewrite add_data_nil, run_end by reflexivity. cn. rewrite <- app_assoc. reflexivity.
    + rewrite add_data_nil, run_cons by (cn; congruence). cn. unfold read_end_lf.
      cbn [N.eqb LF Pos.eqb]. cn. rewrite Eb. rewrite add_data_nil, run_end by reflexivity. cn. destruct c; cbn in Eb; subst; reflexivity.
  - inversion Hv as [|? ? Hx Hv']; subst. rewrite lenN_cons in Hn.
    unshelve epose proof (Hl _) as Hl2; [left; discriminate|clear Hl; rename Hl2 into Hl]. rewrite !lenN_app in Hl. change (lenN CRLF) with 2 in *.
    rewrite <- !app_assoc.
    rewrite fwd_trailer_line; auto; [| lia | lia].
    rewrite IH; cn; auto; [|lia|].
    + change (old (set_cs (set_tbuf ?y (Some ?z)) ?s)) with z. rewrite lenN_cons, <- !app_assoc, N.add_assoc. destruct ls; reflexivity.
    + intros _. change (old (set_cs (set_tbuf ?y (Some ?z)) ?s)) with z. rewrite !lenN_app in *. change (lenN CRLF) with 2 in *. lia.
Qed.

Definition init_c (mh ms : N) : cdec := mkC CStart 0 0 None 0 mh ms.
Definition done_c (mh ms : N) (b : chunked_body) : cdec :=
  mkC CEnd 0 (ext_total b) (trailer_block (cb_trailers b)) (lenN (cb_trailers b)) mh ms.

Theorem run_complete mh ms b rest : valid b -> within_limits CHUNKED_EXTENSIONS_LIMIT mh ms b ->
  run (init_c mh ms) (render b ++ rest) = (body_data b, ODone (done_c mh ms b) rest).
Proof.
  intros (Hch & Hl & Hz & Ht) (Le & Lt & Lb). unfold render, ext_total in *. rewrite <- !app_assoc.
  unfold init_c.
  rewrite fwd_chunks; cn; auto; [|lia].
  rewrite fwd_line; cn; auto.
  rewrite Hz. unfold after_line. cn. cbn [N.eqb].
  rewrite fwd_trailers; cn; auto.
  - unfold add_data; cbn [fst snd]. rewrite app_nil_r. unfold body_data, done_c, trailer_block, ext_total.
    reflexivity.
  - cbn. unfold trailer_block in Lb. destruct (cb_trailers b); [intros [|]; congruence|]. intros _.
    cbn [lenN length N.of_nat] in *. exact Lb.
Qed.

(* ---------------- backward: accepted streams are rendered bodies ---------------- *)
Definition accepts (c : cdec) (l : bytes) (d : bytes) (cf : cdec) (rest : bytes) : Prop :=
  run c l = (d, ODone cf rest).

Lemma acc_nil c d cf rest : cs c <> CEnd -> ~ accepts c [] d cf rest.
Proof. unfold accepts. intros H. rewrite run_nil by auto. congruence. Qed.

Lemma acc_cons c b l d cf rest : cs c <> CEnd -> cs c <> CBody -> accepts c (b :: l) d cf rest ->
  exists c', byte_fun (cs c) c b = (c', None) /\ accepts c' l d cf rest.
Proof.
  unfold accepts. intros He Hb. rewrite run_cons by auto.
  destruct (byte_fun (cs c) c b) as [c' [e|]]; [congruence|].
  replace (is_body (cs c)) with false by (destruct (cs c); try reflexivity; congruence).
  rewrite add_data_nil. eauto.
Qed.

Lemma bwd_sizelf c l d cf rest : cs c = CSizeLf -> accepts c l d cf rest ->
  exists l', l = LF :: l'.
Proof.
  intros Hc Ha. destruct l as [|x l]; [apply acc_nil in Ha; [tauto|congruence]|].
  apply acc_cons in Ha as (c' & Hb & _); try congruence. rewrite Hc in Hb. cn. unfold read_size_lf in Hb.
  destruct (N.eqb_spec x LF); [subst; eauto|congruence].
Qed.

Lemma bwd_ext l : forall c d cf rest, cs c = CExtension -> ext_cnt c < CHUNKED_EXTENSIONS_LIMIT ->
  accepts c l d cf rest ->
  exists e l', l = e ++ CRLF ++ l' /\ no_crlf e /\ ext_cnt c + lenN e < CHUNKED_EXTENSIONS_LIMIT.
Proof.
  induction l as [|x l IH]; intros c d cf rest Hc Hx Ha; [apply acc_nil in Ha; [tauto|congruence]|].
  apply acc_cons in Ha as (c' & Hb & Ha); try congruence. rewrite Hc in Hb. cn. unfold read_extension in Hb.
  destruct (N.eqb_spec x CR) as [->|Hcr].
  - inversion Hb; subst. apply bwd_sizelf in Ha as (l' & ->); [|reflexivity].
    exists [], l'. rewrite lenN_nil, N.add_0_r. repeat split; auto. constructor.
  - destruct (N.eqb_spec x LF) as [->|Hlf]; [congruence|]. cn.
    destruct (N.leb_spec CHUNKED_EXTENSIONS_LIMIT (ext_cnt c + 1)) as [Hge|Hlt]; inversion Hb; subst.
    apply IH in Ha as (e & l' & -> & He & Hlen); cn; auto.
    exists (x :: e), l'. rewrite lenN_cons. repeat split; auto; [|lia].
    constructor; auto.
Qed.

Lemma bwd_lws l : forall c d cf rest, cs c = CSizeLws -> ext_cnt c < CHUNKED_EXTENSIONS_LIMIT ->
  accepts c l d cf rest ->
  exists ws e l', l = ws ++ render_ext e ++ CRLF ++ l' /\ Forall (fun b => b = 32 \/ b = 9) ws /\ ext_ok e
     /\ ext_cnt c + ext_opt_len e < CHUNKED_EXTENSIONS_LIMIT.
Proof.
  induction l as [|x l IH]; intros c d cf rest Hc Hx Ha; [apply acc_nil in Ha; [tauto|congruence]|].
  apply acc_cons in Ha as (c' & Hb & Ha); try congruence. rewrite Hc in Hb. cn. unfold read_size_lws in Hb.
  destruct ((x =? TAB) || (x =? SP)) eqn:Ews; [|destruct (N.eqb_spec x 59) as [->|]; [|destruct (N.eqb_spec x CR) as [->|]]];
    inversion Hb; subst.
  - apply IH in Ha as (ws & e & l' & -> & Hws & He & Hlen); cn; auto.
    exists (x :: ws), e, l'. repeat split; auto. constructor; auto.
    apply orb_true_iff in Ews as [E|E]; apply N.eqb_eq in E; auto.
  - apply bwd_ext in Ha as (e & l' & -> & He & Hlen); cn; auto.
    exists [], (Some e), l'. repeat split; auto.
  - apply bwd_sizelf in Ha as (l' & ->); cn; auto.
    exists [], None, l'. cbn [ext_opt_len]. rewrite N.add_0_r. repeat split; auto.
Qed.

Lemma push_digit_inv c v c' : push_digit c v = (c', None) ->
  c' = set_cs (set_len c (16 * chunk_len c + v)) CSize /\ 16 * chunk_len c + v <= u64_max.
Proof.
  unfold push_digit. destruct (checked_mul (chunk_len c) 16) as [m|] eqn:Em; [|congruence].
  apply checked_mul_some in Em as [-> _]. cn.
  destruct (checked_add (chunk_len c * 16) v) as [m'|] eqn:Ea; [|congruence].
  apply checked_add_some in Ea as [-> Hle]. intros E; inversion E; subst.
  rewrite (N.mul_comm 16). split; [reflexivity|lia].
Qed.

Lemma bwd_size l : forall c d cf rest, cs c = CSize -> ext_cnt c < CHUNKED_EXTENSIONS_LIMIT ->
  chunk_len c <= u64_max ->
  accepts c l d cf rest ->
  exists ds ws e l', l = ds ++ ws ++ render_ext e ++ CRLF ++ l' /\
     Forall (fun b => is_hex b = true) ds /\ hex_acc (chunk_len c) ds <= u64_max /\
     Forall (fun b => b = 32 \/ b = 9) ws /\ ext_ok e
     /\ ext_cnt c + ext_opt_len e < CHUNKED_EXTENSIONS_LIMIT.
Proof.
  induction l as [|x l IH]; intros c d cf rest Hc Hx Hle Ha; [apply acc_nil in Ha; [tauto|congruence]|].
  apply acc_cons in Ha as (c' & Hb & Ha); try congruence. rewrite Hc in Hb. cn. unfold read_size in Hb.
  rewrite hex_digit_spec in Hb. destruct (is_hex x) eqn:Eh.
  - apply push_digit_inv in Hb as [-> Hov].
    apply IH in Ha as (ds & ws & e & l' & -> & Hd & Hn & Hws & He & Hlen); cn; auto.
    exists (x :: ds), ws, e, l'. repeat split; auto.
  - destruct ((x =? TAB) || (x =? SP)) eqn:Ews; [|destruct (N.eqb_spec x 59) as [->|]; [|destruct (N.eqb_spec x CR) as [->|]]];
      inversion Hb; subst.
    + apply bwd_lws in Ha as (ws & e & l' & -> & Hws & He & Hlen); cn; auto.
      exists [], (x :: ws), e, l'. repeat split; auto. constructor; auto.
      apply orb_true_iff in Ews as [E|E]; apply N.eqb_eq in E; auto.
    + apply bwd_ext in Ha as (e & l' & -> & He & Hlen); cn; auto.
      exists [], [], (Some e), l'. repeat split; auto.
    + apply bwd_sizelf in Ha as (l' & ->); cn; auto.
      exists [], [], None, l'. cbn [ext_opt_len]. rewrite N.add_0_r. repeat split; auto.
Qed.

Lemma bwd_line l c d cf rest : cs c = CStart -> chunk_len c = 0 -> ext_cnt c < CHUNKED_EXTENSIONS_LIMIT ->
  accepts c l d cf rest ->
  exists sl l', l = render_line sl ++ l' /\ valid_line sl /\ ext_cnt c + lenN (ext_bytes sl) < CHUNKED_EXTENSIONS_LIMIT
   /\ accepts (after_line (set_ext (set_len c (hex_num (sl_digits sl))) (ext_cnt c + lenN (ext_bytes sl)))) l' d cf rest.
Proof.
  intros Hc H0 Hx Ha. pose proof Ha as Hacc.
  destruct l as [|x l]; [apply acc_nil in Ha; [tauto|congruence]|].
  apply acc_cons in Ha as (c' & Hb & Ha); try congruence. rewrite Hc in Hb. cn. unfold read_start in Hb.
  rewrite hex_digit_spec in Hb. destruct (is_hex x) eqn:Eh; [|congruence].
  apply push_digit_inv in Hb as [-> Hov]. rewrite H0 in *.
  apply bwd_size in Ha as (ds & ws & e & l' & -> & Hd & Hn & Hws & He & Hlen); cn; auto.
  assert (Hlen' : lenN (ext_bytes (mkLine (x :: ds) ws e)) = ext_opt_len e) by (destruct e; reflexivity).
  assert (Hv : valid_line (mkLine (x :: ds) ws e)).
  { repeat split; cbn [sl_digits sl_ws sl_ext]; auto; [congruence|].
    unfold ext_bytes. cbn [sl_ext]. destruct e; [exact He|constructor]. }
  assert (Heq : x :: ds ++ ws ++ render_ext e ++ CRLF ++ l' = render_line (mkLine (x :: ds) ws e) ++ l').
  { unfold render_line. cbn [sl_digits sl_ws sl_ext]. rewrite <- !app_assoc. reflexivity. }
  exists (mkLine (x :: ds) ws e), l'. rewrite Hlen'. repeat split; auto; try apply Hv.
  unfold accepts in *. rewrite Heq in Hacc. rewrite fwd_line in Hacc; auto; [|rewrite Hlen'; auto].
  rewrite Hlen' in Hacc. exact Hacc.
Qed.

Lemma bwd_body c l d cf rest : cs c = CBody -> 0 < chunk_len c -> accepts c l d cf rest ->
  exists data l' d', l = data ++ CRLF ++ l' /\ lenN data = chunk_len c /\ data <> [] /\ d = data ++ d'
    /\ accepts (set_cs (set_len c 0) CStart) l' d' cf rest.
Proof.
  intros Hc Hp Ha. pose proof Ha as Hacc. unfold accepts in *.
  rewrite <- (takeN_dropN (chunk_len c) l) in Ha.
  pose proof (takeN_len (chunk_len c) l) as Htl.
  destruct (takeN (chunk_len c) l) as [|x t] eqn:Et.
  { rewrite lenN_nil in Htl. assert (lenN l = 0) by lia. apply lenN_0 in H. subst.
    rewrite run_nil in Hacc; congruence. }
  rewrite run_body in Ha by (auto; try congruence; lia).
  destruct (N.le_gt_cases (chunk_len c) (lenN l)) as [Hge|Hlt].
  2: { assert (dropN (chunk_len c) l = []) as Hd0 by (apply dropN_all; lia). rewrite Hd0 in Ha.
       rewrite run_nil in Ha; [unfold add_data in Ha; cbn in Ha; congruence|].
       unfold after_body. cn. destruct (_ <? _); cn; congruence. }
  rewrite N.min_l in Htl by lia.
  unfold after_body in Ha. cn. rewrite Htl, N.sub_diag in Ha. cbn [N.ltb N.compare] in Ha.
  set (c1 := set_cs (set_len c 0) CBodyCr) in *.
  destruct (run c1 (dropN (chunk_len c) l)) as [d' o] eqn:Er. unfold add_data in Ha. cbn [fst snd] in Ha.
  inversion Ha; subst d o.
  assert (Ha1 : accepts c1 (dropN (chunk_len c) l) d' cf rest) by exact Er.
  subst c1.
  destruct (dropN (chunk_len c) l) as [|y1 l1] eqn:Ed; [apply acc_nil in Ha1; [tauto|cn; congruence]|].
  apply acc_cons in Ha1 as (c2 & Hb & Ha2); try (cn; congruence). cn. unfold read_body_cr in Hb.
  destruct (N.eqb_spec y1 CR) as [->|]; [|congruence]. inversion Hb; subst c2. clear Hb.
  destruct l1 as [|y2 l2]; [apply acc_nil in Ha2; [tauto|cn; congruence]|].
  apply acc_cons in Ha2 as (c3 & Hb & Ha3); try (cn; congruence). cn. unfold read_body_lf in Hb.
  destruct (N.eqb_spec y2 LF) as [->|]; [|congruence]. inversion Hb; subst c3. clear Hb.
  exists (x :: t), l2, d'. repeat split; auto; try congruence.
  rewrite <- (takeN_dropN (chunk_len c) l), Et, Ed. reflexivity.
Qed.

Lemma bwd_trailer l : forall c buf d cf rest, cs c = CTrailer -> tbuf c = Some buf -> accepts c l d cf rest ->
  exists line l', l = line ++ CRLF ++ l' /\ ~ In 13 line /\ tcnt c < max_hdrs c
    /\ accepts (set_cs (set_tbuf (set_tcnt c (tcnt c + 1)) (Some (buf ++ line ++ CRLF))) CEndCr) l' d cf rest.
Proof.
  induction l as [|x l IH]; intros c buf d cf rest Hc Hb0 Ha; [apply acc_nil in Ha; [tauto|congruence]|].
  apply acc_cons in Ha as (c' & Hb & Ha); try congruence. rewrite Hc in Hb. cn. unfold read_trailer in Hb.
  rewrite Hb0 in Hb. apply put_u8_inv in Hb as [Hb _].
  destruct (N.eqb_spec x CR) as [->|Hx]; inversion Hb; subst c'; clear Hb.
  - destruct l as [|y l]; [apply acc_nil in Ha; [tauto|cn; congruence]|].
    apply acc_cons in Ha as (c' & Hb & Ha); try (cn; congruence). cn. unfold read_trailer_lf in Hb.
    destruct (N.eqb_spec y LF) as [->|]; [|congruence]. cn.
    destruct (N.leb_spec (max_hdrs c) (tcnt c)) as [|Hlt]; [congruence|].
    apply put_u8_inv in Hb as [Hb _]. inversion Hb; subst c'; clear Hb.
    exists [], l. repeat split; auto. cn. rewrite <- app_assoc in Ha. exact Ha.
  - apply (IH _ (buf ++ [x])) in Ha as (line & l' & -> & Hi & Hn & Ha); cn; auto.
    exists (x :: line), l'. repeat split; auto.
    + cbn [In]. intros [->|]; tauto.
    + rewrite <- app_assoc in Ha. exact Ha.
Qed.

Lemma bwd_trailers n : forall l c d cf rest, (length l <= n)%nat -> cs c = CEndCr -> tcnt c <= max_hdrs c ->
  accepts c l d cf rest ->
  exists ls, l = trailer_lines ls ++ CRLF ++ rest /\ Forall valid_trailer ls /\ d = []
    /\ tcnt c + lenN ls <= max_hdrs c
    /\ (ls <> [] \/ tbuf c <> None -> lenN (old c) + lenN (trailer_lines ls ++ CRLF) < max_hdr_size c).
Proof.
  induction n as [|n IH]; intros l c d cf rest Hlen Hc Hcnt Ha.
  { destruct l; [apply acc_nil in Ha; [tauto|congruence]|cbn in Hlen; lia]. }
  destruct l as [|x l]; [apply acc_nil in Ha; [tauto|congruence]|]. cbn [length] in Hlen.
  apply acc_cons in Ha as (c' & Hb & Ha); try congruence. rewrite Hc in Hb. cn. unfold read_end_cr in Hb.
  destruct (N.eqb_spec x CR) as [->|Hx].
  - (* end *)
    exists []. cbn [trailer_lines map concat app CRLF]. rewrite lenN_nil, N.add_0_r.
    destruct (tbuf c) as [b|] eqn:Eb.
    + apply put_u8_inv in Hb as [Hb Hl1]. inversion Hb; subst c'; clear Hb.
      destruct l as [|y l]; [apply acc_nil in Ha; [tauto|cn; congruence]|].
      apply acc_cons in Ha as (c' & Hb & Ha); try (cn; congruence). cn. unfold read_end_lf in Hb.
      destruct (N.eqb_spec y LF) as [->|]; [|congruence]. cn.
      apply put_u8_inv in Hb as [Hb Hl2]. inversion Hb; subst c'; clear Hb.
      unfold accepts in Ha. rewrite run_end in Ha by reflexivity. inversion Ha; subst. cn.
      repeat split; auto. intros _. unfold old. rewrite Eb. rewrite lenN_app, lenN_cons, lenN_nil in Hl2.
      unfold CRLF. rewrite ?app_nil_l, !lenN_cons, !lenN_nil. lia.
    + inversion Hb; subst c'; clear Hb.
      destruct l as [|y l]; [apply acc_nil in Ha; [tauto|cn; congruence]|].
      apply acc_cons in Ha as (c' & Hb & Ha); try (cn; congruence). cn. unfold read_end_lf in Hb.
      destruct (N.eqb_spec y LF) as [->|]; [|congruence]. cn. rewrite Eb in Hb.
      inversion Hb; subst c'; clear Hb.
      unfold accepts in Ha. rewrite run_end in Ha by reflexivity. inversion Ha; subst.
      repeat split; auto. intros [|]; congruence.
  - assert (Hc' : cs c' = CTrailer /\ tbuf c' = Some (old c ++ [x]) /\
       c' = set_cs (set_tbuf c (Some (old c ++ [x]))) CTrailer).
    { unfold old. destruct (tbuf c) as [b|] eqn:Eb.
      - apply put_u8_inv in Hb as [Hb _]. inversion Hb; auto.
      - inversion Hb; auto. }
    destruct Hc' as (Hc1 & Hc2 & Hc3).
    apply (bwd_trailer _ _ (old c ++ [x])) in Ha as (line & l' & Hl' & Hi & Hn & Ha); auto.
    subst c'. cn. subst l.
    apply IH in Ha; cn; auto; [| rewrite !app_length in Hlen; cbn in Hlen; lia | lia].
    destruct Ha as (ls & -> & Hls & -> & Hcnt' & Hsz).
    exists ((x :: line) :: ls). repeat split; auto.
    + unfold trailer_lines at 2. cbn [map concat app]. rewrite <- !app_assoc. reflexivity.
    + constructor; auto. split; [congruence|]. cbn [In]. intros [->|]; tauto.
    + rewrite lenN_cons. lia.
    + intros _. unshelve epose proof (Hsz _) as Hsz2; [right; discriminate|clear Hsz; rename Hsz2 into Hsz]. unfold old in Hsz at 1. cn.
      unfold trailer_lines at 1. cbn [map concat]. fold (trailer_lines ls).
      rewrite !lenN_app, ?lenN_cons, ?lenN_nil in *. cbn [length] in *. change (lenN CRLF) with 2 in *.
      rewrite ?lenN_app, ?lenN_cons in *. change (lenN CRLF) with 2 in *. lia.
Qed.

Lemma bwd_chunks n : forall l c d cf rest, (length l <= n)%nat -> cs c = CStart -> chunk_len c = 0 ->
  ext_cnt c < CHUNKED_EXTENSIONS_LIMIT -> tbuf c = None -> tcnt c = 0 -> accepts c l d cf rest ->
  exists b, l = render b ++ rest /\ valid b /\ d = body_data b /\
    ext_cnt c + ext_total b < CHUNKED_EXTENSIONS_LIMIT /\
    lenN (cb_trailers b) <= max_hdrs c /\
    match trailer_block (cb_trailers b) with None => True | Some t => lenN t < max_hdr_size c end.
Proof.
  induction n as [|n IH]; intros l c d cf rest Hlen Hc H0 Hx Htb Htc Ha.
  { destruct l; [apply acc_nil in Ha; [tauto|congruence]|cbn in Hlen; lia]. }
  apply bwd_line in Ha as (sl & l' & -> & Hvl & Hext & Ha); auto.
  unfold after_line in Ha. cn. destruct (N.eqb_spec (hex_num (sl_digits sl)) 0) as [Hz|Hnz].
  - apply (bwd_trailers (length l')) in Ha; auto; cn; [|lia].
    destruct Ha as (ls & -> & Hls & -> & Hcnt & Hsz).
    exists (mkBody [] sl ls). unfold render, valid, body_data, ext_total. cbn [cb_chunks cb_last cb_trailers map concat fold_right app].
    rewrite Htc in Hcnt. unfold old in Hsz. cn. rewrite Htb, lenN_nil in Hsz.
    repeat split; auto; try apply Hvl; try lia.
    + rewrite <- !app_assoc. reflexivity.
    + unfold trailer_block. destruct ls; auto. apply Hsz. left; congruence.
  - apply bwd_body in Ha; auto; cn; [|lia].
    destruct Ha as (data & l1 & d' & -> & Hdl & Hdn & -> & Ha).
    apply IH in Ha; cn; auto.
    + destruct Ha as (b & -> & (Hv1 & Hv2 & Hv3 & Hv4) & -> & Hex & Htl & Htbk).
      exists (mkBody (mkChunk sl data :: cb_chunks b) (cb_last b) (cb_trailers b)).
      unfold render, valid, body_data, ext_total in *. cbn [cb_chunks cb_last cb_trailers map concat fold_right app ch_line ch_data].
      repeat split; auto; try apply Hv2; try lia.
      * unfold render_chunk at 2. cbn [ch_line ch_data]. rewrite <- !app_assoc. reflexivity.
      * constructor; auto. split; cbn [ch_line ch_data]; auto.
    + rewrite !app_length in Hlen. assert (0 < length (render_line sl))%nat.
      { destruct Hvl as [Hne _]. unfold render_line. destruct (sl_digits sl); [congruence|cbn; lia]. }
      lia.
Qed.

Theorem run_sound mh ms l d cf rest : run (init_c mh ms) l = (d, ODone cf rest) ->
  exists b, l = render b ++ rest /\ valid b /\ within_limits CHUNKED_EXTENSIONS_LIMIT mh ms b /\ d = body_data b
    /\ cf = done_c mh ms b.
Proof.
  intros Ha. pose proof Ha as Ha0. apply (bwd_chunks (length l)) in Ha; cn; auto; [|reflexivity].
  destruct Ha as (b & -> & Hv & -> & Hex & Htl & Htb). cbn in *.
  assert (Hw : within_limits CHUNKED_EXTENSIONS_LIMIT mh ms b) by (repeat split; auto).
  exists b. repeat split; auto; try apply Hv; try apply Hw.
  rewrite run_complete in Ha0 by auto. congruence.
Qed.
