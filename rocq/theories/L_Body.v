(* Whole-body facts: unambiguity of the grammar, limits, no panics. *)
From Verif Require Import Base M_Src M_Decode M_HeaderMap M_Encode M_Httparse S_Transport S_Chunked S_Send
  L_Decode L_Chunked L_Encode L_Encode2.

(* ---------------- the grammar is unambiguous ---------------- *)
Lemma span_unique (P : N -> Prop) a : forall b a' b',
  Forall P a -> Forall P a' ->
  (forall x r, b = x :: r -> ~ P x) -> (forall x r, b' = x :: r -> ~ P x) ->
  b <> [] -> b' <> [] ->
  a ++ b = a' ++ b' -> a = a' /\ b = b'.
Proof.
  induction a as [|x a IH]; intros b a' b' Ha Ha' Hb Hb' Hn Hn' E.
  - destruct a' as [|y a']; [auto|]. cbn [app] in E. subst b. inversion Ha'; subst.
    exfalso. eapply Hb; eauto.
  - destruct a' as [|y a']; cbn [app] in E.
    + subst b'. inversion Ha; subst. exfalso. eapply Hb'; eauto.
    + inversion E; subst. inversion Ha; inversion Ha'; subst.
      destruct (IH b a' b') as [-> ->]; auto.
Qed.

Lemma app_length_inj {A} (a b a' b' : list A) : length a = length a' -> a ++ b = a' ++ b' -> a = a' /\ b = b'.
Proof.
  revert a'. induction a as [|x a IH]; intros [|y a'] Hl E; cbn in *; try discriminate; auto.
  inversion E; subst. destruct (IH a') as [-> ->]; auto.
Qed.

Lemma render_line_unique l l' r r' : valid_line l -> valid_line l' ->
  render_line l ++ r = render_line l' ++ r' -> l = l' /\ r = r'.
Proof.
  intros (Hn & Hd & Hw & He & _) (Hn' & Hd' & Hw' & He' & _) E.
  destruct l as [ds ws ext], l' as [ds' ws' ext']. unfold render_line, ext_bytes in *. cbn [sl_digits sl_ws sl_ext] in *.
  rewrite <- !app_assoc in E.
  apply (span_unique (fun b => is_hex b = true)) in E as [-> E]; auto.
  - apply (span_unique (fun b => b = 32 \/ b = 9)) in E as [-> E]; auto.
    + destruct ext as [e|], ext' as [e'|]; unfold CRLF in E; cbn [app] in E; try discriminate.
      * inversion E as [E']. apply (span_unique (fun b => b <> 13 /\ b <> 10)) in E' as [-> E'']; auto; try discriminate.
        -- inversion E''. auto.
        -- intros x r0 Ex. inversion Ex. unfold CR. tauto.
        -- intros x r0 Ex. inversion Ex. unfold CR. tauto.
      * inversion E. auto.
    + intros x r0. destruct ext; unfold CRLF, CR; cbn [app]; intros Ex; inversion Ex; lia.
    + intros x r0. destruct ext'; unfold CRLF, CR; cbn [app]; intros Ex; inversion Ex; lia.
    + destruct ext; discriminate.
    + destruct ext'; discriminate.
  - intros x r0 Ex. destruct ws as [|w ws].
    + destruct ext; unfold CRLF in Ex; cbn [app] in Ex; inversion Ex; discriminate.
    + inversion Ex; subst. inversion Hw; subst. destruct H1 as [->| ->]; discriminate.
  - intros x r0 Ex. destruct ws' as [|w ws'].
    + destruct ext'; unfold CRLF in Ex; cbn [app] in Ex; inversion Ex; discriminate.
    + inversion Ex; subst. inversion Hw'; subst. destruct H1 as [->| ->]; discriminate.
  - destruct ws; destruct ext; discriminate.
  - destruct ws'; destruct ext'; discriminate.
Qed.

Lemma trailer_lines_unique ls : forall ls' r r', Forall valid_trailer ls -> Forall valid_trailer ls' ->
  trailer_lines ls ++ CRLF ++ r = trailer_lines ls' ++ CRLF ++ r' -> ls = ls' /\ r = r'.
Proof.
  induction ls as [|l ls IH]; intros ls' r r' H H' E; destruct ls' as [|l' ls'].
  - inversion E. auto.
  - exfalso. inversion H' as [|? ? [Hne Hcr] _]; subst. unfold trailer_lines in E. cbn [map concat] in E.
    destruct l' as [|x l']; [congruence|]. inversion E. apply Hcr. now left.
  - exfalso. inversion H as [|? ? [Hne Hcr] _]; subst. unfold trailer_lines in E. cbn [map concat] in E.
    destruct l as [|x l]; [congruence|]. inversion E. apply Hcr. now left.
  - inversion H as [|? ? [Hne Hcr] Hl]; subst. inversion H' as [|? ? [Hne' Hcr'] Hl']; subst.
    unfold trailer_lines in E. cbn [map concat] in E. fold (trailer_lines ls) in E. fold (trailer_lines ls') in E.
    rewrite <- !app_assoc in E. apply (span_unique (fun b => b <> 13)) in E as [-> E].
    + apply app_inv_head in E. apply IH in E as [-> ->]; auto.
    + apply Forall_forall. intros x Hx ->. auto.
    + apply Forall_forall. intros x Hx ->. auto.
    + intros x q Ex. inversion Ex. unfold CR. tauto.
    + intros x q Ex. inversion Ex. unfold CR. tauto.
    + discriminate.
    + discriminate.
Qed.

Lemma hex_data_pos c : valid_chunk c -> hex_num (sl_digits (ch_line c)) <> 0.
Proof. intros (_ & Hd & ->). apply lenN_pos in Hd. lia. Qed.

Lemma render_unique b b' r r' : valid b -> valid b' -> render b ++ r = render b' ++ r' -> b = b' /\ r = r'.
Proof.
  destruct b as [chs last ts], b' as [chs' last' ts'].
  intros (Hc & Hl & Hz & Ht) (Hc' & Hl' & Hz' & Ht') E. unfold render in E. cbn [cb_chunks cb_last cb_trailers] in *.
  rewrite <- !app_assoc in E. revert chs' Hc' E.
  induction chs as [|c chs IH]; intros [|c' chs'] Hc' E; cbn [map concat app] in E.
  - apply render_line_unique in E as [-> E]; auto. apply trailer_lines_unique in E as [-> ->]; auto.
  - exfalso. inversion Hc' as [|? ? Hv _]; subst. unfold render_chunk in E. rewrite <- !app_assoc in E.
    pose proof (hex_data_pos _ Hv). apply render_line_unique in E as [E _]; auto; [congruence|apply Hv].
  - exfalso. inversion Hc as [|? ? Hv _]; subst. unfold render_chunk in E. rewrite <- !app_assoc in E.
    pose proof (hex_data_pos _ Hv). apply render_line_unique in E as [E _]; auto; [congruence|apply Hv].
  - inversion Hc as [|? ? Hv Hcs]; subst. inversion Hc' as [|? ? Hv' Hcs']; subst.
    unfold render_chunk in E. rewrite <- !app_assoc in E.
    destruct Hv as (V1 & V2 & V3), Hv' as (V1' & V2' & V3').
    apply render_line_unique in E as [El E]; auto.
    destruct c as [cl cd], c' as [cl' cd']. cbn [ch_line ch_data] in *. subst cl'.
    apply app_length_inj in E as [-> E].
    + apply app_inv_head in E. destruct (IH Hcs chs' Hcs' E) as [Eb ->]. inversion Eb; subst. auto.
    + rewrite V3 in V3'. unfold lenN in V3'. lia.
Qed.

(* ---------------- no panic, enough fuel ---------------- *)
Lemma byte_no_panic c b c' e : inv c -> cs c <> CEnd -> byte_fun (cs c) c b = (c', Some e) -> e <> EPanic /\ e <> EOutOfFuel.
Proof.
  intros [I1 I2] He Hb. destruct (cs c) eqn:Ec; cbn [byte_fun] in Hb; try congruence;
  unfold read_start, read_size, read_size_lws, read_extension, read_size_lf, read_body_cr, read_body_lf,
    read_trailer, read_trailer_lf, read_end_cr, read_end_lf, push_digit, put_u8 in Hb; brk;
  try (split; discriminate); exfalso; apply I2; auto.
Qed.
Lemma run_no_panic l : forall c d e, inv c -> run c l = (d, OErr e) -> e <> EPanic /\ e <> EOutOfFuel.
Proof.
  induction l as [|x l IH]; intros c d e Hi Hr; destruct (is_end (cs c)) eqn:E;
  try (assert (Hc : cs c = CEnd) by (destruct (cs c); cbn in E; congruence); rewrite run_end in Hr by auto; discriminate);
  assert (Hc : cs c <> CEnd) by (intros Hx; rewrite Hx in E; discriminate).
  - rewrite run_nil in Hr by auto. discriminate.
  - rewrite run_cons in Hr by auto. destruct (byte_fun (cs c) c x) as [c1 [e1|]] eqn:Eb.
    + inversion Hr; subst. eapply byte_no_panic; eauto.
    + destruct (run c1 l) as [d1 o1] eqn:Er. unfold add_data in Hr; cbn [fst snd] in Hr. inversion Hr; subst.
      eapply (IH c1); [eapply inv_byte; eauto|exact Er].
Qed.

(* ---------------- bounded memory, poll by poll ---------------- *)
(* What holds between polls of a decoder that has not failed ... *)
Definition bnd_ok (mh ms : N) (c : cdec) : Prop :=
  max_hdrs c = mh /\ max_hdr_size c = ms /\ ext_cnt c < CHUNKED_EXTENSIONS_LIMIT /\ tcnt c <= mh /\
  match tbuf c with None => True | Some t => lenN t <= 1 \/ lenN t < ms end.
(* ... and in any case. *)
Definition bnd_weak (mh ms : N) (c : cdec) : Prop :=
  ext_cnt c <= CHUNKED_EXTENSIONS_LIMIT /\ tcnt c <= mh /\
  match tbuf c with None => True | Some t => lenN t <= N.max 2 ms end.
Lemma bnd_ok_weak mh ms c : bnd_ok mh ms c -> bnd_weak mh ms c.
Proof. unfold bnd_ok, bnd_weak. destruct (tbuf c); intuition lia. Qed.

Lemma byte_bnd mh ms c b c' e : bnd_ok mh ms c -> cs c <> CEnd -> byte_fun (cs c) c b = (c', e) ->
  bnd_weak mh ms c' /\ (e = None -> bnd_ok mh ms c').
Proof.
  intros Hb He E. destruct e as [e|].
  - split; [|discriminate]. destruct Hb as (M1 & M2 & B1 & B2 & B3). unfold bnd_weak.
    destruct (cs c) eqn:Ec; cbn [byte_fun] in E; try congruence;
    unfold read_start, read_size, read_size_lws, read_extension, read_size_lf, read_body_cr, read_body_lf,
      read_trailer, read_trailer_lf, read_end_cr, read_end_lf, push_digit, put_u8 in E; brk; cn;
      eqbs; rewrite ?lenN_app, ?lenN_cons, ?lenN_nil in *;
    repeat match goal with H : tbuf _ = _ |- _ => rewrite H in * end; (split; [|split]); auto; try lia.
    all: match goal with |- context [tbuf ?x] => destruct (tbuf x); lia | _ => lia end.
  - assert (H : bounded c) by (destruct Hb as (M1 & M2 & B1 & B2 & B3); unfold bounded; rewrite M1, M2; auto).
    destruct (bounded_step c b c' H He E) as ((H1 & H2 & H3) & H4 & H5).
    destruct Hb as (M1 & M2 & _). assert (bnd_ok mh ms c').
    { unfold bnd_ok. rewrite H4, H5, M1, M2 in *. auto. }
    split; [now apply bnd_ok_weak|auto].
Qed.

Lemma cstep_bnd mh ms c s c' s' r : bnd_ok mh ms c -> cstep c s = (c', s', r) ->
  bnd_weak mh ms c' /\ ((forall e, r <> Ready (Err e)) -> bnd_ok mh ms c').
Proof.
  intros Hb E.
  assert (Hsame : bnd_weak mh ms c /\ ((forall e, r <> Ready (Err e)) -> bnd_ok mh ms c))
    by (split; [now apply bnd_ok_weak|auto]).
  assert (Hw : cs c <> CEnd -> cs c <> CBody -> with_byte c s (byte_fun (cs c)) = (c', s', r) ->
    bnd_weak mh ms c' /\ ((forall e, r <> Ready (Err e)) -> bnd_ok mh ms c')).
  { intros N1 N2. unfold with_byte. destruct (read_mem s 1) as [s1 [|[[|x d]|er]]]; intros Ew.
    - inversion Ew; subst; auto.
    - inversion Ew; subst; auto.
    - destruct (byte_fun (cs c) c x) as [c1 e1] eqn:Eb. pose proof (byte_bnd _ _ _ _ _ _ Hb N1 Eb) as [W O].
      destruct e1; inversion Ew; subst; split; auto. intros Hne. exfalso. eapply Hne; eauto.
    - inversion Ew; subst; auto. }
  unfold cstep in E. destruct (cs c) eqn:Ec; try (apply Hw; [discriminate|discriminate|exact E]).
  - unfold read_body in E. clear Hw. destruct Hb as (M1 & M2 & B1 & B2 & B3).
    destruct (read_mem s (chunk_len c)) as [s1 [|[[|x d]|er]]].
    + inversion E; subst; auto.
    + inversion E; subst; cn. split; [|intros Hne; exfalso; eapply Hne; eauto].
      unfold bnd_weak; cn. destruct (tbuf c); intuition lia.
    + apply pair_equal_spec in E as [E <-]. apply pair_equal_spec in E as [E <-].
      assert (bnd_ok mh ms c'). { subst c'. unfold bnd_ok. destruct (0 <? _); cn; auto. }
      split; [now apply bnd_ok_weak|auto].
    + inversion E; subst; auto.
  - inversion E; subst; auto.
Qed.

Lemma cdecode_bnd {H} (dt : bytes -> N -> option H) mh ms fuel : forall c s c' s' r,
  bnd_ok mh ms c -> cdecode dt fuel c s = (c', s', r) ->
  bnd_weak mh ms c' /\ ((forall e, r <> Ready (Err e)) -> bnd_ok mh ms c').
Proof.
  induction fuel as [|fuel IH]; intros c s c' s' r Hb E; cbn [cdecode] in E.
  - inversion E; subst. split; [now apply bnd_ok_weak|auto].
  - destruct (cstep c s) as [[c1 s1] r1] eqn:Es. pose proof (cstep_bnd _ _ _ _ _ _ _ Hb Es) as [W O].
    destruct r1 as [|[buf|e]].
    + inversion E; subst. split; auto. intros _. apply O. discriminate.
    + assert (O' : bnd_ok mh ms c1) by (apply O; discriminate).
      assert (Ot : bnd_ok mh ms (set_tbuf c1 None)) by (destruct O' as (?&?&?&?&?); unfold bnd_ok; cn; auto).
      assert (Hall : forall x, bnd_ok mh ms x -> bnd_weak mh ms x /\ ((forall e, r <> Ready (Err e)) -> bnd_ok mh ms x))
        by (intros x Hx; split; [now apply bnd_ok_weak|auto]).
      destruct (cs c1); try (destruct buf as [d|]; [inversion E; subst; auto|exact (IH _ _ _ _ _ O' E)]).
      destruct (tbuf c1) as [t|]; [destruct (dt t (tcnt c1))|]; inversion E; subst; auto.
    + inversion E; subst. split; auto. intros Hne; exfalso; eapply Hne; eauto.
Qed.

(* The decoder as it is used: polled with whatever the transport holds, until it fails. *)
Inductive reachable {H} (dt : bytes -> N -> option H) (c0 : cdec) : cdec -> Prop :=
| reach_start : reachable dt c0 c0
| reach_poll c s d' s' r : reachable dt c0 c -> decode dt (DChunked c) s = (DChunked d', s', r) ->
    (forall e, r <> Ready (Err e)) -> reachable dt c0 d'.
Lemma reachable_bnd {H} (dt : bytes -> N -> option H) mh ms c : reachable dt (init_c mh ms) c -> bnd_ok mh ms c.
Proof.
  induction 1 as [|c s d' s' r Hr IH Hd Hne].
  - unfold bnd_ok, init_c; cn. repeat split; lia.
  - unfold decode in Hd. destruct (cdecode dt _ c s) as [[c1 s1] r1] eqn:Ec. inversion Hd; subst.
    apply cdecode_bnd with (mh := mh) (ms := ms) in Ec as [_ O]; auto.
Qed.

(* ---------------- reading a chunked body, summarised ---------------- *)
Definition lim_hdrs (mh : option N) : N := match mh with Some n => n | None => DEFAULT_MAX_HEADERS end.
Definition lim_bytes (ms : option N) : N := match ms with Some n => n | None => TRAILER_LIMIT end.

Lemma read_chunked_spec {H} (dt : bytes -> N -> option H) mh ms s fs e d' s' : wf_src s ->
  read_body_to_end dt (dec_chunked mh ms) s = (fs, e, d', s') ->
  exists o, run (init_c (lim_hdrs mh) (lim_bytes ms)) (flat s) = (concat fs, o)
      /\ e = expected_end H dt s o
      /\ Forall (fun d => d <> []) fs
      /\ match o with ODone _ rest => flat s' = rest | _ => True end.
Proof.
  intros Hw E. unfold read_body_to_end in E.
  apply read_all_sim in E; auto; [split; cbn; [discriminate|intros [|]; discriminate] | discriminate].
Qed.
Lemma init_inv mh ms : inv (init_c mh ms).
Proof. split; cbn; [discriminate|intros [|]; discriminate]. Qed.

Lemma read_over_limit {H} (dt : bytes -> N -> option H) mh ms b rest s fs e d' s' : wf_src s -> valid b ->
  ~ within_limits CHUNKED_EXTENSIONS_LIMIT (lim_hdrs mh) (lim_bytes ms) b ->
  flat s = render b ++ rest ->
  read_body_to_end dt (dec_chunked mh ms) s = (fs, e, d', s') -> exists x, e = BError x.
Proof.
  intros Hw Hv Hl Hf E. apply read_chunked_spec in E as (o & Hr & He & _); auto. subst e.
  destruct o as [c r|x|c]; cbn [expected_end]; eauto.
  exfalso. apply run_sound in Hr as (b' & Hb & Hv' & Hl' & _). rewrite Hf in Hb.
  apply render_unique in Hb as [-> _]; auto.
Qed.

Lemma run_overflow mh ms chs ds rest : Forall valid_chunk chs ->
  fold_right N.add 0 (map (fun c => lenN (ext_bytes (ch_line c))) chs) < CHUNKED_EXTENSIONS_LIMIT ->
  Forall (fun b => is_hex b = true) ds -> u64_max < hex_num ds ->
  run (init_c mh ms) (concat (map render_chunk chs) ++ ds ++ rest) = (concat (map ch_data chs), OErr EOverflow).
Proof.
  intros Hc Hl Hd Ho. rewrite fwd_chunks; auto.
  assert (Hr : run (set_ext (init_c mh ms) (ext_cnt (init_c mh ms) +
     fold_right N.add 0 (map (fun c => lenN (ext_bytes (ch_line c))) chs))) (ds ++ rest) = ([], OErr EOverflow)).
  { destruct ds as [|x ds]; [cbn in Ho; lia|]. inversion Hd as [|? ? Hx Hd']; subst.
    cbn [app]. rewrite run_cons by discriminate. unfold init_c. cn. unfold read_start. rewrite hex_digit_spec, Hx.
    unfold push_digit. cn. pose proof (hex_val_lt _ Hx). unfold checked_mul. cbn [N.mul].
    destruct (N.leb_spec 0 u64_max); [|lia]. cn. unfold checked_add. rewrite N.add_0_l.
    destruct (N.leb_spec (hex_val x) u64_max); [|unfold u64_max in *; lia]. rewrite add_data_nil.
    apply run_digits_overflow; cn; auto. }
  rewrite Hr. unfold add_data; cbn [fst snd]. now rewrite app_nil_r.
Qed.

(* ---------------- the forms in which P_Body states things ---------------- *)
Lemma encode_trailers_spec e t title out : hm_wf t -> encode_trailers e t title = Some out ->
  exists names fields,
    ekind e = KChunked (Some names) /\
    out = B "0" ++ CRLF
          ++ concat (map (fun f => (if title then title_case (fst f) else fst f) ++ B ": " ++ snd f ++ CRLF) fields) ++ CRLF /\
    (forall f, In f fields <-> In f (hm_iter t) /\ sendable names f).
Proof.
  intros Hw. unfold encode_trailers. destruct (ekind e) as [[names|]|n|] eqn:Ek; try discriminate.
  intros E. exists names, (hm_iter (filter_trailers names t)).
  split; [reflexivity|].
  assert (Hout : out = B "0" ++ CRLF ++ write_headers title (filter_trailers names t) ++ CRLF /\ True).
  { cbv zeta in E. destruct (write_headers title (filter_trailers names t)) eqn:Ef; [discriminate|]. inversion E. auto. }
  destruct Hout as [-> _]. split.
  - unfold write_headers. rewrite flat_map_concat_map. reflexivity.
  - intros f. rewrite filter_trailers_iter by auto. rewrite filter_In, keep_sendable. reflexivity.
Qed.

Lemma trailers_round_trip (mh ms : option N) (e : encoder) (names : list bytes) (title : bool)
         (fs : list user_frame) (t : hmap) (sent : list (bytes * bytes)) w out r rest s :
  ekind e = KChunked (Some names) ->
  Forall is_mid_frame fs ->
  hm_wf t ->
  sent = filter (keep names) (hm_iter t) ->
  sent <> [] -> Forall wf_field sent ->
  lenN sent <= lim_hdrs mh ->
  fold_right N.add 0 (map (fun f => lenN (fst f) + lenN (snd f) + 4) sent) + 2 < lim_bytes ms ->
  send_body true title (WBody e) (fs ++ [UTrailers t]) = (w, out, r) ->
  wf_src s -> flat s = out ++ rest ->
  r = SDone /\
  exists frames d' s',
    read_body_to_end parse_block (dec_chunked mh ms) s = (frames, BTrailers sent, d', s') /\
    concat frames = user_data fs /\ flat s' = rest.
Proof.
  intros Hk Hfs Ht Hsent Hne Hwf Hcnt Hsz Hs Hw Hf.
  rewrite (send_chunked_trailers e names) in Hs by auto. inversion Hs; subst w out r. split; [reflexivity|].
  rewrite filter_trailers_iter, <- Hsent in Hf by auto.
  destruct (read_rendered parse_block mh ms (plain_body fs (map (header_line title) sent)) rest s) as (fr & d' & s' & Hr & Hc & Hfl & _); auto.
  - apply plain_body_valid.
    + eapply Forall_impl; [|exact Hfs]. intros [d eos|t'|]; cbn; tauto.
    + apply Forall_forall. intros l Hl. apply in_map_iff in Hl as (nv & <- & Hin).
      rewrite Forall_forall in Hwf. destruct (header_line_no_crlf title nv (Hwf nv Hin)) as (H1 & H2 & _). split; auto.
  - split; [rewrite plain_ext; reflexivity|]. cbn [plain_body cb_trailers].
    assert (Hm : lenN (map (header_line title) sent) = lenN sent) by (unfold lenN; now rewrite map_length).
    split; [rewrite Hm; exact Hcnt|].
    destruct sent as [|nv sent]; [congruence|]. unfold trailer_block. cbn [map].
    change (header_line title nv :: map (header_line title) sent) with (map (header_line title) (nv :: sent)).
    rewrite lenN_app. change (lenN CRLF) with 2.
    enough (forall l, lenN (trailer_lines (map (header_line title) l)) =
      fold_right N.add 0 (map (fun f => lenN (fst f) + lenN (snd f) + 4) l)) as -> by exact Hsz.
    clear. induction l as [|nv l IH]; cbn [map fold_right]; [reflexivity|].
    unfold trailer_lines in *. cbn [map concat]. rewrite !lenN_app, IH. change (lenN CRLF) with 2.
    unfold header_line. rewrite !lenN_app. change (lenN (B ": ")) with 2.
    assert (lenN (if title then title_case (fst nv) else fst nv) = lenN (fst nv)).
    { destruct title; auto. unfold title_case. generalize true. induction (fst nv); intros u; cbn [title_case_from]; auto.
      rewrite !lenN_cons. now rewrite IHl0. }
    lia.
  - exists fr, d', s'. rewrite plain_body_data in Hc. split; [|auto]. rewrite Hr. cbn [plain_body cb_trailers].
    destruct sent as [|nv sent]; [congruence|]. unfold trailer_block. cbn [map].
    change (header_line title nv :: map (header_line title) sent) with (map (header_line title) (nv :: sent)).
    assert (Hm : lenN (map (header_line title) (nv :: sent)) = lenN (nv :: sent)) by (unfold lenN; now rewrite map_length).
    rewrite Hm, parse_written by auto. reflexivity.
Qed.

Lemma decoder_total {H} (dt : bytes -> N -> option H) (d : decoder) (s : src) frames e d' s' :
  (exists n, d = dec_length n) \/ (exists mh ms, d = dec_chunked mh ms) \/ d = dec_eof ->
  wf_src s ->
  read_body_to_end dt d s = (frames, e, d', s') ->
  e <> BError EPanic /\ e <> BError EOutOfFuel /\ e <> BOutOfFuel /\ e <> BUnexpected /\
  Forall (fun f => f <> []) frames.
Proof.
  intros [[n ->]|[[mh [ms ->]]| ->]] Hw E.
  - unfold read_body_to_end in E. apply read_all_length in E as [Hf E]; auto.
    destruct (n <=? lenN (flat s)).
    + destruct E as (_ & -> & _). repeat split; auto; discriminate.
    + destruct E as (_ & ->). destruct (has_err s); repeat split; auto; discriminate.
  - apply read_chunked_spec in E as (o & Hr & -> & Hf & _); auto.
    destruct o as [c rest|x|c]; cbn [expected_end].
    + destruct (tbuf c); [destruct (dt _ _)|]; repeat split; auto; discriminate.
    + apply run_no_panic in Hr as [N1 N2]; [|apply init_inv]. repeat split; auto; congruence.
    + unfold eof_error. destruct (has_err s), (is_body (cs c)); repeat split; auto; discriminate.
  - unfold read_body_to_end in E. apply read_all_eof in E as (Hf & _ & ->); auto.
    destruct (has_err s); repeat split; auto; discriminate.
Qed.
