From Verif Require Import Base M_Src M_Decode M_HeaderMap M_Encode M_Httparse S_Transport S_Chunked S_Send L_Decode L_Chunked.

(* ---------------- hexadecimal ---------------- *)
Lemma hex_char_hex d : d < 16 -> is_hex (hex_char d) = true /\ hex_val (hex_char d) = d.
Proof.
  intros H. unfold hex_char, is_hex, hex_val.
  destruct (N.ltb_spec d 10); split; repeat (match goal with |- context [?a <=? ?b] => destruct (N.leb_spec a b) end; try lia);
  reflexivity.
Qed.

Lemma size_nat_div n : 16 <= n -> (N.size_nat (n / 16) < N.size_nat n)%nat.
Proof.
  intros H. change 16 with (2 ^ 4). rewrite <- N.shiftr_div_pow2.
  assert (Hs : forall m, m <> 0 -> (N.size_nat (N.div2 m) < N.size_nat m)%nat).
  { intros [|[p|p|]]; cbn; intros; try congruence; auto with arith. }
  assert (Hle : forall m, (N.size_nat (N.div2 m) <= N.size_nat m)%nat).
  { intros [|[p|p|]]; cbn; auto with arith. }
  rewrite N.shiftr_succ_r with (n := 3) by auto.
  eapply Nat.le_lt_trans; [apply Hle|].
  rewrite N.shiftr_succ_r with (n := 2) by auto. eapply Nat.le_lt_trans; [apply Hle|].
  rewrite N.shiftr_succ_r with (n := 1) by auto. eapply Nat.le_lt_trans; [apply Hle|].
  rewrite N.shiftr_succ_r with (n := 0) by auto. rewrite N.shiftr_0_r. apply Hs. lia.
Qed.

Lemma hex_upper_f_spec fuel : forall n, (N.size_nat n < fuel)%nat ->
  hex_upper_f fuel n <> [] /\ Forall (fun b => is_hex b = true) (hex_upper_f fuel n)
  /\ hex_num (hex_upper_f fuel n) = n.
Proof.
  induction fuel as [|f IH]; intros n Hn; [lia|]. cbn [hex_upper_f].
  destruct (N.ltb_spec n 16) as [Hlt|Hge].
  - destruct (hex_char_hex n Hlt) as [H1 H2]. split; [discriminate|split; [auto|]].
    unfold hex_num. cbn [fold_left]. rewrite H2. lia.
  - pose proof (size_nat_div n Hge) as Hd. destruct (IH (n / 16)) as (H1 & H2 & H3); [lia|].
    assert (Hm : n mod 16 < 16) by (apply N.mod_lt; discriminate).
    destruct (hex_char_hex _ Hm) as [H4 H5]. repeat split.
    + destruct (hex_upper_f f (n / 16)); discriminate.
    + apply Forall_app. auto.
    + unfold hex_num in *. rewrite fold_left_app, H3. cbn [fold_left]. rewrite H5.
      rewrite (N.div_mod n 16) at 3 by discriminate. reflexivity.
Qed.
Lemma hex_upper_spec n : hex_upper n <> [] /\ Forall (fun b => is_hex b = true) (hex_upper n)
  /\ hex_num (hex_upper n) = n.
Proof. apply hex_upper_f_spec. auto with arith. Qed.

(* The 18-byte array of ChunkSize holds every chunk-size line. *)
Lemma hex_upper_f_len k : forall fuel n, n < 16 ^ N.of_nat k -> (0 < k)%nat -> (length (hex_upper_f fuel n) <= k)%nat.
Proof.
  induction k as [|k IH]; intros fuel n Hn Hk; [lia|].
  destruct fuel as [|f]; cbn [hex_upper_f]; [cbn; lia|].
  destruct (N.ltb_spec n 16) as [Hlt|Hge]; [cbn; lia|].
  rewrite app_length. cbn [length].
  destruct k as [|k].
  - change (16 ^ N.of_nat 1) with 16 in Hn. lia.
  - assert (length (hex_upper_f f (n / 16)) <= S k)%nat; [|lia].
    apply IH; [|lia]. apply N.div_lt_upper_bound; [discriminate|].
    rewrite Nat2N.inj_succ, N.pow_succ_r' in Hn. exact Hn.
Qed.
Lemma chunk_size_fits n : n <= u64_max -> lenN (chunk_size n) <= 18.
Proof.
  intros H. unfold chunk_size. rewrite lenN_app. change (lenN CRLF) with 2.
  assert (length (hex_upper n) <= 16)%nat.
  { apply hex_upper_f_len; [|lia]. change (16 ^ N.of_nat 16) with 18446744073709551616. unfold u64_max in H. lia. }
  unfold lenN. lia.
Qed.

Definition plain_line (n : N) : size_line := mkLine (hex_upper n) [] None.
Definition plain_chunk (d : bytes) : chunk := mkChunk (plain_line (lenN d)) d.

Lemma plain_line_valid n : n <= u64_max -> valid_line (plain_line n).
Proof.
  intros H. destruct (hex_upper_spec n) as (H1 & H2 & H3).
  unfold valid_line, plain_line, ext_bytes; cbn [sl_digits sl_ws sl_ext]. rewrite H3. auto 8.
Qed.
Lemma plain_chunk_valid d : d <> [] -> lenN d <= u64_max -> valid_chunk (plain_chunk d).
Proof.
  intros Hd Hl. repeat split; try apply plain_line_valid; auto.
  unfold plain_chunk; cbn [ch_line ch_data plain_line sl_digits]. apply hex_upper_spec.
Qed.
Lemma chunk_bytes d : chunk_size (lenN d) ++ d ++ CRLF = render_chunk (plain_chunk d).
Proof.
  unfold render_chunk, plain_chunk, plain_line, chunk_size, render_line; cbn [ch_line ch_data sl_digits sl_ws sl_ext app].
  now rewrite <- !app_assoc.
Qed.
Lemma last_bytes : B "0" ++ CRLF = render_line (plain_line 0).
Proof. reflexivity. Qed.

(* ---------------- chunked sending is rendering ---------------- *)
Definition nonempty (d : bytes) : bool := match d with [] => false | _ => true end.

(* The non-empty data frames up to the end of the body. *)
Fixpoint user_chunks (fs : list user_frame) : list bytes :=
  match fs with
  | UData d eos :: r => (if nonempty d then [d] else []) ++ (if eos then [] else user_chunks r)
  | _ => []
  end.
Lemma user_chunks_data fs : concat (user_chunks fs) = user_data fs.
Proof.
  induction fs as [|[d eos|t|] fs IH]; cbn [user_chunks user_data concat]; auto.
  destruct eos; rewrite ?app_nil_r.
  - destruct d; cbn; rewrite ?app_nil_r; reflexivity.
  - rewrite concat_app, IH. f_equal. destruct d; cbn; rewrite ?app_nil_r; reflexivity.
Qed.
Lemma user_chunks_valid fs : Forall is_data_frame fs -> Forall valid_chunk (map plain_chunk (user_chunks fs)).
Proof.
  induction fs as [|f fs IH]; intros H; cbn [user_chunks map]; [constructor|].
  inversion H as [|? ? Hf Hfs]; subst. destruct f as [d eos|t|]; cbn in Hf; try contradiction.
  rewrite map_app. apply Forall_app. split.
  - destruct d as [|x d]; cbn [nonempty map]; [constructor|]. constructor; [|constructor].
    apply plain_chunk_valid; [discriminate|auto].
  - destruct eos; [constructor|auto].
Qed.
Lemma plain_data cs0 : concat (map ch_data (map plain_chunk cs0)) = concat cs0.
Proof. rewrite map_map. cbn [plain_chunk ch_data]. now rewrite map_id. Qed.

Definition plain_body (fs : list user_frame) (ls : list bytes) : chunked_body :=
  mkBody (map plain_chunk (user_chunks fs)) (plain_line 0) ls.

Lemma plain_ext fs ls : ext_total (plain_body fs ls) = 0.
Proof.
  unfold ext_total, plain_body. cbn [cb_chunks cb_last]. rewrite map_map. cbn [plain_chunk ch_line].
  induction (user_chunks fs); cbn [map fold_right]; auto.
Qed.
Lemma plain_body_valid fs ls : Forall is_data_frame fs -> Forall valid_trailer ls -> valid (plain_body fs ls).
Proof.
  intros H Hl. unfold valid, plain_body; cbn [cb_chunks cb_last cb_trailers].
  split; [now apply user_chunks_valid|]. split; [apply plain_line_valid; discriminate|]. split; [reflexivity|exact Hl].
Qed.
Lemma plain_body_data fs ls : body_data (plain_body fs ls) = user_data fs.
Proof. unfold body_data, plain_body. cbn [cb_chunks]. now rewrite plain_data, user_chunks_data. Qed.

Definition after_end (e : encoder) : writing := if is_last e then WClosed else WKeepAlive.

Lemma send_chunked e a0 al ti fs : ekind e = KChunked a0 -> Forall is_data_frame fs ->
  send_body al ti (WBody e) fs = (after_end e, render (plain_body fs []), SDone).
Proof.
  intros Hk. revert e a0 Hk. induction fs as [|f fs IH]; intros e a0 Hk H.
  - cbn [send_body]. unfold end_body, enc_end. rewrite Hk. unfold is_close_delimited, after_end. rewrite Hk.
    rewrite orb_false_r. reflexivity.
  - inversion H as [|? ? Hf Hfs]; subst. destruct f as [d eos|t|]; cbn in Hf; try contradiction.
    cbn [send_body]. destruct eos.
    + destruct d as [|x d].
      * unfold end_body, enc_end. rewrite Hk. unfold is_close_delimited, after_end. rewrite Hk.
        rewrite orb_false_r. reflexivity.
      * unfold write_body_and_end, encode_and_end. rewrite Hk. unfold after_end.
        unfold render, plain_body, user_chunks. cbn [nonempty app map concat cb_chunks cb_last cb_trailers trailer_lines].
        rewrite <- chunk_bytes, <- last_bytes. rewrite <- !app_assoc. destruct (is_last e); reflexivity.
    + destruct d as [|x d]; [apply (IH e a0); auto|].
      unfold write_body, encode. rewrite Hk. unfold enc_is_eof. rewrite Hk. cbn [negb].
      rewrite (IH e a0) by auto. f_equal. f_equal.
      unfold render, plain_body. cbn [user_chunks nonempty app map concat cb_chunks cb_last cb_trailers].
      rewrite <- chunk_bytes. cbn [app]. rewrite <- ?app_assoc. cbn [app]. rewrite <- ?app_assoc. reflexivity.
Qed.

(* with trailers at the end *)
Definition header_line (title : bool) (nv : bytes * bytes) : bytes :=
  (if title then title_case (fst nv) else fst nv) ++ B ": " ++ snd nv.
Lemma write_headers_lines ti m : write_headers ti m = trailer_lines (map (header_line ti) (hm_iter m)).
Proof.
  unfold write_headers, trailer_lines. rewrite map_map, flat_map_concat_map. f_equal. apply map_ext.
  intros nv. unfold header_line. now rewrite <- !app_assoc.
Qed.

Lemma send_chunked_trailers e names ti t fs :
  ekind e = KChunked (Some names) -> Forall is_mid_frame fs ->
  send_body true ti (WBody e) (fs ++ [UTrailers t]) =
  (after_end e, render (plain_body fs (map (header_line ti) (hm_iter (filter_trailers names t)))), SDone).
Proof.
  intros Hk. revert e Hk. induction fs as [|f fs IH]; intros e Hk H.
  - cbn [send_body app]. unfold write_trailers, encode_trailers. rewrite Hk. cbn [negb].
    rewrite write_headers_lines.
    destruct (hm_iter (filter_trailers names t)) as [|nv l] eqn:Ei.
    + cbn [map trailer_lines concat]. unfold end_body, enc_end, is_close_delimited, after_end. rewrite Hk, orb_false_r. reflexivity.
    + destruct (trailer_lines (map (header_line ti) (nv :: l))) as [|y z] eqn:El.
      { exfalso. unfold trailer_lines in El. cbn [map concat] in El. unfold header_line in El.
        destruct (if ti then title_case (fst nv) else fst nv); cbn in El; discriminate. }
      unfold is_close_delimited, after_end. rewrite Hk, orb_false_r.
      rewrite <- El. unfold render, plain_body, user_chunks. cbn [map concat app cb_chunks cb_last cb_trailers].
      rewrite <- last_bytes. rewrite <- !app_assoc. destruct (is_last e); reflexivity.
  - inversion H as [|? ? Hf Hfs]; subst. destruct f as [d eos|t'|]; cbn in Hf; try contradiction.
    destruct Hf as [Hf ->]. cbn [send_body app].
    destruct d as [|x d]; [apply IH; auto|].
    unfold write_body, encode. rewrite Hk. unfold enc_is_eof. rewrite Hk. cbn [negb].
    rewrite IH by auto. f_equal. f_equal.
    unfold render, plain_body. cbn [user_chunks nonempty app map concat cb_chunks cb_last cb_trailers].
    rewrite <- chunk_bytes. cbn [app]. rewrite <- ?app_assoc. cbn [app]. rewrite <- ?app_assoc. reflexivity.
Qed.

(* ---------------- reading back ---------------- *)
Lemma read_rendered {H} (dt : bytes -> N -> option H) mh ms b rest s :
  wf_src s -> valid b -> within_limits CHUNKED_EXTENSIONS_LIMIT
     (match mh with Some n => n | None => DEFAULT_MAX_HEADERS end)
     (match ms with Some n => n | None => TRAILER_LIMIT end) b ->
  flat s = render b ++ rest ->
  exists frames d' s',
    read_body_to_end dt (dec_chunked mh ms) s =
      (frames, match trailer_block (cb_trailers b) with
               | None => BEnd
               | Some t => match dt t (lenN (cb_trailers b)) with Some h => BTrailers h | None => BError ETrailerParse end
               end, d', s')
    /\ concat frames = body_data b /\ flat s' = rest /\ Forall (fun d => d <> []) frames.
Proof.
  intros Hw Hv Hl Hf. unfold read_body_to_end.
  destruct (read_body_all dt (S (src_size s)) (dec_chunked mh ms) s) as [[[fs e] d'] s'] eqn:E.
  apply read_all_sim in E; auto; [| split; cbn; [discriminate|intros [|]; discriminate] | discriminate].
  destruct E as (o & Hr & He & Hne & Hrest).
  rewrite Hf in Hr.
  change (mkC CStart 0 0 None 0 _ _) with (init_c (match mh with Some n => n | None => DEFAULT_MAX_HEADERS end)
     (match ms with Some n => n | None => TRAILER_LIMIT end)) in Hr.
  rewrite run_complete in Hr by auto. inversion Hr as [[Hc Ho]]. rewrite <- Ho in *.
  exists fs, d', s'. subst e. cbn [expected_end done_c tbuf tcnt] in *. auto.
Qed.
