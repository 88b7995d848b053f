(* Properties C01-C11 and C57: message bodies of HTTP/1. *)
From Verif Require Import Base M_Src M_Decode M_HeaderMap M_Encode M_Httparse S_Transport S_Chunked S_Send
  L_Decode L_Chunked L_Encode L_Encode2 L_Body.

(* ---------------------------------------------------------------- C01 *)
(* Whatever data the application sends with chunked framing, the receiver gets
   exactly that data, a clean end, and leaves the rest of the stream alone. *)
Theorem C01_chunked_round_trip :
  forall (H : Type) (dt : bytes -> N -> option H) (mh ms : option N)
         (e : encoder) (announced : option (list bytes)) (allowed title : bool)
         (fs : list user_frame) (w : writing) (out : bytes) (r : send_result) (rest : bytes) (s : src),
  ekind e = KChunked announced ->
  Forall is_data_frame fs ->
  send_body allowed title (WBody e) fs = (w, out, r) ->
  wf_src s -> flat s = out ++ rest ->
  r = SDone /\
  exists frames d' s',
    read_body_to_end dt (dec_chunked mh ms) s = (frames, BEnd, d', s') /\
    concat frames = user_data fs /\ flat s' = rest.
Proof.
  intros H dt mh ms e a al ti fs w out r rest s Hk Hfs Hs Hw Hf.
  rewrite (send_chunked e a) in Hs by auto. inversion Hs; subst. split; [reflexivity|].
  destruct (read_rendered dt mh ms (plain_body fs []) rest s) as (fr & d' & s' & Hr & Hc & Hfl & _); auto.
  - now apply plain_body_valid.
  - unfold within_limits. rewrite plain_ext. cbn. repeat split; try reflexivity; apply N.le_0_l.
  - exists fr, d', s'. rewrite plain_body_data in Hc. auto.
Qed.
Print Assumptions C01_chunked_round_trip.

(* Two data frames with an empty one between, read in three pieces with a pause. *)
Example C01_example :
  let fs := [UData (B "hello ") false; UData [] false; UData (B "world, this is more") true] in
  let s := mkSrc (B "6") [EvData (CRLF ++ B "hel"); EvPending;
                          EvData (B "lo " ++ CRLF ++ B "13" ++ CRLF ++ B "world, this is more" ++ CRLF ++ B "0" ++ CRLF ++ CRLF ++ B "GET")] in
  Forall is_data_frame fs /\ wf_src s /\
  (let '(w, out, r) := send_body true false (WBody (mkEnc (KChunked None) false)) fs in flat s = out ++ B "GET") /\
  exists d' s', read_body_to_end parse_block (dec_chunked None None) s =
    ([B "hel"; B "lo "; B "world, this is more"], BEnd, d', s') /\ flat s' = B "GET".
Proof.
  cbv zeta. split; [repeat constructor; cbn; discriminate|]. split; [repeat constructor; discriminate|].
  split; [vm_compute; reflexivity|]. eexists _, _. split; vm_compute; reflexivity.
Qed.

(* ---------------------------------------------------------------- C02 *)
Theorem C02_length_exact :
  forall (H : Type) (dt : bytes -> N -> option H) (n : N) (s : src),
  wf_src s -> n <= lenN (flat s) ->
  exists frames d' s',
    read_body_to_end dt (dec_length n) s = (frames, BEnd, d', s') /\
    concat frames = takeN n (flat s) /\ flat s' = dropN n (flat s).
Proof.
  intros H dt n s Hw Hn. unfold read_body_to_end.
  destruct (read_body_all dt (S (src_size s)) (dec_length n) s) as [[[fs e] d'] s'] eqn:E.
  apply read_all_length in E; auto. destruct E as [_ E].
  destruct (N.leb_spec n (lenN (flat s))); [|lia]. destruct E as (H1 & -> & H3).
  exists fs, d', s'. auto.
Qed.
Print Assumptions C02_length_exact.

Example C02_example :
  let s := mkSrc (B "ab") [EvPending; EvData (B "cd"); EvData (B "efGET /")] in
  wf_src s /\ 6 <= lenN (flat s) /\
  read_body_to_end parse_block (dec_length 6) s =
    ([B "ab"; B "cd"; B "ef"], BEnd, DLength 0, mkSrc (B "GET /") []).
Proof. cbv zeta. split; [repeat constructor; discriminate|]. split; vm_compute; [discriminate|reflexivity]. Qed.

(* ---------------------------------------------------------------- C03 *)
(* The stream stops (EOF, or an IO error) before the body is complete. *)
Theorem C03_length_truncated :
  forall (H : Type) (dt : bytes -> N -> option H) (n : N) (s : src) frames e d' s',
  wf_src s -> lenN (flat s) < n ->
  read_body_to_end dt (dec_length n) s = (frames, e, d', s') ->
  e = BError (if has_err s then ETransport else EIncompleteBody) /\ concat frames = flat s.
Proof.
  intros H dt n s fs e d' s' Hw Hn E. unfold read_body_to_end in E.
  apply read_all_length in E; auto. destruct E as [_ E].
  destruct (N.leb_spec n (lenN (flat s))); [lia|]. destruct E as (H1 & ->). auto.
Qed.
Print Assumptions C03_length_truncated.

Theorem C03_chunked_truncated :
  forall (H : Type) (dt : bytes -> N -> option H) (mh ms : option N) (b : chunked_body) (p q : bytes) (s : src) frames e d' s',
  wf_src s -> valid b ->
  within_limits 16384 (match mh with Some n => n | None => 100 end) (match ms with Some n => n | None => 16384 end) b ->
  render b = p ++ q -> q <> [] -> flat s = p ->
  read_body_to_end dt (dec_chunked mh ms) s = (frames, e, d', s') ->
  exists x, e = BError x /\ (if has_err s then x = ETransport else is_eof_error x = true).
Proof.
  intros H dt mh ms b p q s fs e d' s' Hw Hv Hl Hr Hq Hf E.
  apply read_chunked_spec in E as (o & Ho & -> & _); auto.
  destruct (run_proper_prefix (lim_hdrs mh) (lim_bytes ms) b p q) as (d & c & Hp); auto.
  rewrite Hf, Hp in Ho. inversion Ho; subst. cbn [expected_end]. eexists. split; [reflexivity|].
  destruct (has_err s); [reflexivity|]. unfold eof_error. destruct (is_body (cs c)); reflexivity.
Qed.
Print Assumptions C03_chunked_truncated.

Example C03_example :
  let b := mkBody [mkChunk (mkLine (B "3") [] (Some (B "x=1"))) (B "abc")] (mkLine (B "0") [] None) [B "t: 1"] in
  let p := B "3;x=1" ++ CRLF ++ B "abc" ++ CRLF ++ B "0" ++ CRLF ++ B "t: 1" ++ CRLF in
  valid b /\ within_limits 16384 100 16384 b /\ render b = p ++ CRLF /\
  (exists d s', read_body_to_end parse_block (dec_chunked None None) (mkSrc p []) = ([B "abc"], BError EUnexpectedEof, d, s')) /\
  (exists d s', read_body_to_end parse_block (dec_length 9) (mkSrc (B "short") []) = ([B "short"], BError EIncompleteBody, d, s')).
Proof.
  cbv zeta. split.
  { unfold valid, valid_chunk, valid_line, valid_trailer; cbn.
    repeat first [split | constructor]; try discriminate; try (intros H; repeat destruct H as [H|H]; discriminate || contradiction). }
  split; [repeat split; vm_compute; reflexivity || discriminate|].
  split; [reflexivity|]. split; eexists _, _; vm_compute; reflexivity.
Qed.

(* ---------------------------------------------------------------- C04 *)
(* Same bytes and same ending of the stream: same body, same outcome, and (if
   the body completes and the framing delimits it) the same bytes left. *)
Theorem C04_fragmentation_independent :
  forall (H : Type) (dt : bytes -> N -> option H) (d : decoder) (s1 s2 : src) f1 f2 e1 e2 d1 d2 s1' s2',
  (exists n, d = dec_length n) \/ (exists mh ms, d = dec_chunked mh ms) \/ d = dec_eof ->
  wf_src s1 -> wf_src s2 -> flat s1 = flat s2 -> has_err s1 = has_err s2 ->
  read_body_to_end dt d s1 = (f1, e1, d1, s1') ->
  read_body_to_end dt d s2 = (f2, e2, d2, s2') ->
  concat f1 = concat f2 /\ e1 = e2 /\
  ((e1 = BEnd \/ exists t, e1 = BTrailers t) -> d <> dec_eof -> flat s1' = flat s2').
Proof.
  intros H dt d s1 s2 f1 f2 e1 e2 d1 d2 s1' s2' Hd W1 W2 Hf He E1 E2.
  destruct Hd as [[n ->]|[[mh [ms ->]]| ->]].
  - unfold read_body_to_end in *. apply read_all_length in E1 as [_ E1]; auto. apply read_all_length in E2 as [_ E2]; auto.
    rewrite Hf, He in E1. destruct (n <=? lenN (flat s2)).
    + destruct E1 as (-> & -> & ->), E2 as (-> & -> & ->). auto.
    + destruct E1 as (-> & ->), E2 as (-> & ->). repeat split; auto. intros [?|[? ?]]; discriminate.
  - apply read_chunked_spec in E1 as (o1 & R1 & -> & _ & F1); auto.
    apply read_chunked_spec in E2 as (o2 & R2 & -> & _ & F2); auto.
    rewrite Hf, R2 in R1. inversion R1 as [[Hc Ho]]. subst o2. split; [auto|]. split.
    + unfold expected_end. now rewrite He.
    + intros Hx _. destruct o1; cbn [expected_end] in Hx; [congruence| |];
        destruct Hx as [Hx|[t Hx]]; discriminate.
  - unfold read_body_to_end in *. apply read_all_eof in E1 as (_ & -> & ->); auto. apply read_all_eof in E2 as (_ & -> & ->); auto.
    rewrite Hf, He. repeat split; auto. congruence.
Qed.
Print Assumptions C04_fragmentation_independent.

Example C04_example :
  let s1 := mkSrc (B "2" ++ CRLF ++ B "ab" ++ CRLF ++ B "0" ++ CRLF ++ CRLF) [] in
  let s2 := mkSrc [] [EvData (B "2"); EvPending; EvData (CRLF ++ B "a"); EvData (B "b" ++ CRLF); EvPending; EvData (B "0" ++ CRLF); EvData CRLF] in
  wf_src s1 /\ wf_src s2 /\ flat s1 = flat s2 /\ has_err s1 = has_err s2 /\
  fst (fst (fst (read_body_to_end parse_block (dec_chunked None None) s1))) = [B "ab"] /\
  fst (fst (fst (read_body_to_end parse_block (dec_chunked None None) s2))) = [B "a"; B "b"].
Proof. cbv zeta. repeat split; try (repeat constructor; discriminate); vm_compute; reflexivity. Qed.

(* ---------------------------------------------------------------- C05 *)
Theorem C05_chunked_sound :
  forall (H : Type) (dt : bytes -> N -> option H) (mh ms : option N) (s : src) frames e d' s',
  wf_src s ->
  read_body_to_end dt (dec_chunked mh ms) s = (frames, e, d', s') ->
  (e = BEnd \/ exists t, e = BTrailers t) ->
  exists b, valid b /\ flat s = render b ++ flat s' /\ concat frames = body_data b /\
    (e = BEnd <-> cb_trailers b = []).
Proof.
  intros H dt mh ms s fs e d' s' Hw E He. apply read_chunked_spec in E as (o & Ho & -> & _ & Hrest); auto.
  destruct o as [c rest|x|c]; cbn [expected_end] in He;
    [|destruct He as [He|[t He]]; discriminate|destruct He as [He|[t He]]; discriminate].
  apply run_sound in Ho as (b & Hf & Hv & _ & Hb & ->). rewrite Hrest. exists b.
  split; [exact Hv|]. split; [exact Hf|]. split; [exact Hb|].
  unfold done_c. cbn [expected_end tbuf tcnt]. destruct (cb_trailers b) as [|l ls]; [tauto|]. cbn [trailer_block].
  split; [|discriminate]. destruct (dt _ _); discriminate.
Qed.
Print Assumptions C05_chunked_sound.

Example C05_example :
  let s := mkSrc (B "A ;ext" ++ CRLF ++ B "0123456789" ++ CRLF ++ B "00" ++ CRLF ++ CRLF ++ B "tail") [] in
  wf_src s /\ read_body_to_end parse_block (dec_chunked None None) s =
    ([B "0123456789"], BEnd, DChunked (mkC CEnd 0 3 None 0 100 16384), mkSrc (B "tail") []) /\
  (* a bare LF is refused *)
  (exists d s', read_body_to_end parse_block (dec_chunked None None) (mkSrc (B "2;a" ++ [LF] ++ B "ab" ++ CRLF) []) =
    ([], BError EExtNewline, d, s')).
Proof. cbv zeta. split; [constructor|]. split; [vm_compute; reflexivity|]. eexists _, _. vm_compute. reflexivity. Qed.

(* ---------------------------------------------------------------- C06 *)
(* A size that does not fit 64 bits, after any number of good chunks, is an
   error, whatever follows.  (That an accepted size is exact is C05: there the
   size line of each chunk denotes the length of its data.) *)
Theorem C06_chunk_size_overflow :
  forall (H : Type) (dt : bytes -> N -> option H) (mh ms : option N) (chs : list chunk) (ds rest : bytes) (s : src) frames e d' s',
  wf_src s -> Forall valid_chunk chs ->
  fold_right N.add 0 (map (fun c => lenN (ext_bytes (ch_line c))) chs) < 16384 ->
  Forall (fun b => is_hex b = true) ds -> 2 ^ 64 <= hex_num ds ->
  flat s = concat (map render_chunk chs) ++ ds ++ rest ->
  read_body_to_end dt (dec_chunked mh ms) s = (frames, e, d', s') ->
  e = BError EOverflow /\ concat frames = concat (map ch_data chs).
Proof.
  intros H dt mh ms chs ds rest s fs e d' s' Hw Hc Hl Hd Ho Hf E.
  apply read_chunked_spec in E as (o & Hr & -> & _); auto. rewrite Hf in Hr.
  rewrite run_overflow in Hr; auto; [inversion Hr; subst; auto|]. unfold u64_max. lia.
Qed.
Print Assumptions C06_chunk_size_overflow.

(* A size that fits is taken exactly: the chunk's data is delivered whole. *)
Theorem C06_chunk_size_exact :
  forall (H : Type) (dt : bytes -> N -> option H) (mh ms : option N) (l : size_line) (d rest : bytes) (s : src),
  wf_src s -> valid_line l -> lenN (ext_bytes l) < 16384 -> d <> [] -> hex_num (sl_digits l) = lenN d ->
  flat s = render_line l ++ d ++ CRLF ++ B "0" ++ CRLF ++ CRLF ++ rest ->
  exists frames d' s', read_body_to_end dt (dec_chunked mh ms) s = (frames, BEnd, d', s') /\
    concat frames = d /\ flat s' = rest.
Proof.
  intros H dt mh ms l d rest s Hw Hv Hx Hd Hn Hf.
  destruct (read_rendered dt mh ms (mkBody [mkChunk l d] (plain_line 0) []) rest s) as (fr & d' & s' & Hr & Hc & Hfl & _); auto.
  - split; [repeat constructor; auto; apply Hv|]. split; [apply plain_line_valid; discriminate|]. split; [reflexivity|constructor].
  - unfold within_limits, ext_total. cbn. rewrite !N.add_0_r. repeat split; auto. apply N.le_0_l.
  - rewrite Hf. unfold render, render_chunk. cbn [map concat cb_chunks cb_last cb_trailers ch_line ch_data].
    rewrite <- last_bytes. rewrite <- !app_assoc. reflexivity.
  - exists fr, d', s'. repeat split; auto. rewrite Hc. cbn. apply app_nil_r.
Qed.
Print Assumptions C06_chunk_size_exact.

Example C06_example :
  hex_num (B "10000000000000000") = 2 ^ 64 /\ hex_num (B "fFfFfFfFfFfFfFfF") = 2 ^ 64 - 1 /\
  Forall (fun b => is_hex b = true) (B "10000000000000000") /\
  (exists d s', read_body_to_end parse_block (dec_chunked None None) (mkSrc (B "10000000000000000" ++ CRLF ++ B "abc") []) =
    ([], BError EOverflow, d, s')) /\
  (exists d s', read_body_to_end parse_block (dec_chunked None None) (mkSrc (B "00c" ++ CRLF ++ B "hello, world" ++ CRLF ++ B "0" ++ CRLF ++ CRLF) []) =
    ([B "hello, world"], BEnd, d, s')).
Proof.
  repeat split; try reflexivity; [repeat constructor| |]; eexists _, _; vm_compute; reflexivity.
Qed.

(* ---------------------------------------------------------------- C07 *)
(* A completed body was within the limits ... *)
Theorem C07_completed_within_limits :
  forall (H : Type) (dt : bytes -> N -> option H) (mh ms : option N) (s : src) frames e d' s',
  wf_src s ->
  read_body_to_end dt (dec_chunked mh ms) s = (frames, e, d', s') ->
  (e = BEnd \/ exists t, e = BTrailers t) ->
  exists b, flat s = render b ++ flat s' /\ valid b /\
    within_limits 16384 (match mh with Some n => n | None => 100 end) (match ms with Some n => n | None => 16384 end) b.
Proof.
  intros H dt mh ms s fs e d' s' Hw E He. apply read_chunked_spec in E as (o & Ho & -> & _ & Hrest); auto.
  destruct o as [c rest|x|c]; cbn [expected_end] in He;
    [|destruct He as [He|[t He]]; discriminate|destruct He as [He|[t He]]; discriminate].
  apply run_sound in Ho as (b & Hf & Hv & Hl & Hb & ->). rewrite Hrest. exists b. auto.
Qed.
Print Assumptions C07_completed_within_limits.

(* ... a well-formed body beyond a limit fails ... *)
Theorem C07_over_limit_fails :
  forall (H : Type) (dt : bytes -> N -> option H) (mh ms : option N) (b : chunked_body) (rest : bytes) (s : src) frames e d' s',
  wf_src s -> valid b ->
  ~ within_limits 16384 (match mh with Some n => n | None => 100 end) (match ms with Some n => n | None => 16384 end) b ->
  flat s = render b ++ rest ->
  read_body_to_end dt (dec_chunked mh ms) s = (frames, e, d', s') ->
  exists x, e = BError x.
Proof. intros. eapply read_over_limit; eauto. Qed.
Print Assumptions C07_over_limit_fails.

(* ... and at no moment, on no input (each poll may see any bytes), does the
   decoder hold more than the limits allow. *)
Theorem C07_memory_bounded :
  forall (H : Type) (dt : bytes -> N -> option H) (mh ms : N) (c c' : cdec) (s s' : src) r,
  reachable dt (init_c mh ms) c ->
  decode dt (DChunked c) s = (DChunked c', s', r) ->
  ext_cnt c' <= 16384 /\ tcnt c' <= mh /\ match tbuf c' with None => True | Some t => lenN t <= N.max 2 ms end.
Proof.
  intros H dt mh ms c c' s s' r Hr Hd. apply reachable_bnd in Hr.
  unfold decode in Hd. destruct (cdecode dt _ c s) as [[c1 s1] r1] eqn:Ec. inversion Hd; subst.
  apply cdecode_bnd with (mh := mh) (ms := ms) in Ec as [Hw _]; auto.
Qed.
Print Assumptions C07_memory_bounded.

(* Limit of one trailer line: two lines fail, one passes. *)
Example C07_example :
  let two := mkBody [] (mkLine (B "0") [] None) [B "a: 1"; B "b: 2"] in
  let one := mkBody [] (mkLine (B "0") [] None) [B "a: 1"] in
  valid two /\ ~ within_limits 16384 1 16384 two /\
  (exists d s', read_body_to_end parse_block (dec_chunked (Some 1) None) (mkSrc (render two) []) = ([], BError ETrailerCount, d, s')) /\
  (exists d s', read_body_to_end parse_block (dec_chunked (Some 1) None) (mkSrc (render one) []) =
     ([], BTrailers [(B "a", B "1")], d, s')) /\
  (exists d s', read_body_to_end parse_block (dec_chunked None (Some 6)) (mkSrc (render one) []) = ([], BError ETrailerBytes, d, s')).
Proof.
  cbv zeta. split.
  { unfold valid, valid_chunk, valid_line, valid_trailer; cbn.
    repeat first [split | constructor]; try discriminate; try (intros H; repeat destruct H as [H|H]; discriminate || contradiction). }
  split; [intros (_ & H & _); vm_compute in H; congruence|].
  repeat split; eexists _, _; vm_compute; reflexivity.
Qed.

(* ---------------------------------------------------------------- C08 *)
(* The trailer fields of [t] that may be sent arrive, after all the data. *)
Theorem C08_trailers_round_trip :
  forall (mh ms : option N) (e : encoder) (names : list bytes) (title : bool)
         (fs : list user_frame) (t : hmap) (sent : list (bytes * bytes)) w out r rest s,
  ekind e = KChunked (Some names) ->
  Forall is_mid_frame fs ->
  hm_wf t ->
  (* [sent] is the sub-list of t's fields that may be sent, in order *)
  sent = sendable_fields names (hm_iter t) ->
  sent <> [] -> Forall wf_field sent ->
  lenN sent <= (match mh with Some n => n | None => 100 end) ->
  fold_right N.add 0 (map (fun f => lenN (fst f) + lenN (snd f) + 4) sent) + 2 < (match ms with Some n => n | None => 16384 end) ->
  send_body true title (WBody e) (fs ++ [UTrailers t]) = (w, out, r) ->
  wf_src s -> flat s = out ++ rest ->
  r = SDone /\
  exists frames d' s',
    read_body_to_end parse_block (dec_chunked mh ms) s = (frames, BTrailers sent, d', s') /\
    concat frames = user_data fs /\ flat s' = rest.
Proof.
  intros mh ms e names ti fs t sent w out r rest s Hk Hfs Ht Hsent Hne Hwf Hcnt Hsz Hs Hw Hf.
  rewrite sendable_keep in Hsent.
  exact (trailers_round_trip mh ms e names ti fs t sent w out r rest s Hk Hfs Ht Hsent Hne Hwf Hcnt Hsz Hs Hw Hf).
Qed.
Print Assumptions C08_trailers_round_trip.

Example C08_example :
  let t := [(B "x-sum", [B "a1"; B "b2"]); (B "host", [B "evil"]); (B "y", [B "q r"])] in
  let names := [B "x-sum"; B "host"] in
  let '(w, out, r) := send_body true true (WBody (mkEnc (KChunked (Some names)) false)) [UData (B "data") false; UTrailers t] in
  hm_wf t /\ out = B "4" ++ CRLF ++ B "data" ++ CRLF ++ B "0" ++ CRLF ++ B "X-Sum: a1" ++ CRLF ++ B "X-Sum: b2" ++ CRLF ++ CRLF /\
  exists d s', read_body_to_end parse_block (dec_chunked None None) (mkSrc out [EvData (B "next")]) =
    ([B "data"], BTrailers [(B "x-sum", B "a1"); (B "x-sum", B "b2")], d, s') /\ flat s' = B "next".
Proof.
  vm_compute. split.
  { split; [|repeat constructor; discriminate]. repeat constructor; cbn; intros H; repeat destruct H as [H|H]; discriminate || contradiction. }
  split; [reflexivity|]. eexists _, _. split; reflexivity.
Qed.

(* ---------------------------------------------------------------- C09 *)
Theorem C09_length_sender :
  forall (e : encoder) (n : N) (allowed title : bool) (fs : list user_frame) w out r,
  ekind e = KLength n ->
  send_body allowed title (WBody e) fs = (w, out, r) ->
  out = takeN n (user_data fs) /\
  (* too little data: the connection is not kept for another message *)
  (lenN (user_data fs) < n -> w <> WKeepAlive) /\
  (* enough data: the message is finished *)
  (n <= lenN (user_data fs) -> n <> 0 -> w = (if is_last e then WClosed else WKeepAlive) /\ r = SDone).
Proof. intros e n al ti fs w out r. exact (send_length fs e n al ti w out r). Qed.
Print Assumptions C09_length_sender.

Example C09_example :
  let e := mkEnc (KLength 5) false in
  send_body false false (WBody e) [UData (B "abc") false; UData (B "defg") false; UData (B "h") true] = (WKeepAlive, B "abcde", SDone) /\
  send_body false false (WBody e) [UData (B "abc") false] = (WClosed, B "abc", SAborted 2) /\
  send_body false false (WBody e) [UData (B "abc") true] = (WClosed, B "abc", SDone).
Proof. repeat split. Qed.

(* ---------------------------------------------------------------- C10 *)
Theorem C10_one_step_or_two :
  forall (e : encoder) (d : bytes), d <> [] ->
  let (w1, o1) := write_body_and_end e d in
  let (w2, o2) := write_body e d in
  match w2 with
  | WBody e' => match end_body e' with (w3, o3, _) => o1 = o2 ++ o3 /\ w1 = w3 end
  | _ => o1 = o2 /\ w1 = w2
  end.
Proof. exact one_step_two_steps. Qed.
Print Assumptions C10_one_step_or_two.

Example C10_example :
  write_body_and_end (mkEnc (KChunked None) false) (B "abc") = (WKeepAlive, B "3" ++ CRLF ++ B "abc" ++ CRLF ++ B "0" ++ CRLF ++ CRLF) /\
  write_body (mkEnc (KChunked None) false) (B "abc") = (WBody (mkEnc (KChunked None) false), B "3" ++ CRLF ++ B "abc" ++ CRLF) /\
  end_body (mkEnc (KChunked None) false) = (WKeepAlive, B "0" ++ CRLF ++ CRLF, None).
Proof. repeat split. Qed.

(* ---------------------------------------------------------------- C11 *)
(* Whatever is written as trailers is the last chunk, exactly the announced
   and permitted fields, and the closing CRLF; and only for chunked bodies. *)
Theorem C11_trailer_filter :
  forall (e : encoder) (t : hmap) (title : bool) (out : bytes), hm_wf t ->
  encode_trailers e t title = Some out ->
  exists names fields,
    ekind e = KChunked (Some names) /\
    out = B "0" ++ CRLF
          ++ concat (map (fun f => (if title then title_case (fst f) else fst f) ++ B ": " ++ snd f ++ CRLF) fields) ++ CRLF /\
    (forall f, In f fields <-> In f (hm_iter t) /\ sendable names f).
Proof. exact encode_trailers_spec. Qed.
Print Assumptions C11_trailer_filter.

Example C11_example :
  let t := [(B "content-length", [B "5"]); (B "x-a", [B "1"]); (B "x-b", [B "2"])] in
  encode_trailers (mkEnc (KChunked (Some [B "content-length"; B "x-b"])) false) t false = Some (B "0" ++ CRLF ++ B "x-b: 2" ++ CRLF ++ CRLF) /\
  encode_trailers (mkEnc (KLength 0) false) t false = None /\
  hm_wf t.
Proof.
  cbv zeta. split; [reflexivity|]. split; [reflexivity|].
  split; [|repeat constructor; discriminate]. repeat constructor; cbn; intros H; repeat destruct H as [H|H]; discriminate || contradiction.
Qed.

(* ---------------------------------------------------------------- C57 *)
(* Reading a body never hits one of the decoder's unwrap()s, and always ends. *)
Theorem C57_decoder_total :
  forall (H : Type) (dt : bytes -> N -> option H) (d : decoder) (s : src) frames e d' s',
  (exists n, d = dec_length n) \/ (exists mh ms, d = dec_chunked mh ms) \/ d = dec_eof ->
  wf_src s ->
  read_body_to_end dt d s = (frames, e, d', s') ->
  e <> BError EPanic /\ e <> BError EOutOfFuel /\ e <> BOutOfFuel /\ e <> BUnexpected /\
  Forall (fun f => f <> []) frames.
Proof. exact (@decoder_total). Qed.
Print Assumptions C57_decoder_total.

Example C57_example :
  wf_src (mkSrc [] [EvData [0; 255; 10]; EvPending; EvErr]) /\
  (exists d s', read_body_to_end parse_block (dec_chunked None None) (mkSrc [] [EvPending; EvData (B "1" ++ CRLF); EvErr]) =
    ([], BError ETransport, d, s')).
Proof. split; [repeat constructor; discriminate|]. eexists _, _. vm_compute. reflexivity. Qed.

(* Naming the trailers changes nothing else: whether the message is the last one, and
   the bytes of every body without trailers *)
Theorem C11_names_only : forall e names, is_last (into_chunked_with_trailing_fields e names) = is_last e /\
  forall b, snd (encode (into_chunked_with_trailing_fields e names) b) = snd (encode e b) /\
  encode_and_end (into_chunked_with_trailing_fields e names) b = encode_and_end e b /\ enc_end (into_chunked_with_trailing_fields e names) = enc_end e.
Proof.
  intros [k last] names. unfold into_chunked_with_trailing_fields. destruct k as [t|n|]; cbn [ekind]; repeat split.
Qed.
Print Assumptions C11_names_only.
Example C11_names_ex : ekind (into_chunked_with_trailing_fields (mkEnc (KChunked None) true) [B "x-a"]) = KChunked (Some [B "x-a"]).
Proof. reflexivity. Qed.
