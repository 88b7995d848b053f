(* Properties C17, C47, C48 (client), C52: request heads, reason phrases, folded lines. *)
From Verif Require Import Base M_Src M_Decode M_HeaderMap M_Httparse M_Headers M_Encode M_Role M_RoleEncode
  S_Transport S_Chunked S_Send S_Framing S_Head L_Decode L_Encode L_Encode2 L_Body L_Headers L_Framing L_RoleEncode L_RoleEncode2 L_Wire
  L_Server L_Client L_Fold P_Body P_Framing.

(* What the application may say about the length of the request body: nothing,
   or one number; and with no body, nothing or 0. *)
Definition app_length_sane (m : cmsg) : Prop :=
  let cls := hm_get_all (c_headers m) (B "content-length") in
  cls = [] \/ exists n, cl_list_means cls n /\ n <= 2 ^ 64 - 1 /\ (c_body m = None -> n = 0).
Definition cmsg_ok (m : cmsg) : Prop := headers_ok (c_headers m) /\ forall c, c_case m = Some c -> case_ok c.

Lemma sane_cl m : app_length_sane m -> cl_ok (hm_get_all (c_headers m) CL) /\
  (c_body m = None -> hm_get_all (c_headers m) CL = [] \/ cl_list_means (hm_get_all (c_headers m) CL) 0).
Proof.
  unfold app_length_sane, cl_ok. change (B "content-length") with CL. intros [E|(n & H1 & H2 & H3)].
  - auto.
  - split; [right; exists n; split; auto|]. intros Hb. right. now rewrite <- (H3 Hb).
Qed.

(* ---------------------------------------------------------------- C17 *)
(* A request head: the request line, header lines, an empty line.  Its framing
   fields announce exactly the framing of the body writer that follows. *)
Theorem C17_client_request_framing : forall m out e,
  cmsg_ok m -> app_te_text (c_headers m) -> app_length_sane m ->
  client_encode m = Some (out, e) ->
  exists tight lines,
    out = request_line (ver_eqb (c_version m) HTTP10) (c_method m) (c_target m) ++ flat_map (render_line tight) lines ++ CRLF /\
    Forall wire_line lines /\
    announces (te_values lines) (cl_lines lines) (kind_framing (ekind e)) /\
    (c_version m <> HTTP11 -> te_values lines = []).
Proof.
  intros m out e [Hh Hc] Ht Hl E. destruct (client_encode_ok m out e Hh Hc E) as (h' & tight & lines & Es & _ & Eo & Hw & Hf & _).
  exists tight, lines. destruct (sane_cl m Hl) as [L1 L2].
  assert (A : announces (te_values lines) (cl_lines lines) (kind_framing (ekind e))).
  { unfold te_values, cl_lines. rewrite !Hf. eapply set_length_spec; eauto. }
  sp; auto. intros Hv. destruct (set_length_ok _ _ _ _ _ _ Hh Es) as (_ & _ & [X|X]); auto.
  - rewrite X in Es. cbn [set_length] in Es. inversion Es; subst. cbn [ekind enc_length kind_framing announces] in A. tauto.
  - unfold te_values. now rewrite Hf.
Qed.
Print Assumptions C17_client_request_framing.

Definition ex_creq (ver : version) (method : bytes) (b : option body_length) (h : hmap) : cmsg := mkCmsg ver method (B "/x") b h false None.
Definition ex_post := ex_creq HTTP11 (B "POST") (Some Unknown)
  [(B "host", [B "a"]); (B "transfer-encoding", [B "gzip"]); (B "trailer", [B "x-sum"]); (B "content-length", [B "5, 5"; B "5"])].
Lemma ex_post_ok : cmsg_ok ex_post /\ app_te_text (c_headers ex_post) /\ app_length_sane ex_post.
Proof.
  split; [split; [now apply headers_okb_ok|discriminate]|]. split; [now apply textb_ok|].
  right. exists 5. split; [apply cl_all_spec; vm_compute; reflexivity|]. split; [vm_compute; discriminate|discriminate].
Qed.
Example C17_example : exists e, client_encode ex_post =
  Some (B "POST /x HTTP/1.1" ++ CRLF ++ B "host: a" ++ CRLF ++ B "transfer-encoding: gzip, chunked" ++ CRLF ++ B "trailer: x-sum" ++ CRLF ++ CRLF, e)
  /\ ekind e = KChunked (Some [B "x-sum"]).
Proof. eexists. split; vm_compute; reflexivity. Qed.

(* hyper's server reads, from the head the client wrote, the framing that the
   client's body writer uses. *)
Theorem C17_client_server_agree : forall m out e rest count,
  cmsg_ok m -> app_te_text (c_headers m) -> app_length_sane m ->
  (forall v, In v (hm_get_all (c_headers m) (B "content-length")) -> exists n, cl_means v n) ->
  client_encode m = Some (out, e) ->
  (forall n, ekind e = KLength n -> supported_length n) ->
  exists section, out = request_line (ver_eqb (c_version m) HTTP10) (c_method m) (c_target m) ++ section /\
    (lenN section <= count ->
     exists lines pm, parse_block (section ++ rest) count = Some lines /\
       server_parse (negb (ver_eqb (c_version m) HTTP10)) (c_method m) lines = Ok pm /\
       framing_of (pm_decode pm) = kind_framing (ekind e)).
Proof.
  intros m out e rest count [Hh Hc] Ht Hl Hcl E Hs.
  destruct (C17_client_request_framing m out e (conj Hh Hc) Ht Hl E) as (_ & _ & _ & _ & _ & _).
  destruct (client_encode_ok m out e Hh Hc E) as (h' & tight & lines & Es & _ & Eo & Hw & Hf & Hver).
  destruct (sane_cl m Hl) as [L1 L2].
  pose proof (set_length_spec _ _ _ _ _ _ Hh Es Ht L1 L2) as A.
  exists (flat_map (render_line tight) lines ++ CRLF). split; auto. intros Hcnt. exists (map seen lines).
  assert (Hd : forall v, In v (cl_lines lines) -> exists n, cl_means v n).
  { unfold cl_lines. rewrite Hf. intros v Hv. destruct (set_length_cls _ _ _ _ _ _ v Hh Es Hv) as [X|[len ->]]; auto.
    exists len. apply dec_means. }
  assert (R : request_framing (negb (ver_eqb (c_version m) HTTP10)) (map seen lines) (kind_framing (ekind e))).
  { apply announces_request.
    - unfold te_values, cl_lines. rewrite !seen_values, !Hf. apply announces_tb; auto. unfold cl_lines in Hd. rewrite Hf in Hd. exact Hd.
    - unfold cl_lines. rewrite seen_values. intros v Hv. apply in_map_iff in Hv as (x & <- & Hx). destruct (Hd x Hx) as [n Hn]. exists n.
      now rewrite (cl_means_tb _ _ Hn).
    - intros n Hn. apply Hs. destruct (ekind e); cbn in Hn; congruence.
    - intros Hk. destruct Hver as [X|[X|X]]; rewrite X; auto. exfalso.
      destruct (set_length_ok _ _ _ _ _ _ Hh Es) as (_ & _ & [Y|Y]).
      + rewrite X. discriminate.
      + rewrite Y in Es. cbn [set_length] in Es. inversion Es; subst. discriminate.
      + rewrite Hk, Y in A. destruct A as [(i & v & Z & _) _]. destruct i; discriminate. }
  pose proof (C12_request_framing (negb (ver_eqb (c_version m) HTTP10)) (c_method m) (map seen lines)) as P.
  rewrite <- app_assoc, parse_lines.
  - destruct (server_parse _ _ _) as [pm|x]; [|exfalso; eapply P; exact R]. exists pm. sp; auto. symmetry. now apply P.
  - auto.
  - etransitivity; [|exact Hcnt]. rewrite lenN_app. clear. induction lines as [|l lines IH]; [apply N.le_0_l|].
    rewrite lenN_cons. cbn [flat_map]. unfold render_line at 1. rewrite !lenN_app. change (lenN CRLF) with 2 in *. lia.
Qed.
Print Assumptions C17_client_server_agree.
Example C17_agree_ex : let m := ex_creq HTTP11 (B "POST") (Some (Known 3)) [(B "host", [B "a"])] in
  cmsg_ok m /\ app_length_sane m /\ exists out e section lines pm, client_encode m = Some (out, e) /\
  out = request_line false (B "POST") (B "/x") ++ section /\ parse_block (section ++ B "abc") 100 = Some lines /\
  server_parse true (B "POST") lines = Ok pm /\ framing_of (pm_decode pm) = FLength 3.
Proof.
  cbv zeta. split; [split; [now apply headers_okb_ok|discriminate]|]. split; [now left|].
  eexists _, _, _, _, _. split; [vm_compute; reflexivity|].
  split; [change (request_line false (B "POST") (B "/x")) with (B "POST /x HTTP/1.1" ++ CRLF); vm_compute; reflexivity|].
  split; [vm_compute; reflexivity|]. split; vm_compute; reflexivity.
Qed.

(* The whole request: the server gets the application's data, and stops where
   the client stopped.  (A request is never delimited by closing.) *)
Theorem C17_message_end : forall (H : Type) (dt : bytes -> N -> option H) m out e count mh ms allowed title fs w body r s,
  cmsg_ok m -> app_te_text (c_headers m) -> app_length_sane m ->
  (forall v, In v (hm_get_all (c_headers m) (B "content-length")) -> exists n, cl_means v n) ->
  client_encode m = Some (out, e) ->
  (forall n, ekind e = KLength n -> supported_length n /\ n <= lenN (user_data fs)) ->
  Forall is_data_frame fs ->
  send_body allowed title (after_head e) fs = (w, body, r) ->
  lenN out <= count -> wf_src s ->
  ekind e <> KCloseDelimited /\
  exists section lines pm,
    out = request_line (ver_eqb (c_version m) HTTP10) (c_method m) (c_target m) ++ section /\
    parse_block (section ++ body) count = Some lines /\
    server_parse (negb (ver_eqb (c_version m) HTTP10)) (c_method m) lines = Ok pm /\
    forall rest, flat s = body ++ rest ->
      exists frames d' s', read_body_to_end dt (dec_new (pm_decode pm) mh ms) s = (frames, BEnd, d', s') /\
        concat frames = match ekind e with KLength n => takeN n (user_data fs) | _ => user_data fs end /\
        flat s' = rest.
Proof.
  intros H dt m out e count mh ms al ti fs w body r s Hm Ht Hl Hcl E Hs Hfs Hsend Hc Hw.
  destruct (C17_client_server_agree m out e body count Hm Ht Hl Hcl E) as (section & Eo & P).
  { intros n Hn. now apply Hs. }
  destruct P as (lines & pm & P1 & P2 & P3).
  { rewrite Eo, lenN_app in Hc. lia. }
  assert (Hnc : ekind e <> KCloseDelimited).
  { destruct (C17_client_request_framing m out e Hm Ht Hl E) as (_ & l & _ & _ & A & _). intros X. rewrite X in A. exact A. }
  split; auto.
  exists section, lines, pm. sp; auto. intros rest Hfl. rewrite (dec_new_kind _ _ _ _ P3).
  unfold after_head, enc_is_eof in Hsend. destruct (ekind e) as [a|n|] eqn:Ek; cbn [kind_framing negb] in *; [| |congruence].
  - destruct (C01_chunked_round_trip H dt mh ms e a al ti fs w body r rest s Ek Hfs Hsend Hw Hfl) as (_ & fr & d' & s' & R1 & R2 & R3).
    exists fr, d', s'. auto.
  - destruct (Hs n eq_refl) as [_ Hn].
    assert (Hb : body = takeN n (user_data fs)).
    { destruct n as [|p]; [destruct (is_last e), fs; rewrite takeN_0; cbn in Hsend; inversion Hsend; reflexivity|].
      cbn [negb] in Hsend. now destruct (C09_length_sender e (N.pos p) al ti fs w body r Ek Hsend). }
    assert (Hlb : lenN body = n) by (rewrite Hb, takeN_len; lia).
    destruct (C02_length_exact H dt n s Hw) as (fr & d' & s' & R1 & R2 & R3).
    { rewrite Hfl, lenN_app. lia. }
    exists fr, d', s'. split; auto. split.
    + rewrite R2, Hfl, <- Hb, <- Hlb, takeN_app_le, takeN_all by lia. reflexivity.
    + rewrite R3, Hfl, <- Hlb, dropN_app_le, dropN_all by lia. reflexivity.
Qed.
Print Assumptions C17_message_end.
Example C17_message_ex : let m := ex_creq HTTP11 (B "POST") (Some Unknown) [] in
  let fs := [UData (B "ab") false; UData (B "cd") true] in
  cmsg_ok m /\ app_te_text (c_headers m) /\ app_length_sane m /\ Forall is_data_frame fs /\
  exists out e w body r, client_encode m = Some (out, e) /\ ekind e = KChunked None /\
    send_body true false (after_head e) fs = (w, body, r) /\ wf_src (mkSrc [] [EvData body; EvData (B "d")]).
Proof.
  cbv zeta. split; [split; [now apply headers_okb_ok|discriminate]|]. split; [constructor|]. split; [now left|].
  split; [repeat constructor; cbn; discriminate|]. eexists _, _, _, _, _. split; [vm_compute; reflexivity|]. split; [reflexivity|].
  split; [vm_compute; reflexivity|]. repeat constructor; discriminate.
Qed.

(* Outside those hypotheses the claim is false. *)
(* No body, but the application set a length: the length is written and no byte follows. *)
Theorem C17_no_body_length_refuted : exists m out e lines,
  cmsg_ok m /\ app_te_text (c_headers m) /\ client_encode m = Some (out, e) /\
  out = request_line false (c_method m) (c_target m) ++ flat_map (render_line false) lines ++ CRLF /\
  Forall wire_line lines /\ cl_lines lines = [B "5"] /\ ekind e = KLength 0 /\
  forall al ti fs, send_body al ti (after_head e) fs = (after_head e, [], SDone).
Proof.
  exists (ex_creq HTTP11 (B "GET") None [(B "content-length", [B "5"])]). eexists _, _, [(B "content-length", B "5")].
  split; [split; [now apply headers_okb_ok|discriminate]|]. split; [constructor|]. split; [vm_compute; reflexivity|].
  split; [vm_compute; reflexivity|]. split; [now apply wire_linesb_ok|]. split; [vm_compute; reflexivity|]. split; [reflexivity|].
  intros al ti fs. destruct fs; reflexivity.
Qed.
Print Assumptions C17_no_body_length_refuted.
(* Transfer-Encoding together with lengths that differ: both are written. *)
Theorem C17_te_and_bad_length_refuted : exists m out e lines,
  cmsg_ok m /\ app_te_text (c_headers m) /\ client_encode m = Some (out, e) /\
  out = request_line false (c_method m) (c_target m) ++ flat_map (render_line false) lines ++ CRLF /\
  Forall wire_line lines /\ te_values lines = [B "chunked"] /\ cl_lines lines = [B "5"; B "6"].
Proof.
  exists (ex_creq HTTP11 (B "POST") (Some (Known 5)) [(B "transfer-encoding", [B "chunked"]); (B "content-length", [B "5"; B "6"])]).
  eexists _, _, [(B "transfer-encoding", B "chunked"); (B "content-length", B "5"); (B "content-length", B "6")].
  split; [split; [now apply headers_okb_ok|discriminate]|]. split; [now apply textb_ok|]. split; [vm_compute; reflexivity|].
  split; [vm_compute; reflexivity|]. split; [now apply wire_linesb_ok|]. split; vm_compute; reflexivity.
Qed.
Print Assumptions C17_te_and_bad_length_refuted.
(* The same when hyper itself adds Transfer-Encoding because the length given is not a number. *)
Theorem C17_added_te_bad_length_refuted : exists m out e lines,
  cmsg_ok m /\ hm_get_all (c_headers m) (B "transfer-encoding") = [] /\ client_encode m = Some (out, e) /\
  out = request_line false (c_method m) (c_target m) ++ flat_map (render_line false) lines ++ CRLF /\
  Forall wire_line lines /\ te_values lines = [B "chunked"] /\ cl_lines lines = [B "x"].
Proof.
  exists (ex_creq HTTP11 (B "POST") (Some Unknown) [(B "content-length", [B "x"])]).
  eexists _, _, [(B "content-length", B "x"); (B "transfer-encoding", B "chunked")].
  split; [split; [now apply headers_okb_ok|discriminate]|]. split; [reflexivity|]. split; [vm_compute; reflexivity|].
  split; [vm_compute; reflexivity|]. split; [now apply wire_linesb_ok|]. split; vm_compute; reflexivity.
Qed.
Print Assumptions C17_added_te_bad_length_refuted.
(* A length given as a list is written as it is; hyper's server refuses it. *)
Theorem C17_list_length_refuted : exists m out e section lines,
  cmsg_ok m /\ app_length_sane m /\ client_encode m = Some (out, e) /\
  out = request_line false (c_method m) (c_target m) ++ section /\ parse_block section 100 = Some lines /\
  ekind e = KLength 5 /\ exists x, server_parse true (c_method m) lines = Err x.
Proof.
  exists (ex_creq HTTP11 (B "POST") (Some (Known 5)) [(B "content-length", [B "5, 5"])]). eexists _, _, _, _.
  split; [split; [now apply headers_okb_ok|discriminate]|].
  split; [right; exists 5; split; [apply cl_all_spec; vm_compute; reflexivity|split; [vm_compute; discriminate|discriminate]]|].
  split; [vm_compute; reflexivity|].
  split; [match goal with |- context [request_line false ?a ?b] => change (request_line false a b) with (B "POST /x HTTP/1.1" ++ CRLF) end; vm_compute; reflexivity|].
  split; [vm_compute; reflexivity|]. split; [reflexivity|]. eexists. vm_compute. reflexivity.
Qed.
Print Assumptions C17_list_length_refuted.
(* A body of unknown length on a GET, HEAD, CONNECT or on a request that is not
   HTTP/1.1 is dropped without an error, however many bytes it yields. *)
Theorem C17_body_dropped_refuted : exists m out e, cmsg_ok m /\ c_headers m = [] /\ c_body m = Some Unknown /\
  client_encode m = Some (out, e) /\
  forall al ti fs, send_body al ti (after_head e) fs = (WKeepAlive, [], SDone).
Proof.
  exists (ex_creq HTTP11 (B "GET") (Some Unknown) []). eexists _, _.
  split; [split; [now apply headers_okb_ok|discriminate]|]. split; [reflexivity|]. split; [reflexivity|]. split; [vm_compute; reflexivity|].
  intros al ti fs. destruct fs; reflexivity.
Qed.
Print Assumptions C17_body_dropped_refuted.

(* ---------------------------------------------------------------- C48 *)
(* Requests: whatever the case options, every name other than the two framing
   names is written, up to letter case, with exactly its values in order. *)
Theorem C48_client_fields : forall m out e,
  cmsg_ok m -> client_encode m = Some (out, e) ->
  exists tight lines,
    out = request_line (ver_eqb (c_version m) HTTP10) (c_method m) (c_target m) ++ flat_map (render_line tight) lines ++ CRLF /\
    Forall wire_line lines /\
    forall n, n <> B "content-length" -> n <> B "transfer-encoding" -> field_values n lines = hm_get_all (c_headers m) n.
Proof.
  intros m out e [Hh Hc] E. destruct (client_encode_ok m out e Hh Hc E) as (h' & tight & lines & Es & _ & Eo & Hw & Hf & _).
  exists tight, lines. sp; auto. intros n N1 N2. rewrite Hf. now apply (set_length_ok _ _ _ _ _ _ Hh Es).
Qed.
Print Assumptions C48_client_fields.
Example C48_client_ex : exists e, client_encode
   (mkCmsg HTTP11 (B "GET") (B "/") None [(B "x-a", [B "1"; []; B "3"]); (B "content-type", [B "t"])] true (Some [(B "x-a", [B "X-a"; B "x-A"])]))
  = Some (B "GET / HTTP/1.1" ++ CRLF ++ B "X-a: 1" ++ CRLF ++ B "x-A:" ++ CRLF ++ B "X-A: 3" ++ CRLF ++ B "Content-Type: t" ++ CRLF ++ CRLF, e).
Proof. eexists. vm_compute. reflexivity. Qed.

(* ---------------------------------------------------------------- C47 *)
Definition phrase_byte (b : N) : Prop := b = 9 \/ b = 32 \/ (33 <= b /\ b <= 126) \/ (128 <= b /\ b <= 255).
Theorem C47_reason_phrase : forall s,
  match reason_try_from s with
  | Ok t => t = s /\ Forall phrase_byte s /\ ~ In 13 s /\ ~ In 10 s
  | Err b => exists p r, s = p ++ b :: r /\ Forall phrase_byte p /\ ~ phrase_byte b
  end.
Proof.
  intros s. unfold reason_try_from. pose proof (find_invalid_spec s) as H.
  assert (X : forall b, rp_valid_byte b = true <-> phrase_byte b) by (intros b; unfold rp_valid_byte, phrase_byte; lia).
  destruct (find_invalid_byte s) as [b|].
  - destruct H as (p & r & E & F & N). exists p, r. split; auto. split; [eapply Forall_impl; [|exact F]; intros a; apply X|]. rewrite <- X. congruence.
  - assert (F : Forall phrase_byte s) by (eapply Forall_impl; [|exact H]; intros a; apply X). rewrite Forall_forall in F.
    split; auto. split; [now apply Forall_forall|]. split; intros Y; apply F in Y; unfold phrase_byte in Y; lia.
Qed.
Print Assumptions C47_reason_phrase.
Example C47_ex : reason_try_from (B "Not OK" ++ [233]) = Ok (B "Not OK" ++ [233]) /\ reason_try_from (B "a" ++ CRLF ++ B "x: y") = Err 13.
Proof. split; vm_compute; reflexivity. Qed.

(* ---------------------------------------------------------------- C52 *)
(* The unfolded value is the first line without white space at its end, then
   for each further line a blank and the line without white space around it.
   The code never indexes past the value.  If CR occurs only before LF (httparse
   refuses any other), no CR and no LF is left. *)
Theorem C52_obs_fold : forall first rest,
  ~ In 10 first -> Forall (fun l => ~ In 10 l) rest -> rest <> [] ->
  exists t0 ts, obs_fold_line (join_lf first rest) = Some (t0 ++ concat (map (fun t => 32 :: t) ts)) /\
    cut_end first t0 /\ Forall2 cut_both rest ts /\
    (Forall (fun l => exists a z, l = a ++ z /\ ~ In 13 a /\ (z = [] \/ z = [13])) (first :: rest) ->
     ~ In 13 (t0 ++ concat (map (fun t => 32 :: t) ts)) /\ ~ In 10 (t0 ++ concat (map (fun t => 32 :: t) ts))).
Proof.
  intros first rest H F Hne. destruct rest as [|l rest]; [congruence|].
  exists (trim_end_ws first), (map trim_ws (l :: rest)). split; [now apply obs_fold_eq|]. pose proof (trim_end_spec first) as T.
  split; auto. split.
  { clear. induction (l :: rest) as [|x xs IH]; cbn [map]; constructor; auto using trim_ws_spec. }
  intros C. inversion C as [|? ? C1 C2]; subst. clear Hne.
  assert (G : forall c, c = 13 \/ c = 10 -> ~ In c (trim_end_ws first ++ concat (map (fun t => 32 :: t) (map trim_ws (l :: rest))))).
  { intros c Hc. rewrite in_app_iff. intros [X|X].
    - destruct T as (b & E & W & N). destruct Hc as [-> | ->].
      + revert X. apply (cr_cut first [] b); auto.
      + apply H. rewrite E. apply in_or_app. now left.
    - rewrite map_map in X. apply in_concat in X as (y & Y1 & Y2). apply in_map_iff in Y1 as (x & <- & Hx).
      destruct Y2 as [Y|Y]; [lia|]. destruct (trim_ws_spec x) as (a & b & E & W1 & W2 & N1 & N2).
      rewrite Forall_forall in F, C2. destruct Hc as [-> | ->].
      + revert Y. eapply (cr_cut x a b); eauto. apply C2. exact Hx.
      + apply (F x Hx). rewrite E. apply in_or_app. right. apply in_or_app. now left. }
  split; apply G; auto.
Qed.
Print Assumptions C52_obs_fold.
Theorem C52_unfolded_unchanged : forall v, ~ In 10 v -> obs_fold_line v = Some v.
Proof. intros v H. unfold obs_fold_line. now rewrite cut_lf_none. Qed.
Print Assumptions C52_unfolded_unchanged.
Example C52_ex : obs_fold_line (B "a " ++ CRLF ++ [9; 32] ++ B "b c" ++ CRLF ++ B "  " ++ CRLF ++ B " d ") = Some (B "a b c  d").
Proof. vm_compute. reflexivity. Qed.
