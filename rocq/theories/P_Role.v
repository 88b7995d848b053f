(* Properties C16, C18, C48, C55: response heads. *)
From Verif Require Import Base M_Src M_Decode M_HeaderMap M_Httparse M_Headers M_Encode M_Role M_RoleEncode
  S_Transport S_Chunked S_Send S_Framing S_Head L_Decode L_Encode L_Encode2 L_Body L_Headers L_Framing L_RoleEncode L_RoleEncode2 L_Wire
  L_Server P_Body P_Framing.

(* A response with fields of every special kind. *)
Definition ok_reason (st : N) : option bytes := if st =? 200 then Some (B "OK") else None.
Definition ex_msg (ver : version) (method : option bytes) (status : N) (b : option body_length) (h : hmap) : smsg :=
  mkSmsg ver status method b h true true false None None.
Definition ex_headers : hmap :=
  [(B "connection", [B "x"; B "close"]); (B "x-a", [B "1"; B "2"]); (B "transfer-encoding", [B "gzip"]); (B "trailer", [B "x-sum"])].
Definition ex_resp := ex_msg HTTP11 (Some (B "GET")) 200 (Some Unknown) ex_headers.
Definition ex_date := B "Sun, 06 Nov 1994 08:49:37 GMT".
Lemma ex_resp_ok : smsg_ok ex_resp /\ value_chars ex_date /\ app_te_text (m_headers ex_resp).
Proof.
  sp.
  - split; [now apply headers_okb_ok|]. split; discriminate.
  - now apply value_charsb_ok.
  - now apply textb_ok.
Qed.

(* ---------------------------------------------------------------- C16 *)
(* A response head: the status line, header lines, an empty line.  At most one
   framing field; no Transfer-Encoding where it must not be; and the body
   encoder that follows frames the body as the fields say. *)
Theorem C16_server_response_framing : forall reason date m out e,
  smsg_ok m -> value_chars date ->
  server_encode reason date m = (out, Ok e) ->
  exists lines,
    out = head_start reason m ++ render_lines lines ++ CRLF /\ Forall wire_line lines /\
    (length (te_values lines) + length (cl_lines lines) <= 1)%nat /\
    (te_values lines <> [] -> m_version m <> HTTP10 /\ ~ body_forbidden (m_method m) (m_status m)) /\
    (body_forbidden (m_method m) (m_status m) -> ekind e = KLength 0) /\
    (~ body_forbidden (m_method m) (m_status m) ->
     app_te_text (m_headers m) -> (forall n, m_body m = Some (Known n) -> app_length_is (m_headers m) n) ->
     match ekind e with
     | KChunked _ => final_chunked (te_values lines) /\ cl_lines lines = []
     | KLength n => te_values lines = [] /\ exists v, cl_lines lines = [v] /\ cl_means v n
     | KCloseDelimited => te_values lines = [] /\ cl_lines lines = [] /\ m_version m = HTTP10
     end).
Proof.
  intros reason date m out e Hm Hd E. destruct (server_encode_ok _ _ _ _ _ Hm Hd E) as (lines & last0 & H & Hni & _).
  exists lines. pose proof (ho_fr _ _ _ _ _ _ _ H) as F. split; [apply (ho_out _ _ _ _ _ _ _ H)|]. split; [apply (ho_wire _ _ _ _ _ _ _ H)|].
  pose proof (can_chunked_spec (m_method m) (m_status m)) as Hc.
  assert (Hdec : body_forbidden (m_method m) (m_status m) -> can_chunked (m_method m) (m_status m) = false).
  { intros Hf. destruct (can_chunked (m_method m) (m_status m)); [|reflexivity]. exfalso. now apply (proj1 Hc). }
  unfold fields_match in F. sp.
  - destruct (te_values lines) as [|v [|]], (cl_lines lines) as [|c [|]]; try (destruct F; fail); cbn; lia.
  - intros Ht. destruct (te_values lines) as [|v [|]]; [congruence| |destruct F]. destruct (cl_lines lines); [|destruct F].
    destruct F as (F1 & _). unfold can_te in F1. apply andb_prop in F1 as [F1 F2]. split; [|now apply Hc].
    intros X. rewrite X in F1. discriminate.
  - intros Hf. apply (ho_none _ _ _ _ _ _ _ H). auto.
  - intros Hnf Ht Hl. apply Hc in Hnf.
    destruct (te_values lines) as [|v [|]], (cl_lines lines) as [|c [|]]; try (destruct F; fail).
    + destruct (F Hnf) as (-> & F2 & _). auto.
    + destruct (F Hnf) as (n & -> & F2 & _). split; auto. exists c. split; auto.
    + destruct F as (F1 & [f ->] & F3). auto.
Qed.
Print Assumptions C16_server_response_framing.

Example C16_example : exists e, server_encode ok_reason ex_date ex_resp =
  (B "HTTP/1.1 200 OK" ++ CRLF ++ B "connection: x, close" ++ CRLF ++ B "x-a: 1" ++ CRLF ++ B "x-a: 2" ++ CRLF ++
   B "transfer-encoding: gzip, chunked" ++ CRLF ++ B "trailer: x-sum, chunked" ++ CRLF ++ B "date: " ++ ex_date ++ CRLF ++ CRLF, Ok e)
  /\ ekind e = KChunked (Some [B "x-sum"]) /\ is_last e = true.
Proof. eexists. split; [vm_compute; reflexivity|]. split; reflexivity. Qed.

(* When the head cannot be written nothing is written, except for interim
   statuses, which are answered with an empty 500 response. *)
Theorem C16_server_error : forall reason date m out x,
  value_chars date -> server_encode reason date m = (out, Err x) ->
  out = [] \/
  (100 <= m_status m < 200 /\ m_status m <> 101 /\
   out = start_line false (B "500") (match reason 500 with Some r => r | None => B "<none>" end) ++
         (if method_is (m_method m) (B "HEAD") then [] else B (if m_title_case m then "Content-Length: 0" else "content-length: 0") ++ CRLF) ++
         (if m_date_header m then B (if m_title_case m then "Date: " else "date: ") ++ date ++ CRLF else []) ++ CRLF).
Proof.
  intros reason date m out x Hd E. unfold server_encode in E.
  assert (Hgo : forall last0 len0 w m', match status_line reason m' with
     | None => ([], Err EPanicVersion)
     | Some line => match encode_headers m' w date line last0 len0 with
                    | None => ([], Err EUserHeader) | Some (o, e) => (o, if false then Err EUnsupportedStatus else Ok e) end
     end = (out, Err x) -> out = []).
  { intros last0 len0 w m' X. destruct (status_line reason m'); [|inversion X; reflexivity].
    destruct (encode_headers _ _ _ _ _ _) as [[? ?]|]; [discriminate|]. inversion X. reflexivity. }
  destruct (N.eqb_spec (m_status m) 101); [left; eapply Hgo; eauto|].
  destruct (method_is (m_method m) (B "CONNECT") && is_success (m_status m)) eqn:Ec; [left; eapply Hgo; eauto|].
  destruct (is_informational (m_status m)) eqn:Ei; [|left; eapply Hgo; eauto]. right. unfold is_informational in Ei.
  split; [lia|]. split; [auto|].
  set (m' := mkSmsg HTTP11 500 (m_method m) None [] (m_keep_alive m) (m_date_header m) (m_title_case m) None None) in E.
  change (status_line reason m') with (Some (start_line false (B "500") (match reason 500 with Some r => r | None => B "<none>" end))) in E.
  remember (start_line false (B "500") (match reason 500 with Some r => r | None => B "<none>" end)) as line eqn:Eline. clear Eline.
  apply pair_equal_spec in E as [E _]; revert E.
  unfold m'. cbn [m_case m_title_case]. unfold encode_headers. cbn [m_headers s_headers].
  assert (Hz : can_have_implicit_zero_content_length (m_method m) 500 = negb (method_is (m_method m) (B "HEAD"))).
  { unfold can_have_implicit_zero_content_length, can_have_content_length. change (is_informational 500) with false.
    change (is_success 500) with false. rewrite andb_false_r. reflexivity. }
  unfold s_finish, s_default_len, s_new_name, s_flush, can_have_body.
  cbn [m_body m_method m_status m_date_header s_wrote_len s_written s_dst s_enc s_allowed s_date s_must s_prev s_last s_cur]. rewrite Hz.
  destruct (m_title_case m), (method_is (m_method m) (B "HEAD")), (m_date_header m); cbn [negb andb s_set_enc s_date];
    rewrite ?s_line_eq; cbn [write_name s_cur s_dst s_date negb andb fst snd]; rewrite ?s_line_eq; cbn [write_name s_cur s_dst fst snd];
    intros <-; cbv [s_set_enc s_dst s_cur fst snd write_name hm_get_all]; rewrite <- ?app_assoc; reflexivity.
Qed.
Print Assumptions C16_server_error.
Example C16_error_ex : server_encode ok_reason ex_date (ex_msg HTTP11 (Some (B "GET")) 103 None [(B "link", [B "x"])]) =
  (B "HTTP/1.1 500 <none>" ++ CRLF ++ B "content-length: 0" ++ CRLF ++ B "date: " ++ ex_date ++ CRLF ++ CRLF, Err EUnsupportedStatus).
Proof. vm_compute. reflexivity. Qed.

(* With a body of unknown length the application's Content-Length fields decide
   the framing; if they do not all mean the same number, there is no response. *)
Definition prev_lengths (vs : list bytes) (p : option N) : Prop :=
  match p with Some n => Forall (fun v => cl_means v n) vs | None => exists n, Forall (fun v => cl_means v n) vs end.
Lemma s_values_lengths m w : m_body m = Some Unknown -> forall vs s s',
  s_values m w (B "content-length") vs s = Some s' -> prev_lengths vs (s_prev s).
Proof.
  intros Hb. induction vs as [|v vs IH]; intros s s' E; cbn [s_values] in E.
  { unfold prev_lengths. destruct (s_prev s); [constructor|exists 0; constructor]. }
  destruct (s_value m w (B "content-length") v s) as [s1|] eqn:E1; [|discriminate]. apply IH in E.
  unfold s_value in E1. rewrite beq_refl, Hb in E1. destruct (s_wrote_len s && negb (s_written s)); [discriminate|].
  destruct (content_length_parse v) as [len|] eqn:Ep; [|discriminate].
  apply C14_content_length_exact in Ep as (P1 & P2 & P3 & _).
  assert (cl_means v len) as Hm by (split; auto).
  destruct (s_prev s) as [p|] eqn:Es.
  - destruct (N.eqb_spec p len) as [->|]; [|discriminate]. injection E1 as <-. rewrite Es in E. cbn. now constructor.
  - injection E1 as <-. rewrite s_open_eq in E. cbn [s_set_prev s_prev prev_lengths] in E. exists len. now constructor.
Qed.
Lemma s_values_prev m w name : beq name (B "content-length") = false -> forall vs s s',
  s_values m w name vs s = Some s' -> s_prev s' = s_prev s.
Proof.
  intros Hn. induction vs as [|v vs IH]; intros s s' E; cbn [s_values] in E; [now injection E as <-|].
  destruct (s_value m w name v s) as [s1|] eqn:E1; [|discriminate]. apply IH in E. rewrite E. clear IH E.
  unfold s_value in E1. rewrite Hn in E1.
  repeat match type of E1 with
  | (if ?c then _ else _) = _ => destruct c
  end; try discriminate; injection E1 as <-;
  rewrite ?s_line_eq; unfold s_join, s_allow; rewrite ?s_open_eq;
  repeat match goal with |- context [if ?c then _ else _] => destruct c | |- context [match to_str ?v with _ => _ end] => destruct (to_str v) end;
  reflexivity.
Qed.
Lemma hm_get_all_absent (h : hmap) n : ~ In n (map fst h) -> hm_get_all h n = [].
Proof.
  induction h as [|[k vs] h IH]; intros H; [reflexivity|]. cbn in *.
  destruct (beq k n) eqn:E; [apply beq_eq in E; tauto|tauto].
Qed.
Lemma s_headers_lengths m w : m_body m = Some Unknown -> forall h s s', NoDup (map fst h) -> s_prev s = None ->
  s_headers m w h s = Some s' -> exists n, Forall (fun v => cl_means v n) (hm_get_all h (B "content-length")).
Proof.
  intros Hb. induction h as [|[k vs] h IH]; intros s s' Hd Hp E; [exists 0; constructor|].
  cbn [s_headers] in E. destruct (s_values m w k vs (s_new_name s)) as [s1|] eqn:E1; [|discriminate].
  cbn [map fst] in Hd. inversion Hd as [|? ? D1 D2]; subst. cbn [hm_get_all].
  destruct (beq k (B "content-length")) eqn:Ek.
  - apply beq_eq in Ek. subst k. apply s_values_lengths in E1; auto. cbn [s_new_name s_prev] in E1. rewrite Hp in E1. exact E1.
  - apply (IH s1 s'); auto. rewrite (s_values_prev _ _ _ Ek _ _ _ E1). exact Hp.
Qed.
Theorem C16_lengths_must_agree : forall reason date m out e,
  smsg_ok m -> m_body m = Some Unknown -> server_encode reason date m = (out, Ok e) ->
  exists n, app_length_is (m_headers m) n.
Proof.
  intros reason date m out e Hm Hb E. unfold server_encode in E.
  assert (forall w line l0 n0, encode_headers m w date line l0 n0 <> None -> exists n, app_length_is (m_headers m) n) as G.
  { intros w line l0 n0 H. unfold encode_headers in H. destruct (s_headers m w (m_headers m) _) as [s|] eqn:Es; [|easy].
    apply s_headers_lengths in Es; auto. destruct Hm as [[[Hd _] _] _]. exact Hd. }
  destruct (m_status m =? 101); [|destruct (method_is _ _ && _); [|destruct (is_informational _)]].
  - destruct (status_line _ _); [|discriminate]. destruct (encode_headers _ _ _ _ _ _) eqn:Eh; [|discriminate].
    eapply G. rewrite Eh. discriminate.
  - destruct (status_line _ _); [|discriminate]. destruct (encode_headers _ _ _ _ _ _) eqn:Eh; [|discriminate].
    eapply G. rewrite Eh. discriminate.
  - destruct (status_line _ _); [|discriminate]. destruct (encode_headers _ _ _ _ _ _) as [[? ?]|] eqn:Eh; discriminate.
  - destruct (status_line _ _); [|discriminate]. destruct (encode_headers _ _ _ _ _ _) eqn:Eh; [|discriminate].
    eapply G. rewrite Eh. discriminate.
Qed.
Print Assumptions C16_lengths_must_agree.
Example C16_lengths_ex :
  snd (server_encode ok_reason ex_date (ex_msg HTTP11 (Some (B "GET")) 200 (Some Unknown) [(B "content-length", [B "3"; B "4"])])) = Err EUserHeader /\
  exists e, snd (server_encode ok_reason ex_date (ex_msg HTTP11 (Some (B "GET")) 200 (Some Unknown) [(B "content-length", [B "3"; B "03"])])) = Ok e /\ ekind e = KLength 3.
Proof. split; [vm_compute; reflexivity|]. eexists. split; vm_compute; reflexivity. Qed.

(* Without the hypothesis on Content-Length the last part is false: hyper
   copies the application's field and frames by the size of the body. *)
Theorem C16_length_not_checked_refuted : exists m out e lines,
  smsg_ok m /\ m_body m = Some (Known 5) /\ app_te_text (m_headers m) /\ ~ body_forbidden (m_method m) (m_status m) /\
  server_encode ok_reason ex_date m = (out, Ok e) /\
  out = head_start ok_reason m ++ render_lines lines ++ CRLF /\
  cl_lines lines = [B "3"] /\ ekind e = KLength 5.
Proof.
  exists (ex_msg HTTP11 (Some (B "GET")) 200 (Some (Known 5)) [(B "content-length", [B "3"])]).
  eexists _, _, [(B "content-length", B "3"); (B "date", ex_date)].
  split; [split; [now apply headers_okb_ok|]; split; [discriminate|]; intros n E; inversion E; subst; vm_compute; discriminate|].
  split; [reflexivity|]. split; [now apply textb_ok|]. split; [now apply can_chunked_spec|].
  split; [vm_compute; reflexivity|]. split; [vm_compute; reflexivity|]. split; vm_compute; reflexivity.
Qed.
Print Assumptions C16_length_not_checked_refuted.

(* ---------------------------------------------------------------- C55 *)
(* Where the response must not have a body, no body byte is written, whatever
   the application's body yields. *)
Theorem C55_no_body_bytes : forall reason date m out e allowed title fs,
  smsg_ok m -> value_chars date -> body_forbidden (m_method m) (m_status m) ->
  server_encode reason date m = (out, Ok e) ->
  send_body allowed title (after_head e) fs = (after_head e, [], SDone) /\ forall e', after_head e <> WBody e'.
Proof.
  intros reason date m out e al ti fs Hm Hd Hf E. destruct (server_encode_ok _ _ _ _ _ Hm Hd E) as (lines & last0 & H & _).
  assert (Hk : ekind e = KLength 0).
  { apply (ho_none _ _ _ _ _ _ _ H). destruct (can_chunked (m_method m) (m_status m)) eqn:Ec; auto. apply can_chunked_spec in Ec. tauto. }
  unfold after_head, enc_is_eof. rewrite Hk. cbn [negb]. destruct (is_last e); (split; [destruct fs; reflexivity|discriminate]).
Qed.
Print Assumptions C55_no_body_bytes.
Example C55_example : let m := ex_msg HTTP11 (Some (B "HEAD")) 200 (Some (Known 5)) [] in
  smsg_ok m /\ body_forbidden (m_method m) (m_status m) /\ exists out e, server_encode ok_reason ex_date m = (out, Ok e) /\
  send_body true false (after_head e) [UData (B "hello") true] = (WKeepAlive, [], SDone).
Proof.
  cbv zeta. sp.
  - split; [now apply headers_okb_ok|]. split; [discriminate|]. intros n E. inversion E; subst. vm_compute. discriminate.
  - now left.
  - eexists _, _. split; vm_compute; reflexivity.
Qed.

(* ---------------------------------------------------------------- C18 *)
(* hyper's client reads, from the head the server wrote, the framing that the
   server's body writer uses. *)
Theorem C18_server_client_agree : forall reason date m out e rest count,
  smsg_ok m -> value_chars date ->
  app_te_text (m_headers m) -> (forall n, m_body m = Some (Known n) -> app_length_is (m_headers m) n) ->
  server_encode reason date m = (out, Ok e) ->
  (forall n, ekind e = KLength n -> supported_length n) ->
  exists section, out = head_start reason m ++ section /\
    (lenN section <= count ->
     exists lines pm, parse_block (section ++ rest) count = Some lines /\
       client_parse_head (if ver_eqb (m_version m) HTTP10 then HTTP10 else HTTP11) (m_status m) lines (m_method m) = Ok (Some pm) /\
       framing_of (pm_decode pm) = kind_framing (ekind e)).
Proof.
  intros reason date m out e rest count Hm Hd Hte Hcl E Hs. destruct (server_encode_ok _ _ _ _ _ Hm Hd E) as (lines & last0 & H & Hni & _).
  exists (render_lines lines ++ CRLF). split; [apply (ho_out _ _ _ _ _ _ _ H)|]. intros Hc.
  destruct (client_agrees m last0 _ out e date lines (proj1 Hm) H Hni Hte Hcl Hs) as [up R].
  exists (map seen lines). rewrite <- app_assoc, parse_rendered.
  - set (ver := if ver_eqb (m_version m) HTTP10 then HTTP10 else HTTP11).
    assert (Hv : ver_eqb (m_version m) HTTP10 = ver_eqb ver HTTP10) by (unfold ver; destruct (ver_eqb (m_version m) HTTP10); reflexivity).
    rewrite Hv in R. apply C15_response_framing in R. destruct (client_parse_head ver _ _ _) as [[pm|]|] eqn:Ep; try discriminate.
    inversion R. exists pm. auto.
  - apply (ho_wire _ _ _ _ _ _ _ H).
  - etransitivity; [|exact Hc]. rewrite lenN_app. clear. unfold render_lines. induction lines as [|l lines IH]; [apply N.le_0_l|].
    rewrite lenN_cons. cbn [flat_map]. rewrite !lenN_app. change (lenN (B ": ")) with 2. lia.
Qed.
Print Assumptions C18_server_client_agree.
Example C18_example : exists out e section lines pm,
  server_encode ok_reason ex_date ex_resp = (out, Ok e) /\ out = head_start ok_reason ex_resp ++ section /\
  parse_block (section ++ B "5") 100 = Some lines /\
  client_parse_head HTTP11 200 lines (Some (B "GET")) = Ok (Some pm) /\ framing_of (pm_decode pm) = FChunked.
Proof.
  eexists _, _, _, _, _. split; [vm_compute; reflexivity|].
  split; [change (head_start ok_reason ex_resp) with (B "HTTP/1.1 200 OK" ++ CRLF); vm_compute; reflexivity|].
  split; [vm_compute; reflexivity|]. split; vm_compute; reflexivity.
Qed.

(* The whole message: the client that reads what the server wrote gets the
   data of the application, and stops where the server stopped. *)
Theorem C18_message_end : forall (H : Type) (dt : bytes -> N -> option H) reason date m out e count mh ms allowed title fs w body r s,
  smsg_ok m -> value_chars date ->
  app_te_text (m_headers m) -> (forall n, m_body m = Some (Known n) -> app_length_is (m_headers m) n) ->
  server_encode reason date m = (out, Ok e) ->
  (forall n, ekind e = KLength n -> supported_length n /\ n <= lenN (user_data fs)) ->
  Forall is_data_frame fs ->
  send_body allowed title (after_head e) fs = (w, body, r) ->
  lenN out <= count -> wf_src s ->
  exists section lines pm,
    out = head_start reason m ++ section /\ parse_block (section ++ body) count = Some lines /\
    client_parse_head (if ver_eqb (m_version m) HTTP10 then HTTP10 else HTTP11) (m_status m) lines (m_method m) = Ok (Some pm) /\
    forall rest, flat s = body ++ rest ->
      (ekind e = KCloseDelimited -> rest = [] /\ has_err s = false) ->
      exists frames d' s', read_body_to_end dt (dec_new (pm_decode pm) mh ms) s = (frames, BEnd, d', s') /\
        concat frames = match ekind e with KLength n => takeN n (user_data fs) | _ => user_data fs end /\
        (ekind e <> KCloseDelimited -> flat s' = rest).
Proof.
  intros H dt reason date m out e count mh ms al ti fs w body r s Hm Hd Hte Hcl E Hs Hfs Hsend Hc Hw.
  destruct (C18_server_client_agree reason date m out e body count Hm Hd Hte Hcl E) as (section & Eo & P).
  { intros n Hn. now apply Hs. }
  destruct P as (lines & pm & P1 & P2 & P3).
  { rewrite Eo, lenN_app in Hc. lia. }
  exists section, lines, pm. sp; auto. intros rest Hfl Hcd. rewrite (dec_new_kind _ _ _ _ P3).
  assert (Hk : kind_framing (ekind e) = match ekind e with KChunked _ => FChunked | KLength n => FLength n | KCloseDelimited => FClose end) by reflexivity.
  unfold after_head, enc_is_eof in Hsend. destruct (ekind e) as [a|n|] eqn:Ek; cbn [kind_framing negb] in *.
  - destruct (C01_chunked_round_trip H dt mh ms e a al ti fs w body r rest s Ek Hfs Hsend Hw Hfl) as (_ & fr & d' & s' & R1 & R2 & R3).
    exists fr, d', s'. auto.
  - destruct (Hs n eq_refl) as [_ Hn].
    assert (Hb : body = takeN n (user_data fs)).
    { destruct n as [|p]; [destruct (is_last e), fs; rewrite takeN_0; cbn in Hsend; inversion Hsend; reflexivity|].
      cbn [negb] in Hsend. now destruct (C09_length_sender e (N.pos p) al ti fs w body r Ek Hsend). }
    assert (Hlb : lenN body = n) by (rewrite Hb, takeN_len; lia).
    destruct (C02_length_exact H dt n s Hw) as (fr & d' & s' & R1 & R2 & R3).
    { rewrite Hfl, lenN_app. lia. }
    exists fr, d', s'. split; auto. split.
    + rewrite R2, Hfl, <- Hb, <- Hlb, takeN_app_le, takeN_all by lia. reflexivity.
    + intros _. rewrite R3, Hfl, <- Hlb, dropN_app_le, dropN_all by lia. reflexivity.
  - rewrite (send_close al ti fs e Ek Hfs) in Hsend. inversion Hsend; subst. destruct (Hcd eq_refl) as [-> He].
    unfold read_body_to_end. destruct (read_body_all dt (S (src_size s)) dec_eof s) as [[[fr en] d'] s'] eqn:Er.
    apply read_all_eof in Er; auto. destruct Er as (_ & R1 & ->). rewrite He. exists fr, d', s'. split; auto.
    split; [|congruence]. rewrite R1, Hfl, app_nil_r. reflexivity.
Qed.
Print Assumptions C18_message_end.
Example C18_message_ex :
  let m := ex_msg HTTP10 (Some (B "GET")) 200 (Some Unknown) [(B "transfer-encoding", [B "gzip"])] in
  let fs := [UData (B "ab") false; UData (B "cd") true] in
  smsg_ok m /\ app_te_text (m_headers m) /\ Forall is_data_frame fs /\
  exists out e, server_encode ok_reason ex_date m = (out, Ok e) /\ ekind e = KCloseDelimited /\
  exists w r, send_body true false (after_head e) fs = (w, B "abcd", r) /\ wf_src (mkSrc [] [EvData (B "abc"); EvData (B "d")]).
Proof.
  cbv zeta. sp.
  - split; [now apply headers_okb_ok|]. split; discriminate.
  - now apply textb_ok.
  - repeat constructor; cbn; discriminate.
  - eexists _, _. split; [vm_compute; reflexivity|]. split; [reflexivity|]. eexists _, _. split; [vm_compute; reflexivity|].
    repeat constructor; discriminate.
Qed.

(* A Transfer-Encoding value with a byte above 126: the server chunks, the
   client takes the body to end with the connection. *)
Theorem C18_te_not_text_refuted : exists m out e section lines pm,
  smsg_ok m /\ m_body m = Some Unknown /\ server_encode ok_reason ex_date m = (out, Ok e) /\
  out = head_start ok_reason m ++ section /\ parse_block section 100 = Some lines /\
  client_parse_head HTTP11 200 lines (m_method m) = Ok (Some pm) /\
  framing_of (pm_decode pm) = FClose /\ kind_framing (ekind e) = FChunked.
Proof.
  exists (ex_msg HTTP11 (Some (B "GET")) 200 (Some Unknown) [(B "transfer-encoding", [[255]])]). eexists _, _, _, _, _.
  split; [split; [now apply headers_okb_ok|]; split; discriminate|]. split; [reflexivity|].
  split; [vm_compute; reflexivity|].
  split; [match goal with |- context [head_start ok_reason ?m] => change (head_start ok_reason m) with (B "HTTP/1.1 200 OK" ++ CRLF) end; vm_compute; reflexivity|].
  split; [vm_compute; reflexivity|]. split; [vm_compute; reflexivity|]. split; vm_compute; reflexivity.
Qed.
Print Assumptions C18_te_not_text_refuted.
(* A length at the very end of the 64-bit range: sent, and refused on reading. *)
Theorem C18_huge_length_refuted : exists m out e section lines,
  smsg_ok m /\ m_body m = Some Unknown /\ server_encode ok_reason ex_date m = (out, Ok e) /\
  out = head_start ok_reason m ++ section /\ parse_block section 100 = Some lines /\
  client_parse_head HTTP11 200 lines (m_method m) = Err PTooLarge /\ ekind e = KLength (2 ^ 64 - 1).
Proof.
  exists (ex_msg HTTP11 (Some (B "GET")) 200 (Some Unknown) [(B "content-length", [B "18446744073709551615"])]). eexists _, _, _, _.
  split; [split; [now apply headers_okb_ok|]; split; discriminate|]. split; [reflexivity|].
  split; [vm_compute; reflexivity|].
  split; [match goal with |- context [head_start ok_reason ?m] => change (head_start ok_reason m) with (B "HTTP/1.1 200 OK" ++ CRLF) end; vm_compute; reflexivity|].
  split; [vm_compute; reflexivity|]. split; vm_compute; reflexivity.
Qed.
Print Assumptions C18_huge_length_refuted.

(* ---------------------------------------------------------------- C48 *)
(* Whatever the case options, each written name is the header's name up to
   letter case, and each name has exactly its values, in order.  The framing
   fields are C16's; Connection and Trailer values are joined in one line. *)
Theorem C48_server_fields : forall reason date m out e,
  smsg_ok m -> value_chars date ->
  server_encode reason date m = (out, Ok e) ->
  exists lines, out = head_start reason m ++ render_lines lines ++ CRLF /\ Forall wire_line lines /\
    (forall n, ~ In n (map B ["content-length"; "transfer-encoding"; "connection"; "trailer"; "date"]%string) ->
       field_values n lines = hm_get_all (m_headers m) n) /\
    field_values (B "date") lines =
      match hm_get_all (m_headers m) (B "date") with [] => if m_date_header m then [date] else [] | vs => vs end /\
    ((forall v, In v (hm_get_all (m_headers m) (B "transfer-encoding")) -> last_member v (B "chunked") /\ text v) ->
     field_values (B "connection") lines =
       match hm_get_all (m_headers m) (B "connection") with [] => [] | vs => [comma_join vs] end).
Proof.
  intros reason date m out e Hm Hd E. destruct (server_encode_ok _ _ _ _ _ Hm Hd E) as (lines & last0 & H & _).
  exists lines. sp.
  - apply (ho_out _ _ _ _ _ _ _ H).
  - apply (ho_wire _ _ _ _ _ _ _ H).
  - intros n Hn. cbn [map In] in Hn. apply (ho_plain _ _ _ _ _ _ _ H).
    + unfold special, CL, TE, CO, TR. destruct (beq n (B "content-length")) eqn:E1; [apply beq_eq in E1; subst; tauto|].
      destruct (beq n (B "transfer-encoding")) eqn:E2; [apply beq_eq in E2; subst; tauto|].
      destruct (beq n (B "connection")) eqn:E3; [apply beq_eq in E3; subst; tauto|].
      destruct (beq n (B "trailer")) eqn:E4; [apply beq_eq in E4; subst; tauto|]. reflexivity.
    + intros ->. tauto.
  - apply (ho_date _ _ _ _ _ _ _ H).
  - pose proof (ho_join _ _ _ _ _ _ _ H CO (or_introl eq_refl)) as J. unfold joined in J.
    intros Ht. change (B "connection") with CO. destruct (hm_get_all (m_headers m) CO) as [|v vs]; [exact J|].
    destruct J as [(X & _)|(_ & sfx & J1 & [-> |[-> J2]])]; [discriminate|now rewrite app_nil_r in J1|].
    destruct J2 as (x & J2 & J3). apply Ht in J2. rewrite (proj2 (is_chunked__spec x)) in J3 by tauto. discriminate.
Qed.
Print Assumptions C48_server_fields.
Example C48_server_ex : exists e, server_encode ok_reason ex_date
   (mkSmsg HTTP11 200 None (Some (Known 2)) [(B "x-a", [B "1"; B "2"; B "3"]); (B "content-type", [B "t"])] true false true
      (Some [(B "x-a", [B "X-a"; B "x-A"])]) None)
  = (B "HTTP/1.1 200 OK" ++ CRLF ++ B "X-a: 1" ++ CRLF ++ B "x-A: 2" ++ CRLF ++ B "X-A: 3" ++ CRLF ++ B "Content-Type: t" ++ CRLF ++
     B "Content-Length: 2" ++ CRLF ++ CRLF, Ok e).
Proof. eexists. vm_compute. reflexivity. Qed.
(* Without that hypothesis it is false: ", chunked" is appended to a field that
   follows a Transfer-Encoding which did not end in chunked. *)
Theorem C48_chunked_leaks_refuted : exists m out e lines,
  smsg_ok m /\ server_encode ok_reason ex_date m = (out, Ok e) /\
  out = head_start ok_reason m ++ render_lines lines ++ CRLF /\ Forall wire_line lines /\
  hm_get_all (m_headers m) (B "connection") = [B "keep-alive"] /\
  field_values (B "connection") lines = [B "keep-alive, chunked"].
Proof.
  exists (ex_msg HTTP11 (Some (B "GET")) 200 (Some Unknown) [(B "transfer-encoding", [B "gzip"]); (B "connection", [B "keep-alive"])]).
  eexists _, _, [(B "transfer-encoding", B "gzip, chunked"); (B "connection", B "keep-alive, chunked"); (B "date", ex_date)].
  split; [split; [now apply headers_okb_ok|]; split; discriminate|].
  split; [vm_compute; reflexivity|]. split; [vm_compute; reflexivity|].
  split; [now apply wire_linesb_ok|]. split; vm_compute; reflexivity.
Qed.
Print Assumptions C48_chunked_leaks_refuted.
