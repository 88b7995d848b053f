(* C16: no length where none belongs. *)
From Verif Require L_Writable L_Encodable.
From Verif Require Import Base M_Src M_Decode M_HeaderMap M_Httparse M_Headers M_Encode M_Role M_RoleEncode
  S_Transport S_Chunked S_Send S_Framing S_Head L_Decode L_Encode L_Encode2 L_Body L_Headers L_Framing L_RoleEncode L_RoleEncode2 L_Wire
  L_Server P_Body P_Framing P_Role.

(* RFC 9110 8.6, RFC 9112 6.1: responses without any body, to whatever method *)
Definition bodyless (method : option bytes) (status : N) : Prop :=
  100 <= status < 200 \/ status = 204 \/ status = 304 \/ (method = Some (B "CONNECT") /\ 200 <= status < 300).

Lemma bodyless_none m : bodyless (m_method m) (m_status m) ->
  can_chunked (m_method m) (m_status m) = false /\ can_have_content_length (m_method m) (m_status m) = false.
Proof.
  intros H. split.
  - destruct (can_chunked _ _) eqn:E; [|reflexivity]. apply can_chunked_spec in E. destruct E. unfold body_forbidden. destruct H as [H|[H|[H|H]]]; auto 6.
  - unfold can_have_content_length, is_informational, is_success. destruct H as [H|[H|[H|(-> & H)]]].
    + assert ((100 <=? m_status m) && (m_status m <=? 199) = true) as -> by lia. reflexivity.
    + rewrite H. now destruct (method_is _ _).
    + rewrite H. now destruct (method_is _ _).
    + cbn [method_is]. rewrite beq_refl. assert ((200 <=? m_status m) && (m_status m <=? 299) = true) as -> by lia. now rewrite orb_true_r.
Qed.

(* Without a Content-Length of the application no field decides the framing *)
Lemma loop_len m w : can_chunked (m_method m) (m_status m) = false -> forall h, ~ In (B "content-length") (map fst h) ->
  forall s s', s_headers m w h s = Some s' -> s_wrote_len s' = s_wrote_len s.
Proof.
  intros Hc. induction h as [|[n vs] h IH]; intros Hn s s' E; cbn [s_headers] in E; [congruence|]. cbn [map fst In] in Hn.
  destruct (s_values m w n vs (s_new_name s)) as [s1|] eqn:E1; [|discriminate]. rewrite (IH ltac:(tauto) _ _ E). change (s_wrote_len s) with (s_wrote_len (s_new_name s)). clear E IH.
  destruct (beq n (B "transfer-encoding")) eqn:Et.
  - apply beq_eq in Et. subst n. revert E1. generalize (s_new_name s). clear s s'. induction vs as [|v vs IH]; intros s E1; cbn [s_values] in E1; [congruence|].
    unfold s_value in E1. change (beq (B "transfer-encoding") (B "content-length")) with false in E1. rewrite beq_refl, Hc, orb_true_r in E1. destruct (_ && _) in E1; [discriminate|]. now apply IH.
  - apply beq_false_ne in Et. destruct (L_Writable.other_values m w n vs ltac:(tauto) Et (s_new_name s)) as (s2 & E2 & A & _). rewrite E2 in E1. injection E1 as <-. exact A.
Qed.

Lemma no_length m w pre last0 len0 date out e : writer_ok w -> (len0 = true -> can_chunked (m_method m) (m_status m) = false) -> headers_ok (m_headers m) -> value_chars date ->
  bodyless (m_method m) (m_status m) -> hm_get_all (m_headers m) (B "content-length") = [] ->
  encode_headers m w date pre last0 len0 = Some (out, e) ->
  exists lines, out = pre ++ render_lines lines ++ CRLF /\ Forall wire_line lines /\ te_values lines = [] /\ cl_lines lines = [].
Proof.
  intros Hw Hl Hh Hd Hb Hcl E. destruct (bodyless_none m Hb) as (N1 & N2). unfold encode_headers in E.
  destruct (s_headers m w (m_headers m) _) as [s0|] eqn:E0; [|discriminate]. injection E as E Ee. clear Ee.
  destruct (headers_lines m w pre last0 len0 Hw Hh s0 E0) as (lines & I).
  assert (~ In (B "content-length") (map fst (m_headers m))) as Hk by exact (L_Writable.no_values (m_headers m) _ (proj1 Hh) Hcl).
  pose proof (loop_len m w N1 _ Hk _ _ E0) as El. cbn [s_wrote_len] in El.
  remember (s_new_name s0) as s eqn:Es. assert (s_wrote_len s = len0) as Els by (subst s; exact El). clear Es E0 El.
  pose proof (si_dst _ _ _ _ _ _ _ _ _ I) as D. pose proof (si_cur _ _ _ _ _ _ _ _ _ I) as C. pose proof (si_fr _ _ _ _ _ _ _ _ _ I) as [F _]. pose proof (si_wire _ _ _ _ _ _ _ _ _ I) as W.
  cbn [flat_map] in D. rewrite app_nil_r in D, F, W.
  assert (te_values lines = [] /\ cl_lines lines = []) as (T & K).
  { destruct (te_values lines) as [|v [|]], (cl_lines lines) as [|c [|]]; try (destruct F; fail); auto.
    - destruct F as (F1 & F2 & _). congruence.
    - destruct F as (_ & _ & _ & F4 & _). unfold can_te in F4. rewrite N1, andb_false_r in F4. discriminate. }
  assert (s_dst (s_default_len m w s) = s_dst s /\ s_cur (s_default_len m w s) = s_cur s) as (D1 & C1).
  { unfold s_default_len, can_have_implicit_zero_content_length. rewrite N1, N2, orb_true_r. cbn [andb negb]. destruct (s_wrote_len s); [auto|]. destruct (m_body m) as [[[|p]|]|]; auto. }
  destruct (negb (s_date (s_default_len m w s)) && m_date_header m).
  - destruct (add_line w pre Hw (s_default_len m w s) (B "date") date lines) as (A1 & A2 & A3 & A4); [congruence|congruence|apply wf_date|exact Hd|].
    eexists. split; [rewrite <- E, A1, <- app_assoc; reflexivity|]. split; [apply Forall_app; split; [exact W|constructor; [exact A4|constructor]]|].
    unfold te_values, cl_lines in *. rewrite !fv_snoc. cbn [fst snd]. rewrite A3, T, K. split; reflexivity.
  - exists lines. split; [rewrite <- E, D1, D, <- app_assoc; reflexivity|auto].
Qed.

(* A response that has no body by its status carries neither Content-Length nor
   Transfer-Encoding, if the application names no Content-Length *)
Theorem C16_bodyless : forall reason date m out e, smsg_ok m -> value_chars date -> server_encode reason date m = (out, Ok e) ->
  bodyless (m_method m) (m_status m) -> hm_get_all (m_headers m) (B "content-length") = [] ->
  exists lines, out = head_start reason m ++ render_lines lines ++ CRLF /\ Forall wire_line lines /\ te_values lines = [] /\ cl_lines lines = [].
Proof.
  intros reason date m out e Hm Hd E Hb Hcl. pose proof (sw_ok m Hm) as Hw. destruct Hm as (H1 & _). unfold server_encode in E.
  assert (forall last0 len0, match status_line reason m with
     | None => ([], Err EPanicVersion)
     | Some line => match encode_headers m (sw m) date line last0 len0 with
                    | None => ([], Err EUserHeader) | Some (o, e) => (o, if false then Err EUnsupportedStatus else Ok e) end
     end = (out, Ok e) -> exists lines, out = head_start reason m ++ render_lines lines ++ CRLF /\ Forall wire_line lines /\ te_values lines = [] /\ cl_lines lines = []) as G.
  { intros last0 len0 X. destruct (status_line reason m) as [line|] eqn:Es; [|discriminate]. apply status_line_eq in Es. destruct Es as (-> & _).
    destruct (encode_headers m (sw m) date _ last0 len0) as [[o e']|] eqn:Ee; [|discriminate]. injection X as -> ->.
    apply (no_length m (sw m) _ last0 len0 date out e Hw (fun _ => proj1 (bodyless_none m Hb)) H1 Hd Hb Hcl Ee). }
  destruct (m_status m =? 101); [exact (G _ _ E)|]. destruct (method_is _ _ && _); [exact (G _ _ E)|]. destruct (is_informational _); [|exact (G _ _ E)].
  destruct (status_line _ _); [|discriminate]. destruct (encode_headers _ _ _ _ _ _) as [[? ?]|]; discriminate.
Qed.
Print Assumptions C16_bodyless.

(* The success of a CONNECT never carries one *)
Theorem C16_connect : forall reason date m out e, smsg_ok m -> value_chars date -> server_encode reason date m = (out, Ok e) ->
  m_method m = Some (B "CONNECT") -> 200 <= m_status m < 300 ->
  exists lines, out = head_start reason m ++ render_lines lines ++ CRLF /\ Forall wire_line lines /\ te_values lines = [] /\ cl_lines lines = [].
Proof.
  intros reason date m out e Hm Hd E H1 H2. apply (C16_bodyless reason date m out e Hm Hd E); [right; right; right; auto|].
  assert (S_Writable.encodable m) as X by (apply (L_Encodable.encode_exact reason date m (proj1 (proj1 Hm))); eauto). now apply (S_Writable.en_connect _ X).
Qed.
Print Assumptions C16_connect.

(* But a Content-Length of the application goes out with a 204 *)
Theorem C16_bodyless_refuted : exists m out e lines, smsg_ok m /\ bodyless (m_method m) (m_status m) /\ m_status m = 204 /\
  server_encode ok_reason ex_date m = (out, Ok e) /\ out = head_start ok_reason m ++ render_lines lines ++ CRLF /\ Forall wire_line lines /\ cl_lines lines = [B "3"] /\ ekind e = KLength 0.
Proof.
  exists (ex_msg HTTP11 (Some (B "GET")) 204 (Some (Known 3)) [(B "content-length", [B "3"])]).
  eexists _, _, [(B "content-length", B "3"); (B "date", ex_date)].
  split; [split; [now apply headers_okb_ok|]; split; [discriminate|]; intros n E; inversion E; subst; vm_compute; discriminate|].
  split; [right; now left|]. split; [reflexivity|]. split; [vm_compute; reflexivity|]. split; [vm_compute; reflexivity|]. split; [now apply wire_linesb_ok|].
  split; vm_compute; reflexivity.
Qed.
Print Assumptions C16_bodyless_refuted.

(* A CONNECT answered with 200, and a field that goes out *)
Example C16_connect_ex : exists m out e, smsg_ok m /\ value_chars ex_date /\ m_method m = Some (B "CONNECT") /\ 200 <= m_status m < 300 /\
  hm_get_all (m_headers m) (B "via") <> [] /\ server_encode ok_reason ex_date m = (out, Ok e).
Proof.
  exists (ex_msg HTTP11 (Some (B "CONNECT")) 200 None [(B "via", [B "x"])]).
  eexists _, _. split; [split; [now apply headers_okb_ok|]; split; [discriminate|]; intros n E; inversion E|].
  split; [now apply value_charsb_ok|]. split; [reflexivity|]. split; [cbn; lia|]. split; [discriminate|]. vm_compute. reflexivity.
Qed.

(* A 204 to a POST with a body of known length, and a field that goes out *)
Example C16_bodyless_ex : exists m out e, smsg_ok m /\ value_chars ex_date /\ bodyless (m_method m) (m_status m) /\ m_body m = Some (Known 3) /\
  hm_get_all (m_headers m) (B "content-length") = [] /\ hm_get_all (m_headers m) (B "transfer-encoding") <> [] /\ server_encode ok_reason ex_date m = (out, Ok e).
Proof.
  exists (ex_msg HTTP11 (Some (B "POST")) 204 (Some (Known 3)) [(B "transfer-encoding", [B "chunked"]); (B "etag", [B "x"])]).
  eexists _, _. split; [split; [now apply headers_okb_ok|]; split; [discriminate|]; intros n E; inversion E; subst; vm_compute; discriminate|].
  split; [now apply value_charsb_ok|]. split; [right; now left|]. do 2 (split; [reflexivity|]). split; [discriminate|]. vm_compute. reflexivity.
Qed.
