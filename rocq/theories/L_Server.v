(* Server::encode as a whole, and what the client makes of its output. *)
From Verif Require Import Base M_Src M_Decode M_HeaderMap M_Httparse M_Headers M_Encode M_Role M_RoleEncode
  S_Transport S_Chunked S_Send S_Framing S_Head L_Decode L_Encode L_Encode2 L_Body L_Headers L_Framing L_RoleEncode L_RoleEncode2 L_Wire.

(* what http and the public API guarantee about a response *)
Definition smsg_ok (m : smsg) : Prop :=
  headers_ok (m_headers m) /\ (forall c, m_case m = Some c -> case_ok c) /\
  (forall n, m_body m = Some (Known n) -> n <= u64_max).

Definition phrase (reason : N -> option bytes) (m : smsg) : bytes :=
  match m_reason m with Some r => r | None => match reason (m_status m) with Some r => r | None => B "<none>" end end.
Definition head_start (reason : N -> option bytes) (m : smsg) : bytes :=
  start_line (ver_eqb (m_version m) HTTP10) (dec (m_status m)) (phrase reason m).

Lemma status_line_eq reason m l : status_line reason m = Some l -> l = head_start reason m /\ (m_version m = HTTP10 \/ m_version m = HTTP11 \/ m_version m = HTTP2).
Proof. unfold status_line, head_start, start_line, phrase. destruct (m_version m); intros E; inversion E; subst; cbn [ver_eqb]; auto. Qed.

Lemma interim_forbidden method status : is_informational status = true -> can_chunked method status = false.
Proof. unfold can_chunked. intros ->. now rewrite !orb_true_r. Qed.
Lemma connect_forbidden method status : method_is method (B "CONNECT") && is_success status = true -> can_chunked method status = false.
Proof. unfold can_chunked. intros ->. now rewrite !orb_true_r. Qed.

Definition sw (m : smsg) : name_writer :=
  match m_case m with None => if m_title_case m then WOrig [] true else WLower | Some c => WOrig c (m_title_case m) end.
Lemma sw_ok m : smsg_ok m -> writer_ok (sw m).
Proof. intros (_ & H & _). unfold sw. destruct (m_case m) as [c|]; [cbn; auto|]. destruct (m_title_case m); cbn; [constructor|auto]. Qed.

(* the four starting situations *)
Lemma server_encode_ok reason date m out e : smsg_ok m -> value_chars date ->
  server_encode reason date m = (out, Ok e) ->
  exists lines last0, head_ok m (head_start reason m) last0 out e date lines /\
    ~ (100 <= m_status m < 200 /\ m_status m <> 101) /\
    (last0 = true <-> m_status m = 101 \/ (m_method m = Some (B "CONNECT") /\ 200 <= m_status m < 300) \/ m_keep_alive m = false) /\
    (m_version m = HTTP10 \/ m_version m = HTTP11 \/ m_version m = HTTP2).
Proof.
  intros Hm Hd E. pose proof (sw_ok m Hm) as Hw. destruct Hm as (H1 & H2 & H3). unfold server_encode in E.
  assert (Hmi : method_is (m_method m) (B "CONNECT") = true <-> m_method m = Some (B "CONNECT")).
  { unfold method_is. destruct (m_method m); [|split; discriminate]. rewrite beq_eq. split; congruence. }
  assert (Hgo : forall last0 len0 err, (len0 = true -> can_chunked (m_method m) (m_status m) = false) ->
     match status_line reason m with
     | None => ([], Err EPanicVersion)
     | Some line => match encode_headers m (sw m) date line last0 len0 with
                    | None => ([], Err EUserHeader) | Some (o, e) => (o, if err : bool then Err EUnsupportedStatus else Ok e) end
     end = (out, Ok e) -> exists lines, head_ok m (head_start reason m) last0 out e date lines /\ (m_version m = HTTP10 \/ m_version m = HTTP11 \/ m_version m = HTTP2)).
  { intros last0 len0 err Hl X. destruct (status_line reason m) as [line|] eqn:Es; [|discriminate].
    apply status_line_eq in Es as [-> Hv]. destruct (encode_headers m (sw m) date _ last0 len0) as [[o e']|] eqn:Ee; [|discriminate].
    destruct err; [discriminate|]. inversion X; subst. destruct (encode_headers_ok m (sw m) _ last0 len0 Hw Hl H3 H1 date out e Hd Ee) as [l Hl'].
    exists l. auto. }
  destruct (N.eqb_spec (m_status m) 101) as [E101|N101].
  { destruct (Hgo true false false ltac:(discriminate) E) as (l & G & V). exists l, true. sp; auto; tauto. }
  destruct (method_is (m_method m) (B "CONNECT") && is_success (m_status m)) eqn:Ec.
  { destruct (Hgo true true false (fun _ => connect_forbidden _ _ Ec) E) as (l & G & V). exists l, true.
    apply andb_prop in Ec as [C1 C2]. apply Hmi in C1. unfold is_success in C2. sp; auto; [intros [X _]; lia|].
    split; [intros _; right; left; split; [auto|lia]|auto]. }
  destruct (is_informational (m_status m)) eqn:Ei.
  { destruct (status_line _ _); [|discriminate]. destruct (encode_headers _ _ _ _ _ _) as [[? ?]|]; discriminate. }
  destruct (Hgo (negb (m_keep_alive m)) false false ltac:(discriminate) E) as (l & G & V). exists l, (negb (m_keep_alive m)). sp; auto.
  - intros [X _]. unfold is_informational in Ei. lia.
  - split; [intros X; right; right; now apply negb_true_iff|]. intros [X|[[X Y]|X]]; [congruence| |now rewrite X].
    apply Hmi in X. rewrite X in Ec. unfold is_success in Ec. cbn [andb] in Ec. lia.
Qed.

(* the client's view of the framing fields, blanks cut *)
Lemma client_agrees m last0 pre out e date lines : headers_ok (m_headers m) -> head_ok m pre last0 out e date lines ->
  ~ (100 <= m_status m < 200 /\ m_status m <> 101) -> 
  app_te_text (m_headers m) -> (forall n, m_body m = Some (Known n) -> app_length_is (m_headers m) n) ->
  (forall n, ekind e = KLength n -> supported_length n) ->
  exists up, response_framing (ver_eqb (m_version m) HTTP10) (m_status m) (m_method m)
     (te_values (map seen lines)) (cl_lines (map seen lines)) (RBody (kind_framing (ekind e)) up).
Proof.
  intros Hh H Hni Hte Hcl Hsup. unfold te_values, cl_lines. rewrite !seen_values. fold (te_values lines) (cl_lines lines).
  destruct (can_chunked (m_method m) (m_status m)) eqn:Ec.
  - assert (Hnf : ~ body_forbidden (m_method m) (m_status m)) by now apply can_chunked_spec.
    exists false. unfold body_forbidden in Hnf. apply rf_body; try tauto.
    pose proof (ho_fr _ _ _ _ _ _ _ H) as F. unfold fields_match in F.
    destruct (te_values lines) as [|v [|]], (cl_lines lines) as [|c [|]]; try (destruct F; fail); cbn [map].
    + destruct (F Ec) as (-> & _). now apply bf_close.
    + destruct (F Ec) as (n & Hk & Hm & _). rewrite Hk. specialize (Hsup n Hk).
      assert (cl_means c n) as X by (apply Hm; right; exact Hcl). rewrite (cl_means_tb _ _ X). cbn [kind_framing].
      apply bf_length; auto. now apply cl_list_single.
    + destruct F as (F1 & [f ->] & F3). cbn [kind_framing]. apply bf_chunked; [discriminate| |].
      * unfold can_te in F1. destruct (ver_eqb (m_version m) HTTP10); [discriminate|reflexivity].
      * apply final_tb. apply F3. exact Hte.
  - rewrite (ho_none _ _ _ _ _ _ _ H Ec). cbn [kind_framing].
    assert (Hf : body_forbidden (m_method m) (m_status m)).
    { destruct (N.eq_dec (m_status m) 101); [unfold body_forbidden; lia|]. 
      unfold can_chunked in Ec. unfold body_forbidden.
      destruct (method_is (m_method m) (B "HEAD")) eqn:E1.
      { left. unfold method_is in E1. destruct (m_method m); [|discriminate]. apply beq_eq in E1. congruence. }
      destruct (method_is (m_method m) (B "CONNECT") && is_success (m_status m)) eqn:E2.
      { right. left. apply andb_prop in E2 as [E2 E3]. unfold method_is in E2. destruct (m_method m); [|discriminate]. apply beq_eq in E2.
        unfold is_success in E3. split; [congruence|lia]. }
      destruct (is_informational (m_status m)) eqn:E3; [unfold is_informational in E3; lia|]. cbn [orb] in Ec. lia. }
    destruct (N.eq_dec (m_status m) 101) as [X|X]; [exists true; now apply rf_switch|].
    assert (Hn1 : ~ 100 <= m_status m < 200) by tauto.
    destruct (N.eq_dec (m_status m) 204); [exists false; apply rf_nobody; auto|].
    destruct (N.eq_dec (m_status m) 304); [exists false; apply rf_nobody; auto|].
    unfold body_forbidden in Hf. destruct Hf as [Hf|[[Hf Hf']|Hf]]; [exists false; now apply rf_head|exists true; now apply rf_connect|].
    exfalso. tauto.
Qed.

Lemma dec_new_kind d mh ms k : framing_of d = k ->
  dec_new d mh ms = match k with FChunked => dec_chunked mh ms | FClose => dec_eof | FLength n => dec_length n end.
Proof.
  intros <-. unfold framing_of, dec_new. destruct (d =? DL_CHUNKED); [reflexivity|]. destruct (d =? DL_CLOSE_DELIMITED); reflexivity.
Qed.

(* a close-delimited body is sent as it is *)
Lemma send_close al ti fs : forall e, ekind e = KCloseDelimited -> Forall is_data_frame fs ->
  send_body al ti (WBody e) fs = (WClosed, user_data fs, SDone).
Proof.
  induction fs as [|f fs IH]; intros e Hk H.
  - cbn [send_body]. unfold end_body, enc_end, is_close_delimited. rewrite Hk, orb_true_r. reflexivity.
  - inversion H as [|? ? Hf Hfs]; subst. destruct f as [d eos|t|]; cbn in Hf; try contradiction.
    cbn [send_body user_data]. destruct eos.
    + destruct d as [|x d].
      * unfold end_body, enc_end, is_close_delimited. rewrite Hk, orb_true_r. reflexivity.
      * unfold write_body_and_end, encode_and_end. rewrite Hk, app_nil_r. reflexivity.
    + destruct d as [|x d].
      * rewrite IH by auto. reflexivity.
      * unfold write_body, encode. rewrite Hk. unfold enc_is_eof. rewrite Hk. cbn [negb]. rewrite IH by auto. reflexivity.
Qed.
