(* Claims about reading the framing of requests and responses. *)
From Verif Require Import Base M_HeaderMap M_Headers M_Role S_Framing L_Headers L_Framing.

(* C12.  A request is accepted exactly when the RFC rule gives it a framing,
   and then its body is read with that framing.  The rule is a function. *)
Theorem C12_request_framing : forall http11 method lines,
  match server_parse http11 method lines with
  | Ok m => request_framing http11 lines (framing_of (pm_decode m)) /\
            (forall f, request_framing http11 lines f -> f = framing_of (pm_decode m))
  | Err _ => forall f, ~ request_framing http11 lines f
  end.
Proof.
  intros v m lines. pose proof (request_framing_ok v m lines) as H.
  destruct (server_parse v m lines); auto. split; auto. intros f Hf. eapply request_framing_fun; eauto.
Qed.
Definition ex_chunked : list line :=
  [(B "Host", B "a"); (B "Content-Length", B "5"); (B "Transfer-ENCODING", B "gzip, Chunked "); (B "content-length", B "x")].
Example C12_ex1 : exists m, server_parse true (B "POST") ex_chunked = Ok m /\ framing_of (pm_decode m) = FChunked.
Proof. eexists. split; vm_compute; reflexivity. Qed.
Example C12_ex2 : server_parse true (B "POST") [(B "Transfer-Encoding", B "chunked, gzip")] = Err PTeInvalid.
Proof. vm_compute. reflexivity. Qed.
Example C12_ex3 : exists m, server_parse false (B "POST") [(B "content-length", B "12"); (B "CONTENT-LENGTH", B "012")] = Ok m /\
  framing_of (pm_decode m) = FLength 12.
Proof. eexists. split; vm_compute; reflexivity. Qed.

(* C13.  Both headers: chunked, no Content-Length shown, no reuse. *)
Theorem C13_te_and_cl : forall http11 method lines m,
  server_parse http11 method lines = Ok m -> te_values lines <> [] -> cl_lines lines <> [] ->
  framing_of (pm_decode m) = FChunked /\ hm_get_all (pm_headers m) (B "content-length") = [] /\
  hm_get_all (pm_headers m) (B "transfer-encoding") = te_values lines /\ pm_keep m = false.
Proof.
  intros v me lines m E Ht Hc. pose proof (request_framing_ok v me lines) as H. rewrite E in H.
  destruct (server_parse_view _ _ _ _ E) as [Hh Hk]. split; [|split; [|split]].
  - destruct H as [(_ & _ & _ & _ & Hf)|[(H & _)|(H & _)]]; congruence.
  - rewrite Hh. change (B "content-length") with CL. rewrite beq_refl. apply nonempty_true in Ht. now rewrite Ht.
  - rewrite Hh. reflexivity.
  - rewrite Hk. apply nonempty_true in Ht, Hc. now rewrite Ht, Hc.
Qed.
Example C13_ex : exists m, server_parse true (B "POST") ex_chunked = Ok m /\ te_values ex_chunked <> [] /\ cl_lines ex_chunked <> [].
Proof. eexists. split; [vm_compute; reflexivity|]. split; vm_compute; discriminate. Qed.

(* C14.  Content-Length values. *)
Theorem C14_content_length_exact : forall v n,
  content_length_parse v = Some n <-> v <> [] /\ Forall digit v /\ dec_num v = n /\ n <= u64_max.
Proof. intros v n. unfold content_length_parse. rewrite from_digits_spec. unfold cl_means. intuition. Qed.
(* ... in a whole request: accepted means every line is digits of the same number < 2^64-2 *)
Theorem C14_content_length_request : forall http11 method lines m v,
  server_parse http11 method lines = Ok m -> te_values lines = [] -> In v (cl_lines lines) ->
  Forall digit v /\ v <> [] /\ dec_num v < 2 ^ 64 - 2 /\ framing_of (pm_decode m) = FLength (dec_num v).
Proof.
  intros h me lines m v E Ht Hin. pose proof (request_framing_ok h me lines) as H. rewrite E in H.
  destruct H as [(H & _)|[(_ & _ & n & [Hs Ha] & ->)|(_ & H & _)]]; [congruence| |rewrite H in Hin; destruct Hin].
  rewrite Forall_forall in Ha. destruct (Ha v Hin) as (H1 & H2 & <-). auto.
Qed.
Example C14_ex1 : content_length_parse (B "007") = Some 7 /\ content_length_parse (B "+7") = None /\ content_length_parse (B " 7") = None
  /\ content_length_parse [] = None /\ content_length_parse (B "18446744073709551616") = None.
Proof. vm_compute. repeat split. Qed.
Example C14_ex2 : (exists m, server_parse true (B "PUT") [(B "Content-Length", B "18446744073709551613")] = Ok m) /\
  server_parse true (B "PUT") [(B "Content-Length", B "18446744073709551614")] = Err PTooLarge.
Proof. split; [eexists|]; vm_compute; reflexivity. Qed.

(* C15.  The client's reading of a response head. *)
Theorem C15_response_framing : forall ver status lines method o,
  response_framing (ver_eqb ver HTTP10) status method (te_values lines) (cl_lines lines) o <->
  o = match client_parse_head ver status lines method with
      | Err _ => RBad
      | Ok None => RSkip
      | Ok (Some m) => RBody (framing_of (pm_decode m)) (pm_upgrade m)
      end.
Proof.
  intros ver status lines method o. unfold client_parse_head.
  destruct (client_lines_spec ver lines) as (H1 & H2 & H3). destruct (client_lines ver lines) as [[h c] k]. cbn [fst snd] in *.
  pose proof (client_decoder_spec ver status h method H2) as H. unfold TE, CL in H. rewrite !H1 in H.
  replace (match _ with Ok (Some m) => _ | Ok None => RSkip | Err _ => RBad end)
    with (client_outcome (client_decoder ver status h method))
    by (destruct (client_decoder ver status h method) as [[[d u]|]|]; reflexivity).
  split; [intros Ho; eapply response_framing_fun; eauto|intros ->; exact H].
Qed.
Example C15_ex1 : client_outcome (client_decoder HTTP11 200 [(B "content-length", [B "5 , 5"; B "5"])] (Some (B "GET"))) = RBody (FLength 5) false.
Proof. vm_compute. reflexivity. Qed.
Example C15_ex2 : client_outcome (client_decoder HTTP11 200 [(B "content-length", [B "5, 6"])] (Some (B "GET"))) = RBad.
Proof. vm_compute. reflexivity. Qed.
Example C15_ex3 : exists m, client_parse_head HTTP11 200 [(B "Content-Length", B "9"); (B "Transfer-Encoding", B "gzip"); (B "transfer-encoding", B "chunked")] (Some (B "GET"))
   = Ok (Some m) /\ pm_decode m = DL_CHUNKED.
Proof. eexists. split; vm_compute; reflexivity. Qed.

(* C19.  Close is obeyed: if some Connection line lists close, and neither that
   line nor any later one lists keep-alive, the exchange is the last one. *)
Theorem C19_server_close : forall http11 method lines m before v after,
  server_parse http11 method lines = Ok m ->
  field_values (B "connection") lines = before ++ v :: after ->
  text v -> list_member v (B "close") ->
  (forall w, In w (v :: after) -> ~ (text w /\ list_member w (B "keep-alive"))) ->
  pm_keep m = false.
Proof.
  intros h me lines m a v b E Ef Ht Hc Hk. destruct (server_parse_view _ _ _ _ E) as [_ ->].
  destruct (nonempty _ && nonempty _)%bool; auto. unfold CO. rewrite Ef. apply keep_fold_close.
  - now apply connection_close_spec.
  - apply Forall_forall. intros w Hw. destruct (connection_keep_alive w) eqn:Ek; auto.
    apply connection_keep_spec in Ek. exfalso. eapply Hk; [right; exact Hw|exact Ek].
  - right. destruct (connection_keep_alive v) eqn:Ek; auto. apply connection_keep_spec in Ek. exfalso. eapply Hk; [now left|exact Ek].
Qed.
Theorem C19_client_close : forall ver status lines method m before v after,
  client_parse_head ver status lines method = Ok (Some m) ->
  field_values (B "connection") lines = before ++ v :: after ->
  text v -> list_member v (B "close") ->
  (forall w, In w (v :: after) -> ~ (text w /\ list_member w (B "keep-alive"))) ->
  pm_keep m = false.
Proof.
  intros ver st lines me m a v b E Ef Ht Hc Hk. unfold client_parse_head in E.
  destruct (client_lines_spec ver lines) as (_ & _ & H3). destruct (client_lines ver lines) as [[h c] k]. cbn [fst snd] in *.
  assert (k = false) as ->.
  { rewrite H3. unfold CO. rewrite Ef. apply keep_fold_close.
    - now apply connection_close_spec.
    - apply Forall_forall. intros w Hw. destruct (connection_keep_alive w) eqn:Ek; auto.
      apply connection_keep_spec in Ek. exfalso. eapply Hk; [right; exact Hw|exact Ek].
    - right. destruct (connection_keep_alive v) eqn:Ek; auto. apply connection_keep_spec in Ek. exfalso. eapply Hk; [now left|exact Ek]. }
  destruct (client_decoder _ _ _ _) as [[[d u]|]|]; [|discriminate|discriminate]. inversion E; subst. reflexivity.
Qed.
(* An HTTP/1.0 message persists only if it asks for keep-alive. *)
Theorem C19_http10_needs_keep_alive : forall method lines m,
  server_parse false method lines = Ok m -> pm_keep m = true -> asks (B "keep-alive") lines.
Proof.
  intros me lines m E Hk. destruct (server_parse_view _ _ _ _ E) as [_ Ek]. rewrite Ek in Hk.
  destruct (nonempty _ && nonempty _)%bool; [discriminate|]. apply keep_fold_10 in Hk as (v & Hin & Hv).
  apply connection_keep_spec in Hv as [Ht Hm]. exists v. auto.
Qed.
Theorem C19_http10_client : forall ver status lines method m, ver <> HTTP11 ->
  client_parse_head ver status lines method = Ok (Some m) -> pm_keep m = true -> asks (B "keep-alive") lines.
Proof.
  intros ver st lines me m Hv E Hk. unfold client_parse_head in E.
  destruct (client_lines_spec ver lines) as (_ & _ & H3). destruct (client_lines ver lines) as [[h c] k]. cbn [fst snd] in *.
  destruct (client_decoder _ _ _ _) as [[[d u]|]|]; [|discriminate|discriminate]. inversion E; subst. cbn [pm_keep] in Hk.
  assert (Hf : ver_eqb ver HTTP11 = false) by (destruct ver; auto; congruence). rewrite Hf in Hk.
  destruct (keep_fold false (field_values CO lines)) eqn:Ek; [|discriminate]. apply keep_fold_10 in Ek as (v & Hin & Hw).
  apply connection_keep_spec in Hw as [Ht Hm]. exists v. auto.
Qed.
(* An HTTP/1.1 message that nowhere asks for close persists (a request that is
   framed both ways does not, and an upgrade ends the use of the connection). *)
Lemma keep_fold_open vs : Forall (fun v => connection_close v = false) vs -> keep_fold true vs = true.
Proof. induction 1 as [|v vs H F IH]; [reflexivity|]. cbn [keep_fold fold_left]. rewrite H. exact IH. Qed.
Lemma no_close lines : ~ asks (B "close") lines -> Forall (fun v => connection_close v = false) (field_values (B "connection") lines).
Proof.
  intros H. apply Forall_forall. intros v Hv. destruct (connection_close v) eqn:E; auto.
  exfalso. apply H. exists v. split; auto. now apply connection_close_spec.
Qed.
Theorem C19_http11_persists : forall method lines m, server_parse true method lines = Ok m ->
  ~ asks (B "close") lines -> (te_values lines = [] \/ cl_lines lines = []) -> pm_keep m = true.
Proof.
  intros me lines m E Hc Hf. destruct (server_parse_view _ _ _ _ E) as [_ ->].
  apply no_close, keep_fold_open in Hc. unfold CO. rewrite Hc.
  destruct Hf as [->| ->]; [reflexivity|]. destruct (te_values lines); reflexivity.
Qed.
Theorem C19_client_persists : forall status lines method m,
  client_parse_head HTTP11 status lines method = Ok (Some m) ->
  (pm_upgrade m = true -> pm_keep m = false) /\
  (~ asks (B "close") lines -> pm_keep m = negb (pm_upgrade m)).
Proof.
  intros st lines me m E. unfold client_parse_head in E.
  destruct (client_lines_spec HTTP11 lines) as (_ & _ & H3). destruct (client_lines HTTP11 lines) as [[h c] k]. cbn [fst snd] in *.
  destruct (client_decoder _ _ _ _) as [[[d u]|]|]; [|discriminate|discriminate]. inversion E; subst. cbn [pm_keep pm_upgrade].
  split; [intros ->; apply andb_false_r|]. intros Hc. apply no_close, keep_fold_open in Hc.
  change (ver_eqb HTTP11 HTTP11) with true. unfold CO. rewrite Hc. reflexivity.
Qed.
Example C19_persists_ex : (exists m, client_parse_head HTTP11 101 [(B "connection", B "upgrade")] (Some (B "GET")) = Ok (Some m) /\ pm_upgrade m = true) /\
  (exists m, client_parse_head HTTP11 200 [(B "connection", B "x")] (Some (B "GET")) = Ok (Some m) /\ pm_upgrade m = false) /\
  (exists m, server_parse true (B "POST") [(B "connection", B "x"); (B "content-length", B "3")] = Ok m).
Proof. split; [|split]; eexists; try split; vm_compute; reflexivity. Qed.
(* Without the "no later keep-alive" condition it is false: two lines, close
   then keep-alive, and the connection is kept. *)
Theorem C19_repeated_connection_refuted : exists lines m,
  server_parse true (B "GET") lines = Ok m /\ asks (B "close") lines /\ pm_keep m = true.
Proof.
  exists [(B "Connection", B "close"); (B "Connection", B "keep-alive")]. eexists. split; [vm_compute; reflexivity|]. split; [|reflexivity].
  exists (B "close"). split; [vm_compute; auto|]. apply connection_close_spec. reflexivity.
Qed.
(* ... and so it is when an HTTP/1.0 message says both in one line. *)
Theorem C19_http10_both_refuted : exists lines m,
  server_parse false (B "GET") lines = Ok m /\ asks (B "close") lines /\ pm_keep m = true.
Proof.
  exists [(B "Connection", B "close, keep-alive")]. eexists. split; [vm_compute; reflexivity|]. split; [|reflexivity].
  exists (B "close, keep-alive"). split; [vm_compute; auto|]. apply connection_close_spec. reflexivity.
Qed.
Example C19_ex : exists m, server_parse true (B "GET") [(B "connection", B "Upgrade,  CLOSE")] = Ok m /\ pm_keep m = false /\
  (text (B "Upgrade,  CLOSE") /\ list_member (B "Upgrade,  CLOSE") (B "close")) /\
  ~ (text (B "Upgrade,  CLOSE") /\ list_member (B "Upgrade,  CLOSE") (B "keep-alive")).
Proof.
  eexists. split; [vm_compute; reflexivity|]. split; [reflexivity|]. split; [now apply connection_close_spec|].
  intros H. apply connection_keep_spec in H. discriminate.
Qed.

(* C54.  Declared lengths and the two reserved values stay apart. *)
Theorem C54_lengths_never_confused :
  (forall len d, dl_checked_new len = Some d -> framing_of d = FLength len /\ dl_into_opt d = Some len) /\
  (forall len, 2 ^ 64 - 2 <= len -> dl_checked_new len = None) /\
  (forall amts d d', d <= u64_max -> consume d amts = Some d' ->
     match framing_of d with
     | FLength n => framing_of d' = FLength (n - fold_right N.add 0 amts) /\ fold_right N.add 0 amts <= n
     | _ => d' = d
     end).
Proof. split; [exact checked_new_class|]. split; [exact checked_new_reserved|exact consume_class]. Qed.
Example C54_ex : consume 10 [3; 0; 7] = Some 0 /\ consume 10 [3; 8] = None /\ consume DL_CHUNKED [3; 8] = Some DL_CHUNKED /\ dl_checked_new 10 = Some 10.
Proof. repeat split. Qed.

(* A length that is not known, or too big, is reported as not known; others stay *)
Theorem C54_from_opt : dl_into_opt (dl_from_opt None) = None /\ framing_of (dl_from_opt None) = FChunked /\
  forall len, (supported_length len -> dl_into_opt (dl_from_opt (Some len)) = Some len) /\ (~ supported_length len -> framing_of (dl_from_opt (Some len)) = FChunked).
Proof.
  split; [reflexivity|]. split; [reflexivity|]. intros len. unfold dl_from_opt, supported_length. split; intros H.
  - destruct (dl_checked_new len) as [d|] eqn:E; [apply (proj1 C54_lengths_never_confused) in E; apply E|].
    unfold dl_checked_new in E. destruct (N.leb_spec len MAX_LEN) as [|L]; [discriminate|]. exfalso. change (2 ^ 64 - 2) with (MAX_LEN + 1) in H. lia.
  - rewrite (proj1 (proj2 C54_lengths_never_confused)) by lia. reflexivity.
Qed.
Example C54_from_opt_ex : dl_into_opt (dl_from_opt (Some 7)) = Some 7 /\ dl_into_opt (dl_from_opt (Some u64_max)) = None.
Proof. split; reflexivity. Qed.
(* C63: a request allows trailers exactly if "trailers" is a member of one of its TE values *)
Theorem C63_te : forall h, te_is_trailers h = true <-> exists v, In v (hm_get_all h (B "te")) /\ text v /\ list_member v (B "trailers").
Proof.
  intros h. unfold te_is_trailers, header_value_list_has. rewrite existsb_exists.
  assert (Q : forall v, match to_str v with Some line => existsb (fun token => eq_ic (trim token) (B "trailers")) (split_comma line) | None => false end = true <->
      text v /\ list_member v (B "trailers")).
  { intros v. apply connection_has_spec; [|reflexivity|cbn; intuition discriminate].
    split; intros b r E; [inversion E; reflexivity|]. change (B "trailers") with (B "trailer" ++ [115]) in E. apply app_inj_tail in E as [_ <-]. reflexivity. }
  split; intros (v & I & T); exists v; split; auto; apply Q; exact T.
Qed.
Example C63_te_ex : te_is_trailers [(B "te", [B "gzip"; B "deflate;q=0.5 ,  Trailers "])] = true /\ te_is_trailers [(B "te", [B "trailersx"])] = false.
Proof. split; reflexivity. Qed.

Print Assumptions C54_from_opt.
Print Assumptions C63_te.
Print Assumptions C12_request_framing.
Print Assumptions C13_te_and_cl.
Print Assumptions C14_content_length_exact.
Print Assumptions C14_content_length_request.
Print Assumptions C15_response_framing.
Print Assumptions C19_server_close.
Print Assumptions C19_client_close.
Print Assumptions C19_http10_needs_keep_alive.
Print Assumptions C19_http10_client.
Print Assumptions C19_repeated_connection_refuted.
Print Assumptions C19_http10_both_refuted.
Print Assumptions C54_lengths_never_confused.
Print Assumptions C19_http11_persists.
Print Assumptions C19_client_persists.
