(* C79, with the parser: the client of this code reads the responses of its server. *)
From Verif Require P_Read L_Reply.
From Verif Require Import M_Httparse.
From Verif Require Import Base M_Src M_Decode S_Buf L_Buf S_Transport S_Chunked S_Read S_Send L_Decode L_Chunked L_Body L_Read M_HeaderMap M_Headers M_Encode M_Role M_RoleEncode M_Buf M_WriteBuf M_Read M_Conn M_Dispatch S_Conn S_Client S_Framing L_Headers L_Framing L_Fold P_Framing S_Inbound S_Head L_Encode L_Encode2 L_RoleEncode L_RoleEncode2 L_Wire L_Server L_Client P_Client L_Conn L_Moves L_ConnC L_ConnS L_Exch L_Inbound L_Stream P_Stream P_Conn P_Inbound M_Parse S_Parse P_Parse S_Outbound L_Outbound P_Outbound P_EndToEnd P_View S_Reply P_Reply S_Answers P_Answers.

(* ---- The reference parser keeps the promise ---- *)
Lemma three_digits n : 100 <= n <= 999 -> lenN (dec n) = 3.
Proof.
  intros H. assert (forallb (fun k => lenN (dec (100 + N.of_nat k)) =? 3) (seq 0 900) = true) as F by (vm_compute; reflexivity).
  rewrite forallb_forall in F. specialize (F (N.to_nat (n - 100))). rewrite N2Nat.id in F. replace (100 + (n - 100)) with n in F by lia. apply N.eqb_eq, F. apply in_seq. lia.
Qed.
Lemma render_plain lines : render_lines lines = flat_map (S_Head.render_line false) lines.
Proof. unfold render_lines. apply flat_map_ext. intros [n v]. unfold S_Head.render_line. cbn [fst snd]. destruct v; rewrite <- ?app_assoc; reflexivity. Qed.
Lemma ref_reads_responses max fold : reads_responses (ref_hp max fold) max.
Proof.
  intros http10 st ph lines Hst Hph Hw Hl. exists (map seen lines). split; [apply seen_reads|]. intros z. cbn [ref_hp h_response]. unfold ref_response. rewrite render_plain.
  set (ver := if http10 then B "HTTP/1.0" else B "HTTP/1.1"). set (l0 := ver ++ 32 :: dec st ++ 32 :: ph).
  assert (start_line http10 (dec st) ph = l0 ++ CRLF) as ->. { unfold start_line, l0, ver. destruct http10; cbn; rewrite <- !app_assoc; cbn; reflexivity. }
  pose proof (dec_chars st) as Hd. assert (forall v, value_chars v -> ~ In 10 v) as NL by (intros v Hv F; unfold value_chars in Hv; rewrite Forall_forall in Hv; apply Hv in F; lia).
  assert (~ In 10 l0) as N0. { unfold l0. rewrite in_app_iff. intros [F|[F|F]]; [unfold ver in F; destruct http10; cbn in F; lia|discriminate|]. rewrite in_app_iff in F. destruct F as [F|[F|F]]; [exact (NL _ Hd F)|discriminate|exact (NL _ Hph F)]. }
  rewrite <- !app_assoc. rewrite (fe_head false lines z Hw l0 N0).
  set (head := l0 ++ CRLF ++ flat_map (S_Head.render_line false) lines ++ CRLF).
  replace (l0 ++ CRLF ++ flat_map (S_Head.render_line false) lines ++ CRLF ++ z) with (head ++ z) by (unfold head; rewrite <- !app_assoc; reflexivity). rewrite take_own. unfold head at 1.
  rewrite take_line_spec by exact N0. rewrite strip_cr_spec. unfold l0 at 1. rewrite split1_at by (unfold ver; destruct http10; cbn; lia).
  assert (is_v11 ver = Some (negb http10)) as -> by (unfold ver; destruct http10; reflexivity).
  pose proof (parse_lines false lines [] max Hw Hl) as P. rewrite app_nil_r in P. rewrite P. rewrite <- (three_digits st Hst). rewrite take_own. destruct (dec_means st) as (_ & _ & _ & ->) || destruct (dec_means st) as (_ & _ & ->). reflexivity.
Qed.

(* ---- Heads ---- *)
Lemma unfolded_same o lines lines' lines'' : Forall wire_line lines -> reads_lines lines lines' -> unfolded o lines' lines'' -> lines'' = lines'.
Proof.
  intros Hw Hr U. unfold unfolded in U. destruct (h_fold o); [|exact U]. revert lines'' U. induction Hr as [|x y lines lines' (_ & T) Hr IH]; intros ls U; inversion U as [|? z ? ls' (Z1 & Z2) U']; subst; [reflexivity|].
  inversion Hw as [|? ? (_ & Hx) Hw']; subst. rewrite (IH Hw' _ U'). f_equal. rewrite C52_unfolded_unchanged in Z2.
  - injection Z2 as Z2. destruct y, z. cbn in *. congruence.
  - intros F. destruct T as (a & b & E & _). unfold value_chars in Hx. rewrite Forall_forall in Hx. specialize (Hx 10). assert (In 10 (snd x)) as I10 by (rewrite E; apply in_or_app; right; apply in_or_app; now left). apply Hx in I10. lia.
Qed.
Lemma framing_same ver status lines method f u f' u' : response_framing (ver_eqb ver HTTP10) status method (te_values lines) (cl_lines lines) (RBody f u) ->
  response_framing (ver_eqb ver HTTP10) status method (te_values lines) (cl_lines lines) (RBody f' u') -> f = f'.
Proof. intros H H'. apply C15_response_framing in H. apply C15_response_framing in H'. rewrite <- H' in H. congruence. Qed.
Lemma trimmed_all vs : Forall2 trimmed vs (map tb vs).
Proof. induction vs as [|v vs IH]; constructor; [apply tb_trimmed|exact IH]. Qed.

Lemma reply_read s c o room l g n m bs e : reads_responses o room -> value_chars (c_date c) -> readable s c room l g -> reply_head c l n m g bs e ->
  (exists a, is_response o bs a /\ ~ (100 <= a_code a < 200 /\ a_code a <> 101)) /\
  (forall r f, final_head o (in_method m) bs r f -> f = kind_framing (ekind e) /\ same_reply_head g r).
Proof.
  intros Hr Hdate ((st & rs & Hsub & Hst & Hph) & Hok & Hcase & Hte & Hcl & _ & Hlim) Hw.
  destruct (Hlim n m bs e Hw) as (Hlf & Hsup & _). destruct Hw as (h' & keep & _ & _ & Hf & st' & rs' & Hs' & E).
  destruct (head_for_facts _ _ Hok Hf) as (Hok' & Hget). destruct Hf as (Fs & Fc & Fv & _). assert (st' = st /\ rs' = rs) as (-> & ->) by (rewrite Fs, Hsub in Hs'; injection Hs'; auto).
  set (M := mkSmsg _ _ _ _ _ _ _ _ _ _) in E.
  assert (hm_get_all (o_headers h') CL = hm_get_all (o_headers (g_head g)) CL) as Ecl by (apply Hget; discriminate).
  assert (hm_get_all (o_headers h') TE = hm_get_all (o_headers (g_head g)) TE) as Ete by (apply Hget; discriminate).
  assert (smsg_ok M) as HM. { split; [exact Hok'|]. split; [cbn; intros x Hx; apply Hcase; congruence|]. cbn. intros k Hk. unfold u64_max. apply Hcl in Hk. tauto. }
  assert (app_te_text (m_headers M)) as Ht. { unfold app_te_text. change (hm_get_all (m_headers M) (B "transfer-encoding")) with (hm_get_all (o_headers h') TE). rewrite Ete. exact Hte. }
  assert (forall k, m_body M = Some (Known k) -> app_length_is (m_headers M) k) as Hl. { intros k Hk. unfold app_length_is. change (hm_get_all (m_headers M) (B "content-length")) with (hm_get_all (o_headers h') CL). rewrite Ecl. apply Hcl. exact Hk. }
  destruct (server_encode_ok _ _ M bs e HM Hdate E) as (lines & last0 & H & Hni & _ & _).
  pose proof (ho_out _ _ _ _ _ _ _ H) as Eo. pose proof (ho_wire _ _ _ _ _ _ _ H) as Hwl. unfold head_start in Eo.
  set (http10 := ver_eqb (m_version M) HTTP10) in *. set (ph := phrase (c_reason c) M) in *. change (m_status M) with st in *.
  assert (value_chars ph) as Hpc.
  { unfold ph, phrase. cbn [m_reason m_status M]. destruct rs as [p|]; [exact Hph|]. destruct (c_reason c st) as [p|]; [now apply Hph|]. cbn. unfold value_chars. repeat (apply Forall_cons; [right; lia|]). apply Forall_nil. }
  assert (forall v, value_chars v -> ~ In 10 v) as NL by (intros v Hv F; unfold value_chars in Hv; rewrite Forall_forall in Hv; apply Hv in F; lia).
  assert (lenN lines <= room) as Hcount.
  { rewrite Eo, !feeds_app, render_plain, (feeds_lines _ _ Hwl) in Hlf. change (line_feeds CRLF) with 1 in Hlf. unfold start_line in Hlf. rewrite !feeds_app in Hlf. change (line_feeds CRLF) with 1 in Hlf. lia. }
  destruct (Hr http10 st ph lines Hst Hpc Hwl Hcount) as (lines' & Hrl & Ha). rewrite <- Eo in Ha.
  pose proof (fun k => reads_values lines lines' k Hrl) as Hvals. split; [exists (mkA (negb http10) st lines'); split; [exact Ha|exact Hni]|].
  intros r f (a & ls & Ha' & _ & Hu & Rst & Rv & Rf & Rb).
  destruct (response_unique o bs a bs _ [] [] Ha' Ha eq_refl) as (_ & -> & _). cbn [a_code a_lines a_minor1] in *. rewrite (unfolded_same o lines lines' ls Hwl Hrl Hu) in *. clear ls Hu. split.
  - destruct (client_agrees M last0 _ bs e (c_date c) lines (proj1 HM) H Hni Ht Hl Hsup) as (up & R). change (m_status M) with st in R. change (m_method M) with (in_method m) in R.
    unfold te_values, cl_lines in R, Rb. rewrite !seen_values in R. rewrite !Hvals in Rb. rewrite <- !seen_values in R, Rb. rewrite negb_involutive in Rb. exact (framing_same _ _ _ _ _ _ _ _ Rb R).
  - exists rs. rewrite Rst. split; [exact Hsub|]. split.
    + rewrite Rv. unfold http10. change (m_version M) with (o_version h'). destruct (ver_eqb (o_version h') HTTP10) eqn:Ev; cbn [negb]; [now left|right]. split; [reflexivity|].
      intros F. destruct Fv as [Fv|Fv]; rewrite Fv in Ev; [rewrite F in Ev|]; discriminate.
    + intros k N1 N2 N3 N4. rewrite Rf, Hvals. rewrite <- (Hget k N3). destruct (beq k (B "date")) eqn:Ed.
      * apply beq_eq in Ed. subst k. rewrite (ho_date _ _ _ _ _ _ _ H). change (m_headers M) with (o_headers h'). destruct (hm_get_all (o_headers h') (B "date")) as [|v vs] eqn:Ev; [right; auto|left; apply trimmed_all].
      * apply beq_false_ne in Ed. left. rewrite (ho_plain _ _ _ _ _ _ _ H k); [change (m_headers M) with (o_headers h'); apply trimmed_all| |exact Ed].
        unfold special. apply beq_false_ne in N1, N2, N3, N4. unfold CL, TE, CO, TR in *. now rewrite N1, N2, N3, N4.
Qed.

Lemma continue_read o room : reads_responses o room -> exists a, is_response o (wire_of PContinue) a /\ a_code a = 100.
Proof.
  intros H. destruct (H false 100 (B "Continue") []) as (ls & _ & Ha); [lia| |constructor|apply N.le_0_l|].
  - cbn. unfold value_chars. repeat (apply Forall_cons; [right; lia|]). apply Forall_nil.
  - eexists. split; [exact Ha|reflexivity].
Qed.
Lemma to_request_trailers m g : (forall t, g_trailers g = Some t -> headers_ok t) -> forall t, g_trailers (to_request m g) = Some t -> headers_ok t.
Proof. intros H t. unfold to_request. destruct (te_is_trailers (in_headers m)); [apply H|discriminate]. Qed.

Section Meaning.
Variables (s c : cfg) (o : hparse) (room : N) (l : list levent).
Hypothesis Hr : reads_responses o room.
Hypothesis Hd : value_chars (c_date c).
Hypothesis Htr : reads_trailers s.
Lemma readable_reads g : readable s c room l g -> reads_reply s c l o g.
Proof.
  intros A n m bs e Hw. destruct (reply_read s c o room l g n m bs e Hr Hd A Hw) as (H1 & H2). split; [exact H1|]. split; [intros r f Hf; now destruct (H2 r f Hf)|].
  intros names Hk. destruct A as (_ & _ & _ & _ & _ & Ht & Hl). pose proof (to_request_trailers m g Ht) as Ht'. destruct (Hl n m bs e Hw) as (_ & _ & Q). destruct (Q names Hk) as (Q1 & Q2). split; [now apply trailers_valid|]. split; [exact Q1|].
  rewrite (trailers_fields (c_title c) (ekind e) (to_request m g) names Hk) in *. destruct (trailer_block _) as [t|] eqn:Et; [|exact Logic.I]. split; [exact Q2|]. destruct (reads_block s _ _ _ Htr (fields_ok (ekind e) _ Ht') Et) as (h & -> & _). discriminate.
Qed.
Lemma trailers_read_meant g m k title : readable s c room l g ->
  match fields_to_send k (g_trailers (to_request m g)) with
  | [] => trailers_read s title k (to_request m g) = None
  | fs => exists t, trailers_read s title k (to_request m g) = Some t /\ forall n, Forall2 trimmed (field_values n fs) (hm_get_all t n)
  end.
Proof.
  intros (_ & _ & _ & _ & _ & Ht & _). pose proof (to_request_trailers m g Ht) as Ht'. destruct k as [names| |]; [|reflexivity|reflexivity]. unfold trailers_read. cbv zeta. rewrite (trailers_fields title _ (to_request m g) names eq_refl).
  pose proof (fields_ok (KChunked names) _ Ht') as F. pose proof (fun t => reads_block s title _ t Htr F) as R. destruct (fields_to_send (KChunked names) (g_trailers (to_request m g))) as [|f fs]; [reflexivity|]. cbn [map trailer_block] in *. destruct (R _ eq_refl) as (h & E & V). exists h. auto.
Qed.
Lemma came_same n g r : readable s c room l g -> came c l s o n g r -> same_reply c l n g r.
Proof.
  intros A (m & bs & e & Hw & Hf & Hk). destruct (reply_read s c o room l g n m bs e Hr Hd A Hw) as (_ & H2). destruct (H2 _ _ Hf) as (_ & Hh). exists m, bs, e. split; [exact Hw|]. split; [exact Hh|].
  pose proof (trailers_read_meant g m (ekind e) (c_title c) A) as T. destruct (ekind e); [|destruct Hk as (K1 & K2 & ->); auto|exact Hk]. destruct Hk as (K1 & K2 & ->). auto.
Qed.
Lemma coming_begun n g r : readable s c room l g -> coming c l o n g r -> begun_reply c l n g r.
Proof.
  intros A (m & bs & e & more & Hw & Hf & Hk). destruct (reply_read s c o room l g n m bs e Hr Hd A Hw) as (_ & H2). destruct (H2 _ _ Hf) as (_ & Hh). exists m, bs, e, more. auto.
Qed.
End Meaning.

(* The client hands out, for its n-th request, the n-th response that the server
   was given: its status, its fields, its body and its trailers. *)
Theorem C79_end_to_end : forall c h09 flat wmax evs ms s o room flat' wmax' evs' ms' more,
  c_server c = true -> L_Reply.service_moves c ms -> c_server s = false -> parses_with s o -> hp_ok o -> reads_responses o room -> reads_trailers s -> value_chars (c_date c) ->
  let l := history c h09 flat wmax evs ms in let l' := history s false flat' wmax' evs' ms' in
  in_order c flat l -> only_replies l -> ~ head_failed l' ->
  (forall n m me, nth_error (requests l) n = Some m -> nth_error (asked l') n = Some me -> in_method m = me) ->
  Forall (readable s c room l) (handed c h09 flat wmax evs ms) -> data_of evs' ++ more = taken l ->
  (forall n r, nth_error (received l') n = Some r -> Forall goes_on (firstn n (received l')) ->
     exists g, nth_error (handed c h09 flat wmax evs ms) n = Some g /\ same_reply c l n g r) /\
  (forall r, receiving l' = Some r -> Forall goes_on (received l') ->
     exists g, nth_error (handed c h09 flat wmax evs ms) (length (received l')) = Some g /\ begun_reply c l (length (received l')) g r).
Proof.
  intros c h09 flat wmax evs ms s o room flat' wmax' evs' ms' more Hs Ha Hc Ho Hhp Hr Htr Hd l l' Hord Honly Hnf Hme U E.
  destruct (C79_delivered c h09 flat wmax evs ms s o flat' wmax' evs' ms' more Hs Ha (parsing_client s o Hc Ho) Ho Hhp Hord Honly Hnf (continue_read o room Hr) Hme) as (D1 & D2).
  - eapply Forall_impl; [|exact U]. intros g. now apply readable_reads with (room := room).
  - exact E.
  - rewrite Forall_forall in U. split.
    + intros n r Hn Hg. destruct (D1 n r Hn Hg) as (g & G1 & G2). exists g. split; [exact G1|]. apply (came_same s c o room l Hr Hd Htr); [|exact G2]. apply U. eapply nth_error_In; exact G1.
    + intros r Hn Hg. destruct (D2 r Hn Hg) as (g & G1 & G2). exists g. split; [exact G1|]. apply (coming_begun s c o room l Hr Hd); [|exact G2]. apply U. eapply nth_error_In; exact G1.
Qed.
Print Assumptions C79_end_to_end.

(* ---- Example ---- *)
(* Two requests, the second with Expect: 100-continue, go to the server; a response
   with a chunk and trailers and one with a length come back, cut in pieces of seven *)
Definition rt_get : ohead := mkO HTTP11 (ORequest (B "GET") (B "/a")) [(B "host", [B "h"]); (B "te", [B "trailers"])] None.
Definition rt_put : ohead := mkO HTTP11 (ORequest (B "PUT") (B "/b")) [(B "host", [B "h"]); (B "expect", [B "100-continue"])] None.
Definition rt_wire : bytes := text_lines [B "GET /a HTTP/1.1"; B "host: h"; B "te: trailers"; []] ++ text_lines [B "PUT /b HTTP/1.1"; B "host: h"; B "expect: 100-continue"; B "content-length: 3"; []] ++ B "xyz".
Definition rt_sums : ohead := mkO HTTP11 (OResponse 200 None) [(B "x-note", [B " a "; B "b"]); (B "trailer", [B "x-sum"])] None.
Definition rt_made : ohead := mkO HTTP11 (OResponse 201 (Some (B "Made"))) [(B "location", [B "/c"])] None.
Definition rt_inp (resp : ohead * option body_length) (fr : poll (option (result M_Dispatch.uframe unit))) : inp :=
  mkI 0 false true [WAccept 65536; WAccept 65536; WAccept 65536] false BReady true (Ready (Ok resp)) (get, None) fr false (Ready (Ok tt)) [].
Definition rt_moves : list move := steps 5 (rt_inp (rt_sums, Some Unknown) (e2e_data (B "ab"))) ++ steps 3 (rt_inp (rt_sums, Some Unknown) e2e_sum) ++ steps 60 (rt_inp (rt_made, Some (Known 6)) (e2e_data (B "123"))).
Definition rt_log : list levent := history (ref_cfg true) false true 8192 (open_with rt_wire) rt_moves.
Definition rt_one : bytes := text_lines [B "HTTP/1.1 200 OK"; B "x-note:  a "; B "x-note: b"; B "trailer: x-sum"; B "transfer-encoding: chunked"; []; B "2"; B "ab"; B "0"; B "x-sum: 1"; []].
Definition rt_ask (n : nat) (q : ohead * option body_length) : list move := e2e_ask ++ steps n (e2e_inp q (e2e_data (B "xyz"))).
Definition rt_back : list event := repeat EvPending 2 ++ cut 100 7 rt_one ++ repeat EvPending 14 ++ cut 100 7 (dropN (lenN rt_one) (taken rt_log)) ++ repeat EvPending 40.
Definition rt_log' : list levent := history (ref_cfg false) false true 8192 rt_back (rt_ask 80 (rt_get, None) ++ rt_ask 600 (rt_put, Some (Known 3))).
Definition rt_given : list gmsg := handed (ref_cfg true) false true 8192 (open_with rt_wire) rt_moves.
Lemma rt_service : L_Reply.service_moves (ref_cfg true) rt_moves.
Proof.
  assert (forall n i, L_Reply.good_service (ref_cfg true) i -> L_Reply.service_moves (ref_cfg true) (steps n i)) as Q by (intros n i H; induction n; constructor; auto).
  assert (forall x, lenN x <= u64_max -> x <> [] -> forall re, (exists st rs, o_subject (fst re) = OResponse st rs) -> L_Reply.good_service (ref_cfg true) (rt_inp re (e2e_data x))) as D.
  { intros x Hx Hne [h b] Hre. split; [exact Hre|]. split.
    - unfold good_inp, good_data. cbn. split; [now repeat constructor|]. split; [right; apply le_n|]. left. apply le_n.
    - cbn. rewrite app_nil_r. exact Hx. }
  assert (forall a b, L_Reply.service_moves (ref_cfg true) a -> L_Reply.service_moves (ref_cfg true) b -> L_Reply.service_moves (ref_cfg true) (a ++ b)) as J by (intros a b Ha Hb; apply Forall_app; auto).
  unfold rt_moves. apply J; [apply Q, D; [vm_compute; discriminate|discriminate|eexists _, _; reflexivity]|]. apply J; [apply Q|apply Q, D; [vm_compute; discriminate|discriminate|eexists _, _; reflexivity]].
  split; [eexists _, _; reflexivity|]. split; [exact Logic.I|]. split; constructor; [intros []|constructor|discriminate|constructor].
Qed.
(* What is known of the two heads that were written *)
Lemma rt_heads n m g bs e : reply_head (ref_cfg true) rt_log n m g bs e ->
  g_head g = rt_sums -> g_len g = Some Unknown -> line_feeds bs <= 102 /\ ekind e = KChunked (Some [B "x-sum"]).
Proof.
  intros (h' & keep & Hq & Hw & (Fs & _) & st & rs & Hs & E) Eh El. rewrite Eh in Fs. rewrite El in E.
  assert (exists b1 b2 h2, answers rt_log = [(rt_sums, b1); (h2, b2)] /\ o_subject h2 = o_subject rt_made) as (b1 & b2 & h2 & Ea & E2) by (eexists _, _, _; split; vm_compute; reflexivity).
  assert (exists q1 q2, requests rt_log = [q1; q2] /\ in_method q1 = Some (B "GET")) as (q1 & q2 & Er & M1) by (eexists _, _; split; vm_compute; reflexivity).
  rewrite Ea in Hw. rewrite Er in Hq. destruct n as [|[|n]]; cbn [nth_error] in Hw, Hq; [|injection Hw as <- _; rewrite E2 in Fs; discriminate Fs|destruct n; discriminate Hw].
  injection Hw as <- <-. injection Hq as <-. injection Hs as <- <-. rewrite M1 in E.
  assert (forall k, match server_encode (c_reason (ref_cfg true)) (c_date (ref_cfg true)) (mkSmsg HTTP11 200 (Some (B "GET")) (Some Unknown) (o_headers rt_sums) k (c_date_header (ref_cfg true)) (c_title (ref_cfg true)) None None) with (x, Ok y) => line_feeds x <= 102 /\ ekind y = KChunked (Some [B "x-sum"]) | _ => False end) as Z by (intros []; vm_compute; split; [discriminate|reflexivity|discriminate|reflexivity]).
  specialize (Z keep). cbn [o_version o_case rt_sums] in E. rewrite E in Z. exact Z.
Qed.
Lemma rt_heads2 n m g bs e : reply_head (ref_cfg true) rt_log n m g bs e ->
  g_head g = rt_made -> g_len g = Some (Known 6) -> line_feeds bs <= 102 /\ ekind e = KLength 6.
Proof.
  intros (h' & keep & Hq & Hw & (Fs & _) & st & rs & Hs & E) Eh El. rewrite Eh in Fs. rewrite El in E.
  assert (exists b1 b2 h1, answers rt_log = [(h1, b1); (rt_made, b2)] /\ o_subject h1 = o_subject rt_sums) as (b1 & b2 & h1 & Ea & E2) by (eexists _, _, _; split; vm_compute; reflexivity).
  assert (exists q1 q2, requests rt_log = [q1; q2] /\ in_method q2 = Some (B "PUT")) as (q1 & q2 & Er & M1) by (eexists _, _; split; vm_compute; reflexivity).
  rewrite Ea in Hw. rewrite Er in Hq. destruct n as [|[|n]]; cbn [nth_error] in Hw, Hq; [injection Hw as <- _; rewrite E2 in Fs; discriminate Fs| |destruct n; discriminate Hw].
  injection Hw as <- <-. injection Hq as <-. injection Hs as <- <-. rewrite M1 in E.
  assert (forall k, match server_encode (c_reason (ref_cfg true)) (c_date (ref_cfg true)) (mkSmsg HTTP11 201 (Some (B "PUT")) (Some (Known 6)) (o_headers rt_made) k (c_date_header (ref_cfg true)) (c_title (ref_cfg true)) None (Some (B "Made"))) with (x, Ok y) => line_feeds x <= 102 /\ ekind y = KLength 6 | _ => False end) as Z by (intros []; vm_compute; split; [discriminate|reflexivity|discriminate|reflexivity]).
  specialize (Z keep). cbn [o_version o_case rt_made] in E. rewrite E in Z. exact Z.
Qed.
Lemma rt_ok : Forall (readable (ref_cfg false) (ref_cfg true) 100 rt_log) rt_given.
Proof.
  assert (forall v, forallb (fun b => (b =? 9) || ((32 <=? b) && negb (b =? 127))) v = true -> value_chars v) as VC by (intros v H; apply Forall_forall; rewrite forallb_forall in H; intros b Hb; apply H in Hb; lia).
  unfold rt_given. set (gs := handed _ _ _ _ _ _). assert (exists g1 g2, gs = [g1; g2] /\ g_head g1 = rt_sums /\ g_len g1 = Some Unknown /\ g_trailers g1 = Some [(B "x-sum", [B "1"])] /\ g_head g2 = rt_made /\ g_len g2 = Some (Known 6) /\ g_trailers g2 = None) as (g1 & g2 & -> & A1 & A2 & A3 & B1 & B2 & B3).
  { eexists _, _. split; [vm_compute; reflexivity|]. repeat split; reflexivity. }
  constructor; [|constructor; [|constructor]]; unfold readable; cbv zeta.
  - rewrite A1, A2, A3. split; [exists 200, None; split; [reflexivity|]; split; [lia|]; intros r Hr; injection Hr as <-; now apply VC|]. split; [now apply headers_okb_ok|]. split; [discriminate|]. split; [constructor|]. split; [discriminate|]. split; [intros t E; injection E as <-; now apply headers_okb_ok|].
    intros n m bs e Hw. destruct (rt_heads _ _ _ _ _ Hw A1 A2) as (L0 & ->). split; [exact L0|]. split; [discriminate|]. intros names En. injection En as <-. unfold to_request, without_trailers. destruct (te_is_trailers (in_headers m)); cbn [g_trailers]; rewrite ?A3; (split; [vm_compute; discriminate|vm_compute; reflexivity || exact Logic.I]).
  - rewrite B1, B2, B3. split; [exists 201, (Some (B "Made")); split; [reflexivity|]; split; [lia|]; now apply VC|]. split; [now apply headers_okb_ok|]. split; [discriminate|]. split; [constructor|]. split; [intros n E; injection E as <-; split; [vm_compute; discriminate|constructor]|]. split; [discriminate|].
    intros n m bs e Hw. destruct (rt_heads2 _ _ _ _ _ Hw B1 B2) as (L0 & ->). split; [exact L0|]. split; [intros k En; injection En as <-; reflexivity|discriminate].
Qed.
(* All of the hypotheses of C79_end_to_end hold, the requests that the server reads
   are those the client wrote, and both responses arrive *)
Example C79_ex : L_Reply.service_moves (ref_cfg true) rt_moves /\ parses_with (ref_cfg false) (ref_hp 100 true) /\ hp_ok (ref_hp 100 true) /\ reads_responses (ref_hp 100 true) 100 /\ reads_trailers (ref_cfg false) /\ value_chars (c_date (ref_cfg true)) /\
  in_order (ref_cfg true) true rt_log /\ only_replies rt_log /\ ~ head_failed rt_log' /\
  (forall n m me, nth_error (requests rt_log) n = Some m -> nth_error (asked rt_log') n = Some me -> in_method m = me) /\
  Forall (readable (ref_cfg false) (ref_cfg true) 100 rt_log) rt_given /\ data_of rt_back ++ [] = taken rt_log /\ data_of (open_with rt_wire) = taken rt_log' /\
  map (fun g => (in_status (msg_head g), hm_get_all (in_headers (msg_head g)) (B "x-note"), msg_data g, msg_trailers g)) (received rt_log') =
    [(200, [B "a"; B "b"], B "ab", Some [(B "x-sum", [B "1"])]); (201, [], B "123123", None)] /\
  Forall goes_on (received rt_log').
Proof.
  split; [exact rt_service|]. split; [apply ref_parses|]. split; [apply ref_ok|]. split; [apply ref_reads_responses|]. split; [apply ref_trailers|]. split; [cbn; unfold value_chars; repeat (apply Forall_cons; [right; lia|]); apply Forall_nil|].
  split; [now left|]. split; [|split; [|split; [|split; [exact rt_ok|]]]].
  - unfold only_replies. apply Forall_forall. vm_compute. repeat (apply Forall_cons; [exact Logic.I|]). apply Forall_nil.
  - intros (b & F). assert (forallb (fun e => match e with LHeadFail _ => false | _ => true end) rt_log' = true) as Q by (vm_compute; reflexivity). rewrite forallb_forall in Q. apply Q in F. discriminate F.
  - intros n m me H1 H2. assert (map in_method (requests rt_log) = asked rt_log') as Q by (vm_compute; reflexivity). apply (map_nth_error in_method) in H1. rewrite Q, H2 in H1. congruence.
  - split; [vm_compute; reflexivity|]. split; [vm_compute; reflexivity|]. split; [vm_compute; reflexivity|]. vm_compute. repeat (apply Forall_cons; [discriminate|]). apply Forall_nil.
Qed.
(* ... and what has come of a response in the middle of its body *)
Example C79_part_ex : let l' := history (ref_cfg false) false true 8192 (repeat EvPending 2 ++ cut 100 7 (takeN (lenN rt_one - 16) (taken rt_log)) ++ repeat EvPending 40) (rt_ask 80 (rt_get, None)) in
  received l' = [] /\ exists r, receiving l' = Some r /\ msg_data r = B "ab".
Proof. cbv zeta. split; [vm_compute; reflexivity|]. eexists. split; vm_compute; reflexivity. Qed.
