(* C66: from the bytes of the heads to the messages. *)
From Verif Require P_Read.
From Verif Require Import M_Httparse.
From Verif Require Import Base M_Src M_Decode S_Buf L_Buf S_Transport S_Chunked S_Read L_Decode L_Chunked L_Body L_Read M_HeaderMap M_Headers M_Encode M_Role M_RoleEncode M_Buf M_WriteBuf M_Read M_Conn M_Dispatch S_Conn S_Framing L_Headers L_Framing L_Fold P_Framing S_Inbound S_Head L_Conn L_Moves L_ConnS L_Exch L_BodyTx L_View L_Upgrade L_Inbound P_Conn P_Requests P_View P_Upgrade P_Inbound M_Parse S_Parse.

(* ---- Bodies ---- *)
Lemma body_framed c len w data t : body_wire c len w data t -> framed c (framing_of len) w data t.
Proof.
  unfold body_wire, framing_of. destruct (len =? DL_CHUNKED); [intros H; exact H|]. intros (-> & -> & H). destruct (N.eqb_spec len DL_CLOSE_DELIMITED); cbn; [auto|]. destruct H; [contradiction|auto].
Qed.
Lemma framing_close d : framing_of d = FClose -> d = DL_CLOSE_DELIMITED.
Proof. unfold framing_of. destruct (d =? DL_CHUNKED); [discriminate|]. destruct (N.eqb_spec d DL_CLOSE_DELIMITED); [auto|discriminate]. Qed.
Lemma framing_of_close : framing_of DL_CLOSE_DELIMITED = FClose.
Proof. reflexivity. Qed.

Lemma take_own {A} (a b : list A) : takeN (lenN a) (a ++ b) = a.
Proof. rewrite takeN_app_le by lia. apply takeN_all. lia. Qed.
Lemma drop_own {A} (a b : list A) : dropN (lenN a) (a ++ b) = b.
Proof. rewrite dropN_app_ge by lia. rewrite N.sub_diag. apply dropN_0. Qed.

(* ---- Server ---- *)
Lemma request_done o x n m : parse_request o x = PRet (PDone n m) -> exists q p, h_request o x = HComplete n q /\ lenN (q_path q) <= MAX_URI_LEN /\ h_method o (q_method q) = true /\ h_uri o (q_path q) = true /\
  server_parse (q_minor1 q) (q_method q) (q_lines q) = Ok p /\
  m = mkIn (if q_minor1 q then HTTP11 else HTTP10) (Some (q_method q)) 0 (pm_headers p) (pm_decode p) (pm_expect p) (pm_keep p) (pm_upgrade p).
Proof.
  unfold parse_request. destruct (h_request o x) as [k q| |e s]; [|discriminate|destruct e; discriminate].
  destruct (N.ltb_spec MAX_URI_LEN (lenN (q_path q))) as [|Hp]; [discriminate|]. destruct (h_method o _) eqn:Em; [|discriminate]. cbn [negb]. destruct (names_fit _); [|discriminate]. cbn [negb].
  destruct (h_uri o _) eqn:Eu; [|discriminate]. cbn [negb]. destruct (reserves _); [|discriminate]. cbn [negb]. destruct (server_parse _ _ _) as [p|e] eqn:Es; [|discriminate]. intros H. injection H as <- <-.
  exists q, p. auto 10.
Qed.
Lemma request_alike o x y n q : h_request o x = HComplete n q -> h_request o y = HComplete n q -> parse_request o x = parse_request o y.
Proof. unfold parse_request. now intros -> ->. Qed.
Theorem C66_request_parser : forall c o, c_server c = true -> parses_with c o -> hp_ok o -> request_parser c.
Proof.
  intros c o Hs U (Hq & _). split; [|split].
  - intros me h09 x n m E. rewrite U, Hs in E. unfold role_parse, settle in E. destruct (parse_request o x) as [r| |] eqn:Er; [subst r|discriminate|discriminate].
    destruct (request_done _ _ _ _ Er) as (q & p & Eq & _). destruct (Hq _ _ _ Eq) as ((_ & Hl) & Hz). split; [exact Hl|]. intros z. rewrite U, Hs. unfold role_parse. rewrite <- (request_alike o x _ n q Eq (Hz z)), Er. reflexivity.
  - intros me h09 x n E. rewrite U, Hs in E. unfold role_parse, settle, parse_request in E. destruct (h_request o x) as [k q| |e s].
    + destruct (_ <? _); [discriminate|]. destruct (negb _); [discriminate|]. destruct (negb _); [discriminate|]. destruct (negb _); [discriminate|]. destruct (negb _); [discriminate|]. destruct (server_parse _ _ _); discriminate.
    + now injection E.
    + destruct e; discriminate.
  - intros me h09 x n m E. rewrite U, Hs in E. unfold role_parse, settle in E. destruct (parse_request o x) as [r| |] eqn:Er; [subst r|discriminate|discriminate].
    destruct (request_done _ _ _ _ Er) as (q & p & _ & _ & _ & _ & Ep & ->). cbn [in_decode]. intros F. pose proof (C12_request_framing (q_minor1 q) (q_method q) (q_lines q)) as H. rewrite Ep in H. destruct H as (H & _). rewrite F, framing_of_close in H.
    destruct H as [(_ & _ & _ & _ & Q)|[(_ & _ & k & _ & Q)|(_ & _ & Q)]]; discriminate Q.
Qed.
Lemma head_request c o head m : c_server c = true -> parses_with c o -> hp_ok o -> head_wire c head m -> exists q p, is_request o head q /\ lenN (q_path q) <= MAX_URI_LEN /\
  server_parse (q_minor1 q) (q_method q) (q_lines q) = Ok p /\
  m = mkIn (if q_minor1 q then HTTP11 else HTTP10) (Some (q_method q)) 0 (pm_headers p) (pm_decode p) (pm_expect p) (pm_keep p) (pm_upgrade p).
Proof.
  intros Hs U (Hq & _) (me & h09 & z & E). rewrite U, Hs in E. unfold role_parse, settle in E. destruct (parse_request o _) as [r| |] eqn:Er; [subst r|discriminate|discriminate].
  destruct (request_done _ _ _ _ Er) as (q & p & Eq & Hp & _ & _ & Es & ->). destruct (Hq _ _ _ Eq) as (_ & Hz). exists q, p. split; [|auto]. intros z'. specialize (Hz z'). rewrite take_own in Hz. exact Hz.
Qed.
(* What a server hands out are the requests that it was sent: each request is a
   head and the body that the lines of the head call for, in the order in which
   they came, without a gap. *)
Theorem C66_requests : forall c o h09 flat wmax evs ms, c_server c = true -> parses_with c o -> hp_ok o -> let l := history c h09 flat wmax evs ms in
  exists wires rest, data_of evs = concat wires ++ rest /\ Forall2 (request_wire c o) wires (received l) /\
    match receiving l with
    | None => True
    | Some g => exists head q f part more, rest = head ++ part ++ more /\ is_request o head q /\ in_method (msg_head g) = Some (q_method q) /\
        request_framing (q_minor1 q) (q_lines q) f /\ framing_of (in_decode (msg_head g)) = f /\ body_begun c (in_decode (msg_head g)) part (msg_data g)
    end.
Proof.
  intros c o h09 flat wmax evs ms Hs U Ho l. pose proof (C66_request_parser c o Hs U Ho) as R.
  destruct (C65_received c h09 flat wmax evs ms (request_bounded c R)) as (wires & rest & E & F & G). exists wires, rest. split; [exact E|]. split.
  - revert F. change (history c h09 flat wmax evs ms) with l. generalize (received l). clear - Hs U Ho R. intros gs F. induction F as [|w g ws gs M F IH]; constructor; [|exact IH].
    destruct M as (sk & head & body & -> & K & H & Hb). rewrite (never_skipped c sk R K). destruct (head_request c o head _ Hs U Ho H) as (q & p & Q & _ & Es & Em).
    pose proof (C12_request_framing (q_minor1 q) (q_method q) (q_lines q)) as Hf. rewrite Es in Hf. destruct Hf as (Hf & _).
    exists head, body, q, (framing_of (pm_decode p)). rewrite Em. cbn [in_version in_method in_headers]. split; [reflexivity|]. split; [exact Q|]. split; [reflexivity|]. split; [reflexivity|]. split; [|split; [exact Hf|]].
    + intros n Hn. destruct (server_parse_view _ _ _ _ Es) as (V & _). rewrite V. destruct (beq n CL) eqn:En; [|reflexivity]. apply beq_eq in En. contradiction.
    + apply body_framed in Hb. rewrite Em in Hb. exact Hb.
  - change (history c h09 flat wmax evs ms) with l in G. destruct (receiving l) as [g|]; [|exact Logic.I]. destruct G as (sk & head & part & more & -> & K & H & _ & Hb). rewrite (never_skipped c sk R K).
    destruct (head_request c o head _ Hs U Ho H) as (q & p & Q & _ & Es & Em). pose proof (C12_request_framing (q_minor1 q) (q_method q) (q_lines q)) as Hf. rewrite Es in Hf. destruct Hf as (Hf & _).
    exists head, q, (framing_of (pm_decode p)), part, more. split; [reflexivity|]. split; [exact Q|]. rewrite Em in *. split; [reflexivity|]. split; [exact Hf|]. split; [reflexivity|exact Hb].
Qed.
(* Two servers that are sent the same bytes hand out the same requests, as far as
   both have come: however the bytes are cut, whatever the applications do. *)
Theorem C66_same_requests : forall c c' o h09 flat wmax evs ms h09' flat' wmax' evs' ms',
  c_server c = true -> c_server c' = true -> parses_with c o -> parses_with c' o -> hp_ok o ->
  (forall b n, c_dt c b n = c_dt c' b n) -> c_max_headers c = c_max_headers c' -> data_of evs = data_of evs' ->
  exists more, received (history c h09 flat wmax evs ms) = received (history c' h09' flat' wmax' evs' ms') ++ more \/
    received (history c' h09' flat' wmax' evs' ms') = received (history c h09 flat wmax evs ms) ++ more.
Proof.
  intros c c' o h09 flat wmax evs ms h09' flat' wmax' evs' ms' S S' U U' Ho Hd Hm E.
  apply C65_deterministic; [exact (C66_request_parser c o S U Ho)|exact (C66_request_parser c' o S' U' Ho)| |exact E].
  split; [|auto]. intros me h9 me' h9' x. rewrite U, U', S, S'. reflexivity.
Qed.

(* ---- Client ---- *)
Lemma cut_lf_eq v : forall a b, cut_lf v = Some (a, b) -> v = a ++ 10 :: b.
Proof.
  induction v as [|x v IH]; intros a b E; [discriminate|]. cbn [cut_lf] in E. destruct (N.eqb_spec x 10) as [->|_]; [injection E as <- <-; reflexivity|].
  destruct (cut_lf v) as [(y & z)|]; [|discriminate]. injection E as <- <-. cbn. now rewrite (IH y z eq_refl).
Qed.
Lemma split_len s : lenN (concat (map (fun t => 32 :: t) (split_lf s))) = 1 + lenN s.
Proof.
  induction s as [|x s IH]; [reflexivity|]. cbn [split_lf]. destruct (x =? 10).
  - cbn [map concat app]. rewrite !lenN_cons, IH. lia.
  - destruct (split_lf s) as [|h t]; [cbn [map concat] in IH; rewrite lenN_nil in IH; lia|]. cbn [map concat app] in *. rewrite !lenN_cons in *. lia.
Qed.
Lemma trims_len ls : lenN (concat (map (fun t => 32 :: t) (map trim_ws ls))) <= lenN (concat (map (fun t => 32 :: t) ls)).
Proof. induction ls as [|x ls IH]; [reflexivity|]. cbn [map concat app]. rewrite !lenN_cons, !lenN_app. pose proof (L_Fold.trim_len x). lia. Qed.
Lemma fold_some v : exists v', obs_fold_line v = Some v'.
Proof.
  unfold obs_fold_line. destruct (cut_lf v) as [(a & b)|] eqn:E; [|eauto]. apply cut_lf_eq in E. rewrite fold_trim. 
  destruct (N.leb_spec (lenN (trim_end_ws a ++ concat (map (fun t => 32 :: t) (map trim_ws (split_lf b))))) (lenN v)) as [|F]; [eauto|]. exfalso.
  pose proof (trims_len (split_lf b)) as H1. rewrite split_len in H1. pose proof (trim_end_len a) as H2. rewrite E in F. rewrite !lenN_app, lenN_cons in F. lia.
Qed.
Lemma unfold_ok lines : exists l', unfold_lines lines = Some l' /\ Forall2 (fun l l' => fst l' = fst l /\ obs_fold_line (snd l) = Some (snd l')) lines l'.
Proof.
  induction lines as [|(n & v) r (r' & E & F)]; [exists []; split; [reflexivity|constructor]|]. cbn [unfold_lines]. destruct (fold_some v) as (v' & Ev). rewrite Ev, E.
  eexists. split; [reflexivity|]. constructor; [|exact F]. cbn. auto.
Qed.
Lemma maybe_ok o lines : exists l', maybe_unfold o lines = Some l' /\ unfolded o lines l' /\ lenN l' = lenN lines.
Proof.
  unfold maybe_unfold, unfolded. destruct (h_fold o); [|eauto]. destruct (unfold_ok lines) as (l' & E & F). exists l'. split; [exact E|]. split; [exact F|].
  clear E. induction F as [|a b l l' _ F IH]; [reflexivity|]. rewrite !lenN_cons. now rewrite IH.
Qed.

(* What one call of Client::parse does: interim responses, then [r] *)
Definition rounds (o : hparse) (method : option bytes) (h09 : bool) (x : bytes) (is : list interim) (n : N) (r : presult inmsg (parse_error * N)) : Prop :=
  exists heads x', x = concat heads ++ x' /\ Forall2 (interim_head o) heads is /\
    match r with
    | PMore k => k = n + lenN (concat heads) /\ (x' = [] \/ h_response o x' = HPartial)
    | PDone k m => exists w y, x' = w ++ y /\ k = n + lenN (concat heads) + lenN w /\
        (final_head o method w m (framing_of (in_decode m)) \/ h09 = true /\ bare_head o method w m (framing_of (in_decode m)))
    | PFail (_, k) => n <= k <= n + lenN x /\ response_refused o method h09 x'
    end.
Lemma interim_code ver status lines method : client_parse_head ver status lines method = Ok None -> 100 <= status < 200 /\ status <> 101.
Proof.
  intros E. pose proof (proj2 (C15_response_framing ver status lines method RSkip)) as H. rewrite E in H. specialize (H eq_refl).
  inversion H; subst; [auto|]. match goal with B : body_framing _ _ _ RSkip |- _ => inversion B end.
Qed.
Lemma client_version ver : ver_eqb (if ver : bool then HTTP11 else HTTP10) HTTP10 = negb ver.
Proof. now destruct ver. Qed.
Lemma status_code n : status_ok n = true <-> 100 <= n <= 999.
Proof. unfold status_ok. rewrite andb_true_iff, !N.leb_le. reflexivity. Qed.
Lemma names_long lines : names_fit lines = false <-> Exists (fun l => 65536 <= lenN (fst l)) lines.
Proof.
  unfold names_fit. induction lines as [|l lines IH]; cbn [forallb]; [split; [discriminate|intros F; inversion F]|].
  rewrite Exists_cons, <- IH. destruct (N.ltb_spec (lenN (fst l)) 65536) as [L|L]; cbn [andb]; split; auto; intros [F|F]; auto. lia.
Qed.
(* One round *)
Lemma round_spec o method h09 x : hp_ok o ->
  match client_round o method h09 x with
  | RdInterim k i => 0 < k <= lenN x /\ interim_head o (takeN k x) i
  | RdStop (PRet (PMore k)) => k = 0 /\ h_response o x = HPartial
  | RdStop (PRet (PDone k m)) => k <= lenN x /\
      (final_head o method (takeN k x) m (framing_of (in_decode m)) \/ h09 = true /\ bare_head o method (takeN k x) m (framing_of (in_decode m)))
  | RdStop (PRet (PFail (_, k))) => k <= lenN x /\ response_refused o method h09 x
  | RdStop _ => True
  end.
Proof.
  intros (_ & Ha). unfold client_round. destruct (h_response o x) as [k a| |e s] eqn:Er.
  - destruct (status_ok (a_code a)) eqn:Es; cbn [negb].
    2: { split; [apply N.le_0_l|]. apply (rr_code _ _ _ _ _ _ Er). rewrite <- status_code. congruence. }
    destruct (names_fit (a_lines a)) eqn:En; cbn [negb].
    2: { split; [apply N.le_0_l|]. apply (rr_name _ _ _ _ _ _ Er). now apply names_long. }
    apply status_code in Es. unfold response_head. destruct (maybe_ok o (a_lines a)) as (lines & El & Hu & _). rewrite El. destruct (reserves _); [|exact Logic.I]. cbn [negb].
    destruct (Ha _ _ _ Er) as ((K0 & K1) & Hz). set (w := takeN k x) in *. assert (lenN w = k) as Hw by (unfold w; rewrite takeN_len; lia). rewrite <- Hw in Hz. set (ver := if a_minor1 a then HTTP11 else HTTP10) in *.
    destruct (client_parse_head ver (a_code a) lines method) as [[p|]|e] eqn:Ec.
    + split; [exact K1|]. left. exists a, lines. cbn [in_status in_version in_headers in_decode in_upgrade]. split; [exact Hz|]. split; [exact Es|]. split; [exact Hu|]. split; [reflexivity|]. split; [reflexivity|]. split.
      * intros nm. unfold client_parse_head in Ec. destruct (client_lines_spec ver lines) as (H1 & _). destruct (client_lines ver lines) as [[hh cc] kk]. cbn [fst] in H1. destruct (client_decoder _ _ _ _) as [[[d u]|]|]; [|discriminate|discriminate]. injection Ec as <-. apply H1.
      * unfold ver in Ec. rewrite <- client_version. apply C15_response_framing. rewrite Ec. reflexivity.
    + split; [auto|]. destruct (interim_code _ _ _ _ Ec) as (C1 & C2). exists a, lines. cbn [i_status i_version i_headers]. split; [exact Hz|]. do 2 (split; [assumption|]). split; [exact Hu|]. split; [reflexivity|]. split; [reflexivity|]. apply client_lines_spec.
    + split; [exact K1|]. apply (rr_body _ _ _ _ _ _ lines Er Hu). rewrite <- client_version. apply C15_response_framing. unfold ver in Ec. now rewrite Ec.
  - auto.
  - destruct e; try (split; [apply N.le_0_l|]; apply (rr_syntax _ _ _ _ _ _ Er); discriminate). destruct h09; [|split; [apply N.le_0_l|]; apply (rr_syntax _ _ _ _ _ _ Er); auto]. unfold response_head. destruct (maybe_ok o []) as (lines & El & _ & Hl). rewrite El. destruct lines; [|rewrite lenN_cons, lenN_nil in Hl; lia]. change (reserves (lenN [])) with true. cbn [negb].
    destruct (client_parse_head HTTP09 200 [] method) as [[p|]|e] eqn:Ec.
    + split; [apply N.le_0_l|]. rewrite takeN_0. right. split; [reflexivity|].
      split; [reflexivity|]. split; [eauto|]. cbn [in_status in_version in_headers in_decode in_upgrade]. split; [reflexivity|]. split; [reflexivity|]. split.
      * unfold client_parse_head in Ec. change (client_lines HTTP09 []) with (@nil (bytes * list bytes), @nil (bytes * list bytes), false) in Ec. cbn iota beta in Ec. destruct (client_decoder _ _ _ _) as [[[d u]|]|]; [|discriminate|discriminate]. injection Ec as <-. reflexivity.
      * pose proof (proj2 (C15_response_framing HTTP09 200 [] method (RBody (framing_of (pm_decode p)) (pm_upgrade p)))) as H. unfold S_Framing.line in H. rewrite Ec in H. exact (H eq_refl).
    + apply interim_code in Ec. lia.
    + exfalso. pose proof (proj2 (C15_response_framing HTTP09 200 [] method RBad)) as H. unfold S_Framing.line in H. rewrite Ec in H. specialize (H eq_refl).
      inversion H; subst. match goal with G : body_framing _ _ _ RBad |- _ => inversion G; subst end; match goal with G : _ [] <> [] |- _ => apply G; reflexivity end.
Qed.
Lemma parse_rounds o method h09 : hp_ok o -> forall fuel n cb x is r, parse_response fuel o method h09 n cb x = (is, PRet r) -> exists js, is = rev cb ++ js /\ rounds o method h09 x js n r.
Proof.
  intros Ho. induction fuel as [|fuel IH]; intros n cb x is r E; [discriminate|]. cbn [parse_response] in E. pose proof (round_spec o method h09 x Ho) as R. destruct (client_round o method h09 x) as [s|k i].
  - injection E as <- E. exists []. rewrite app_nil_r. split; [reflexivity|]. exists [], x. split; [reflexivity|]. split; [constructor|]. cbn [concat]. change (lenN (@nil N)) with 0. rewrite N.add_0_r.
    destruct s as [[k|k m|(e & k)]| |]; try discriminate E; injection E as <-.
    + destruct R as (-> & R). split; [lia|auto].
    + destruct R as (R1 & R2). exists (takeN k x), (dropN k x). split; [symmetry; apply takeN_dropN|]. rewrite takeN_len, N.min_l by exact R1. auto.
    + destruct R as (R1 & R2). split; [lia|exact R2].
  - destruct R as ((K0 & K1) & Hi). assert (x = takeN k x ++ dropN k x) as Ex by (symmetry; apply takeN_dropN). assert (lenN (takeN k x) = k) as Hw by (rewrite takeN_len; lia). destruct (dropN k x) as [|b x'] eqn:Ed.
    + injection E as <- <-. eexists [_]. split; [reflexivity|]. exists [takeN k x], []. cbn [concat]. rewrite !app_nil_r in *. split; [exact Ex|]. split; [constructor; [exact Hi|constructor]|]. split; [lia|auto].
    + apply IH in E. destruct E as (js & -> & heads & y & E1 & E2 & E3). cbn [rev]. rewrite <- app_assoc. eexists. split; [reflexivity|]. exists (takeN k x :: heads), y. cbn [concat]. rewrite <- app_assoc, <- E1. split; [exact Ex|]. split; [constructor; assumption|].
      rewrite lenN_app. destruct r as [j|j m|(e & j)].
      * destruct E3 as (-> & E3). split; [lia|exact E3].
      * destruct E3 as (w' & y' & -> & -> & E3). exists w', y'. split; [reflexivity|]. split; [lia|exact E3].
      * destruct E3 as (E3 & E4). split; [rewrite Ex, lenN_app; lia|exact E4].
Qed.

(* One call of the client's parser: it takes interim responses off the buffer,
   tells the callback about each of them once and in order, and nothing else; then
   it has found the final head, or asks for more. *)
Theorem C66_client_call : forall o method h09 x is r, hp_ok o -> client_call o method h09 x = (is, PRet r) ->
  exists heads x', x = concat heads ++ x' /\ Forall2 (interim_head o) heads is /\
    match r with
    | PMore k => k = lenN (concat heads) /\ (x' = [] \/ h_response o x' = HPartial)
    | PDone k m => exists w y, x' = w ++ y /\ k = lenN (concat heads ++ w) /\
        exists f, framing_of (in_decode m) = f /\ (final_head o method w m f \/ h09 = true /\ bare_head o method w m f)
    | PFail (_, k) => k <= lenN x /\ response_refused o method h09 x'
    end.
Proof.
  intros o method h09 x is r Ho E. destruct (parse_rounds o method h09 Ho _ _ _ _ _ _ E) as (js & -> & heads & x' & E1 & E2 & E3). exists heads, x'. split; [exact E1|]. split; [exact E2|].
  destruct r as [k|k m|(e & k)].
  - destruct E3 as (-> & E3). split; [lia|exact E3].
  - destruct E3 as (w & y & -> & -> & E3). exists w, y. split; [reflexivity|]. split; [rewrite lenN_app; lia|]. eexists. split; [reflexivity|exact E3].
  - destruct E3 as (E3 & E4). split; [lia|exact E4].
Qed.

(* ---- However the bytes are cut ---- *)
Lemma shift_shift a b r : shift a (shift b r) = shift (a + b) r.
Proof. destruct r as [[k|k m|(e & k)]| |]; cbn; try reflexivity; rewrite N.add_assoc; reflexivity. Qed.
Lemma shift_0 r : shift 0 r = r.
Proof. destruct r as [[k|k m|(e & k)]| |]; reflexivity. Qed.
Lemma pr_shift o method h09 : forall fuel n cb x, parse_response fuel o method h09 n cb x =
  (rev cb ++ fst (parse_response fuel o method h09 0 [] x), shift n (snd (parse_response fuel o method h09 0 [] x))).
Proof.
  induction fuel as [|fuel IH]; intros n cb x; [cbn; now rewrite app_nil_r|]. cbn [parse_response]. destruct (client_round o method h09 x) as [r|k i].
  - cbn [fst snd rev]. now rewrite app_nil_r, shift_0.
  - destruct (dropN k x) as [|b x']; [cbn [fst snd rev shift app]; reflexivity|]. rewrite (IH (n + k)), (IH (0 + k)). cbn [fst snd]. rewrite shift_shift. cbn [rev app]. rewrite <- app_assoc. reflexivity.
Qed.
Lemma dropN_le {A} k (x : list A) : (length (dropN k x) <= length x)%nat.
Proof. pose proof (dropN_len k x) as H. unfold lenN in H. lia. Qed.
Lemma dropN_shorter {A} k (x : list A) : 0 < k -> x <> [] -> (length (dropN k x) < length x)%nat.
Proof. intros Hk Hx. pose proof (dropN_len k x) as H. unfold lenN in H. destruct x; [congruence|]. cbn [length] in *. lia. Qed.
Lemma pr_fuel o method h09 : hp_ok o -> forall f f' n cb x, (length x < f)%nat -> (length x < f')%nat -> parse_response f o method h09 n cb x = parse_response f' o method h09 n cb x.
Proof.
  intros Ho. induction f as [|f IH]; intros f' n cb x L L'; [lia|]. destruct f' as [|f']; [lia|]. cbn [parse_response]. pose proof (round_spec o method h09 x Ho) as R. destruct (client_round o method h09 x) as [r|k i]; [reflexivity|].
  destruct R as ((K0 & K1) & _). destruct (dropN k x) as [|b x'] eqn:Ed; [reflexivity|]. assert (x <> []) as Nx by (intros ->; rewrite lenN_nil in K1; lia). pose proof (dropN_shorter k x K0 Nx) as H. rewrite Ed in H. apply IH; lia.
Qed.
Lemma round_more o method h09 x y k i : hp_ok o -> client_round o method h09 x = RdInterim k i -> k <= lenN x /\ 0 < k /\ client_round o method h09 (x ++ y) = RdInterim k i.
Proof.
  intros Ho E. pose proof (round_spec o method h09 x Ho) as R. rewrite E in R. destruct R as ((K0 & K1) & _). split; [exact K1|]. split; [exact K0|]. unfold client_round in *. destruct (h_response o x) as [k' a| |e s] eqn:Er.
  - assert (k' = k) as -> by (destruct (negb _); [discriminate E|]; destruct (negb _); [discriminate E|]; unfold response_head in E; destruct (maybe_unfold _ _); [|discriminate E]; destruct (negb _); [discriminate E|]; destruct (client_parse_head _ _ _ _) as [[p|]|e]; try discriminate E; now injection E).
    destruct (proj2 Ho _ _ _ Er) as (_ & Hz). rewrite <- (takeN_dropN k x), <- app_assoc, Hz. exact E.
  - discriminate E.
  - destruct e; try discriminate E. destruct h09; [|discriminate E]. unfold response_head in E. destruct (maybe_unfold _ _); [|discriminate E]. destruct (negb _); [discriminate E|]. destruct (client_parse_head _ _ _ _) as [[p|]|e]; try discriminate E. injection E as <- _. lia.
Qed.
Lemma pr_step f o method h09 n cb x : parse_response (S f) o method h09 n cb x =
  match client_round o method h09 x with
  | RdStop r => (rev cb, shift n r)
  | RdInterim k i => match dropN k x with [] => (rev (i :: cb), PRet (PMore (n + k))) | x' => parse_response f o method h09 (n + k) (i :: cb) x' end
  end.
Proof. reflexivity. Qed.
Lemma pr_stream o method h09 y : hp_ok o -> forall f x is k, (length x < f)%nat -> parse_response f o method h09 0 [] x = (is, PRet (PMore k)) -> dropN k x ++ y <> [] ->
  forall f', (length (x ++ y) < f')%nat -> parse_response f' o method h09 0 [] (x ++ y) = 
    (is ++ fst (parse_response f' o method h09 0 [] (dropN k x ++ y)), shift k (snd (parse_response f' o method h09 0 [] (dropN k x ++ y)))).
Proof.
  intros Ho. induction f as [|f IH]; intros x is k L E Hy f' L'; [lia|]. cbn [parse_response] in E. destruct (client_round o method h09 x) as [r|j i] eqn:Er.
  - injection E as <- E. rewrite shift_0 in E. subst r. pose proof (round_spec o method h09 x Ho) as R. rewrite Er in R. destruct R as (-> & _). rewrite dropN_0. cbn [rev app]. rewrite shift_0. now destruct (parse_response f' _ _ _ _ _ _).
  - destruct (round_more _ _ _ _ y _ _ Ho Er) as (J1 & J0 & Er'). destruct f' as [|f']; [lia|].
    assert (x <> []) as Nx by (intros ->; rewrite lenN_nil in J1; lia). pose proof (dropN_shorter j x J0 Nx) as Lj.
    assert (forall z, (length z < length (x ++ y))%nat -> parse_response (S f') o method h09 0 [] z = parse_response f' o method h09 0 [] z) as Fu by (intros z Lz; apply pr_fuel; [exact Ho|lia|lia]).
    rewrite (pr_step f' o method h09 0 [] (x ++ y)), Er'. rewrite dropN_app_le by exact J1. destruct (dropN j x) as [|b x'] eqn:Ed.
    + injection E as <- <-. rewrite N.add_0_l in *. rewrite Ed in *. cbn [app] in *. destruct y as [|c y]; [contradiction|]. rewrite pr_shift, Fu; [reflexivity|]. rewrite app_length. destruct x; [congruence|]. cbn [length]. lia.
    + rewrite pr_shift in E. destruct (parse_response f o method h09 0 [] (b :: x')) as [is' r'] eqn:E'. cbn [fst snd] in E. injection E as <- E. destruct r' as [[k'|k' m'|(e' & k')]| |]; try discriminate E. injection E as <-. rewrite N.add_0_l in *.
      assert (dropN (j + k') x = dropN k' (b :: x')) as Ek by (rewrite <- Ed, dropN_dropN; f_equal; lia). rewrite Ek in *. cbn [app]. change (b :: x' ++ y) with ((b :: x') ++ y).
      rewrite pr_shift. rewrite (IH (b :: x') is' k'); [|lia|exact E'|exact Hy|rewrite app_length in *; lia]. cbn [fst snd rev app]. rewrite shift_shift.
      rewrite Fu; [reflexivity|]. rewrite !app_length. assert (length (dropN k' (b :: x')) <= length (b :: x'))%nat as Q by apply dropN_le. cbn [length] in *. lia.
Qed.
(* What the callback is told and what is found does not depend on how the bytes
   are cut: a call that asks for more and a call with what is left and what comes
   then are together one call with all of it. *)
Theorem C66_cut_anywhere : forall o method h09 x y is k is' r, hp_ok o ->
  client_call o method h09 x = (is, PRet (PMore k)) -> dropN k x ++ y <> [] -> client_call o method h09 (dropN k x ++ y) = (is', r) ->
  client_call o method h09 (x ++ y) = (is ++ is', shift k r).
Proof.
  intros o method h09 x y is k is' r Ho E Hy E'. unfold client_call in *. rewrite (pr_stream o method h09 y Ho _ x is k (Nat.lt_succ_diag_r _) E Hy) by lia.
  rewrite (pr_fuel o method h09 Ho _ (S (length (x ++ y)))) in E'; [rewrite E'; reflexivity|lia|].
  rewrite !app_length. pose proof (dropN_le k x). lia.
Qed.

(* ---- The responses that a client hands out ---- *)
Lemma client_done c o me h09 x k m : c_server c = false -> parses_with c o -> hp_ok o -> c_parse c me h09 x = PDone k m ->
  exists heads is w y, x = concat heads ++ w ++ y /\ Forall2 (interim_head o) heads is /\ k = lenN (concat heads ++ w) /\
    (final_head o me w m (framing_of (in_decode m)) \/ h09 = true /\ bare_head o me w m (framing_of (in_decode m))).
Proof.
  intros Hs U Ho E. rewrite U, Hs in E. unfold role_parse, settle in E. destruct (client_call o me h09 x) as [is r] eqn:Ec. cbn [snd] in E. destruct r as [r| |]; [subst r|discriminate|discriminate].
  destruct (C66_client_call _ _ _ _ _ _ Ho Ec) as (heads & x' & -> & F & w & y & -> & -> & f & <- & H). exists heads, is, w, y. auto.
Qed.
Lemma client_bounded c o : c_server c = false -> parses_with c o -> hp_ok o -> parser_bounded c.
Proof.
  intros Hs U Ho me h09 x. rewrite U, Hs. unfold role_parse, settle. destruct (client_call o me h09 x) as [is r] eqn:Ec. cbn [snd]. destruct r as [r| |]; [|exact Logic.I|exact Logic.I].
  destruct (C66_client_call _ _ _ _ _ _ Ho Ec) as (heads & x' & -> & F & H). destruct r as [k|k m|(e & k)]; [| |exact Logic.I].
  - destruct H as (-> & _). rewrite lenN_app. lia.
  - destruct H as (w & y & -> & -> & _). rewrite !lenN_app. lia.
Qed.
Lemma skipped_interim c o sk : c_server c = false -> parses_with c o -> hp_ok o -> skipped c sk -> exists heads is, sk = concat heads /\ Forall2 (interim_head o) heads is.
Proof.
  intros Hs U Ho K. induction K as [|me h09 x n a K (heads & is & -> & F) E L]; [exists [], []; split; [reflexivity|constructor]|].
  rewrite U, Hs in E. unfold role_parse, settle in E. destruct (client_call o me h09 x) as [js r] eqn:Ec. cbn [snd] in E. destruct r as [r| |]; [subst r|discriminate|discriminate].
  destruct (C66_client_call _ _ _ _ _ _ Ho Ec) as (heads' & x' & -> & F' & -> & _). rewrite take_own. exists (heads ++ heads'), (is ++ js). rewrite concat_app. split; [reflexivity|]. now apply Forall2_app.
Qed.
(* What a head says of the message is the same for all heads that say the same. *)
Lemma final_same o me me' w w' m f f' : final_head o me w m f -> final_head o me' w' m f' -> final_head o me' w m f'.
Proof.
  intros (a & lines & A1 & A0 & A2 & A3 & A4 & A5 & _) (a' & lines' & _ & _ & _ & B3 & B4 & B5 & B6). exists a, lines. do 6 (split; [assumption|]).
  assert (a_minor1 a' = a_minor1 a) as <- by (rewrite A4 in B4; destruct (a_minor1 a), (a_minor1 a'); congruence). rewrite <- A3, B3.
  unfold te_values, cl_lines in *. rewrite <- !B5, !A5 in B6. exact B6.
Qed.
Lemma head_kind o me me' w w' m f f' : final_head o me w m f -> bare_head o me' w' m f' -> False.
Proof. intros (a & lines & _ & _ & _ & _ & A & _) (_ & _ & _ & V & _). rewrite V in A. destruct (a_minor1 a); discriminate. Qed.
Lemma bare_same o me me' w w' m f f' : bare_head o me w m f -> bare_head o me' w' m f' -> bare_head o me' w m f'.
Proof. intros (A1 & A2 & A3) (B1 & B2 & B3). split; [exact A1|]. split; [exact A2|exact B3]. Qed.

Definition placed (l : list levent) (n : nat) (m : inmsg) : Prop := exists a b, l = a ++ LIn m :: b /\ length (received a) = n.
Lemma placed_more l e n m : placed l n m -> placed (l ++ [e]) n m.
Proof. intros (a & b & -> & H). exists a, (b ++ [e]). rewrite <- app_assoc. auto. Qed.
Lemma received_step l e : inbound (l ++ [e]) = inbound_step (inbound l) e.
Proof. unfold inbound. rewrite fold_left_app. reflexivity. Qed.
Lemma received_placed l : (forall n g, nth_error (received l) n = Some g -> placed l n (msg_head g)) /\ (forall g, receiving l = Some g -> placed l (length (received l)) (msg_head g)).
Proof.
  induction l as [|e l (IH1 & IH2)] using rev_ind; [split; [intros [|n] g; discriminate|discriminate]|].
  unfold received, receiving in *. rewrite received_step. destruct (inbound l) as [done cur] eqn:El. cbn [fst snd] in *.
  assert ((forall n g, nth_error done n = Some g -> placed (l ++ [e]) n (msg_head g)) /\ forall g, cur = Some g -> placed (l ++ [e]) (length done) (msg_head g)) as (Q1 & Q2) by (split; intros; apply placed_more; auto).
  destruct e; cbn [inbound_step fst snd]; try (split; assumption).
  - split; [exact Q1|]. intros g E. injection E as <-. cbn [msg_head]. exists l, []. split; [reflexivity|]. unfold received. now rewrite El.
  - destruct cur as [g0|]; [|split; assumption]. cbn [fst snd]. split; [exact Q1|]. intros g E. injection E as <-. cbn [msg_head]. now apply Q2.
  - destruct cur as [g0|]; [|split; assumption]. cbn [fst snd]. split; [exact Q1|]. intros g E. injection E as <-. cbn [msg_head]. now apply Q2.
  - destruct cur as [g0|]; [|split; assumption]. cbn [fst snd]. split; [|discriminate]. intros n g E. destruct (Nat.lt_ge_cases n (length done)) as [L|L].
    + rewrite nth_error_app1 in E by exact L. now apply Q1.
    + rewrite nth_error_app2 in E by exact L. destruct (n - length done)%nat as [|k] eqn:En; [|destruct k; discriminate E]. cbn in E. injection E as <-. replace n with (length done) by lia. now apply Q2.
Qed.
Lemma Forall2_nth {A C} (P : A -> C -> Prop) l l' : Forall2 P l l' -> forall n x y, nth_error l n = Some x -> nth_error l' n = Some y -> P x y.
Proof. induction 1 as [|a b l l' Hp F IH]; intros [|n] x y E E'; try discriminate; [cbn in E, E'; congruence|]. exact (IH n x y E E'). Qed.

(* What a client hands out are the responses that it was sent: each response is
   interim responses, a head and the body that the status, the lines of the head
   and the method of the request call for; in the order in which they came, without
   a gap. *)
Theorem C66_responses : forall c o h09 flat wmax evs ms, c_server c = false -> parses_with c o -> hp_ok o -> let l := history c h09 flat wmax evs ms in ~ head_failed l ->
  exists wires rest, data_of evs = concat wires ++ rest /\ length wires = length (received l) /\
    (forall n w g, nth_error wires n = Some w -> nth_error (received l) n = Some g ->
       exists a b, l = a ++ LIn (msg_head g) :: b /\ length (received a) = n /\ response_wire c o (h09 && nothing_in a) (last_out a) w g) /\
    match receiving l with
    | None => True
    | Some g => exists a b heads is head f part more, l = a ++ LIn (msg_head g) :: b /\ length (received a) = length wires /\
        rest = concat heads ++ head ++ part ++ more /\ Forall2 (interim_head o) heads is /\
        (final_head o (last_out a) head (msg_head g) f \/ (h09 && nothing_in a)%bool = true /\ bare_head o (last_out a) head (msg_head g) f) /\
        f = framing_of (in_decode (msg_head g)) /\ body_begun c (in_decode (msg_head g)) part (msg_data g)
    end.
Proof.
  intros c o h09 flat wmax evs ms Hs U Ho l Hf. pose proof (client_bounded c o Hs U Ho) as R.
  destruct (C65_received c h09 flat wmax evs ms R) as (wires & rest & E & F & G). change (history c h09 flat wmax evs ms) with l in F, G.
  assert (forall head m n, head_wire c head m -> placed l n m -> exists a b heads is w, l = a ++ LIn m :: b /\ length (received a) = n /\ head = concat heads ++ w /\ Forall2 (interim_head o) heads is /\
    (final_head o (last_out a) w m (framing_of (in_decode m)) \/ (h09 && nothing_in a)%bool = true /\ bare_head o (last_out a) w m (framing_of (in_decode m)))) as T.
  { intros head m n (me & h9 & z & Eh) (a & b & El & En). assert (~ head_failed a) as Ha by (intros (v & Hv); apply Hf; exists v; rewrite El; apply in_or_app; now left).
    destruct (C63_response_parsed c h09 flat wmax evs ms a m b Hs El Ha) as (buf & k & Eb).
    destruct (client_done c o _ _ _ _ _ Hs U Ho Eh) as (heads & is & w & y & E1 & E2 & E3 & E4). destruct (client_done c o _ _ _ _ _ Hs U Ho Eb) as (hs' & is' & w' & y' & _ & _ & _ & E5).
    exists a, b, heads, is, w. do 2 (split; [assumption|]). rewrite app_assoc in E1. split; [|split; [exact E2|]].
    - apply (f_equal (takeN (lenN head))) in E1. rewrite take_own in E1. rewrite E1 at 1. rewrite E3. apply take_own.
    - destruct E4 as [E4|(_ & E4)], E5 as [E5|(H5 & E5)].
      + left. eapply final_same; eassumption.
      + destruct (head_kind _ _ _ _ _ _ _ _ E4 E5).
      + destruct (head_kind _ _ _ _ _ _ _ _ E5 E4).
      + right. split; [exact H5|]. eapply bare_same; eassumption. }
  destruct (received_placed l) as (P1 & P2).
  exists wires, rest. split; [exact E|]. split; [eapply Forall2_length; exact F|]. split.
  - intros n w g Ew Eg. pose proof (Forall2_nth _ _ _ F _ _ _ Ew Eg) as (sk & head & body & -> & K & H & Hb). destruct (T head _ n H (P1 n g Eg)) as (a & b & heads & is & w & El & En & -> & Fi & Q).
    destruct (skipped_interim c o sk Hs U Ho K) as (heads0 & is0 & -> & F0). exists a, b. do 2 (split; [assumption|]). exists (heads0 ++ heads), (is0 ++ is), w, body, (framing_of (in_decode (msg_head g))).
    rewrite concat_app, <- !app_assoc. split; [reflexivity|]. split; [now apply Forall2_app|]. split; [exact Q|]. split; [unfold said_as, framing_of; destruct (N.eqb_spec (in_decode (msg_head g)) DL_CHUNKED); [assumption|]; destruct (N.eqb_spec (in_decode (msg_head g)) DL_CLOSE_DELIMITED); auto|]. now apply body_framed.
  - destruct (receiving l) as [g|] eqn:Eg; [|exact Logic.I]. destruct G as (sk & head & part & more & -> & K & H & _ & Hb). destruct (T head _ _ H (P2 g eq_refl)) as (a & b & heads & is & w & El & En & -> & Fi & Q).
    destruct (skipped_interim c o sk Hs U Ho K) as (heads0 & is0 & -> & F0). exists a, b, (heads0 ++ heads), (is0 ++ is), w, (framing_of (in_decode (msg_head g))), part, more.
    rewrite concat_app, <- !app_assoc. split; [exact El|]. split; [rewrite En; symmetry; eapply Forall2_length; exact F|]. split; [reflexivity|]. split; [now apply Forall2_app|]. split; [exact Q|]. split; [reflexivity|exact Hb].
Qed.

(* ---- Panics ---- *)
Lemma reserves_iff n : reserves n = true <-> n <= 24576.
Proof.
  unfold reserves. rewrite N.leb_le. split; intros H.
  - destruct (N.le_gt_cases n 24576) as [|L]; [assumption|]. assert (24577 / 3 <= n / 3) as Q by (apply N.div_le_mono; lia). change (24577 / 3) with 8192 in Q. lia.
  - assert (n / 3 <= 24576 / 3) as Q by (apply N.div_le_mono; lia). change (24576 / 3) with 8192 in Q. lia.
Qed.
(* With room for at most 24576 lines (the default is 100), neither parser panics. *)
Theorem C66_no_panic : forall o max method h09 x, hp_ok o -> hp_room o max -> max <= 24576 ->
  (exists r, parse_request o x = PRet r) /\ (exists is r, client_call o method h09 x = (is, PRet r)).
Proof.
  intros o max method h09 x Ho (Hq & Ha) Hm. split.
  - unfold parse_request. destruct (h_request o x) as [n q| |e s] eqn:E; [|eauto|destruct e; eauto]. destruct (_ <? _); [eauto|]. destruct (negb _); [eauto|]. destruct (negb _); [eauto|]. destruct (negb _); [eauto|].
    specialize (Hq _ _ _ E). rewrite (proj2 (reserves_iff _)) by lia. cbn [negb]. destruct (server_parse _ _ _); eauto.
  - unfold client_call. assert (length x < S (length x))%nat as L by lia. revert L. generalize 0 as n, (@nil interim) as cb. generalize (S (length x)) as f. intros f. revert x. induction f as [|f IH]; intros x n cb L; [lia|]. cbn [parse_response].
    pose proof (round_spec o method h09 x Ho) as R. assert (client_round o method h09 x <> RdStop PPanic /\ client_round o method h09 x <> RdStop PFuel) as (N1 & N2).
    { assert (forall k ver st lines, lenN lines <= 24576 -> response_head o method k ver st lines <> RdStop PPanic /\ response_head o method k ver st lines <> RdStop PFuel) as Q.
      { intros k ver st lines Hl. unfold response_head. destruct (maybe_ok o lines) as (ls & -> & _ & Hls). rewrite (proj2 (reserves_iff _)) by lia. cbn [negb]. destruct (client_parse_head _ _ _ _) as [[p|]|e]; split; discriminate. }
      unfold client_round. destruct (h_response o x) as [k a| |e s] eqn:E; [|split; discriminate|].
      - destruct (negb _); [split; discriminate|]. destruct (negb _); [split; discriminate|]. apply Q. specialize (Ha _ _ _ E). lia.
      - destruct e; try (split; discriminate). destruct h09; [|split; discriminate]. apply Q. rewrite lenN_nil. lia. }
    destruct (client_round o method h09 x) as [r|k i].
    + destruct r as [[k|k m|(e & k)]| |]; cbn [shift]; [eauto|eauto|eauto|congruence|congruence].
    + destruct R as ((K0 & K1) & _). destruct (dropN k x) as [|b x'] eqn:Ed; [eauto|]. assert (x <> []) as Nx by (intros ->; rewrite lenN_nil in K1; lia). pose proof (dropN_shorter k x K0 Nx) as H. rewrite Ed in H. apply IH. lia.
Qed.

(* ---- A parser that keeps the promises ---- *)
(* As httparse is documented, as far as the examples need it: the head ends with
   the first empty line; METHOD SP TARGET SP VERSION, VERSION SP CODE ... *)
Definition split1 (s : bytes) : bytes * bytes := (take_while (fun b => negb (b =? 32)) s, dropN 1 (drop_while (fun b => negb (b =? 32)) s)).
Definition is_v11 (v : bytes) : option bool := if beq v (B "HTTP/1.1") then Some true else if beq v (B "HTTP/1.0") then Some false else None.
Definition ref_request (max : N) (x : bytes) : hp_result hp_request :=
  match P_Read.find_end x with
  | None => HPartial
  | Some c =>
      match take_line (takeN c x) with
      | None => HError HENewLine false
      | Some (l, rest) =>
          let (me, r) := split1 (strip_cr l) in let (path, v) := split1 r in
          match is_v11 v, parse_block rest max with
          | None, _ => HError HEVersion true
          | _, None => HError HETooMany true
          | Some v11, Some lines => HComplete c (mkQ me path v11 lines)
          end
      end
  end.
Definition ref_response (max : N) (x : bytes) : hp_result hp_response :=
  match P_Read.find_end x with
  | None => if beq (takeN 5 x) (takeN (lenN (takeN 5 x)) (B "HTTP/")) then HPartial else HError HEVersion false
  | Some c =>
      match take_line (takeN c x) with
      | None => HError HENewLine false
      | Some (l, rest) =>
          let (v, r) := split1 (strip_cr l) in
          match is_v11 v, parse_block rest max with
          | None, _ => HError HEVersion true
          | _, None => HError HETooMany true
          | Some v11, Some lines => HComplete c (mkA v11 (dec_num (takeN 3 r)) lines)
          end
      end
  end.
Definition ref_hp (max : N) (fold : bool) : hparse := mkHP (ref_request max) (ref_response max) (fun _ => true) (fun m => forallb is_tchar m) fold.

Lemma find_end_own l : forall c, P_Read.find_end l = Some c -> 2 <= c <= lenN l /\ forall z, P_Read.find_end (takeN c l ++ z) = Some c.
Proof.
  induction l as [|b r IH]; intros c E; [discriminate|]. cbn [P_Read.find_end] in E. rewrite lenN_cons.
  destruct ((b =? LF) && beq (takeN 1 r) [LF])%bool eqn:E1.
  - injection E as <-. apply andb_prop in E1. destruct E1 as (E1 & E2). apply N.eqb_eq in E1. apply beq_eq in E2. subst b. destruct r as [|d r]; [discriminate|]. cbn in E2. injection E2 as ->. split; [rewrite lenN_cons; lia|]. intros z. rewrite (take_own [LF; LF] r : takeN 2 (LF :: LF :: r) = _). cbn [app P_Read.find_end]. rewrite (take_own [LF] z : takeN 1 (LF :: z) = _). reflexivity.
  - destruct ((b =? LF) && beq (takeN 2 r) [CR; LF])%bool eqn:E2.
    + injection E as <-. apply andb_prop in E2. destruct E2 as (E2 & E3). apply N.eqb_eq in E2. apply beq_eq in E3. subst b. destruct r as [|d [|d' r]]; [discriminate|discriminate|]. cbn in E3. injection E3 as -> ->. split; [rewrite !lenN_cons; lia|]. intros z. rewrite (take_own [LF; CR; LF] r : takeN 3 (LF :: CR :: LF :: r) = _). cbn [app P_Read.find_end]. rewrite (take_own [CR] (LF :: z) : takeN 1 (CR :: LF :: z) = _). rewrite (take_own [CR; LF] z : takeN 2 (CR :: LF :: z) = _). reflexivity.
    + destruct (P_Read.find_end r) as [k|] eqn:Ek; [|discriminate]. injection E as <-. destruct (IH k eq_refl) as (L & H). split; [lia|]. intros z.
      assert (takeN (k + 1) (b :: r) = b :: takeN k r) as ->. { change (b :: r) with ([b] ++ r). rewrite takeN_app_ge by (change (lenN [b]) with 1; lia). change (lenN [b]) with 1. now replace (k + 1 - 1) with k by lia. }
      cbn [app P_Read.find_end]. rewrite H.
      assert (forall n, n <= k -> takeN n (takeN k r ++ z) = takeN n r) as Q. { intros n Hn. rewrite takeN_app_le by (rewrite takeN_len; lia). rewrite <- (takeN_dropN k r) at 2. rewrite takeN_app_le by (rewrite takeN_len; lia). reflexivity. }
      rewrite !Q by lia. rewrite E1, E2. reflexivity.
Qed.
Lemma take_own' {A} n (x z : list A) : n <= lenN x -> takeN n (takeN n x ++ z) = takeN n x.
Proof. intros H. assert (lenN (takeN n x) = n) as E by (rewrite takeN_len; lia). rewrite <- E at 1. apply take_own. Qed.
Lemma ref_ok max fold : hp_ok (ref_hp max fold).
Proof.
  split.
  - intros x n q E. cbn [ref_hp h_request] in *. unfold ref_request in *. destruct (P_Read.find_end x) as [c|] eqn:Ef; [|discriminate]. destruct (find_end_own _ _ Ef) as (L & H).
    assert (c = n) as <- by (destruct (take_line _) as [(l & rest)|]; [|discriminate]; destruct (split1 _) as [me r], (split1 r) as [path v]; destruct (is_v11 v); [|discriminate]; destruct (parse_block _ _); [|discriminate]; congruence).
    split; [lia|]. intros z. rewrite H, take_own' by lia. exact E.
  - intros x n q E. cbn [ref_hp h_response] in *. unfold ref_response in *. destruct (P_Read.find_end x) as [c|] eqn:Ef; [|destruct (beq _ _); discriminate]. destruct (find_end_own _ _ Ef) as (L & H).
    assert (c = n) as <- by (destruct (take_line _) as [(l & rest)|]; [|discriminate]; destruct (split1 _) as [v r]; destruct (is_v11 v); [|discriminate]; destruct (parse_block _ _); [|discriminate]; congruence).
    split; [lia|]. intros z. rewrite H, take_own' by lia. exact E.
Qed.
Lemma block_room fuel : forall s n l, parse_block_f fuel s n = Some l -> lenN l <= n.
Proof.
  induction fuel as [|fuel IH]; intros s n l E; [discriminate|]. cbn [parse_block_f] in E. destruct (take_line s) as [(a & r)|]; [|discriminate]. destruct (strip_cr a) as [|b l']; [injection E as <-; apply N.le_0_l|].
  destruct (N.eqb_spec n 0) as [|Hn]; [discriminate|]. destruct (parse_line _) as [h|]; [|discriminate]. destruct (parse_block_f fuel r (n - 1)) as [hs|] eqn:Eh; [|discriminate]. injection E as <-. apply IH in Eh. rewrite lenN_cons. lia.
Qed.
Lemma ref_room max fold : hp_room (ref_hp max fold) max.
Proof.
  split; intros x n q E; cbn [ref_hp h_request h_response] in E; unfold ref_request, ref_response in E.
  - destruct (P_Read.find_end x) as [c|]; [|discriminate]. destruct (take_line _) as [(l & rest)|]; [|discriminate]. destruct (split1 _) as [me r], (split1 r) as [path v]. destruct (is_v11 v); [|discriminate]. destruct (parse_block _ _) eqn:Ep; [|discriminate]. injection E as _ <-. exact (block_room _ _ _ _ Ep).
  - destruct (P_Read.find_end x) as [c|]; [|destruct (beq _ _); discriminate]. destruct (take_line _) as [(l & rest)|]; [|discriminate]. destruct (split1 _) as [v r]. destruct (is_v11 v); [|discriminate]. destruct (parse_block _ _) eqn:Ep; [|discriminate]. injection E as _ <-. exact (block_room _ _ _ _ Ep).
Qed.

(* ---- Panics with a large max_headers ---- *)
Definition C66_no_panic_ever : Prop := forall o max x, hp_ok o -> hp_room o max -> exists r, parse_request o x = PRet r.
Definition many_lines : bytes := B "GET / HTTP/1.1" ++ CRLF ++ concat (repeat (B "a:" ++ CRLF) (N.to_nat 24577)) ++ CRLF.
Lemma many_panic : parse_request (ref_hp 30000 false) many_lines = PPanic.
Proof. vm_compute. reflexivity. Qed.
Theorem C66_no_panic_ever_refuted : ~ C66_no_panic_ever.
Proof. intros H. destruct (H (ref_hp 30000 false) 30000 many_lines (ref_ok _ _) (ref_room _ _)) as (r & E). rewrite many_panic in E. discriminate E. Qed.

(* ---- Examples ---- *)
Definition ref_cfg (server : bool) : cfg :=
  mkCfg server (role_parse server (ref_hp 100 true)) (fun b n => match parse_block b n with Some ls => Some (fold_left (fun h l => hm_append h (fst l) (snd l)) ls []) | None => None end) (fun _ => Some (B "OK")) (B "now") false false None 8192 false true false None.
Lemma ref_parses server : parses_with (ref_cfg server) (ref_hp 100 true).
Proof. intros me h09 x. destruct server; reflexivity. Qed.
Definition text_lines (l : list bytes) : bytes := concat (map (fun x => x ++ CRLF) l).
Definition two_requests : bytes :=
  text_lines [B "PUT /a HTTP/1.1"; B "Host: h"; B "Content-Length: 3"; []] ++ B "abc" ++
  text_lines [B "POST /b HTTP/1.1"; B "Transfer-Encoding: chunked"; []; B "2"; B "de"; B "0"; B "T: 1"; []] ++
  text_lines [B "GET / HTTP/1.1"; []].
Example C66_requests_ex : let l := history (ref_cfg true) false true 8192 (cut 100 7 two_requests) (steps 400 (answer ok200)) in
  map (fun g => (in_method (msg_head g), msg_data g, msg_trailers g)) (received l) =
    [(Some (B "PUT"), B "abc", None); (Some (B "POST"), B "de", Some [(B "t", [B "1"])]); (Some (B "GET"), [], None)].
Proof. vm_compute. reflexivity. Qed.
Example C66_same_ex : map msg_head (received (history (ref_cfg true) false true 8192 (cut 100 7 two_requests) (steps 400 (answer ok200)))) =
  map msg_head (received (history (ref_cfg true) false false 8192 (cut 100 31 two_requests) (steps 100 (answer ok200)))) /\
  data_of (cut 100 7 two_requests) = data_of (cut 100 31 two_requests).
Proof. split; vm_compute; reflexivity. Qed.
Definition two_responses : bytes :=
  text_lines [B "HTTP/1.1 103 Early"; B "Link: x"; []; B "HTTP/1.1 100 Continue"; []; B "HTTP/1.1 200 OK"; B "Content-Length: 2"; []] ++ B "ok".
Example C66_responses_ex : let l := history (ref_cfg false) false true 8192 (EvPending :: cut 100 7 two_responses) (Env (ESender SGive) :: Env (ESender SPush) :: steps 200 (ask get)) in
  map (fun g => (in_status (msg_head g), msg_data g)) (received l) = [(200, B "ok")] /\ ~ head_failed l.
Proof.
  set (hh := history _ _ _ _ _ _). vm_compute in hh. subst hh. split; [reflexivity|]. intros (b & F). repeat (destruct F as [F|F]; [discriminate F|]). destruct F.
Qed.
Example C66_client_call_ex :
  map i_status (fst (client_call (ref_hp 100 true) (Some (B "GET")) false two_responses)) = [103; 100] /\
  (exists k m, snd (client_call (ref_hp 100 true) (Some (B "GET")) false two_responses) = PRet (PDone k m) /\ in_status m = 200) /\
  client_call (ref_hp 100 true) (Some (B "GET")) false (takeN 50 two_responses) =
    ([mkInterim HTTP11 103 [(B "link", [B "x"])]], PRet (PMore 31)).
Proof. split; [vm_compute; reflexivity|]. split; [eexists _, _; split; vm_compute; reflexivity|]. vm_compute. reflexivity. Qed.
Example C66_cut_ex : exists is k is' r, client_call (ref_hp 100 true) (Some (B "GET")) false (takeN 50 two_responses) = (is, PRet (PMore k)) /\
  dropN k (takeN 50 two_responses) ++ dropN 50 two_responses <> [] /\
  client_call (ref_hp 100 true) (Some (B "GET")) false (dropN k (takeN 50 two_responses) ++ dropN 50 two_responses) = (is', r) /\ (0 < k) /\ length is' = 1%nat.
Proof. eexists _, _, _, _. split; [vm_compute; reflexivity|]. split; [vm_compute; discriminate|]. split; [vm_compute; reflexivity|]. split; [lia|reflexivity]. Qed.
(* HTTP/0.9: no head at all *)
Example C66_bare_ex : exists m, client_call (ref_hp 100 true) (Some (B "GET")) true (B "hello") = ([], PRet (PDone 0 m)) /\ in_version m = HTTP09 /\ in_decode m = DL_CLOSE_DELIMITED.
Proof. eexists. split; [vm_compute; reflexivity|]. split; reflexivity. Qed.
Example C66_no_panic_ex : hp_ok (ref_hp 100 true) /\ hp_room (ref_hp 100 true) 100.
Proof. split; [apply ref_ok|apply ref_room]. Qed.

Print Assumptions C66_request_parser.
Print Assumptions C66_requests.
Print Assumptions C66_same_requests.
Print Assumptions C66_client_call.
Print Assumptions C66_cut_anywhere.
Print Assumptions C66_responses.
Print Assumptions C66_no_panic.
Print Assumptions C66_no_panic_ever_refuted.
