(* Theorems about message heads for HTTP/2: C41. *)
From Verif Require Import Base M_HeaderMap M_Httparse M_Headers M_RoleEncode M_H2Headers S_Send S_Framing L_Headers L_Encode2.

(* Names of header fields as a HeaderMap stores them *)
Definition field_name (n : bytes) : Prop := n <> [] /\ Forall (fun b => token_char b = true) n /\ lenN n <= 65535.
(* The values of Connection, and what the first of them names *)
Definition named (h : hmap) (n : bytes) : Prop :=
  exists v r, hm_get_all h (B "connection") = v :: r /\ text v /\ list_member v n.
Definition forbidden : list bytes := [B "connection"; B "keep-alive"; B "proxy-connection"; B "transfer-encoding"; B "upgrade"].

Lemma get_none h n : hm_get h n = None -> hm_get_all h n = [].
Proof. unfold hm_get. destruct (hm_get_all h n); [reflexivity|discriminate]. Qed.
Lemma token_lower s : Forall (fun b => token_char b = true) s -> lower s = s /\ forallb is_tchar s = true /\ ~ In 44 s /\ no_edge_blank s.
Proof.
  intros H. split; [|split; [|split]].
  - induction H as [|b s Hb _ IH]; [reflexivity|]. unfold lower in *. cbn. rewrite IH. f_equal. apply (token_tchar b Hb).
  - induction H as [|b s Hb _ IH]; [reflexivity|]. cbn. rewrite IH, andb_true_r. apply (token_tchar b Hb).
  - rewrite Forall_forall in H. intros F. specialize (H _ F). discriminate.
  - rewrite Forall_forall in H. split; intros b r ->.
    + specialize (H b (or_introl eq_refl)). destruct (is_blank b) eqn:E; [|reflexivity]. apply is_blank_iff in E. destruct E as [-> | ->]; discriminate.
    + assert (In b (r ++ [b])) as Hi by (apply in_or_app; right; left; reflexivity). specialize (H b Hi). destruct (is_blank b) eqn:E; [|reflexivity]. apply is_blank_iff in E. destruct E as [-> | ->]; discriminate.
Qed.
Lemma tchar_lower b : is_tchar (to_lower b) = is_tchar b.
Proof.
  unfold to_lower. destruct ((65 <=? b) && (b <=? 90)) eqn:E; [|reflexivity]. apply andb_prop in E. destruct E as [E1 E2]. apply N.leb_le in E1, E2.
  unfold is_tchar. rewrite (proj2 (N.leb_le 65 b)), (proj2 (N.leb_le b 90)) by lia. rewrite (proj2 (N.leb_le 97 (b + 32))), (proj2 (N.leb_le (b + 32) 122)) by lia. cbn. rewrite !orb_true_r. reflexivity.
Qed.
Lemma header_name_is n x : field_name n -> (header_name x = Some n <-> eq_ic x n = true).
Proof.
  intros (N0 & Ht & Hl). destruct (token_lower n Ht) as (L1 & L2 & _). rewrite eq_ic_eq, L1. split.
  - unfold header_name. destruct x as [|b x]; [discriminate|]. destruct (_ && _); [|discriminate]. intros E. now inversion E.
  - intros E. assert (forallb is_tchar x = true) as T.
    { rewrite <- L2, <- E. clear. induction x as [|b x IH]; [reflexivity|]. unfold lower in *. cbn. now rewrite IH, tchar_lower. }
    assert (lenN x <= 65535) as L.
    { rewrite <- E in Hl. unfold lenN, lower in *. now rewrite map_length in Hl. }
    unfold header_name. destruct x as [|b x]; [destruct N0; rewrite <- E; reflexivity|].
    rewrite T. apply N.leb_le in L. rewrite L. cbn [andb]. now rewrite E.
Qed.
Lemma fold_names n names : field_name n -> forall h,
  hm_get_all (fold_left (fun h name => hm_remove_str h (trim name)) names h) n =
  if existsb (fun x => eq_ic (trim x) n) names then [] else hm_get_all h n.
Proof.
  intros F. induction names as [|x names IH]; intros h; [reflexivity|]. cbn [fold_left existsb]. rewrite IH.
  destruct (existsb _ names); [rewrite orb_true_r; reflexivity|]. rewrite orb_false_r. unfold hm_remove_str.
  destruct (header_name (trim x)) as [m|] eqn:E.
  - rewrite hm_get_all_remove. destruct (beq m n) eqn:Em.
    + apply beq_eq in Em. subst m. apply header_name_is in E; [|exact F]. now rewrite E.
    + destruct (eq_ic (trim x) n) eqn:Ei; [|reflexivity]. apply header_name_is in Ei; [|exact F]. rewrite E in Ei. inversion Ei; subst. now rewrite beq_refl in Em.
  - destruct (eq_ic (trim x) n) eqn:Ei; [|reflexivity]. apply header_name_is in Ei; [|exact F]. congruence.
Qed.
Lemma fixed_names : Forall field_name (forbidden ++ [B "te"; B "content-length"; B "date"]).
Proof. repeat constructor; discriminate. Qed.
Lemma strip_spec k h n : field_name n ->
  hm_get_all (strip_connection_headers h k) n =
  if existsb (beq n) forbidden then []
  else if match hm_get h (B "connection") with Some v => connection_has v n | None => false end then []
  else if beq n (B "te") then
    match k with
    | KRequest => match hm_get h n with Some v => if beq v (B "trailers") then hm_get_all h n else [] | None => [] end
    | KResponse => []
    end
  else hm_get_all h n.
Proof.
  intros F. unfold strip_connection_headers.
  set (h1 := fold_left hm_remove CONNECTION_HEADERS h).
  assert (forall m, hm_get_all h1 m = if existsb (beq m) CONNECTION_HEADERS then [] else hm_get_all h m) as H1.
  { intros m. subst h1. unfold CONNECTION_HEADERS. cbn [fold_left existsb]. rewrite !hm_get_all_remove, !(beq_sym m).
    destruct (beq (B "upgrade") m), (beq (B "transfer-encoding") m), (beq (B "proxy-connection") m), (beq (B "keep-alive") m); reflexivity. }
  clearbody h1.
  set (h2 := match k with KRequest => _ | KResponse => _ end).
  assert (forall m, hm_get_all h2 m = if beq m (B "te") then
      match k with
      | KRequest => match hm_get h m with Some v => if beq v (B "trailers") then hm_get_all h m else [] | None => [] end
      | KResponse => [] end
     else hm_get_all h1 m) as H2.
  { intros m. subst h2. assert (hm_get_all h1 (B "te") = hm_get_all h (B "te")) as Ht by (rewrite H1; reflexivity).
    assert (hm_get h1 (B "te") = hm_get h (B "te")) as Hg by (unfold hm_get; now rewrite Ht).
    destruct (beq m (B "te")) eqn:Em.
    - apply beq_eq in Em. subst m. destruct k; [|rewrite hm_get_all_remove; reflexivity]. rewrite Hg.
      destruct (hm_get h (B "te")) as [v|] eqn:Eg; [|rewrite Ht; now apply get_none]. destruct (beq v (B "trailers")); [exact Ht|]. rewrite hm_get_all_remove. reflexivity.
    - rewrite beq_sym in Em. destruct k; [|rewrite hm_get_all_remove, Em; reflexivity].
      destruct (hm_get h1 (B "te")) as [v|]; [|reflexivity]. destruct (beq v (B "trailers")); [reflexivity|]. rewrite hm_get_all_remove, Em. reflexivity. }
  clearbody h2.
  assert (hm_get h2 (B "connection") = hm_get h (B "connection")) as Hc by (unfold hm_get; rewrite H2, H1; reflexivity).
  rewrite Hc. destruct (hm_get h (B "connection")) as [v|] eqn:Ev.
  - assert (hm_get_all (hm_remove h2 (B "connection")) n = if existsb (beq n) forbidden then [] else if beq n (B "te") then
      match k with
      | KRequest => match hm_get h n with Some v => if beq v (B "trailers") then hm_get_all h n else [] | None => [] end
      | KResponse => [] end
     else hm_get_all h n) as H3.
    { rewrite hm_get_all_remove. unfold forbidden. cbn [existsb]. rewrite (beq_sym n (B "connection")). destruct (beq (B "connection") n); [reflexivity|]. cbn [orb].
      rewrite H2. destruct (beq n (B "te")) eqn:Et; [apply beq_eq in Et; subst n; reflexivity|]. rewrite H1. unfold CONNECTION_HEADERS. reflexivity. }
    unfold connection_has. destruct (to_str v) as [s|]; [|rewrite H3; destruct (existsb (beq n) forbidden); reflexivity].
    rewrite fold_names by exact F. rewrite H3. destruct (existsb (fun x => eq_ic (trim x) n) (split_comma s)), (existsb (beq n) forbidden); reflexivity.
  - rewrite H2. unfold forbidden. cbn [existsb]. rewrite (beq_sym n (B "connection")). destruct (beq (B "connection") n) eqn:Ec.
    + apply beq_eq in Ec. subst n. cbn. rewrite H1. cbn. now apply get_none.
    + cbn [orb]. destruct (beq n (B "te")) eqn:Et; [apply beq_eq in Et; subst n; reflexivity|]. rewrite H1. unfold CONNECTION_HEADERS. reflexivity.
Qed.

Lemma strip_te k h : hm_get_all (strip_connection_headers h k) (B "te") =
  if match hm_get h (B "connection") with Some v => connection_has v (B "te") | None => false end then []
  else match k with
    | KRequest => match hm_get h (B "te") with Some v => if beq v (B "trailers") then hm_get_all h (B "te") else [] | None => [] end
    | KResponse => []
    end.
Proof.
  pose proof fixed_names as Fx. rewrite Forall_forall in Fx. rewrite strip_spec by (apply Fx; cbn; auto 10).
  replace (existsb (beq (B "te")) forbidden) with false by reflexivity. rewrite beq_refl. reflexivity.
Qed.

(* What is removed, and that nothing else is *)
Theorem C41_stripped : forall k h,
  let h' := strip_connection_headers h k in
  (forall n, In n forbidden -> hm_get_all h' n = []) /\
  (k = KResponse -> hm_get_all h' (B "te") = []) /\
  (k = KRequest -> hm_get_all h' (B "te") = [] \/ exists r, hm_get_all h' (B "te") = B "trailers" :: r) /\
  (forall n, field_name n -> named h n -> hm_get_all h' n = []) /\
  (forall n, field_name n -> ~ In n forbidden -> n <> B "te" -> ~ named h n -> hm_get_all h' n = hm_get_all h n).
Proof.
  intros k h h'. pose proof fixed_names as Fx. rewrite Forall_forall in Fx. subst h'. split; [|split; [|split; [|split]]].
  - intros n Hi. rewrite strip_spec by (apply Fx, in_or_app; auto).
    assert (existsb (beq n) forbidden = true) as -> by (apply existsb_exists; exists n; rewrite beq_refl; auto). reflexivity.
  - intros ->. rewrite strip_te. destruct (match hm_get h (B "connection") with Some v => _ | None => _ end); reflexivity.
  - intros ->. rewrite strip_te. destruct (match hm_get h (B "connection") with Some v => _ | None => _ end); [auto|].
    unfold hm_get. destruct (hm_get_all h (B "te")) as [|v r] eqn:E; [left; reflexivity|]. destruct (beq v (B "trailers")) eqn:Ev; [|left; reflexivity].
    apply beq_eq in Ev. subst v. right. eexists. reflexivity.
  - intros n F (v & r & E & Ht & Hm). rewrite strip_spec by exact F. unfold hm_get at 1. rewrite E.
    destruct (token_lower n (proj1 (proj2 F))) as (L1 & _ & L3 & L4).
    rewrite (proj2 (connection_has_spec v n L4 L1 L3) (conj Ht Hm)). destruct (existsb _ _); reflexivity.
  - intros n F N1 N2 N3. rewrite strip_spec by exact F.
    assert (existsb (beq n) forbidden = false) as ->.
    { destruct (existsb (beq n) forbidden) eqn:E; [|reflexivity]. apply existsb_exists in E. destruct E as (m & Hm & E). apply beq_eq in E. subst m. contradiction. }
    assert (beq n (B "te") = false) as -> by (destruct (beq n (B "te")) eqn:E; [apply beq_eq in E; contradiction|reflexivity]).
    destruct (hm_get h (B "connection")) as [v|] eqn:Ev; [|reflexivity]. destruct (connection_has v n) eqn:Ec; [|reflexivity].
    destruct (token_lower n (proj1 (proj2 F))) as (L1 & _ & L3 & L4). apply (connection_has_spec v n L4 L1 L3) in Ec. destruct Ec as (Ht & Hm).
    destruct N3. unfold hm_get in Ev. destruct (hm_get_all h (B "connection")) as [|v' r] eqn:E; [discriminate|]. inversion Ev; subst v'. exists v, r. auto.
Qed.
(* With one line each of Connection and TE, as clients normally send them, the
   full statement *)
Theorem C41_single_lines : forall k h, (length (hm_get_all h (B "connection")) <= 1)%nat -> (length (hm_get_all h (B "te")) <= 1)%nat ->
  let h' := strip_connection_headers h k in
  (hm_get_all h' (B "te") = [] \/ (k = KRequest /\ hm_get_all h' (B "te") = [B "trailers"])) /\
  forall n v, field_name n -> In v (hm_get_all h (B "connection")) -> text v -> list_member v n -> hm_get_all h' n = [].
Proof.
  intros k h Hc Ht h'. subst h'. destruct (C41_stripped k h) as (A & A1 & A2 & A3 & _). split.
  - destruct k; [|left; auto]. destruct (A2 eq_refl) as [Q|(r & Q)]; [left; exact Q|]. right. split; [reflexivity|]. rewrite Q.
    rewrite strip_te in Q.
    destruct (match hm_get h (B "connection") with Some v => _ | None => _ end); [discriminate|].
    destruct (hm_get h (B "te")) as [v|]; [|discriminate]. destruct (beq v _); [|discriminate]. rewrite Q in Ht. destruct r; [reflexivity|cbn in Ht; lia].
  - intros n v F Hi Tv Hm. apply A3; [exact F|]. destruct (hm_get_all h (B "connection")) as [|v' r] eqn:E; [destruct Hi|].
    destruct r; [|cbn in Hc; lia]. destruct Hi as [->|[]]. exists v, []. auto.
Qed.
(* Finding: with more lines only the first is looked at; a Connection value with
   bytes outside ASCII text is removed without removing what it names *)
Theorem C41_repeated_lines_refuted :
  (exists h, hm_wf h /\ In (B "gzip") (hm_get_all (strip_connection_headers h KRequest) (B "te"))) /\
  (exists h v n, hm_wf h /\ In v (hm_get_all h (B "connection")) /\ text v /\ list_member v n /\ hm_get_all (strip_connection_headers h KResponse) n <> []) /\
  (exists h v n, hm_wf h /\ hm_get_all h (B "connection") = [v] /\ list_member v n /\ hm_get_all (strip_connection_headers h KResponse) n <> []).
Proof.
  split; [|split].
  - exists [(B "te", [B "trailers"; B "gzip"])]. split; [|cbn; auto]. split; repeat constructor; cbn; intuition discriminate.
  - exists [(B "connection", [B "close"; B "x-secret"]); (B "x-secret", [B "1"])], (B "x-secret"), (B "x-secret").
    split; [split; repeat constructor; cbn; intuition discriminate|]. split; [cbn; auto|]. split; [repeat (apply Forall_cons; [right; cbn; lia|]); apply Forall_nil|].
    split; [|discriminate]. exists [], [], (B "x-secret"), [], []. cbn. repeat split; auto; try constructor. intuition discriminate.
  - exists [(B "connection", [B "x-secret," ++ [233]]); (B "x-secret", [B "1"])], (B "x-secret," ++ [233]), (B "x-secret").
    split; [split; repeat constructor; cbn; intuition discriminate|]. split; [reflexivity|].
    split; [|discriminate]. exists [], [], (B "x-secret"), [], [44; 233]. split; [reflexivity|]. split; [auto|]. split; [right; exists [233]; reflexivity|].
    split; [constructor|]. split; [constructor|]. split; [cbn; intuition discriminate|reflexivity].
Qed.
(* The heads that are sent *)
Definition clean (k : message_kind) (h : hmap) : Prop :=
  (forall n, In n forbidden -> hm_get_all h n = []) /\
  (hm_get_all h (B "te") = [] \/ (k = KRequest /\ exists r, hm_get_all h (B "te") = B "trailers" :: r)).
Lemma clean_append k h n v : ~ In n (B "te" :: forbidden) -> clean k h -> clean k (hm_append h n v).
Proof.
  intros N0 (A & T). assert (forall m, In m (B "te" :: forbidden) -> hm_get_all (hm_append h n v) m = hm_get_all h m) as Q.
  { intros m Hm. rewrite hm_get_all_append. destruct (beq n m) eqn:E; [apply beq_eq in E; subst; contradiction|reflexivity]. }
  split; [intros m Hm; rewrite Q by (right; exact Hm); auto|]. rewrite Q by (left; reflexivity). exact T.
Qed.
Lemma clean_remove k h n : n <> B "te" -> clean k h -> clean k (hm_remove h n).
Proof.
  intros N0 (A & T). split.
  - intros m Hm. rewrite hm_get_all_remove. destruct (beq n m); auto.
  - rewrite hm_get_all_remove. destruct (beq n (B "te")) eqn:E; [left; reflexivity|exact T].
Qed.
Lemma clean_strip k h : clean k (strip_connection_headers h k).
Proof. destruct (C41_stripped k h) as (A & A1 & A2 & _). split; [exact A|]. destruct k; [destruct (A2 eq_refl); auto|auto]. Qed.
Lemma clean_length k h n : clean k h -> clean k (set_content_length_if_missing h n).
Proof. intros H. unfold set_content_length_if_missing. destruct (hm_contains _ _); [exact H|]. apply clean_append; [cbn; intuition discriminate|exact H]. Qed.
Theorem C41_sent : forall k h,
  (forall date connect status eos exact h' e, k = KResponse ->
     h2_response date connect status eos exact h = HTunnel h' \/ h2_response date connect status eos exact h = HSend h' e -> clean k h') /\
  (forall method eos exact h' e, k = KRequest -> h2_request method eos exact h = Some (h', e) -> clean k h').
Proof.
  intros k h. split.
  - intros date connect status eos exact h' e -> H. unfold h2_response in H. pose proof (clean_strip KResponse h) as C.
    remember (strip_connection_headers h KResponse) as h1 eqn:E1. clear E1.
    assert (clean KResponse (match date with Some d => hm_or_insert h1 (B "date") d | None => h1 end)) as C2.
    { destruct date as [d|]; [|exact C]. unfold hm_or_insert. destruct (hm_contains _ _); [exact C|]. apply clean_append; [cbn; intuition discriminate|exact C]. }
    remember (match date with Some d => hm_or_insert h1 (B "date") d | None => h1 end) as h2 eqn:E2. clear E2.
    destruct (connect && is_success status).
    + assert (clean KResponse (hm_remove h2 (B "content-length"))) as C3 by (apply clean_remove; [discriminate|exact C2]).
      destruct (content_length_parse_all h2) as [n|]; [destruct (n =? 0)|]; destruct H as [H|H]; inversion H; subst; exact C3.
    + destruct eos; destruct H as [H|H]; inversion H; subst; [exact C2|]. destruct exact; [now apply clean_length|exact C2].
  - intros method eos exact h' e -> H. unfold h2_request in H. pose proof (clean_strip KRequest h) as C.
    remember (strip_connection_headers h KRequest) as h1 eqn:E1. clear E1.
    destruct (_ && _); [discriminate|]. inversion H; subst. destruct exact as [n|]; [|exact C]. destruct (_ || _); [now apply clean_length|exact C].
Qed.

Example C41_ex : exists h, hm_wf h /\ named h (B "x-hop") /\ field_name (B "x-hop") /\ hm_get_all h (B "x-hop") <> [] /\
  h2_request (B "PUT") false (Some 7) h = Some ([(B "te", [B "trailers"]); (B "accept", [B "*/*"]); (B "content-length", [B "7"])], false).
Proof.
  exists [(B "connection", [B "keep-alive , X-Hop"]); (B "te", [B "trailers"]); (B "x-hop", [B "1"]); (B "upgrade", [B "h2c"]); (B "accept", [B "*/*"])].
  split; [split; repeat constructor; cbn; intuition discriminate|].
  split; [|split; [split; [discriminate|split; [repeat constructor|cbn; lia]]|split; [discriminate|vm_compute; reflexivity]]].
  exists (B "keep-alive , X-Hop"), []. split; [reflexivity|]. split; [repeat (apply Forall_cons; [right; cbn; lia|]); apply Forall_nil|].
  exists (B "keep-alive ,"), [32], (B "X-Hop"), [], []. split; [reflexivity|]. split; [right; exists (B "keep-alive "); reflexivity|].
  split; [left; reflexivity|]. split; [repeat constructor|]. split; [constructor|]. split; [cbn; intuition discriminate|reflexivity].
Qed.

Print Assumptions C41_stripped.
Print Assumptions C41_single_lines.
Print Assumptions C41_repeated_lines_refuted.
Print Assumptions C41_sent.
