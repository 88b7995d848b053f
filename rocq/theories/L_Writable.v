(* For C84: heads that can be encoded; an execution without a head that could not. *)
From Verif Require L_Reply P_CHeaders.
From Verif Require Import L_RoleEncode.
From Verif Require Import Base M_Src M_HeaderMap M_Headers M_Encode M_Role M_RoleEncode M_Read M_Conn S_Framing L_Headers S_Outbound S_Reply S_Writable.

Local Notation CLn := (B "content-length").
Local Notation TEn := (B "transfer-encoding").

(* ---- The loop over the fields ---- *)
Section Loop.
Variables (m : smsg) (w : name_writer).
Lemma open_fields s n v : s_written (s_open w s n v) = true /\ s_wrote_len (s_open w s n v) = s_wrote_len s /\ s_prev (s_open w s n v) = s_prev s.
Proof. unfold s_open. destruct (write_name w (s_cur s) n). auto. Qed.
Lemma line_fields s n v : s_written (s_line w s n v) = s_written s /\ s_wrote_len (s_line w s n v) = s_wrote_len s /\ s_prev (s_line w s n v) = s_prev s.
Proof. unfold s_line. destruct (write_name w (s_cur s) n). auto. Qed.
Lemma join_fields s n v : s_wrote_len (s_join w s n v) = s_wrote_len s /\ s_prev (s_join w s n v) = s_prev s.
Proof. unfold s_join. destruct (s_written s); [auto|]. apply open_fields. Qed.
Lemma allow_fields s v : s_wrote_len (s_allow s v) = s_wrote_len s /\ s_prev (s_allow s v) = s_prev s.
Proof. unfold s_allow. destruct (to_str v); auto. Qed.

Lemma other_value n v s : n <> CLn -> n <> TEn -> exists s', s_value m w n v s = Some s' /\ s_wrote_len s' = s_wrote_len s /\ s_prev s' = s_prev s.
Proof.
  intros H1 H2. unfold s_value. rewrite (proj2 (beq_false_ne n CLn) H1), (proj2 (beq_false_ne n TEn) H2).
  destruct (beq n (B "connection")).
  { eexists. split; [reflexivity|]. match goal with |- s_wrote_len (s_join _ ?x _ _) = _ /\ _ => destruct (join_fields x n v) as (-> & ->) end. destruct (_ && _); auto. }
  destruct (beq n (B "date")); [eexists; split; [reflexivity|]; destruct (line_fields (s_set_date s) n v) as (_ & -> & ->); auto|].
  destruct (beq n (B "trailer")).
  { destruct (_ || _); [eauto|]. eexists. split; [reflexivity|]. destruct (allow_fields (s_join w s n v) v) as (-> & ->). apply join_fields. }
  eexists. split; [reflexivity|]. destruct (line_fields s n v) as (_ & -> & ->). auto.
Qed.
Lemma other_values n vs : n <> CLn -> n <> TEn -> forall s, exists s', s_values m w n vs s = Some s' /\ s_wrote_len s' = s_wrote_len s /\ s_prev s' = s_prev s.
Proof.
  intros H1 H2. induction vs as [|v vs IH]; intros s; cbn [s_values]; [eauto|].
  destruct (other_value n v s H1 H2) as (s' & -> & A & B'). destruct (IH s') as (s2 & -> & C & D). exists s2. split; [reflexivity|]. split; congruence.
Qed.
Lemma te_values vs : forall s, s_wrote_len s = false \/ s_written s = true -> exists s', s_values m w TEn vs s = Some s'.
Proof.
  induction vs as [|v vs IH]; intros s H; cbn [s_values]; [eauto|].
  unfold s_value. change (beq TEn CLn) with false. rewrite beq_refl.
  assert (s_wrote_len s && negb (s_written s) = false) as -> by (destruct H as [-> | ->]; [reflexivity|apply andb_false_r]).
  destruct (_ || _); [now apply IH|]. cbn [s_set_must s_set_len s_written]. destruct (s_written s) eqn:E; apply IH; right; [exact E|]. apply open_fields.
Qed.
Definition numbers (vs : list bytes) : Prop :=
  (m_body m = Some Unknown -> exists n, n <= u64_max /\ Forall (fun v => cl_means v n) vs) /\
  (m_body m = None -> m_method m = Some (B "HEAD") -> (length vs <= 1)%nat).
Lemma cl_known l vs : m_body m = Some (Known l) -> forall s, s_wrote_len s = false \/ s_written s = true -> exists s', s_values m w CLn vs s = Some s'.
Proof.
  intros Hb. induction vs as [|v vs IH]; intros s H; cbn [s_values]; [eauto|]. unfold s_value. rewrite beq_refl, Hb.
  assert (s_wrote_len s && negb (s_written s) = false) as -> by (destruct H as [-> | ->]; [reflexivity|apply andb_false_r]).
  destruct (s_written s) eqn:E; apply IH; right; [exact E|]. apply open_fields.
Qed.
Lemma cl_unknown n vs : m_body m = Some Unknown -> n <= u64_max -> Forall (fun v => cl_means v n) vs ->
  forall s, s_wrote_len s = false /\ s_prev s = None \/ s_written s = true /\ s_prev s = Some n -> exists s', s_values m w CLn vs s = Some s'.
Proof.
  intros Hb Hn. induction vs as [|v vs IH]; intros Hv s H; cbn [s_values]; [eauto|]. apply Forall_cons_iff in Hv. destruct Hv as (Hv & Hvs). unfold s_value. rewrite beq_refl, Hb.
  assert (s_wrote_len s && negb (s_written s) = false) as -> by (destruct H as [(-> & _)|(-> & _)]; [reflexivity|apply andb_false_r]).
  unfold content_length_parse. rewrite (proj2 (from_digits_spec v n) (conj Hv Hn)). destruct H as [(_ & ->)|(H1 & H2)]; [|rewrite H2].
  - apply IH; [exact Hvs|]. right. split; [|reflexivity]. cbn [s_set_prev s_set_len s_written]. apply open_fields.
  - rewrite N.eqb_refl. cbn [negb]. apply IH; auto.
Qed.
Lemma cl_none vs : m_body m = None -> (m_method m = Some (B "HEAD") -> (length vs <= 1)%nat) -> forall s, s_wrote_len s = false -> exists s', s_values m w CLn vs s = Some s'.
Proof.
  intros Hb Hv. destruct (method_is (m_method m) (B "HEAD")) eqn:Em.
  - assert (m_method m = Some (B "HEAD")) as Em' by (unfold method_is in Em; destruct (m_method m); [apply beq_eq in Em; now subst|discriminate]). specialize (Hv Em').
    destruct vs as [|v [|]]; [intros s _; exists s; reflexivity| |cbn in Hv; lia]. intros s H. cbn [s_values]. unfold s_value. rewrite beq_refl, Hb, H, Em. cbn [andb]. eauto.
  - clear Hv. induction vs as [|v vs IH]; intros s H; cbn [s_values]; [eauto|]. unfold s_value. rewrite beq_refl, Hb, H, Em. cbn [andb]. now apply IH.
Qed.
Lemma cl_values_ok vs s : numbers vs -> s_wrote_len s = false -> s_prev s = None -> exists s', s_values m w CLn vs s = Some s'.
Proof.
  intros (H1 & H2) Hl Hp. destruct (m_body m) as [[l|]|] eqn:Hb.
  - apply (cl_known l); auto.
  - destruct (H1 eq_refl) as (n & Hn & Hv). apply (cl_unknown n); auto.
  - apply cl_none; auto.
Qed.
(* Neither name is among these fields / only one of them is *)
Definition none_left (h : hmap) : Prop := ~ In CLn (map fst h) /\ ~ In TEn (map fst h).
Lemma headers_none h : none_left h -> forall s, exists s', s_headers m w h s = Some s'.
Proof.
  induction h as [|[n vs] h IH]; intros (H1 & H2) s; cbn [s_headers]; [eauto|]. cbn [map fst In] in *.
  destruct (other_values n vs) with (s := s_new_name s) as (s' & -> & _); [intros ->; auto|intros ->; auto|]. apply IH. split; auto.
Qed.
Lemma headers_ok h : NoDup (map fst h) -> (~ In CLn (map fst h) \/ ~ In TEn (map fst h)) -> numbers (hm_get_all h CLn) -> forall s, s_wrote_len s = false -> s_prev s = None ->
  exists s', s_headers m w h s = Some s'.
Proof.
  induction h as [|[n vs] h IH]; intros Hn Hone Hv s Hl Hp; cbn [s_headers]; [eauto|]. cbn [map fst In hm_get_all] in *. apply NoDup_cons_iff in Hn. destruct Hn as (Hn & Hd).
  destruct (beq n CLn) eqn:Ec.
  { apply beq_eq in Ec. subst n. destruct (cl_values_ok vs (s_new_name s) Hv Hl Hp) as (s' & ->). apply headers_none. split; [exact Hn|]. destruct Hone as [Hone|Hone]; [destruct Hone; now left|tauto]. }
  destruct (beq n TEn) eqn:Et.
  { apply beq_eq in Et. subst n. destruct (te_values vs (s_new_name s)) as (s' & ->); [now left|]. apply headers_none. split; [|exact Hn]. destruct Hone as [Hone|Hone]; [tauto|destruct Hone; now left]. }
  apply beq_false_ne in Ec, Et. destruct (other_values n vs Ec Et (s_new_name s)) as (s' & -> & A & B'). apply IH; auto; [tauto|rewrite A; exact Hl|rewrite B'; exact Hp].
Qed.
End Loop.

Lemma no_values h n : hm_wf h -> hm_get_all h n = [] -> ~ In n (map fst h).
Proof.
  intros (_ & W) H. induction h as [|[k vs] h IH]; [auto|]. cbn [hm_get_all map fst In] in *. apply Forall_cons_iff in W. destruct W as (W1 & W2). cbn [snd] in W1.
  destruct (beq k n) eqn:E; [contradiction|]. apply beq_false_ne in E. intros [F|F]; [contradiction|]. now apply IH.
Qed.

(* Server::encode accepts it *)
Lemma reply_encodes c method h len h' keep out r : reply_writable method h len -> head_for h h' -> encodes c method len h' keep out r -> exists e, r = Ok e.
Proof.
  intros [Wm Wv (st & re & Ws & Wst & Wc) Wo Wn Wh] (F1 & F2 & F3 & F4) (st' & re' & S & E). rewrite F1, Ws in S. injection S as <- <-.
  assert (told_version (o_version h')) as Wv' by (destruct F3 as [-> | ->]; [exact Wv|now left]).
  assert (hm_wf (o_headers h') /\ hm_get_all (o_headers h') CLn = hm_get_all (o_headers h) CLn /\ hm_get_all (o_headers h') TEn = hm_get_all (o_headers h) TEn) as (Wm' & Gc & Gt).
  { destruct F4 as [-> | (v & _ & ->)]; [auto|]. split; [now apply P_CHeaders.hm_insert_wf|]. rewrite !hm_get_all_insert. auto. }
  rewrite <- Gc in *. rewrite <- Gt in *. clear Gc Gt Wm Wv Ws F1 F2 F3 F4 h. rename h' into h.
  assert (forall last wrote m line w, m_headers m = o_headers h -> m_method m = method -> m_body m = len -> (wrote = true -> hm_get_all (o_headers h) CLn = [] /\ hm_get_all (o_headers h) TEn = []) ->
    exists x, encode_headers m w (c_date c) line last wrote = Some x) as Q.
  { intros last wrote m line w Hh Hm Hb Hw. unfold encode_headers. rewrite Hh.
    assert (exists s, s_headers m w (o_headers h) (mkEs line (enc_length 0) None false false false None wrote last None) = Some s) as (s & ->); [|eauto].
    destruct wrote.
    - destruct (Hw eq_refl) as (H1 & H2). apply headers_none. split; now apply no_values.
    - apply headers_ok; auto; [exact (proj1 Wm')|destruct Wo as [Wo|Wo]; [left|right]; now apply no_values|]. split; rewrite ?Hb, ?Hm; auto. }
  unfold server_encode in E. cbn [m_status m_method] in E.
  assert (forall m, m_version m = o_version h -> exists line, status_line (c_reason c) m = Some line) as L.
  { intros m Hm. unfold status_line. rewrite Hm. destruct Wv' as [-> | [-> | ->]]; eauto. }
  assert (forall m0 last wrote, m_version m0 = o_version h -> m_headers m0 = o_headers h -> m_method m0 = method -> m_body m0 = len -> (wrote = true -> hm_get_all (o_headers h) CLn = [] /\ hm_get_all (o_headers h) TEn = []) ->
    match status_line (c_reason c) m0 with
    | Some line => match encode_headers m0 (match m_case m0 with None => if m_title_case m0 then WOrig [] true else WLower | Some c => WOrig c (m_title_case m0) end) (c_date c) line last wrote with
                   | None => ([], Err EUserHeader) | Some (out, e) => (out, if false then Err EUnsupportedStatus else Ok e) end
    | None => ([], Err EPanicVersion) end = (out, r) -> exists e, r = Ok e) as Z.
  { intros m0 last wrote A1 A2 A3 A4 A5. destruct (L m0 A1) as (line & ->). destruct (Q last wrote m0 line (match m_case m0 with None => if m_title_case m0 then WOrig [] true else WLower | Some c => WOrig c (m_title_case m0) end) A2 A3 A4 A5) as ((x & e) & ->). intros X. injection X as _ <-. eauto. }
  destruct (st =? 101) eqn:E101; [apply Z in E; auto; discriminate|].
  destruct (method_is method (B "CONNECT") && is_success st) eqn:Ec.
  { apply Z in E; auto. intros _. apply andb_prop in Ec. destruct Ec as (E1 & E2). apply Wc; [unfold method_is in E1; destruct method; [apply beq_eq in E1; now subst|discriminate]|].
    unfold is_success in E2. apply andb_prop in E2. rewrite !N.leb_le in E2. lia. }
  assert (is_informational st = false) as Ei.
  { unfold is_informational. apply N.eqb_neq in E101. destruct Wst as [Wst|Wst]; [contradiction|]. destruct (N.leb_spec 100 st), (N.leb_spec st 199); try reflexivity. exfalso. apply Wst. lia. }
  rewrite Ei in E. apply Z in E; auto. discriminate.
Qed.
