(* Reading back written header sections with the reference parser. *)
From Verif Require Import Base M_HeaderMap M_Httparse M_Headers M_Encode M_Role M_RoleEncode
  S_Send S_Framing S_Head L_Encode2 L_Headers L_Framing L_RoleEncode L_RoleEncode2.

Definition tb (v : bytes) : bytes := trim_end is_blank (drop_while is_blank v).

Lemma tchar_of_lower b : token_char (to_lower b) = true -> is_tchar b = true /\ b <> 13 /\ b <> 10.
Proof.
  unfold token_char, is_tchar, to_lower. cbn [existsb B list_byte_of_string].
  destruct ((65 <=? b) && (b <=? 90))%bool eqn:E.
  - intros _. split; [|lia]. rewrite !orb_true_iff. left. left. now right.
  - intros H. assert (b <> 13 /\ b <> 10) by (split; intros ->; vm_compute in H; discriminate).
    split; auto. rewrite !orb_true_iff in *. tauto.
Qed.
Lemma wire_name_chars n : wire_name n -> n <> [] /\ Forall (fun b => is_tchar b = true /\ b <> 13 /\ b <> 10) n.
Proof.
  intros [H1 H2]. split; [intros ->; now apply H1|]. unfold lower in H2. rewrite Forall_map in H2.
  eapply Forall_impl; [|exact H2]. intros b. apply tchar_of_lower.
Qed.

Lemma drop_while_forall f v : Forall (fun b => f b = true) (take_while f v).
Proof. induction v as [|b v IH]; cbn; [constructor|]. destruct (f b) eqn:E; constructor; auto. Qed.
Lemma take_drop f v : v = take_while f v ++ drop_while f v.
Proof. induction v as [|b v IH]; cbn; auto. destruct (f b); [cbn; congruence|reflexivity]. Qed.
(* tb cuts blanks off both ends *)
Lemma tb_spec v : exists a b, v = a ++ tb v ++ b /\ blanks a /\ blanks b.
Proof.
  assert (Hb : forall x, blanks (take_while is_blank x)).
  { intros x. eapply Forall_impl; [|apply drop_while_forall]. intros c Hc. apply is_blank_spec in Hc. exact Hc. }
  unfold tb, trim_end. set (d := drop_while is_blank v).
  exists (take_while is_blank v), (rev (take_while is_blank (rev d))). split; [|split].
  - rewrite <- rev_app_distr, <- take_drop, rev_involutive. apply take_drop.
  - apply Hb.
  - unfold blanks. apply Forall_rev, Hb.
Qed.
Lemma tb_chars P v : Forall P v -> Forall P (tb v).
Proof. intros H. destruct (tb_spec v) as (a & b & E & _). rewrite E, !Forall_app in H. tauto. Qed.

Lemma parse_wire n rest : wire_name n -> value_chars rest -> parse_line (n ++ 58 :: rest) = Some (lower n, tb rest).
Proof.
  intros Hn Hv. destruct (wire_name_chars n Hn) as [Hne Hf]. unfold parse_line.
  destruct (take_while_all is_tchar n 58 rest) as [T D].
  { eapply Forall_impl; [|exact Hf]. cbn. tauto. }
  { reflexivity. }
  rewrite T, D. destruct n as [|x n]; [congruence|]. fold (tb rest).
  assert (Hva : forallb is_vchar (tb rest) = true).
  { apply forallb_forall. pose proof (tb_chars _ _ Hv) as Ht. rewrite Forall_forall in Ht. intros b Hin. specialize (Ht b Hin). unfold is_vchar.
    destruct Ht as [->|[H1 H2]]; [reflexivity|]. rewrite orb_true_iff, andb_true_iff, negb_true_iff, N.leb_le, N.eqb_neq. auto. }
  rewrite Hva. reflexivity.
Qed.
Lemma wire_no_crlf n rest : wire_name n -> value_chars rest ->
  n ++ 58 :: rest <> [] /\ ~ In 10 (n ++ 58 :: rest).
Proof.
  intros Hn Hv. destruct (wire_name_chars n Hn) as [Hne Hf]. split; [destruct n; discriminate|].
  rewrite Forall_forall in Hf. unfold value_chars in Hv. rewrite Forall_forall in Hv. rewrite in_app_iff. cbn [In].
  intros [H|[H|H]]; [apply Hf in H; tauto|discriminate|apply Hv in H; lia].
Qed.

(* lines given by name and everything after the colon *)
Definition raw_lines (l : list (bytes * bytes)) : bytes := flat_map (fun x => fst x ++ 58 :: snd x ++ CRLF) l.
Lemma parse_raw l tail count : Forall (fun x => wire_name (fst x) /\ value_chars (snd x)) l -> lenN l <= count ->
  parse_block (raw_lines l ++ CRLF ++ tail) count = Some (map (fun x => (lower (fst x), tb (snd x))) l).
Proof.
  intros H Hc. unfold parse_block.
  enough (forall fuel, (length l < fuel)%nat ->
    parse_block_f fuel (raw_lines l ++ CRLF ++ tail) count = Some (map (fun x => (lower (fst x), tb (snd x))) l)) as He.
  { apply He. apply Nat.lt_succ_r. rewrite app_length.
    enough (length l <= length (raw_lines l))%nat by lia.
    unfold raw_lines. clear. induction l; cbn [flat_map length]; auto.
    rewrite !app_length. cbn [length]. rewrite app_length. cbn [length CRLF]. lia. }
  revert count Hc. induction H as [|x l Hx Hl IH]; intros count Hc fuel Hf; (destruct fuel as [|fuel]; [lia|]); cbn [parse_block_f].
  - reflexivity.
  - unfold raw_lines. cbn [flat_map]. fold (raw_lines l). destruct Hx as [X1 X2].
    destruct (wire_no_crlf _ _ X1 X2) as [N1 N2].
    assert (E : forall z, (fst x ++ 58 :: snd x ++ CRLF) ++ z = (fst x ++ 58 :: snd x) ++ CRLF ++ z)
      by (intros z; rewrite <- !app_assoc; cbn [app]; rewrite <- !app_assoc; reflexivity).
    rewrite <- app_assoc, E. rewrite take_line_spec, strip_cr_spec by auto.
    rewrite lenN_cons in Hc. destruct (N.eqb_spec count 0); [lia|].
    cbn [length] in Hf. pose proof (parse_wire _ _ X1 X2) as Hp.
    destruct (fst x ++ 58 :: snd x) as [|y hl]; [congruence|]. rewrite Hp, IH by lia. reflexivity.
Qed.

Lemma tb_blank v : tb (32 :: v) = tb v.
Proof. reflexivity. Qed.
Definition seen (l : line) : line := (lower (fst l), tb (snd l)).
Lemma parse_rendered l tail count : Forall wire_line l -> lenN l <= count ->
  parse_block (render_lines l ++ CRLF ++ tail) count = Some (map seen l).
Proof.
  intros H Hc. pose proof (parse_raw (map (fun x => (fst x, 32 :: snd x)) l) tail count) as P. rewrite map_map in P. cbn [fst snd] in P.
  unfold seen. unfold render_lines. unfold raw_lines in P. rewrite flat_map_concat_map, map_map in P. rewrite flat_map_concat_map. apply P.
  - rewrite Forall_map. eapply Forall_impl; [|exact H]. intros x [H1 H2]. split; auto. cbn [snd]. constructor; [lia|exact H2].
  - unfold lenN in *. now rewrite map_length.
Qed.
Lemma seen_values n l : field_values n (map seen l) = map tb (field_values n l).
Proof.
  unfold field_values. induction l as [|x l IH]; [reflexivity|]. cbn [map filter]. unfold seen at 1. cbn [fst].
  rewrite lower_lower. destruct (beq (lower (fst x)) n); cbn [map]; rewrite IH; reflexivity.
Qed.

(* ---- what survives cutting blanks ---- *)
Lemma last_member_snoc v c e : e <> [] -> (forall b r, e = r ++ [b] -> ~ blank b) -> blank c -> last_member (v ++ [c]) e -> last_member v e.
Proof.
  intros He Hb Hc (p & w1 & t & w2 & E & Hp & H1 & H2 & Hn & El).
  destruct w2 as [|x w2 _] using rev_ind.
  - rewrite app_nil_r in E. destruct t as [|x t _] using rev_ind; [subst e; cbn in He; congruence|].
    rewrite !app_assoc in E. apply app_inj_tail in E as [_ ->]. exfalso. unfold lower in El. rewrite map_app in El. cbn [map] in El.
    apply (Hb (to_lower x) (map to_lower t)); [now symmetry|]. destruct Hc as [-> | ->]; [left|right]; reflexivity.
  - rewrite !app_assoc in E. apply app_inj_tail in E as [-> _]. exists p, w1, t, w2. rewrite <- !app_assoc. sp; auto.
    unfold blanks in *. rewrite Forall_app in H2. tauto.
Qed.
Lemma last_member_cons v c e : e <> [] -> (forall b r, e = b :: r -> ~ blank b) -> blank c -> last_member (c :: v) e -> last_member v e.
Proof.
  intros He Hb Hc (p & w1 & t & w2 & E & Hp & H1 & H2 & Hn & El). destruct p as [|x p].
  - destruct w1 as [|x w1].
    + destruct t as [|x t]; [subst e; cbn in He; congruence|]. cbn [app] in E. inversion E; subst. exfalso.
      apply (Hb (to_lower x) (lower t)); [reflexivity|]. destruct Hc as [-> | ->]; [left|right]; reflexivity.
    + cbn [app] in E. inversion E; subst. exists [], w1, t, w2. sp; auto. now inversion H1.
  - cbn [app] in E. inversion E; subst. destruct Hp as [Hp|[p' Hp]]; [discriminate|].
    destruct p' as [|y p']; [inversion Hp; subst; destruct Hc; discriminate|]. inversion Hp; subst.
    exists (p' ++ [44]), w1, t, w2. sp; auto. right. eauto.
Qed.
Lemma last_member_tb v e : e <> [] -> (forall b r, e = b :: r -> ~ blank b) -> (forall b r, e = r ++ [b] -> ~ blank b) ->
  last_member v e -> last_member (tb v) e.
Proof.
  intros He H1 H2.
  assert (X : forall b t, blanks b -> last_member (t ++ b) e -> last_member t e).
  { induction b as [|c b IH] using rev_ind; intros t Hb L; [now rewrite app_nil_r in L|].
    unfold blanks in Hb. rewrite Forall_app in Hb. destruct Hb as [Hb Hc]. apply Forall_inv in Hc. apply IH; auto.
    rewrite app_assoc in L. eapply last_member_snoc; eauto. }
  assert (Y : forall a t, blanks a -> last_member (a ++ t) e -> last_member t e).
  { induction a as [|c a IH]; intros t Hb L; auto. inversion Hb; subst. apply IH; auto. eapply last_member_cons; eauto. }
  destruct (tb_spec v) as (a & b & E & Ha & Hb). intros L. rewrite E in L. apply (X b); auto. apply (Y a); auto.
Qed.
Lemma final_tb v : final_chunked [v] -> final_chunked [tb v].
Proof.
  rewrite !final_single. intros [H1 H2]. split; [now apply tb_chars|]. apply last_member_tb; auto.
  - discriminate.
  - intros b r E. inversion E; subst. intros [X|X]; discriminate.
  - intros b r E. change (B "chunked") with (B "chunke" ++ [100]) in E. apply app_inj_tail in E as [_ <-]. intros [X|X]; discriminate.
Qed.

Lemma tb_none v : Forall (fun b => ~ blank b) v -> tb v = v.
Proof.
  intros H. unfold tb. rewrite drop_blank_id.
  - unfold trim_end. rewrite drop_blank_id; [apply rev_involutive|]. intros b r E. rewrite Forall_forall in H. apply H. rewrite in_rev, E. now left.
  - intros b r ->. now inversion H.
Qed.
Lemma cl_means_tb v n : cl_means v n -> tb v = v.
Proof. intros (_ & H & _). apply tb_none. eapply Forall_impl; [|exact H]. unfold digit, blank. intros; lia. Qed.
Lemma cl_list_single v n : cl_means v n -> cl_list_means [v] n.
Proof.
  intros H. destruct H as (H1 & H2 & H3). split; [discriminate|]. split.
  - constructor; [|constructor]. eapply Forall_impl; [|exact H2]. unfold digit. intros; lia.
  - intros x p t q [<-|[]] E Ht Hp Hq. exists [], t, []. rewrite app_nil_r. split; [reflexivity|]. split; [constructor|]. split; [constructor|].
    rewrite Forall_forall in H2. assert (p = []) as ->.
    { destruct Hp as [Hp|[p' ->]]; auto. exfalso. specialize (H2 44). rewrite E, !in_app_iff in H2. unfold digit in H2. cbn in H2. lia. }
    assert (q = []) as ->.
    { destruct Hq as [Hq|[q' ->]]; auto. exfalso. specialize (H2 44). rewrite E, !in_app_iff in H2. unfold digit in H2. cbn in H2. lia. }
    cbn [app] in E. rewrite app_nil_r in E. subst t. split; auto. split; auto. apply Forall_forall. exact H2.
Qed.

(* ---- boolean tests, for the examples ---- *)
Definition value_charsb (v : bytes) : bool := forallb (fun b => (b =? 9) || ((32 <=? b) && negb (b =? 127))) v.
Lemma value_charsb_ok v : value_charsb v = true -> value_chars v.
Proof.
  intros H. unfold value_charsb in H. rewrite forallb_forall in H. apply Forall_forall. intros b Hb. specialize (H b Hb). lia.
Qed.
Definition wf_nameb (n : bytes) : bool := match n with [] => false | _ => forallb token_char n end.
Lemma wf_nameb_ok n : wf_nameb n = true -> wf_name n.
Proof.
  destruct n as [|x n]; [discriminate|]. intros H. split; [discriminate|]. unfold wf_nameb in H. rewrite forallb_forall in H. now apply Forall_forall.
Qed.
Fixpoint headers_okb (h : hmap) : bool :=
  match h with
  | [] => true
  | (k, vs) :: r => negb (existsb (fun g => beq k (fst g)) r) && (match vs with [] => false | _ => true end) && wf_nameb k && forallb value_charsb vs && headers_okb r
  end.
Lemma headers_okb_ok h : headers_okb h = true -> headers_ok h.
Proof.
  induction h as [|[k vs] h IH]; intros H.
  - repeat split; constructor.
  - cbn [headers_okb] in H. rewrite !andb_true_iff in H. destruct H as ((((H1 & H2) & H3) & H4) & H5).
    destruct (IH H5) as [[I1 I2] I3]. split; [split|].
    + cbn. constructor; auto. intros Hin. apply in_map_iff in Hin as (g & <- & Hg). apply negb_true_iff in H1.
      rewrite <- not_true_iff_false in H1. apply H1. apply existsb_exists. exists g. split; auto. apply beq_refl.
    + constructor; auto. cbn. destruct vs; discriminate.
    + constructor; auto. cbn [fst snd]. split; [now apply wf_nameb_ok|]. apply Forall_forall. rewrite forallb_forall in H4. intros v Hv. apply value_charsb_ok; auto.
Qed.
Definition textb (v : bytes) : bool := match to_str v with Some _ => true | None => false end.
Lemma textb_ok vs : forallb textb vs = true -> Forall text vs.
Proof.
  intros H. rewrite forallb_forall in H. apply Forall_forall. intros v Hv. specialize (H v Hv). unfold textb in H.
  destruct (to_str_spec v) as [[X _]|[_ X]]; [exact X|]. now rewrite X in H.
Qed.
Lemma wire_linesb_ok l : forallb (fun x => wf_nameb (lower (fst x)) && value_charsb (snd x)) l = true -> Forall wire_line l.
Proof.
  intros H. rewrite forallb_forall in H. apply Forall_forall. intros x Hx. specialize (H x Hx). apply andb_prop in H as [H1 H2].
  split; [now apply wf_nameb_ok|now apply value_charsb_ok].
Qed.
