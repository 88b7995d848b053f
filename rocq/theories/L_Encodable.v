(* For C84: exactly which heads Server::encode accepts. *)
From Verif Require Import L_RoleEncode L_RoleEncode2.
From Verif Require Import Base M_Src M_HeaderMap M_Headers M_Encode M_Role M_RoleEncode M_Read M_Conn S_Framing S_Head L_Headers S_Writable L_Writable.

Local Notation CLn := (B "content-length").
Local Notation TEn := (B "transfer-encoding").

Lemma precedes_head x y vs h : ~ In x (map fst h) -> precedes x y ((x, vs) :: h) <-> In y (map fst h).
Proof.
  intros Hx. split.
  - intros (a & v & b & ws & r & E). destruct a as [|g a]; injection E as E1 E2.
    + rewrite E2, map_app. apply in_or_app. right. now left.
    + destruct Hx. rewrite E2, map_app. apply in_or_app. right. now left.
  - intros H. apply in_map_iff in H. destruct H as ((y' & ws) & Ey & H). cbn [fst] in Ey. subst y'. apply in_split in H. destruct H as (b & r & ->). now exists [], vs, b, ws, r.
Qed.
Lemma precedes_next x y n vs h : n <> x -> precedes x y ((n, vs) :: h) <-> precedes x y h.
Proof.
  intros Hn. split.
  - intros (a & v & b & ws & r & E). destruct a as [|g a]; injection E as E1 E2; [congruence|]. exists a, v, b, ws, r. exact E2.
  - intros (a & v & b & ws & r & ->). now exists ((n, vs) :: a), v, b, ws, r.
Qed.
Lemma precedes_In x y h : precedes x y h -> In x (map fst h) /\ In y (map fst h).
Proof. intros (a & v & b & ws & r & ->). rewrite !map_app. cbn [map fst]. rewrite map_app. split; apply in_or_app; right; [now left|]. right. apply in_or_app. right. now left. Qed.
Lemma head_method o : method_is o (B "HEAD") = true <-> o = Some (B "HEAD").
Proof. unfold method_is. destruct o as [x|]; [rewrite beq_eq; split; congruence|split; discriminate]. Qed.

Section Loop.
Variables (m : smsg) (w : name_writer).
Definition lcb : bool := match m_body m with None => method_is (m_method m) (B "HEAD") | _ => true end.
Definition ccb : bool := negb (ver_eqb (m_version m) HTTP10) && can_chunked (m_method m) (m_status m).
Lemma lcb_counts : lcb = true <-> length_counts m.
Proof.
  unfold lcb, length_counts. destruct (m_body m) as [b|]; [split; [intros _; left; discriminate|auto]|]. rewrite head_method. split; [auto|intros [H|H]; [now destruct H|exact H]].
Qed.
Lemma ccb_counts : ccb = true <-> coding_counts m.
Proof. unfold ccb, coding_counts. rewrite andb_true_iff, can_chunked_spec. destruct (m_version m); cbn; split; intros (A & B'); (split; [congruence|exact B']). Qed.

Lemma cl_known_len l vs : m_body m = Some (Known l) -> forall s s', s_values m w CLn vs s = Some s' -> s_wrote_len s = true -> s_wrote_len s' = true.
Proof.
  intros Hb. induction vs as [|v vs IH]; intros s s' H Hl; cbn [s_values] in H; [congruence|]. unfold s_value in H. rewrite beq_refl, Hb, Hl in H. destruct (s_written s); cbn [andb negb] in H; [|discriminate].
  eapply IH; eassumption.
Qed.
Lemma cl_unknown_inv vs : m_body m = Some Unknown -> forall n s s', s_values m w CLn vs s = Some s' -> s_wrote_len s = true -> s_prev s = Some n -> s_wrote_len s' = true /\ Forall (fun v => cl_means v n) vs.
Proof.
  intros Hb. induction vs as [|v vs IH]; intros n s s' H Hl Hp; cbn [s_values] in H; [split; [congruence|constructor]|]. unfold s_value in H. rewrite beq_refl, Hb, Hl in H. destruct (s_written s) eqn:Ew; cbn [andb negb] in H; [|discriminate].
  destruct (content_length_parse v) as [k|] eqn:Ek; [|discriminate]. rewrite Hp in H. destruct (N.eqb_spec n k) as [->|]; cbn [negb] in H; [|discriminate].
  destruct (IH _ _ _ H Hl Hp) as (A & B'). split; [exact A|]. constructor; [|exact B']. apply from_digits_spec in Ek. apply Ek.
Qed.
Lemma cl_exact vs s s' : vs <> [] -> s_written s = false -> s_prev s = None -> s_values m w CLn vs s = Some s' -> s_wrote_len s = false /\ numbers m vs /\ s_wrote_len s' = lcb.
Proof.
  intros Hv Hw Hp H. destruct vs as [|v vs]; [contradiction|]. cbn [s_values] in H. unfold s_value in H. rewrite beq_refl, Hw in H. destruct (s_wrote_len s) eqn:Hl; cbn [andb negb] in H; [discriminate|]. split; [reflexivity|].
  unfold lcb, numbers. destruct (m_body m) as [[l|]|] eqn:Hb.
  - split; [split; discriminate|]. eapply cl_known_len; eauto.
  - destruct (content_length_parse v) as [n|] eqn:En; [|discriminate]. rewrite Hp in H. apply from_digits_spec in En. destruct En as (E1 & E2).
    destruct (cl_unknown_inv vs Hb n _ _ H eq_refl eq_refl) as (A & B'). split; [|exact A]. split; [|discriminate]. intros _. exists n. split; [exact E2|]. now constructor.
  - destruct (method_is (m_method m) (B "HEAD")) eqn:Em.
    + assert (vs = []) as ->.
      { destruct vs as [|v2 vs]; [reflexivity|]. exfalso. cbn [s_values] in H. unfold s_value in H. rewrite beq_refl in H. destruct (line_fields w (s_set_len s) CLn v) as (A & B' & _). rewrite A, B' in H. cbn [s_set_len s_wrote_len s_written] in H. rewrite Hw in H. discriminate H. }
      cbn [s_values] in H. injection H as <-. split; [split; [discriminate|cbn; lia]|]. now rewrite (proj1 (proj2 (line_fields w (s_set_len s) CLn v))).
    + split; [split; [discriminate|]; intros _ Hm; apply head_method in Hm; congruence|].
      clear v Hv. revert s s' Hw Hp Hl H. induction vs as [|v vs IH]; intros s s' Hw Hp Hl H; cbn [s_values] in H; [congruence|]. unfold s_value in H. rewrite beq_refl, Hl, Hb, Em in H. cbn [andb] in H. eapply IH; eauto.
Qed.
Lemma te_more vs : ccb = true -> forall s s', s_values m w TEn vs s = Some s' -> s_wrote_len s = true -> s_wrote_len s' = true.
Proof.
  intros Hc. induction vs as [|v vs IH]; intros s s' H Hl; cbn [s_values] in H; [congruence|]. unfold s_value in H. change (beq TEn CLn) with false in H. rewrite beq_refl, Hl in H. destruct (s_written s) eqn:Ew; cbn [andb negb] in H; [|discriminate].
  destruct (_ || _) in H; [eauto|]. cbn [s_set_must s_set_len s_written] in H. rewrite Ew in H. eapply IH; [exact H|reflexivity].
Qed.
Lemma te_exact vs s s' : vs <> [] -> s_written s = false -> s_values m w TEn vs s = Some s' -> s_wrote_len s = false /\ s_wrote_len s' = ccb.
Proof.
  intros Hv Hw H. destruct vs as [|v vs]; [contradiction|]. cbn [s_values] in H. unfold s_value in H. change (beq TEn CLn) with false in H. rewrite beq_refl, Hw in H. destruct (s_wrote_len s) eqn:Hl; cbn [andb negb] in H; [discriminate|]. split; [reflexivity|].
  assert (ver_eqb (m_version m) HTTP10 || negb (can_chunked (m_method m) (m_status m)) = negb ccb) as Ec by (unfold ccb; now rewrite negb_andb, negb_involutive). rewrite Ec in H. destruct ccb eqn:Hc; cbn [negb] in H.
  - cbn [s_set_must s_set_len s_written] in H. rewrite Hw in H. eapply (te_more vs Hc); [exact H|]. now rewrite (proj1 (proj2 (open_fields w _ _ _))).
  - clear v Hv. revert s s' Hw Hl H. induction vs as [|v vs IH]; intros s s' Hw Hl H; cbn [s_values] in H; [congruence|]. unfold s_value in H. change (beq TEn CLn) with false in H. rewrite beq_refl, Hl, Ec in H. cbn [andb negb] in H. eapply IH; eauto.
Qed.

Lemma headers_exact h : NoDup (map fst h) -> Forall (fun g => snd g <> []) h -> forall s, s_prev s = None \/ ~ In CLn (map fst h) ->
  ((exists s', s_headers m w h s = Some s') <->
   (s_wrote_len s = true -> none_left h) /\ (lcb = true -> ~ precedes CLn TEn h) /\ (ccb = true -> ~ precedes TEn CLn h) /\ numbers m (hm_get_all h CLn)).
Proof.
  induction h as [|[n vs] h IH]; intros Hd Hne s Hp.
  { cbn. split; [|eauto]. intros _. split; [split; auto|]. split; [intros _ F; apply precedes_In in F; destruct F as ([] & _)|]. split; [intros _ F; apply precedes_In in F; destruct F as ([] & _)|]. split; [|cbn; lia]. intros _. exists 0. split; [unfold u64_max; lia|constructor]. }
  cbn [s_headers map fst] in *. apply NoDup_cons_iff in Hd. destruct Hd as (Hn & Hd). apply Forall_cons_iff in Hne. destruct Hne as (Hv & Hne). cbn [snd] in Hv. cbn [In] in Hp.
  assert (numbers m []) as N0 by (split; [intros _; exists 0; split; [unfold u64_max; lia|constructor]|cbn; lia]).
  cbn [hm_get_all]. destruct (beq n CLn) eqn:Ec.
  { apply beq_eq in Ec. subst n. assert (s_prev s = None) as Hp0 by (destruct Hp as [Hp|Hp]; [exact Hp|destruct Hp; now left]).
    rewrite (precedes_head CLn TEn vs h Hn). assert (ccb = true -> ~ precedes TEn CLn ((CLn, vs) :: h)) as Z.
    { intros _ F. apply (precedes_next TEn CLn CLn vs h) in F; [|discriminate]. apply precedes_In in F. tauto. }
    assert (hm_get_all h CLn = []) as G0. { clear - Hn. induction h as [|[k v] h IH]; [reflexivity|]. cbn [hm_get_all map fst In] in *. destruct (beq k CLn) eqn:E; [apply beq_eq in E; destruct Hn; now left|apply IH; tauto]. }
    split.
    - intros (s2 & H). destruct (s_values m w CLn vs (s_new_name s)) as [s'|] eqn:E; [|discriminate]. destruct (cl_exact vs (s_new_name s) s' Hv eq_refl Hp0 E) as (A1 & A2 & A3). cbn [s_new_name s_wrote_len] in A1.
      destruct (proj1 (IH Hd Hne s' (or_intror Hn)) (ex_intro _ s2 H)) as (B1 & _). split; [congruence|]. split; [intros Hl F; rewrite A3 in B1; destruct (B1 Hl); contradiction|]. auto.
    - intros (A1 & A2 & _ & A4). assert (s_wrote_len s = false) as Hl by (destruct (s_wrote_len s); [destruct (A1 eq_refl) as (F & _); destruct F; now left|reflexivity]).
      destruct (cl_values_ok m w vs (s_new_name s) A4 Hl Hp0) as (s' & E). rewrite E. destruct (cl_exact vs (s_new_name s) s' Hv eq_refl Hp0 E) as (_ & _ & A3).
      apply (IH Hd Hne s' (or_intror Hn)). rewrite A3, G0. split; [intros Hc; split; auto|]. split; [intros _ F; apply precedes_In in F; tauto|]. split; [intros _ F; apply precedes_In in F; tauto|exact N0]. }
  apply beq_false_ne in Ec. rewrite (precedes_next CLn TEn n vs h Ec). destruct (beq n TEn) eqn:Et.
  { apply beq_eq in Et. subst n. rewrite (precedes_head TEn CLn vs h Hn). assert (s_prev s = None \/ ~ In CLn (map fst h)) as Hp' by tauto.
    assert (forall vs s s', s_values m w TEn vs s = Some s' -> s_prev s' = s_prev s) as Pv.
    { clear. induction vs as [|v vs IH]; intros s s' H; cbn [s_values] in H; [congruence|]. unfold s_value in H. change (beq TEn CLn) with false in H. rewrite beq_refl in H. destruct (_ && _) in H; [discriminate|]. destruct (_ || _) in H; [now apply IH|].
      destruct (s_written (s_set_must (s_set_len s) (negb (is_chunked_ v)))); apply IH in H; [exact H|]. now rewrite H, (proj2 (proj2 (open_fields w _ _ _))). }
    split.
    - intros (s2 & H). destruct (s_values m w TEn vs (s_new_name s)) as [s'|] eqn:E; [|discriminate]. destruct (te_exact vs (s_new_name s) s' Hv eq_refl E) as (A1 & A3). cbn [s_new_name s_wrote_len] in A1.
      assert (s_prev s' = None \/ ~ In CLn (map fst h)) as Hp2 by (rewrite (Pv _ _ _ E); exact Hp').
      destruct (proj1 (IH Hd Hne s' Hp2) (ex_intro _ s2 H)) as (B1 & B2 & _ & B4). split; [congruence|]. split; [exact B2|]. split; [intros Hl F; rewrite A3 in B1; destruct (B1 Hl); contradiction|exact B4].
    - intros (A1 & A2 & A3 & A4). assert (s_wrote_len s = false) as Hl by (destruct (s_wrote_len s); [destruct (A1 eq_refl) as (_ & F); destruct F; now left|reflexivity]).
      destruct (te_values m w vs (s_new_name s)) as (s' & E); [now left|]. rewrite E. destruct (te_exact vs (s_new_name s) s' Hv eq_refl E) as (_ & B3).
      assert (s_prev s' = None \/ ~ In CLn (map fst h)) as Hp2 by (rewrite (Pv _ _ _ E); exact Hp').
      apply (IH Hd Hne s' Hp2). rewrite B3. split; [intros Hc; split; [now apply A3|exact Hn]|]. split; [exact A2|]. split; [intros _ F; apply precedes_In in F; tauto|exact A4]. }
  apply beq_false_ne in Et. rewrite (precedes_next TEn CLn n vs h Et). destruct (other_values m w n vs Ec Et (s_new_name s)) as (s' & -> & A & B').
  assert (s_prev s' = None \/ ~ In CLn (map fst h)) as Hp2 by (rewrite B'; cbn [s_new_name s_prev]; tauto).
  rewrite (IH Hd Hne s' Hp2), A. cbn [s_new_name s_wrote_len]. unfold none_left. cbn [map fst In].
  split; intros (A1 & A2); (split; [|exact A2]); intros F; destruct (A1 F) as (F1 & F2); split; intros G; tauto.
Qed.
End Loop.

Lemma values_none h n : ~ In n (map fst h) -> hm_get_all h n = [].
Proof. induction h as [|[k vs] h IH]; intros H; [reflexivity|]. cbn [hm_get_all map fst In] in *. destruct (beq k n) eqn:E; [apply beq_eq in E; tauto|]. apply IH. tauto. Qed.
Lemma encode_exact reason date m : hm_wf (m_headers m) -> ((exists out e, server_encode reason date m = (out, Ok e)) <-> encodable m).
Proof.
  intros (Hd & Hne). assert (hm_wf (m_headers m)) as Hwf by now split.
  assert (forall w line last wrote, (exists x, encode_headers m w date line last wrote = Some x) <->
    (wrote = true -> none_left (m_headers m)) /\ (lcb m = true -> ~ precedes CLn TEn (m_headers m)) /\ (ccb m = true -> ~ precedes TEn CLn (m_headers m)) /\ numbers m (hm_get_all (m_headers m) CLn)) as Q.
  { intros w line last wrote. pose proof (headers_exact m w (m_headers m) Hd Hne (mkEs line (enc_length 0) None false false false None wrote last None) (or_introl eq_refl)) as X. cbn [s_wrote_len] in X. rewrite <- X. unfold encode_headers.
    split; [intros (x & E); destruct (s_headers _ _ _ _); [eauto|discriminate]|intros (x & ->); eauto]. }
  assert (told_version (m_version m) <-> exists line, status_line reason m = Some line) as V.
  { unfold status_line, told_version. destruct (m_version m); (split; [intros H; try (repeat destruct H as [H|H]; discriminate); eauto|intros (line & H); try discriminate; auto]). }
  assert (forall last wrote,
    (exists out e, match status_line reason m with None => ([], Err EPanicVersion) | Some line =>
       match encode_headers m (match m_case m with None => if m_title_case m then WOrig [] true else WLower | Some c => WOrig c (m_title_case m) end) date line last wrote with
       | None => ([], Err EUserHeader) | Some (out, e) => (out, if false then Err EUnsupportedStatus else Ok e) end end = (out, Ok e)) <->
    told_version (m_version m) /\ (wrote = true -> none_left (m_headers m)) /\ (lcb m = true -> ~ precedes CLn TEn (m_headers m)) /\ (ccb m = true -> ~ precedes TEn CLn (m_headers m)) /\ numbers m (hm_get_all (m_headers m) CLn)) as Z.
  { intros last wrote. rewrite V. split.
    - intros (out & e & E). destruct (status_line reason m) as [line|]; [|discriminate]. split; [eauto|]. apply (Q (match m_case m with None => if m_title_case m then WOrig [] true else WLower | Some c => WOrig c (m_title_case m) end) line last wrote). destruct (encode_headers _ _ _ _ _ _) as [x|]; [eauto|discriminate].
    - intros ((line & ->) & H). apply (Q (match m_case m with None => if m_title_case m then WOrig [] true else WLower | Some c => WOrig c (m_title_case m) end) line last wrote) in H. destruct H as ((out & e) & ->). eauto. }
  assert (none_left (m_headers m) <-> hm_get_all (m_headers m) CLn = [] /\ hm_get_all (m_headers m) TEn = []) as NL.
  { split; intros (A & B'); split; first [now apply values_none|now apply no_values]. }
  assert (forall wrote, (told_version (m_version m) /\ (wrote = true -> none_left (m_headers m)) /\ (lcb m = true -> ~ precedes CLn TEn (m_headers m)) /\ (ccb m = true -> ~ precedes TEn CLn (m_headers m)) /\ numbers m (hm_get_all (m_headers m) CLn)) ->
    (m_status m = 101 \/ ~ 100 <= m_status m < 200) -> (m_method m = Some (B "CONNECT") -> 200 <= m_status m < 300 -> wrote = true) -> encodable m) as To.
  { intros wrote (A1 & A2 & A3 & A4 & A5 & A6) H1 H2. constructor; auto; [intros F G; apply NL; auto|intros F; apply A3; now apply lcb_counts|intros F; apply A4; now apply ccb_counts]. }
  assert (forall wrote, encodable m -> (wrote = true -> m_method m = Some (B "CONNECT") /\ 200 <= m_status m < 300) ->
    told_version (m_version m) /\ (wrote = true -> none_left (m_headers m)) /\ (lcb m = true -> ~ precedes CLn TEn (m_headers m)) /\ (ccb m = true -> ~ precedes TEn CLn (m_headers m)) /\ numbers m (hm_get_all (m_headers m) CLn)) as Fro.
  { intros wrote [E1 E2 E3 E4 E5 E6 E7] H. split; [exact E1|]. split; [intros F; apply NL, E3; apply H, F|]. split; [intros F; apply E4; now apply lcb_counts|]. split; [intros F; apply E5; now apply ccb_counts|]. split; auto. }
  unfold server_encode. destruct (N.eqb_spec (m_status m) 101) as [E1|E1].
  { rewrite (Z true false). split; [intros H; apply (To false H); [now left|intros _; lia]|intros H; apply (Fro false H); discriminate]. }
  destruct (method_is (m_method m) (B "CONNECT") && is_success (m_status m)) eqn:Ec.
  { assert (m_method m = Some (B "CONNECT") /\ 200 <= m_status m < 300) as (C1 & C2).
    { apply andb_prop in Ec. destruct Ec as (A & B'). unfold is_success in B'. rewrite andb_true_iff, !N.leb_le in B'. unfold method_is in A. destruct (m_method m); [apply beq_eq in A; subst; split; [reflexivity|lia]|discriminate]. }
    rewrite (Z true true). split; [intros H; apply (To true H); [right; lia|auto]|intros H; apply (Fro true H); auto]. }
  assert (m_method m = Some (B "CONNECT") -> 200 <= m_status m < 300 -> False) as Nc.
  { intros F G. rewrite F in Ec. cbn [method_is] in Ec. rewrite beq_refl in Ec. unfold is_success in Ec. cbn [andb] in Ec. destruct (N.leb_spec 200 (m_status m)), (N.leb_spec (m_status m) 299); try discriminate Ec; lia. }
  destruct (is_informational (m_status m)) eqn:Ei.
  { split.
    - intros (out & e & E). cbn [status_line m_version] in E. destruct (encode_headers _ _ _ _ _ _) as [(x & y)|]; discriminate E.
    - intros [_ [F|F] _ _ _ _ _]; [contradiction|]. exfalso. apply F. unfold is_informational in Ei. rewrite andb_true_iff, !N.leb_le in Ei. lia. }
  assert (~ 100 <= m_status m < 200) as Ni by (intros F; unfold is_informational in Ei; destruct (N.leb_spec 100 (m_status m)), (N.leb_spec (m_status m) 199); try discriminate Ei; lia).
  rewrite (Z (negb (m_keep_alive m)) false). split; [intros H; apply (To false H); [now right|intros F G; destruct (Nc F G)]|intros H; apply (Fro false H); discriminate].
Qed.
