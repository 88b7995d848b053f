(* Invariants of Server::encode_headers: what has been written is a list of
   header lines whose framing fields match the encoder. *)
From Verif Require Import Base M_HeaderMap M_Httparse M_Headers M_Encode M_Role M_RoleEncode
  S_Send S_Framing S_Head L_Encode2 L_Headers L_Framing.

Lemma render_app a b : render_lines (a ++ b) = render_lines a ++ render_lines b.
Proof. unfold render_lines. apply flat_map_app. Qed.

Ltac sp := repeat match goal with |- _ /\ _ => split end.

(* ---- names ---- *)
Lemma lower_lower s : lower (lower s) = lower s.
Proof.
  unfold lower. rewrite map_map. apply map_ext. intros b. unfold to_lower.
  destruct ((65 <=? b) && (b <=? 90))%bool eqn:E; [|now rewrite E].
  destruct ((65 <=? b + 32) && (b + 32 <=? 90))%bool eqn:E2; [lia|reflexivity].
Qed.
Lemma wf_name_lower n : wf_name n -> lower n = n.
Proof. intros [_ H]. now apply plain_name_spec. Qed.
Lemma title_lower n : wf_name n -> lower (title_case n) = n.
Proof. intros [_ H]. unfold title_case. now apply title_case_from_spec. Qed.

Definition writer_ok (w : name_writer) : Prop := match w with WLower => True | WOrig c _ => case_ok c end.
Definition cur_ok (cur : wcur) : Prop := match cur with Some (n, vs) => Forall (fun o => lower o = n) vs | None => True end.
Lemma case_ok_get c n : case_ok c -> Forall (fun o => lower o = n) (hm_get_all c n).
Proof.
  induction 1 as [|[k vs] c H Hc IH]; cbn [hm_get_all]; [constructor|].
  destruct (beq k n) eqn:E; auto. apply beq_eq in E. subst. exact H.
Qed.
Lemma write_name_ok w cur name nm cur' : writer_ok w -> cur_ok cur -> wf_name name ->
  write_name w cur name = (nm, cur') -> lower nm = name /\ cur_ok cur'.
Proof.
  unfold write_name. intros Hw Hc Hn E. destruct w as [|c t].
  - inversion E; subst. split; [now apply wf_name_lower|auto].
  - set (vals := match cur with Some (last, vs) => if beq last name then vs else hm_get_all c name | None => hm_get_all c name end) in E.
    assert (Hv : Forall (fun o => lower o = name) vals).
    { unfold vals. destruct cur as [[last vs]|]; [|now apply case_ok_get].
      destruct (beq last name) eqn:Eb; [|now apply case_ok_get]. apply beq_eq in Eb. subst. exact Hc. }
    destruct vals as [|o r].
    + inversion E; subst. split; [|constructor]. destruct t; [now apply title_lower|now apply wf_name_lower].
    + inversion E; subst. inversion Hv; subst. split; [reflexivity|]. cbn. assumption.
Qed.

(* values of [n] among name/value pairs with exact names *)
Definition pvals (n : bytes) (proc : list (bytes * bytes)) : list bytes :=
  map snd (filter (fun p => beq (fst p) n) proc).
Lemma pvals_snoc n proc k v : pvals n (proc ++ [(k, v)]) = pvals n proc ++ (if beq k n then [v] else []).
Proof. unfold pvals. rewrite filter_app, map_app. cbn [filter fst]. destruct (beq k n); reflexivity. Qed.
Lemma fv_snoc_name n all nm v k : lower nm = k -> field_values n (all ++ [(nm, v)]) = field_values n all ++ (if beq k n then [v] else []).
Proof. intros <-. apply fv_snoc. Qed.

Definition TR := B "trailer".
Definition special (n : bytes) : bool := beq n CL || beq n TE || beq n CO || beq n TR.
Definition joinable (n : bytes) : Prop := n = CO \/ n = TR.

Lemma comma_join_snoc vs v : vs <> [] -> comma_join (vs ++ [v]) = comma_join vs ++ B ", " ++ v.
Proof.
  induction vs as [|a vs IH]; intros H; [congruence|]. destruct vs as [|b vs].
  - reflexivity.
  - change ((a :: b :: vs) ++ [v]) with (a :: (b :: vs) ++ [v]).
    assert (E : forall x l, l <> [] -> comma_join (x :: l) = x ++ B ", " ++ comma_join l) by (intros x [|? ?]; [congruence|reflexivity]).
    rewrite (E a) by (destruct vs; discriminate). rewrite (E a (b :: vs)) by discriminate.
    rewrite IH by discriminate. rewrite <- !app_assoc. reflexivity.
Qed.

(* ---- adding ", chunked" ---- *)
Lemma text_app a b : text a -> text b -> text (a ++ b).
Proof. unfold text. rewrite Forall_app. auto. Qed.
Lemma text_comma : text (B ", ").
Proof. repeat constructor; cbn; lia. Qed.
Lemma text_chunked : text (B ", chunked").
Proof. repeat constructor; cbn; lia. Qed.
Lemma value_chars_app a b : value_chars a -> value_chars b -> value_chars (a ++ b).
Proof. unfold value_chars. rewrite Forall_app. auto. Qed.
Lemma value_chars_chunked : value_chars (B ", chunked").
Proof. repeat constructor; cbn; lia. Qed.
Lemma value_chars_comma : value_chars (B ", ").
Proof. repeat constructor; cbn; lia. Qed.
Lemma final_add v : text v -> final_chunked [v ++ B ", chunked"].
Proof.
  intros H. exists [], (v ++ B ", chunked"). split; [reflexivity|]. split; [apply text_app; [auto|apply text_chunked]|].
  exists (v ++ [44]), [32], (B "chunked"), []. rewrite <- !app_assoc. split; [reflexivity|]. split; [right; eauto|].
  split; [repeat constructor; lia|]. split; [constructor|]. split; [cbn; intuition discriminate|reflexivity].
Qed.
Lemma final_single v : final_chunked [v] <-> text v /\ last_member v (B "chunked").
Proof.
  split.
  - intros (i & x & E & H). destruct i; [inversion E; subst; auto|]. destruct i; discriminate.
  - intros H. exists [], v. auto.
Qed.
Lemma final_join v x : text v -> text x -> last_member x (B "chunked") -> final_chunked [v ++ B ", " ++ x].
Proof.
  intros Hv Hx (p & w1 & t & w2 & -> & Hp & H1 & H2 & Hn & El). apply final_single. split.
  { apply text_app; auto. apply text_app; [apply text_comma|auto]. }
  destruct Hp as [->|[p' ->]].
  - exists (v ++ [44]), (32 :: w1), t, w2. cbn [app]. rewrite <- !app_assoc. split; [reflexivity|].
    split; [right; eauto|]. split; [constructor; auto|]. auto.
  - exists (v ++ B ", " ++ p' ++ [44]), w1, t, w2. rewrite <- !app_assoc. split; [reflexivity|].
    split; [right; exists (v ++ B ", " ++ p'); now rewrite <- !app_assoc|]. auto.
Qed.

Section Encode.
Variable m : smsg.
Variable w : name_writer.
Variable pre : bytes.
Variable last0 len0 : bool.
(* the two facts the framing of the body may depend on *)
Definition te_text : Prop := Forall text (hm_get_all (m_headers m) TE).
Definition known_agrees : Prop := forall n, m_body m = Some (Known n) -> Forall (fun v => cl_means v n) (hm_get_all (m_headers m) CL).
Hypothesis Hw : writer_ok w.

Definition can_te : bool := negb (ver_eqb (m_version m) HTTP10) && can_chunked (m_method m) (m_status m).

(* the framing fields written so far *)
Definition FR (s : es) (pend all : list line) : Prop :=
  match te_values all, cl_lines all with
  | [], [] => s_wrote_len s = len0 /\ s_prev s = None
  | [v], [] => len0 = false /\ s_wrote_len s = true /\ ekind (s_enc s) = KChunked None /\ can_te = true /\
      (te_text -> text v) /\
      (te_text -> te_values pend <> [] -> s_must s = false -> final_chunked [v]) /\
      (te_text -> te_values pend = [] -> final_chunked [v])
  | [], [v] => len0 = false /\ s_wrote_len s = true /\ s_must s = false /\
      match m_body m with
      | Some (Known n) => ekind (s_enc s) = KLength n /\ (known_agrees -> cl_means v n)
      | Some Unknown => exists n, ekind (s_enc s) = KLength n /\ cl_means v n /\ n <= u64_max /\ s_prev s = Some n
      | None => method_is (m_method m) (B "HEAD") = true /\ field_values CL pend = []
      end
  | _, _ => False
  end /\ (s_must s = true -> te_values all <> []).

Definition bad_te (proc : list (bytes * bytes)) : Prop := exists v, In v (pvals TE proc) /\ is_chunked_ v = false.
Record SI (name : bytes) (s : es) (proc : list (bytes * bytes)) (lines pend : list line) : Prop := {
  si_dst : s_dst s = pre ++ render_lines lines ++ flat_map (fun l => fst l ++ B ": " ++ snd l) pend;
  si_pend : pend = [] /\ s_written s = false \/
            (exists nm v, pend = [(nm, v)] /\ lower nm = name /\ s_written s = true /\ special name = true);
  si_wire : Forall wire_line (lines ++ pend);
  si_cur : cur_ok (s_cur s);
  si_fr : FR s pend (lines ++ pend);
  si_plain : forall n, special n = false -> field_values n (lines ++ pend) = pvals n proc;
  si_join : forall n, joinable n ->
      match pvals n proc with
      | [] => field_values n (lines ++ pend) = []
      | vs => n = TR /\ can_te = false /\ field_values n (lines ++ pend) = [] \/
              (n = TR -> can_te = true) /\ (exists sfx, field_values n (lines ++ pend) = [comma_join vs ++ sfx] /\
                 (sfx = [] \/ sfx = B ", chunked" /\ bad_te proc) /\ (field_values n pend <> [] -> sfx = []) /\
                 (name = n -> pend <> []))
      end;
  si_must : s_must s = true -> bad_te proc;
  si_last : s_last s = last0 || existsb connection_close (pvals CO proc);
  si_date : s_date s = nonempty (pvals (B "date") proc)
}.

Lemma special_CL : special CL = true. Proof. reflexivity. Qed.
Lemma special_TE : special TE = true. Proof. reflexivity. Qed.
Lemma special_CO : special CO = true. Proof. reflexivity. Qed.
Lemma special_TR : special TR = true. Proof. reflexivity. Qed.

Lemma pend_app_snoc (lines : list line) x : lines ++ [x] = (lines ++ []) ++ [x].
Proof. now rewrite app_nil_r. Qed.

(* flushing *)
Lemma SI_new_name name s proc lines pend name' : SI name s proc lines pend ->
  pvals name' proc = [] ->
  exists lines', SI name' (s_new_name s) proc lines' [].
Proof.
  intros [D P W C F Pl J Mu La Da] Hp.
  destruct P as [[-> Ew]|(nm & v & -> & En & Ew & Sp)].
  - exists lines. constructor; cbn [s_new_name s_dst s_written s_cur s_last s_date s_must]; auto.
    + unfold s_flush. rewrite Ew, D. reflexivity.
    + intros n Hj. specialize (J n Hj). destruct (pvals n proc) eqn:Ep; auto.
      destruct J as [J|(J0 & sfx & J1 & J2 & J3 & J4)]; [now left|]. right. split; [exact J0|]. exists sfx. sp; auto.
      intros ->. rewrite Hp in Ep. discriminate.
  - remember (if s_must s then v ++ B ", chunked" else v) as v' eqn:Ev.
    exists (lines ++ [(nm, v')]). rewrite <- En in *.
    assert (Hte : forall k, field_values k ((lines ++ [(nm, v')]) ++ []) = 
              field_values k lines ++ (if beq (lower nm) k then [v'] else [])) by (intros k; rewrite app_nil_r, fv_snoc; reflexivity).
    assert (Hte0 : forall k, field_values k (lines ++ [(nm, v)]) = 
              field_values k lines ++ (if beq (lower nm) k then [v] else [])) by (intros k; rewrite fv_snoc; reflexivity).
    assert (Hne : te_values (lines ++ [(nm, v)]) <> [] -> te_values ((lines ++ [(nm, v')]) ++ []) <> []).
    { unfold te_values. rewrite Hte, Hte0. destruct (beq _ _); [destruct (field_values _ lines); discriminate|auto]. }
    constructor; cbn [s_new_name s_dst s_written s_cur s_last s_date s_must]; auto.
    + unfold s_flush. rewrite Ew, D, render_app. unfold render_lines at 3. cbn [flat_map fst snd]. rewrite Ev.
      destruct (s_must s); rewrite <- ?app_assoc; cbn [app]; rewrite ?app_nil_r; reflexivity.
    + rewrite app_nil_r. apply Forall_app in W as [W1 W2]. apply Forall_app. split; auto.
      apply Forall_inv in W2 as [Wa Wb]. constructor; [|constructor]. split; auto. cbn [snd] in *. rewrite Ev.
      destruct (s_must s); auto. apply value_chars_app; [exact Wb|apply value_chars_chunked].
    + destruct F as [F Fm]. split; [|cbn [s_new_name s_must]; intros H; apply Hne; auto].
      unfold te_values, cl_lines in *.
      change (B "transfer-encoding") with TE in *. change (B "content-length") with CL in *.
      rewrite (Hte0 TE), (Hte0 CL) in F. rewrite (Hte TE), (Hte CL).
      cbn [s_new_name s_wrote_len s_must s_enc s_prev].
      destruct (beq (lower nm) TE) eqn:Et.
      * (* the pending line is TE *)
        assert (Ec : beq (lower nm) CL = false) by (apply beq_eq in Et; rewrite Et; reflexivity).
        rewrite Ec in *. rewrite app_nil_r in *.
        destruct (field_values TE lines) as [|a l]; cbn [app] in *.
        -- destruct (field_values CL lines) as [|a l]; [|destruct F].
           destruct F as (F1 & F2 & F3 & F4 & F5 & F6 & F7). sp; auto.
           ++ intros Ht. rewrite Ev; destruct (s_must s); auto. apply text_app; [auto|apply text_chunked].
           ++ cbn. congruence.
           ++ intros Ht _. rewrite Ev; destruct (s_must s) eqn:Em; [apply final_add; auto|].
              apply F6; auto. rewrite fv_cons. cbn [fst snd]. rewrite Et. discriminate.
        -- destruct l; destruct F.
      * rewrite !app_nil_r in *. destruct (beq (lower nm) CL) eqn:Ec.
        -- destruct (field_values TE lines) as [|a [|b l]].
           ++ destruct (field_values CL lines) as [|a l]; cbn [app] in *; [|destruct l; destruct F].
              destruct F as (F1 & F2 & F3 & F4). assert (v' = v) as -> by (rewrite Ev, F3; reflexivity). sp; auto.
              destruct (m_body m) as [[|]|]; [exact F4..|]. destruct F4 as [F4 _]; split; [exact F4|reflexivity].
           ++ destruct (field_values CL lines); destruct F.
           ++ destruct F.
        -- rewrite !app_nil_r in *. destruct (field_values TE lines) as [|a [|b l]]; auto.
           { destruct (field_values CL lines) as [|a [|b l]]; auto. destruct F as (F1 & F2 & F3 & F4). sp; auto.
             destruct (m_body m) as [[|]|]; [exact F4..|]. destruct F4 as [F4 _]; split; [exact F4|reflexivity]. }
           destruct (field_values CL lines); auto. destruct F as (F1 & F2 & F3 & F4 & F5 & F6 & F7).
           sp; auto. intros Ht _. apply F7; auto.
           rewrite fv_cons. cbn [fst snd]. rewrite Et. reflexivity.
    + intros n Hs. rewrite Hte. specialize (Pl n Hs). rewrite Hte0 in Pl.
      destruct (beq (lower nm) n) eqn:E; auto. apply beq_eq in E. subst n. congruence.
    + intros n Hj. specialize (J n Hj). rewrite Hte. rewrite Hte0 in J.
      destruct (pvals n proc) as [|x vs] eqn:Ep.
      * destruct (beq (lower nm) n) eqn:E; auto. destruct (field_values n lines); discriminate.
      * destruct J as [(J1 & J2 & J3)|(J0 & sfx & J1 & J2 & J3 & J4)].
        -- left. sp; auto. destruct (beq (lower nm) n); auto. destruct (field_values n lines); discriminate.
        -- right. split; [exact J0|]. destruct (beq (lower nm) n) eqn:E.
           ++ assert (sfx = []) as ->. { apply J3. rewrite fv_cons. cbn [fst snd]. rewrite E. discriminate. }
              destruct (field_values n lines) as [|a l]; [|destruct l; discriminate]. cbn [app] in *.
              rewrite app_nil_r in J1. injection J1 as J1'. destruct (s_must s) eqn:Em.
              ** exists (B ", chunked"). split; [rewrite Ev, J1'; reflexivity|]. sp.
                 --- right. split; [reflexivity|]. apply Mu. reflexivity.
                 --- cbn. congruence.
                 --- intros ->. congruence.
              ** exists []. split; [rewrite Ev, J1', app_nil_r; reflexivity|]. sp; auto. intros ->. congruence.
           ++ exists sfx. rewrite app_nil_r in *. sp; auto.
              ** cbn. congruence.
Qed.

(* FR only looks at these *)
Lemma FR_ext s s' pend pend' all all' :
  FR s pend all -> te_values all' = te_values all -> cl_lines all' = cl_lines all -> te_values pend' = te_values pend -> field_values CL pend' = field_values CL pend ->
  s_wrote_len s' = s_wrote_len s -> s_must s' = s_must s -> s_enc s' = s_enc s -> s_prev s' = s_prev s ->
  FR s' pend' all'.
Proof. unfold FR. intros F -> -> -> -> -> -> -> ->. exact F. Qed.

Lemma wire_ok_open nm name v : lower nm = name -> wf_name name -> value_chars v -> wire_line (nm, v).
Proof. intros <- H1 H2. split; auto. Qed.

Lemma special_false n : special n = false -> beq CL n = false /\ beq TE n = false /\ beq CO n = false /\ beq TR n = false.
Proof.
  unfold special. rewrite !orb_false_iff. intros [[[H1 H2] H3] H4].
  rewrite (beq_sym CL), (beq_sym TE), (beq_sym CO), (beq_sym TR). auto.
Qed.

Lemma beq_false_ne a b : beq a b = false <-> a <> b.
Proof. split; [intros H ->; rewrite beq_refl in H; discriminate|]. intros H. destruct (beq a b) eqn:E; auto. apply beq_eq in E. congruence. Qed.

(* what one step does to the output *)
Inductive eff : es -> es -> bytes -> bytes -> list line -> list line -> list line -> list line -> Prop :=
| eff_none s s' name value lines pend :
    s_dst s' = s_dst s -> s_written s' = s_written s -> s_cur s' = s_cur s -> eff s s' name value lines pend lines pend
| eff_open s s' name value lines nm : lower nm = name -> cur_ok (s_cur s') ->
    s_dst s' = s_dst s ++ nm ++ B ": " ++ value -> s_written s' = true -> eff s s' name value lines [] lines [(nm, value)]
| eff_more s s' name value lines nm v :
    s_dst s' = s_dst s ++ B ", " ++ value -> s_written s' = true -> s_cur s' = s_cur s ->
    eff s s' name value lines [(nm, v)] lines [(nm, v ++ B ", " ++ value)]
| eff_line s s' name value lines nm : lower nm = name -> cur_ok (s_cur s') ->
    s_dst s' = s_dst s ++ nm ++ B ": " ++ value ++ CRLF -> s_written s' = false -> eff s s' name value lines [] (lines ++ [(nm, value)]) [].

(* layout after a step *)
Lemma eff_layout name s s' value proc lines pend lines' pend' :
  SI name s proc lines pend -> wf_name name -> value_chars value ->
  eff s s' name value lines pend lines' pend' -> (s_written s' = true -> special name = true) ->
  s_dst s' = pre ++ render_lines lines' ++ flat_map (fun l => fst l ++ B ": " ++ snd l) pend' /\
  (pend' = [] /\ s_written s' = false \/
            (exists nm v, pend' = [(nm, v)] /\ lower nm = name /\ s_written s' = true /\ special name = true)) /\
  Forall wire_line (lines' ++ pend') /\ cur_ok (s_cur s').
Proof.
  intros [D P W C F Pl J Mu La Da] Hn Hv E Hs. inversion E; subst; clear E.
  - split; [congruence|]. split; [|split; [auto|congruence]]. now rewrite H0.
  - destruct P as [[_ Ew]|(nm' & v' & Hp & _)]; [|discriminate]. rewrite H1, D. cbn [flat_map fst snd]. rewrite !app_nil_r in *.
    split; [now rewrite <- !app_assoc|]. split; [right; exists nm, value; auto|]. split; [|auto].
    apply Forall_app. split; auto. constructor; [|constructor]. split; auto.
  - destruct P as [[Hp _]|(nm' & v' & Hp & El & Ew & Es)]; [discriminate|]. inversion Hp; subst nm' v'. rewrite H, D. cbn [flat_map fst snd].
    rewrite !app_nil_r. split; [now rewrite <- !app_assoc|]. split; [right; exists nm, (v ++ B ", " ++ value); auto|].
    split; [|congruence]. apply Forall_app in W as [W1 W2]. apply Forall_app. split; auto. constructor; [|constructor].
    apply Forall_inv in W2 as [Wa Wb]. split; auto. cbn [snd] in *. apply value_chars_app; auto. apply value_chars_app; auto. apply value_chars_comma.
  - destruct P as [[_ Ew]|(nm' & v' & Hp & _)]; [|discriminate]. rewrite H1, D, render_app. unfold render_lines at 3. cbn [flat_map fst snd].
    rewrite !app_nil_r in *. split; [now rewrite <- !app_assoc|]. split; [left; auto|]. split; [|auto].
    apply Forall_app. split; auto. constructor; [|constructor]. split; auto.
Qed.

(* field values after a step, for a name different from the current one *)
Lemma eff_fv_other s s' name value lines pend lines' pend' n :
  eff s s' name value lines pend lines' pend' -> (forall nm v, pend = [(nm, v)] -> lower nm = name) -> beq name n = false ->
  field_values n (lines' ++ pend') = field_values n (lines ++ pend) /\ field_values n pend' = field_values n pend.
Proof.
  intros E Hp Hb. inversion E; subst; auto.
  - rewrite app_nil_r, fv_snoc, fv_cons. cbn [fst snd]. rewrite Hb, !app_nil_r. auto.
  - rewrite !fv_snoc, !fv_cons. cbn [fst snd]. rewrite (Hp nm v eq_refl), Hb. auto.
  - rewrite !app_nil_r, fv_snoc. cbn [fst snd]. rewrite Hb, app_nil_r. auto.
Qed.

Lemma eff_mono s s' name value lines pend lines' pend' n :
  eff s s' name value lines pend lines' pend' -> field_values n (lines ++ pend) <> [] -> field_values n (lines' ++ pend') <> [].
Proof.
  intros E H. inversion E; subst; auto.
  - rewrite app_nil_r in H. rewrite fv_snoc. destruct (field_values n lines'); [congruence|discriminate].
  - rewrite fv_snoc in *. cbn [fst snd] in *. destruct (field_values n lines'); [|discriminate]. destruct (beq (lower nm) n); [discriminate|congruence].
  - rewrite !app_nil_r in *. rewrite fv_snoc. destruct (field_values n lines); [congruence|discriminate].
Qed.

Lemma SI_step name s s' value proc lines pend lines' pend' :
  SI name s proc lines pend -> wf_name name -> value_chars value ->
  eff s s' name value lines pend lines' pend' -> (s_written s' = true -> special name = true) ->
  FR s' pend' (lines' ++ pend') ->
  (special name = false -> field_values name (lines' ++ pend') = field_values name (lines ++ pend) ++ [value]) ->
  (joinable name -> name = TR /\ can_te = false /\ field_values name (lines' ++ pend') = [] \/
     field_values name (lines' ++ pend') = [comma_join (pvals name proc ++ [value])] /\ pend' <> [] /\ (name = TR -> can_te = true)) ->
  (s_must s' = true -> s_must s = true \/ (name = TE /\ is_chunked_ value = false)) ->
  s_last s' = s_last s || (beq name CO && connection_close value) ->
  s_date s' = s_date s || beq name (B "date") ->
  SI name s' (proc ++ [(name, value)]) lines' pend'.
Proof.
  intros I Hn Hv E Hs F' Hpl Hj Hmu Hl Hd.
  assert (Hmono : bad_te proc -> bad_te (proc ++ [(name, value)])).
  { intros (v & H1 & H2). exists v. split; auto. rewrite pvals_snoc. apply in_or_app. auto. } pose proof (eff_layout _ _ _ _ _ _ _ _ _ I Hn Hv E Hs) as (L1 & L2 & L3 & L4).
  assert (Hpn : forall nm v, pend = [(nm, v)] -> lower nm = name).
  { intros nm v Ep. destruct (si_pend _ _ _ _ _ I) as [[E0 _]|(nm' & v' & E0 & El & _)]; [congruence|]. congruence. }
  constructor; auto.
  - intros n Hsn. rewrite pvals_snoc. destruct (beq name n) eqn:Eb.
    + apply beq_eq in Eb. subst n. rewrite Hpl by auto. now rewrite (si_plain _ _ _ _ _ I) by auto.
    + destruct (eff_fv_other _ _ _ _ _ _ _ _ n E Hpn Eb) as [-> _]. rewrite app_nil_r. now apply (si_plain _ _ _ _ _ I).
  - intros n Hjn. rewrite pvals_snoc. destruct (beq name n) eqn:Eb.
    + apply beq_eq in Eb. subst n. specialize (Hj Hjn).
      destruct (pvals name proc ++ [value]) eqn:Ep; [destruct (pvals name proc); discriminate|]. rewrite <- Ep in *.
      destruct Hj as [Hj|(Hj1 & Hj2 & Hj0)]; [now left|]. right. split; [exact Hj0|]. exists []. rewrite app_nil_r. sp; auto.
    + destruct (eff_fv_other _ _ _ _ _ _ _ _ n E Hpn Eb) as [-> ->]. rewrite app_nil_r.
      pose proof (si_join _ _ _ _ _ I n Hjn) as J. destruct (pvals n proc); auto.
      destruct J as [J|(J0 & sfx & J1 & J2 & J3 & J4)]; [now left|]. right. split; [exact J0|]. exists sfx. sp; auto.
      * destruct J2 as [J2|[J2 J2']]; [now left|]. right. auto.
      * intros ->. rewrite beq_refl in Eb. discriminate.
  - intros X. destruct (Hmu X) as [Y|[-> Y]]; [apply Hmono; now apply (si_must _ _ _ _ _ I)|]. exists value. split; auto.
    rewrite pvals_snoc, beq_refl. apply in_or_app. right. now left.
  - rewrite Hl, (si_last _ _ _ _ _ I), pvals_snoc, existsb_app. destruct (beq name CO); cbn [existsb andb]; now rewrite ?orb_false_r, ?orb_assoc.
  - rewrite Hd, (si_date _ _ _ _ _ I), pvals_snoc, nonempty_app. destruct (beq name (B "date")); reflexivity.
Qed.

Definition value_fits (name value : bytes) : Prop :=
  value_chars value /\ (name = TE -> te_text -> text value) /\
  (name = CL -> known_agrees -> forall n, m_body m = Some (Known n) -> cl_means value n).

Lemma FR_len_false s pend all : FR s pend all -> s_wrote_len s = false -> te_values all = [] /\ cl_lines all = [] /\ len0 = false /\ s_prev s = None.
Proof.
  unfold FR. intros [F _] Hl. destruct (te_values all) as [|a [|b l]], (cl_lines all) as [|c [|d k]]; try (destruct F; fail);
  try (destruct F as (F1 & F2 & _); congruence). destruct F as [F1 F2]. sp; auto; congruence.
Qed.

(* names *)
Lemma name_cases name : beq name CL = true \/ beq name CL = false.
Proof. destruct (beq name CL); auto. Qed.

Lemma s_open_eq s name value : s_open w s name value =
  mkEs (s_dst s ++ fst (write_name w (s_cur s) name) ++ B ": " ++ value) (s_enc s) (s_allowed s) (s_date s) true (s_must s)
    (s_prev s) (s_wrote_len s) (s_last s) (snd (write_name w (s_cur s) name)).
Proof. unfold s_open. destruct (write_name w (s_cur s) name); reflexivity. Qed.
Lemma s_line_eq s name value : s_line w s name value =
  mkEs (s_dst s ++ fst (write_name w (s_cur s) name) ++ B ": " ++ value ++ CRLF) (s_enc s) (s_allowed s) (s_date s) (s_written s) (s_must s)
    (s_prev s) (s_wrote_len s) (s_last s) (snd (write_name w (s_cur s) name)).
Proof. unfold s_line. destruct (write_name w (s_cur s) name); reflexivity. Qed.
Lemma open_cur s name : wf_name name -> cur_ok (s_cur s) -> cur_ok (snd (write_name w (s_cur s) name)).
Proof. intros Hn Hc. destruct (write_name w (s_cur s) name) as [nm cur] eqn:E. now destruct (write_name_ok _ _ _ _ _ Hw Hc Hn E). Qed.
Lemma s_open_eff s name value lines : wf_name name -> cur_ok (s_cur s) ->
  eff s (s_open w s name value) name value lines [] lines [(fst (write_name w (s_cur s) name), value)].
Proof.
  intros Hn Hc. unfold s_open. destruct (write_name w (s_cur s) name) as [nm cur] eqn:E. cbn [fst].
  destruct (write_name_ok _ _ _ _ _ Hw Hc Hn E). apply eff_open; cbn; auto.
Qed.
Lemma s_line_eff s name value lines : wf_name name -> cur_ok (s_cur s) -> s_written s = false ->
  eff s (s_line w s name value) name value lines [] (lines ++ [(fst (write_name w (s_cur s) name), value)]) [].
Proof.
  intros Hn Hc Hs. unfold s_line. destruct (write_name w (s_cur s) name) as [nm cur] eqn:E. cbn [fst].
  destruct (write_name_ok _ _ _ _ _ Hw Hc Hn E). apply eff_line; cbn; auto.
Qed.
Lemma open_lower s name : wf_name name -> cur_ok (s_cur s) -> lower (fst (write_name w (s_cur s) name)) = name.
Proof. intros Hn Hc. destruct (write_name w (s_cur s) name) as [nm cur] eqn:E. now destruct (write_name_ok _ _ _ _ _ Hw Hc Hn E). Qed.

(* setters that do not touch the output *)
Lemma eff_pre s0 s s' name value l p l' p' : s_dst s0 = s_dst s -> s_written s0 = s_written s -> s_cur s0 = s_cur s ->
  eff s0 s' name value l p l' p' -> eff s s' name value l p l' p'.
Proof. intros H1 H2 H3 E. inversion E; subst; econstructor; eauto; congruence. Qed.
Lemma eff_post s0 s s' name value l p l' p' : s_dst s' = s_dst s0 -> s_written s' = s_written s0 -> s_cur s' = s_cur s0 ->
  eff s s0 name value l p l' p' -> eff s s' name value l p l' p'.
Proof. intros H1 H2 H3 E. inversion E; subst; econstructor; eauto; congruence. Qed.

Lemma s_join_step name s proc lines pend value s1 :
  SI name s proc lines pend -> wf_name name -> joinable name -> (name = TR -> can_te = true) ->
  s_dst s1 = s_dst s -> s_written s1 = s_written s -> s_cur s1 = s_cur s ->
  exists pend', eff s (s_join w s1 name value) name value lines pend lines pend' /\
     field_values name (lines ++ pend') = [comma_join (pvals name proc ++ [value])] /\ pend' <> [].
Proof.
  intros I Hn Hj Htr H1 H2 H3. pose proof (si_join _ _ _ _ _ I name Hj) as J. pose proof (si_cur _ _ _ _ _ I) as C.
  unfold s_join. destruct (si_pend _ _ _ _ _ I) as [[-> Ew]|(nm & v & -> & El & Ew & Es)]; rewrite H2, Ew.
  - exists [(fst (write_name w (s_cur s1) name), value)]. rewrite app_nil_r in *. split; [|split; [|discriminate]].
    + eapply eff_pre; [exact H1|exact H2|exact H3|]. apply s_open_eff; auto. congruence.
    + rewrite fv_snoc. cbn [fst snd]. rewrite open_lower, beq_refl by (auto; congruence).
      destruct (pvals name proc) as [|a vs] eqn:Ep.
      * rewrite J. reflexivity.
      * exfalso. destruct J as [(Jt & Jc & _)|(_ & sfx & _ & _ & _ & J4)]; [rewrite Htr in Jc by auto; discriminate|].
        now apply J4.
  - exists [(nm, v ++ B ", " ++ value)]. split; [|split; [|discriminate]].
    + apply eff_more; cbn; congruence.
    + rewrite fv_snoc in *. cbn [fst snd] in *. rewrite El, beq_refl in *.
      destruct (pvals name proc) as [|a vs] eqn:Ep.
      * destruct (field_values name lines); discriminate.
      * destruct J as [(Jt & Jc & _)|(J0 & sfx & J1 & J2 & J3 & J4)]; [rewrite Htr in Jc by auto; discriminate|].
        rewrite J3, app_nil_r in J1; [|rewrite fv_cons; cbn [fst snd]; rewrite El, beq_refl; discriminate].
        destruct (field_values name lines) as [|x l]; [|destruct l; discriminate]. injection J1 as ->.
        rewrite comma_join_snoc by discriminate. reflexivity.
Qed.

(* while a line of [name] is open, the one line of that name is it *)
Lemma FR_cl_open s name proc lines pend : SI name s proc lines pend -> name = CL -> s_written s = true ->
  exists nm v, pend = [(nm, v)] /\ field_values CL lines = [] /\ te_values (lines ++ pend) = [].
Proof.
  intros I -> Ew. destruct (si_pend _ _ _ _ _ I) as [[_ H]|(nm & v & -> & El & _)]; [congruence|].
  exists nm, v. split; [reflexivity|]. pose proof (si_fr _ _ _ _ _ I) as [F _].
  unfold cl_lines in F. change (B "content-length") with CL in F. rewrite fv_snoc in F. cbn [fst snd] in F. rewrite El, beq_refl in F.
  destruct (te_values (lines ++ [(nm, v)])) as [|a [|b l]]; [|destruct (field_values CL lines); destruct F|destruct F].
  destruct (field_values CL lines) as [|x l]; [auto|]. destruct l; destruct F.
Qed.

Lemma can_te_false b c : b || negb c = true -> negb b && c = false.
Proof. destruct b, c; auto. Qed.
Lemma can_te_true b c : b || negb c = false -> negb b && c = true.
Proof. destruct b, c; auto. Qed.

(* the step of a name outside the framing fields *)
Lemma step_other name s s' value proc lines pend lines' pend' :
  SI name s proc lines pend -> wf_name name -> value_chars value ->
  beq name CL = false -> beq name TE = false ->
  eff s s' name value lines pend lines' pend' -> (s_written s' = true -> special name = true) ->
  s_wrote_len s' = s_wrote_len s -> s_must s' = s_must s -> s_enc s' = s_enc s -> s_prev s' = s_prev s ->
  (special name = false -> field_values name (lines' ++ pend') = field_values name (lines ++ pend) ++ [value]) ->
  (joinable name -> name = TR /\ can_te = false /\ field_values name (lines' ++ pend') = [] \/
     field_values name (lines' ++ pend') = [comma_join (pvals name proc ++ [value])] /\ pend' <> [] /\ (name = TR -> can_te = true)) ->
  s_last s' = s_last s || (beq name CO && connection_close value) ->
  s_date s' = s_date s || beq name (B "date") ->
  SI name s' (proc ++ [(name, value)]) lines' pend'.
Proof.
  intros I Hn Hv Hc Ht E Hs H1 H2 H3 H4 Hpl Hj Hl Hd. assert (Hmu : s_must s' = true -> s_must s = true \/ (name = TE /\ is_chunked_ value = false)) by (left; congruence).
  eapply SI_step; eauto.
  assert (Hpn : forall nm v, pend = [(nm, v)] -> lower nm = name).
  { intros nm v Ep. destruct (si_pend _ _ _ _ _ I) as [[E0 _]|(nm' & v' & E0 & El & _)]; [congruence|]. congruence. }
  destruct (eff_fv_other _ _ _ _ _ _ _ _ CL E Hpn Hc) as [A A0].
  destruct (eff_fv_other _ _ _ _ _ _ _ _ TE E Hpn Ht) as [A1 A2].
  eapply FR_ext; [exact (si_fr _ _ _ _ _ I)|..]; auto.
Qed.

(* the step of a framing field *)
Lemma step_framing name s s' value proc lines pend lines' pend' :
  SI name s proc lines pend -> wf_name name -> value_chars value ->
  name = CL \/ name = TE ->
  eff s s' name value lines pend lines' pend' ->
  FR s' pend' (lines' ++ pend') -> (s_must s' = true -> s_must s = true \/ (name = TE /\ is_chunked_ value = false)) ->
  s_last s' = s_last s -> s_date s' = s_date s ->
  SI name s' (proc ++ [(name, value)]) lines' pend'.
Proof.
  intros I Hn Hv Hc E F Hmu Hl Hd. assert (special name = true) by (destruct Hc as [-> | ->]; reflexivity).
  eapply SI_step; eauto; try congruence.
  - intros [-> | ->]; destruct Hc; discriminate.
  - rewrite Hl. destruct Hc as [-> | ->]; cbn; now rewrite orb_false_r.
  - rewrite Hd. destruct Hc as [-> | ->]; cbn; now rewrite orb_false_r.
Qed.

Lemma FR_pend_cl nm v s lines pend : lower nm = CL -> te_values lines = [] -> cl_lines lines = [] -> len0 = false ->
  s_wrote_len s = true -> s_must s = false ->
  match m_body m with
      | Some (Known n) => ekind (s_enc s) = KLength n /\ (known_agrees -> cl_means v n)
      | Some Unknown => exists n, ekind (s_enc s) = KLength n /\ cl_means v n /\ n <= u64_max /\ s_prev s = Some n
      | None => method_is (m_method m) (B "HEAD") = true /\ field_values CL pend = []
      end -> FR s pend (lines ++ [(nm, v)]).
Proof.
  intros Hn Ht Hc H0 H1 H2 H3. unfold FR. unfold te_values, cl_lines in *. rewrite !fv_snoc. cbn [fst snd]. rewrite Hn, Ht, Hc.
  cbn. split; [auto|congruence].
Qed.

Lemma s_value_CL s proc lines pend value s' :
  SI CL s proc lines pend -> value_fits CL value -> s_value m w CL value s = Some s' ->
  exists lines' pend', SI CL s' (proc ++ [(CL, value)]) lines' pend'.
Proof.
  intros I (Hv & _ & Hfit) E. assert (Hn : wf_name CL) by (split; [discriminate|repeat constructor]).
  pose proof (si_cur _ _ _ _ _ I) as C. pose proof (si_fr _ _ _ _ _ I) as F.
  unfold s_value in E. change (beq CL (B "content-length")) with true in E. cbn iota in E.
  destruct (s_wrote_len s && negb (s_written s)) eqn:Ew; [discriminate|].
  destruct (s_written s) eqn:Es.
  - (* open already *)
    destruct (FR_cl_open _ _ _ _ _ I eq_refl Es) as (nm & v & -> & Hl & Ht).
    assert (Hnil : s_wrote_len s = true /\ match m_body m with Some Unknown => exists n, s_prev s = Some n | None => False | _ => True end).
    { destruct F as [F _]. rewrite Ht in F. unfold cl_lines in F. change (B "content-length") with CL in F. rewrite fv_snoc in F. cbn [fst snd] in F.
      destruct (si_pend _ _ _ _ _ I) as [[X _]|(nm' & v' & X & El & _)]; [discriminate|]. inversion X; subst nm' v'.
      rewrite El, beq_refl, Hl in F. cbn [app] in F. destruct F as (_ & F2 & _ & F4). split; auto.
      destruct (m_body m) as [[|]|]; auto.
      - destruct F4 as (n & _ & _ & _ & F4). eauto.
      - destruct F4 as [_ F4]. rewrite fv_cons in F4. cbn [fst snd] in F4. rewrite El, beq_refl in F4. discriminate. }
    destruct Hnil as [Hwl Hnil].
    assert (s' = s) as ->.
    { destruct (m_body m) as [[k|]|]; [congruence| |destruct Hnil].
      destruct Hnil as [n Hp]. destruct (content_length_parse value); [|discriminate]. rewrite Hp in E.
      destruct (negb (n =? n0)); congruence. }
    exists lines, [(nm, v)]. eapply step_framing; eauto. now apply eff_none.
  - rewrite andb_true_r in Ew. destruct (si_pend _ _ _ _ _ I) as [[-> _]|(nm' & v' & _ & _ & X & _)]; [|congruence].
    destruct (FR_len_false _ _ _ F Ew) as (Ft & Fc & F0 & Fp). rewrite app_nil_r in Ft, Fc.
    assert (Hm : s_must s = false) by (destruct (s_must s) eqn:X; auto; destruct F as [_ F]; rewrite app_nil_r, Ft in F; now contradiction F).
    destruct (m_body m) as [[k|]|] eqn:Eb.
    + injection E as <-. rewrite s_open_eq. eexists lines, [(_, value)].
      eapply step_framing; eauto.
      * apply (eff_open _ _ _ _ _ (fst (write_name w (s_cur s) CL))); cbn; auto using open_lower, open_cur.
      * apply FR_pend_cl; cbn; auto using open_lower. rewrite Eb. split; [reflexivity|]. intros Hk. now apply Hfit.
    + destruct (content_length_parse value) as [len|] eqn:El; [|discriminate].
      unfold content_length_parse in El. apply from_digits_spec in El as [El Em].
      rewrite Fp in E. injection E as <-. rewrite s_open_eq. eexists lines, [(_, value)].
      eapply step_framing; eauto.
      * apply (eff_open _ _ _ _ _ (fst (write_name w (s_cur s) CL))); cbn; auto using open_lower, open_cur.
      * apply FR_pend_cl; cbn [s_set_prev s_set_len s_set_enc s_enc s_must s_wrote_len s_prev]; auto using open_lower. rewrite Eb. exists len. sp; auto.
    + destruct (method_is (m_method m) (B "HEAD")) eqn:Eh; [|injection E as <-; exists lines, []; eapply step_framing; eauto; now apply eff_none].
      injection E as <-. rewrite s_line_eq. eexists (lines ++ [(_, value)]), [].
      eapply step_framing; eauto.
      * apply (eff_line _ _ _ _ _ (fst (write_name w (s_cur s) CL))); cbn; auto using open_lower, open_cur.
      * rewrite app_nil_r. apply FR_pend_cl; cbn; auto using open_lower. rewrite Eb. auto.
Qed.

Lemma FR_pend_te nm v s lines : lower nm = TE -> te_values lines = [] -> cl_lines lines = [] -> len0 = false ->
  s_wrote_len s = true -> ekind (s_enc s) = KChunked None -> can_te = true -> (te_text -> text v) ->
  (te_text -> s_must s = false -> final_chunked [v]) -> FR s [(nm, v)] (lines ++ [(nm, v)]).
Proof.
  intros Hn Ht Hc H0 H1 H2 H3 H4 H5. unfold FR. unfold te_values, cl_lines in *. rewrite !fv_snoc, !fv_cons. cbn [fst snd]. rewrite Hn, Ht, Hc.
  change (beq TE (B "transfer-encoding")) with true. change (beq TE (B "content-length")) with false.
  cbn [app field_values filter map]. split; [sp; auto; discriminate|discriminate].
Qed.

Lemma s_value_TE s proc lines pend value s' :
  SI TE s proc lines pend -> value_fits TE value -> s_value m w TE value s = Some s' ->
  exists lines' pend', SI TE s' (proc ++ [(TE, value)]) lines' pend'.
Proof.
  intros I (Hv & Hfit & _) E. assert (Hn : wf_name TE) by (split; [discriminate|repeat constructor]).
  pose proof (si_cur _ _ _ _ _ I) as C. pose proof (si_fr _ _ _ _ _ I) as F.
  unfold s_value in E. change (beq TE (B "content-length")) with false in E. change (beq TE (B "transfer-encoding")) with true in E. cbn iota in E.
  destruct (s_wrote_len s && negb (s_written s)) eqn:Ew; [discriminate|].
  destruct (ver_eqb (m_version m) HTTP10 || negb (can_chunked (m_method m) (m_status m))) eqn:Ec.
  { injection E as <-. exists lines, pend. eapply step_framing; eauto. now apply eff_none. }
  apply can_te_true in Ec. fold can_te in Ec. specialize (Hfit eq_refl).
  assert (Hch : te_text -> is_chunked_ value = true -> last_member value (B "chunked")).
  { intros Ht Hi. now apply is_chunked__spec in Hi. }
  cbn zeta in E. destruct (s_written s) eqn:Es.
  - cbn [s_written s_set_must s_set_len] in E. rewrite Es in E. injection E as <-.
    destruct (si_pend _ _ _ _ _ I) as [[_ H]|(nm & v & -> & El & _)]; [congruence|].
    assert (Ht : te_values lines = [] /\ cl_lines lines = [] /\ len0 = false /\ s_wrote_len s = true /\ ekind (s_enc s) = KChunked None /\ (te_text -> text v)).
    { destruct F as [F _]. unfold te_values, cl_lines in *. rewrite !fv_snoc in F. cbn [fst snd] in F. rewrite El in F.
      change (beq TE (B "transfer-encoding")) with true in F. change (beq TE (B "content-length")) with false in F.
      rewrite app_nil_r in F. destruct (field_values (B "transfer-encoding") lines) as [|a [|b l]]; cbn [app] in F; [|destruct F..].
      destruct (field_values (B "content-length") lines); [|destruct F]. destruct F as (F1 & F2 & F3 & F4 & F5 & _). sp; auto. }
    destruct Ht as (T1 & T2 & T3 & T4 & T5 & T6).
    exists lines, [(nm, v ++ B ", " ++ value)]. eapply step_framing; eauto.
    + apply eff_more; cbn; auto.
    + apply FR_pend_te; cbn [s_more s_set_must s_set_len s_wrote_len s_enc s_must]; auto.
      * intros X. apply text_app; auto. apply text_app; [apply text_comma|auto].
      * intros X Hm. apply negb_false_iff in Hm. apply final_join; auto.
    + cbn. intros X. right. split; [reflexivity|]. now apply negb_true_iff.
  - rewrite andb_true_r in Ew. cbn [s_written s_set_must s_set_len] in E. rewrite Es in E. injection E as <-.
    destruct (si_pend _ _ _ _ _ I) as [[-> _]|(nm' & v' & _ & _ & X & _)]; [|congruence].
    destruct (FR_len_false _ _ _ F Ew) as (Ft & Fc & F0 & Fp). rewrite app_nil_r in Ft, Fc.
    rewrite s_open_eq. eexists lines, [(_, value)]. eapply step_framing; eauto.
    + apply (eff_open _ _ _ _ _ (fst (write_name w (s_cur s) TE))); cbn; auto using open_lower, open_cur.
    + apply FR_pend_te; cbn [s_set_must s_set_len s_set_enc s_enc s_must s_wrote_len s_prev s_cur]; auto using open_lower.
      intros X Hm. apply negb_false_iff in Hm. apply final_single. auto.
    + cbn. intros X. right. split; [reflexivity|]. now apply negb_true_iff.
Qed.

Lemma s_join_proj s name value : let s' := s_join w s name value in
  s_wrote_len s' = s_wrote_len s /\ s_must s' = s_must s /\ s_enc s' = s_enc s /\ s_prev s' = s_prev s /\ s_last s' = s_last s /\ s_date s' = s_date s.
Proof. unfold s_join. destruct (s_written s); [|rewrite s_open_eq]; cbn; sp; reflexivity. Qed.
Lemma s_allow_proj s value : let s' := s_allow s value in
  s_wrote_len s' = s_wrote_len s /\ s_must s' = s_must s /\ s_enc s' = s_enc s /\ s_prev s' = s_prev s /\ s_last s' = s_last s /\ s_date s' = s_date s /\
  s_dst s' = s_dst s /\ s_written s' = s_written s /\ s_cur s' = s_cur s.
Proof. unfold s_allow. destruct (to_str value); cbn; sp; reflexivity. Qed.

Lemma s_value_other name s proc lines pend value s' :
  SI name s proc lines pend -> wf_name name -> beq name CL = false -> beq name TE = false -> value_chars value ->
  s_value m w name value s = Some s' ->
  exists lines' pend', SI name s' (proc ++ [(name, value)]) lines' pend'.
Proof.
  intros I Hn Hc Ht Hv E. pose proof (si_cur _ _ _ _ _ I) as C.
  unfold s_value in E. change (B "content-length") with CL in E. change (B "transfer-encoding") with TE in E. rewrite Hc, Ht in E.
  change (B "connection") with CO in E. change (B "trailer") with TR in E.
  destruct (beq name CO) eqn:Eco.
  { apply beq_eq in Eco. subst name. injection E as <-.
    remember (if negb (s_last s) && connection_close value then s_set_last s else s) as s1 eqn:E1.
    destruct (s_join_step CO s proc lines pend value s1 I Hn) as (pend' & J1 & J2 & J3); try (subst s1; destruct (_ && _); reflexivity); [now left|discriminate|].
    destruct (s_join_proj s1 CO value) as (K1 & K2 & K3 & K4 & K5 & K6).
    assert (Ks : s_wrote_len s1 = s_wrote_len s /\ s_must s1 = s_must s /\ s_enc s1 = s_enc s /\ s_prev s1 = s_prev s /\ s_date s1 = s_date s)
      by (subst s1; destruct (_ && _); sp; reflexivity).
    destruct Ks as (K7 & K8 & K9 & K10 & K11).
    exists lines, pend'. eapply step_other; eauto; try congruence.
    - intros X. cbn in X. discriminate.
    - intros _. right. sp; auto. discriminate.
    - rewrite K5. subst s1. rewrite beq_refl. cbn [andb].
      destruct (s_last s) eqn:El; cbn [negb andb orb]; [exact El|]. destruct (connection_close value); [reflexivity|exact El].
    - rewrite K6, K11. change (beq CO (B "date")) with false. now rewrite orb_false_r. }
  assert (Hplain : forall s1, s_dst s1 = s_dst s -> s_written s1 = s_written s -> s_cur s1 = s_cur s ->
     s_wrote_len s1 = s_wrote_len s -> s_must s1 = s_must s -> s_enc s1 = s_enc s -> s_prev s1 = s_prev s -> s_last s1 = s_last s ->
     s_date s1 = s_date s || beq name (B "date") -> beq name TR = false ->
     exists lines' pend', SI name (s_line w s1 name value) (proc ++ [(name, value)]) lines' pend').
  { intros s1 A1 A2 A3 A4 A5 A6 A7 A8 A9 Htr.
    assert (Hs : special name = false) by (unfold special; rewrite Hc, Ht, Eco, Htr; reflexivity).
    destruct (si_pend _ _ _ _ _ I) as [[-> Ew]|(nm & v & _ & _ & _ & X)]; [|congruence].
    exists (lines ++ [(fst (write_name w (s_cur s1) name), value)]), [].
    eapply step_other; eauto; try (rewrite s_line_eq; cbn; congruence).
    - eapply eff_pre; [exact A1|exact A2|exact A3|]. apply s_line_eff; congruence.
    - intros _. rewrite !app_nil_r, fv_snoc. cbn [fst snd]. rewrite open_lower, beq_refl by congruence. reflexivity.
    - intros [-> | ->]; discriminate.
    - rewrite s_line_eq. cbn [s_last]. rewrite A8, Eco, andb_false_l, orb_false_r. reflexivity.
    - rewrite s_line_eq. exact A9. }
  destruct (beq name (B "date")) eqn:Ed.
  { injection E as <-. apply Hplain; auto; [cbn; now rewrite orb_true_r|]. apply beq_eq in Ed. subst name. reflexivity. }
  destruct (beq name TR) eqn:Etr; [|injection E as <-; apply Hplain; auto; now rewrite orb_false_r].
  apply beq_eq in Etr. subst name.
  destruct (ver_eqb (m_version m) HTTP10 || negb (can_chunked (m_method m) (m_status m))) eqn:Ec.
  { injection E as <-. apply can_te_false in Ec. fold can_te in Ec. exists lines, pend.
    eapply step_other; eauto; try (cbn; now rewrite orb_false_r).
    - now apply eff_none.
    - discriminate.
    - intros Hj. left. split; [reflexivity|split; [exact Ec|]].
      pose proof (si_join _ _ _ _ _ I TR Hj) as J. destruct (pvals TR proc) eqn:Ep; auto.
      destruct J as [(_ & _ & J)|(J0 & sfx & J1 & J2 & J3 & J4)]; auto. rewrite J0 in Ec by reflexivity. discriminate. }
  apply can_te_true in Ec. fold can_te in Ec. injection E as <-.
  destruct (s_join_step TR s proc lines pend value s I Hn) as (pend' & J1 & J2 & J3); auto; [now right|].
  destruct (s_join_proj s TR value) as (K1 & K2 & K3 & K4 & K5 & K6).
  destruct (s_allow_proj (s_join w s TR value) value) as (A1 & A2 & A3 & A4 & A5 & A6 & A7 & A8 & A9).
  exists lines, pend'. eapply step_other; eauto; try congruence.
  - eapply eff_post; [..|exact J1]; auto.
  - intros X. cbn in X. discriminate.
  - rewrite A5, K5. change (beq TR CO) with false. now rewrite orb_false_r.
  - rewrite A6, K6. change (beq TR (B "date")) with false. now rewrite orb_false_r.
Qed.

Lemma s_value_step name s proc lines pend value s' :
  SI name s proc lines pend -> wf_name name -> value_fits name value -> s_value m w name value s = Some s' ->
  exists lines' pend', SI name s' (proc ++ [(name, value)]) lines' pend'.
Proof.
  intros I Hn Hf E. destruct (beq name CL) eqn:Ec.
  { apply beq_eq in Ec. subst name. eapply s_value_CL; eauto. }
  destruct (beq name TE) eqn:Et.
  { apply beq_eq in Et. subst name. eapply s_value_TE; eauto. }
  eapply s_value_other; eauto. apply Hf.
Qed.

Lemma s_values_step name vs : forall s proc lines pend s',
  SI name s proc lines pend -> wf_name name -> Forall (value_fits name) vs -> s_values m w name vs s = Some s' ->
  exists lines' pend', SI name s' (proc ++ map (pair name) vs) lines' pend'.
Proof.
  induction vs as [|v vs IH]; intros s proc lines pend s' I Hn Hf E; cbn [s_values map] in *.
  - injection E as <-. rewrite app_nil_r. eauto.
  - destruct (s_value m w name v s) as [s1|] eqn:E1; [|discriminate].
    destruct (s_value_step _ _ _ _ _ _ _ I Hn (Forall_inv Hf) E1) as (l1 & p1 & I1).
    destruct (IH _ _ _ _ _ I1 Hn (Forall_inv_tail Hf) E) as (l2 & p2 & I2).
    rewrite <- app_assoc in I2. eauto.
Qed.

Definition pairs (h : hmap) : list (bytes * bytes) := flat_map (fun g => map (pair (fst g)) (snd g)) h.
Lemma pvals_pairs h n : NoDup (map fst h) -> pvals n (pairs h) = hm_get_all h n.
Proof.
  induction h as [|[k vs] h IH]; intros Hd; [reflexivity|]. inversion Hd; subst. change (pairs ((k, vs) :: h)) with (map (pair k) vs ++ pairs h). cbn [hm_get_all].
  unfold pvals in *. rewrite filter_app, map_app, IH by auto.
  assert (Hg : forall l : list bytes, map snd (filter (fun p => beq (fst p) n) (map (pair k) l)) = if beq k n then l else []).
  { induction l as [|a l IHl]; cbn; [destruct (beq k n); reflexivity|]. destruct (beq k n); cbn; rewrite IHl; reflexivity. }
  rewrite Hg. destruct (beq k n) eqn:E; auto. apply beq_eq in E. subst n.
  assert (X : hm_get_all h k = []).
  { clear -H1. induction h as [|[k' vs'] h IH]; [reflexivity|]. cbn in *. destruct (beq k' k) eqn:E; [apply beq_eq in E; subst; tauto|tauto]. }
  rewrite X, app_nil_r. reflexivity.
Qed.

Lemma s_headers_step h : forall name s proc lines pend s',
  SI name s proc lines pend -> (forall g, In g h -> wf_name (fst g) /\ Forall (value_fits (fst g)) (snd g)) ->
  NoDup (map fst h) -> (forall g, In g h -> pvals (fst g) proc = []) -> s_headers m w h s = Some s' ->
  exists name' lines' pend', SI name' s' (proc ++ pairs h) lines' pend'.
Proof.
  induction h as [|[k vs] h IH]; intros name s proc lines pend s' I Hg Hd Hp E; cbn [s_headers] in *.
  - injection E as <-. unfold pairs. cbn. rewrite app_nil_r. eauto.
  - destruct (s_values m w k vs (s_new_name s)) as [s1|] eqn:E1; [|discriminate].
    destruct (Hg _ (or_introl eq_refl)) as [Hn Hf]. cbn [fst snd] in *.
    destruct (SI_new_name _ _ _ _ _ k I (Hp _ (or_introl eq_refl))) as [l0 I0].
    destruct (s_values_step _ _ _ _ _ _ _ I0 Hn Hf E1) as (l1 & p1 & I1).
    cbn in Hd. inversion Hd; subst.
    destruct (IH k s1 _ l1 p1 s' I1) as (k2 & l2 & p2 & I2); auto.
    + intros g Hgin. apply Hg. now right.
    + intros g Hgin. unfold pvals. rewrite filter_app, map_app. fold (pvals (fst g) proc).
      rewrite (Hp g (or_intror Hgin)). cbn [app].
      assert (beq k (fst g) = false). { apply beq_false_ne. intros ->. apply H1. now apply in_map. }
      clear -H. induction vs; cbn; auto. now rewrite H.
    + rewrite <- app_assoc in I2. exists k2, l2, p2. exact I2.
Qed.
End Encode.
