(* The header helpers compute what S_Framing specifies. *)
From Verif Require Import Base M_HeaderMap M_Httparse M_Headers S_Framing.

Lemma to_str_spec v : (text v /\ to_str v = Some v) \/ (~ text v /\ to_str v = None).
Proof.
  unfold to_str, text. destruct (forallb _ v) eqn:E.
  - left. split; auto. apply Forall_forall. rewrite forallb_forall in E. intros b Hb. specialize (E b Hb). lia.
  - right. split; auto. intros H. rewrite Forall_forall in H.
    assert (forallb (fun b => (b =? 9) || ((32 <=? b) && (b <=? 126))) v = true); [|congruence].
    apply forallb_forall. intros b Hb. specialize (H b Hb). lia.
Qed.

(* ---- splitting ---- *)
Lemma split_comma_ne s : split_comma s <> [].
Proof. destruct s as [|b s]; cbn [split_comma]; [discriminate|]. destruct (b =? 44); [discriminate|]. destruct (split_comma s); discriminate. Qed.

Fixpoint join_comma (l : list bytes) : bytes :=
  match l with
  | [] => []
  | [x] => x
  | x :: r => x ++ 44 :: join_comma r
  end.
Lemma join_split s : join_comma (split_comma s) = s.
Proof.
  induction s as [|b s IH]; cbn [split_comma]; auto.
  pose proof (split_comma_ne s) as Hn. destruct (N.eqb_spec b 44) as [->|Hb].
  - destruct (split_comma s) as [|h t]; [congruence|]. cbn [join_comma app] in *. now rewrite IH.
  - destruct (split_comma s) as [|h [|h2 t]]; [congruence| |]; cbn [join_comma app] in *; now rewrite IH.
Qed.
Lemma split_no_comma s : Forall (fun e => ~ In 44 e) (split_comma s).
Proof.
  induction s as [|b s IH]; cbn [split_comma]; [repeat constructor; auto|].
  destruct (N.eqb_spec b 44); [constructor; auto|]. destruct (split_comma s) as [|h t]; [repeat constructor; cbn; intuition|].
  inversion IH; subst. constructor; auto. cbn. intuition.
Qed.
Lemma split_app_comma a b : split_comma (a ++ 44 :: b) = split_comma a ++ split_comma b.
Proof.
  induction a as [|x a IH]; cbn [app split_comma]; auto.
  destruct (x =? 44); [now rewrite IH|]. rewrite IH.
  pose proof (split_comma_ne a). destruct (split_comma a) as [|h t]; [congruence|reflexivity].
Qed.
Lemma split_single e : ~ In 44 e -> split_comma e = [e].
Proof.
  induction e as [|x e IH]; intros H; cbn [split_comma]; auto. cbn [In] in H.
  destruct (N.eqb_spec x 44); [intuition|]. rewrite IH by tauto. reflexivity.
Qed.

(* e is an element of the list iff v = p ++ e ++ q with commas (or ends) around *)
Lemma split_In v e : In e (split_comma v) <->
  ~ In 44 e /\ exists p q, v = p ++ e ++ q /\ (p = [] \/ exists p', p = p' ++ [44]) /\ (q = [] \/ exists q', q = 44 :: q').
Proof.
  split.
  - intros H. split; [pose proof (split_no_comma v) as F; rewrite Forall_forall in F; auto|].
    rewrite <- (join_split v). revert H. generalize (split_comma v). intros l.
    induction l as [|x l IH]; intros H; [destruct H|].
    destruct H as [->|H].
    + exists [], (match l with [] => [] | _ => 44 :: join_comma l end). cbn [app join_comma].
      destruct l; [rewrite app_nil_r; auto|]. split; [reflexivity|]. eauto.
    + destruct (IH H) as (p & q & E & Hp & Hq). destruct l as [|y l]; [destruct H|].
      exists (x ++ 44 :: p), q. cbn [join_comma] in *. rewrite E. rewrite <- !app_assoc. split; [reflexivity|].
      split; [|auto]. right. destruct Hp as [->|[p' ->]]; [exists x; reflexivity|].
      exists (x ++ 44 :: p'). rewrite <- app_assoc. reflexivity.
  - intros (Hc & p & q & -> & Hp & Hq).
    assert (Hq' : In e (split_comma (e ++ q))).
    { destruct Hq as [->|[q' ->]]; [rewrite app_nil_r, split_single by auto; now left|].
      rewrite split_app_comma, split_single by auto. apply in_or_app. left. now left. }
    destruct Hp as [->|[p' ->]]; [exact Hq'|]. rewrite <- app_assoc. cbn [app].
    rewrite split_app_comma. apply in_or_app. auto.
Qed.

Lemma split_last v e : last (split_comma v) [] = e <->
  ~ In 44 e /\ exists p, v = p ++ e /\ (p = [] \/ exists p', p = p' ++ [44]).
Proof.
  split.
  - intros <-. split.
    + pose proof (split_no_comma v) as F. rewrite Forall_forall in F. apply F.
      pose proof (split_comma_ne v). destruct (exists_last H) as (i & x & ->). rewrite last_last. apply in_or_app. right. now left.
    + pose proof (split_comma_ne v) as H. pose proof (join_split v) as J. revert H J. generalize (split_comma v). intros l H <-. revert H.
      induction l as [|x l IH]; intros H; [congruence|]. destruct l as [|y l].
      * exists []. cbn. auto.
      * destruct IH as (p & E & Hp); [discriminate|]. exists (x ++ 44 :: p). cbn [join_comma last] in *. rewrite E.
        rewrite <- !app_assoc. split; [reflexivity|]. right. destruct Hp as [->|[p' ->]]; [exists x; reflexivity|].
        exists (x ++ 44 :: p'). rewrite <- app_assoc. reflexivity.
  - intros (Hc & p & -> & [->|[p' ->]]).
    + cbn [app]. now rewrite split_single.
    + rewrite <- app_assoc. cbn [app]. rewrite split_app_comma, (split_single e) by auto. apply last_last.
Qed.

(* ---- trimming ---- *)
Lemma is_blank_iff b : is_blank b = true <-> b = 32 \/ b = 9.
Proof. unfold is_blank. rewrite orb_true_iff, !N.eqb_eq. reflexivity. Qed.
Lemma drop_while_split f s : exists w, s = w ++ drop_while f s /\ Forall (fun b => f b = true) w /\
  match drop_while f s with [] => True | b :: _ => f b = false end.
Proof.
  induction s as [|b s (w & E & Hw & Hd)]; cbn [drop_while]; [exists []; auto|].
  destruct (f b) eqn:Ef.
  - exists (b :: w). cbn [app]. rewrite <- E. repeat split; auto.
  - exists []. auto.
Qed.
Lemma drop_while_app f w t : Forall (fun b => f b = true) w ->
  drop_while f (w ++ t) = drop_while f t.
Proof. induction 1; cbn [app drop_while]; auto. now rewrite H. Qed.
Lemma trim_split s : exists w1 w2, s = w1 ++ trim s ++ w2 /\ blanks w1 /\ blanks w2.
Proof.
  unfold trim, trim_end, blanks.
  destruct (drop_while_split is_blank s) as (w1 & E1 & H1 & _).
  destruct (drop_while_split is_blank (rev (drop_while is_blank s))) as (w2 & E2 & H2 & _).
  exists w1, (rev w2). split; [|split].
  - transitivity (w1 ++ drop_while is_blank s); [exact E1|]. f_equal. rewrite <- rev_app_distr, <- E2, rev_involutive. reflexivity.
  - eapply Forall_impl; [|exact H1]. intros b. apply is_blank_iff.
  - apply Forall_rev. eapply Forall_impl; [|exact H2]. intros b. apply is_blank_iff.
Qed.
Definition no_edge_blank (t : bytes) : Prop :=
  (forall b r, t = b :: r -> is_blank b = false) /\ (forall b r, t = r ++ [b] -> is_blank b = false).
Lemma blanks_is w : blanks w -> Forall (fun b => is_blank b = true) w.
Proof. intros H. eapply Forall_impl; [|exact H]. intros b. apply is_blank_iff. Qed.
Lemma drop_id f t : (forall b r, t = b :: r -> f b = false) -> drop_while f t = t.
Proof. destruct t as [|b t]; intros H; auto. cbn [drop_while]. rewrite (H b t); auto. Qed.
Lemma trim_unique w1 t w2 : blanks w1 -> blanks w2 -> no_edge_blank t -> trim (w1 ++ t ++ w2) = t.
Proof.
  intros H1 H2 [E1 E2]. unfold trim, trim_end. rewrite drop_while_app by now apply blanks_is.
  destruct t as [|b t].
  - cbn [app]. rewrite <- (app_nil_r w2), drop_while_app by now apply blanks_is. reflexivity.
  - rewrite (drop_id is_blank ((b :: t) ++ w2)).
    + rewrite rev_app_distr, drop_while_app by (apply Forall_rev; now apply blanks_is).
      rewrite drop_id; [apply rev_involutive|]. intros x r Hx. apply (E2 x (rev r)).
      rewrite <- (rev_involutive (b :: t)), Hx. reflexivity.
    + cbn [app]. intros x r Hx. inversion Hx; subst. eapply E1; reflexivity.
Qed.

Lemma lower_no_blank t e : lower t = e -> no_edge_blank e -> no_edge_blank t.
Proof.
  intros <- [H1 H2].
  assert (Hb : forall b, is_blank (to_lower b) = is_blank b).
  { intros b. unfold is_blank, to_lower. destruct (N.leb_spec 65 b), (N.leb_spec b 90); cbn [andb]; lia. }
  split; intros b r ->.
  - rewrite <- Hb. eapply (H1 (to_lower b) (lower r)). reflexivity.
  - rewrite <- Hb. eapply (H2 (to_lower b) (lower r)). unfold lower. now rewrite map_app.
Qed.

(* trimming and comparing, against the spec's decomposition *)
Lemma trim_eq_ic s e : no_edge_blank e -> lower e = e ->
  eq_ic (trim s) e = true <-> exists w1 t w2, s = w1 ++ t ++ w2 /\ blanks w1 /\ blanks w2 /\ lower t = e.
Proof.
  intros He Hl. rewrite eq_ic_eq, Hl. split.
  - intros E. destruct (trim_split s) as (w1 & w2 & Es & H1 & H2). exists w1, (trim s), w2. auto.
  - intros (w1 & t & w2 & -> & H1 & H2 & E). rewrite trim_unique; auto. eapply lower_no_blank; eauto.
Qed.

Lemma blanks_no_comma w : blanks w -> ~ In 44 w.
Proof. unfold blanks. rewrite Forall_forall. intros H Hin. apply H in Hin. lia. Qed.

Lemma connection_has_spec v e : no_edge_blank e -> lower e = e -> ~ In 44 e ->
  connection_has v e = true <-> text v /\ list_member v e.
Proof.
  intros He Hl Hc. unfold connection_has. destruct (to_str_spec v) as [[Ht ->]|[Ht ->]]; [|intuition discriminate].
  rewrite existsb_exists. unfold list_member. split.
  - intros (x & Hin & Hx). split; auto. apply split_In in Hin as (Hn & p & q & -> & Hp & Hq).
    apply trim_eq_ic in Hx as (w1 & t & w2 & -> & H1 & H2 & E); auto.
    exists p, w1, t, w2, q. rewrite <- !app_assoc. repeat split; auto.
    intros Hin. apply Hn. rewrite !in_app_iff. auto.
  - intros (_ & p & w1 & t & w2 & q & -> & Hp & Hq & H1 & H2 & Hn & E).
    exists (w1 ++ t ++ w2). split.
    + apply split_In. split.
      * rewrite !in_app_iff. intros [H|[H|H]]; [eapply blanks_no_comma in H1|auto|eapply blanks_no_comma in H2]; eauto.
      * exists p, q. rewrite <- !app_assoc. auto.
    + apply trim_eq_ic; auto. exists w1, t, w2. auto.
Qed.

Lemma is_chunked__spec v : is_chunked_ v = true <-> text v /\ last_member v (B "chunked").
Proof.
  assert (He : no_edge_blank (B "chunked")).
  { split; intros b r E.
    - inversion E; reflexivity.
    - change (B "chunked") with (B "chunke" ++ [100]) in E. apply app_inj_tail in E as [_ <-]. reflexivity. }
  unfold is_chunked_. destruct (to_str_spec v) as [[Ht ->]|[Ht ->]]; [|intuition discriminate].
  rewrite (trim_eq_ic _ (B "chunked")) by (auto; reflexivity). unfold last_member. split.
  - intros (w1 & t & w2 & E & H1 & H2 & El). split; auto. apply split_last in E as (Hn & p & -> & Hp).
    exists p, w1, t, w2. repeat split; auto. intros Hin. apply Hn. rewrite !in_app_iff. auto.
  - intros (_ & p & w1 & t & w2 & -> & Hp & H1 & H2 & Hn & El). exists w1, t, w2. repeat split; auto.
    apply split_last. split.
    + rewrite !in_app_iff. intros [H|[H|H]]; [eapply blanks_no_comma in H1|auto|eapply blanks_no_comma in H2]; eauto.
    + exists p. auto.
Qed.

Lemma is_chunked_spec vs : is_chunked vs = true <-> final_chunked vs.
Proof.
  unfold final_chunked. destruct vs as [|v0 vs0] eqn:Ev.
  - cbn. split; [discriminate|]. intros (i & v & E & _). destruct i; discriminate.
  - rewrite <- Ev. assert (Hne : vs <> []) by (subst; discriminate).
    destruct (exists_last Hne) as (i & v & ->).
    unfold is_chunked. rewrite last_last. destruct (i ++ [v]) eqn:E; [destruct i; discriminate|]. rewrite <- E.
    rewrite is_chunked__spec. split.
    + intros H. exists i, v. tauto.
    + intros (i' & v' & E' & H). apply app_inj_tail in E' as [_ <-]. auto.
Qed.

(* ---- numbers ---- *)
Lemma dec_acc_mono ds : forall n, n <= fold_left (fun n d => 10 * n + (d - 48)) ds n.
Proof. induction ds as [|d ds IH]; intros n; cbn [fold_left]; [lia|]. specialize (IH (10 * n + (d - 48))). lia. Qed.
Lemma from_digits_loop_spec ds : forall acc r, acc <= u64_max ->
  from_digits_loop ds acc = Some r <-> Forall digit ds /\ fold_left (fun n d => 10 * n + (d - 48)) ds acc = r /\ r <= u64_max.
Proof.
  induction ds as [|d ds IH]; intros acc r Ha; cbn [from_digits_loop fold_left].
  - split; [intros H; inversion H; subst; auto|intros (_ & -> & _); auto].
  - destruct ((48 <=? d) && (d <=? 57)) eqn:Ed.
    + assert (Hd : digit d) by (unfold digit; lia).
      destruct (checked_mul acc 10) as [m|] eqn:Em.
      * apply checked_mul_some in Em as [-> Hm].
        destruct (checked_add (acc * 10) (d - 48)) as [a|] eqn:Ea.
        -- apply checked_add_some in Ea as [-> Hle]. rewrite IH by auto.
           rewrite (N.mul_comm acc 10). split; intros (H1 & H2 & H3); repeat split; auto. now inversion H1.
        -- split; [discriminate|]. intros (_ & Hr & Hle). exfalso.
           pose proof (dec_acc_mono ds (10 * acc + (d - 48))). unfold checked_add in Ea.
           destruct (N.leb_spec (acc * 10 + (d - 48)) u64_max); [discriminate|lia].
      * split; [discriminate|]. intros (_ & Hr & Hle). exfalso.
        pose proof (dec_acc_mono ds (10 * acc + (d - 48))). unfold checked_mul in Em.
        destruct (N.leb_spec (acc * 10) u64_max); [discriminate|lia].
    + split; [discriminate|]. intros (H & _). inversion H; subst. unfold digit in *. lia.
Qed.
Lemma from_digits_spec v n : from_digits v = Some n <-> cl_means v n /\ n <= u64_max.
Proof.
  unfold from_digits, cl_means, dec_num. destruct v as [|b v].
  - split; [discriminate|]. intros ((H & _) & _). congruence.
  - rewrite from_digits_loop_spec by discriminate. intuition congruence.
Qed.
Lemma supported_max n : supported_length n <-> n <= MAX_LEN.
Proof. unfold supported_length, MAX_LEN, u64_max. change (2 ^ 64 - 2) with 18446744073709551614. lia. Qed.
Lemma MAX_LEN_lt : MAX_LEN < u64_max.
Proof. reflexivity. Qed.
Lemma cl_means_fun v n m : cl_means v n -> cl_means v m -> n = m.
Proof. unfold cl_means. intuition congruence. Qed.
Lemma le_MAX_u64 n : n <= MAX_LEN -> n <= u64_max.
Proof. intros H. eapply N.le_trans; [exact H|]. apply N.lt_le_incl, MAX_LEN_lt. Qed.
