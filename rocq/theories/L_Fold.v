(* Lemmas for obs_fold_line and ReasonPhrase. *)
From Verif Require Import Base M_HeaderMap M_Headers M_Encode M_RoleEncode S_Send S_Framing S_Head.

Lemma ascii_ws_spec b : ascii_ws b = true <-> white b.
Proof. unfold ascii_ws, white. lia. Qed.
Lemma trim_start_spec s : exists a, s = a ++ trim_start_ws s /\ Forall white a /\ (forall r x, trim_start_ws s = x :: r -> ~ white x).
Proof.
  induction s as [|b s IH]; cbn; [exists []; repeat split; auto; discriminate|].
  destruct (ascii_ws b) eqn:E.
  - destruct IH as (a & E1 & F & H). exists (b :: a). split; [cbn; congruence|]. split; auto. constructor; auto. now apply ascii_ws_spec.
  - exists []. split; [reflexivity|]. split; [constructor|]. intros r x X. inversion X; subst. rewrite <- ascii_ws_spec. congruence.
Qed.
Lemma trim_end_spec s : cut_end s (trim_end_ws s).
Proof.
  unfold trim_end_ws. destruct (trim_start_spec (rev s)) as (a & E & F & H). exists (rev a). split; [|split].
  - rewrite <- rev_app_distr, <- E. now rewrite rev_involutive.
  - now apply Forall_rev.
  - intros r x X. apply (f_equal (@rev N)) in X. rewrite rev_involutive, rev_app_distr in X. eapply H. exact X.
Qed.
Lemma trim_ws_spec s : cut_both s (trim_ws s).
Proof.
  unfold trim_ws. destruct (trim_end_spec s) as (b & E & F & H). destruct (trim_start_spec (trim_end_ws s)) as (a & E' & F' & H').
  exists a, b. split; [rewrite app_assoc, <- E'; exact E|]. repeat split; auto.
  intros r x X. rewrite X in E'. rewrite app_assoc in E'. eapply H. exact E'.
Qed.

Lemma cut_lf_none v : ~ In 10 v -> cut_lf v = None.
Proof.
  induction v as [|b v IH]; cbn; auto. intros H. destruct (N.eqb_spec b 10); [tauto|]. now rewrite IH by tauto.
Qed.
Lemma cut_lf_app first r : ~ In 10 first -> cut_lf (first ++ 10 :: r) = Some (first, r).
Proof.
  induction first as [|b v IH]; cbn; auto. intros H. destruct (N.eqb_spec b 10); [tauto|]. now rewrite IH by tauto.
Qed.
Lemma split_lf_none v : ~ In 10 v -> split_lf v = [v].
Proof.
  induction v as [|b v IH]; cbn; auto. intros H. destruct (N.eqb_spec b 10); [tauto|]. now rewrite IH by tauto.
Qed.
Lemma split_lf_app first r : ~ In 10 first -> split_lf (first ++ 10 :: r) = first :: split_lf r.
Proof.
  induction first as [|b v IH]; cbn; auto. intros H. destruct (N.eqb_spec b 10); [tauto|]. now rewrite IH by tauto.
Qed.
Lemma split_join rest : forall l, ~ In 10 l -> Forall (fun x => ~ In 10 x) rest -> split_lf (join_lf l rest) = l :: rest.
Proof.
  induction rest as [|m rest IH]; intros l H F; cbn [join_lf]; [now apply split_lf_none|]. inversion F; subst. rewrite split_lf_app by auto. now rewrite IH.
Qed.
Lemma fold_trim ls : forall acc, fold_left (fun acc line => acc ++ [32] ++ trim_ws line) ls acc = acc ++ concat (map (fun t => 32 :: t) (map trim_ws ls)).
Proof.
  induction ls as [|l ls IH]; intros acc; cbn [fold_left map concat]; [now rewrite app_nil_r|]. rewrite IH, <- !app_assoc. reflexivity.
Qed.
Lemma trim_end_len s : lenN (trim_end_ws s) <= lenN s.
Proof. destruct (trim_end_spec s) as (b & E & _). rewrite E at 2. rewrite lenN_app. lia. Qed.
Lemma trim_len s : lenN (trim_ws s) <= lenN s.
Proof. destruct (trim_ws_spec s) as (a & b & E & _). rewrite E at 2. rewrite !lenN_app. lia. Qed.
Lemma fold_len rest : forall l, lenN (concat (map (fun t => 32 :: t) (map trim_ws (l :: rest)))) <= 1 + lenN (join_lf l rest).
Proof.
  induction rest as [|m rest IH]; intros l; cbn [map concat join_lf].
  - rewrite app_nil_r, lenN_cons. pose proof (trim_len l). lia.
  - specialize (IH m). cbn [map concat] in IH. rewrite lenN_app, lenN_cons, (lenN_app l), lenN_cons. pose proof (trim_len l). lia.
Qed.
Lemma obs_fold_eq first l rest : ~ In 10 first -> Forall (fun x => ~ In 10 x) (l :: rest) ->
  obs_fold_line (join_lf first (l :: rest)) = Some (trim_end_ws first ++ concat (map (fun t => 32 :: t) (map trim_ws (l :: rest)))).
Proof.
  intros H F. inversion F; subst. cbn [join_lf]. unfold obs_fold_line. rewrite cut_lf_app, split_join, fold_trim by auto.
  assert (X : (lenN (trim_end_ws first ++ concat (map (fun t => 32 :: t) (map trim_ws (l :: rest)))) <=? lenN (first ++ 10 :: join_lf l rest)) = true); [|now rewrite X].
  apply N.leb_le. rewrite !lenN_app, lenN_cons. pose proof (trim_end_len first). pose proof (fold_len rest l). lia.
Qed.

Lemma white_dec b : {white b} + {~ white b}.
Proof. destruct (ascii_ws b) eqn:E; [left|right]; rewrite <- ascii_ws_spec; congruence. Qed.
(* a line whose only CR is its last byte loses it *)
Definition cr_last (l : bytes) : Prop := exists a z, l = a ++ z /\ ~ In 13 a /\ (z = [] \/ z = [13]).
Lemma cr_cut s a b t : cr_last s -> s = a ++ t ++ b -> (forall r x, t = r ++ [x] -> ~ white x) -> ~ In 13 t.
Proof.
  intros (p & z & E & Hp & Hz) Es Ht Hin. destruct t as [|x t _] using rev_ind; [destruct Hin|].
  assert (Hx : ~ white x) by (eapply Ht; reflexivity).
  apply in_app_or in Hin as [Hin|[->|[]]]; [|apply Hx; unfold white; auto]. 
  (* 13 lies strictly before x in s *)
  assert (Hs : In 13 (removelast s)).
  { rewrite Es. destruct b as [|y b _] using rev_ind.
    - rewrite app_nil_r, app_assoc, removelast_last. apply in_or_app. now right.
    - rewrite !app_assoc, removelast_last. apply in_or_app. left. apply in_or_app. left. apply in_or_app. now right. }
  rewrite E in Hs. destruct Hz as [-> | ->].
  - rewrite app_nil_r in Hs. apply Hp. clear - Hs. destruct p as [|y p _] using rev_ind; [destruct Hs|]. rewrite removelast_last in Hs. apply in_or_app. now left.
  - rewrite removelast_last in Hs. auto.
Qed.

Lemma find_invalid_spec s :
  match find_invalid_byte s with
  | None => Forall (fun b => rp_valid_byte b = true) s
  | Some b => exists p r, s = p ++ b :: r /\ Forall (fun b => rp_valid_byte b = true) p /\ rp_valid_byte b = false
  end.
Proof.
  induction s as [|b s IH]; cbn; [constructor|]. destruct (rp_valid_byte b) eqn:E; cbn [negb].
  - destruct (find_invalid_byte s) as [x|]; [|constructor; auto]. destruct IH as (p & r & -> & F & H). exists (b :: p), r. split; [reflexivity|]. split; auto.
  - exists [], s. split; [reflexivity|]. split; [constructor|auto].
Qed.
