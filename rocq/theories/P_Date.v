(* Theorems about the cached Date header: C53. *)
From Verif Require Import Base M_Date.

(* The date of second [secs] as text; HttpDate always writes 29 bytes *)
Definition is_date_format (fmt : N -> list bytes) : Prop := forall secs, lenN (concat (fmt secs)) = 29.
(* The date shown is that of the current second, or at the exact start of a
   second that of the second before *)
Definition shows (fmt : N -> list bytes) (shown : bytes) (now : N) : Prop :=
  exists secs, shown = concat (fmt secs) /\ secs * 1000000000 <= now /\ now <= (secs + 1) * 1000000000.
Fixpoint not_backwards (t : N) (readings : list N) : Prop :=
  match readings with [] => True | t' :: r => t <= t' /\ not_backwards t' r end.

Lemma write_all pieces : forall c, cd_pos c + lenN (concat pieces) <= lenN (cd_bytes c) ->
  fold_left (fun o s => match o with Some c => cd_write_str s c | None => None end) pieces (Some c) =
  Some (mkCD (takeN (cd_pos c) (cd_bytes c) ++ concat pieces ++ dropN (cd_pos c + lenN (concat pieces)) (cd_bytes c)) (cd_pos c + lenN (concat pieces)) (cd_next c)).
Proof.
  induction pieces as [|s r IH]; intros c H.
  - cbn. rewrite N.add_0_r, takeN_dropN. destruct c; reflexivity.
  - cbn [concat fold_left]. cbn [concat] in H. rewrite lenN_app in *. unfold cd_write_str at 2. replace (cd_pos c + lenN s <=? lenN (cd_bytes c)) with true by (symmetry; apply N.leb_le; lia).
    assert (lenN (takeN (cd_pos c) (cd_bytes c)) = cd_pos c) as L by (rewrite takeN_len; lia).
    rewrite IH; cbn [cd_pos cd_bytes cd_next].
    2:{ rewrite !lenN_app, dropN_len, L. lia. }
    assert (takeN (cd_pos c + lenN s) (takeN (cd_pos c) (cd_bytes c) ++ s ++ dropN (cd_pos c + lenN s) (cd_bytes c)) = takeN (cd_pos c) (cd_bytes c) ++ s) as ->.
    { rewrite app_assoc, takeN_app_le by (rewrite lenN_app, L; lia). apply takeN_all. rewrite lenN_app, L. lia. }
    assert (dropN (cd_pos c + lenN s + lenN (concat r)) (takeN (cd_pos c) (cd_bytes c) ++ s ++ dropN (cd_pos c + lenN s) (cd_bytes c)) = dropN (cd_pos c + (lenN s + lenN (concat r))) (cd_bytes c)) as ->.
    { rewrite app_assoc, dropN_app_ge by (rewrite lenN_app, L; lia). rewrite lenN_app, L, dropN_dropN. f_equal. lia. }
    rewrite <- !app_assoc. do 2 f_equal. lia.
Qed.
Lemma update_spec fmt now c : is_date_format fmt -> lenN (cd_bytes c) = 29 ->
  cd_update fmt now c = Some (mkCD (concat (fmt (now / 1000000000))) 29 ((now / 1000000000 + 1) * 1000000000)).
Proof.
  intros F L. unfold cd_update, cd_render. rewrite write_all by (cbn [cd_pos cd_bytes]; rewrite F, L; lia). cbn [cd_pos cd_bytes cd_next]. rewrite F, takeN_0, dropN_all by lia. cbn [app].
  rewrite app_nil_r. do 2 f_equal. pose proof (N.div_mod now 1000000000 ltac:(discriminate)) as D. remember (now / 1000000000) as q. remember (now mod 1000000000) as r. lia.
Qed.
Definition fresh (fmt : N -> list bytes) (c : cached) (t : N) : Prop :=
  exists secs, cd_bytes c = concat (fmt secs) /\ cd_next c = (secs + 1) * 1000000000 /\ secs * 1000000000 <= t /\ t <= (secs + 1) * 1000000000.
Lemma update_fresh fmt t c : is_date_format fmt -> lenN (cd_bytes c) = 29 -> exists c', cd_update fmt t c = Some c' /\ fresh fmt c' t.
Proof.
  intros F L. rewrite update_spec by assumption. eexists. split; [reflexivity|]. exists (t / 1000000000). cbn [cd_bytes cd_next]. split; [reflexivity|]. split; [reflexivity|].
  pose proof (N.div_mod t 1000000000 ltac:(discriminate)) as D. pose proof (N.mod_lt t 1000000000 ltac:(discriminate)) as M. remember (t / 1000000000) as q. remember (t mod 1000000000) as r. lia.
Qed.
Lemma check_fresh fmt t t' c : is_date_format fmt -> fresh fmt c t -> t <= t' -> exists c', cd_check fmt t' c = Some c' /\ fresh fmt c' t'.
Proof.
  intros F (secs & E & En & L1 & L2) Ht. unfold cd_check. destruct (cd_next c <? t') eqn:Ec.
  - apply update_fresh; [exact F|]. rewrite E. apply F.
  - apply N.ltb_ge in Ec. exists c. split; [reflexivity|]. exists secs. repeat split; [exact E|exact En|lia|lia].
Qed.
Theorem C53_date : forall fmt t0 readings, is_date_format fmt -> not_backwards t0 readings ->
  exists c0 c, cd_new fmt t0 = Some c0 /\ cd_run fmt c0 readings = Some c /\ shows fmt (cd_bytes c) (last readings t0).
Proof.
  intros fmt t0 readings F H. destruct (update_fresh fmt t0 (mkCD (repeat 0 (N.to_nat DATE_VALUE_LENGTH)) 0 t0) F eq_refl) as (c0 & E0 & F0).
  exists c0. unfold cd_new. assert (forall l t c, fresh fmt c t -> not_backwards t l -> exists c', cd_run fmt c l = Some c' /\ fresh fmt c' (last l t)) as Q.
  { induction l as [|t' l IH]; intros t c Fc Hl; [exists c; auto|]. destruct Hl as (Hl1 & Hl2). destruct (check_fresh fmt t t' c F Fc Hl1) as (c' & E & Fc'). cbn [cd_run]. rewrite E.
    destruct (IH t' c' Fc' Hl2) as (c2 & E2 & F2). exists c2. split; [exact E2|]. assert (last (t' :: l) t = last l t') as ->; [|exact F2]. clear. revert t'. induction l as [|x l IH]; intros t'; [reflexivity|]. cbn [last] in *. destruct l; [reflexivity|]. now rewrite <- (IH t'). }
  destruct (Q readings t0 c0 F0 H) as (c & E & secs & Eb & _ & L1 & L2). exists c. split; [exact E0|]. split; [exact E|]. exists secs. auto.
Qed.
(* A clock that is set back leaves a date from the future in place until the
   clock has caught up *)
Theorem C53_backwards_refuted : exists fmt t0 readings c0 c, is_date_format fmt /\ cd_new fmt t0 = Some c0 /\ cd_run fmt c0 readings = Some c /\
  ~ shows fmt (cd_bytes c) (last readings t0).
Proof.
  exists (fun secs => [repeat secs 29]), (100 * 1000000000), [50 * 1000000000]. do 2 eexists.
  split; [intros secs; reflexivity|]. split; [reflexivity|]. split; [reflexivity|]. intros (secs & E & L1 & L2). cbn in E. inversion E; subst. cbn in L1. lia.
Qed.
Example C53_ex : exists fmt, is_date_format fmt /\ not_backwards 1500000000 [1999999999; 2000000000; 2000000001] /\
  (exists c, cd_new fmt 1500000000 = Some c /\ exists c', cd_run fmt c [1999999999; 2000000000] = Some c' /\ cd_bytes c' = concat (fmt 1) /\
     exists c2, cd_run fmt c' [2000000001] = Some c2 /\ cd_bytes c2 = concat (fmt 2)).
Proof.
  exists (fun secs => [repeat secs 20; repeat secs 9]). split; [intros secs; reflexivity|]. split; [cbn; lia|].
  eexists. split; [vm_compute; reflexivity|]. eexists. split; [vm_compute; reflexivity|]. split; [vm_compute; reflexivity|]. eexists. split; vm_compute; reflexivity.
Qed.

Print Assumptions C53_date.
Print Assumptions C53_backwards_refuted.
