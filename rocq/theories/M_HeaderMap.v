(* http::HeaderMap, as far as hyper uses it.  External crate (http); this file
   is the trusted model of its documented behaviour, not of its hashing.

   A map is a list of groups, one per name, in iteration order; a group holds
   the values of one name in insertion order.  Names are stored lower-case
   (http::HeaderName normalises them).  Simplification: [hm_remove] keeps the
   order of the other groups, where the crate swaps the last entry into the
   hole; no modelled behaviour depends on the order between different names. *)
From Verif Require Import Base.

(* The headers of a message head: proto/mod.rs 37-47 *)
Definition hmap : Type := list (bytes * list bytes).

(* HeaderMap::get_all (external, e.g. headers.rs 72) *)
Fixpoint hm_get_all (m : hmap) (n : bytes) : list bytes :=
  match m with
  | [] => []
  | (k, vs) :: r => if beq k n then vs else hm_get_all r n
  end.
(* HeaderMap::get (e.g. conn.rs 669): the first value *)
Definition hm_get (m : hmap) (n : bytes) : option bytes :=
  match hm_get_all m n with [] => None | v :: _ => Some v end.
(* HeaderMap::contains_key (e.g. proto/h1/role.rs 1301) *)
Fixpoint hm_contains (m : hmap) (n : bytes) : bool :=
  match m with
  | [] => false
  | (k, _) :: r => beq k n || hm_contains r n
  end.
(* HeaderMap::append (e.g. proto/h1/role.rs 343): adds a value after the existing ones of that name *)
Fixpoint hm_append (m : hmap) (n v : bytes) : hmap :=
  match m with
  | [] => [(n, [v])]
  | (k, vs) :: r => if beq k n then (k, vs ++ [v]) :: r else (k, vs) :: hm_append r n v
  end.
(* HeaderMap::insert (e.g. conn.rs 682): replaces all values of that name *)
Fixpoint hm_insert (m : hmap) (n v : bytes) : hmap :=
  match m with
  | [] => [(n, [v])]
  | (k, vs) :: r => if beq k n then (k, [v]) :: r else (k, vs) :: hm_insert r n v
  end.
(* HeaderMap::remove (e.g. proto/h1/role.rs 280): removes all values of that name *)
Definition hm_remove (m : hmap) (n : bytes) : hmap :=
  filter (fun g => negb (beq (fst g) n)) m.
(* HeaderMap::iter / into_iter (e.g. proto/h1/encode.rs 176): every value with its name, group by group *)
Definition hm_iter (m : hmap) : list (bytes * bytes) :=
  flat_map (fun g => map (fun v => (fst g, v)) (snd g)) m.

(* What every HeaderMap (proto/mod.rs 37-47) satisfies: one non-empty group per name. *)
Definition hm_wf (m : hmap) : Prop :=
  NoDup (map fst m) /\ Forall (fun g => snd g <> []) m.

Lemma hm_get_all_append m n v n' :
  hm_get_all (hm_append m n v) n' = if beq n n' then hm_get_all m n' ++ [v] else hm_get_all m n'.
Proof.
  induction m as [|[k vs] m IH]; cbn [hm_append hm_get_all].
  - destruct (beq n n'); reflexivity.
  - destruct (beq k n) eqn:E; cbn [hm_get_all].
    + apply beq_eq in E. subst. destruct (beq n n'); reflexivity.
    + rewrite IH. destruct (beq k n') eqn:E'; auto. apply beq_eq in E'. subst.
      rewrite beq_sym, E. reflexivity.
Qed.
Lemma hm_get_all_insert m n v n' :
  hm_get_all (hm_insert m n v) n' = if beq n n' then [v] else hm_get_all m n'.
Proof.
  induction m as [|[k vs] m IH]; cbn [hm_insert hm_get_all].
  - destruct (beq n n'); reflexivity.
  - destruct (beq k n) eqn:E; cbn [hm_get_all].
    + apply beq_eq in E. subst. destruct (beq n n'); reflexivity.
    + rewrite IH. destruct (beq k n') eqn:E'; auto. apply beq_eq in E'. subst.
      rewrite beq_sym, E. reflexivity.
Qed.
Lemma hm_get_all_remove m n n' :
  hm_get_all (hm_remove m n) n' = if beq n n' then [] else hm_get_all m n'.
Proof.
  unfold hm_remove. induction m as [|[k vs] m IH]; cbn [filter hm_get_all fst].
  - destruct (beq n n'); reflexivity.
  - destruct (beq k n) eqn:E; cbn [negb hm_get_all].
    + rewrite IH. apply beq_eq in E. subst. destruct (beq n n'); reflexivity.
    + rewrite IH. destruct (beq k n') eqn:E'; auto. apply beq_eq in E'. subst.
      rewrite beq_sym, E. reflexivity.
Qed.
Lemma hm_contains_remove m n n' :
  hm_contains (hm_remove m n) n' = negb (beq n n') && hm_contains m n'.
Proof.
  unfold hm_remove. induction m as [|[k vs] m IH]; cbn [filter hm_contains fst].
  - destruct (beq n n'); reflexivity.
  - destruct (beq k n) eqn:E; cbn [negb hm_contains].
    + rewrite IH. apply beq_eq in E. subst. destruct (beq n n'); reflexivity.
    + rewrite IH. destruct (beq k n') eqn:E'; cbn [orb]; auto. apply beq_eq in E'. subst.
      rewrite beq_sym, E. reflexivity.
Qed.
Lemma hm_contains_get_all m n : Forall (fun g => snd g <> []) m ->
  hm_contains m n = match hm_get_all m n with [] => false | _ => true end.
Proof.
  induction m as [|[k vs] m IH]; intros H; cbn [hm_contains hm_get_all]; auto.
  inversion H as [|? ? Hv Hm]; subst. cbn in Hv. destruct (beq k n); cbn [orb].
  - destruct vs; congruence.
  - auto.
Qed.
Lemma hm_append_wf m n v : hm_wf m -> hm_wf (hm_append m n v).
Proof.
  unfold hm_wf. intros [H1 H2]. split.
  - assert (Hin : forall x, In x (map fst (hm_append m n v)) <-> x = n \/ In x (map fst m)).
    { clear. intros x. induction m as [|[k vs] m IH]; cbn [hm_append map fst In]; [intuition congruence|].
      destruct (beq k n) eqn:E; cbn [map fst In].
      - apply beq_eq in E. subst. intuition congruence.
      - rewrite IH. intuition congruence. }
    clear H2. induction m as [|[k vs] m IH]; cbn [hm_append map fst].
    + constructor; [auto|constructor].
    + cbn [map fst] in H1. inversion H1; subst. destruct (beq k n) eqn:E; cbn [map fst].
      * constructor; auto.
      * constructor.
        -- intros Hc. specialize (Hin k). cbn [hm_append] in Hin. rewrite E in Hin. cbn [map fst In] in Hin.
           assert (forall x, In x (map fst (hm_append m n v)) <-> x = n \/ In x (map fst m)) as Hin2.
           { clear. intros x. induction m as [|[k vs] m IH]; cbn [hm_append map fst In]; [intuition congruence|].
             destruct (beq k n) eqn:E; cbn [map fst In].
             - apply beq_eq in E. subst. intuition congruence.
             - rewrite IH. intuition congruence. }
           apply Hin2 in Hc as [->|Hc]; [now rewrite beq_refl in E|auto].
        -- apply IH; auto. clear -E. intros x. induction m as [|[k' vs'] m IH]; cbn [hm_append map fst In]; [intuition congruence|].
           destruct (beq k' n) eqn:E'; cbn [map fst In].
           ++ apply beq_eq in E'. subst. intuition congruence.
           ++ rewrite IH. intuition congruence.
  - clear H1. induction m as [|[k vs] m IH]; cbn [hm_append].
    + constructor; [cbn; discriminate|constructor].
    + inversion H2; subst. destruct (beq k n); constructor; auto. cbn. destruct vs; discriminate.
Qed.
