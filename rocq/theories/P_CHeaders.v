(* C74: header maps of the C interface. *)
From Verif Require Import Base M_HeaderMap M_Httparse M_Headers M_RoleEncode M_CHeaders S_CHeaders.

(* ffi/http_types.rs 511-547: one call of hyper_headers_set or hyper_headers_add *)
Definition hh_op (h : cheaders) (o : hop) : cheaders * bool :=
  match o with HSet n v => hh_set h n v | HAdd n v => hh_add h n v end.
(* several, on an empty map (ffi/http_types.rs 549-557) *)
Definition hh_run (os : list hop) : cheaders := fold_left (fun h o => fst (hh_op h o)) os hh_new.

(* ------------------------------------------------------------------ *)
Lemma raw_good n v : raw_name_value n v = if good (n, v) then Some (lower n, v, n) else None.
Proof.
  unfold raw_name_value, header_name, good. cbn [fst snd].
  destruct n as [|a n]; [reflexivity|]. cbn [beq negb andb].
  destruct (forallb is_tchar (a :: n) && (lenN (a :: n) <=? 65535)); [|reflexivity].
  replace (forallb value_byte v) with (forallb (fun b => (b =? 9) || (31 <? b)) v && negb (existsb (N.eqb 127) v)).
  - cbn [andb]. destruct (forallb _ v); [|reflexivity]. cbn [andb]. destruct (existsb _ v); reflexivity.
  - induction v as [|b v IH]; [reflexivity|]. cbn [forallb existsb]. rewrite <- IH. unfold value_byte.
    destruct (forallb (fun b => (b =? 9) || (31 <? b)) v), (existsb (N.eqb 127) v); cbn [andb negb orb];
    rewrite ?andb_false_r, ?andb_true_r, ?orb_true_r, ?orb_false_r; cbn [negb]; rewrite ?andb_false_r; try reflexivity.
    destruct (b =? 9) eqn:E1, (31 <? b) eqn:E2, (32 <=? b) eqn:E3, (127 =? b) eqn:E4, (b =? 127) eqn:E5; cbn; try reflexivity; lia.
Qed.

Lemma hm_insert_keys m n v : map fst (hm_insert m n v) = map fst (hm_append m n v).
Proof. induction m as [|[k vs] m IH]; cbn; [reflexivity|]. destruct (beq k n); cbn; congruence. Qed.
Lemma hm_insert_wf m n v : hm_wf m -> hm_wf (hm_insert m n v).
Proof.
  intros H. split.
  - rewrite hm_insert_keys. apply hm_append_wf, H.
  - destruct H as [_ H]. induction m as [|[k vs] m IH]; cbn [hm_insert].
    + constructor; [discriminate|constructor].
    + inversion H; subst. destruct (beq k n); constructor; auto. discriminate.
Qed.
Lemma hc_get_put m n c k : hc_get (hc_put m n c) k = if beq n k then Some c else hc_get m k.
Proof.
  induction m as [|[k' c'] m IH]; cbn [hc_put hc_get].
  - destruct (beq n k); reflexivity.
  - destruct (beq k' n) eqn:E; cbn [hc_get].
    + apply beq_eq in E. subst. destruct (beq n k); reflexivity.
    + rewrite IH. destruct (beq k' k) eqn:E'; auto. apply beq_eq in E'. subst. rewrite beq_sym, E. reflexivity.
Qed.
Lemma nth_pair_up n vs : forall names i, nth_error (pair_up n names vs) i =
  match nth_error vs i with
  | Some v => Some (match nth_error names i with Some o => o | None => n end, v)
  | None => None
  end.
Proof.
  induction vs as [|v vs IH]; intros names [|i]; cbn [pair_up nth_error]; auto.
  - destruct names; reflexivity.
  - rewrite IH. destruct names as [|o names]; cbn [nth_error]; [destruct i|]; reflexivity.
Qed.
Lemma pair_up_maps n l : pair_up n (map fst l) (map snd l) = l.
Proof. induction l as [|[o v] l IH]; cbn [map pair_up fst snd]; congruence. Qed.
Lemma pair_up_nil n vs : pair_up n [] vs = map (fun v => (n, v)) vs.
Proof. induction vs as [|v vs IH]; cbn [map pair_up]; congruence. Qed.

(* the lines [l] are those that are in the maps *)
Definition holds (h : cheaders) (l : list hline) : Prop :=
  hm_wf (hh_map h) /\ forall k, pair_up k (hm_get_all (hh_case h) k) (hm_get_all (hh_map h) k) = filter (same k) l.
Definition full (h : cheaders) (l : list hline) : Prop :=
  hm_wf (hh_map h) /\ forall k, hm_get_all (hh_case h) k = map fst (filter (same k) l) /\ hm_get_all (hh_map h) k = map snd (filter (same k) l).
Fixpoint places (seen l : list hline) : list (bytes * nat) :=
  match l with
  | [] => []
  | x :: r => (lower (fst x), length (filter (same (lower (fst x))) seen)) :: places (seen ++ [x]) r
  end.
Definition in_order (h : cheaders) (l : list hline) : Prop :=
  ho_order (hh_order h) = places [] l /\
  forall k, hc_get (ho_count (hh_order h)) k = match length (filter (same k) l) with O => None | c => Some c end.

Lemma full_holds h l : full h l -> holds h l.
Proof. intros [W H]. split; auto. intros k. destruct (H k) as [-> ->]. apply pair_up_maps. Qed.
Lemma same_self x : same (lower (fst x)) x = true.
Proof. apply beq_refl. Qed.
Lemma visit_places h l : holds h l -> forall r seen, l = seen ++ r -> visit_ordered h (places seen r) = r.
Proof.
  intros [W H]. induction r as [|x r IH]; intros seen E; [reflexivity|]. cbn [places visit_ordered].
  pose proof (H (lower (fst x))) as P. pose proof (nth_pair_up (lower (fst x)) (hm_get_all (hh_map h) (lower (fst x)))
    (hm_get_all (hh_case h) (lower (fst x))) (length (filter (same (lower (fst x))) seen))) as Q.
  rewrite P, E, filter_app, nth_error_app2, Nat.sub_diag in Q by reflexivity. cbn [filter] in Q. rewrite same_self in Q. cbn [nth_error] in Q.
  destruct (nth_error (hm_get_all (hh_map h) (lower (fst x))) (length (filter (same (lower (fst x))) seen))) as [v|] eqn:Ev; [|discriminate].
  injection Q as Q. rewrite <- Q. f_equal. apply IH. rewrite <- app_assoc. exact E.
Qed.
Lemma places_app l : forall seen x, places seen (l ++ [x]) = places seen l ++ [(lower (fst x), length (filter (same (lower (fst x))) (seen ++ l)))].
Proof.
  induction l as [|y l IH]; intros seen x; cbn [app places].
  - rewrite app_nil_r. reflexivity.
  - rewrite IH, <- app_assoc. reflexivity.
Qed.
Lemma places_names l : forall seen l' seen', map (fun x => lower (fst x)) l = map (fun x => lower (fst x)) l' ->
  map (fun x : hline => lower (fst x)) seen = map (fun x => lower (fst x)) seen' -> places seen l = places seen' l'.
Proof.
  induction l as [|x l IH]; intros seen [|y l'] seen' E S; try discriminate; [reflexivity|]. cbn [map places] in *.
  injection E as E1 E2. rewrite (IH _ l' (seen' ++ [y])); auto.
  - f_equal. rewrite E1. f_equal. generalize (lower (fst y)). clear -S. intros k. revert seen' S.
    induction seen as [|a s IH]; intros [|b s'] S; try discriminate; [reflexivity|]. cbn [map filter] in *. injection S as S1 S2.
    assert (Sk : same k a = same k b) by (unfold same; rewrite S1; reflexivity). rewrite Sk. destruct (same k b); cbn [length]; auto.
  - rewrite !map_app, S. cbn [map]. rewrite E1. reflexivity.
Qed.

(* ------------------------------------------------------------------ *)
Lemma filter_put x k l : filter (same k) (put x l) = if beq (lower (fst x)) k then [x] else filter (same k) l.
Proof.
  assert (N : forall r, filter (same k) (filter (fun z => negb (same k z)) r) = []).
  { induction r as [|z r IH]; cbn [filter]; auto. destruct (same k z) eqn:E; cbn [negb]; auto. cbn [filter]. rewrite E. exact IH. }
  assert (M : forall j r, beq j k = false -> filter (same k) (filter (fun z => negb (same j z)) r) = filter (same k) r).
  { intros j. induction r as [|z r IH]; intros E; cbn [filter]; auto. destruct (same j z) eqn:E1; cbn [negb filter]; rewrite IH by auto; auto.
    assert (Z : same k z = false) by (unfold same in E1 |- *; apply beq_eq in E1; rewrite E1; exact E). rewrite Z. reflexivity. }
  induction l as [|y l IH]; cbn [put].
  - cbn [filter]. unfold same. destruct (beq (lower (fst x)) k); reflexivity.
  - destruct (same (lower (fst x)) y) eqn:E.
    + assert (Sy : same k y = beq (lower (fst x)) k) by (unfold same in E |- *; apply beq_eq in E; rewrite E; reflexivity).
      cbn [filter]. rewrite Sy. change (same k x) with (beq (lower (fst x)) k).
      destruct (beq (lower (fst x)) k) eqn:E1; [|apply M; auto]. apply beq_eq in E1. subst k. rewrite N. reflexivity.
    + cbn [filter]. rewrite IH. destruct (same k y) eqn:E2; auto. destruct (beq (lower (fst x)) k) eqn:E1; auto.
      apply beq_eq in E1. subst k. congruence.
Qed.
Lemma put_names x l : (length (filter (same (lower (fst x))) l) = 1)%nat -> map (fun y => lower (fst y)) (put x l) = map (fun y => lower (fst y)) l.
Proof.
  induction l as [|y l IH]; cbn [filter put]; [discriminate|].
  destruct (same (lower (fst x)) y) eqn:E; cbn [length map]; intros L.
  - unfold same in E. apply beq_eq in E. rewrite E. f_equal. f_equal.
    assert (L' : filter (same (lower (fst x))) l = []) by (destruct (filter _ l); [auto|discriminate]).
    clear -L'. induction l as [|z l IH]; cbn [filter] in *; auto. destruct (same _ z); [discriminate|]. cbn [negb]. f_equal. auto.
  - f_equal. auto.
Qed.
Lemma put_new x l : filter (same (lower (fst x))) l = [] -> put x l = l ++ [x].
Proof. induction l as [|y l IH]; cbn [filter put app]; auto. destruct (same _ y); [discriminate|]. intros H. f_equal. auto. Qed.

Lemma full_op h l o : full h l -> full (fst (hh_op h o)) (expect1 l o).
Proof.
  intros [W H]. unfold expect1. destruct o as [n v|n v]; cbn [hh_op op_line]; unfold hh_set, hh_add; rewrite raw_good;
    destruct (good (n, v)); cbn [fst]; try (split; assumption); split; cbn [hh_map hh_case].
  - apply hm_insert_wf, W.
  - intros k. rewrite !hm_get_all_insert, filter_put. cbn [fst]. destruct (beq (lower n) k); [split; reflexivity|apply H].
  - apply hm_append_wf, W.
  - intros k. rewrite !hm_get_all_append, filter_app, !map_app. cbn [filter]. change (same k (n, v)) with (beq (lower n) k). destruct (H k) as [-> ->].
    destruct (beq (lower n) k); cbn [map fst snd]; rewrite ?app_nil_r; split; reflexivity.
Qed.
Lemma full_run os : full (hh_run os) (expected os).
Proof.
  unfold hh_run, expected. assert (G : forall os h l, full h l -> full (fold_left (fun h o => fst (hh_op h o)) os h) (fold_left expect1 os l)).
  { induction os0 as [|o os0 IH]; intros h l F; [exact F|]. cbn [fold_left]. apply IH, full_op, F. }
  apply G. split; [split; constructor|]. intros k. split; reflexivity.
Qed.

Lemma order_append h l x : ho_order h = places [] l /\ (forall k, hc_get (ho_count h) k = match length (filter (same k) l) with O => None | c => Some c end) ->
  ho_order (ho_append h (lower (fst x))) = places [] (l ++ [x]) /\
  forall k, hc_get (ho_count (ho_append h (lower (fst x)))) k = match length (filter (same k) (l ++ [x])) with O => None | c => Some c end.
Proof.
  intros [A C]. unfold ho_append. pose proof (C (lower (fst x))) as E. rewrite places_app. cbn [app].
  split.
  - rewrite <- A. destruct (length (filter (same (lower (fst x))) l)); rewrite E; reflexivity.
  - intros k. rewrite filter_app, app_length. cbn [filter]. change (same k x) with (beq (lower (fst x)) k).
    assert (P : forall c, hc_get (hc_put (ho_count h) (lower (fst x)) c) k = if beq (lower (fst x)) k then Some c
        else match length (filter (same k) l) with O => None | c => Some c end) by (intros c; rewrite hc_get_put, C; reflexivity).
    destruct (beq (lower (fst x)) k) eqn:E1; cbn [length].
    + apply beq_eq in E1. subst k. rewrite Nat.add_1_r.
      destruct (length (filter (same (lower (fst x))) l)) as [|c]; rewrite E; cbn [ho_count]; rewrite P; reflexivity.
    + rewrite Nat.add_0_r. destruct (length (filter (same (lower (fst x))) l)) as [|c]; rewrite E; cbn [ho_count]; rewrite P; reflexivity.
Qed.
Lemma order_op h l o : in_order h l -> several l o = false -> in_order (fst (hh_op h o)) (expect1 l o).
Proof.
  intros H T. unfold expect1. destruct o as [n v|n v]; cbn [hh_op op_line several] in *; unfold hh_set, hh_add; rewrite raw_good;
    destruct (good (n, v)); cbn [fst andb] in *; auto; unfold in_order in *; cbn [hh_order].
  - destruct H as [A C]. pose proof (C (lower n)) as E. unfold ho_insert.
    destruct (length (filter (same (lower n)) l)) as [|[|c]] eqn:L; [| |discriminate].
    + assert (F : filter (same (lower n)) l = []) by (destruct (filter _ l); [auto|discriminate]).
      rewrite put_new by exact F. change (lower n) with (lower (fst (n, v))) in *.
      pose proof (order_append (hh_order h) l (n, v) (conj A C)) as O. unfold ho_append in O. rewrite E in *. exact O.
    + rewrite E. split.
      * rewrite A. apply places_names; auto. symmetry. apply put_names. exact L.
      * intros k. rewrite C, filter_put. cbn [fst]. destruct (beq (lower n) k) eqn:E1; auto. apply beq_eq in E1. subst k. rewrite L. reflexivity.
  - change (lower n) with (lower (fst (n, v))). apply order_append. exact H.
Qed.
Lemma order_run os : tame [] os = true -> in_order (hh_run os) (expected os).
Proof.
  unfold hh_run, expected. assert (G : forall os h l, in_order h l -> tame l os = true ->
      in_order (fold_left (fun h o => fst (hh_op h o)) os h) (fold_left expect1 os l)).
  { induction os0 as [|o os0 IH]; intros h l F T; [exact F|]. cbn [fold_left tame] in *. apply andb_prop in T as [T1 T2].
    apply IH; auto. apply order_op; auto. destruct (several l o); [discriminate|auto]. }
  apply G. split; [reflexivity|]. intros k. reflexivity.
Qed.

(* ------------------------------------------------------------------ *)
Lemma regrouped_filters l : forall l', (forall k, filter (same k) l = filter (same k) l') -> regrouped l l'.
Proof.
  intros l' H. split; [|exact H]. revert l' H. induction l as [|x l IH]; intros l' H.
  - destruct l' as [|y l']; [constructor|]. specialize (H (lower (fst y))). cbn [filter] in H. rewrite same_self in H. discriminate.
  - assert (S : exists a b, l' = a ++ x :: b /\ filter (same (lower (fst x))) a = []).
    { pose proof (H (lower (fst x))) as E. cbn [filter] in E. rewrite same_self in E. clear -E.
      induction l' as [|y l' IH]; [discriminate|]. cbn [filter] in E. destruct (same (lower (fst x)) y) eqn:Y.
      - injection E as <- _. exists [], l'. split; reflexivity.
      - destruct (IH E) as (a & b & -> & A). exists (y :: a), b. split; [reflexivity|]. cbn [filter]. rewrite Y. exact A. }
    destruct S as (a & b & -> & A). apply Permutation_cons_app, IH. intros k. specialize (H k).
    rewrite filter_app in H |- *. cbn [filter] in H. destruct (same k x) eqn:E; [|exact H].
    unfold same in E. apply beq_eq in E. subst k. rewrite A in *. cbn [app] in *. congruence.
Qed.
Lemma holds_grouped h l : holds h l -> regrouped l (visit_grouped h).
Proof.
  intros [[W _] H]. apply regrouped_filters. intros k. rewrite <- H. unfold visit_grouped.
  assert (K : forall j, Forall (fun x => same j x = true) (pair_up j (hm_get_all (hh_case h) j) (hm_get_all (hh_map h) j))).
  { intros j. rewrite H. apply Forall_forall. intros x X. apply filter_In in X. apply X. }
  assert (G : forall m, NoDup (map fst m) -> (forall g, In g m -> hm_get_all (hh_map h) (fst g) = snd g) ->
      filter (same k) (flat_map (fun g => pair_up (fst g) (hm_get_all (hh_case h) (fst g)) (snd g)) m) =
      if in_dec (list_eq_dec N.eq_dec) k (map fst m) then pair_up k (hm_get_all (hh_case h) k) (hm_get_all (hh_map h) k) else []).
  { induction m as [|[j vs] m IH]; intros D Q; [reflexivity|]. cbn [flat_map map fst snd]. cbn [map fst] in D. inversion D as [|? ? D1 D2]; subst.
    rewrite filter_app, IH; auto; [|intros g g'; apply Q; right; auto].
    pose proof (Q (j, vs) (or_introl eq_refl)) as E. cbn [fst snd] in E. rewrite <- E. clear Q IH.
    destruct (list_eq_dec N.eq_dec j k) as [->|N].
    - assert (F : filter (same k) (pair_up k (hm_get_all (hh_case h) k) (hm_get_all (hh_map h) k)) = pair_up k (hm_get_all (hh_case h) k) (hm_get_all (hh_map h) k)).
      { specialize (K k). revert K. generalize (pair_up k (hm_get_all (hh_case h) k) (hm_get_all (hh_map h) k)). clear.
        induction l as [|x l IH]; intros F; [reflexivity|]. inversion F as [|? ? F1 F2]; subst. cbn [filter]. rewrite F1. f_equal. auto. }
      rewrite F. destruct (in_dec _ k (map fst m)); [contradiction|]. rewrite app_nil_r.
      destruct (in_dec _ k (k :: map fst m)) as [_|X]; [reflexivity|]. exfalso. apply X. left. reflexivity.
    - assert (F : filter (same k) (pair_up j (hm_get_all (hh_case h) j) (hm_get_all (hh_map h) j)) = []).
      { specialize (K j). revert K. generalize (pair_up j (hm_get_all (hh_case h) j) (hm_get_all (hh_map h) j)). clear -N.
        induction l as [|x l IH]; intros F; [reflexivity|]. inversion F as [|? ? F1 F2]; subst. cbn [filter].
        destruct (same k x) eqn:E; [|auto]. unfold same in *. apply beq_eq in E, F1. congruence. }
      rewrite F. cbn [app]. destruct (in_dec _ k (map fst m)) as [X|X], (in_dec _ k (j :: map fst m)) as [Y|Y]; auto.
      + exfalso. apply Y. right. exact X.
      + exfalso. destruct Y as [Y|Y]; congruence. }
  rewrite G; auto.
  - destruct (in_dec _ k _) as [X|X]; [reflexivity|].
    replace (hm_get_all (hh_map h) k) with (@nil (list N)); [reflexivity|]. revert X. clear. induction (hh_map h) as [|[j vs] m IH]; [reflexivity|].
    cbn [map fst In hm_get_all]. intros X. destruct (beq j k) eqn:E; [|apply IH; tauto]. apply beq_eq in E. tauto.
  - revert W. clear. induction (hh_map h) as [|[j vs] m IH]; intros W g; [intros []|]. cbn [map fst hm_get_all] in *. inversion W as [|? ? W1 W2]; subst.
    intros [<-|X]; cbn [fst snd]; [rewrite beq_refl; reflexivity|]. destruct (beq j (fst g)) eqn:E; [|auto].
    apply beq_eq in E. subst. exfalso. apply W1. apply in_map. exact X.
Qed.
Lemma hand_out_shown go l : forall done, (forall a b, done = a ++ b -> a <> [] -> b <> [] -> go a = true) -> (done = [] \/ go done = true) ->
  shown go (done ++ l) (hand_out go done l).
Proof.
  induction l as [|x l IH]; intros done D G; cbn [hand_out].
  - exists []. split; [reflexivity|]. split; [exact D|]. congruence.
  - assert (D' : forall a b, done ++ [x] = a ++ b -> a <> [] -> b <> [] -> go a = true).
    { intros a b E A C. destruct (exists_last C) as (b' & y & ->). rewrite app_assoc in E. apply app_inj_tail in E as [E _]. subst done.
      destruct b' as [|z b']; [rewrite app_nil_r in G; destruct G; [contradiction|auto]|]. apply (D a (z :: b')); auto. discriminate. }
    destruct (go (done ++ [x])) eqn:E.
    + replace (done ++ x :: l) with ((done ++ [x]) ++ l) by (rewrite <- app_assoc; reflexivity). apply IH; auto.
    + exists l. split; [rewrite <- app_assoc; reflexivity|]. split; [exact D'|]. intros _. split; [|exact E]. destruct done; discriminate.
Qed.

(* ------------------------------------------------------------------ *)
(* A call is answered with HYPERE_OK exactly if its line is good, and changes nothing otherwise *)
Theorem C74_code : forall h o, snd (hh_op h o) = good (op_line o) /\ (good (op_line o) = false -> fst (hh_op h o) = h).
Proof.
  intros h [n v|n v]; cbn [hh_op op_line]; unfold hh_set, hh_add; rewrite raw_good; destruct (good (n, v)); cbn [fst snd]; split; congruence.
Qed.
Example C74_code_ex : snd (hh_op hh_new (HAdd (B "X-A") (B "1"))) = true /\ snd (hh_op hh_new (HSet (B "X-A") (B "1" ++ CRLF ++ B "b: 2"))) = false /\
  snd (hh_op hh_new (HAdd (B "X A") [])) = false.
Proof. vm_compute. auto. Qed.

Lemma pairs_ordered h l : holds h l -> in_order h l -> hh_pairs h = l.
Proof.
  intros H [O _]. unfold hh_pairs. destruct l as [|x l].
  - rewrite O. cbn [places]. pose proof (holds_grouped h [] H) as [P _]. apply Permutation_nil in P. exact P.
  - pose proof (visit_places h (x :: l) H (x :: l) [] eq_refl) as V. rewrite <- O in V. destruct (ho_order (hh_order h)); [discriminate V|exact V].
Qed.
(* hyper_headers_foreach shows the lines as they were set and added, in that order and as they
   were spelt, if no set met a name with several lines; it stops when the callback says so. *)
Theorem C74_foreach : forall go os, tame [] os = true -> shown go (expected os) (hh_foreach go (hh_run os)).
Proof.
  intros go os T. unfold hh_foreach. rewrite (pairs_ordered _ (expected os)).
  - apply (hand_out_shown go (expected os) []); [intros [|] ? E; [congruence|discriminate]|left; reflexivity].
  - apply full_holds, full_run.
  - apply order_run, T.
Qed.
Notation ops_ex := [HAdd (B "X-A") (B "1"); HSet (B "Host") (B "a"); HAdd (B "x-a") (B "2"); HSet (B "HOST") (B "b"); HAdd (B "bad name") (B "3"); HAdd (B "Z") []].
Example C74_foreach_ex : tame [] ops_ex = true /\
  hh_foreach (fun _ => true) (hh_run ops_ex) = [(B "X-A", B "1"); (B "HOST", B "b"); (B "x-a", B "2"); (B "Z", [])] /\
  hh_foreach (fun l => (length l <? 2)%nat) (hh_run ops_ex) = [(B "X-A", B "1"); (B "HOST", B "b")].
Proof. vm_compute. auto. Qed.

(* After any calls, the header lines that a request puts on the wire are the expected ones,
   those of one name in order (set on a name with several lines included), as they were spelt *)
Theorem C74_wire : forall os title, exists l, regrouped (expected os) l /\
  write_headers_original_case (hh_map (hh_run os)) (hh_case (hh_run os)) title = flat_map wire_line l.
Proof.
  intros os title. exists (visit_grouped (hh_run os)). split; [apply holds_grouped, full_holds, full_run|].
  unfold write_headers_original_case, visit_grouped. pose proof (full_run os) as [[W _] F].
  assert (G : forall m, NoDup (map fst m) -> (forall g, In g m -> length (snd g) = length (hm_get_all (hh_case (hh_run os)) (fst g))) ->
      flat_map (fun g => write_group_orig title (fst g) (hm_get_all (hh_case (hh_run os)) (fst g)) (snd g)) m =
      flat_map wire_line (flat_map (fun g => pair_up (fst g) (hm_get_all (hh_case (hh_run os)) (fst g)) (snd g)) m)).
  { induction m as [|[j vs] m IH]; intros D Q; [reflexivity|]. cbn [flat_map fst snd]. rewrite flat_map_app, IH.
    - f_equal. pose proof (Q (j, vs) (or_introl eq_refl)) as E. cbn [fst snd] in E. revert E. generalize (hm_get_all (hh_case (hh_run os)) j). clear.
      induction vs as [|v vs IH]; intros [|o ns] E; try discriminate; [reflexivity|]. injection E as E. cbn [write_group_orig pair_up flat_map].
      rewrite IH by exact E. unfold wire_line. cbn [fst snd]. rewrite app_assoc. destruct v; reflexivity.
    - inversion D; auto.
    - intros g X. apply Q. right. exact X. }
  apply G; [exact W|]. intros g X. destruct (F (fst g)) as [-> E].
  assert (E' : hm_get_all (hh_map (hh_run os)) (fst g) = snd g).
  { revert W X. clear. induction (hh_map (hh_run os)) as [|[j vs] m IH]; intros W; [intros []|]. cbn [map fst hm_get_all] in *. inversion W as [|? ? W1 W2]; subst.
    intros [<-|X]; cbn [fst snd]; [rewrite beq_refl; reflexivity|]. destruct (beq j (fst g)) eqn:E; [|auto].
    apply beq_eq in E. subst. exfalso. apply W1. apply in_map. exact X. }
  rewrite <- E', E, !map_length. reflexivity.
Qed.
Notation several_ex := [HAdd (B "X-A") (B "1"); HAdd (B "X-A") (B "2"); HAdd (B "Z") (B "3"); HSet (B "X-a") (B "4")].
Example C74_wire_ex : write_headers_original_case (hh_map (hh_run several_ex)) (hh_case (hh_run several_ex)) false = B "X-a: 4" ++ CRLF ++ B "Z: 3" ++ CRLF /\
  expected several_ex = [(B "X-a", B "4"); (B "Z", B "3")].
Proof. vm_compute. auto. Qed.

(* and none of them can be taken for more than one line *)
Theorem C74_lines : forall os x, In x (expected os) -> fst x <> [] /\ forall b, In b (fst x ++ snd x) -> b <> 13 /\ b <> 10 /\ b <> 0.
Proof.
  intros os x X. assert (G : good x = true).
  { unfold expected in X. assert (I : forall os l, Forall (fun y => good y = true) l -> Forall (fun y => good y = true) (fold_left expect1 os l)).
    { induction os0 as [|o os0 IH]; intros l F; [exact F|]. cbn [fold_left]. apply IH. unfold expect1. destruct (good (op_line o)) eqn:E; [|exact F].
      destruct o as [n v|n v]; cbn [op_line] in E.
      - clear -F E. induction l as [|y l IH]; cbn [put]; [repeat constructor; exact E|]. inversion F as [|? ? F1 F2]; subst.
        destruct (same _ y); constructor; auto. apply Forall_forall. intros z Z. apply filter_In in Z as [Z _].
        rewrite Forall_forall in F2. auto.
      - apply Forall_app. split; auto. }
    specialize (I os [] (Forall_nil _)). rewrite Forall_forall in I. auto. }
  destruct x as [n v]. unfold good in G. cbn [fst snd] in *. repeat (apply andb_prop in G as [G ?]). split; [intros ->; discriminate|].
  intros b I. apply in_app_or in I as [I|I].
  - rewrite forallb_forall in H2. apply H2 in I. repeat split; intros ->; discriminate I.
  - rewrite forallb_forall in H0. apply H0 in I. lia.
Qed.

(* ------------------------------------------------------------------ *)
(* What was received with both options is as if its lines had been added *)
Theorem C74_received : forall lines, forallb good lines = true ->
  hh_received true true lines = hh_run (map (fun x => HAdd (fst x) (snd x)) lines).
Proof.
  intros lines. unfold hh_received, hh_run. generalize hh_new. induction lines as [|[n v] lines IH]; intros h G; [reflexivity|].
  cbn [forallb fold_left map fst snd] in *. apply andb_prop in G as [G1 G2]. rewrite IH by exact G2. f_equal.
  cbn [hh_op]. unfold hh_add. rewrite raw_good, G1. reflexivity.
Qed.
Example C74_received_ex : hh_pairs (hh_received true true [(B "A", B "1"); (B "B", B "2"); (B "a", B "3")]) = [(B "A", B "1"); (B "B", B "2"); (B "a", B "3")].
Proof. vm_compute. reflexivity. Qed.

Lemma lower_lower s : lower (lower s) = lower s.
Proof.
  unfold lower. rewrite map_map. apply map_ext. intros b. unfold to_lower.
  destruct ((65 <=? b) && (b <=? 90)) eqn:E; [|rewrite E; reflexivity].
  destruct ((65 <=? b + 32) && (b + 32 <=? 90)) eqn:E'; lia.
Qed.
Lemma received_holds pc po lines : holds (hh_received pc po lines) (map (respelt pc) lines) /\
  (po = true -> in_order (hh_received pc po lines) (map (respelt pc) lines)) /\ (po = false -> ho_order (hh_order (hh_received pc po lines)) = []).
Proof.
  assert (K : forall x, lower (fst (respelt pc x)) = lower (fst x)) by (intros [n v]; destruct pc; cbn [respelt fst]; auto using lower_lower).
  induction lines as [|x lines IH] using rev_ind.
  - split; [|split; [intros _; split; reflexivity|reflexivity]]. split; [split; constructor|reflexivity].
  - unfold hh_received in *. rewrite fold_left_app, map_app. cbn [fold_left map]. destruct IH as ([W H] & O & Z).
    set (h := fold_left (hh_line pc po) lines hh_new) in *. set (l := map (respelt pc) lines) in *.
    assert (A : (pc = true /\ full h l) \/ (pc = false /\ hh_case h = [])).
    { subst h l. clear. destruct pc; [left|right]; (split; [reflexivity|]).
      - assert (G : forall l0 h l, full h l -> full (fold_left (hh_line true po) l0 h) (l ++ map (respelt true) l0)).
        { induction l0 as [|[n v] l0 IH]; intros h l F; [rewrite app_nil_r; exact F|]. cbn [fold_left map].
          replace (l ++ respelt true (n, v) :: map (respelt true) l0) with ((l ++ [(n, v)]) ++ map (respelt true) l0) by (rewrite <- app_assoc; reflexivity).
          apply IH. destruct F as [W F]. split; cbn [hh_line hh_map hh_case fst snd]; [apply hm_append_wf, W|]. intros k.
          rewrite !hm_get_all_append, filter_app, !map_app. cbn [filter]. change (same k (n, v)) with (beq (lower n) k). destruct (F k) as [-> ->].
          destruct (beq (lower n) k); cbn [map fst snd]; rewrite ?app_nil_r; split; reflexivity. }
        apply (G lines hh_new []). split; [split; constructor|]. intros k. split; reflexivity.
      - assert (G : forall l0 h, hh_case h = [] -> hh_case (fold_left (hh_line false po) l0 h) = []) by (induction l0 as [|y l0 IH]; intros h E; [exact E|]; apply IH; exact E).
        apply G. reflexivity. }
    split; [|split].
    + destruct A as [(-> & F)|(-> & C)].
      * apply full_holds. destruct F as [_ F]. split; cbn [hh_line hh_map hh_case]; [apply hm_append_wf, W|]. intros k. destruct x as [n v]. change (respelt true (n, v)) with (n, v). cbn [fst snd].
        rewrite !hm_get_all_append, filter_app, !map_app. cbn [filter]. change (same k (n, v)) with (beq (lower n) k). destruct (F k) as [-> ->].
        destruct (beq (lower n) k); cbn [map fst snd]; rewrite ?app_nil_r; split; reflexivity.
      * split; cbn [hh_line hh_map hh_case]; [apply hm_append_wf, W|]. intros k. specialize (H k). rewrite C in *. cbn [hm_get_all] in *. rewrite pair_up_nil in *.
        rewrite hm_get_all_append, filter_app, <- H. cbn [filter]. replace (same k (respelt false x)) with (beq (lower (fst x)) k) by (unfold same; rewrite K; reflexivity).
        destruct (beq (lower (fst x)) k) eqn:E; [|rewrite app_nil_r; reflexivity]. apply beq_eq in E. rewrite map_app. unfold respelt. rewrite E. reflexivity.
    + intros ->. specialize (O eq_refl). unfold in_order in *. cbn [hh_line hh_order]. rewrite <- K. apply order_append. exact O.
    + intros ->. cbn [hh_line hh_order]. apply Z. reflexivity.
Qed.
(* With preserve_header_order a received head is shown line by line *)
Theorem C74_received_order : forall go pc lines, shown go (map (respelt pc) lines) (hh_foreach go (hh_received pc true lines)).
Proof.
  intros go pc lines. destruct (received_holds pc true lines) as (H & O & _). unfold hh_foreach. rewrite (pairs_ordered _ _ H (O eq_refl)).
  apply (hand_out_shown go _ []); [intros [|] ? E; [congruence|discriminate]|left; reflexivity].
Qed.
(* without it, name by name, each line once *)
Theorem C74_received_plain : forall go pc lines, exists l, regrouped (map (respelt pc) lines) l /\ shown go l (hh_foreach go (hh_received pc false lines)).
Proof.
  intros go pc lines. destruct (received_holds pc false lines) as (H & _ & Z). exists (hh_pairs (hh_received pc false lines)). split.
  - unfold hh_pairs. rewrite (Z eq_refl). apply holds_grouped, H.
  - apply (hand_out_shown go _ []); [intros [|] ? E; [congruence|discriminate]|left; reflexivity].
Qed.
Notation lines_ex := [(B "A", B "1"); (B "B", B "2"); (B "a", B "3")].
Example C74_received_more_ex :
  hh_foreach (fun _ => true) (hh_received false true lines_ex) = [(B "a", B "1"); (B "b", B "2"); (B "a", B "3")] /\
  hh_foreach (fun _ => true) (hh_received true false lines_ex) = [(B "A", B "1"); (B "a", B "3"); (B "B", B "2")].
Proof. vm_compute. auto. Qed.

(* ------------------------------------------------------------------ *)
(* A set on a name with several lines leaves places in the order that have no value: the
   callback is not shown the lines after such a place (finding F56). *)
Theorem C74_set_several_refuted : exists os x, In x (expected os) /\ ~ In x (hh_foreach (fun _ => true) (hh_run os)) /\
  hh_foreach (fun _ => true) (hh_run os) = [(B "X-a", B "4")] /\ expected os = [(B "X-a", B "4"); x] /\
  write_headers_original_case (hh_map (hh_run os)) (hh_case (hh_run os)) false = B "X-a: 4" ++ CRLF ++ B "Z: 3" ++ CRLF.
Proof.
  exists several_ex, (B "Z", B "3"). vm_compute. split; [right; left; reflexivity|]. split; [|auto].
  intros [X|[]]. discriminate X.
Qed.
(* A header added to a head that was received without preserve_header_order hides all
   received ones; if its name was there, it is shown with the received value (finding F57). *)
Theorem C74_add_to_received_refuted : exists lines, lines <> [] /\
  (forall pc, hh_foreach (fun _ => true) (fst (hh_add (hh_received pc false lines) (B "New") (B "n"))) = [(B "New", B "n")]) /\
  hh_foreach (fun _ => true) (fst (hh_add (hh_received true false lines) (B "AA") (B "n"))) = [(B "Aa", B "1")] /\
  hh_foreach (fun _ => true) (fst (hh_add (hh_received false true lines) (B "AA") (B "n"))) = [(B "AA", B "1"); (B "b", B "2"); (B "aa", B "n")].
Proof.
  exists [(B "Aa", B "1"); (B "B", B "2")]. split; [discriminate|]. split; [intros []; vm_compute; reflexivity|]. vm_compute. auto.
Qed.

Print Assumptions C74_code.
Print Assumptions C74_foreach.
Print Assumptions C74_wire.
Print Assumptions C74_lines.
Print Assumptions C74_received.
Print Assumptions C74_received_order.
Print Assumptions C74_received_plain.
Print Assumptions C74_set_several_refuted.
Print Assumptions C74_add_to_received_refuted.
