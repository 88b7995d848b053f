(* C73: the executor of the C interface. *)
From Verif Require Import Base M_Exec S_Exec.

Lemma fx_in_iff id l : fx_in id l = true <-> In id l.
Proof. unfold fx_in. rewrite existsb_exists. split; [intros (x & H & E); apply N.eqb_eq in E; now subst|intros H; exists id; split; [exact H|apply N.eqb_refl]]. Qed.
Lemma fx_in_not id l : fx_in id l = false <-> ~ In id l.
Proof. rewrite <- fx_in_iff. destruct (fx_in id l); split; congruence. Qed.
Lemma fx_in_app id a b : fx_in id (a ++ b) = fx_in id a || fx_in id b.
Proof. unfold fx_in. apply existsb_app. Qed.
Lemma fx_in_one id x : fx_in id [x] = (id =? x).
Proof. unfold fx_in. cbn. apply orb_false_r. Qed.
Lemma fx_in_without id x l : fx_in id (fx_without x l) = negb (id =? x) && fx_in id l.
Proof.
  unfold fx_in, fx_without. induction l as [|y l IH]; cbn; [now rewrite andb_false_r|]. destruct (y =? x) eqn:E; cbn; rewrite IH.
  - apply N.eqb_eq in E. subst. destruct (id =? x); reflexivity.
  - destruct (id =? y) eqn:F; cbn; [|reflexivity]. apply N.eqb_eq in F. subst. now rewrite E.
Qed.
Lemma life_app id a : forall st b, life_run id st (a ++ b) = match life_run id st a with Some st' => life_run id st' b | None => None end.
Proof. induction a as [|e a IH]; intros st b; cbn; [reflexivity|]. destruct (life_step id st e); auto. Qed.
Lemma due_app id a b : due id (a ++ b) = fold_left (due_step id) b (due id a).
Proof. unfold due. apply fold_left_app. Qed.
Lemma fresh_app id a b : fresh id (a ++ b) = fold_left (fresh_step id) b (fresh id a).
Proof. unfold fresh. apply fold_left_app. Qed.
Lemma count_app f a b : count_ev f (a ++ b) = (count_ev f a + count_ev f b)%nat.
Proof. unfold count_ev. now rewrite filter_app, app_length. Qed.
Definition occ (id : N) (l : list N) : nat := count_occ N.eq_dec l id.
Lemma occ_app id a b : occ id (a ++ b) = (occ id a + occ id b)%nat.
Proof. unfold occ. induction a as [|x a IH]; cbn; [reflexivity|]. destruct (N.eq_dec x id); lia. Qed.
Lemma occ_one id x : occ id [x] = if N.eqb x id then 1%nat else 0%nat.
Proof. unfold occ. cbn. destruct (N.eq_dec x id) as [->|Q]; [now rewrite N.eqb_refl|]. apply N.eqb_neq in Q. now rewrite Q. Qed.
Lemma occ_drop1 id x l : In x l -> occ id l = (occ id (fx_drop1 x l) + (if N.eqb x id then 1 else 0))%nat.
Proof.
  unfold occ. induction l as [|y l IH]; cbn; [now intros []|]. intros H. destruct (y =? x) eqn:E.
  - apply N.eqb_eq in E. subst. destruct (N.eq_dec x id) as [->|F]; [rewrite N.eqb_refl; lia|]. apply N.eqb_neq in F. rewrite F. lia.
  - destruct H as [H|H]; [apply N.eqb_neq in E; congruence|]. cbn. specialize (IH H). destruct (N.eq_dec y id); lia.
Qed.
Lemma in_drop1 id x l : In id (fx_drop1 x l) -> In id l.
Proof. induction l as [|y l IH]; cbn; [auto|]. destruct (y =? x); cbn; tauto. Qed.

Lemma rev_cases {A} (l : list A) : l = [] \/ exists a x, l = a ++ [x].
Proof. induction l as [|x l IH] using rev_ind; [now left|]. right. now exists l, x. Qed.
Lemma in_app_split {A} (u v : list A) : forall a x b, u ++ v = a ++ x :: b -> (exists b1, u = a ++ x :: b1) \/ In x v.
Proof.
  induction u as [|y u IH]; intros a x b E; [right; cbn in E; rewrite E; apply in_elt|]. destruct a as [|z a]; injection E as -> E; [left; now exists u|].
  destruct (IH a x b E) as [(b1 & ->)|Q]; [left; now exists b1|now right].
Qed.
Definition lives (s : fx) (id : N) : life := if id <? fx_next s then (if fx_in id (fx_queue s) || fx_in id (fx_driver s) then LLive else LOver) else LNew.
Record J (s : fx) : Prop := mkJ {
  j_life : forall id, life_run id LNew (fx_log s) = Some (lives s id);
  j_apart : forall id, In id (fx_queue s) -> ~ In id (fx_driver s);
  j_bound : forall id, In id (fx_queue s) \/ In id (fx_driver s) -> id < fx_next s;
  j_due : forall id, due id (fx_log s) = fx_in id (fx_queue s) || (fx_in id (fx_driver s) && fx_in id (fx_ready s));
  j_fresh : fx_bad_driver s = false -> forall id, In id (fx_queue s) -> fresh id (fx_log s) = true;
  j_half : forall id, count_ev (begun id) (fx_log s) = (count_ev (ended id) (fx_log s) + occ id (fx_half s))%nat;
  j_calm : calm (fx_log s) -> fx_bad_driver s = false;
  j_bad : fx_bad_queue s = true -> fx_bad_driver s = true }.
Lemma J_new : J fx_new.
Proof. constructor; cbn; try tauto; try discriminate; auto. intros id. unfold lives. cbn. now destruct id. Qed.

(* States that differ in the position only *)
Lemma J_pc s p : J s -> J (fx_set_pc s p).
Proof. intros [A B' C D E F G H]. constructor; auto. Qed.
Lemma J_flag s b : J s -> J (fx_set_flag s b).
Proof. intros [A B' C D E F G H]. constructor; auto. Qed.
(* Events that say nothing about tasks *)
Definition plain (e : fxev) : bool := match e with FCall | FNull | FAbort => true | _ => false end.
Lemma calm_app a b : calm (a ++ b) -> calm a.
Proof. intros H id F. apply (H id), in_or_app. now left. Qed.
Lemma J_plain s e : plain e = true -> J s -> J (fx_note s [e]).
Proof.
  intros He [A B' C D E F G H]. constructor; cbn [fx_note fx_log fx_queue fx_driver fx_ready fx_half fx_bad_driver fx_bad_queue]; auto.
  - intros id. rewrite life_app, A. change (lives (fx_note s [e]) id) with (lives s id). destruct e; try discriminate He; reflexivity.
  - intros id. rewrite due_app, D. destruct e; try discriminate He; reflexivity.
  - intros Q id Q'. rewrite fresh_app, (E Q id Q'). destruct e; try discriminate He; reflexivity.
  - intros id. rewrite !count_app, F. destruct e; try discriminate He; cbn; lia.
  - intros Q. apply G. eapply calm_app, Q.
Qed.
Lemma J_push s : J s -> fx_bad_queue s = false -> J (fx_push s).
Proof.
  intros [A B' C D E F G H] Hq. unfold fx_push. rewrite Hq. constructor; cbn [fx_log fx_queue fx_driver fx_ready fx_half fx_bad_driver fx_bad_queue fx_next].
  - intros id. rewrite life_app, A. unfold lives. cbn [fx_next fx_queue fx_driver life_run life_step]. rewrite fx_in_app, fx_in_one. destruct (fx_next s =? id) eqn:En.
    + apply N.eqb_eq in En. subst. rewrite N.ltb_irrefl, N.eqb_refl. replace (fx_next s <? fx_next s + 1) with true by (symmetry; apply N.ltb_lt; lia). now rewrite orb_true_r.
    + rewrite N.eqb_sym in En. rewrite En, orb_false_r. apply N.eqb_neq in En. destruct (id <? fx_next s) eqn:Eb; [apply N.ltb_lt in Eb; replace (id <? fx_next s + 1) with true by (symmetry; apply N.ltb_lt; lia); reflexivity|].
      apply N.ltb_ge in Eb. replace (id <? fx_next s + 1) with false by (symmetry; apply N.ltb_ge; lia). reflexivity.
  - intros id Hi. apply in_app_or in Hi. destruct Hi as [Hi|[<-|[]]]; [now apply B'|]. intros Q. assert (fx_next s < fx_next s) by (apply C; now right). lia.
  - intros id Hi. assert (In id (fx_queue s) \/ In id (fx_driver s) -> id < fx_next s + 1) as Q by (intros Q; apply C in Q; lia). destruct Hi as [Hi|Hi]; [apply in_app_or in Hi; destruct Hi as [Hi|[<-|[]]]; [auto|lia]|auto].
  - intros id. rewrite due_app, D, fx_in_app, fx_in_one. cbn. rewrite N.eqb_sym. destruct (id =? fx_next s); cbn; [now rewrite orb_true_r|now rewrite orb_false_r].
  - intros Hb id Hi. rewrite fresh_app. cbn. destruct (fx_next s =? id) eqn:En; [reflexivity|]. apply in_app_or in Hi. destruct Hi as [Hi|[Hi|[]]]; [auto|apply N.eqb_neq in En; congruence].
  - intros id. rewrite !count_app, F. cbn. lia.
  - intros Q. apply G. eapply calm_app, Q.
  - rewrite <- Hq. exact H.
Qed.
(* A task that is there is woken; what the log says, and the driver's queue *)
Lemma J_wake_log s id r h fl w : J s -> In id (fx_driver s) -> (forall x, In x (fx_driver s) -> fx_in x r = fx_in x (fx_ready s) || (x =? id)) ->
  (w = [FWake id; FWoken id] /\ h = fx_half s \/ w = [FWake id] /\ h = fx_half s ++ [id]) ->
  J (mkFX (fx_queue s) (fx_driver s) r fl h (fx_pc s) (fx_next s) (fx_bad_driver s) (fx_bad_queue s) (fx_log s ++ w)).
Proof.
  intros [A B' C D E F G H] Hi Hr Hw. assert (id < fx_next s) as Hn by (apply C; now right). assert (fx_in id (fx_driver s) = true) as Hd by (apply fx_in_iff; exact Hi).
  constructor; cbn [fx_log fx_queue fx_driver fx_ready fx_half fx_bad_driver fx_bad_queue fx_next]; auto.
  - intros x. rewrite life_app, A. match goal with |- _ = Some (lives ?s' x) => change (lives s' x) with (lives s x) end.
    assert (life_step x (lives s x) (FWake id) = Some (lives s x)) as Q by (cbn; destruct (id =? x) eqn:Ex; [|reflexivity]; apply N.eqb_eq in Ex; subst; unfold lives; apply N.ltb_lt in Hn; now rewrite Hn, Hd, orb_true_r).
    destruct Hw as [(-> & _)|(-> & _)]; cbn [life_run]; rewrite Q; reflexivity.
  - intros x. rewrite due_app, D. assert (fold_left (due_step x) w (fx_in x (fx_queue s) || fx_in x (fx_driver s) && fx_in x (fx_ready s)) = if id =? x then true else fx_in x (fx_queue s) || fx_in x (fx_driver s) && fx_in x (fx_ready s)) as -> by (destruct Hw as [(-> & _)|(-> & _)]; reflexivity).
    destruct (id =? x) eqn:Ex.
    + apply N.eqb_eq in Ex. subst. now rewrite Hd, (Hr x Hi), N.eqb_refl, !orb_true_r.
    + destruct (fx_in x (fx_driver s)) eqn:Exd; [|reflexivity]. apply fx_in_iff in Exd. rewrite (Hr x Exd). rewrite N.eqb_sym, Ex, orb_false_r. reflexivity.
  - intros Q x Q'. rewrite fresh_app, (E Q x Q'). destruct Hw as [(-> & _)|(-> & _)]; reflexivity.
  - intros x. rewrite !count_app, F. destruct Hw as [(-> & ->)|(-> & ->)].
    + cbn. destruct (id =? x); cbn; lia.
    + rewrite occ_app, occ_one. cbn. destruct (id =? x); cbn; lia.
  - intros Q. apply G. eapply calm_app, Q.
Qed.
Lemma J_wake s id : J s -> J (fx_wake s id).
Proof.
  intros H. unfold fx_wake. destruct (fx_in id (fx_driver s)) eqn:Ed; [|exact H]. apply fx_in_iff in Ed. cbn [fx_note fx_ready fx_driver]. destruct (fx_in id (fx_ready s)) eqn:Er.
  - apply (J_wake_log s id (fx_ready s) (fx_half s) (fx_flag s) _ H Ed); [|auto]. intros x _. destruct (x =? id) eqn:Ex; [apply N.eqb_eq in Ex; subst; now rewrite Er|now rewrite orb_false_r].
  - apply (J_wake_log s id (fx_ready s ++ [id]) (fx_half s) true _ H Ed); [|auto]. intros x _. now rewrite fx_in_app, fx_in_one.
Qed.
Lemma J_begin s id : J s -> J (fx_wake_begin s id).
Proof.
  intros H. unfold fx_wake_begin. destruct (fx_in id (fx_driver s)) eqn:Ed; [|exact H]. apply fx_in_iff in Ed. destruct (fx_in id (fx_ready s)) eqn:Er.
  - apply (J_wake_log s id (fx_ready s) (fx_half s) (fx_flag s) _ H Ed); [|auto]. intros x _. destruct (x =? id) eqn:Ex; [apply N.eqb_eq in Ex; subst; now rewrite Er|now rewrite orb_false_r].
  - apply (J_wake_log s id (fx_ready s ++ [id]) (fx_half s ++ [id]) (fx_flag s) _ H Ed); [|auto]. intros x _. now rewrite fx_in_app, fx_in_one.
Qed.
Lemma J_end s id : J s -> J (fx_wake_end s id).
Proof.
  intros H. unfold fx_wake_end. destruct (fx_in id (fx_half s)) eqn:Eh; [|exact H]. apply fx_in_iff in Eh. destruct H as [A B' C D E F G H]. constructor; cbn [fx_note fx_log fx_queue fx_driver fx_ready fx_half fx_bad_driver fx_bad_queue fx_next]; auto.
  - intros x. rewrite life_app, A. reflexivity.
  - intros x. rewrite due_app. cbn. apply D.
  - intros Q x Q'. rewrite fresh_app. cbn. auto.
  - intros x. rewrite !count_app, F. rewrite (occ_drop1 x id (fx_half s) Eh). cbn. destruct (id =? x); cbn; lia.
  - intros Q. apply G. eapply calm_app, Q.
Qed.
Lemma J_drain s s' b : J s -> fx_drain s = Some (s', b) -> J s'.
Proof.
  intros H E. unfold fx_drain in E. destruct (fx_queue s) as [|q0 q] eqn:Eq.
  - injection E as <- <-. destruct H as [A B' C D E' F G H]. constructor; cbn [fx_note fx_log fx_queue fx_driver fx_ready fx_half fx_bad_driver fx_bad_queue fx_next]; auto.
    + intros x. rewrite life_app, A. reflexivity.
    + intros x. rewrite due_app. cbn. apply D.
    + intros _ x Q. rewrite Eq in Q. destruct Q.
    + intros x. rewrite !count_app, F. cbn. lia.
    + intros Q. apply G. eapply calm_app, Q.
  - destruct (fx_bad_driver s) eqn:Eb; [discriminate E|]. injection E as <- <-. rewrite <- Eq in *. clear Eq. destruct H as [A B' C D E' F G H]. constructor; cbn [fx_note fx_log fx_queue fx_driver fx_ready fx_half fx_bad_driver fx_bad_queue fx_next].
    + intros x. rewrite life_app, A. cbn [life_run life_step]. unfold lives. cbn [fx_note fx_next fx_queue fx_driver]. rewrite fx_in_app. destruct (fx_in x (fx_queue s)), (fx_in x (fx_driver s)); reflexivity.
    + intros x [].
    + intros x [[]|Q]. apply in_app_or in Q. apply C. tauto.
    + intros x. rewrite due_app. cbn. rewrite D, !fx_in_app. destruct (fx_in x (fx_queue s)) eqn:Q1, (fx_in x (fx_driver s)) eqn:Q2; cbn; rewrite ?orb_false_r, ?orb_true_r; auto.
    + intros _ x [].
    + intros x. rewrite !count_app, F. cbn. lia.
    + intros _. reflexivity.
    + intros Q. apply H in Q. congruence.
Qed.
Lemma drain_shape s s' b : fx_drain s = Some (s', b) -> fx_pc s' = fx_pc s /\ fx_flag s' = fx_flag s /\ fx_half s' = fx_half s /\ fx_bad_driver s' = fx_bad_driver s /\ fx_bad_queue s' = fx_bad_queue s /\ fx_queue s' = [] /\
  fx_log s' = fx_log s ++ [FDrain] /\ (b = false -> fx_ready s' = fx_ready s /\ fx_driver s' = fx_driver s).
Proof. unfold fx_drain. destruct (fx_queue s) eqn:Eq; [|destruct (fx_bad_driver s) eqn:Eb; [discriminate|]]; intros E; injection E as <- <-; cbn; repeat split; auto; try discriminate. Qed.
Lemma J_acts acts : forall s, J s -> fx_bad_queue s = false -> J (fold_left fx_act acts s) /\ fx_bad_queue (fold_left fx_act acts s) = false /\ fx_pc (fold_left fx_act acts s) = fx_pc s /\
  (forall x, In x (fx_driver s) <-> In x (fx_driver (fold_left fx_act acts s))).
Proof.
  induction acts as [|a acts IH]; intros s H Hq; [tauto|]. cbn [fold_left]. assert (J (fx_act s a) /\ fx_bad_queue (fx_act s a) = false /\ fx_pc (fx_act s a) = fx_pc s /\ fx_driver (fx_act s a) = fx_driver s) as (A & B' & C & D).
  { destruct a as [|id]; cbn [fx_act].
    - split; [apply J_push; auto|]. unfold fx_push. rewrite Hq. auto.
    - split; [apply J_wake; auto|]. unfold fx_wake. destruct (fx_in id (fx_driver s)); [|auto]. cbn [fx_note fx_ready]. destruct (fx_in id (fx_ready s)); auto. }
  destruct (IH _ A B') as (I1 & I2 & I3 & I4). split; [exact I1|]. split; [exact I2|]. split; [congruence|]. intros x. rewrite <- D. apply I4.
Qed.
Lemma J_poll s id r : J s -> fx_ready s = id :: r -> In id (fx_driver s) -> ~ In id r -> J (fx_note (fx_set_driver s (fx_driver s) r) [FPoll id]).
Proof.
  intros [A B' C D E F G H] Er Hi Hr. assert (id < fx_next s) as Hn by (apply C; now right). assert (fx_in id (fx_driver s) = true) as Hd by (apply fx_in_iff; exact Hi). apply N.ltb_lt in Hn.
  assert (fx_in id (fx_queue s) = false) as Hq by (apply fx_in_not; intros Q; exact (B' id Q Hi)).
  constructor; cbn [fx_note fx_set_driver fx_log fx_queue fx_driver fx_ready fx_half fx_bad_driver fx_bad_queue fx_next]; auto.
  - intros x. rewrite life_app, A. match goal with |- _ = Some (lives ?s' x) => change (lives s' x) with (lives s x) end. cbn. destruct (id =? x) eqn:Ex; [|reflexivity]. apply N.eqb_eq in Ex. subst. unfold lives. now rewrite Hn, Hd, orb_true_r.
  - intros x. rewrite due_app, D, Er. cbn. destruct (id =? x) eqn:Ex.
    + apply N.eqb_eq in Ex. subst. rewrite Hq, Hd. apply fx_in_not in Hr. now rewrite Hr.
    + rewrite N.eqb_sym, Ex. reflexivity.
  - intros Q x Q'. rewrite fresh_app. cbn. auto.
  - intros x. rewrite !count_app, F. cbn. lia.
  - intros Q. apply G. eapply calm_app, Q.
Qed.
(* A task is let go *)
Lemma J_over s id e bad : J s -> In id (fx_driver s) -> (e = FPanic id /\ bad = true \/ (exists v, e = FReturn id v) /\ bad = fx_bad_driver s) ->
  J (mkFX (fx_queue s) (fx_without id (fx_driver s)) (fx_ready s) (fx_flag s) (fx_half s) (fx_pc s) (fx_next s) bad (fx_bad_queue s) (fx_log s ++ [e])).
Proof.
  intros [A B' C D E F G H] Hi He. assert (id < fx_next s) as Hn by (apply C; now right). assert (fx_in id (fx_driver s) = true) as Hd by (apply fx_in_iff; exact Hi). apply N.ltb_lt in Hn.
  assert (fx_in id (fx_queue s) = false) as Hq by (apply fx_in_not; intros Q; exact (B' id Q Hi)).
  assert (forall x, In x (fx_without id (fx_driver s)) -> In x (fx_driver s)) as W by (intros x Q; apply fx_in_iff in Q; rewrite fx_in_without in Q; apply andb_prop in Q; apply fx_in_iff, Q).
  constructor; cbn [fx_log fx_queue fx_driver fx_ready fx_half fx_bad_driver fx_bad_queue fx_next].
  - intros x. rewrite life_app, A. unfold lives. cbn [fx_next fx_queue fx_driver]. rewrite fx_in_without. destruct (id =? x) eqn:Ex.
    + apply N.eqb_eq in Ex. subst. rewrite Hn, Hq, Hd, N.eqb_refl. cbn [orb negb andb]. destruct He as [(-> & _)|((v & ->) & _)]; cbn; now rewrite N.eqb_refl.
    + rewrite N.eqb_sym in Ex. rewrite Ex. cbn [negb andb]. rewrite N.eqb_sym in Ex. destruct He as [(-> & _)|((v & ->) & _)]; cbn; now rewrite Ex.
  - intros x Q Q'. exact (B' x Q (W x Q')).
  - intros x [Q|Q]; apply C; auto.
  - intros x. rewrite due_app, D, fx_in_without. assert (forall b, fold_left (due_step x) [e] b = if id =? x then false else b) as -> by (destruct He as [(-> & _)|((v & ->) & _)]; reflexivity).
    rewrite (N.eqb_sym x id). destruct (id =? x) eqn:Ex; [|reflexivity]. apply N.eqb_eq in Ex. subst. now rewrite Hq.
  - intros Q x Q'. rewrite fresh_app. assert (fx_bad_driver s = false) as Qb by (destruct He as [(_ & He)|(_ & He)]; congruence). rewrite (E Qb x Q'). destruct He as [(-> & _)|((v & ->) & _)]; reflexivity.
  - intros x. rewrite !count_app, F. destruct He as [(-> & _)|((v & ->) & _)]; cbn; lia.
  - intros Q. destruct He as [(-> & _)|((v & ->) & ->)]; [exfalso; apply (Q id), in_or_app; right; now left|]. apply G. eapply calm_app, Q.
  - intros Q. destruct He as [(_ & ->)|(_ & ->)]; auto.
Qed.

(* The driver's queue holds no task twice, and none that is still in the spawn queue *)
Record K (s : fx) : Prop := mkK {
  k_queue : NoDup (fx_queue s);
  k_ready : NoDup (fx_ready s);
  k_old : forall id, In id (fx_ready s) -> id < fx_next s /\ ~ In id (fx_queue s) }.
Lemma K_new : K fx_new. Proof. constructor; cbn; try constructor; tauto. Qed.
Lemma K_same s s' : fx_queue s' = fx_queue s -> fx_ready s' = fx_ready s -> fx_next s' = fx_next s -> K s -> K s'.
Proof. intros A B' C [K1 K2 K3]. constructor; rewrite ?A, ?B', ?C; auto. Qed.
Lemma nodup_snoc {A} (x : A) l : NoDup l -> ~ In x l -> NoDup (l ++ [x]).
Proof. intros H F. rewrite <- (rev_involutive (l ++ [x])), rev_app_distr. apply NoDup_rev. cbn. constructor; [now rewrite <- in_rev|now apply NoDup_rev]. Qed.
Lemma K_push s : J s -> K s -> K (fx_push s).
Proof.
  intros HJ H. unfold fx_push. destruct (fx_bad_queue s); [apply (K_same s); auto|]. destruct H as [K1 K2 K3]. constructor; cbn [fx_queue fx_ready fx_next].
  - apply nodup_snoc; [exact K1|]. intros Q. assert (fx_next s < fx_next s) by (apply (j_bound s HJ); now left). lia.
  - exact K2.
  - intros id Q. destruct (K3 id Q) as (Q1 & Q2). split; [lia|]. intros F. apply in_app_or in F. destruct F as [F|[F|[]]]; [contradiction|lia].
Qed.
Lemma K_more s s' id : J s -> K s -> In id (fx_driver s) -> ~ In id (fx_ready s) -> fx_queue s' = fx_queue s -> fx_ready s' = fx_ready s ++ [id] -> fx_next s' = fx_next s -> K s'.
Proof.
  intros HJ [K1 K2 K3] Hd Hr A B' C. constructor; rewrite ?A, ?B', ?C; [exact K1|apply nodup_snoc; auto|]. intros x Q. apply in_app_or in Q. destruct Q as [Q|[<-|[]]]; [auto|].
  split; [apply (j_bound s HJ); now right|]. intros F. exact (j_apart s HJ id F Hd).
Qed.
Lemma K_wake s id : J s -> K s -> K (fx_wake s id).
Proof.
  intros HJ H. unfold fx_wake. destruct (fx_in id (fx_driver s)) eqn:Ed; [|exact H]. cbn [fx_note fx_ready]. destruct (fx_in id (fx_ready s)) eqn:Er; [apply (K_same s); auto|].
  apply (K_more s _ id HJ H); try reflexivity; [apply fx_in_iff, Ed|apply fx_in_not, Er].
Qed.
Lemma K_begin s id : J s -> K s -> K (fx_wake_begin s id).
Proof.
  intros HJ H. unfold fx_wake_begin. destruct (fx_in id (fx_driver s)) eqn:Ed; [|exact H]. destruct (fx_in id (fx_ready s)) eqn:Er; [apply (K_same s); auto|].
  apply (K_more s _ id HJ H); try reflexivity; [apply fx_in_iff, Ed|apply fx_in_not, Er].
Qed.
Lemma K_end s id : K s -> K (fx_wake_end s id).
Proof. intros H. unfold fx_wake_end. destruct (fx_in id (fx_half s)); [apply (K_same s); auto|exact H]. Qed.
Lemma K_drain s s' b : J s -> K s -> fx_drain s = Some (s', b) -> K s'.
Proof.
  intros HJ H E. unfold fx_drain in E. destruct (fx_queue s) as [|q0 q] eqn:Eq; [injection E as <- <-; apply (K_same s); auto|].
  destruct (fx_bad_driver s); [discriminate E|]. injection E as <- <-. rewrite <- Eq. clear Eq. destruct H as [K1 K2 K3]. constructor; cbn [fx_note fx_queue fx_ready fx_next].
  - constructor.
  - clear - K1 K2 K3. assert (forall x, In x (fx_ready s) -> ~ In x (fx_queue s)) as D by (intros x Q; apply (K3 x Q)). clear K3. induction (fx_ready s) as [|x l IH]; [exact K1|]. inversion K2; subst. cbn. constructor.
    + intros F. apply in_app_or in F. destruct F as [F|F]; [contradiction|]. exact (D x (or_introl eq_refl) F).
    + apply IH; auto. intros y Q. apply D. now right.
  - intros x Q. split; [|intros []]. apply in_app_or in Q. destruct Q as [Q|Q]; [apply K3, Q|]. apply (j_bound s HJ). now left.
Qed.
Lemma K_acts acts : forall s, J s -> K s -> fx_bad_queue s = false -> K (fold_left fx_act acts s).
Proof.
  induction acts as [|a acts IH]; intros s HJ H Hq; [exact H|]. cbn [fold_left]. destruct (J_acts [a] s HJ Hq) as (A & B' & _). cbn [fold_left] in A, B'. apply IH; auto.
  destruct a as [|id]; [apply K_push; auto|apply K_wake; auto].
Qed.

(* Between a poll of the driver that found nothing and the end: whatever is in the
   driver's queue has woken the executor or is about to *)
Definition late (p : fxpc) : bool := match p with XDrain2 | XSwap => true | _ => false end.
Definition running (p : fxpc) : bool := match p with XPoll _ _ _ | XDrain2 | XSwap => true | _ => false end.
Definition W (s : fx) : Prop := (late (fx_pc s) = true -> fx_flag s = false -> forall id, In id (fx_ready s) -> In id (fx_half s)) /\ (running (fx_pc s) = true -> fx_bad_driver s = false).
(* NULL *)
Definition Nl (s : fx) : Prop := forall l, fx_log s = l ++ [FNull] -> calm l -> forall id, due id l = true -> waking id l \/ fresh id l = true.
Definition Ok (s : fx) : Prop := J s /\ K s /\ W s /\ Nl s.
Lemma Nl_same s s' : fx_log s' = fx_log s -> Nl s -> Nl s'.
Proof. intros E H l. rewrite E. apply H. Qed.
Lemma Nl_other s l e : fx_log s = l ++ [e] -> e <> FNull -> Nl s.
Proof. intros E H l' E'. rewrite E in E'. apply app_inj_tail in E'. destruct E' as (_ & E'). congruence. Qed.
Lemma Nl_null s : J s -> (fx_bad_driver s = false -> forall id, In id (fx_driver s) -> In id (fx_ready s) -> In id (fx_half s)) -> Nl (fx_null s).
Proof.
  intros HJ H l E Hc id Hd. cbn in E. apply app_inj_tail in E. destruct E as (<- & _). pose proof (j_calm s HJ Hc) as Hb. rewrite (j_due s HJ id) in Hd. apply orb_prop in Hd. destruct Hd as [Hd|Hd].
  - right. apply (j_fresh s HJ Hb). apply fx_in_iff, Hd.
  - left. apply andb_prop in Hd. destruct Hd as (D1 & D2). apply fx_in_iff in D1, D2. specialize (H Hb id D1 D2). unfold waking. rewrite (j_half s HJ id). apply (count_occ_In N.eq_dec) in H. unfold occ. lia.
Qed.
Lemma J_null s : J s -> J (fx_null s). Proof. intros H. apply J_plain; [reflexivity|]. now apply J_pc. Qed.
Lemma Ok_null s : J s -> K s -> (fx_bad_driver s = false -> forall id, In id (fx_driver s) -> In id (fx_ready s) -> In id (fx_half s)) -> Ok (fx_null s).
Proof. intros A B' C. split; [now apply J_null|]. split; [apply (K_same s); auto|]. split; [split; discriminate|now apply Nl_null]. Qed.
Lemma J_bad s : J s -> fx_bad_driver s = true -> J (fx_poison_queue s).
Proof. intros [A B' C D E F G H] Hb. constructor; auto. Qed.
Lemma Ok_begin s : J s -> K s -> Nl s -> fx_bad_driver s = false -> Ok (fx_begin s).
Proof. intros A B' C D. split; [now apply J_pc|]. split; [apply (K_same s); auto|]. split; [split; [discriminate|auto]|]. now apply (Nl_same s). Qed.
Lemma acts_log acts : forall s, exists l, fx_log (fold_left fx_act acts s) = fx_log s ++ l /\ (l = [] \/ exists a e, l = a ++ [e] /\ e <> FNull).
Proof.
  induction acts as [|a acts IH]; intros s; [exists []; rewrite app_nil_r; auto|]. cbn [fold_left]. destruct (IH (fx_act s a)) as (l & E & Hl).
  assert (exists l0, fx_log (fx_act s a) = fx_log s ++ l0 /\ (l0 = [] \/ exists b e, l0 = b ++ [e] /\ e <> FNull)) as (l0 & E0 & H0).
  { destruct a as [|id]; cbn [fx_act].
    - unfold fx_push. destruct (fx_bad_queue s); eexists; (split; [reflexivity|]); right; eexists [], _; (split; [reflexivity|discriminate]).
    - unfold fx_wake. destruct (fx_in id (fx_driver s)); [|exists []; rewrite app_nil_r; auto]. cbn [fx_note fx_ready]. destruct (fx_in id (fx_ready s)); (eexists; split; [reflexivity|]); right; exists [FWake id], (FWoken id); (split; [reflexivity|discriminate]). }
  exists (l0 ++ l). rewrite E, E0, app_assoc. split; [reflexivity|]. destruct Hl as [->|(b & e & -> & He)]; [rewrite app_nil_r; exact H0|]. right. exists (l0 ++ b), e. now rewrite app_assoc.
Qed.
Lemma Ok_step s p : Ok s -> Ok (fx_step s p).
Proof.
  intros (HJ & HK & (W1 & W2) & HN). unfold fx_step. destruct (fx_pc s) as [| |polled yielded len| | | |] eqn:Ep; try (split; [exact HJ|split; [exact HK|split; [split; rewrite Ep; auto|exact HN]]]).
  - destruct (fx_bad_queue s) eqn:Eq; [apply Ok_null; auto; rewrite (j_bad s HJ Eq); discriminate|]. destruct (fx_drain s) as [[s' b]|] eqn:Ed.
    + pose proof (J_drain s s' b HJ Ed) as J'. pose proof (K_drain s s' b HJ HK Ed) as K'. destruct (drain_shape s s' b Ed) as (_ & _ & _ & D1 & _ & _ & D2 & _). destruct (fx_bad_driver s') eqn:Eb; [apply Ok_null; auto; congruence|].
      apply Ok_begin; auto. apply (Nl_other s' (fx_log s) FDrain D2). discriminate.
    + unfold fx_drain in Ed. destruct (fx_queue s); [discriminate Ed|]. destruct (fx_bad_driver s) eqn:Eb; [|discriminate Ed]. apply Ok_null; [apply J_bad; auto|apply (K_same s); auto|cbn; congruence].
  - specialize (W2 eq_refl). assert (fx_bad_queue s = false) as Hq by (destruct (fx_bad_queue s) eqn:E; [apply (j_bad s HJ) in E; congruence|reflexivity]).
    destruct (fx_ready s) as [|id r] eqn:Er.
    + destruct (fx_driver s) eqn:Ed; [apply Ok_null; auto; intros _ id H; rewrite Ed in H; destruct H|]. split; [now apply J_pc|]. split; [apply (K_same s); auto|]. split; [split; cbn; [rewrite Er; intros _ _ id []|auto]|now apply (Nl_same s)].
    + destruct (fx_in id (fx_driver s)) eqn:Ei.
      * apply fx_in_iff in Ei. pose proof (k_ready s HK) as Nd. rewrite Er in Nd. inversion Nd as [|? ? Nr Nd']; subst. pose proof (J_poll s id r HJ Er Ei Nr) as J1. set (s1 := fx_note (fx_set_driver s (fx_driver s) r) [FPoll id]) in *.
        assert (K s1) as K1 by (destruct HK as [Q1 Q2 Q3]; constructor; cbn; auto; intros x Q; apply Q3; rewrite Er; now right).
        destruct (J_acts (tp_acts p) s1 J1 Hq) as (J2 & Q2 & P2 & D2). pose proof (K_acts (tp_acts p) s1 J1 K1 Hq) as K2. destruct (acts_log (tp_acts p) s1) as (l & L2 & Hl).
        assert (fx_bad_driver (fold_left fx_act (tp_acts p) s1) = false) as B2.
        { assert (forall acts s0, fx_bad_driver (fold_left fx_act acts s0) = fx_bad_driver s0) as Q. { clear. induction acts as [|a acts IH]; intros s0; [reflexivity|]. cbn [fold_left]. rewrite IH. destruct a as [|x]; cbn [fx_act]; [unfold fx_push; destruct (fx_bad_queue s0); reflexivity|]. unfold fx_wake. destruct (fx_in x (fx_driver s0)); [|reflexivity]. cbn [fx_note fx_ready]. destruct (fx_in x (fx_ready s0)); reflexivity. }
          rewrite Q. exact W2. }
        assert (Nl (fold_left fx_act (tp_acts p) s1)) as N2.
        { destruct Hl as [->|(a & e & -> & He)]; [rewrite app_nil_r in L2; apply (Nl_other _ (fx_log s) (FPoll id)); [exact L2|discriminate]|]. rewrite app_assoc in L2. exact (Nl_other _ _ e L2 He). }
        assert (In id (fx_driver (fold_left fx_act (tp_acts p) s1))) as I2 by (apply D2; exact Ei). set (s2 := fold_left fx_act (tp_acts p) s1) in *. clearbody s2.
        destruct (tp_res p) as [|v|].
        -- destruct (_ || _).
           ++ split; [apply J_pc, J_flag, J2|]. split; [apply (K_same s2); auto|]. split; [split; [cbn; discriminate|auto]|now apply (Nl_same s2)].
           ++ split; [apply J_pc, J2|]. split; [apply (K_same s2); auto|]. split; [split; [discriminate|auto]|now apply (Nl_same s2)].
        -- pose proof (J_over s2 id (FReturn id v) (fx_bad_driver s2) J2 I2 (or_intror (conj (ex_intro _ v eq_refl) eq_refl))) as J3. split; [apply (J_pc _ XIdle) in J3; exact J3|]. split; [apply (K_same s2); auto|]. split; [split; discriminate|].
           apply (Nl_other _ (fx_log s2) (FReturn id v)); [reflexivity|discriminate].
        -- pose proof (J_over s2 id (FPanic id) true J2 I2 (or_introl (conj eq_refl eq_refl))) as J3. apply Ok_null; [exact J3|apply (K_same s2); auto|cbn; discriminate].
      * split.
        { destruct HJ as [A B' C D E F G H]. constructor; cbn [fx_set_driver fx_log fx_queue fx_driver fx_ready fx_half fx_bad_driver fx_bad_queue fx_next]; auto. intros x. rewrite D, Er. cbn. destruct (x =? id) eqn:Ex; [|reflexivity]. apply N.eqb_eq in Ex. subst. now rewrite Ei. }
        split; [destruct HK as [Q1 Q2 Q3]; constructor; cbn; auto; [rewrite Er in Q2; inversion Q2; auto|intros x Q; apply Q3; rewrite Er; now right]|]. split; [split; cbn; rewrite Ep; auto; discriminate|now apply (Nl_same s)].
  - specialize (W2 eq_refl). specialize (W1 eq_refl). destruct (fx_drain s) as [[s' b]|] eqn:Ed.
    + pose proof (J_drain s s' b HJ Ed) as J'. pose proof (K_drain s s' b HJ HK Ed) as K'. destruct (drain_shape s s' b Ed) as (_ & D0 & D3 & D1 & _ & _ & D2 & D4).
      assert (Nl s') as N' by (apply (Nl_other s' (fx_log s) FDrain D2); discriminate). destruct b; [apply Ok_begin; auto; congruence|]. destruct (D4 eq_refl) as (D5 & D6).
      split; [now apply J_pc|]. split; [apply (K_same s'); auto|]. split; [split; cbn; [rewrite D0, D5, D3; intros _; exact W1|congruence]|now apply (Nl_same s')].
    + unfold fx_drain in Ed. destruct (fx_queue s); [discriminate Ed|]. rewrite W2 in Ed. discriminate Ed.
  - specialize (W2 eq_refl). specialize (W1 eq_refl). destruct (fx_flag s) eqn:Ef.
    + apply Ok_begin; [apply J_flag, HJ|apply (K_same s); auto|now apply (Nl_same s)|exact W2].
    + apply Ok_null; auto.
Qed.

Lemma Ok_push s : Ok s -> Ok (fx_push s).
Proof.
  intros (HJ & HK & (W1 & W2) & HN). destruct (fx_bad_queue s) eqn:Eq.
  - unfold fx_push. rewrite Eq. split; [apply J_plain; [reflexivity|apply J_pc, HJ]|]. split; [apply (K_same s); auto|]. split; [split; discriminate|]. apply (Nl_other _ (fx_log s) FAbort); [reflexivity|discriminate].
  - split; [now apply J_push|]. split; [now apply K_push|]. unfold fx_push. rewrite Eq. split; [split; assumption|]. apply (Nl_other _ (fx_log s) (FPush (fx_next s))); [reflexivity|discriminate].
Qed.
Lemma Ok_wake_begin s id : Ok s -> Ok (fx_wake_begin s id).
Proof.
  intros (HJ & HK & (W1 & W2) & HN). split; [now apply J_begin|]. split; [now apply K_begin|]. unfold fx_wake_begin. destruct (fx_in id (fx_driver s)) eqn:Ed; [|split; [split; assumption|exact HN]]. destruct (fx_in id (fx_ready s)) eqn:Er.
  - split; [split; assumption|]. apply (Nl_other _ (fx_log s ++ [FWake id]) (FWoken id)); [cbn; now rewrite <- app_assoc|discriminate].
  - split; [split; [|exact W2]|apply (Nl_other _ (fx_log s) (FWake id)); [reflexivity|discriminate]]. cbn. intros A B' x Q. apply in_or_app. apply in_app_or in Q. destruct Q as [Q|Q]; [left; now apply W1|now right].
Qed.
Lemma Ok_wake_end s id : Ok s -> Ok (fx_wake_end s id).
Proof.
  intros (HJ & HK & (W1 & W2) & HN). split; [now apply J_end|]. split; [now apply K_end|]. unfold fx_wake_end. destruct (fx_in id (fx_half s)); [|split; [split; assumption|exact HN]].
  split; [split; [discriminate|exact W2]|apply (Nl_other _ (fx_log s) (FWoken id)); [reflexivity|discriminate]].
Qed.
Lemma Ok_free s : Ok s -> Ok (fx_note (mkFX [] [] [] (fx_flag s) (fx_half s) XGone (fx_next s) (fx_bad_driver s) (fx_bad_queue s) (fx_log s)) [FFree (fx_queue s ++ fx_driver s)]).
Proof.
  intros (HJ & HK & _). split; [|split; [constructor; cbn; try constructor; tauto|split; [split; discriminate|apply (Nl_other _ (fx_log s) (FFree (fx_queue s ++ fx_driver s))); [reflexivity|discriminate]]]].
  destruct HJ as [A B' C D E F G H]. constructor; cbn [fx_note fx_log fx_queue fx_driver fx_ready fx_half fx_bad_driver fx_bad_queue fx_next]; auto.
  - intros x. rewrite life_app, A. cbn [life_run life_step]. rewrite fx_in_app. unfold lives. cbn [fx_note fx_next fx_queue fx_driver fx_in existsb orb]. destruct (fx_in x (fx_queue s) || fx_in x (fx_driver s)) eqn:Q.
    + assert (x < fx_next s) as Hx by (apply C; apply orb_prop in Q; rewrite !fx_in_iff in Q; exact Q). apply N.ltb_lt in Hx. now rewrite Hx.
    + destruct (x <? fx_next s); reflexivity.
  - intros x [[]|[]].
  - intros x. rewrite due_app, D. cbn. rewrite fx_in_app. destruct (fx_in x (fx_queue s)), (fx_in x (fx_driver s)); reflexivity.
  - intros x. rewrite !count_app, F. cbn. lia.
  - intros Q. apply G. eapply calm_app, Q.
Qed.
Lemma Ok_call s : Ok s -> Ok (fx_note (fx_set_pc s XDrain1) [FCall]).
Proof.
  intros (HJ & HK & _). split; [apply J_plain; [reflexivity|apply J_pc, HJ]|]. split; [apply (K_same s); auto|]. split; [split; discriminate|]. apply (Nl_other _ (fx_log s) FCall); [reflexivity|discriminate].
Qed.
Lemma Ok_move m s : Ok s -> Ok (fx_move m s).
Proof.
  intros H. unfold fx_move. destruct m as [p| | |id|id|]; destruct (fx_pc s) eqn:Ep; try exact H; try (apply Ok_step, H); try (apply Ok_push, H); try (apply Ok_wake_begin, H); try (apply Ok_wake_end, H); [apply Ok_call, H|apply Ok_free, H].
Qed.
Lemma Ok_new : Ok fx_new.
Proof. split; [apply J_new|]. split; [apply K_new|]. split; [split; discriminate|]. intros l E. destruct l; discriminate E. Qed.
Lemma Ok_run ms : forall s, Ok s -> Ok (fx_run ms s).
Proof. induction ms as [|m ms IH]; intros s H; [exact H|]. cbn [fx_run]. apply IH, Ok_move, H. Qed.
Lemma run_app a b s : fx_run (a ++ b) s = fx_run b (fx_run a s).
Proof. revert s. induction a as [|m a IH]; intros s; [reflexivity|]. cbn. apply IH. Qed.


(* ---- The log only grows, and NULL is the last event of a move ---- *)
Definition grows (s s' : fx) : Prop := exists l, fx_log s' = fx_log s ++ l /\ (l = [] \/ exists a e, l = a ++ [e] /\ ~ In FNull a).
Lemma grows_same s s' : fx_log s' = fx_log s -> grows s s'. Proof. exists []. rewrite app_nil_r. auto. Qed.
Lemma grows_one s s' e : fx_log s' = fx_log s ++ [e] -> grows s s'. Proof. intros E. exists [e]. split; [exact E|]. right. exists [], e. auto. Qed.
Lemma grows_two s s' e f : fx_log s' = fx_log s ++ [e; f] -> e <> FNull -> grows s s'. Proof. intros E H. exists [e; f]. split; [exact E|]. right. exists [e], f. split; [reflexivity|]. intros [F|[]]. congruence. Qed.
Lemma grows_then s s' l : fx_log s' = fx_log s ++ l -> ~ In FNull l -> forall s'' e, (fx_log s'' = fx_log s' \/ fx_log s'' = fx_log s' ++ [e]) -> grows s s''.
Proof.
  intros E H s'' e [Q|Q]; rewrite E in Q; [|rewrite <- app_assoc in Q; exists (l ++ [e]); split; [exact Q|right; exists l, e; auto]].
  exists l. split; [exact Q|]. destruct (rev_cases l) as [->|(a & x & ->)]; [now left|]. right. exists a, x. split; [reflexivity|]. intros F. apply H, in_or_app. now left.
Qed.
Lemma acts_null acts : forall s, exists l, fx_log (fold_left fx_act acts s) = fx_log s ++ l /\ ~ In FNull l.
Proof.
  induction acts as [|a acts IH]; intros s; [exists []; rewrite app_nil_r; auto|]. cbn [fold_left]. destruct (IH (fx_act s a)) as (l & E & Hl).
  assert (exists l0, fx_log (fx_act s a) = fx_log s ++ l0 /\ ~ In FNull l0) as (l0 & E0 & H0).
  { destruct a as [|id]; cbn [fx_act].
    - unfold fx_push. destruct (fx_bad_queue s); (eexists; split; [reflexivity|]); intros [F|[]]; discriminate F.
    - unfold fx_wake. destruct (fx_in id (fx_driver s)); [|exists []; rewrite app_nil_r; auto]. cbn [fx_note fx_ready]. destruct (fx_in id (fx_ready s)); (eexists; split; [reflexivity|]); intros [F|[F|[]]]; discriminate F. }
  exists (l0 ++ l). rewrite E, E0, app_assoc. split; [reflexivity|]. intros F. apply in_app_or in F. tauto.
Qed.
Lemma drain_log s s' b : fx_drain s = Some (s', b) -> fx_log s' = fx_log s ++ [FDrain].
Proof. intros E. apply (drain_shape s s' b E). Qed.
Lemma step_grows s p : grows s (fx_step s p).
Proof.
  unfold fx_step. destruct (fx_pc s) as [| |polled yielded len| | | |]; try now apply grows_same.
  - destruct (fx_bad_queue s); [now apply (grows_one _ _ FNull)|]. destruct (fx_drain s) as [[s' b]|] eqn:Ed; [|now apply (grows_one _ _ FNull)]. apply drain_log in Ed. destruct (fx_bad_driver s').
    + apply (grows_two _ _ FDrain FNull); [|discriminate]. cbn. now rewrite Ed, <- app_assoc.
    + now apply (grows_one _ _ FDrain).
  - destruct (fx_ready s) as [|id r]; [destruct (fx_driver s); [now apply (grows_one _ _ FNull)|now apply grows_same]|]. destruct (fx_in id (fx_driver s)); [|now apply grows_same].
    set (s1 := fx_note (fx_set_driver s (fx_driver s) r) [FPoll id]). destruct (acts_null (tp_acts p) s1) as (l & E & Hl). assert (fx_log (fold_left fx_act (tp_acts p) s1) = fx_log s ++ (FPoll id :: l)) as E' by (rewrite E; cbn; now rewrite <- app_assoc).
    assert (~ In FNull (FPoll id :: l)) as Hl' by (intros [F|F]; [discriminate F|auto]). set (s2 := fold_left fx_act (tp_acts p) s1) in *. destruct (tp_res p) as [|v|].
    + destruct (_ || _); apply (grows_then s s2 _ E' Hl' _ FNull); now left.
    + apply (grows_then s s2 _ E' Hl' _ (FReturn id v)). now right.
    + apply (grows_then s (fx_note s2 [FPanic id]) ((FPoll id :: l) ++ [FPanic id])) with (e := FNull); [cbn [fx_note fx_log]; now rewrite E', <- app_assoc| |now right]. intros F. apply in_app_or in F. destruct F as [F|[F|[]]]; [auto|discriminate F].
  - destruct (fx_drain s) as [[s' b]|] eqn:Ed; [|now apply (grows_one _ _ FNull)]. apply drain_log in Ed. destruct b; now apply (grows_one _ _ FDrain).
  - destruct (fx_flag s); [now apply grows_same|now apply (grows_one _ _ FNull)].
Qed.
Lemma move_grows m s : grows s (fx_move m s).
Proof.
  assert (grows s (fx_push s)) as P by (unfold fx_push; destruct (fx_bad_queue s); [now apply (grows_one _ _ FAbort)|now apply (grows_one _ _ (FPush (fx_next s)))]).
  assert (forall id, grows s (fx_wake_begin s id)) as B by (intros id; unfold fx_wake_begin; destruct (fx_in id (fx_driver s)); [|now apply grows_same]; destruct (fx_in id (fx_ready s)); [apply (grows_two _ _ (FWake id) (FWoken id)); [reflexivity|discriminate]|now apply (grows_one _ _ (FWake id))]).
  assert (forall id, grows s (fx_wake_end s id)) as E by (intros id; unfold fx_wake_end; destruct (fx_in id (fx_half s)); [now apply (grows_one _ _ (FWoken id))|now apply grows_same]).
  unfold fx_move. destruct m as [p| | |id|id|]; destruct (fx_pc s); try (now apply grows_same); auto; try (apply step_grows); eapply grows_one; reflexivity.
Qed.

(* ---- C73: the theorems ---- *)
(* hyper_executor_poll says NULL only if no task is due, except tasks that another
   thread is just waking or has pushed since the queue was looked at *)
Theorem C73_null ms a b id : fx_log (fx_run ms fx_new) = a ++ FNull :: b -> calm a -> due id a = true -> waking id a \/ fresh id a = true.
Proof.
  intros E Hc Hd. revert a b E Hc Hd. induction ms as [|m ms IH] using rev_ind; intros a b E Hc Hd; [destruct a; discriminate E|]. rewrite run_app in E. cbn [fx_run] in E.
  assert (Ok (fx_move m (fx_run ms fx_new))) as (_ & _ & _ & HN) by (apply Ok_move, Ok_run, Ok_new). destruct (move_grows m (fx_run ms fx_new)) as (l & El & Hl). destruct (rev_cases b) as [->|(b0 & x & ->)].
  - exact (HN a E Hc id Hd).
  - rewrite El in E. destruct Hl as [->|(l0 & e & -> & Hl)]; [rewrite app_nil_r in E; exact (IH a _ E Hc Hd)|]. rewrite app_comm_cons, !app_assoc in E. apply app_inj_tail in E. destruct E as (E & _).
    destruct (in_app_split (fx_log (fx_run ms fx_new)) l0 a FNull b0 E) as [(b1 & E1)|Q]; [exact (IH a b1 E1 Hc Hd)|contradiction].
Qed.
Print Assumptions C73_null.

(* Each task is pushed once, polled only while it is there, returned at most once *)
Theorem C73_course ms id : exists st, life_run id LNew (fx_log (fx_run ms fx_new)) = Some st.
Proof. destruct (Ok_run ms fx_new Ok_new) as (HJ & _). eexists. apply (j_life _ HJ). Qed.
Print Assumptions C73_course.

(* A task that has been pushed and is not over is in the spawn queue or in the driver *)
Theorem C73_place ms id : life_run id LNew (fx_log (fx_run ms fx_new)) = Some LLive <-> In id (fx_queue (fx_run ms fx_new)) \/ In id (fx_driver (fx_run ms fx_new)).
Proof.
  destruct (Ok_run ms fx_new Ok_new) as (HJ & _). set (s := fx_run ms fx_new) in *. rewrite (j_life _ HJ id). unfold lives. split.
  - destruct (id <? fx_next s); [|discriminate]. destruct (fx_in id (fx_queue s) || fx_in id (fx_driver s)) eqn:E; [|discriminate]. intros _. apply orb_prop in E. rewrite !fx_in_iff in E. exact E.
  - intros H. pose proof (j_bound s HJ id H) as Hb. apply N.ltb_lt in Hb. rewrite Hb. rewrite <- !fx_in_iff in H. assert (fx_in id (fx_queue s) || fx_in id (fx_driver s) = true) as -> by (apply orb_true_iff, H). reflexivity.
Qed.
Print Assumptions C73_place.

Lemma abort_step m s : Ok s -> (fx_pc s = XAbort -> fx_bad_queue s = true) -> fx_pc (fx_move m s) = XAbort -> fx_bad_queue (fx_move m s) = true.
Proof.
  intros (HJ & _ & (_ & W2) & _) H E. destruct m as [p| | |id|id|]; unfold fx_move in *.
  - assert (fx_move (XStep p) s = fx_step s p) as Em by (unfold fx_move, fx_step; destruct (fx_pc s); reflexivity). unfold fx_move in Em. rewrite Em in *. clear Em. unfold fx_step in *. destruct (fx_pc s) as [| |polled yielded len| | | |] eqn:Ep; try (rewrite Ep in E); try discriminate E; auto.
    + destruct (fx_bad_queue s); [discriminate E|]. destruct (fx_drain s) as [[s' b]|]; [|discriminate E]. destruct (fx_bad_driver s'); discriminate E.
    + specialize (W2 eq_refl). destruct (fx_ready s) as [|i r]; [destruct (fx_driver s); discriminate E|]. destruct (fx_in i (fx_driver s)); [|cbn in E; congruence]. destruct (tp_res p); try discriminate E. destruct (_ || _); discriminate E.
    + destruct (fx_drain s) as [[s' []]|]; discriminate E.
    + destruct (fx_flag s); discriminate E.
  - destruct (fx_pc s) eqn:Ep; try (rewrite Ep in E); try discriminate E; auto.
  - destruct (fx_pc s) eqn:Ep; try (rewrite Ep in E); try discriminate E; auto; unfold fx_push in *; destruct (fx_bad_queue s) eqn:Eq; cbn in *; auto; congruence.
  - destruct (fx_pc s) eqn:Ep; try (rewrite Ep in E); try discriminate E; auto; unfold fx_wake_begin in E; destruct (fx_in id (fx_driver s)); try (destruct (fx_in id (fx_ready s))); cbn in E; congruence.
  - destruct (fx_pc s) eqn:Ep; try (rewrite Ep in E); try discriminate E; auto; unfold fx_wake_end in E; destruct (fx_in id (fx_half s)); cbn in E; congruence.
  - destruct (fx_pc s) eqn:Ep; try (rewrite Ep in E); try discriminate E; auto.
Qed.
Lemma abort_bad ms : fx_pc (fx_run ms fx_new) = XAbort -> fx_bad_queue (fx_run ms fx_new) = true.
Proof. induction ms as [|m ms IH] using rev_ind; [discriminate|]. rewrite run_app. cbn [fx_run]. apply abort_step; [apply Ok_run, Ok_new|exact IH]. Qed.
(* What is returned is what the task gave in the poll of that very step *)
Theorem C73_value m s l id v : fx_log (fx_move m s) = fx_log s ++ l -> In (FReturn id v) l -> exists p r, m = XStep p /\ tp_res p = TDone v /\ l = FPoll id :: r.
Proof.
  intros E Hi. assert (forall l', l = l' -> ~ In (FReturn id v) l' -> False) as X by (intros l' -> F; contradiction).
  assert (forall s', fx_log s' = fx_log s -> fx_log s' = fx_log s ++ l -> False) as X0 by (intros s' Q Q'; rewrite Q in Q'; rewrite <- (app_nil_r (fx_log s)) in Q' at 1; apply app_inv_head in Q'; subst l; destruct Hi).
  assert (forall e s', (forall w, e <> FReturn id w) -> fx_log s' = fx_log s ++ [e] -> fx_log s' = fx_log s ++ l -> False) as X1 by (intros e s' Q Q1 Q2; rewrite Q1 in Q2; apply app_inv_head in Q2; subst l; destruct Hi as [F|[]]; exact (Q v F)).
  assert (forall e f s', (forall w, e <> FReturn id w) -> (forall w, f <> FReturn id w) -> fx_log s' = fx_log s ++ [e; f] -> fx_log s' = fx_log s ++ l -> False) as X2 by (intros e f s' Q Q0 Q1 Q2; rewrite Q1 in Q2; apply app_inv_head in Q2; subst l; destruct Hi as [F|[F|[]]]; [exact (Q v F)|exact (Q0 v F)]).
  assert (forall acts s0, exists l0, fx_log (fold_left fx_act acts s0) = fx_log s0 ++ l0 /\ forall i w, ~ In (FReturn i w) l0) as XA.
  { induction acts as [|a acts IH]; intros s0; [exists []; rewrite app_nil_r; auto|]. cbn [fold_left]. destruct (IH (fx_act s0 a)) as (l1 & E1 & H1).
    assert (exists l0, fx_log (fx_act s0 a) = fx_log s0 ++ l0 /\ forall i w, ~ In (FReturn i w) l0) as (l0 & E0 & H0).
    { destruct a as [|x]; cbn [fx_act].
      - unfold fx_push. destruct (fx_bad_queue s0); (eexists; split; [reflexivity|]); intros i w [F|[]]; discriminate F.
      - unfold fx_wake. destruct (fx_in x (fx_driver s0)); [|exists []; rewrite app_nil_r; auto]. cbn [fx_note fx_ready]. destruct (fx_in x (fx_ready s0)); (eexists; split; [reflexivity|]); intros i w [F|[F|[]]]; discriminate F. }
    exists (l0 ++ l1). rewrite E1, E0, app_assoc. split; [reflexivity|]. intros i w F. apply in_app_or in F. destruct F as [F|F]; [exact (H0 i w F)|exact (H1 i w F)]. }
  unfold fx_move in E. destruct m as [p| | |i|i|].
  - assert (fx_log (fx_step s p) = fx_log s ++ l) as E' by (destruct (fx_pc s) eqn:Ep; auto; unfold fx_step; rewrite Ep; exact E). clear E. unfold fx_step in E'. destruct (fx_pc s) as [| |polled yielded len| | | |]; try (exfalso; exact (X0 _ eq_refl E')).
    + exfalso. destruct (fx_bad_queue s); [exact (X1 FNull (fx_null s) ltac:(discriminate) eq_refl E')|]. destruct (fx_drain s) as [[s' b]|] eqn:Ed; [|refine (X1 FNull _ ltac:(discriminate) _ E'); reflexivity]. apply drain_log in Ed. destruct (fx_bad_driver s').
      * refine (X2 FDrain FNull _ ltac:(discriminate) ltac:(discriminate) _ E'). cbn. now rewrite Ed, <- app_assoc.
      * exact (X1 FDrain _ ltac:(discriminate) Ed E').
    + destruct (fx_ready s) as [|i r]; [exfalso; destruct (fx_driver s); [refine (X1 FNull _ ltac:(discriminate) _ E'); reflexivity|refine (X0 _ _ E'); reflexivity]|]. destruct (fx_in i (fx_driver s)); [|exfalso; refine (X0 _ _ E'); reflexivity].
      set (s1 := fx_note (fx_set_driver s (fx_driver s) r) [FPoll i]) in *. destruct (XA (tp_acts p) s1) as (l0 & E0 & H0). assert (fx_log (fold_left fx_act (tp_acts p) s1) = fx_log s ++ (FPoll i :: l0)) as E1 by (rewrite E0; cbn; now rewrite <- app_assoc).
      set (s2 := fold_left fx_act (tp_acts p) s1) in *. clearbody s2. destruct (tp_res p) as [|w|] eqn:Ew.
      * exfalso. assert (fx_log s2 = fx_log s ++ l) as Q by (destruct (_ || _); exact E'). rewrite E1 in Q. apply app_inv_head in Q. subst l. destruct Hi as [F|F]; [discriminate F|exact (H0 _ _ F)].
      * cbn [fx_note fx_log fx_set_pc fx_set_driver] in E'. rewrite E1, <- app_assoc in E'. apply app_inv_head in E'. subst l. cbn in Hi. destruct Hi as [F|F]; [discriminate F|]. apply in_app_or in F. destruct F as [F|[F|[]]]; [destruct (H0 _ _ F)|]. injection F as -> ->. exists p, (l0 ++ [FReturn id v]). auto.
      * exfalso. cbn [fx_null fx_poison_driver fx_note fx_log fx_set_pc fx_set_driver] in E'. rewrite E1, <- !app_assoc in E'. apply app_inv_head in E'. subst l. cbn in Hi. destruct Hi as [F|F]; [discriminate F|]. apply in_app_or in F. destruct F as [F|[F|[F|[]]]]; [exact (H0 _ _ F)|discriminate F|discriminate F].
    + exfalso. destruct (fx_drain s) as [[s' b]|] eqn:Ed; [|refine (X1 FNull _ ltac:(discriminate) _ E'); reflexivity]. apply drain_log in Ed. destruct b; refine (X1 FDrain _ ltac:(discriminate) _ E'); exact Ed.
    + exfalso. destruct (fx_flag s); [refine (X0 _ _ E'); reflexivity|refine (X1 FNull _ ltac:(discriminate) _ E'); reflexivity].
  - exfalso. destruct (fx_pc s); try (exact (X0 _ eq_refl E)). refine (X1 FCall _ ltac:(discriminate) _ E). reflexivity.
  - exfalso. assert (fx_log (fx_push s) = fx_log s ++ l -> False) as Q by (unfold fx_push; destruct (fx_bad_queue s); intros Q; [refine (X1 FAbort _ ltac:(discriminate) _ Q); reflexivity|refine (X1 (FPush (fx_next s)) _ ltac:(discriminate) _ Q); reflexivity]). destruct (fx_pc s); try (exact (Q E)); exact (X0 _ eq_refl E).
  - exfalso. assert (fx_log (fx_wake_begin s i) = fx_log s ++ l -> False) as Q by (unfold fx_wake_begin; destruct (fx_in i (fx_driver s)); [|exact (X0 s eq_refl)]; destruct (fx_in i (fx_ready s)); intros Q; [refine (X2 (FWake i) (FWoken i) _ ltac:(discriminate) ltac:(discriminate) _ Q); reflexivity|refine (X1 (FWake i) _ ltac:(discriminate) _ Q); reflexivity]).
    destruct (fx_pc s); try (exact (Q E)); exact (X0 _ eq_refl E).
  - exfalso. assert (fx_log (fx_wake_end s i) = fx_log s ++ l -> False) as Q by (unfold fx_wake_end; destruct (fx_in i (fx_half s)); [|exact (X0 s eq_refl)]; intros Q; refine (X1 (FWoken i) _ ltac:(discriminate) _ Q); reflexivity).
    destruct (fx_pc s); try (exact (Q E)); exact (X0 _ eq_refl E).
  - exfalso. destruct (fx_pc s); try (exact (X0 _ eq_refl E)). refine (X1 (FFree (fx_queue s ++ fx_driver s)) _ ltac:(discriminate) _ E). reflexivity.
Qed.
Print Assumptions C73_value.

(* The value of a task that was returned: a task whose output is of type EMPTY, and no
   other, has no value; a value is given once *)
Theorem C73_output o : (task_type (Some (into_dyn o)) = TyEmpty <-> snd (task_value (Some (into_dyn o))) = None) /\
  task_type (fst (task_value (Some (into_dyn o)))) = TyEmpty /\ snd (task_value (fst (task_value (Some (into_dyn o))))) = None.
Proof. split; [|now split]. cbn. induction o; cbn; try (split; intros Q; discriminate Q); tauto. Qed.
Print Assumptions C73_output.

Theorem C73_type o t v : gives o t v <-> task_type (Some (into_dyn o)) = t /\ snd (task_value (Some (into_dyn o))) = v.
Proof.
  split.
  - intros H. induction H; cbn in *; auto.
  - revert t v. induction o; cbn in *; intros t v (<- & <-); constructor; auto.
Qed.
Print Assumptions C73_type.
(* A push is kept, also in the middle of a call *)
Theorem C73_push ms : (forall id, ~ In (FPanic id) (fx_log (fx_run ms fx_new))) -> fx_pc (fx_run ms fx_new) <> XGone ->
  exists id, fx_log (fx_run (ms ++ [XPush]) fx_new) = fx_log (fx_run ms fx_new) ++ [FPush id] /\ In id (fx_queue (fx_run (ms ++ [XPush]) fx_new)).
Proof.
  intros Hc Hg. rewrite run_app. cbn [fx_run]. destruct (Ok_run ms fx_new Ok_new) as (HJ & _). pose proof (abort_bad ms) as Ha. set (s := fx_run ms fx_new) in *. assert (fx_bad_queue s = false) as Hq.
  { pose proof (j_calm s HJ Hc) as Q. destruct (fx_bad_queue s) eqn:E; [apply (j_bad s HJ) in E; congruence|reflexivity]. }
  assert (fx_move XPush s = fx_push s) as -> by (unfold fx_move; destruct (fx_pc s) eqn:Ep; try reflexivity; [congruence|exfalso; rewrite (Ha eq_refl) in Hq; discriminate Hq]).
  exists (fx_next s). unfold fx_push. rewrite Hq. cbn. split; [reflexivity|]. apply in_or_app. right. now left.
Qed.
Print Assumptions C73_push.

(* ---- Every call returns, unless tasks keep waking each other ---- *)
Definition rank (p : fxpc) : nat := match p with XDrain1 => 5 | XPoll _ _ _ => 3 | XDrain2 => 2 | XSwap => 1 | _ => 0 end.
Definition load (s : fx) : nat := (6 * length (fx_queue s) + 4 * length (fx_ready s) + (if fx_flag s then 4 else 0) + rank (fx_pc s))%nat.
Definition extra (m : fxmove) : nat := match m with XStep p => 8 * length (tp_acts p) | XPush => 6 | XWake _ | XWakeDone _ => 4 | _ => 0 end.
Definition extras (ms : list fxmove) : nat := list_sum (map extra ms).
Definition is_step (m : fxmove) : bool := match m with XStep _ => true | _ => false end.
Definition is_call (m : fxmove) : bool := match m with XCall | XFree => true | _ => false end.
Definition at_rest (s : fx) : Prop := fx_pc s = XIdle \/ fx_pc s = XAbort \/ fx_pc s = XGone.
Lemma acts_load acts : forall s, (load (fold_left fx_act acts s) <= load s + 8 * length acts)%nat.
Proof.
  induction acts as [|a acts IH]; intros s; [cbn [fold_left length]; lia|]. cbn [fold_left length]. specialize (IH (fx_act s a)). assert (load (fx_act s a) <= load s + 8)%nat; [|lia]. clear IH. destruct a as [|id]; cbn [fx_act].
  - unfold fx_push, load. destruct (fx_bad_queue s); cbn [fx_note fx_set_pc fx_queue fx_ready fx_flag fx_pc rank]; [lia|]. rewrite app_length. cbn [length]. lia.
  - unfold fx_wake, load. destruct (fx_in id (fx_driver s)); [|lia]. cbn [fx_note fx_ready]. destruct (fx_in id (fx_ready s)); cbn [fx_note fx_set_flag fx_set_driver fx_queue fx_ready fx_flag fx_pc]; [lia|]. rewrite app_length. cbn [length]. destruct (fx_flag s); lia.
Qed.
Lemma drain_load s s' b : fx_drain s = Some (s', b) -> (6 * length (fx_queue s') + 4 * length (fx_ready s') + (if b then 2 else 0) <= 6 * length (fx_queue s) + 4 * length (fx_ready s))%nat /\ fx_flag s' = fx_flag s.
Proof.
  unfold fx_drain. destruct (fx_queue s) as [|q0 q] eqn:Eq; [intros E; injection E as <- <-; cbn; rewrite Eq; cbn; split; [lia|reflexivity]|]. destruct (fx_bad_driver s); [discriminate|]. intros E. injection E as <- <-. cbn [fx_note fx_queue fx_ready fx_flag]. split; [|reflexivity]. rewrite app_length. cbn [length]. lia.
Qed.
Lemma step_load s p : Ok s -> ~ at_rest s -> (at_rest (fx_step s p) \/ load (fx_step s p) < load s + 8 * length (tp_acts p))%nat.
Proof.
  intros (HJ & _ & (_ & W2) & _) Hr. unfold fx_step, at_rest in *. destruct (fx_pc s) as [| |polled yielded len| | | |] eqn:Ep; try (exfalso; apply Hr; now auto).
  - destruct (fx_bad_queue s); [left; now left|]. destruct (fx_drain s) as [[s' b]|] eqn:Ed; [|left; now left]. apply drain_load in Ed. destruct Ed as (E1 & E2). destruct (fx_bad_driver s'); [left; now left|]. right. unfold load, fx_begin. rewrite Ep. cbn [fx_set_pc fx_queue fx_ready fx_flag fx_pc rank]. rewrite E2. destruct b; lia.
  - specialize (W2 eq_refl). assert (fx_bad_queue s = false) as Hq by (destruct (fx_bad_queue s) eqn:E; [apply (j_bad s HJ) in E; congruence|reflexivity]).
    destruct (fx_ready s) as [|i r] eqn:Er; [destruct (fx_driver s); [left; now left|right; unfold load; rewrite Ep; cbn [fx_set_pc fx_queue fx_ready fx_flag fx_pc rank]; lia]|]. destruct (fx_in i (fx_driver s)).
    + set (s1 := fx_note (fx_set_driver s (fx_driver s) r) [FPoll i]). pose proof (acts_load (tp_acts p) s1) as L. assert (load s1 + 4 = load s)%nat as L1 by (unfold load, s1; cbn [fx_note fx_set_driver fx_queue fx_ready fx_flag fx_pc]; rewrite Er; cbn [length]; lia).
      assert (forall acts s0, fx_bad_queue s0 = false -> fx_pc (fold_left fx_act acts s0) = fx_pc s0) as P0.
      { clear. induction acts as [|a acts IH]; intros s0 Hq; [reflexivity|]. cbn [fold_left]. destruct a as [|id]; cbn [fx_act].
        - unfold fx_push. rewrite Hq. now rewrite IH.
        - unfold fx_wake. destruct (fx_in id (fx_driver s0)); [|now apply IH]. cbn [fx_note fx_ready]. destruct (fx_in id (fx_ready s0)); now rewrite IH. }
      pose proof (P0 (tp_acts p) s1 Hq) as P. change (fx_pc s1) with (fx_pc s) in P. rewrite Ep in P. set (s2 := fold_left fx_act (tp_acts p) s1) in *. clearbody s2. destruct (tp_res p) as [|w|]; [|left; now left|left; now left]. right.
      assert (load s2 = 6 * length (fx_queue s2) + 4 * length (fx_ready s2) + (if fx_flag s2 then 4 else 0) + 3)%nat as L2 by (unfold load; rewrite P; reflexivity).
      destruct (_ || _); unfold load at 1; cbn [fx_set_pc fx_set_flag fx_queue fx_ready fx_flag fx_pc rank]; destruct (fx_flag s2); lia.
    + right. unfold load. rewrite Er. cbn [fx_set_driver fx_queue fx_ready fx_flag fx_pc length]. lia.
  - destruct (fx_drain s) as [[s' b]|] eqn:Ed; [|left; now left]. apply drain_load in Ed. destruct Ed as (E1 & E2). right. destruct b; unfold load; rewrite Ep; cbn [fx_begin fx_set_pc fx_queue fx_ready fx_flag fx_pc rank]; rewrite E2; lia.
  - destruct (fx_flag s) eqn:Ef; [|left; now left]. right. unfold load. rewrite Ep, Ef. cbn [fx_begin fx_set_flag fx_set_pc fx_queue fx_ready fx_flag fx_pc rank]. lia.
Qed.
Lemma rest_stays m s : is_call m = false -> at_rest s -> at_rest (fx_move m s).
Proof.
  unfold at_rest, fx_move. intros Hm [E|[E|E]]; rewrite E; auto. destruct m as [p| | |id|id|]; try discriminate Hm.
  - unfold fx_step. rewrite E. auto.
  - unfold fx_push. destruct (fx_bad_queue s); cbn; auto.
  - unfold fx_wake_begin. destruct (fx_in id (fx_driver s)); [|auto]. destruct (fx_in id (fx_ready s)); cbn; auto.
  - unfold fx_wake_end. destruct (fx_in id (fx_half s)); cbn; auto.
Qed.
Lemma other_load m s : is_call m = false -> is_step m = false -> (load (fx_move m s) <= load s + extra m)%nat.
Proof.
  intros Hm Hs. destruct m as [p| | |id|id|]; try discriminate Hm; try discriminate Hs; unfold fx_move.
  - assert (load (fx_push s) <= load s + 6)%nat as Q by (unfold fx_push, load; destruct (fx_bad_queue s); cbn [fx_note fx_set_pc fx_queue fx_ready fx_flag fx_pc rank]; [lia|]; rewrite app_length; cbn [length]; lia). destruct (fx_pc s); cbn [extra]; lia.
  - assert (load (fx_wake_begin s id) <= load s + 4)%nat as Q. { unfold fx_wake_begin, load. destruct (fx_in id (fx_driver s)); [|lia]. destruct (fx_in id (fx_ready s)); cbn [fx_note fx_set_driver fx_queue fx_ready fx_flag fx_pc]; [lia|]. rewrite app_length. cbn [length]. lia. } destruct (fx_pc s); cbn [extra]; lia.
  - assert (load (fx_wake_end s id) <= load s + 4)%nat as Q. { unfold fx_wake_end, load. destruct (fx_in id (fx_half s)); [|lia]. cbn [fx_note fx_queue fx_ready fx_flag fx_pc]. lia. } destruct (fx_pc s); cbn [extra]; lia.
Qed.
Lemma returns_at ms : forall s, Ok s -> forallb (fun m => negb (is_call m)) ms = true -> (load s + extras ms <= length (filter is_step ms))%nat -> at_rest (fx_run ms s).
Proof.
  induction ms as [|m ms IH]; intros s HO Hc L.
  - cbn in L. cbn [fx_run]. unfold load in L. unfold at_rest. destruct (fx_pc s); cbn [rank] in L; try lia; auto.
  - cbn [forallb] in Hc. apply andb_prop in Hc. destruct Hc as (Hm & Hc). apply negb_true_iff in Hm. cbn [fx_run].
    assert (at_rest s \/ ~ at_rest s) as [R|R] by (unfold at_rest; destruct (fx_pc s); auto; right; intros [F|[F|F]]; discriminate F).
    + assert (forall l s0, forallb (fun m => negb (is_call m)) l = true -> at_rest s0 -> at_rest (fx_run l s0)) as Q. { clear. induction l as [|m l IH]; intros s0 Hc R; [exact R|]. cbn [forallb] in Hc. apply andb_prop in Hc. destruct Hc as (Hm & Hc). apply negb_true_iff in Hm. cbn [fx_run]. apply IH; [exact Hc|]. now apply rest_stays. }
      apply Q; [exact Hc|]. now apply rest_stays.
    + destruct (is_step m) eqn:Es.
      * destruct m as [p| | | | |]; try discriminate Es. cbn [filter is_step length] in L. assert (fx_move (XStep p) s = fx_step s p) as Em by (unfold fx_move, fx_step; destruct (fx_pc s); reflexivity).
        destruct (step_load s p HO R) as [Q|Q]; rewrite Em.
        -- assert (forall l s0, forallb (fun m => negb (is_call m)) l = true -> at_rest s0 -> at_rest (fx_run l s0)) as Q'. { clear. induction l as [|m l IH]; intros s0 Hc R; [exact R|]. cbn [forallb] in Hc. apply andb_prop in Hc. destruct Hc as (Hm & Hc). apply negb_true_iff in Hm. cbn [fx_run]. apply IH; [exact Hc|]. now apply rest_stays. } now apply Q'.
        -- apply IH; [rewrite <- Em; now apply Ok_move|exact Hc|]. unfold extras in *. cbn [map list_sum fold_right extra] in L. fold (list_sum (map extra ms)) in L. lia.
      * pose proof (other_load m s Hm Es) as Q. apply IH; [now apply Ok_move|exact Hc|]. unfold extras in *. cbn [filter] in L. rewrite Es in L. cbn [map list_sum fold_right] in L. fold (list_sum (map extra ms)) in L. lia.
Qed.
(* hyper_executor_poll returns (or the process is gone) after a number of steps that is
   bounded by what is queued and what tasks and other threads push and wake meanwhile *)
Theorem C73_returns ms0 ms : (forall m, In m ms -> m <> XCall /\ m <> XFree) ->
  (load (fx_run ms0 fx_new) + extras ms <= length (filter is_step ms))%nat -> at_rest (fx_run ms (fx_run ms0 fx_new)).
Proof.
  intros H L. apply returns_at; [apply Ok_run, Ok_new|apply forallb_forall|exact L]. intros m Hm. destruct (H m Hm). destruct m; try reflexivity; congruence.
Qed.
Print Assumptions C73_returns.
(* The full claim, that every call returns if the polls of tasks do, is false: one task
   that wakes itself whenever it is polled is enough *)
Lemma spin n s : fx_queue s = [] -> fx_driver s = [0] -> fx_ready s = [0] -> (fx_pc s = XPoll 0 0 1 \/ (fx_pc s = XDrain2 \/ fx_pc s = XSwap) /\ fx_flag s = true) ->
  ~ at_rest (fx_run (repeat (XStep (mkTP [TWake 0] TPending)) n) s).
Proof.
  revert s. induction n as [|n IH]; intros s A B C D; cbn [repeat fx_run].
  - unfold at_rest. destruct D as [->|([->| ->] & _)]; intros [F|[F|F]]; discriminate F.
  - destruct s as [q d r fl h pc nx bd bq lg]. cbn [fx_queue fx_driver fx_ready fx_pc fx_flag] in *. subst q d r. destruct D as [->|([->| ->] & ->)]; apply IH; try reflexivity; [right; split; [now left|reflexivity]|right; split; [now right|reflexivity]|now left].
Qed.
Theorem C73_returns_refuted : exists ms p, tp_res p = TPending /\ forall n, ~ at_rest (fx_run (ms ++ repeat (XStep p) n) fx_new).
Proof.
  exists [XPush; XCall; XStep (mkTP [] TPending)], (mkTP [TWake 0] TPending). split; [reflexivity|]. intros n. rewrite run_app. apply spin; try reflexivity. now left.
Qed.
Print Assumptions C73_returns_refuted.

(* After a panic NULL is said although tasks are due, and no task is polled again *)
Theorem C73_null_after_panic_refuted : exists ms a id, fx_log (fx_run ms fx_new) = a ++ [FNull] /\ due id a = true /\ ~ waking id a /\ fresh id a = false.
Proof.
  exists [XPush; XPush; XCall; XStep (mkTP [] TPending); XStep (mkTP [] TPanic); XCall; XStep (mkTP [] TPending)]. eexists [FPush 0; FPush 1; FCall; FDrain; FPoll 0; FPanic 0; FNull; FCall; FDrain], 1. split; [vm_compute; reflexivity|]. split; [reflexivity|]. split; [unfold waking; cbn; lia|reflexivity].
Qed.
Print Assumptions C73_null_after_panic_refuted.
Definition resumes (e : fxev) : bool := match e with FPoll _ | FReturn _ _ => true | _ => false end.
Lemma poisoned_step m s : fx_bad_driver s = true -> running (fx_pc s) = false -> fx_bad_driver (fx_move m s) = true /\ running (fx_pc (fx_move m s)) = false /\ exists l, fx_log (fx_move m s) = fx_log s ++ l /\ forall e, In e l -> resumes e = false.
Proof.
  intros Hb Hr. assert (fx_bad_driver s = true /\ running (fx_pc s) = false /\ exists l, fx_log s = fx_log s ++ l /\ forall e, In e l -> resumes e = false) as X0 by (split; [exact Hb|split; [exact Hr|exists []; rewrite app_nil_r; split; [reflexivity|intros e []]]]).
  assert (forall e0 x, In x [e0] -> resumes e0 = false -> resumes x = false) as X1 by (intros e0 x [<-|[]]; auto).
  unfold fx_move. destruct m as [p| | |id|id|].
  - assert (fx_bad_driver (fx_step s p) = true /\ running (fx_pc (fx_step s p)) = false /\ exists l, fx_log (fx_step s p) = fx_log s ++ l /\ forall e, In e l -> resumes e = false) as Q.
    { unfold fx_step. destruct (fx_pc s) eqn:Ep; try discriminate Hr; try (rewrite Ep; exact X0). destruct (fx_bad_queue s); [cbn; split; [exact Hb|]; split; [reflexivity|]; exists [FNull]; split; [reflexivity|]; intros e Q; apply (X1 _ _ Q); reflexivity|].
      destruct (fx_drain s) as [[s' b]|] eqn:Ed; [|cbn; split; [exact Hb|]; split; [reflexivity|]; exists [FNull]; split; [reflexivity|]; intros e Q; apply (X1 _ _ Q); reflexivity].
      destruct (drain_shape s s' b Ed) as (_ & _ & _ & D1 & _ & _ & D2 & _). rewrite D1, Hb. cbn. split; [congruence|]. split; [reflexivity|]. exists [FDrain; FNull]. rewrite D2, <- app_assoc. split; [reflexivity|]. intros e [<-|[<-|[]]]; reflexivity. }
    destruct (fx_pc s) eqn:Ep; try discriminate Hr; auto; rewrite Ep; exact X0.
  - destruct (fx_pc s) eqn:Ep; try discriminate Hr; try (rewrite Ep; exact X0). cbn. split; [exact Hb|]. split; [reflexivity|]. exists [FCall]. split; [reflexivity|]. intros e Q. apply (X1 _ _ Q). reflexivity.
  - assert (fx_bad_driver (fx_push s) = true /\ running (fx_pc (fx_push s)) = false /\ exists l, fx_log (fx_push s) = fx_log s ++ l /\ forall e, In e l -> resumes e = false) as Q by (unfold fx_push; destruct (fx_bad_queue s); cbn; (split; [exact Hb|]; split; [auto|]; eexists; split; [reflexivity|]; intros e Q; apply (X1 _ _ Q); reflexivity)).
    destruct (fx_pc s) eqn:Ep; try discriminate Hr; auto; rewrite Ep; exact X0.
  - assert (fx_bad_driver (fx_wake_begin s id) = true /\ running (fx_pc (fx_wake_begin s id)) = false /\ exists l, fx_log (fx_wake_begin s id) = fx_log s ++ l /\ forall e, In e l -> resumes e = false) as Q.
    { unfold fx_wake_begin. destruct (fx_in id (fx_driver s)); [|exact X0]. destruct (fx_in id (fx_ready s)); cbn; (split; [exact Hb|]; split; [exact Hr|]; eexists; split; [reflexivity|]); [intros e [<-|[<-|[]]]; reflexivity|intros e Q; apply (X1 _ _ Q); reflexivity]. }
    destruct (fx_pc s) eqn:Ep; try discriminate Hr; auto; rewrite Ep; exact X0.
  - assert (fx_bad_driver (fx_wake_end s id) = true /\ running (fx_pc (fx_wake_end s id)) = false /\ exists l, fx_log (fx_wake_end s id) = fx_log s ++ l /\ forall e, In e l -> resumes e = false) as Q.
    { unfold fx_wake_end. destruct (fx_in id (fx_half s)); [|exact X0]. cbn. split; [exact Hb|]; split; [exact Hr|]; eexists; split; [reflexivity|]. intros e Q; apply (X1 _ _ Q); reflexivity. }
    destruct (fx_pc s) eqn:Ep; try discriminate Hr; auto; rewrite Ep; exact X0.
  - destruct (fx_pc s) eqn:Ep; try discriminate Hr; try (rewrite Ep; exact X0). cbn. split; [exact Hb|]. split; [reflexivity|]. eexists. split; [reflexivity|]. intros e Q. apply (X1 _ _ Q). reflexivity.
Qed.
Definition poisoned (s : fx) : Prop := fx_bad_driver s = true /\ running (fx_pc s) = false.
Lemma acts_panic acts id : forall s, In (FPanic id) (fx_log (fold_left fx_act acts s)) -> In (FPanic id) (fx_log s).
Proof.
  induction acts as [|a acts IH]; intros s H; [exact H|]. cbn [fold_left] in H. apply IH in H. destruct a as [|x]; cbn [fx_act] in H.
  - unfold fx_push in H. destruct (fx_bad_queue s); apply in_app_or in H; destruct H as [H|[H|[]]]; auto; discriminate H.
  - unfold fx_wake in H. destruct (fx_in x (fx_driver s)); [|exact H]. cbn [fx_note fx_ready] in H. destruct (fx_in x (fx_ready s)); apply in_app_or in H; destruct H as [H|[H|[H|[]]]]; auto; discriminate H.
Qed.
Lemma panic_new m s id : In (FPanic id) (fx_log (fx_move m s)) -> In (FPanic id) (fx_log s) \/ poisoned (fx_move m s).
Proof.
  assert (forall s' e, (forall i, e <> FPanic i) -> fx_log s' = fx_log s ++ [e] -> In (FPanic id) (fx_log s') -> In (FPanic id) (fx_log s)) as X1 by (intros s' e He E H; rewrite E in H; apply in_app_or in H; destruct H as [H|[H|[]]]; [exact H|destruct (He id H)]).
  assert (forall s' e f, (forall i, e <> FPanic i) -> (forall i, f <> FPanic i) -> fx_log s' = fx_log s ++ [e; f] -> In (FPanic id) (fx_log s') -> In (FPanic id) (fx_log s)) as X2 by (intros s' e f He Hf E H; rewrite E in H; apply in_app_or in H; destruct H as [H|[H|[H|[]]]]; [exact H|destruct (He id H)|destruct (Hf id H)]).
  destruct m as [p| | |i|i|].
  - replace (fx_move (XStep p) s) with (fx_step s p) by (unfold fx_move, fx_step; destruct (fx_pc s); reflexivity). unfold fx_step. destruct (fx_pc s) as [| |polled yielded len| | | |]; try (intros H; left; exact H).
    + destruct (fx_bad_queue s); [intros H; left; revert H; apply (X1 _ FNull); [discriminate|reflexivity]|]. destruct (fx_drain s) as [[s' b]|] eqn:Ed; [|intros H; left; revert H; apply (X1 _ FNull); [discriminate|reflexivity]]. apply drain_log in Ed. destruct (fx_bad_driver s').
      * intros H; left; revert H; apply (X2 _ FDrain FNull); [discriminate|discriminate|cbn; now rewrite Ed, <- app_assoc].
      * intros H; left; revert H; apply (X1 _ FDrain); [discriminate|exact Ed].
    + destruct (fx_ready s) as [|x r]; [destruct (fx_driver s); intros H; left; [revert H; apply (X1 _ FNull); [discriminate|reflexivity]|exact H]|]. destruct (fx_in x (fx_driver s)); [|intros H; left; exact H].
      set (s1 := fx_note (fx_set_driver s (fx_driver s) r) [FPoll x]). pose proof (acts_panic (tp_acts p) id s1) as HA. assert (In (FPanic id) (fx_log s1) -> In (FPanic id) (fx_log s)) as H1 by (apply (X1 _ (FPoll x)); [discriminate|reflexivity]). set (s2 := fold_left fx_act (tp_acts p) s1) in *. clearbody s2.
      destruct (tp_res p) as [|w|].
      * intros H. left. apply H1, HA. destruct (_ || _); exact H.
      * intros H. left. apply H1, HA. cbn in H. apply in_app_or in H. destruct H as [H|[H|[]]]; [exact H|discriminate H].
      * intros _. right. split; reflexivity.
    + destruct (fx_drain s) as [[s' b]|] eqn:Ed; [|intros H; left; revert H; apply (X1 _ FNull); [discriminate|reflexivity]]. apply drain_log in Ed. destruct b; intros H; left; revert H; apply (X1 _ FDrain); try discriminate; exact Ed.
    + destruct (fx_flag s); intros H; left; [exact H|revert H; apply (X1 _ FNull); [discriminate|reflexivity]].
  - intros H. left. revert H. unfold fx_move. destruct (fx_pc s); auto. apply (X1 _ FCall); [discriminate|reflexivity].
  - intros H. left. assert (In (FPanic id) (fx_log (fx_push s)) -> In (FPanic id) (fx_log s)) as Q by (unfold fx_push; destruct (fx_bad_queue s); [apply (X1 _ FAbort); [discriminate|reflexivity]|apply (X1 _ (FPush (fx_next s))); [discriminate|reflexivity]]). unfold fx_move in H. destruct (fx_pc s); auto.
  - intros H. left. assert (In (FPanic id) (fx_log (fx_wake_begin s i)) -> In (FPanic id) (fx_log s)) as Q by (unfold fx_wake_begin; destruct (fx_in i (fx_driver s)); [|auto]; destruct (fx_in i (fx_ready s)); [apply (X2 _ (FWake i) (FWoken i)); try discriminate; reflexivity|apply (X1 _ (FWake i)); [discriminate|reflexivity]]). unfold fx_move in H. destruct (fx_pc s); auto.
  - intros H. left. assert (In (FPanic id) (fx_log (fx_wake_end s i)) -> In (FPanic id) (fx_log s)) as Q by (unfold fx_wake_end; destruct (fx_in i (fx_half s)); [|auto]; apply (X1 _ (FWoken i)); [discriminate|reflexivity]). unfold fx_move in H. destruct (fx_pc s); auto.
  - intros H. left. revert H. unfold fx_move. destruct (fx_pc s); auto. apply (X1 _ (FFree (fx_queue s ++ fx_driver s))); [discriminate|reflexivity].
Qed.
Lemma panicked_poisoned ms id : In (FPanic id) (fx_log (fx_run ms fx_new)) -> poisoned (fx_run ms fx_new).
Proof.
  induction ms as [|m ms IH] using rev_ind; [intros []|]. rewrite run_app. cbn [fx_run]. intros H. destruct (panic_new m _ id H) as [Q|Q]; [|exact Q]. destruct (IH Q) as (A & B). destruct (poisoned_step m _ A B) as (C & D & _). now split.
Qed.
Theorem C73_dead_after_panic ms ms' id : In (FPanic id) (fx_log (fx_run ms fx_new)) ->
  exists l, fx_log (fx_run (ms ++ ms') fx_new) = fx_log (fx_run ms fx_new) ++ l /\ forall x v, ~ In (FPoll x) l /\ ~ In (FReturn x v) l.
Proof.
  intros H. apply panicked_poisoned in H. rewrite run_app. destruct H as (A & B). assert (exists l, fx_log (fx_run ms' (fx_run ms fx_new)) = fx_log (fx_run ms fx_new) ++ l /\ forall e, In e l -> resumes e = false) as (l & E & Hl).
  - revert A B. generalize (fx_run ms fx_new). induction ms' as [|m ms' IH]; intros s A B; cbn [fx_run]; [exists []; rewrite app_nil_r; split; [reflexivity|intros e []]|]. destruct (poisoned_step m s A B) as (C & D & l0 & E0 & H0). destruct (IH _ C D) as (l & E & Hl). exists (l0 ++ l). rewrite E, E0, app_assoc. split; [reflexivity|].
    intros e Q. apply in_app_or in Q. destruct Q; auto.
  - exists l. split; [exact E|]. intros x v. split; intros F; apply Hl in F; discriminate F.
Qed.
Print Assumptions C73_dead_after_panic.

(* ---- Examples ---- *)
Notation go := (XStep (mkTP [] TPending)).
(* Two tasks; the first one waits for the second, which wakes it; both are returned.
   The first has spawned a third; another thread begins to wake that one just before the
   call returns NULL, the next call returns it; then there is none *)
Definition ex_three : list fxmove :=
  [XPush; XPush; XCall; go; go; XStep (mkTP [TWake 0] (TDone 7)); XCall; go; XStep (mkTP [TSpawn] (TDone 5)); XCall; go; go; go; go; go; XWake 2; go; go; XWakeDone 2; XCall; go; XStep (mkTP [] (TDone 9)); XCall; go; go].
Definition ex_before : list fxev :=
  [FPush 0; FPush 1; FCall; FDrain; FPoll 0; FPoll 1; FWake 0; FWoken 0; FReturn 1 7; FCall; FDrain; FPoll 0; FPush 2; FReturn 0 5; FCall; FDrain; FPoll 2; FDrain; FWake 2; FDrain].
Example C73_log_ex : fx_log (fx_run ex_three fx_new) = ex_before ++ [FNull; FWoken 2; FCall; FDrain; FPoll 2; FReturn 2 9; FCall; FDrain; FNull].
Proof. vm_compute. reflexivity. Qed.
(* A push in the middle of a call *)
Example C73_push_ex : fx_pc (fx_run (firstn 4 ex_three) fx_new) = XPoll 0 0 2 /\ fx_queue (fx_run (firstn 4 ex_three ++ [XPush]) fx_new) = [2].
Proof. vm_compute. split; reflexivity. Qed.
(* The hypotheses of C73_null; both of its exceptions occur *)
Example C73_null_ex : calm ex_before /\ due 2 ex_before = true /\ waking 2 ex_before /\ fresh 2 ex_before = false.
Proof. split; [intros id F; cbn in F; repeat (destruct F as [F|F]; [discriminate F|]); destruct F|]. split; [reflexivity|]. split; [unfold waking; cbn; lia|reflexivity]. Qed.
Example C73_null_fresh_ex : exists a, fx_log (fx_run [XCall; go; XPush; go] fx_new) = a ++ [FNull] /\ due 0 a = true /\ fresh 0 a = true.
Proof. exists [FCall; FDrain; FPush 0]. repeat split. Qed.
Example C73_course_ex : life_run 1 LNew (fx_log (fx_run ex_three fx_new)) = Some LOver /\ life_run 1 LNew (fx_log (fx_run (firstn 4 ex_three) fx_new)) = Some LLive /\ life_run 1 LNew [FPush 1; FReturn 1 7; FReturn 1 7] = None.
Proof. vm_compute. repeat split. Qed.
Example C73_place_ex : fx_queue (fx_run (firstn 3 ex_three) fx_new) = [0; 1] /\ fx_driver (fx_run (firstn 4 ex_three) fx_new) = [0; 1].
Proof. vm_compute. repeat split. Qed.
Example C73_value_ex : let s := fx_run (firstn 5 ex_three) fx_new in fx_log (fx_move (XStep (mkTP [TWake 0] (TDone 7))) s) = fx_log s ++ [FPoll 1; FWake 0; FWoken 0; FReturn 1 7].
Proof. vm_compute. reflexivity. Qed.
Example C73_output_ex : task_type (Some (into_dyn (OOk (OSome (OBuf 3))))) = TyBuf /\ snd (task_value (Some (into_dyn (OOk (OSome (OBuf 3)))))) = Some 3 /\ task_type (Some (into_dyn (OOk ONone))) = TyEmpty /\ task_type (Some (into_dyn (OFail 4))) = TyError.
Proof. repeat split. Qed.
Example C73_returns_ex : let s := fx_run (firstn 3 ex_three) fx_new in (load s + extras (repeat go 30) <= length (filter is_step (repeat go 30)))%nat /\ fx_pc (fx_run (repeat go 30) s) = XIdle.
Proof. vm_compute. split; [lia|reflexivity]. Qed.
(* A panic; a call with a task in the spawn queue; the next push ends the process *)
Definition ex_panic : list fxmove := [XPush; XPush; XCall; go; XStep (mkTP [] TPanic); XPush; XCall; go; XPush].
Example C73_panic_ex : fx_log (fx_run ex_panic fx_new) = [FPush 0; FPush 1; FCall; FDrain; FPoll 0; FPanic 0; FNull; FPush 2; FCall; FNull; FAbort].
Proof. vm_compute. reflexivity. Qed.
