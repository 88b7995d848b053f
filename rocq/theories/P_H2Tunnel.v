(* C45: writes to and reads from an HTTP/2 tunnel. *)
From Verif Require Import Base M_H2Body M_H2Tunnel.

(* ---- Specification: reading the log ---- *)
(* The accepted writes, and the data frames handed to h2, in order *)
Definition written (l : list tev) : list bytes := flat_map (fun e => match e with EWrite d => [d] | _ => [] end) l.
Definition forwarded (l : list tev) : list bytes := flat_map (fun e => match e with ESend (HData d false) => [d] | _ => [] end) l.
Definition quiet_after (l : list tev) : Prop := forall e, In e l -> (forall d, e <> EWrite d) /\ (forall x, e <> ESend x).
(* Since the task last saw the queue empty it has sent nothing and not looked again *)
Definition unseen (l : list tev) : Prop := ~ In EEmpty l /\ forall x, ~ In (ESend x) l.

(* ---- Lemmas ---- *)
Lemma written_app a b : written (a ++ b) = written a ++ written b.
Proof. apply flat_map_app. Qed.
Lemma forwarded_app a b : forwarded (a ++ b) = forwarded a ++ forwarded b.
Proof. apply flat_map_app. Qed.
Definition returned (p : tpc) : bool := match p with TReturned _ | TDropped => true | _ => false end.
Definition failed (l : list tev) : Prop := In EFail l \/ In EKilled l.
Definition eos : tev := ESend (HData [] true).
Definition lost_only_raced (l1 : list tev) : Prop :=
  written l1 = forwarded l1 \/ exists a b, l1 = a ++ EEmpty :: b /\ unseen b /\ written a = forwarded a.
Definition tinv (t : tunnel) : Prop :=
  (exists rest, written (t_log t) = forwarded (t_log t) ++ rest) /\
  (returned (t_task t) = false -> ~ In eos (t_log t) /\ ~ failed (t_log t) /\ written (t_log t) = forwarded (t_log t) ++ t_queue t) /\
  (t_closed t = true -> t_w t <> WOpen) /\
  ((t_task t = TFlag1 \/ t_task t = TFlag2) -> exists a b, t_log t = a ++ EEmpty :: b /\ unseen b /\ written a = forwarded a) /\
  (forall l1 l2 x, t_log t = l1 ++ ESend x :: l2 -> (exists d, x = HData d false) \/
     x = HData [] true /\ quiet_after l2 /\ lost_only_raced l1) /\
  (In eos (t_log t) -> t_w t <> WOpen) /\
  (returned (t_task t) = true -> In eos (t_log t) \/ failed (t_log t)) /\
  (In EShutOk (t_log t) -> is_dropped (t_task t) = true).
Lemma pair_inv : tinv t_pair.
Proof.
  unfold tinv, t_pair. cbn. split; [exists []; reflexivity|]. split; [intros _; split; [auto|split; [intros [H|H]; auto|reflexivity]]|]. split; [discriminate|]. split; [intros [H|H]; discriminate H|].
  split; [intros [|? ?] l2 x H; discriminate H|]. split; [auto|]. split; [discriminate|intros []].
Qed.
(* Adding an event that is neither a write nor a frame *)
Definition plain (e : tev) : bool := match e with EWrite _ | ESend _ => false | _ => true end.
Lemma sends_app (l : list tev) e : plain e = true -> (forall l1 l2 x, l = l1 ++ ESend x :: l2 -> (exists d, x = HData d false) \/ x = HData [] true /\ quiet_after l2 /\ lost_only_raced l1) ->
  forall l1 l2 x, l ++ [e] = l1 ++ ESend x :: l2 -> (exists d, x = HData d false) \/ x = HData [] true /\ quiet_after l2 /\ lost_only_raced l1.
Proof.
  intros Pe H l1 l2 x E. destruct l2 as [|y l2 _] using rev_ind.
  - apply app_inj_tail in E. destruct E as (_ & ->). discriminate Pe.
  - rewrite app_comm_cons, app_assoc in E. apply app_inj_tail in E. destruct E as (E & <-). destruct (H _ _ _ E) as [Q|(Q1 & Q2 & Q3)]; [auto|]. right. split; [exact Q1|]. split; [|exact Q3].
    intros z Hz. apply in_app_or in Hz. destruct Hz as [Hz|[<- |[]]]; [auto|]. split; intros w; destruct e; discriminate.
Qed.
Lemma in_eos_snoc l e : In eos (l ++ [e]) -> In eos l \/ e = eos.
Proof. intros H. apply in_app_or in H. destruct H as [H|[H|[]]]; auto. Qed.
Lemma failed_app l e : failed l -> failed (l ++ e).
Proof. intros [H|H]; [left|right]; apply in_or_app; auto. Qed.
Lemma failed_snoc l e : failed (l ++ [e]) -> failed l \/ e = EFail \/ e = EKilled.
Proof. intros [H|H]; apply in_app_or in H; destruct H as [H|[H|[]]]; unfold failed; auto. Qed.
Lemma plain_lists l e : plain e = true -> written (l ++ [e]) = written l /\ forwarded (l ++ [e]) = forwarded l.
Proof. intros P. rewrite written_app, forwarded_app. destruct e; try discriminate P; cbn; rewrite !app_nil_r; auto. Qed.

Lemma inv_fail t q : tinv t -> returned (t_task t) = false -> tinv (t_fail (mkT q (t_w t) (t_closed t) (t_task t) (t_error t) (t_log t))).
Proof.
  intros (A & B & C & _ & E & F & _ & H) Hr. unfold t_fail, tinv. cbn [t_queue t_w t_closed t_task t_error t_log].
  destruct (plain_lists (t_log t) EFail eq_refl) as (P1 & P2). rewrite P1, P2.
  split; [exact A|]. split; [discriminate|]. split; [exact C|]. split; [intros [Q|Q]; discriminate Q|]. split; [apply sends_app; [reflexivity|exact E]|].
  split; [intros Q; apply in_eos_snoc in Q; destruct Q as [Q|Q]; [auto|discriminate Q]|]. split; [intros _; right; left; apply in_or_app; right; left; reflexivity|].
  intros Q. apply in_app_or in Q. destruct Q as [Q|[Q|[]]]; [|discriminate Q]. apply H in Q. destruct (t_task t); discriminate.
Qed.
Lemma same_mk t : mkT (t_queue t) (t_w t) (t_closed t) (t_task t) (t_error t) (t_log t) = t.
Proof. destruct t; reflexivity. Qed.
Lemma inv_fail' t : tinv t -> returned (t_task t) = false -> tinv (t_fail t).
Proof. intros H Hr. pose proof (inv_fail t (t_queue t) H Hr) as Q. rewrite same_mk in Q. exact Q. Qed.
(* The end of the stream is sent *)
Lemma inv_eos t : tinv t -> returned (t_task t) = false -> t_w t <> WOpen -> lost_only_raced (t_log t) -> tinv (t_with_task (TReturned false) [eos] t).
Proof.
  intros (A & B & C & D & E & F & G & H) Hr Hw Hl. destruct (B Hr) as (B1 & B2 & B3). unfold t_with_task, tinv. cbn [t_queue t_w t_closed t_task t_error t_log returned].
  rewrite !written_app, !forwarded_app. cbn [written forwarded flat_map eos app]. rewrite !app_nil_r.
  split; [exact A|]. split; [discriminate|]. split; [exact C|]. split; [intros [Q|Q]; discriminate Q|]. split.
  - intros l1 l2 x Q. destruct l2 as [|y l2 _] using rev_ind.
    + apply app_inj_tail in Q. destruct Q as (<- & Q). inversion Q; subst. right. split; [reflexivity|]. split; [intros e []|exact Hl].
    + rewrite app_comm_cons, app_assoc in Q. apply app_inj_tail in Q. destruct Q as (Q & _). destruct (E _ _ _ Q) as [Z|(Z & _)]; [auto|]. exfalso. apply B1. rewrite Q, Z. apply in_or_app. right. left. reflexivity.
  - split; [auto|]. split; [intros _; left; apply in_or_app; right; left; reflexivity|]. intros Q. apply in_app_or in Q. destruct Q as [Q|[Q|[]]]; [|discriminate Q]. apply H in Q. destruct (t_task t); discriminate.
Qed.
Lemma inv_eos' t sent : tinv t -> returned (t_task t) = false -> t_w t <> WOpen -> lost_only_raced (t_log t) -> tinv (t_eos sent t).
Proof. intros. unfold t_eos. destruct sent; [apply inv_eos; assumption|apply inv_fail'; assumption]. Qed.
(* The task moves without a trace *)
Lemma inv_move t pc : tinv t -> returned (t_task t) = false -> returned pc = false ->
  ((pc = TFlag1 \/ pc = TFlag2) -> t_task t = TFlag1 \/ t_task t = TFlag2) -> tinv (t_with_task pc [] t).
Proof.
  intros (A & B & C & D & E & F & G & H) Hr Hp Hf. unfold t_with_task, tinv. cbn [t_queue t_w t_closed t_task t_error t_log]. rewrite app_nil_r.
  split; [exact A|]. split; [intros _; exact (B Hr)|]. split; [exact C|]. split; [auto|]. split; [exact E|]. split; [exact F|]. split; [congruence|]. intros Q. apply H in Q. destruct (t_task t); discriminate.
Qed.
(* The writer moves without a write *)
Lemma inv_writer t w c : tinv t -> w <> WOpen -> tinv (mkT (t_queue t) w c (t_task t) (t_error t) (t_log t)).
Proof.
  intros (A & B & C & D & E & F & G & H) Hw. unfold tinv. cbn [t_queue t_w t_closed t_task t_error t_log]. auto 10.
Qed.
Lemma inv_step t a t' : tinv t -> t_step t a = Some t' -> tinv t'.
Proof.
  intros I0 Es. destruct a as [d ready| | | | | | |reset cap|sent| |sent| |]; cbn [t_step] in Es.
  - (* write *)
    destruct (t_w t) eqn:Ew; try discriminate Es; [|inversion Es; subst; exact I0]. destruct ((lenN d =? 0) || is_dropped (t_task t) || negb ready) eqn:Ec; inversion Es; subst; [exact I0|]. clear Es.
    destruct I0 as ((rest & A) & B & C & D & E & F & G & H). rewrite Ew in *. unfold tinv. cbn [t_queue t_w t_closed t_task t_error t_log]. rewrite written_app, forwarded_app. cbn [written forwarded flat_map app]. rewrite app_nil_r.
    split; [exists (rest ++ [d]); rewrite A; now rewrite <- app_assoc|]. assert (~ In eos (t_log t)) as Ne by (intros Q; exact (F Q eq_refl)).
    split.
    { intros Hr. destruct (B Hr) as (B1 & B2 & B3). split; [intros Q; apply in_eos_snoc in Q; destruct Q as [Q|Q]; [auto|discriminate Q]|]. split; [intros Q; apply failed_snoc in Q; destruct Q as [Q|[Q|Q]]; [auto|discriminate Q|discriminate Q]|]. rewrite B3. now rewrite <- app_assoc. }
    split; [exact C|]. split.
    { intros Hp. destruct (D Hp) as (a & b & E1 & (U1 & U2) & E2). exists a, (b ++ [EWrite d]). split; [rewrite E1; now rewrite <- app_assoc|]. split; [|exact E2]. split; [intros Q; apply in_app_or in Q; destruct Q as [Q|[Q|[]]]; [auto|discriminate Q]|].
      intros x Q. apply in_app_or in Q. destruct Q as [Q|[Q|[]]]; [exact (U2 x Q)|discriminate Q]. }
    split.
    { intros l1 l2 x Q. destruct l2 as [|y l2 _] using rev_ind; [apply app_inj_tail in Q; destruct Q as (_ & Q); discriminate Q|]. rewrite app_comm_cons, app_assoc in Q. apply app_inj_tail in Q. destruct Q as (Q & _). destruct (E _ _ _ Q) as [Z|(Z & _)]; [auto|].
      exfalso. apply Ne. rewrite Q, Z. apply in_or_app. right. left. reflexivity. }
    split; [intros Q; apply in_eos_snoc in Q; destruct Q as [Q|Q]; [contradiction|discriminate Q]|].
    split; [intros Hr; destruct (G Hr) as [Q|Q]; [contradiction|right; apply failed_app; exact Q]|].
    intros Q. apply in_app_or in Q. destruct Q as [Q|[Q|[]]]; [auto|discriminate Q].
  - destruct (t_w t); inversion Es; subst; apply inv_writer; try assumption; discriminate.
  - destruct (t_w t); inversion Es; subst; apply inv_writer; try assumption; discriminate.
  - destruct (t_w t) eqn:Ew; try discriminate Es. destruct (t_error t); [inversion Es; subst; rewrite <- Ew; exact I0|]. destruct (is_dropped (t_task t)) eqn:Ed; inversion Es; subst; [|exact I0].
    destruct I0 as (A & B & C & D & E & F & G & H). unfold t_with_task, tinv. cbn [t_queue t_w t_closed t_task t_error t_log]. destruct (plain_lists (t_log t) EShutOk eq_refl) as (-> & ->). destruct (t_task t) eqn:Et; try discriminate Ed.
    split; [exact A|]. split; [discriminate|]. split; [exact C|]. split; [intros [Q|Q]; discriminate Q|]. split; [apply sends_app; [reflexivity|exact E]|].
    split; [intros _; rewrite Ew; discriminate|]. split; [|auto]. intros _. destruct (G eq_refl) as [Q|Q]; [left; apply in_or_app; auto|right; apply failed_app; exact Q].
  - destruct (t_w t); inversion Es; subst; apply inv_writer; try assumption; discriminate.
  - destruct (t_w t); inversion Es; subst; apply inv_writer; try assumption; discriminate.
  - destruct (t_task t) eqn:Et; inversion Es; subst. apply inv_move; [exact I0|now rewrite Et|reflexivity|intros [Q|Q]; discriminate Q].
  - destruct (t_task t) eqn:Et; try discriminate Es. destruct cap as [c|]; [destruct reset|]; inversion Es; subst.
    + apply inv_fail'; [exact I0|now rewrite Et].
    + apply inv_move; [exact I0|now rewrite Et|destruct c; reflexivity|destruct c; intros [Q|Q]; discriminate Q].
    + apply inv_fail'; [exact I0|now rewrite Et].
  - (* next *)
    destruct (t_task t) eqn:Et; try discriminate Es. destruct (t_queue t) as [|d q] eqn:Eq.
    + destruct (t_open t) eqn:Eo; inversion Es; subst.
      * apply inv_move; [exact I0|now rewrite Et|reflexivity|intros [Q|Q]; discriminate Q].
      * apply inv_eos'; [exact I0|now rewrite Et|intros Q; unfold t_open in Eo; rewrite Q in Eo; discriminate Eo|]. left. destruct I0 as (_ & B & _). rewrite Et, Eq in B. destruct (B eq_refl) as (_ & _ & ->). apply app_nil_r.
    + destruct sent; inversion Es; subst; [|rewrite <- Et; apply inv_fail; [exact I0|now rewrite Et]]. clear Es. destruct I0 as (A & B & C & D & E & F & G & H). rewrite Et in *. destruct (B eq_refl) as (B1 & B2 & B3). rewrite Eq in B3.
      unfold t_with_task, tinv. cbn [t_queue t_w t_closed t_task t_error t_log returned]. rewrite !written_app, !forwarded_app. cbn [written forwarded flat_map app]. rewrite !app_nil_r.
      assert (written (t_log t) = (forwarded (t_log t) ++ [d]) ++ q) as B3' by (rewrite B3; now rewrite <- app_assoc).
      split; [exists q; exact B3'|]. split.
      { intros _. split; [intros Q; apply in_eos_snoc in Q; destruct Q as [Q|Q]; [auto|discriminate Q]|]. split; [intros Q; apply failed_snoc in Q; destruct Q as [Q|[Q|Q]]; [auto|discriminate Q|discriminate Q]|exact B3']. }
      split; [exact C|]. split; [intros [Q|Q]; discriminate Q|]. split.
      { intros l1 l2 x Q. destruct l2 as [|y l2 _] using rev_ind; [apply app_inj_tail in Q; destruct Q as (_ & Q); inversion Q; eauto|]. rewrite app_comm_cons, app_assoc in Q. apply app_inj_tail in Q. destruct Q as (Q & _). destruct (E _ _ _ Q) as [Z|(Z & _)]; [auto|].
        exfalso. apply B1. rewrite Q, Z. apply in_or_app. right. left. reflexivity. }
      split; [intros Q; apply in_eos_snoc in Q; destruct Q as [Q|Q]; [auto|discriminate Q]|]. split; [discriminate|]. intros Q. apply in_app_or in Q. destruct Q as [Q|[Q|[]]]; [exact (H Q)|discriminate Q].
  - (* size *)
    destruct (t_task t) eqn:Et; try discriminate Es. destruct (t_queue t) as [|d q] eqn:Eq; inversion Es; subst.
    + destruct I0 as (A & B & C & D & E & F & G & H). rewrite Et in *. destruct (B eq_refl) as (B1 & B2 & B3). unfold t_with_task, tinv. cbn [t_queue t_w t_closed t_task t_error t_log returned]. destruct (plain_lists (t_log t) EEmpty eq_refl) as (-> & ->).
      split; [exact A|]. split; [intros _; split; [intros Q; apply in_eos_snoc in Q; destruct Q as [Q|Q]; [auto|discriminate Q]|split; [intros Q; apply failed_snoc in Q; destruct Q as [Q|[Q|Q]]; [auto|discriminate Q|discriminate Q]|exact B3]]|].
      split; [exact C|]. split; [intros _; exists (t_log t), []; split; [reflexivity|split; [split; [auto|intros x []]|rewrite B3, Eq; apply app_nil_r]]|].
      split; [apply sends_app; [reflexivity|exact E]|]. split; [intros Q; apply in_eos_snoc in Q; destruct Q as [Q|Q]; [auto|discriminate Q]|]. split; [discriminate|]. intros Q. apply in_app_or in Q. destruct Q as [Q|[Q|[]]]; [exact (H Q)|discriminate Q].
    + apply inv_move; [exact I0|now rewrite Et|reflexivity|intros [Q|Q]; discriminate Q].
  - (* flag *)
    assert (t_closed t = true -> (t_task t = TFlag1 \/ t_task t = TFlag2) -> tinv (t_eos sent t)) as Q.
    { intros Hc Hp. apply inv_eos'; [exact I0|destruct Hp as [-> | ->]; reflexivity| |]; destruct I0 as (A & B & C & D & _); [auto|]. right. destruct (D Hp) as (a & b & E1 & E2 & E3). exists a, b. auto. }
    destruct (t_task t) eqn:Et; try discriminate Es; destruct (t_closed t) eqn:Ec; inversion Es; subst; auto.
    + apply inv_move; [exact I0|now rewrite Et|reflexivity|rewrite Et; auto].
    + apply inv_move; [exact I0|now rewrite Et|reflexivity|intros [Z|Z]; discriminate Z].
  - destruct (t_task t) eqn:Et; inversion Es; subst. destruct I0 as (A & B & C & D & E & F & G & H). rewrite Et in *. unfold tinv. cbn [t_queue t_w t_closed t_task t_error t_log returned].
    split; [exact A|]. split; [discriminate|]. split; [exact C|]. split; [intros [Q|Q]; discriminate Q|]. split; [exact E|]. split; [exact F|]. split; [intros _; exact (G eq_refl)|reflexivity].
  - destruct (t_task t) eqn:Et; inversion Es; subst. destruct I0 as (A & B & C & D & E & F & G & H). rewrite Et in *. unfold tinv. cbn [t_queue t_w t_closed t_task t_error t_log returned]. destruct (plain_lists (t_log t) EKilled eq_refl) as (-> & ->).
    split; [exact A|]. split; [discriminate|]. split; [exact C|]. split; [intros [Q|Q]; discriminate Q|]. split; [apply sends_app; [reflexivity|exact E]|]. split; [intros Q; apply in_eos_snoc in Q; destruct Q as [Q|Q]; [auto|discriminate Q]|].
    split; [intros _; right; right; apply in_or_app; right; left; reflexivity|reflexivity].
Qed.
Lemma inv_run l : forall t t', tinv t -> t_run t l = Some t' -> tinv t'.
Proof. induction l as [|a l IH]; intros t t' H E; [inversion E; subst; exact H|]. cbn [t_run] in E. destruct (t_step t a) as [t1|] eqn:Es; [|discriminate]. eapply IH; [|exact E]. eapply inv_step; eassumption. Qed.

(* ---- Theorems ---- *)
(* Whatever the interleaving: what h2 was given is a beginning of what was
   accepted, in order, each write once. *)
Theorem C45_in_order : forall l t, t_run t_pair l = Some t ->
  exists rest, written (t_log t) = forwarded (t_log t) ++ rest.
Proof. intros l t H. destruct (inv_run l _ _ pair_inv H) as (A & _). exact A. Qed.
(* The stream is ended at most once, after the writer was shut down or dropped,
   and nothing is written or sent afterwards; everything accepted was sent before,
   except possibly what was accepted between the task's look at the queue and its
   look at the flag. *)
Theorem C45_end : forall l t l1 l2 x, t_run t_pair l = Some t -> t_log t = l1 ++ ESend x :: l2 ->
  (exists d, x = HData d false) \/
  (x = HData [] true /\ t_w t <> WOpen /\ quiet_after l2 /\
   (written l1 = forwarded l1 \/
    exists a b, l1 = a ++ EEmpty :: b /\ unseen b /\ written a = forwarded a /\ forwarded l1 = forwarded a)).
Proof.
  intros l t l1 l2 x H El. destruct (inv_run l _ _ pair_inv H) as (_ & _ & _ & _ & E & F & _). destruct (E _ _ _ El) as [Q|(-> & Q2 & Q3)]; [auto|]. right. split; [reflexivity|].
  split; [apply F; rewrite El; apply in_or_app; right; left; reflexivity|]. split; [exact Q2|]. destruct Q3 as [Q|(a & b & E1 & (U1 & U2) & E2)]; [auto|]. right. exists a, b. split; [exact E1|]. split; [split; assumption|]. split; [exact E2|].
  rewrite E1, forwarded_app. change (forwarded (EEmpty :: b)) with (forwarded b). assert (forwarded b = []) as Z; [|rewrite Z; apply app_nil_r].
  clear - U2. induction b as [|e b IH]; [reflexivity|]. assert (forwarded b = []) as Z by (apply IH; intros x Hx; apply (U2 x); right; exact Hx). destruct e as [| |x| | |]; try exact Z. destruct (U2 x). left. reflexivity.
Qed.
(* In particular: if no write falls into that gap nothing is lost *)
Theorem C45_complete : forall l t, t_run t_pair l = Some t -> In (ESend (HData [] true)) (t_log t) ->
  (forall a b d c, t_log t = a ++ EEmpty :: b ++ EWrite d :: c -> unseen b -> exists e, In e c /\ (e = EEmpty \/ exists x, e = ESend (HData x false))) ->
  written (t_log t) = forwarded (t_log t).
Proof.
  intros l t H Hin Hgap. apply in_split in Hin. destruct Hin as (l1 & l2 & El). destruct (C45_end l t l1 l2 _ H El) as [(d & Q)|(_ & Hw & Hq & Hl)]; [discriminate Q|].
  assert (written l2 = [] /\ forwarded l2 = []) as (W2 & F2).
  { clear - Hq. induction l2 as [|e r IH]; [auto|]. destruct IH as (I1 & I2); [intros z Hz; apply Hq; right; exact Hz|]. cbn. unfold written, forwarded in *. rewrite I1, I2. destruct (Hq e (or_introl eq_refl)) as (P1 & P2). destruct e; try (split; reflexivity); [destruct (P1 d eq_refl)|destruct (P2 e eq_refl)]. }
  rewrite El, written_app, forwarded_app. change (written (ESend (HData [] true) :: l2)) with (written l2). change (forwarded (ESend (HData [] true) :: l2)) with (forwarded l2). rewrite W2, F2, !app_nil_r.
  destruct Hl as [Q|(a & b & E1 & (U1 & U2) & E2 & E3)]; [exact Q|]. rewrite E3, <- E2, E1, written_app. change (written (EEmpty :: b)) with (written b). destruct (written b) as [|d w] eqn:Ew; [apply app_nil_r|].
  exfalso. assert (exists b1 b2, b = b1 ++ EWrite d :: b2) as (b1 & b2 & ->).
  { clear - Ew. induction b as [|e b IH]; [discriminate Ew|]. destruct e as [d'| | | | |]; [cbn in Ew; inversion Ew; subst; exists [], b; reflexivity| | | | |]; destruct (IH Ew) as (x & y & ->); [exists (EEmpty :: x), y|exists (ESend e :: x), y|exists (EFail :: x), y|exists (EKilled :: x), y|exists (EShutOk :: x), y]; reflexivity. }
  destruct (Hgap a b1 d (b2 ++ ESend (HData [] true) :: l2)) as (e & He & Hk).
  - rewrite El, E1, <- !app_assoc. cbn. rewrite <- !app_assoc. reflexivity.
  - split; [intros Q; apply U1; apply in_or_app; auto|intros x Q; apply (U2 x); apply in_or_app; auto].
  - apply in_app_or in He. destruct He as [He|[He|He]].
    + destruct Hk as [-> |(x & ->)]; [apply U1|apply (U2 (HData x false))]; apply in_or_app; right; right; exact He.
    + subst e. destruct Hk as [Q|(x & Q)]; discriminate Q.
    + clear - Hq He Hk El H. destruct Hk as [-> |(x & ->)]; [|destruct (Hq _ He) as (_ & P); destruct (P _ eq_refl)].
      (* the task does not look again after the end *)
      assert (forall l t t' , (forall l1 l2, t_log t = l1 ++ eos :: l2 -> returned (t_task t) = true /\ ~ In EEmpty l2) -> t_run t l = Some t' -> forall l1 l2, t_log t' = l1 ++ eos :: l2 -> returned (t_task t') = true /\ ~ In EEmpty l2) as K.
      { clear. induction l as [|a l IH]; intros t t' Ht E; [inversion E; subst; exact Ht|]. cbn [t_run] in E. destruct (t_step t a) as [t1|] eqn:Es; [|discriminate]. apply (IH t1 t'); [|exact E]. clear IH E t'.
        assert (forall e pc, (e = eos -> returned pc = true) -> (e = EEmpty -> returned (t_task t) = false) -> (returned (t_task t) = true -> returned pc = true) -> forall l1 l2, t_log t ++ [e] = l1 ++ eos :: l2 -> returned pc = true /\ ~ In EEmpty l2) as K.
        { intros e pc K1 K2 K3 l1 l2 E. destruct l2 as [|y l2 _] using rev_ind; [apply app_inj_tail in E; destruct E as (_ & E); auto|]. rewrite app_comm_cons, app_assoc in E. apply app_inj_tail in E. destruct E as (E & <-). destruct (Ht _ _ E) as (P1 & P2). split; [auto|]. intros Q. apply in_app_or in Q. destruct Q as [Q|[Q|[]]]; [auto|]. specialize (K2 Q). congruence. }
        assert (forall pc, (returned (t_task t) = true -> returned pc = true) -> forall l1 l2, t_log t ++ [] = l1 ++ eos :: l2 -> returned pc = true /\ ~ In EEmpty l2) as K0 by (intros pc Hp l1 l2 E; rewrite app_nil_r in E; destruct (Ht _ _ E); auto).
        destruct a as [d ready| | | | | | |reset cap|sent| |sent| |]; cbn [t_step] in Es.
        - destruct (t_w t); try discriminate Es; [|inversion Es; subst; exact Ht]. destruct ((lenN d =? 0) || is_dropped (t_task t) || negb ready); inversion Es; subst; [exact Ht|]. cbn [t_log t_task]. apply K; [discriminate|discriminate|auto].
        - destruct (t_w t); inversion Es; subst; exact Ht.
        - destruct (t_w t); inversion Es; subst; exact Ht.
        - destruct (t_w t); try discriminate Es. destruct (t_error t); [inversion Es; subst; exact Ht|]. destruct (is_dropped (t_task t)); inversion Es; subst; [|exact Ht]. cbn [t_log t_task t_with_task]. apply K; [discriminate|discriminate|auto].
        - destruct (t_w t); inversion Es; subst; exact Ht.
        - destruct (t_w t); inversion Es; subst; exact Ht.
        - destruct (t_task t) eqn:Et; inversion Es; subst. cbn [t_log t_task t_with_task]. apply K0. discriminate.
        - destruct (t_task t) eqn:Et; try discriminate Es. destruct cap as [c|]; [destruct reset|]; inversion Es; subst; unfold t_fail, t_with_task; cbn [t_log t_task]; [apply K; auto; discriminate|apply K0; discriminate|apply K; auto; discriminate].
        - destruct (t_task t) eqn:Et; try discriminate Es. unfold t_eos, t_fail, t_with_task in Es. destruct (t_queue t); [destruct (t_open t)|]; [|destruct sent|destruct sent]; inversion Es; subst; cbn [t_log t_task]; [apply K0; discriminate|apply K; auto; discriminate|apply K; auto; discriminate|apply K; try discriminate; auto|apply K; auto; discriminate].
        - destruct (t_task t) eqn:Et; try discriminate Es. destruct (t_queue t); inversion Es; subst; unfold t_with_task; cbn [t_log t_task]; [apply K; try discriminate; auto|apply K0; discriminate].
        - unfold t_eos, t_fail, t_with_task in Es. destruct (t_task t) eqn:Et; try discriminate Es; destruct (t_closed t); try destruct sent; inversion Es; subst; cbn [t_log t_task]; try (apply K0; discriminate); apply K; auto; discriminate.
        - destruct (t_task t) eqn:Et; inversion Es; subst. cbn [t_log t_task]. intros l1 l2 E. destruct (Ht _ _ E). auto.
        - destruct (t_task t) eqn:Et; inversion Es; subst. cbn [t_log t_task]. apply K; [discriminate|discriminate|auto]. }
      refine (proj2 (K l t_pair t _ H l1 l2 El) He). intros q1 q2 Q. destruct q1; discriminate Q.
Qed.
(* A reported shutdown: the stream was ended, or the task had failed or was
   dropped before its end. *)
Theorem C45_shutdown : forall l t, t_run t_pair l = Some t -> In EShutOk (t_log t) ->
  In (ESend (HData [] true)) (t_log t) \/ In EFail (t_log t) \/ In EKilled (t_log t).
Proof.
  intros l t H Hin. destruct (inv_run l _ _ pair_inv H) as (_ & _ & _ & _ & _ & _ & G & Hs). specialize (Hs Hin). apply G. destruct (t_task t); try discriminate Hs. reflexivity.
Qed.
(* If the task failed, the first look of poll_shutdown does not report success *)
Theorem C45_failure_reported : forall l t t', t_run t_pair l = Some t -> ~ In AShutWait l -> In EFail (t_log t) ->
  t_step t AShutWait = Some t' -> ~ In EShutOk (t_log t').
Proof.
  assert (forall l t t', (In EFail (t_log t) -> t_error t = true) /\ ~ In EShutOk (t_log t) -> t_run t l = Some t' -> ~ In AShutWait l ->
    (In EFail (t_log t') -> t_error t' = true) /\ ~ In EShutOk (t_log t')) as K.
  { induction l as [|a l IH]; intros t t' I E N; [inversion E; subst; exact I|]. cbn [t_run] in E. destruct (t_step t a) as [t1|] eqn:Es; [|discriminate].
    apply (IH t1 t'); [|exact E|intros Q; apply N; right; exact Q]. clear IH E t'. destruct I as (I1 & I2).
    assert (forall e er, (e = EFail -> er = true) -> (t_error t = true -> er = true) -> e <> EShutOk -> (In EFail (t_log t ++ [e]) -> er = true) /\ ~ In EShutOk (t_log t ++ [e])) as K.
    { intros e er K1 K2 K3. split; intros Q; apply in_app_or in Q; destruct Q as [Q|[Q|[]]]; auto. }
    assert ((In EFail (t_log t ++ []) -> t_error t = true) /\ ~ In EShutOk (t_log t ++ [])) as K0 by (rewrite app_nil_r; auto).
    unfold t_step, t_eos, t_fail, t_with_task in Es. destruct a as [d ready| | | | | | |reset cap|sent| |sent| |]; try (exfalso; apply N; left; reflexivity).
    1: destruct (t_w t); try discriminate Es; [destruct ((lenN d =? 0) || is_dropped (t_task t) || negb ready)|].
    4, 5, 6, 7: destruct (t_w t); try discriminate Es.
    10: destruct (t_task t); try discriminate Es.
    11: destruct (t_task t); try discriminate Es; destruct cap as [c|]; [destruct reset|].
    14: destruct (t_task t); try discriminate Es; destruct (t_queue t); [destruct (t_open t); [|destruct sent]|destruct sent].
    19: destruct (t_task t); try discriminate Es; destruct (t_queue t).
    21: destruct (t_task t); try discriminate Es; destruct (t_closed t); try destruct sent.
    all: try (destruct (t_task t); try discriminate Es); inversion Es; subst; cbn [t_log t_error]; auto; apply K; auto; discriminate. }
  intros l t t' H N F Es. destruct (K l t_pair t) as (K1 & K2); [split; cbn; auto|exact H|exact N|]. specialize (K1 F). unfold t_step in Es. rewrite K1 in Es.
  destruct (t_w t); inversion Es; subst. exact K2.
Qed.
Example C45_ex_failure : exists t, t_run t_pair [AWrite [1] true; TPoll; TaskTop false None; TaskDrop; AShutdown; AShutFlag] = Some t /\ In EFail (t_log t) /\ exists t', t_step t AShutWait = Some t'.
Proof. eexists. split; [reflexivity|]. split; [cbn; auto|]. eexists. reflexivity. Qed.
(* From every state in which the task waits, capacity is enough to forward all
   that was accepted *)
Theorem C45_drains : forall l t, t_run t_pair l = Some t -> t_task t = TIdle ->
  exists l' t', t_run t l' = Some t' /\ written (t_log t') = forwarded (t_log t') /\ written (t_log t') = written (t_log t).
Proof.
  intros l t H Ht. destruct (inv_run l _ _ pair_inv H) as (_ & B & _). destruct (B ltac:(now rewrite Ht)) as (_ & _ & B3).
  assert (forall q t, t_task t = TTop -> t_queue t = q -> exists l' t', t_run t l' = Some t' /\ forwarded (t_log t') = forwarded (t_log t) ++ q /\ written (t_log t') = written (t_log t)) as Q.
  { clear. induction q as [|d q IH]; intros t Ht Hq; [exists [], t; split; [reflexivity|split; [symmetry; apply app_nil_r|reflexivity]]|].
    destruct t as [tq w c tk er lg]. cbn in Ht, Hq. subst tk tq. destruct (IH (mkT q w c TTop er (lg ++ [ESend (HData d false)])) eq_refl eq_refl) as (l' & t' & E1 & E2 & E3).
    exists (TaskTop false (Some true) :: TaskNext true :: l'), t'. split; [cbn [t_run t_step t_task t_with_task t_queue t_w t_closed t_error t_log]; rewrite app_nil_r; exact E1|].
    cbn [t_log] in *. rewrite E2, E3, written_app, forwarded_app. cbn [written forwarded flat_map app]. rewrite app_nil_r, <- app_assoc. auto. }
  destruct (Q (t_queue t) (t_with_task TTop [] t) eq_refl eq_refl) as (l' & t' & E1 & E2 & E3). cbn [t_with_task t_log] in E2, E3. rewrite app_nil_r in E2, E3.
  exists (TPoll :: l'), t'. split; [cbn [t_run t_step]; rewrite Ht; exact E1|]. split; [rewrite E2, E3, B3; reflexivity|exact E3].
Qed.
(* The race: a write is accepted and the tunnel dropped between the two looks *)
Theorem C45_lost_write_refuted : exists l t d, t_run t_pair l = Some t /\ In (EWrite d) (t_log t) /\
  In (ESend (HData [] true)) (t_log t) /\ forwarded (t_log t) = [] /\ ~ In EFail (t_log t) /\ ~ In EKilled (t_log t).
Proof.
  exists [TPoll; TaskTop false (Some false); TaskSize; AWrite [1] true; ADropFlag; TaskFlag true; ADropChan; TaskDrop]. eexists. exists [1].
  split; [reflexivity|]. cbn. split; [auto|]. split; [auto|]. split; [reflexivity|]. split; intros H; repeat (destruct H as [H|H]; [discriminate H|]); destruct H.
Qed.
(* Without the race everything arrives, though the peer granted nothing at first *)
Example C45_ex : exists t, t_run t_pair [TPoll; AWrite [1] true; TaskTop false (Some false); TaskSize; AWrite [2; 3] true; ADropFlag; ADropChan; TPoll; TaskTop false (Some true); TaskNext true; TaskTop false (Some true); TaskNext true; TaskTop false (Some false); TaskSize; TaskFlag true] = Some t /\
  t_log t = [EWrite [1]; EWrite [2; 3]; ESend (HData [1] false); ESend (HData [2; 3] false); EEmpty; ESend (HData [] true)].
Proof. eexists. split; vm_compute; reflexivity. Qed.
Example C45_ex_shutdown : exists t, t_run t_pair [AWrite [1] true; AShutdown; TPoll; TaskTop false (Some true); TaskNext true; AShutFlag; TaskTop false (Some true); TaskNext true; AShutWait; TaskDrop; AShutWait] = Some t /\
  t_log t = [EWrite [1]; ESend (HData [1] false); ESend (HData [] true); EShutOk].
Proof. eexists. split; vm_compute; reflexivity. Qed.

(* ---- Reading ---- *)
Definition received (l : list xev) : bytes := flat_map (fun e => match e with XData d _ => d | _ => [] end) l.
Definition delivered (l : list kout) : bytes := flat_map (fun o => match o with KOk d => d | _ => [] end) l.
Lemma copy_ok room k k' o : k_copy room k = (k', o) ->
  delivered [o] ++ k_buf k' ++ received (k_events k') = k_buf k ++ received (k_events k) /\ k_released k' = k_released k + lenN (delivered [o]) /\ k_recorded k' = k_recorded k.
Proof.
  unfold k_copy. intros E. inversion E; subst. cbn [k_buf k_events k_released k_recorded delivered flat_map]. rewrite app_nil_r. split; [|split; [|reflexivity]].
  - rewrite app_assoc, takeN_dropN. reflexivity.
  - f_equal. rewrite takeN_len; lia.
Qed.
Lemma fetch_ok room : forall evs rel rec k' o, k_fetch room evs rel rec = (k', o) ->
  delivered [o] ++ k_buf k' ++ received (k_events k') = received evs /\ k_released k' = rel + lenN (delivered [o]) /\
  k_recorded k' + lenN (received (k_events k')) = rec + lenN (received evs).
Proof.
  induction evs as [|e evs IH]; intros rel rec k' o; cbn [k_fetch]; [intros E; inversion E; subst; cbn; repeat split; lia|]. destruct e as [d eos'|r|].
  - destruct ((lenN d =? 0) && negb eos') eqn:Ed.
    + apply andb_true_iff in Ed. destruct Ed as (Ed & _). apply N.eqb_eq in Ed. destruct d; [|rewrite lenN_cons in Ed; lia]. cbn [received flat_map app]. apply IH.
    + intros E. destruct (copy_ok _ _ _ _ E) as (A1 & A2 & A3). cbn [k_buf k_events k_released k_recorded] in *. cbn [received flat_map]. split; [exact A1|]. split; [exact A2|]. rewrite A3. unfold k_copy in E. inversion E; subst. cbn [k_events k_buf]. rewrite lenN_app. unfold received. lia.
  - destruct r; intros E; inversion E; subst; cbn; repeat split; lia.
  - intros E; inversion E; subst; cbn; repeat split; lia.
Qed.
Lemma read_ok room k k' o : k_read room k = (k', o) ->
  delivered [o] ++ k_buf k' ++ received (k_events k') = k_buf k ++ received (k_events k) /\ k_released k' = k_released k + lenN (delivered [o]) /\
  k_recorded k' + lenN (received (k_events k')) = k_recorded k + lenN (received (k_events k)).
Proof.
  unfold k_read. destruct (lenN (k_buf k) =? 0) eqn:Eb; intros E.
  - apply N.eqb_eq in Eb. destruct (k_buf k); [|rewrite lenN_cons in Eb; lia]. apply fetch_ok in E. exact E.
  - pose proof E as E0. apply copy_ok in E. destruct E as (A1 & A2 & A3). split; [exact A1|]. split; [exact A2|]. unfold k_copy in E0. inversion E0; subst. cbn [k_events k_recorded]. reflexivity.
Qed.
(* Reads deliver the received bytes in order, and give back exactly that much of
   the flow-control window *)
Theorem C45_read : forall rooms evs k os, k_reads rooms (mkK [] evs 0 0) = (k, os) ->
  delivered os ++ k_buf k ++ received (k_events k) = received evs /\ k_released k = lenN (delivered os) /\
  k_recorded k + lenN (received (k_events k)) = lenN (received evs).
Proof.
  intros rooms evs. assert (forall rooms k0 k os, k_reads rooms k0 = (k, os) -> delivered os ++ k_buf k ++ received (k_events k) = k_buf k0 ++ received (k_events k0) /\ k_released k = k_released k0 + lenN (delivered os) /\
    k_recorded k + lenN (received (k_events k)) = k_recorded k0 + lenN (received (k_events k0))) as Q.
  { clear. induction rooms as [|r rooms IH]; intros k0 k os; cbn [k_reads]; [intros E; inversion E; subst; cbn; repeat split; lia|].
    destruct (k_read r k0) as (k1, o) eqn:E1. destruct (k_reads rooms k1) as (k2, os') eqn:E2. intros E. inversion E; subst. destruct (read_ok _ _ _ _ E1) as (A1 & A2 & A3). destruct (IH _ _ _ E2) as (B1 & B2 & B3).
    change (o :: os') with ([o] ++ os'). assert (delivered ([o] ++ os') = delivered [o] ++ delivered os') as -> by apply flat_map_app. rewrite <- app_assoc, B1, lenN_app. split; [exact A1|]. lia. }
  intros k os E. destruct (Q _ _ _ _ E) as (A1 & A2 & A3). cbn in A1, A2, A3. auto.
Qed.
(* A read that reports the end of the stream: nothing was left, or an empty final
   frame, or a reset with the reasons NO_ERROR and CANCEL came next; empty frames
   that are not final were skipped. *)
Theorem C45_read_end : forall room k k', 0 < room -> k_read room k = (k', KOk []) ->
  k_buf k = [] /\ exists skipped, Forall (fun e => e = XData [] false) skipped /\
  (k_events k = skipped \/ exists r, k_events k = skipped ++ XData [] true :: r \/ k_events k = skipped ++ XErr NoError :: r \/ k_events k = skipped ++ XErr Cancel :: r).
Proof.
  intros room k k' Hr. assert (forall d k0, lenN d <> 0 -> k_copy room k0 = (k', KOk []) -> k_buf k0 = d -> False) as C.
  { intros d k0 Hd E Hb. unfold k_copy in E. rewrite Hb in E. inversion E as [[E1 E2]]. assert (lenN (takeN (N.min (lenN d) room) d) = 0) as Z by (rewrite E2; reflexivity). rewrite takeN_len in Z; lia. }
  unfold k_read. destruct (lenN (k_buf k) =? 0) eqn:Eb; [apply N.eqb_eq in Eb|apply N.eqb_neq in Eb; intros E; destruct (C _ _ Eb E eq_refl)].
  intros E. split; [destruct (k_buf k); [reflexivity|rewrite lenN_cons in Eb; lia]|]. clear Eb. revert E. generalize (k_released k) (k_recorded k). induction (k_events k) as [|e evs IH]; intros rel rec E.
  - exists []. split; [constructor|]. left. reflexivity.
  - cbn [k_fetch] in E. destruct e as [d eos'|r|].
    + destruct (lenN d =? 0) eqn:Ed; [apply N.eqb_eq in Ed|apply N.eqb_neq in Ed].
      * assert (d = []) as -> by (destruct d; [reflexivity|rewrite lenN_cons in Ed; lia]). destruct eos'; cbn [negb andb] in E.
        -- exists []. split; [constructor|]. right. exists evs. auto.
        -- destruct (IH _ _ E) as (sk & F & H). exists (XData [] false :: sk). split; [constructor; [reflexivity|exact F]|]. destruct H as [-> |(r & [-> |[-> | ->]])]; [auto| | |]; right; exists r; auto.
      * cbn [andb] in E. destruct (C _ _ Ed E eq_refl).
    + exists []. split; [constructor|]. destruct r; inversion E; subst; right; exists evs; cbn; auto.
    + discriminate E.
Qed.
(* Full statement: a tunnel that the peer reset before its end is never reported
   as a clean end of stream.  False for resets with CANCEL. *)
Theorem C45_read_cancel_refuted : exists evs k, k_reads [10; 10] (mkK [] evs 0 0) = (k, [KOk [1]; KOk []]) /\ evs = [XData [1] false; XErr Cancel].
Proof. do 2 eexists. split; [|reflexivity]. reflexivity. Qed.
Example C45_read_ex : exists k, k_reads [2; 2; 2; 2] (mkK [] [XData [1; 2; 3] false; XData [] false; XPending; XData [4] true] 0 0) = (k, [KOk [1; 2]; KOk [3]; KPending; KOk [4]]) /\ k_released k = 4.
Proof. eexists. split; vm_compute; reflexivity. Qed.

Print Assumptions C45_in_order.
Print Assumptions C45_end.
Print Assumptions C45_complete.
Print Assumptions C45_shutdown.
Print Assumptions C45_drains.
Print Assumptions C45_lost_write_refuted.
Print Assumptions C45_read.
Print Assumptions C45_read_end.
Print Assumptions C45_read_cancel_refuted.
Print Assumptions C45_failure_reported.
