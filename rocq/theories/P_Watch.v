(* Theorems about wake-ups: C50, C51. *)
From Verif Require Import Base M_Watch.

(* C50.  In the part [m] of the history since the receiver's last registration: *)
Definition no_reg (m : list wev) : Prop := forall w, ~ In (WReg w) m.
(* ... the receiver's task was woken *)
Definition woken (w : N) (m : list wev) : Prop := In (WWake (Some w)) m.
(* ... nothing changed after the receiver read [v] *)
Definition unchanged_since (w v : N) (m : list wev) : Prop :=
  exists m1 m2, m = m1 ++ WLoad w v :: m2 /\ (forall old new, In (WSwap old new) m2 -> old = v /\ new = v).

(* Nothing is lost: once the sender is out of send, either the task was woken
   after it registered, or the value is still what the receiver read *)
Definition reg_inv (w : N) (m : list wev) (s : watch) : Prop :=
  woken w m \/
  (w_waker s = Some w /\
   (w_spc s = SWaking \/
    match w_rpc s with RLoading w' => w' = w | RReady => unchanged_since w (w_value s) m end)).
Lemma woken_app w m e : woken w m -> woken w (m ++ [e]).
Proof. intros H. apply in_or_app. auto. Qed.
Lemma unchanged_app w v m e : unchanged_since w v m -> (forall old new, e = WSwap old new -> old = v /\ new = v) -> unchanged_since w v (m ++ [e]).
Proof.
  intros (m1 & m2 & -> & H) He. exists m1, (m2 ++ [e]). split; [now rewrite <- app_assoc|]. intros old new Hi. apply in_app_or in Hi. destruct Hi as [Hi|[Hi|[]]]; [auto|]. now apply He.
Qed.
(* Every log is empty, or has no registration, or splits at the last registration *)
Definition log_inv (s : watch) : Prop :=
  (w_rpc s = RReady \/ exists w p m, w_log s = p ++ WReg w :: m /\ no_reg m /\ w_rpc s = RLoading w) /\
  forall p w m, w_log s = p ++ WReg w :: m -> no_reg m -> reg_inv w m s.
Lemma split_last (l : list wev) e p w m : l ++ [e] = p ++ WReg w :: m -> (m = [] /\ e = WReg w /\ l = p) \/ exists m', m = m' ++ [e] /\ l = p ++ WReg w :: m'.
Proof.
  intros H. destruct (rev m) as [|x r] eqn:E.
  - left. assert (m = []) as -> by (rewrite <- (rev_involutive m), E; reflexivity). change (p ++ [WReg w]) with (p ++ [WReg w]) in H. apply app_inj_tail in H. destruct H. auto.
  - right. assert (m = rev r ++ [x]) as -> by (rewrite <- (rev_involutive m), E; reflexivity). rewrite app_comm_cons, app_assoc in H. apply app_inj_tail in H. destruct H as (H1 & H2). subst. eauto.
Qed.
Lemma no_reg_app m e : no_reg (m ++ [e]) -> no_reg m.
Proof. intros H w Hi. apply (H w). apply in_or_app. auto. Qed.
Lemma step_inv s a s' : log_inv s -> w_step s a = Some s' -> log_inv s'.
Proof.
  intros (H0 & H) E. destruct s as [v wk sp dr rp lg]. unfold w_step in E. cbn [w_value w_waker w_spc w_dropping w_rpc w_log] in *.
  assert (forall e, no_reg [e] -> rp = RReady \/ (exists w p m, lg ++ [e] = p ++ WReg w :: m /\ no_reg m /\ rp = RLoading w)) as K0.
  { intros e He. destruct H0 as [H0|(w & p & m & E1 & N1 & E2)]; [left; exact H0|right]. exists w, p, (m ++ [e]). split; [rewrite E1, <- app_assoc; reflexivity|]. split; [|exact E2].
    intros w' Hi. apply in_app_or in Hi. destruct Hi as [Hi|Hi]; [now apply (N1 w')|now apply (He w')]. }
  assert (forall old new, no_reg [WSwap old new]) as NS by (intros ? ? ? [F|[]]; discriminate).
  unfold log_inv, reg_inv in *. cbn [w_value w_waker w_spc w_dropping w_rpc w_log] in *.
  assert (forall v' sp', sp = SReady -> (sp' = SWaking \/ v' = v) -> forall p w m, lg ++ [WSwap v v'] = p ++ WReg w :: m -> no_reg m ->
     woken w m \/ wk = Some w /\ (sp' = SWaking \/ match rp with RReady => unchanged_since w v' m | RLoading w' => w' = w end)) as KS.
  { intros v' sp' Es D p w m El Nm. apply split_last in El. destruct El as [(-> & F & _)|(m' & -> & El)]; [discriminate F|].
    destruct (H p w m' El (no_reg_app _ _ Nm)) as [Q|(Q & Q2)]; [left; now apply woken_app|]. right. split; [exact Q|]. destruct D as [D| ->]; [left; exact D|].
    destruct Q2 as [Q2|Q2]; [congruence|right; destruct rp; [|exact Q2]; apply unchanged_app; [exact Q2|intros old new F; inversion F; auto]]. }
  destruct a as [v'| | |w0| |].
  - destruct sp; try discriminate E. inversion E; subst s'; cbn [w_value w_waker w_spc w_dropping w_rpc w_log]. split; [apply K0, NS|]. apply KS; [reflexivity|].
    destruct (v =? v') eqn:Ev; [right; apply N.eqb_eq in Ev; auto|left; reflexivity].
  - destruct sp; try discriminate E. inversion E; subst s'; cbn [w_value w_waker w_spc w_dropping w_rpc w_log]. split; [apply K0, NS|]. apply KS; [reflexivity|].
    destruct (v =? CLOSED) eqn:Ev; [right; apply N.eqb_eq in Ev; auto|left; reflexivity].
  - destruct sp; try discriminate E. inversion E; subst s'; cbn [w_value w_waker w_spc w_dropping w_rpc w_log]. split; [apply K0; intros ? [F|[]]; discriminate|].
    intros p w m El Nm. apply split_last in El. destruct El as [(-> & F & _)|(m' & -> & El)]; [discriminate F|]. left.
    destruct (H p w m' El (no_reg_app _ _ Nm)) as [Q|(-> & _)]; [now apply woken_app|]. apply in_or_app. right. left. reflexivity.
  - destruct rp; [|destruct sp; discriminate E]. assert (s' = mkW v (Some w0) sp dr (RLoading w0) (lg ++ [WReg w0])) as -> by (destruct sp; inversion E; reflexivity). cbn [w_value w_waker w_spc w_dropping w_rpc w_log].
    split; [right; exists w0, lg, []; split; [reflexivity|split; [intros ? []|reflexivity]]|].
    intros p w m El Nm. apply split_last in El. destruct El as [(-> & F & _)|(m' & -> & El)]; [inversion F; auto|]. exfalso. apply (Nm w0), in_or_app. right. left. reflexivity.
  - destruct rp as [|w1]; [destruct sp; discriminate E|]. assert (s' = mkW v wk sp dr RReady (lg ++ [WLoad w1 v])) as -> by (destruct sp; inversion E; reflexivity). cbn [w_value w_waker w_spc w_dropping w_rpc w_log].
    split; [left; reflexivity|].
    intros p w m El Nm. apply split_last in El. destruct El as [(-> & F & _)|(m' & -> & El)]; [discriminate F|].
    destruct (H p w m' El (no_reg_app _ _ Nm)) as [Q|(Q & [Q2|Q2])]; [left; now apply woken_app|right; auto|]. right. split; [exact Q|]. right. subst w1. exists m', []. split; [reflexivity|intros ? ? []].
  - destruct rp as [|w1]; [|destruct sp; discriminate E]. assert (s' = mkW v wk sp dr RReady (lg ++ [WPeek v])) as -> by (destruct sp; inversion E; reflexivity). cbn [w_value w_waker w_spc w_dropping w_rpc w_log].
    split; [left; reflexivity|].
    intros p w m El Nm. apply split_last in El. destruct El as [(-> & F & _)|(m' & -> & El)]; [discriminate F|].
    destruct (H p w m' El (no_reg_app _ _ Nm)) as [Q|(Q & [Q2|Q2])]; [left; now apply woken_app|right; auto|]. right. split; [exact Q|]. right. apply unchanged_app; [exact Q2|intros ? ? F; discriminate F].
Qed.
Lemma run_inv l : forall s s', log_inv s -> w_run s l = Some s' -> log_inv s'.
Proof.
  induction l as [|a l IH]; intros s s' H E; [inversion E; subst; exact H|]. cbn [w_run] in E. destruct (w_step s a) as [s1|] eqn:Es; [|discriminate]. eapply IH; [|exact E]. eapply step_inv; eassumption.
Qed.
Theorem C50_no_lost_wakeup : forall initial l s p w m, w_run (w_channel initial) l = Some s ->
  w_log s = p ++ WReg w :: m -> no_reg m -> w_spc s <> SWaking -> w_rpc s = RReady ->
  woken w m \/ unchanged_since w (w_value s) m.
Proof.
  intros initial l s p w m Hr El Nm Hs Hp. assert (log_inv (w_channel initial)) as H0.
  { split; [left; reflexivity|]. intros p' w' m' E. destruct p'; discriminate E. }
  apply run_inv in Hr; [|exact H0]. destruct Hr as (_ & Hr). destruct (Hr p w m El Nm) as [Q|(_ & [Q|Q])]; [left; exact Q|contradiction|]. rewrite Hp in Q. right. exact Q.
Qed.
(* A send that changes the value is always followed by its wake: the only step
   the sender can then take *)
Theorem C50_wake_follows : forall s, w_spc s = SWaking -> (forall v, w_step s (ASend v) = None) /\ w_step s ADrop = None /\ exists s', w_step s AWake = Some s' /\ w_spc s' <> SWaking.
Proof.
  intros s H. unfold w_step. rewrite H. split; [reflexivity|]. split; [reflexivity|]. eexists. split; [reflexivity|]. cbn. destruct (w_dropping s); discriminate.
Qed.
(* The value read is the last one sent, and once the sender is gone it is CLOSED *)
Fixpoint last_sent (v : N) (m : list wev) : N := match m with [] => v | WSwap _ new :: r => last_sent new r | _ :: r => last_sent v r end.
Theorem C50_value : forall initial l s, w_run (w_channel initial) l = Some s ->
  w_value s = last_sent initial (w_log s) /\ (w_spc s = SGone -> w_value s = CLOSED) /\
  (forall p w v q, w_log s = p ++ WLoad w v :: q -> v = last_sent initial p).
Proof.
  intros initial l s H.
  assert (forall m v e, last_sent v (m ++ [e]) = match e with WSwap _ new => new | _ => last_sent v m end) as LS.
  { induction m as [|x m IH]; intros v e; [destruct e; reflexivity|]. cbn. destruct x; apply IH. }
  set (P := fun s => w_value s = last_sent initial (w_log s) /\ ((w_spc s = SGone \/ w_dropping s = true) -> w_value s = CLOSED) /\
     (forall p w v q, w_log s = p ++ WLoad w v :: q -> v = last_sent initial p)).
  assert (forall l s s', P s -> w_run s l = Some s' -> P s') as Hi.
  { clear - LS. induction l as [|a l IH]; intros s s' H E; [inversion E; subst; exact H|]. cbn [w_run] in E. destruct (w_step s a) as [s1|] eqn:Es; [|discriminate]. refine (IH s1 s' _ E). clear IH E.
    destruct H as (V & C & L). destruct s as [v wk sp dr rp lg]. unfold P, w_step in *. cbn [w_value w_waker w_spc w_dropping w_rpc w_log] in *.
    assert (forall e, (forall w v', e = WLoad w v' -> v' = v) -> forall p w v' q, lg ++ [e] = p ++ WLoad w v' :: q -> v' = last_sent initial p) as K.
    { intros e He p w v' q E. destruct (rev q) as [|x r] eqn:Eq.
      - assert (q = []) as -> by (rewrite <- (rev_involutive q), Eq; reflexivity). apply app_inj_tail in E. destruct E as (-> & ->). rewrite <- V. now apply (He w).
      - assert (q = rev r ++ [x]) as -> by (rewrite <- (rev_involutive q), Eq; reflexivity). rewrite app_comm_cons, app_assoc in E. apply app_inj_tail in E. destruct E as (E & _). eapply L. exact E. }
    destruct a as [v'| | |w0| |]; destruct sp; try discriminate Es; destruct rp as [|w1]; try discriminate Es; inversion Es; subst s1; clear Es; cbn [w_value w_waker w_spc w_dropping w_rpc w_log].
    all: rewrite LS.
    all: split; [first [reflexivity|exact V]|].
    all: split; [|apply K; intros w2 v2 F; inversion F; subst; reflexivity].
    all: intros D; try reflexivity; try exact (C (or_introl eq_refl)).
    1-2: destruct (v =? v'); destruct D as [D|D]; discriminate D.
    all: apply C; destruct D as [D|D]; auto; destruct dr; auto; discriminate D. }
  assert (P (w_channel initial)) as P0.
  { split; [reflexivity|]. split; [intros [F|F]; discriminate|]. intros p w v q E. destruct p; discriminate E. }
  destruct (Hi l _ _ P0 H) as (A & Bq & C). split; [exact A|]. split; [auto|exact C].
Qed.
Example C50_ex : exists s, w_run (w_channel 1) [AReg 7; ALoad; ASend 2] = Some s /\ w_spc s = SWaking /\
  exists s', w_step s AWake = Some s' /\ w_log s' = [] ++ WReg 7 :: [WLoad 7 1; WSwap 1 2; WWake (Some 7)].
Proof. eexists. split; [vm_compute; reflexivity|]. split; [vm_compute; reflexivity|]. eexists. split; vm_compute; reflexivity. Qed.
(* The racing case: the wake falls between registration and load *)
Example C50_ex_race : exists s, w_run (w_channel 1) [ASend 2; AReg 7; AWake; ALoad; ASend 1; AWake] = Some s /\ w_spc s <> SWaking /\
  exists m, w_log s = [WSwap 1 2] ++ WReg 7 :: m /\ no_reg m /\ woken 7 m /\ ~ unchanged_since 7 (w_value s) m.
Proof.
  eexists. split; [vm_compute; reflexivity|]. split; [vm_compute; discriminate|]. eexists. split; [vm_compute; reflexivity|]. split; [intros w Hi; cbn in Hi; intuition discriminate|]. split; [cbn; auto|].
  intros (m1 & m2 & E & H). cbn in E. destruct m1 as [|a [|b m1]]; inversion E; subst. destruct m1 as [|c m1]; inversion E; subst. destruct m1 as [|d m1]; inversion E; subst. destruct m1; discriminate.
Qed.

(* C51 *)
Definition no_creg (m : list cev) : Prop := forall w, ~ In (CReg w) m.
Definition cwoken (w : N) (m : list cev) : Prop := In (CWake (Some w)) m.
Lemma csplit (l : list cev) e p w m : l ++ [e] = p ++ CReg w :: m -> (m = [] /\ e = CReg w /\ l = p) \/ exists m', m = m' ++ [e] /\ l = p ++ CReg w :: m'.
Proof.
  intros H. destruct (rev m) as [|x r] eqn:E.
  - left. assert (m = []) as -> by (rewrite <- (rev_involutive m), E; reflexivity). apply app_inj_tail in H. destruct H. auto.
  - right. assert (m = rev r ++ [x]) as -> by (rewrite <- (rev_involutive m), E; reflexivity). rewrite app_comm_cons, app_assoc in H. apply app_inj_tail in H. destruct H as (H1 & H2). subst. eauto.
Qed.
Lemma no_creg_app m e : no_creg (m ++ [e]) -> no_creg m.
Proof. intros H w Hi. apply (H w). apply in_or_app. auto. Qed.
(* After a registration: woken; or registered, and if the flag is set some close()
   has its wake still to do *)
Definition creg_inv (w : N) (m : list cev) (s : cnotify) : Prop :=
  cwoken w m \/ (cn_waker s = Some w /\ (cn_closed s = true -> cn_closers s <> 0 \/ cn_pc s = PLoad2 w \/ In (CPolled w true) m)).
Definition cinv (s : cnotify) : Prop := forall p w m, cn_log s = p ++ CReg w :: m -> no_creg m -> creg_inv w m s.
Lemma cstep_inv s a s' : cinv s -> (cn_closed s = false -> cn_closers s = 0) -> cn_step s a = Some s' -> cinv s' /\ (cn_closed s' = false -> cn_closers s' = 0).
Proof.
  intros H K E. destruct s as [cl wk n pc lg]. unfold cn_step, cinv, creg_inv in *. cbn [cn_closed cn_waker cn_closers cn_pc cn_log] in *.
  assert (forall w m e, cwoken w m -> cwoken w (m ++ [e])) as WA by (intros; apply in_or_app; auto).
  destruct a as [| |w0|].
  - inversion E; subst s'. cbn [cn_closed cn_waker cn_closers cn_pc cn_log]. split; [|discriminate]. intros p w m El Nm. apply csplit in El. destruct El as [(-> & F & _)|(m' & -> & El)]; [discriminate F|].
    destruct (H p w m' El (no_creg_app _ _ Nm)) as [Q|(Q & _)]; [left; auto|]. right. split; [exact Q|]. left. lia.
  - destruct (n =? 0) eqn:En; inversion E; subst s'. cbn [cn_closed cn_waker cn_closers cn_pc cn_log]. apply N.eqb_neq in En. split; [|intros Q; apply K in Q; contradiction].
    intros p w m El Nm. apply csplit in El. destruct El as [(-> & F & _)|(m' & -> & El)]; [discriminate F|]. left. destruct (H p w m' El (no_creg_app _ _ Nm)) as [Q|(Q & _)]; [auto|]. rewrite Q. apply in_or_app. right. left. reflexivity.
  - destruct pc; inversion E; subst s'. cbn [cn_closed cn_waker cn_closers cn_pc cn_log]. split; [|exact K]. intros p w m El Nm. apply csplit in El. destruct El as [(-> & F & _)|(m' & -> & El)]; [discriminate F|].
    destruct (H p w m' El (no_creg_app _ _ Nm)) as [Q|(Q & Q2)]; [left; auto|]. right. split; [exact Q|]. intros C. destruct (Q2 C) as [Z|[Z|Z]]; [auto|discriminate Z|]. right. right. apply in_or_app. auto.
  - destruct pc as [|w0|w0|w0]; [discriminate E| | |].
    + destruct cl; inversion E; subst s'; cbn [cn_closed cn_waker cn_closers cn_pc cn_log].
      * split; [|discriminate]. intros p w m El Nm. apply csplit in El. destruct El as [(-> & F & _)|(m' & -> & El)]; [discriminate F|].
        destruct (H p w m' El (no_creg_app _ _ Nm)) as [Q|(Q & Q2)]; [left; auto|]. right. split; [exact Q|]. intros C. destruct (Q2 C) as [Z|[Z|Z]]; [auto|discriminate Z|]. right. right. apply in_or_app. auto.
      * split; [|exact K]. intros p w m El Nm. destruct (H p w m El Nm) as [Q|(Q & Q2)]; [left; auto|]. right. split; [exact Q|]. discriminate.
    + inversion E; subst s'; cbn [cn_closed cn_waker cn_closers cn_pc cn_log]. split; [|exact K]. intros p w m El Nm. apply csplit in El. destruct El as [(-> & F & _)|(m' & -> & El)].
      * inversion F; subst. right. split; [reflexivity|]. auto.
      * exfalso. apply (Nm w0). apply in_or_app. right. left. reflexivity.
    + inversion E; subst s'; cbn [cn_closed cn_waker cn_closers cn_pc cn_log]. split; [|exact K]. intros p w m El Nm. apply csplit in El. destruct El as [(-> & F & _)|(m' & -> & El)]; [discriminate F|].
      destruct (H p w m' El (no_creg_app _ _ Nm)) as [Q|(Q & Q2)]; [left; auto|]. right. split; [exact Q|]. intros C. destruct (Q2 C) as [Z|[Z|Z]]; [auto| |].
      * inversion Z; subst. right. right. apply in_or_app. right. left. reflexivity.
      * right. right. apply in_or_app. auto.
Qed.
Lemma crun_inv l : forall s s', cinv s -> (cn_closed s = false -> cn_closers s = 0) -> cn_run s l = Some s' -> cinv s' /\ (cn_closed s' = false -> cn_closers s' = 0).
Proof.
  induction l as [|a l IH]; intros s s' H K E; [inversion E; subst; auto|]. cbn [cn_run] in E. destruct (cn_step s a) as [s1|] eqn:Es; [|discriminate].
  destruct (cstep_inv s a s1 H K Es) as (H1 & K1). exact (IH s1 s' H1 K1 E).
Qed.
Lemma cn_new_inv : cinv cn_new.
Proof. intros p w m E. destruct p; discriminate E. Qed.
(* If the last poll found the tunnel open, it is still open, or the task has been
   woken since it registered, or a close() is about to wake it *)
Theorem C51_close_wakes : forall l s p w m, cn_run cn_new l = Some s -> cn_log s = p ++ CReg w :: m -> no_creg m ->
  In (CPolled w false) m -> ~ In (CPolled w true) m -> cn_pc s = PIdle -> cn_closers s = 0 ->
  cwoken w m \/ cn_closed s = false.
Proof.
  intros l s p w m Hr El Nm _ Np Hp Hn. destruct (crun_inv l _ _ cn_new_inv (fun _ => eq_refl) Hr) as (H & _).
  destruct (H p w m El Nm) as [Q|(_ & Q)]; [auto|]. right. destruct (cn_closed s); [|reflexivity]. exfalso. destruct (Q eq_refl) as [Z|[Z|Z]]; [contradiction|congruence|contradiction].
Qed.
(* A poll that starts after the close sees it *)
Theorem C51_close_seen : forall l s w, cn_run cn_new l = Some s -> In CSet (cn_log s) -> cn_pc s = PIdle ->
  exists s1 s2, cn_step s (AStart w) = Some s1 /\ cn_step s1 APoll = Some s2 /\ cn_log s2 = cn_log s ++ [CPoll w; CPolled w true].
Proof.
  intros l s w Hr Hi Hp. assert (cn_closed s = true) as C.
  { assert (forall l s s', (In CSet (cn_log s) -> cn_closed s = true) -> cn_run s l = Some s' -> In CSet (cn_log s') -> cn_closed s' = true) as Q.
    { clear. induction l as [|a l IH]; intros s s' H E; [inversion E; subst; exact H|]. cbn [cn_run] in E. destruct (cn_step s a) as [s1|] eqn:Es; [|discriminate]. refine (IH s1 s' _ E). clear IH E.
      destruct s as [cl wk n pc lg]. unfold cn_step in Es. cbn [cn_closed cn_waker cn_closers cn_pc cn_log] in *.
      assert (forall e, e <> CSet -> In CSet (lg ++ [e]) -> cl = true) as K by (intros e He Hi; apply in_app_or in Hi; destruct Hi as [Hi|[Hi|[]]]; [auto|contradiction]).
      destruct a as [| |w0|]; [inversion Es; subst; reflexivity| | |].
      - destruct (n =? 0); inversion Es; subst; cbn. apply K. discriminate.
      - destruct pc; inversion Es; subst; cbn. apply K. discriminate.
      - destruct pc; inversion Es; subst; cbn; try (apply K; discriminate). destruct cl; inversion Es; subst; cbn; [reflexivity|exact H]. }
    apply (Q l cn_new s (fun F => match F with end) Hr Hi). }
  unfold cn_step at 1. rewrite Hp. do 2 eexists. split; [reflexivity|]. cbn [cn_step cn_pc cn_closed cn_log]. rewrite C. split; [reflexivity|]. cbn [cn_log]. now rewrite <- app_assoc.
Qed.
Example C51_ex : exists s, cn_run cn_new [AStart 3; APoll; APoll; APoll; AClose; AWakeup] = Some s /\
  cn_log s = [CPoll 3] ++ CReg 3 :: [CPolled 3 false; CSet; CWake (Some 3)] /\ cn_pc s = PIdle /\ cn_closers s = 0.
Proof. eexists. split; [vm_compute; reflexivity|]. repeat split; vm_compute; reflexivity. Qed.
(* The second load is needed: a close between the first load and the registration *)
Example C51_ex_race : exists s, cn_run cn_new [AStart 3; APoll; AClose; AWakeup; APoll; APoll] = Some s /\
  cn_log s = [CPoll 3; CSet; CWake None] ++ CReg 3 :: [CPolled 3 true].
Proof. eexists. split; vm_compute; reflexivity. Qed.

Print Assumptions C50_no_lost_wakeup.
Print Assumptions C50_wake_follows.
Print Assumptions C50_value.
Print Assumptions C51_close_wakes.
Print Assumptions C51_close_seen.

(* ---- what the receiver of a body is told ---- *)
(* body/incoming.rs 98-100, 120, 217: the demand is 1 (WANT_PENDING) or 2 (WANT_READY) *)
Definition demands (a : wact) : Prop := match a with ASend v => v = 1 \/ v = 2 | _ => True end.
Definition told (s : watch) : Prop :=
  if w_dropping s then w_value s = 0 /\ w_spc s <> SReady else (w_value s = 1 \/ w_value s = 2) /\ w_spc s <> SGone.
Lemma told_step s a s' : told s -> demands a -> w_step s a = Some s' -> told s' /\ (w_dropping s' = true <-> w_dropping s = true \/ a = ADrop).
Proof.
  destruct s as [v wk pc dr rp lg]. unfold told, w_step. cbn [w_dropping w_value w_spc w_rpc w_waker w_log]. intros H D E.
  destruct a, pc, rp; try discriminate E; injection E as <-; cbn [w_dropping w_value w_spc] in *; destruct dr; cbn [demands] in D; unfold CLOSED in *;
    try (exfalso; destruct H as (_ & H); now apply H); (split; [repeat split; try tauto; try discriminate; try (destruct (_ =? _); discriminate)|]);
    split; auto; try discriminate; intros [F|F]; discriminate F || reflexivity.
Qed.
(* The value is none of the two demands exactly if the sender is being dropped or
   gone: the end of the receiver is never taken for a demand, nor the other way round *)
Theorem C50_drop_told : forall initial l s, initial = 1 \/ initial = 2 -> Forall demands l -> w_run (w_channel initial) l = Some s ->
  (In ADrop l <-> w_value s <> 1 /\ w_value s <> 2).
Proof.
  intros initial l s Hi Hl Hr.
  assert (forall l s s', Forall demands l -> told s -> w_run s l = Some s' -> told s' /\ (w_dropping s' = true <-> w_dropping s = true \/ In ADrop l)) as K.
  { clear. induction l as [|a l IH]; intros s s' Hl H E; cbn [w_run] in E; [injection E as <-; cbn [In]; tauto|].
    destruct (w_step s a) as [s1|] eqn:Es; [|discriminate]. inversion Hl; subst. destruct (told_step s a s1 H H2 Es) as (T & T2). destruct (IH s1 s' H3 T E) as (T3 & T4).
    split; [exact T3|]. rewrite T4, T2. cbn [In]. split; [intros [[A|A]|A]|intros [A|[A|A]]]; auto. }
  destruct (K l (w_channel initial) s Hl) as (T & T2); [split; [exact Hi|discriminate]|exact Hr|]. cbn [w_channel w_dropping] in T2. unfold told in T.
  destruct (w_dropping s); destruct T as (T & _).
  - rewrite T. split; [intros _; split; discriminate|intros _]. destruct (proj1 T2 eq_refl) as [F|F]; [discriminate F|exact F].
  - split; [intros F; discriminate (proj2 T2 (or_intror F))|]. intros (A & Bq). exfalso. tauto.
Qed.
Print Assumptions C50_drop_told.
(* A demand, then the drop, with the receiver in between *)
Example C50_drop_told_ex : exists s, w_run (w_channel 1) [AReg 7; ALoad; ASend 2; AWake; ADrop; AWake; APeek] = Some s /\ Forall demands [AReg 7; ALoad; ASend 2; AWake; ADrop; AWake; APeek] /\ w_value s = 0.
Proof. eexists. split; [reflexivity|]. split; [repeat constructor; right; reflexivity|reflexivity]. Qed.
