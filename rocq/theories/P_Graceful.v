(* C40: graceful shutdown *)
From Verif Require Import Base M_Src M_Decode M_HeaderMap M_Headers M_Encode M_Role M_RoleEncode M_Buf M_WriteBuf M_Read M_Conn M_Dispatch S_Conn L_Conn L_Moves L_ConnS L_ConnC L_Ka L_Exch S_Framing L_Framing L_BodyTx P_Conn P_Timer L_Done L_Return.

(* ---- Specification ---- *)
(* A request has come in, and its response was neither finished nor given up
   (LAbort, LHeadFail: the application's own mistake, which ends the connection) *)
Fixpoint unanswered (o : bool) (l : list levent) : bool :=
  match l with
  | [] => o
  | e :: r => unanswered (match e with LIn _ => true | LEnd | LAbort | LHeadFail _ => false | _ => o end) r
  end.
(* A transport that accepts writes and can be shut down at once *)
Definition ready_transport (i : inp) : Prop := (exists n r, i_wevs i = WAccept n :: r) /\ i_shutdown i = Ready (Ok tt).
(* No request has begun to arrive: the first head is awaited, or the next one *)
Definition nothing_begun (k : conn) : Prop := is_idle k = true \/ has_initial_read_write_state k = true.

(* ---- Lemmas ---- *)
Lemma unanswered_owes l : forall o, unanswered o l = owes o l.
Proof. induction l as [|e l IH]; intros o; [reflexivity|]. destruct e; cbn; apply IH. Qed.
Lemma DD_step c i d : c_server c = true -> DD d -> d_pc (dstep c i d) <> PDead -> DD (dstep c i d).
Proof.
  intros Hs H. unfold dstep. destruct (d_pc d) as [|n|n|n wr|n| | |] eqn:Ep; intros Hp.
  - exact (DD_same _ _ eq_refl eq_refl eq_refl H).
  - pose proof (DD_read c i d Hs H) as K. unfold keeps in K. destruct (poll_read_it c i d) as [d' [|[|[u|e]]]]; cbn [fst snd] in K; try exact K; try exact (DD_same _ _ eq_refl eq_refl eq_refl K).
    destruct Hp. apply fail_dead.
  - pose proof (DD_write c i d Hs H) as K. unfold keeps in K. destruct (poll_write_it c i d) as [d' [|[|[u|e]]]]; cbn [fst snd] in K; try exact K; try exact (DD_same _ _ eq_refl eq_refl eq_refl K).
    destruct Hp. apply fail_dead.
  - pose proof (DD_flush c i d H) as K. destruct (d_flush c i d) as [d' [|[u|e]]]; cbn [fst] in K; [..|destruct Hp; apply fail_dead]; destruct K as (K1 & K2);
      (split; [cbn; unfold wants_read_again; cbn; dsame|exact K2]).
  - pose proof (DD_write c i d Hs H) as K. unfold keeps in K. destruct (poll_write_it c i d) as [d' [|[|[u|e]]]]; cbn [fst snd] in K; try exact K; try exact (DD_same _ _ eq_refl eq_refl eq_refl K).
    destruct Hp. apply fail_dead.
  - pose proof (DD_flush c i d H) as K. destruct (d_flush c i d) as [d' [|[u|e]]]; cbn [fst] in K; try exact (DD_same _ _ eq_refl eq_refl eq_refl K). destruct Hp. apply fail_dead.
  - destruct (d_is_done c d); [|exact (DD_same _ _ eq_refl eq_refl eq_refl H)]. unfold pending_upgrade in *. cbn [fst snd] in *.
    set (d1 := dset_conn d (set_upgrade (d_conn d) false)) in *. assert (DD d1) as H1 by (destruct H as (H1 & H2); split; [subst d1; cbn; dsame|exact H2]). clearbody d1.
    assert (forall d1, d_pc (match take_error (d_conn d1) with (k, Ok _) => d_complete (dset_conn d1 k) None | (k, Err e) => d_fail c (dset_conn d1 k) e end) = PDead) as T.
    { clear. intros d1. destruct (take_error (d_conn d1)) as [k [u|e]]; [unfold d_complete; now rewrite d_drop_eq|apply fail_dead]. }
    destruct (k_upgrade (d_conn d)); [destruct Hp; apply T|]. destruct (wb_flush _ _ _ _) as [[[w ev] sent] r].
    set (d2 := dset_conn d1 _) in *. assert (DD d2) as H2.
    { subst d2. destruct H1 as (A & A2). split; [|exact A2]. cbn [d_conn d_in_flight dset_conn]. apply DI_log; [destruct sent; reflexivity|]. dsame. }
    clearbody d2. destruct r as [|[u|e]]; [exact (DD_same _ _ eq_refl eq_refl eq_refl H2)| |destruct Hp; apply fail_dead].
    destruct (i_shutdown i) as [|[u'|e']]; [exact (DD_same _ _ eq_refl eq_refl eq_refl H2)|destruct Hp; apply T|destruct Hp; apply fail_dead].
  - exact H.
Qed.
Lemma DD_graceful d : DD d -> DD (d_graceful d).
Proof.
  intros (H1 & H2). unfold d_graceful, k_disable_keep_alive. destruct (is_idle (d_conn d)) eqn:Ei.
  - assert (k_ka (d_conn d) = KIdle) as Hk by (unfold is_idle in Ei; destruct (k_ka (d_conn d)); try discriminate Ei; reflexivity).
    pose proof (di_idle _ _ H1 Hk) as Hr. destruct (di_init _ _ H1 Hr) as (Ho & _). pose proof (DI_init_false _ _ H1 Hr) as Hf.
    cbn [d_conn dset_conn is_write_closed st_close k_writing orb]. apply DD_close; [exact Hf|exact Ho].
  - assert (DI (d_in_flight d) (set_ka (d_conn d) KDisabled)) as H3 by (dsame; split; [discriminate|intros F; unfold is_idle in Ei; rewrite F in Ei; discriminate Ei]).
    match goal with |- context [if ?b then _ else _] => destruct b eqn:Eb end.
    + assert (d_in_flight d = false /\ owed (k_log (d_conn d)) = false) as (Hf & Ho).
      { apply orb_prop in Eb. destruct Eb as [Eb|Eb].
        - cbn in Eb. assert (k_writing (d_conn d) = WClosed) as Hw by (unfold is_write_closed in Eb; cbn in Eb; destruct (k_writing (d_conn d)); try discriminate Eb; reflexivity).
          split; [apply (DI_fl_false _ _ H1); congruence|apply (di_wend _ _ H1); auto].
        - assert (k_reading (d_conn d) = RInit) as Hr by (unfold has_initial_read_write_state in Eb; cbn in Eb; destruct (k_reading (d_conn d)); try discriminate Eb; reflexivity).
          split; [exact (DI_init_false _ _ H1 Hr)|apply (di_init _ _ H1 Hr)]. }
      apply DD_close; [exact Hf|exact Ho].
    + split; [exact H3|exact H2].
Qed.
Lemma DD_off d : k_log (d_conn d) = [] -> DD d -> DD (dset_conn d (st_disable_keep_alive (d_conn d))).
Proof.
  intros El ([H1 H2 H3 H4 H5 H6 H7] & Hc). split; [|exact Hc]. constructor; cbn; auto; [discriminate|]. intros _. right. now rewrite El.
Qed.
Section Server.
  Variables (c : cfg) (h09 flat : bool) (wmax : N) (evs : list event).
  Hypothesis Hs : c_server c = true.
  Let st ms := after c h09 flat wmax evs ms.
  Let hist ms := history c h09 flat wmax evs ms.
  Lemma st_snoc ms m : st (ms ++ [m]) = dmove c m (st ms).
  Proof. unfold st, after. rewrite run_app. reflexivity. Qed.
  Lemma DD_start : DD (st []).
  Proof. split; [|discriminate]. constructor; cbn; auto; try discriminate; try (intros [F|F]; discriminate F). intros F. now destruct F. Qed.
  Lemma DD_all ms : d_pc (st ms) = PDead \/ (DD (st ms) /\ forallb nret (hist ms) = true).
  Proof.
    induction ms as [|m ms IH] using rev_ind; [right; split; [apply DD_start|reflexivity]|]. unfold hist, history. change (run c (ms ++ [m]) _) with (st (ms ++ [m])). rewrite st_snoc. destruct IH as [IH|(IH & IL)].
    - left. apply dead_stays, IH.
    - change (hist ms) with (k_log (d_conn (st ms))) in IL. destruct (d_pc (st ms)) eqn:Ep.
      8: { left. apply dead_stays, Ep. }
      all: assert (d_pc (st ms) <> PDead) as Hn by congruence; clear Ep; destruct m as [i|e]; cbn [dmove].
      all: try (destruct (step_return c i (st ms) Hn) as [(R1 & (l & L1 & L2))|(r & (R1 & _) & _)]; [right; split; [now apply DD_step|rewrite L1, forallb_app, IL, L2; reflexivity]|left; exact R1]).
      all: destruct (env_return c e (st ms)) as (l & L1 & L2); rewrite L1, forallb_app, IL, L2.
      all: destruct e as [s| | |]; cbn [estep]; rewrite ?Hs; try (destruct (d_pc (st ms)), (k_log (d_conn (st ms))) eqn:El; auto using DD_off; fail).
      all: destruct (d_pc (st ms)); auto using DD_graceful; left; now rewrite d_drop_eq.
  Qed.
  Lemma nret_in l r : forallb nret l = true -> ~ In (LReturn r) l.
  Proof. intros H F. rewrite forallb_forall in H. apply H in F. discriminate F. Qed.

  (* ---- Theorems ---- *)
  (* When the connection ends without an error, every request has got its
     response: [owed], the log up to there.  (A response that the application
     cannot complete is an error of its own, C25 and C29.)  The only exception
     is [gives_up] (is_done, F30): the response body's end could not be written because the
     write buffer was full, and reading is closed. *)
  Theorem C40_answered : forall ms a b, hist ms = a ++ LReturn None :: b ->
    unanswered false a = false \/
    exists p i q, ms = p ++ Step i :: q /\ d_pc (st p) = PFinish /\ gives_up (st p) = true.
  Proof.
    intros ms a b. rewrite unanswered_owes. change (owes false a) with (owed a). revert a b.
    induction ms as [|m ms IH] using rev_ind; intros a b E.
    { destruct a; discriminate E. }
    unfold hist, history in E. change (run c (ms ++ [m]) _) with (st (ms ++ [m])) in E. rewrite st_snoc in E.
    assert (forall a b, hist ms = a ++ LReturn None :: b -> owed a = false \/ exists p i q, ms ++ [m] = p ++ Step i :: q /\ d_pc (st p) = PFinish /\ gives_up (st p) = true) as IH'.
    { intros a' b' E'. destruct (IH a' b' E') as [H|(p & i & q & -> & H)]; [now left|]. right. exists p, i, (q ++ [m]). rewrite <- app_assoc. auto. }
    clear IH. destruct (DD_all ms) as [Hd|(Hd & Hn)].
    - destruct (dead_stays c m (st ms) Hd) as (_ & Q). rewrite Q in E. now apply (IH' a b).
    - assert (nrd (st ms) (dmove c m (st ms)) -> owed a = false \/ exists p i q, ms ++ [m] = p ++ Step i :: q /\ d_pc (st p) = PFinish /\ gives_up (st p) = true) as Hno.
      { intros (l & L1 & L2). rewrite L1 in E. exfalso. apply (nret_in (k_log (d_conn (st ms)) ++ l) None); [rewrite forallb_app; change (k_log (d_conn (st ms))) with (hist ms); now rewrite Hn, L2|]. rewrite E. apply in_or_app. right. now left. }
      destruct m as [i|e]; [|apply Hno, env_return]. cbn [dmove] in *.
      destruct (d_pc (st ms)) eqn:Ep.
      8: { unfold dstep in E. rewrite Ep in E. now apply (IH' a b). }
      all: assert (d_pc (st ms) <> PDead) as Hp by congruence.
      all: destruct (step_return c i (st ms) Hp) as [(_ & R)|(r & (R1 & x0 & y0 & X & X1 & X2) & R)]; [now apply Hno|].
      all: assert (forall x y, k_log (d_conn (dstep c i (st ms))) = k_log (d_conn (st ms)) ++ x ++ LReturn r :: y -> forallb nret x = true -> forallb nret y = true -> r = None /\ k_log (d_conn (st ms)) ++ x = a) as U by
        (clear - E Hn; intros x y X X1 X2; rewrite X, app_assoc in E; change (k_log (d_conn (st ms))) with (hist ms) in E;
         assert (forallb nret (hist ms ++ x) = true) as Hx by (rewrite forallb_app, Hn, X1; reflexivity);
         revert E Hx; change (k_log (d_conn (st ms))) with (hist ms); generalize (hist ms ++ x); intros z; revert a; induction z as [|e z IHz]; intros [|e' a] E Hx; cbn [app] in E;
         [injection E as -> ->; auto|injection E as <- E; exfalso; apply (nret_in y None X2); rewrite E; apply in_or_app; right; now left
         |injection E as -> E; discriminate Hx|injection E as -> E; cbn [forallb] in Hx; apply andb_prop in Hx; destruct Hx as (_ & Hx); destruct (IHz a E Hx); split; congruence]).
      all: destruct (U x0 y0 X X1 X2) as (-> & _).
      all: destruct R as [(e & F)|[F|(_ & F & G & _ & (x & y & Y & Y1 & Y2))]]; [discriminate F|congruence|]; try congruence.
      assert (forallb nret x = true /\ forallb oquiet x = true) as (Y3 & Y4).
      { clear - Y1. induction x as [|e x IHx]; [auto|]. cbn [forallb] in *. apply andb_prop in Y1. destruct Y1 as (A & A2). destruct (IHx A2) as (-> & ->). destruct e; try discriminate A; auto. }
      destruct (U x y Y Y3 Y2) as (_ & Ea).
      destruct (done_owes c (st ms) Hs Hd G) as [Q|Q]; [|right; exists ms, i, []; auto].
      left. rewrite <- Ea. rewrite owed_quiet; [exact Q|exact Y4].
  Qed.

  (* ---- An idle connection ---- *)
  Record closed (d : disp) : Prop := mkCl {
    cl_closing : d_closing d = true; cl_r : k_reading (d_conn d) = RClosed; cl_w : k_writing (d_conn d) = WClosed;
    cl_err : k_error (d_conn d) = None; cl_up : k_upgrade (d_conn d) = false; cl_buf : wb_rem (k_wb (d_conn d)) = 0 }.
  Lemma flush_nothing unread w evs' n r : wb_rem w = 0 -> evs' = WAccept n :: r -> exists ev, wb_flush (c_pipeline c) unread w evs' = (w, ev, [], Ready (Ok tt)).
  Proof. intros H ->. unfold wb_flush. rewrite H. destruct (_ && _); cbn; eauto. Qed.
  Lemma try_closed blk k : k_reading k = RClosed -> k_writing k = WClosed -> try_keep_alive c blk k = k.
  Proof. intros A1 A2. unfold try_keep_alive. assert (st_try_keep_alive c k = k) as -> by (unfold st_try_keep_alive; now rewrite A1, A2). unfold maybe_notify. now rewrite A1. Qed.
  Lemma d_flush_nothing i d : ready_transport i -> closed d -> let d' := fst (d_flush c i d) in
    snd (d_flush c i d) = Ready (Ok tt) /\ closed d' /\ k_log (d_conn d') = k_log (d_conn d) /\ d_pc d' = d_pc d /\ k_notify (d_conn d') = k_notify (d_conn d).
  Proof.
    intros ((n & r & Hw) & _) [A1 A2 A3 A4 A5 A6]. cbn zeta. unfold d_flush, k_poll_flush.
    destruct (flush_nothing (negb (match r_buf (k_rd (d_conn d)) with [] => true | _ => false end)) _ _ n r A6 Hw) as (ev & ->).
    rewrite try_closed by assumption. cbn.
    split; [reflexivity|]. split; [constructor; assumption|]. split; [apply app_nil_r|auto].
  Qed.
  Lemma closed_write i d : closed d -> poll_write_it c i d = (d, Ret (Ready (Ok tt))).
  Proof. intros H. unfold poll_write_it. now rewrite (cl_closing _ H). Qed.
  Lemma closed_read i d : closed d -> poll_read_it c i d = (d, Ret (Ready (Ok tt))).
  Proof. intros H. unfold poll_read_it. now rewrite (cl_closing _ H). Qed.
  Lemma closed_pc d x : closed d -> closed (dset_pc d x).
  Proof. intros [A1 A2 A3 A4 A5 A6]. now constructor. Qed.
  (* A bound on the number of steps before the last one *)
  Definition left_ (d : disp) : nat :=
    (match d_pc d with PWrite2 _ => 5 | PIdle => 4 | PRead _ => 3 | PWrite _ => 2 | PFlush _ _ | PFlush2 => 1 | _ => 0 end + if k_notify (d_conn d) then 4 else 0)%nat.
  Lemma closed_step i d : ready_transport i -> closed d -> d_pc d <> PDead ->
    (d_pc (dstep c i d) = PDead /\ exists x, k_log (d_conn (dstep c i d)) = k_log (d_conn d) ++ LShutdown :: LReturn None :: x /\ forallb nret x = true) \/
    (closed (dstep c i d) /\ d_pc (dstep c i d) <> PDead /\ k_log (d_conn (dstep c i d)) = k_log (d_conn d) /\ (left_ (dstep c i d) < left_ d)%nat).
  Proof.
    intros Hi Hd Hp.
    assert (forall n, next_round n <> PDead /\ (match next_round n with PWrite2 _ => 5 | PIdle => 4 | PRead _ => 3 | PWrite _ => 2 | PFlush _ _ | PFlush2 => 1 | _ => 0 end <= 4)%nat) as Hnr by (intros [|[|n]]; (split; [discriminate|cbn; lia])).
    unfold dstep. destruct (d_pc d) as [|n|n|n wr|n| | |] eqn:Ep.
    - right. split; [now apply closed_pc|]. split; [discriminate|]. split; [reflexivity|]. unfold left_. rewrite Ep. cbn. lia.
    - rewrite closed_read by exact Hd. right. split; [now apply closed_pc|]. split; [discriminate|]. split; [reflexivity|]. unfold left_. rewrite Ep. cbn. lia.
    - rewrite closed_write by exact Hd. right. split; [now apply closed_pc|]. split; [discriminate|]. split; [reflexivity|]. unfold left_. rewrite Ep. cbn. lia.
    - destruct (d_flush_nothing i d Hi Hd) as (R & C & L & P & N). destruct (d_flush c i d) as [d' r]. cbn [fst snd] in *. subst r.
      assert (can_write_again d' = false) as -> by (unfold can_write_again; now rewrite (cl_closing _ C)).
      unfold wants_read_again. rewrite N. cbn [andb]. right. split; [destruct C as [A1 A2 A3 A4 A5 A6]; constructor; assumption|].
      unfold left_. rewrite Ep. cbn [d_pc d_conn dset_pc dset_conn k_notify set_notify].
      destruct (k_notify (d_conn d)) eqn:En.
      + split; [apply Hnr|]. split; [exact L|]. pose proof (proj2 (Hnr n)). lia.
      + split; [discriminate|]. split; [exact L|lia].
    - rewrite closed_write by exact Hd. right. split; [now apply closed_pc|]. split; [apply Hnr|]. split; [reflexivity|]. unfold left_. rewrite Ep. cbn [d_pc dset_pc d_conn]. pose proof (proj2 (Hnr n)). lia.
    - destruct (d_flush_nothing i d Hi Hd) as (R & C & L & P & N). destruct (d_flush c i d) as [d' r]. cbn [fst snd] in *. subst r.
      right. split; [now apply closed_pc|]. split; [discriminate|]. split; [exact L|]. unfold left_. rewrite Ep. cbn [d_pc d_conn dset_pc]. rewrite N. lia.
    - left. destruct Hi as ((n & r & Hw) & Hsh). destruct Hd as [A1 A2 A3 A4 A5 A6]. unfold d_is_done. rewrite A1. unfold pending_upgrade. rewrite A5.
      cbn [d_conn dset_conn k_wb set_upgrade k_rd]. destruct (flush_nothing (negb (match r_buf (k_rd (d_conn d)) with [] => true | _ => false end)) _ _ n r A6 Hw) as (ev & ->). rewrite Hsh.
      unfold take_error. cbn [d_conn dlog dset_conn log set_wb set_upgrade k_error]. rewrite A4.
      split; [unfold d_complete; now rewrite d_drop_eq|]. unfold d_complete. match goal with |- context [d_drop ?x] => destruct (drop_log x) as (x0 & L1 & L2) end. exists x0. rewrite L1. cbn. rewrite app_nil_r, <- !app_assoc. auto.
    - now destruct Hp.
  Qed.
  Lemma dead_run ms : forall d, d_pc d = PDead -> d_pc (run c ms d) = PDead /\ d_conn (run c ms d) = d_conn d.
  Proof. induction ms as [|m ms IH]; intros d H; [auto|]. change (run c (m :: ms) d) with (run c ms (dmove c m d)). destruct (dead_stays c m d H) as (A & A'). destruct (IH _ A). split; congruence. Qed.
  Lemma closed_run is : forall d, Forall ready_transport is -> closed d -> d_pc d <> PDead -> (left_ d < length is)%nat ->
    let d' := run c (map Step is) d in
    d_pc d' = PDead /\ exists x, k_log (d_conn d') = k_log (d_conn d) ++ LShutdown :: LReturn None :: x /\ forallb nret x = true.
  Proof.
    induction is as [|i is IH]; intros d Hi Hd Hc Hn; [cbn in Hn; lia|]. inversion Hi as [|? ? H1 H2]. subst. cbn [map]. change (run c (Step i :: map Step is) d) with (run c (map Step is) (dstep c i d)).
    destruct (closed_step i d H1 Hd Hc) as [(D & x & L & X)|(C & C' & L & Q)].
    - destruct (dead_run (map Step is) _ D) as (Z1 & Z2). cbn zeta. rewrite Z1, Z2. eauto.
    - cbn zeta in *. rewrite <- L. apply IH; auto. cbn in Hn. lia.
  Qed.
  (* The shutdown of an idle connection that has written everything and has no
     upgrade waiting ends it within one poll *)
  Theorem C40_idle_closes : forall ms is, d_pc (st ms) = PIdle -> nothing_begun (d_conn (st ms)) ->
    has_buffered_write (d_conn (st ms)) = false -> k_upgrade (d_conn (st ms)) = false ->
    Forall ready_transport is -> length is = 9%nat ->
    exists x, hist (ms ++ Env EGraceful :: map Step is) = hist ms ++ LShutdown :: LReturn None :: x /\ forallb nret x = true.
  Proof.
    intros ms is Hp Hb Hw Hu Hi Hl. unfold hist, history. rewrite !run_app. change (run c ms (start h09 flat wmax evs)) with (st ms).
    change (run c (Env EGraceful :: map Step is) (st ms)) with (run c (map Step is) (estep c EGraceful (st ms))). cbn [estep]. rewrite Hp, Hs.
    destruct (DD_all ms) as [F|((H1 & _) & _)]; [congruence|].
    assert (k_reading (d_conn (st ms)) = RInit) as Hr.
    { destruct Hb as [Hb|Hb].
      - apply (di_idle _ _ H1). unfold is_idle in Hb. destruct (k_ka (d_conn (st ms))); try discriminate Hb; reflexivity.
      - unfold has_initial_read_write_state in Hb. destruct (k_reading (d_conn (st ms))); try discriminate Hb; reflexivity. }
    destruct (di_init _ _ H1 Hr) as (_ & Hwi).
    assert (k_error (d_conn (st ms)) = None) as He by (destruct (k_error (d_conn (st ms))) eqn:Ee; [|reflexivity]; destruct (di_err _ _ H1); congruence).
    assert (wb_rem (k_wb (d_conn (st ms))) = 0) as Hz by (unfold has_buffered_write in Hw; apply N.ltb_ge in Hw; lia).
    unfold d_graceful, k_disable_keep_alive. destruct (is_idle (d_conn (st ms))) eqn:Ei.
    - cbn [d_conn dset_conn is_write_closed st_close k_writing orb]. eapply (closed_run is (d_close (dset_conn (st ms) (st_close (d_conn (st ms)))))); auto.
      + constructor; auto.
      + cbn. congruence.
      + unfold left_. cbn. rewrite Hp, Hl. destruct (k_notify (d_conn (st ms))); lia.
    - destruct Hb as [Hb|Hb]; [congruence|]. assert (has_initial_read_write_state (set_ka (d_conn (st ms)) KDisabled) = true) as Hb' by exact Hb.
      cbn [d_conn dset_conn st_disable_keep_alive]. unfold st_disable_keep_alive. rewrite Hb', orb_true_r.
      eapply (closed_run is (d_close (dset_conn (st ms) (set_ka (d_conn (st ms)) KDisabled)))); auto.
      + constructor; auto.
      + cbn. congruence.
      + unfold left_. cbn. rewrite Hp, Hl. destruct (k_notify (d_conn (st ms))); lia.
  Qed.

  (* After the call no request is taken in, except the connection's first if part
     of it has arrived *)
  Theorem C40_no_more : forall ms ms' l, d_pc (st ms) = PIdle -> hist (ms ++ Env EGraceful :: ms') = hist ms ++ l ->
    count is_LIn l = 0%nat \/
    (count is_LIn l = 1%nat /\ count is_LIn (hist ms) = 0%nat /\ k_reading (d_conn (st ms)) = RInit /\ r_buf (k_rd (d_conn (st ms))) <> []).
  Proof.
    intros ms ms' l Hp E. pose proof (C29_graceful c h09 flat wmax evs ms Hs Hp) as Hk.
    destruct (C29_ruled_out c h09 flat wmax evs (ms ++ [Env EGraceful]) ms' (or_introl Hs) Hk) as (l' & L & H1 & H2 & _). rewrite <- app_assoc in L. cbn [app] in L.
    assert (history c h09 flat wmax evs (ms ++ [Env EGraceful]) = hist ms /\ (k_reading (d_conn (after c h09 flat wmax evs (ms ++ [Env EGraceful]))) <> RInit \/
      (k_reading (d_conn (st ms)) = RInit /\ is_idle (d_conn (st ms)) = false /\ r_buf (k_rd (d_conn (st ms))) <> []))) as (Lg & Hg).
    { unfold history. change (run c (ms ++ [Env EGraceful]) (start h09 flat wmax evs)) with (st (ms ++ [Env EGraceful])). change (after c h09 flat wmax evs (ms ++ [Env EGraceful])) with (st (ms ++ [Env EGraceful])).
      rewrite st_snoc. cbn [dmove estep]. rewrite Hp, Hs. unfold d_graceful, k_disable_keep_alive, hist, history. change (run c ms (start h09 flat wmax evs)) with (st ms).
      destruct (is_idle (d_conn (st ms))) eqn:Ei; [cbn; split; [reflexivity|left; discriminate]|].
      match goal with |- context [if ?b then _ else _] => destruct b eqn:Eb end; [split; [reflexivity|left; discriminate]|]. split; [reflexivity|].
      cbn [d_conn dset_conn st_disable_keep_alive]. destruct (k_reading (d_conn (st ms))) eqn:Er; try (left; cbn; congruence). right. split; [reflexivity|]. split; [reflexivity|].
      intros F. apply orb_false_iff in Eb. destruct Eb as (_ & Eb). unfold has_initial_read_write_state in Eb. cbn in Eb. rewrite Er, F in Eb.
      destruct (DD_all ms) as [Q|((Q & _) & _)]; [congruence|]. destruct (di_init _ _ Q Er) as (_ & Hw). rewrite Hw in Eb. discriminate Eb. }
    assert (l = l') as ->. { change (history c h09 flat wmax evs (ms ++ Env EGraceful :: ms')) with (hist (ms ++ Env EGraceful :: ms')) in L. rewrite L, Lg in E. now apply app_inv_head in E. }
    destruct Hg as [Hg|(Hg & Hi & Hb)]; [left; auto|]. destruct (count is_LIn l') as [|[|n]] eqn:Ec; [now left|right|lia].
    split; [reflexivity|]. split; [|auto]. destruct (DD_all ms) as [Q|((Q & _) & _)]; [congruence|]. destruct (di_first _ _ Q Hg) as [F|F]; [unfold is_idle in Hi; rewrite F in Hi; discriminate Hi|].
    unfold hist, history, count. change (run c ms (start h09 flat wmax evs)) with (st ms). clear - F. induction (k_log (d_conn (st ms))) as [|e x IH]; [reflexivity|]. cbn [forallb filter] in *. apply andb_prop in F. destruct F as (F1 & F2). destruct e; try discriminate F1; cbn; auto.
  Qed.
End Server.

(* After the call every response to an HTTP/1.1 peer says that it is the last *)
Lemma close_head c auto k h body : c_server c = true -> k_ka k = KDisabled -> k_version k = HTTP11 ->
  forall a auto' h' bs b, k_log (write_head c auto k h body) = k_log k ++ a ++ LHead auto' h' bs :: b -> names h' (B "close").
Proof.
  intros Hs Hk Hv a auto' h' bs b. unfold write_head, encode_head. rewrite Hs. unfold enforce_version. rewrite Hv, Hk.
  set (h1 := o_set_headers h _). assert (names h1 (B "close")) as Hn.
  { exists (B "close"). split; [|apply connection_close_spec; reflexivity]. subst h1. cbn [o_headers o_set_headers]. rewrite hm_get_all_insert, beq_refl. now left. }
  clearbody h1. destruct (t_encode c k h1 body) as [[out m] [e|e]]; cbn [k_log log set_writing set_method set_wb set_error]; rewrite <- ?app_assoc; intros E; apply app_inv_head in E.
  - destruct a as [|x [|y a]]; cbn in E; [injection E as <- <- <- _; exact Hn|exfalso; injection E as _ E; destruct (enc_is_eof e); discriminate E|exfalso; injection E as _ E; destruct (enc_is_eof e); [|discriminate E]; injection E as _ E; destruct a; discriminate E].
  - exfalso. destruct a as [|x [|y a]]; discriminate E.
Qed.
Lemma disabled_says_close c d0 ms' : c_server c = true -> ok_state c d0 -> k_ka (d_conn d0) = KDisabled -> let p := k_log (d_conn d0) in k_version (d_conn d0) = vlast HTTP11 p ->
  exists l, k_log (d_conn (run c ms' d0)) = p ++ l /\ forall a auto h bs b, l = a ++ LHead auto h bs :: b -> vlast HTTP11 (p ++ a) = HTTP11 -> names h (B "close").
Proof.
  intros Hs Ok0 Hk p Hv0.
  set (P := fun k => k_ka k = KDisabled /\ k_version k = vlast HTTP11 (k_log k) /\ exists l, k_log k = p ++ l /\
    forall a auto h bs b, l = a ++ LHead auto h bs :: b -> vlast HTTP11 (p ++ a) = HTTP11 -> names h (B "close")).
  enough (P (d_conn (run c ms' d0))) as (_ & _ & Q) by exact Q.
  apply (run_P c (fun _ => True) P (or_introl Hs) (fun _ _ => I)).
  - intros k k' (P1 & P2 & l & L & Q) (l' & (L' & V' & D & _) & Hc & _). destruct (D P1) as (D1 & _). split; [exact D1|]. split; [rewrite L', vlast_app, <- P2; exact V'|].
    exists (l ++ l'). rewrite L', L, app_assoc. split; [reflexivity|]. intros a' auto' h' bs' b' E' Hv'. destruct (app_cons_split _ _ _ _ _ E') as [(b2 & E1 & ->)|(a2 & -> & E2)]; [now apply (Q _ _ _ _ _ E1)|].
    exfalso. rewrite E2, count_app, count_cons in Hc. cbn in Hc. lia.
  - intros auto' k h' body (P1 & P2 & l & L & Q) Hw Hr _ _. rewrite Hs in Hr.
    destruct (write_head_ka c auto' k h' body Hw (fun _ => Hr)) as (l' & (L' & V' & D & _) & _). destruct (D P1) as (D1 & _).
    split; [exact D1|]. split; [rewrite L', vlast_app, <- P2; exact V'|]. exists (l ++ l'). rewrite L', L, app_assoc. split; [reflexivity|].
    intros a2 auto2 h2 bs2 b2 E' Hv'. destruct (app_cons_split _ _ _ _ _ E') as [(b3 & E1 & ->)|(a3 & -> & E2)]; [now apply (Q _ _ _ _ _ E1)|].
    assert (k_version k = HTTP11) as Hv11.
    { rewrite P2, L. rewrite app_assoc, vlast_app in Hv'. assert (vlast (vlast HTTP11 (p ++ l)) a3 = vlast HTTP11 (p ++ l)) as Z; [|congruence].
      clear - E2 L'. assert (forall e, In e a3 -> match e with LIn _ => False | _ => True end) as Hno.
      { intros e F. assert (In e l') as G by (rewrite E2; apply in_or_app; now left). destruct (write_head_cases c auto' k h' body) as (_ & _ & [(? & ? & ? & _ & C & _)|[(? & ? & C & _)|(? & C & _)]]);
        rewrite L' in C; apply app_inv_head in C; rewrite C in G; cbn in G; repeat (destruct G as [<- |G]; [exact I|]); destruct G. }
      clear E2. generalize (vlast HTTP11 (p ++ l)). induction a3 as [|e a3 IH]; intros v; [reflexivity|]. pose proof (Hno e (or_introl eq_refl)). destruct e; try contradiction; cbn; apply IH; intros e' F; apply Hno; now right. }
    apply (close_head c auto' k h' body Hs P1 Hv11 a3 auto2 h2 bs2 b2). rewrite L', E2. reflexivity.
  - apply moves_ok_any.
  - exact Ok0.
  - split; [exact Hk|]. split; [exact Hv0|]. exists []. rewrite app_nil_r. split; [reflexivity|]. intros a' ? ? ? b' F. destruct a'; discriminate F.
Qed.
Theorem C40_says_close : forall c h09 flat wmax evs ms ms' a auto h bs b, c_server c = true ->
  d_pc (after c h09 flat wmax evs ms) = PIdle ->
  history c h09 flat wmax evs (ms ++ Env EGraceful :: ms') = history c h09 flat wmax evs ms ++ a ++ LHead auto h bs :: b ->
  vlast HTTP11 (history c h09 flat wmax evs ms ++ a) = HTTP11 -> names h (B "close").
Proof.
  intros c h09 flat wmax evs ms ms' a auto h bs b Hs Hp E Hv.
  pose proof (C29_graceful c h09 flat wmax evs ms Hs Hp) as Hk.
  set (d0 := after c h09 flat wmax evs (ms ++ [Env EGraceful])) in *. set (p := history c h09 flat wmax evs ms) in *.
  assert (k_log (d_conn d0) = p /\ ok_state c d0) as (Lg & Ok0).
  { split; [|apply ok_run; [now left|apply ok_start]]. subst d0 p. unfold after, history. rewrite run_app. change (run c [Env EGraceful] ?d) with (estep c EGraceful d). cbn [estep].
    change (d_pc (run c ms (start h09 flat wmax evs)) = PIdle) in Hp. rewrite Hp, Hs. unfold d_graceful, k_disable_keep_alive. destruct (is_idle _); cbn [d_conn dset_conn]; match goal with |- context [if ?b then _ else _] => destruct b end; reflexivity. }
  destruct (disabled_says_close c d0 ms' Hs Ok0 Hk) as (l & L & Q).
  - rewrite Lg. destruct (run_K c (ms ++ [Env EGraceful]) (start h09 flat wmax evs) (or_introl Hs) (ok_start c h09 flat wmax evs)) as (l & L & V & _).
    change (run c (ms ++ [Env EGraceful]) (start h09 flat wmax evs)) with d0 in *. rewrite Lg in L. cbn in L. rewrite V, <- L. reflexivity.
  - rewrite Lg in *. apply (Q a auto h bs b); [|exact Hv]. unfold history in E. replace (ms ++ Env EGraceful :: ms') with ((ms ++ [Env EGraceful]) ++ ms') in E by (rewrite <- app_assoc; reflexivity). rewrite run_app in E.
    change (run c (ms ++ [Env EGraceful]) (start h09 flat wmax evs)) with d0 in E. rewrite L in E. now apply app_inv_head in E.
Qed.

(* ---- The exception exists ---- *)
(* The full statement of C40's first half.  It fails: the request's body is
   dropped by the service, so reading is closed; the response has no body but the
   application's own Transfer-Encoding header, so its end is the five bytes of
   the last chunk; its head alone fills the write buffer.  The transport is
   blocked during poll_write, and takes the bytes an instant later.  The future
   returns Ok, and the last chunk is never written. *)
Definition answered_always : Prop := forall c h09 flat wmax evs ms a b, c_server c = true ->
  history c h09 flat wmax evs ms = a ++ LReturn None :: b -> unanswered false a = false.
Definition ok200_chunked : ohead := mkO HTTP11 (OResponse 200 None) [(B "transfer-encoding", [B "chunked"]); (B "x", [concat (repeat (repeat 97 128) 64)])] None.
Definition dropped (w : list wevent) : inp := mkI 0 true true w false BCanceled true (Ready (Ok (ok200_chunked, None))) (get, None) Pending true (Ready (Ok tt)) [].
Theorem C40_answered_refuted : exists c h09 flat wmax evs ms a b, c_server c = true /\
  history c h09 flat wmax evs ms = a ++ LReturn None :: b /\ unanswered false a = true /\
  count (fun e => match e with LEnd | LAbort | LHeadFail _ => true | _ => false end) (history c h09 flat wmax evs ms) = 0%nat.
Proof.
  exists (ex_cfg true false None), false, true, 8192, (open_with (line (B "PUT / HTTP/1.1"))),
    (steps 7 (dropped [WPending]) ++ steps 1 (dropped [WAccept 65536; WAccept 1; WAccept 1])).
  eexists [_; _; _; _], _. split; [reflexivity|]. vm_compute. repeat split.
Qed.
Corollary C40_answered_always_refuted : ~ answered_always.
Proof. intros H. destruct C40_answered_refuted as (c & h09 & flat & wmax & evs & ms & a & b & Hs & E & U & _). rewrite (H _ _ _ _ _ _ _ _ Hs E) in U. discriminate U. Qed.

(* ---- Examples ---- *)
(* A request arrives, graceful_shutdown is called while the service works, the
   response says close and completes, and the connection ends. *)
Example C40_ex_busy : exists a h bs b c',
  history (ex_cfg true false None) false true 8192 (open_with (line (B "GET / HTTP/1.1") ++ line (B "GET / HTTP/1.1")))
    (steps 6 (inp_of Pending get Pending) ++ Env EGraceful :: steps 20 (answer ok200))
  = a ++ LHead false h bs :: b ++ LReturn None :: c' /\
  d_pc (after (ex_cfg true false None) false true 8192 (open_with (line (B "GET / HTTP/1.1") ++ line (B "GET / HTTP/1.1"))) (steps 6 (inp_of Pending get Pending))) = PIdle /\
  count is_LIn (a ++ b ++ c') = 1%nat /\ names h (B "close") /\ unanswered false (a ++ LHead false h bs :: b) = false.
Proof.
  eexists [_; _], _, _, [_; _; _], _. split; [vm_compute; reflexivity|]. split; [vm_compute; reflexivity|]. split; [vm_compute; reflexivity|].
  split; [exists (B "close"); split; [vm_compute; auto|apply connection_close_spec; reflexivity]|reflexivity].
Qed.
(* The first request has arrived in part: it is still served *)
Definition starved : inp := mkI 0 true true [WAccept 65536] false BReady true Pending (get, None) Pending true (Ready (Ok tt)) [].
Example C40_ex_begun :
  d_pc (after (ex_cfg true false None) false true 8192 (EvData (B "GET /") :: EvPending :: EvData (B " HTTP/1.1" ++ CRLF ++ CRLF) :: repeat EvPending 9) (steps 5 starved)) = PIdle /\
  count is_LIn (history (ex_cfg true false None) false true 8192 (EvData (B "GET /") :: EvPending :: EvData (B " HTTP/1.1" ++ CRLF ++ CRLF) :: repeat EvPending 9)
    (steps 5 starved ++ Env EGraceful :: steps 20 (answer ok200))) = 1%nat.
Proof. vm_compute. auto. Qed.
(* An idle connection, new or between two requests *)
Example C40_ex_idle :
  let e := open_with (line (B "GET / HTTP/1.1")) in let d := after (ex_cfg true false None) false true 8192 e (steps 17 (answer ok200)) in
  d_pc d = PIdle /\ nothing_begun (d_conn d) /\ has_buffered_write (d_conn d) = false /\ k_upgrade (d_conn d) = false /\ ready_transport (answer ok200) /\
  history (ex_cfg true false None) false true 8192 e (steps 17 (answer ok200) ++ Env EGraceful :: steps 9 (answer ok200))
    = history (ex_cfg true false None) false true 8192 e (steps 17 (answer ok200)) ++ [LShutdown; LReturn None].
Proof. cbn zeta. split; [vm_compute; reflexivity|]. split; [left; vm_compute; reflexivity|]. split; [vm_compute; reflexivity|]. split; [vm_compute; reflexivity|]. split; [split; [do 2 eexists; reflexivity|reflexivity]|vm_compute; reflexivity]. Qed.

Print Assumptions C40_answered.
Print Assumptions C40_answered_refuted.
Print Assumptions C40_answered_always_refuted.
Print Assumptions C40_idle_closes.
Print Assumptions C40_no_more.
Print Assumptions C40_says_close.
