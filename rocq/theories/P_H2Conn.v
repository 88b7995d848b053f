(* C77: the ends of an HTTP/2 client's connection, its client task and its streams. *)
From Verif Require Import Base M_H2Conn.

Ltac step_cases E :=
  repeat match type of E with
  | Some _ = Some _ => injection E as <-
  | None = Some _ => discriminate E
  | (if ?c then _ else _) = _ => destruct c eqn:?
  | match ?c with _ => _ end = _ => destruct c eqn:?
  end.
Definition ends (p : cpong) (ready : bool) : bool := match p with CpTimedOut => true | CpWindow _ false => true | _ => ready end.
(* The first half of a poll, in two cases *)
Lemma poll_conn_cases p ready s : let s' := hc_poll_conn p ready s in
  hc_rx_term s' = hc_rx_term s /\ hc_cl s' = hc_cl s /\ hc_pipes s' = hc_pipes s /\ hc_streams s' = hc_streams s /\ hc_eof_w s' = hc_eof_w s /\ hc_drop_w s' = hc_drop_w s /\ hc_wake s' = false /\
  (exists l, hc_log s' = hc_log s ++ l /\ ~ In HcPanic l /\ ~ In HcEof l /\ (In HcEnd l <-> ends p ready = true) /\ (ends p ready = false -> In (HcPolled (hc_referenced s)) l)) /\
  if ends p ready then hc_pc s' = TEnd /\ hc_tx s' = false /\ hc_cl_wake s' = hc_cl_wake s || hc_eof_w s
  else hc_pc s' = TMid /\ hc_tx s' = hc_tx s /\ hc_conn_w s' = true /\ hc_cl_wake s' = hc_cl_wake s.
Proof.
  assert (forall b : bool, hc_referenced (mkHc (hc_pc s) b (hc_conn_w s) (hc_drop_w s) (hc_rx_term s) (hc_tx s) (hc_cl s) (hc_pipes s) (hc_streams s) (hc_eof_w s) (hc_cl_wake s) (hc_log s)) = hc_referenced s) as R by reflexivity.
  destruct p as [|w [|]|], ready; cbn; rewrite <- ?app_assoc; (repeat (split; [reflexivity|])); (split; [eexists; split; [reflexivity|]; cbn; intuition (try discriminate; auto)|auto]).
Qed.
Record hinv (s : hc) : Prop := mkHinv {
  hi_tx : hc_tx s = false -> hc_pc s = TEnd \/ hc_rx_term s = true;
  hi_end : hc_pc s = TEnd -> In HcEnd (hc_log s);
  hi_term : hc_rx_term s = true -> hc_pipes s = 0 /\ hc_cl s <> ClThere;
  hi_live : hc_pc s <> TEnd -> hc_rx_term s = false -> hc_tx s = true;
  hi_eof : hc_tx s = false -> hc_eof_w s = true -> hc_cl_wake s = true;
  hi_panic : ~ In HcPanic (hc_log s);
  hi_said : forall l1 l2, hc_log s = l1 ++ HcEof :: l2 -> In HcEnd l1;
  hi_count : hc_pipes s <= hc_streams s;
  hi_w : hc_pc s <> TEnd -> hc_wake s = true \/ hc_conn_w s = true
}.
Lemma said_app l l' : (forall l1 l2, l = l1 ++ HcEof :: l2 -> In HcEnd l1) -> ~ In HcEof l' -> forall l1 l2, l ++ l' = l1 ++ HcEof :: l2 -> In HcEnd l1.
Proof.
  intros H Hn l1. revert l H. induction l1 as [|x l1 IH]; intros l H l2 E.
  - destruct l as [|y l]; cbn in E; [exfalso; apply Hn; rewrite E; now left|]. injection E as -> E. destruct (H [] l eq_refl).
  - destruct l as [|y l]; cbn in E; [exfalso; apply Hn; rewrite E; right; apply in_or_app; right; now left|]. injection E as -> E. destruct x; try (right; apply (IH l (fun a b F => match H (_ :: a) b (f_equal (cons _) F) with or_introl X => ltac:(discriminate X) | or_intror X => X end) l2 E)); try (now left).
Qed.
Lemma destruct_last {A} (l : list A) : l = [] \/ exists l' y, l = l' ++ [y].
Proof. destruct l using rev_ind; [now left|right; eauto]. Qed.
Lemma hinv_step told m s s' : hinv s -> hc_step told m s = Some s' -> hinv s'.
Proof.
  intros [A B C D E F G K W] H. unfold hc_step in H. destruct m as [p ready| | | |pipe| | | | |].
  - destruct (hc_pc s) eqn:Ep; [|discriminate|discriminate]. destruct (hc_wake s) eqn:Ew; [|discriminate]. injection H as <-.
    destruct (poll_conn_cases p ready s) as (H1 & H2 & H3 & H4 & H5 & H6 & H7 & (l & El & N1 & N2 & N3 & N4) & H8).
    destruct (ends p ready) eqn:Ee.
    + destruct H8 as (Q1 & Q2 & Q3). constructor; rewrite ?H1, ?H2, ?H3, ?H4, ?H5, ?H6, ?H7, ?El, ?Q1, ?Q2, ?Q3; auto.
      * intros _. apply in_or_app. right. now apply N3.
      * intros _ Y. rewrite Y. apply orb_true_r.
      * rewrite in_app_iff. tauto.
      * now apply said_app.
    + destruct H8 as (Q1 & Q2 & Q3 & Q4). constructor; rewrite ?H1, ?H2, ?H3, ?H4, ?H5, ?H6, ?H7, ?El, ?Q1, ?Q2, ?Q3, ?Q4; auto.
      * intros X. destruct (A X) as [Y|Y]; [discriminate Y|auto].
      * discriminate.
      * intros _. apply D. discriminate.
      * rewrite in_app_iff. tauto.
      * now apply said_app.
  - destruct (hc_pc s) eqn:Ep; [discriminate| |discriminate]. injection H as <-. unfold hc_poll_drop. cbn [hc_to hc_rx_term hc_tx hc_refs hc_pipes hc_cl].
    assert (hc_pc s <> TEnd) as Np by (rewrite Ep; discriminate).
    destruct (hc_rx_term s) eqn:Er; [constructor; cbn; try rewrite Er; auto; try congruence; intros; apply W; discriminate|].
    destruct (hc_refs _ =? 0) eqn:E0.
    + rewrite (D ltac:(discriminate) eq_refl). unfold hc_refs in E0. cbn in E0. constructor; cbn; auto; try congruence.
      * intros _. destruct (hc_cl s); split; try lia; discriminate.
      * intros _ ->. apply orb_true_r.
      * intros _. apply W. discriminate.
    + constructor; cbn; try rewrite Er; auto; try congruence; intros X; [destruct (A X) as [Y|Y]; discriminate Y|apply D; discriminate|apply W; discriminate].
  - injection H as <-. constructor; cbn; auto. intros _. left. apply orb_true_r.
  - destruct (hc_pc s) eqn:Ep; [|discriminate|discriminate]. injection H as <-. constructor; cbn; auto.
    + intros _. apply in_or_app. right. now left.
    + intros _ ->. apply orb_true_r.
    + rewrite in_app_iff. cbn. intuition discriminate.
    + apply said_app; [assumption|]. cbn. intuition discriminate.
  - destruct (hc_cl s) eqn:Ec; try discriminate. assert (Some (hc_counts (hc_pipes s + (if pipe then 1 else 0)) (hc_streams s + 1) s) = Some s') as H' by (destruct (hc_pc s); exact H). injection H' as <-.
    constructor; cbn; rewrite ?Ec; auto; [intros X; destruct (C X) as (_ & Y); congruence|destruct pipe; lia].
  - destruct (hc_pipes s =? 0) eqn:E0; [destruct (hc_pc s); discriminate|]. assert (Some (hc_ref_dropped (hc_counts (hc_pipes s - 1) (hc_streams s) s)) = Some s') as H' by (destruct (hc_pc s); exact H). injection H' as <-.
    constructor; cbn; auto; [intros X; destruct (C X); split; [lia|assumption]|lia|]. intros X. destruct (W X) as [-> | ->]; auto.
  - destruct (hc_streams s <=? hc_pipes s) eqn:E0; [destruct (hc_pc s); discriminate|]. assert (Some (hc_wakes (hc_conn_w s) (hc_counts (hc_pipes s) (hc_streams s - 1) s)) = Some s') as H' by (destruct (hc_pc s); exact H). injection H' as <-.
    constructor; cbn; auto; [lia|]. intros X. destruct (W X) as [-> | ->]; auto.
  - destruct (hc_cl s) eqn:Ec; [|destruct (hc_pc s); discriminate|destruct (hc_pc s); discriminate]. assert (Some (hc_ref_dropped (hc_client ClDropping s)) = Some s') as H' by (destruct (hc_pc s); exact H). injection H' as <-.
    constructor; cbn; auto; [intros X; destruct (C X); split; [assumption|discriminate]|]. intros X. destruct (W X) as [-> | ->]; auto.
  - destruct (hc_cl s) eqn:Ec; [destruct (hc_pc s); discriminate| |destruct (hc_pc s); discriminate]. assert (Some (hc_wakes (told && hc_conn_w s) (hc_client ClGone s)) = Some s') as H' by (destruct (hc_pc s); exact H). injection H' as <-.
    constructor; cbn; auto; [intros X; destruct (C X); split; [assumption|discriminate]|]. intros X. destruct (W X) as [-> | ->]; auto.
  - destruct (hc_cl s) eqn:Ec; [|destruct (hc_pc s); discriminate|destruct (hc_pc s); discriminate]. destruct (hc_tx s) eqn:Et.
    + assert (Some (mkHc (hc_pc s) (hc_wake s) (hc_conn_w s) (hc_drop_w s) (hc_rx_term s) true ClThere (hc_pipes s) (hc_streams s) true false (hc_log s)) = Some s') as H' by (destruct (hc_pc s); exact H). injection H' as <-.
      constructor; cbn; auto; congruence.
    + assert (Some (hc_logs [HcEof] s) = Some s') as H' by (destruct (hc_pc s); exact H). injection H' as <-. assert (hc_pc s = TEnd) as Ep.
      { destruct (A eq_refl) as [X|X]; [exact X|]. destruct (C X) as (_ & Y). congruence. }
      constructor; cbn; rewrite ?Et; auto.
      * intros _. apply in_or_app. left. auto.
      * rewrite Ec. intros X. destruct (C X). congruence.
      * rewrite in_app_iff. cbn. intuition discriminate.
      * intros l1 l2 X. destruct (destruct_last l2) as [-> | (l3 & y & ->)].
        -- apply app_inj_tail in X as [<- _]. auto.
        -- rewrite app_comm_cons, app_assoc in X. apply app_inj_tail in X as [X _]. eapply G. exact X.
Qed.
Lemma hinv_new : hinv hc_new.
Proof. constructor; cbn; auto; try discriminate; try lia. intros [|? ?] ? X; discriminate X. Qed.
Lemma hinv_run told l : forall s s', hinv s -> hc_run told l s = Some s' -> hinv s'.
Proof.
  induction l as [|m l IH]; intros s s' I H; cbn [hc_run] in H; [injection H as <-; exact I|]. destruct (hc_step told m s) as [s1|] eqn:E; [|discriminate]. eapply IH; [|exact H]. eapply hinv_step; eassumption.
Qed.

(* The client task learns of the end of the connection only after it, and no expect panics *)
Theorem C77_eof_after_end : forall told l s, hc_run told l hc_new = Some s ->
  ~ In HcPanic (hc_log s) /\ forall l1 l2, hc_log s = l1 ++ HcEof :: l2 -> In HcEnd l1.
Proof. intros told l s H. destruct (hinv_run _ _ _ _ hinv_new H) as [A B C D E F G K W]. split; assumption. Qed.
(* The end is never missed: once the task has ended, a client task that waits for
   conn_eof has been woken since it polled, and its next poll learns it *)
Theorem C77_eof_heard : forall told l s, hc_run told l hc_new = Some s -> hc_pc s = TEnd -> hc_cl s = ClThere ->
  (hc_eof_w s = true -> hc_cl_wake s = true) /\ exists s', hc_step told HEof s = Some s' /\ hc_log s' = hc_log s ++ [HcEof].
Proof.
  intros told l s H He Hc. destruct (hinv_run _ _ _ _ hinv_new H) as [A B C D E F G K W].
  assert (hc_tx s = false) as Ht.
  { clear - H He. assert (hc_pc hc_new = TEnd -> hc_tx hc_new = false) as H0 by discriminate. revert H H0. generalize hc_new as s0. induction l as [|m l IH]; intros s0 H H0; cbn [hc_run] in H; [injection H as <-; auto|].
    destruct (hc_step told m s0) as [s1|] eqn:E; [|discriminate]. eapply IH; [exact H|]. clear - E H0. unfold hc_step in E. destruct m as [p ready| | | |pipe| | | | |].
    - destruct (hc_pc s0); try discriminate. destruct (hc_wake s0); [|discriminate]. injection E as <-. destruct (poll_conn_cases p ready s0) as (_ & _ & _ & _ & _ & _ & _ & _ & Q). destruct (ends p ready); [tauto|]. destruct Q as (-> & _). discriminate.
    - destruct (hc_pc s0) eqn:Ep; try discriminate. injection E as <-. unfold hc_poll_drop. cbn [hc_to hc_rx_term hc_tx]. destruct (hc_rx_term s0); [discriminate|]. destruct (_ =? 0); [|discriminate]. destruct (hc_tx s0); discriminate.
    - step_cases E; exact H0.
    - step_cases E; reflexivity.
    - step_cases E; rewrite <- ?Heqt; cbn; rewrite ?Heqt; auto; try discriminate.
    - step_cases E; cbn; rewrite ?Heqt; auto; discriminate.
    - step_cases E; cbn; rewrite ?Heqt; auto; discriminate.
    - step_cases E; cbn; rewrite ?Heqt; auto; discriminate.
    - step_cases E; cbn; rewrite ?Heqt; auto; discriminate.
    - step_cases E; cbn; rewrite ?Heqt; auto; try discriminate; intros X; specialize (H0 X); congruence. }
  split; [apply E; exact Ht|]. exists (hc_logs [HcEof] s). split; [|reflexivity]. unfold hc_step. rewrite He, Hc, Ht. reflexivity.
Qed.
(* When nothing refers to the connection any more, it has been polled since, or its
   task is scheduled to: for every interleaving if h2 tells of the last SendRequest, *)
Definition polled_or_scheduled (s : hc) : Prop := hc_pc s = TEnd \/ hc_referenced s = true \/ hc_wake s = true \/ In (HcPolled false) (hc_log s).
Theorem C77_last_reference : forall l s, hc_run true l hc_new = Some s -> polled_or_scheduled s.
Proof.
  intros l s H. assert (hinv hc_new /\ polled_or_scheduled hc_new) as H0 by (split; [exact hinv_new|right; now left]). revert H H0. generalize hc_new as s0. induction l as [|m l IH]; intros s0 H [I P]; cbn [hc_run] in H; [injection H as <-; exact P|].
  destruct (hc_step true m s0) as [s1|] eqn:E; [|discriminate]. eapply IH; [exact H|]. split; [eapply hinv_step; eassumption|]. clear IH H. destruct I as [_ _ _ _ _ _ _ _ W]. unfold polled_or_scheduled in *. unfold hc_step in E. destruct m as [p ready| | | |pipe| | | | |].
  - destruct (hc_pc s0); try discriminate. destruct (hc_wake s0); [|discriminate]. injection E as <-. destruct (poll_conn_cases p ready s0) as (_ & Q1 & _ & Q2 & _ & _ & _ & (l' & -> & _ & _ & _ & X) & Q). destruct (ends p ready); [tauto|]. specialize (X eq_refl).
    assert (hc_referenced (hc_poll_conn p ready s0) = hc_referenced s0) as -> by (unfold hc_referenced; now rewrite Q1, Q2). rewrite in_app_iff. destruct (hc_referenced s0); auto.
  - destruct (hc_pc s0) eqn:Ep; try discriminate. injection E as <-. unfold hc_poll_drop. cbn [hc_to hc_rx_term hc_tx]. destruct (hc_rx_term s0); [cbn; destruct P as [P|P]; [congruence|auto]|]. destruct (_ =? 0); [destruct (hc_tx s0)|]; cbn; rewrite ?in_app_iff; destruct P as [P|P]; try congruence; unfold hc_referenced in *; cbn; tauto.
  - step_cases E; cbn; rewrite orb_true_r; auto.
  - step_cases E. left. reflexivity.
  - step_cases E; right; left; unfold hc_referenced; cbn; now rewrite Heqc.
  - step_cases E; unfold hc_referenced in *; cbn; rewrite ?Heqt; destruct P as [P|[P|[P|P]]]; auto; rewrite P; auto.
  - assert (hc_pc s0 = TEnd \/ hc_wake s0 || hc_conn_w s0 = true) as W' by (destruct (hc_pc s0); [right|right|now left]; destruct W as [-> | ->]; try discriminate; auto using orb_true_r).
    step_cases E; cbn; rewrite ?Heqt; destruct W' as [W'|W']; auto; congruence.
  - step_cases E; right; left; reflexivity.
  - assert (hc_pc s0 = TEnd \/ hc_wake s0 || hc_conn_w s0 = true) as W' by (destruct (hc_pc s0); [right|right|now left]; destruct W as [-> | ->]; try discriminate; auto using orb_true_r).
    step_cases E; cbn; rewrite ?Heqt; destruct W' as [W'|W']; auto; congruence.
  - step_cases E; right; left; unfold hc_referenced; cbn; now rewrite ?Heqc.
Qed.

(* ... and if it does not, when all tasks run on one thread: the client task is then
   dropped in one go, and not during a poll of the connection's task. *)
Fixpoint one_thread (l : list hcmove) : bool :=
  match l with
  | [] => true
  | HDrop1 :: r => match r with HDrop2 :: r' => one_thread r' | _ => false end
  | HPoll p ready :: r => if ends p ready then one_thread r else match r with HRx :: r' => one_thread r' | _ => false end
  | HRx :: _ => false
  | HDrop2 :: _ => false
  | _ :: r => one_thread r
  end.
Definition between (s : hc) : Prop := hc_pc s <> TMid /\ hc_cl s <> ClDropping /\ (hc_pc s = TIdle -> hc_wake s = true \/ hc_drop_w s = true \/ hc_rx_term s = true).
Lemma poll_between s s1 s2 p ready : hinv s -> between s -> hc_step false (HPoll p ready) s = Some s1 -> ends p ready = false -> hc_step false HRx s1 = Some s2 -> between s2 /\ polled_or_scheduled s2.
Proof.
  intros I (B1 & B2 & B3) E Ee E2. unfold hc_step in E. destruct (hc_pc s) eqn:Ep; try discriminate. destruct (hc_wake s) eqn:Ew; [|discriminate]. injection E as Es.
  destruct (poll_conn_cases p ready s) as (Q1 & Q2 & Q3 & Q4 & Q5 & Q6 & Q7 & (l' & Ql & _ & _ & _ & X) & Q). rewrite Ee in Q. rewrite Es in *. clear Es. destruct Q as (Q8 & Q9 & Q10 & Q11). unfold hc_step in E2. rewrite Q8 in E2. injection E2 as <-.
  assert (hc_referenced s1 = true \/ In (HcPolled false) (hc_log s1)) as R.
  { replace (hc_referenced s1) with (hc_referenced s) by (unfold hc_referenced; now rewrite Q2, Q4). rewrite Ql, in_app_iff. specialize (X Ee). destruct (hc_referenced s); auto. }
  unfold hc_poll_drop, between, polled_or_scheduled. cbn [hc_to hc_rx_term hc_tx]. destruct (hc_rx_term s1) eqn:Er.
  - cbn. rewrite Er, Q2. split; [split; [discriminate|auto]|]. unfold hc_referenced in *. cbn. tauto.
  - destruct (_ =? 0); [destruct (hc_tx s1)|]; cbn; rewrite Q2; (split; [split; [discriminate|auto]|]); unfold hc_referenced in *; cbn; rewrite ?in_app_iff, <- ?Q2; tauto.
Qed.
Lemma drop_between s s1 s2 : hinv s -> between s -> hc_step false HDrop1 s = Some s1 -> hc_step false HDrop2 s1 = Some s2 -> between s2 /\ polled_or_scheduled s2.
Proof.
  intros [_ _ C _ _ _ _ K _] (B1 & B2 & B3) E E2. unfold hc_step in E. destruct (hc_cl s) eqn:Ec; [|destruct (hc_pc s); discriminate|destruct (hc_pc s); discriminate].
  assert (s1 = hc_ref_dropped (hc_client ClDropping s)) as -> by (destruct (hc_pc s); now injection E as <-). clear E.
  assert (s2 = hc_wakes false (hc_client ClGone (hc_ref_dropped (hc_client ClDropping s)))) as -> by (cbn in E2; destruct (hc_pc s); now injection E2 as <-). clear E2.
  assert (hc_rx_term s = false) as Er by (destruct (hc_rx_term s); [destruct (C eq_refl); congruence|reflexivity]). rewrite Er in B3.
  split.
  - split; [exact B1|]. split; [discriminate|]. cbn. intros X. destruct (B3 X) as [-> |[-> | Y]]; [auto|auto|discriminate Y].
  - unfold polled_or_scheduled. destruct (hc_pc s) eqn:Ep; [|congruence|now left]. cbn. unfold hc_referenced, hc_refs. cbn. destruct (hc_streams s =? 0) eqn:Es; [|auto]. assert (hc_pipes s = 0) as -> by lia. cbn. destruct (B3 eq_refl) as [-> |[-> | Y]]; [auto|rewrite orb_true_r; auto|discriminate Y].
Qed.
Lemma other_between m s s1 : match m with HPoll p ready => ends p ready | HRx | HDrop1 | HDrop2 => false | _ => true end = true -> hinv s -> between s -> polled_or_scheduled s -> hc_step false m s = Some s1 -> between s1 /\ polled_or_scheduled s1.
Proof.
  intros Hm [_ _ C _ _ _ _ K W] (B1 & B2 & B3) P E. unfold hc_step in E. unfold between, polled_or_scheduled in *. destruct m as [p ready| | | |pipe| | | | |]; try discriminate Hm.
  - destruct (hc_pc s) eqn:Ep; try discriminate. destruct (hc_wake s) eqn:Ew; [|discriminate]. injection E as Es.
    destruct (poll_conn_cases p ready s) as (_ & Q2 & _ & _ & _ & _ & _ & _ & Q). rewrite Hm in Q. rewrite Es in *. clear Es. destruct Q as (-> & _). rewrite Q2. split; [split; [discriminate|split; [exact B2|discriminate]]|now left].
  - assert (s1 = hc_wakes true s) as -> by (destruct (hc_pc s); now injection E as <-). cbn. rewrite orb_true_r. auto 6.
  - destruct (hc_pc s) eqn:Ep; try discriminate. injection E as <-. cbn. split; [split; [discriminate|split; [exact B2|discriminate]]|now left].
  - destruct (hc_cl s) eqn:Ec; try (destruct (hc_pc s); discriminate). assert (s1 = hc_counts (hc_pipes s + (if pipe then 1 else 0)) (hc_streams s + 1) s) as -> by (destruct (hc_pc s); now injection E as <-). unfold hc_referenced. cbn. rewrite Ec. auto 6.
  - destruct (hc_pipes s =? 0) eqn:E0; [destruct (hc_pc s); discriminate|]. assert (s1 = hc_ref_dropped (hc_counts (hc_pipes s - 1) (hc_streams s) s)) as -> by (destruct (hc_pc s); now injection E as <-). unfold hc_referenced in *. cbn. split; [split; [exact B1|split; [exact B2|]]|].
    + intros X. destruct (B3 X) as [-> |[-> | ->]]; auto.
    + destruct P as [P|[P|[-> | P]]]; auto.
  - destruct (hc_streams s <=? hc_pipes s) eqn:E0; [destruct (hc_pc s); discriminate|]. assert (s1 = hc_wakes (hc_conn_w s) (hc_counts (hc_pipes s) (hc_streams s - 1) s)) as -> by (destruct (hc_pc s); now injection E as <-). cbn. split; [split; [exact B1|split; [exact B2|]]|].
    + intros X. destruct (B3 X) as [-> |[-> | ->]]; auto.
    + destruct (hc_pc s) eqn:Ep; [|congruence|now left]. destruct W as [-> | ->]; [discriminate|auto|rewrite orb_true_r; auto].
  - destruct (hc_cl s) eqn:Ec; try (destruct (hc_pc s); discriminate). destruct (hc_tx s) eqn:Et.
    + assert (s1 = mkHc (hc_pc s) (hc_wake s) (hc_conn_w s) (hc_drop_w s) (hc_rx_term s) true ClThere (hc_pipes s) (hc_streams s) true false (hc_log s)) as -> by (destruct (hc_pc s); now injection E as <-). cbn. auto 6.
    + assert (s1 = hc_logs [HcEof] s) as -> by (destruct (hc_pc s); now injection E as <-). unfold hc_referenced in *. cbn. rewrite Ec, in_app_iff in *. auto 6.
Qed.
Lemma one_thread_run n : forall l s s', (length l <= n)%nat -> one_thread l = true -> hinv s -> between s -> polled_or_scheduled s -> hc_run false l s = Some s' -> polled_or_scheduled s'.
Proof.
  induction n as [|n IH]; intros l s s' Hn Ho I Hb P H; (destruct l as [|m l]; [injection H as <-; exact P|]); [cbn in Hn; lia|]. cbn [length] in Hn. cbn [hc_run] in H. destruct (hc_step false m s) as [s1|] eqn:E; [|discriminate]. pose proof (hinv_step _ _ _ _ I E) as I1.
  destruct (match m with HPoll p ready => ends p ready | HRx | HDrop1 | HDrop2 => false | _ => true end) eqn:Em.
  - destruct (other_between m s s1 Em I Hb P E) as (Hb1 & P1). apply (IH l s1 s'); auto; [lia|]. destruct m as [p ready| | | |pipe| | | | |]; cbn [one_thread] in Ho; try discriminate Ho; try exact Ho; [|discriminate Em]. rewrite Em in Ho. exact Ho.
  - destruct m as [p ready| | | |pipe| | | | |]; try discriminate Em; cbn [one_thread] in Ho; try discriminate Ho.
    + rewrite Em in Ho. destruct l as [|m2 l]; [discriminate|]. destruct m2; try discriminate Ho. cbn [hc_run] in H. destruct (hc_step false HRx s1) as [s2|] eqn:E2; [|discriminate].
      destruct (poll_between s s1 s2 p ready I Hb E Em E2) as (Hb2 & P2). cbn [length] in Hn. apply (IH l s2 s'); auto; [lia|]. exact (hinv_step _ _ _ _ I1 E2).
    + destruct l as [|m2 l]; [discriminate|]. destruct m2; try discriminate Ho. cbn [hc_run] in H. destruct (hc_step false HDrop2 s1) as [s2|] eqn:E2; [|discriminate].
      destruct (drop_between s s1 s2 I Hb E E2) as (Hb2 & P2). cbn [length] in Hn. apply (IH l s2 s'); auto; [lia|]. exact (hinv_step _ _ _ _ I1 E2).
Qed.
Theorem C77_last_reference_one_thread : forall l s, one_thread l = true -> hc_run false l hc_new = Some s -> polled_or_scheduled s.
Proof. intros l s Ho H. refine (one_thread_run (length l) l hc_new s (le_n _) Ho hinv_new _ _ H); [split; [discriminate|split; [discriminate|auto]]|right; now left]. Qed.
(* But with more threads the workaround at client.rs 167-171 is not enough, should h2
   not tell: the task may run between the drops of conn_drop_ref and of h2_tx, which
   is declared after it; and the client task may go away between the two halves of a poll. *)
Theorem C77_last_reference_refuted :
  (exists s, hc_run false [HPoll CpNone false; HRx; HDrop1; HPoll CpNone false; HRx; HDrop2] hc_new = Some s /\ ~ polled_or_scheduled s) /\
  (exists s, hc_run false [HPoll CpNone false; HDrop1; HDrop2; HRx] hc_new = Some s /\ ~ polled_or_scheduled s).
Proof. split; (eexists; split; [vm_compute; reflexivity|]); unfold polled_or_scheduled; cbn; intuition discriminate. Qed.

(* Nothing else ends the connection: not that the client task is gone, nor that all
   bodies have been sent, so the responses still in flight are not cut off *)
Theorem C77_not_cut : forall told l s, hc_run told l hc_new = Some s ->
  (forall m, In m l -> match m with HKill => False | HPoll p ready => ends p ready = false | _ => True end) ->
  hc_pc s <> TEnd /\ ~ In HcEnd (hc_log s).
Proof.
  intros told l s H Hl. assert (hc_pc hc_new <> TEnd /\ ~ In HcEnd (hc_log hc_new)) as H0 by (split; [discriminate|intros []]). revert H H0. generalize hc_new as s0. induction l as [|m l IH]; intros s0 H (A & B); cbn [hc_run] in H; [injection H as <-; auto|].
  destruct (hc_step told m s0) as [s1|] eqn:E; [|discriminate]. apply (IH (fun x Hx => Hl x (or_intror Hx)) s1 H). specialize (Hl m (or_introl eq_refl)). clear IH H. unfold hc_step in E. destruct m as [p ready| | | |pipe| | | | |].
  - destruct (hc_pc s0); try discriminate. destruct (hc_wake s0); [|discriminate]. injection E as <-. destruct (poll_conn_cases p ready s0) as (_ & _ & _ & _ & _ & _ & _ & (l' & -> & _ & _ & X & _) & Q). rewrite Hl in *. destruct Q as (-> & _). split; [discriminate|]. rewrite in_app_iff. intuition discriminate.
  - destruct (hc_pc s0); try discriminate. injection E as <-. unfold hc_poll_drop. cbn [hc_to hc_rx_term hc_tx]. destruct (hc_rx_term s0); [split; [discriminate|exact B]|]. destruct (_ =? 0); [destruct (hc_tx s0)|]; cbn; rewrite ?in_app_iff; (split; [discriminate|]); cbn; intuition discriminate.
  - assert (s1 = hc_wakes true s0) as -> by (destruct (hc_pc s0); now injection E as <-). auto.
  - destruct Hl.
  - destruct (hc_cl s0); try (destruct (hc_pc s0); discriminate). assert (s1 = hc_counts (hc_pipes s0 + (if pipe then 1 else 0)) (hc_streams s0 + 1) s0) as -> by (destruct (hc_pc s0); now injection E as <-). auto.
  - destruct (hc_pipes s0 =? 0); [destruct (hc_pc s0); discriminate|]. assert (s1 = hc_ref_dropped (hc_counts (hc_pipes s0 - 1) (hc_streams s0) s0)) as -> by (destruct (hc_pc s0); now injection E as <-). auto.
  - destruct (hc_streams s0 <=? hc_pipes s0); [destruct (hc_pc s0); discriminate|]. assert (s1 = hc_wakes (hc_conn_w s0) (hc_counts (hc_pipes s0) (hc_streams s0 - 1) s0)) as -> by (destruct (hc_pc s0); now injection E as <-). auto.
  - destruct (hc_cl s0); try (destruct (hc_pc s0); discriminate). assert (s1 = hc_ref_dropped (hc_client ClDropping s0)) as -> by (destruct (hc_pc s0); now injection E as <-). auto.
  - destruct (hc_cl s0); try (destruct (hc_pc s0); discriminate). assert (s1 = hc_wakes (told && hc_conn_w s0) (hc_client ClGone s0)) as -> by (destruct (hc_pc s0); now injection E as <-). auto.
  - destruct (hc_cl s0); try (destruct (hc_pc s0); discriminate). destruct (hc_tx s0).
    + assert (s1 = mkHc (hc_pc s0) (hc_wake s0) (hc_conn_w s0) (hc_drop_w s0) (hc_rx_term s0) true ClThere (hc_pipes s0) (hc_streams s0) true false (hc_log s0)) as -> by (destruct (hc_pc s0); now injection E as <-). auto.
    + assert (s1 = hc_logs [HcEof] s0) as -> by (destruct (hc_pc s0); now injection E as <-). cbn. rewrite in_app_iff. cbn. intuition discriminate.
Qed.
(* A peer that keep-alive gives up, a finished connection and a refused window end
   the task within that poll; a new window is passed on first *)
Theorem C77_ends : forall told p ready s s', hc_step told (HPoll p ready) s = Some s' ->
  (ends p ready = true -> hc_pc s' = TEnd /\ exists l, hc_log s' = l ++ [HcEnd]) /\
  (forall w ok, p = CpWindow w ok -> exists l, hc_log s' = hc_log s ++ HcWindow w :: l).
Proof.
  intros told p ready s s' E. unfold hc_step in E. destruct (hc_pc s); try discriminate. destruct (hc_wake s); [|discriminate]. injection E as <-. split.
  - intros Hp. destruct p as [|w [|]|], ready; try discriminate Hp; (split; [reflexivity|eexists; reflexivity]).
  - intros w ok ->. destruct ok, ready; cbn; rewrite <- ?app_assoc; eexists; reflexivity.
Qed.

(* ---- Examples ---- *)
(* a request with a body; the client task goes away, then the body is sent, then the
   response is read; the connection is polled once nothing refers to it and ends *)
Definition hc_ex := [HPoll CpNone false; HRx; HOpen true; HEof; HDrop1; HDrop2; HPipeRef; HPoll (CpWindow 100 true) false; HRx; HStreamDrop; HPoll CpNone true].
Example C77_ex : one_thread hc_ex = true /\ exists s, hc_run false hc_ex hc_new = Some s /\ hc_log s = [HcPolled true; HcWindow 100; HcPolled true; HcPolled false; HcEnd].
Proof. split; [reflexivity|]. eexists. split; vm_compute; reflexivity. Qed.
Example C77_eof_ex : exists s, hc_run true [HPoll CpNone false; HRx; HEof; HWoken; HPoll CpTimedOut false] hc_new = Some s /\ hc_pc s = TEnd /\ hc_cl s = ClThere /\ hc_eof_w s = true /\ hc_cl_wake s = true.
Proof. eexists. split; [vm_compute; reflexivity|]. repeat split. Qed.
Example C77_not_cut_ex : exists s, hc_run true [HPoll CpNone false; HRx; HOpen false; HDrop1; HDrop2; HPoll CpNone false; HRx] hc_new = Some s /\ hc_rx_term s = true /\ hc_pc s = TIdle.
Proof. eexists. split; [vm_compute; reflexivity|]. repeat split. Qed.
Print Assumptions C77_eof_after_end.
Print Assumptions C77_eof_heard.
Print Assumptions C77_last_reference.
Print Assumptions C77_last_reference_one_thread.
Print Assumptions C77_last_reference_refuted.
Print Assumptions C77_not_cut.
Print Assumptions C77_ends.
