(* C43: between the answer to a ping and the next probe lies the delay. *)
From Verif Require Import Base M_Ping P_Ping.

Definition last_pong (l : list pev) : option N := fold_left (fun b e => match e with PPong t => Some t | _ => b end) l None.
Lemma last_pong_snoc l e : last_pong (l ++ [e]) = match e with PPong t => Some t | _ => last_pong l end.
Proof. unfold last_pong. rewrite fold_left_app. now destruct e. Qed.
Lemma last_pong_split l0 t l1 : no_pong l1 -> last_pong (l0 ++ PPong t :: l1) = Some t.
Proof.
  intros H. unfold last_pong. rewrite fold_left_app. cbn [fold_left]. generalize (Some t). revert H. induction l1 as [|e r IH]; intros H o; [reflexivity|]. cbn [fold_left].
  assert (no_pong r) as Hr by (intros x Hx; apply (H x); now right). destruct e; try (apply IH; exact Hr). exfalso. apply (H t0). now left.
Qed.

(* A step that leaves the estimate, the pause and the last answer alone *)
Definition kept (p p' : pinger) : Prop := p_bdp p' = p_bdp p /\ p_next_bdp p' = p_next_bdp p /\ last_pong (p_log p') = last_pong (p_log p).
Lemma kept_refl p : kept p p. Proof. repeat split. Qed.
Lemma kept_trans p q r : kept p q -> kept q r -> kept p r.
Proof. intros (A & Bq & C) (D & E & F). repeat split; congruence. Qed.
Lemma kept_logs e p : (forall t, e <> PPong t) -> kept p (p_logs e p).
Proof. intros H. split; [reflexivity|]. split; [reflexivity|]. unfold p_logs. cbn [p_log]. rewrite last_pong_snoc. destruct e; try reflexivity. now destruct (H t). Qed.
Lemma kept_send t ok p : kept p (send_ping t ok p).
Proof. unfold send_ping. destruct ok; [eapply kept_trans; [|apply kept_logs; discriminate]; repeat split|apply kept_logs; discriminate]. Qed.
Lemma kept_schedule idle p p' : ka_maybe_schedule idle p = Some p' -> kept p p'.
Proof.
  unfold ka_maybe_schedule, ka_schedule. destruct (p_ka p) as [k|]; [|intros E; inversion E; apply kept_refl].
  destruct (ka_st k); [destruct (_ && _)| |destruct (p_sent_at p)]; try (intros E; inversion E; apply kept_refl);
  (destruct (p_last_read p); [|discriminate]; intros E; inversion E; repeat split).
Qed.
Lemma kept_ping now idle f ok p p' : ka_maybe_ping now idle f ok p = Some p' -> kept p p'.
Proof.
  unfold ka_maybe_ping. destruct (p_ka p) as [k|]; [|intros E; inversion E; apply kept_refl].
  destruct (ka_st k) as [|a|]; try (intros E; inversion E; apply kept_refl).
  destruct (negb (sleep_ready now f k)); [intros E; inversion E; apply kept_refl|]. destruct (p_last_read p) as [t|]; [|discriminate].
  destruct (a <? _); [intros E; inversion E; repeat split|]. destruct (_ && _); intros E; inversion E; [subst; apply kept_refl|].
  eapply kept_trans; [|repeat split]. eapply kept_trans; [apply kept_logs|apply kept_send]. discriminate.
Qed.
Lemma kept_bytes now len ok p : kept p (record_bytes now len ok p).
Proof. unfold record_bytes. destruct (p_bytes p); [|apply kept_refl]. cbn [p_sent_at]. destruct (p_sent_at p); [repeat split|]. eapply kept_trans; [|apply kept_send]. repeat split. Qed.
Lemma kept_frame now p : kept p (p_logs (PFrame now) (set_last_read now p)).
Proof. eapply kept_trans; [|apply kept_logs; discriminate]. repeat split. Qed.

(* At time [now]: the pause since the last answer is noted, or it is over *)
Definition paused (now : N) (p : pinger) : Prop :=
  forall b t, p_bdp p = Some b -> last_pong (p_log p) = Some t -> p_next_bdp p = Some (t + bdp_delay b) \/ (p_next_bdp p = None /\ t + bdp_delay b <= now).
Lemma paused_kept now now' p p' : now <= now' -> kept p p' -> paused now p -> paused now' p'.
Proof. intros L (A & Bq & C) H b t Hb Ht. rewrite A in Hb. rewrite C in Ht. rewrite Bq. destruct (H b t Hb Ht) as [X|(X & Y)]; [auto|right; split; [exact X|lia]]. Qed.
Lemma paused_data now len ok p t0 : t0 <= now -> paused t0 p -> paused now (record_data now len ok p).
Proof.
  intros L H. unfold record_data. set (p1 := p_logs (PFrame now) (set_last_read now p)). assert (paused now p1) as H1 by (eapply paused_kept; [exact L|apply kept_frame|exact H]). clearbody p1.
  destruct (p_next_bdp p1) as [x|] eqn:En; [|eapply paused_kept; [apply N.le_refl|apply kept_bytes|exact H1]].
  destruct (N.ltb_spec now x) as [X|X]; [exact H1|]. eapply paused_kept; [apply N.le_refl|apply kept_bytes|]. intros b t Hb Ht. right. cbn [clear_next_bdp p_next_bdp]. split; [reflexivity|].
  destruct (H1 b t Hb Ht) as [Y|(Y & _)]; rewrite En in Y; [injection Y as ->; exact X|discriminate].
Qed.
Lemma paused_poll i p p' r t0 : t0 <= pi_now i -> paused t0 p -> p_poll i p = Some (p', r) -> paused (pi_now i) p'.
Proof.
  intros L H Ep. unfold p_poll in Ep.
  destruct (ka_maybe_schedule (pi_idle i) p) as [p1|] eqn:E1; [|discriminate]. apply kept_schedule in E1.
  destruct (ka_maybe_ping _ _ _ _ p1) as [p2|] eqn:E2; [|discriminate]. apply kept_ping in E2.
  pose proof (paused_kept _ _ _ _ L (kept_trans _ _ _ E1 E2) H) as H2. clear E1 E2 p1 H.
  destruct (p_sent_at p2) as [st|]; [|inversion Ep; subst; exact H2]. destruct (pi_pong i).
  - set (p3 := p_logs (PPong (pi_now i)) (set_sent None p2)) in Ep. assert (last_pong (p_log p3) = Some (pi_now i)) as P3 by (subst p3; unfold p_logs; cbn [p_log]; now rewrite last_pong_snoc). clearbody p3. clear H2.
    assert (forall p4, match p_ka p3 with None => Some p3 | Some _ => match ka_maybe_schedule (pi_idle i) (set_last_read (pi_now i) p3) with Some q => ka_maybe_ping (pi_now i) (pi_idle i) (pi_f2 i) (pi_ok2 i) q | None => None end end = Some p4 -> kept p3 p4) as H4.
    { intros p4 E. destruct (p_ka p3); [|inversion E; subst; apply kept_refl]. destruct (ka_maybe_schedule _ _) as [q|] eqn:Eq; [|discriminate]. apply kept_schedule in Eq. apply kept_ping in E.
      eapply kept_trans; [|exact E]. eapply kept_trans; [|exact Eq]. repeat split. }
    destruct (match p_ka p3 with None => Some p3 | Some _ => _ end) as [p4|]; [|discriminate]. destruct (H4 p4 eq_refl) as (_ & _ & P4). rewrite P3 in P4. clear H4 P3.
    destruct (p_bdp p4) as [b|] eqn:Eb; [|inversion Ep; subst; intros b t Hb; congruence]. destruct (p_bytes p4) as [n|]; [|discriminate].
    destruct (bdp_calculate n (pi_slower i) b) as [b' u].
    destruct u as [w|]; inversion Ep; subst; intros b1 t Hb Ht; unfold p_logs in *; cbn [p_bdp p_log p_next_bdp] in *; rewrite ?last_pong_snoc in Ht; left; congruence.
  - inversion Ep; subst; exact H2.
  - destruct (p_ka p2) as [k|]; [|inversion Ep; subst; exact H2].
    destruct (ka_st k); try (inversion Ep; subst; exact H2). destruct (sleep_ready _ _ _); inversion Ep; subst; [|exact H2].
    eapply paused_kept; [apply N.le_refl| |exact H2]. eapply kept_trans; [|apply kept_logs; discriminate]. repeat split.
Qed.
Fixpoint end_time (t0 : N) (l : list pact) : N := match l with [] => t0 | a :: r => end_time (act_time a) r end.
Lemma paused_run l : forall now p p', paused now p -> timeline now l -> p_run p l = Some p' -> paused (end_time now l) p'.
Proof.
  induction l as [|a l IH]; intros now p p' H Ht E; [inversion E; subst; exact H|]. cbn [p_run] in E. destruct Ht as (Ht & Ht2). destruct (p_act p a) as [p1|] eqn:Ea; [|discriminate].
  cbn [end_time]. refine (IH (act_time a) p1 p' _ Ht2 E). destruct a as [t len ok|t|i]; cbn [p_act act_time] in *.
  - inversion Ea; subst. now apply (paused_data t len ok p now).
  - inversion Ea; subst. eapply paused_kept; [exact Ht|apply kept_frame|exact H].
  - destruct (p_poll i p) as [[q o]|] eqn:Ep; [|discriminate]. inversion Ea; subst. eapply paused_poll; eassumption.
Qed.
Lemma end_snoc l a : forall t0, timeline t0 (l ++ [a]) -> timeline t0 l /\ end_time t0 l <= act_time a.
Proof. induction l as [|x l IH]; intros t0; cbn [app timeline end_time]; [intros (A & _); auto|]. intros (A & Bq). destruct (IH _ Bq) as (C & D). auto. Qed.

(* Data that arrives makes hyper probe only after the delay of the estimate has
   passed since the last answer to a ping *)
Theorem C43_spaced : forall c start l p t len ok b l0 t0 l1, timeline start (l ++ [PData t len ok]) -> p_run (p_channel c start) l = Some p ->
  p_bdp p = Some b -> p_log p = l0 ++ PPong t0 :: l1 -> no_pong l1 ->
  p_log (record_data t len ok p) = p_log p ++ [PFrame t] \/ t0 + bdp_delay b <= t.
Proof.
  intros c start l p t len ok b l0 t0 l1 Ht Hr Hb Hl Hn. destruct (end_snoc _ _ _ Ht) as (T1 & T2). cbn [act_time] in T2.
  assert (paused start (p_channel c start)) as P0 by (intros ? ? ? F; discriminate F).
  pose proof (paused_run l _ _ _ P0 T1 Hr b t0 Hb) as P. rewrite Hl in P at 1. specialize (P (last_pong_split l0 t0 l1 Hn)).
  destruct (N.le_gt_cases (t0 + bdp_delay b) t) as [G|G]; [now right|left]. destruct P as [P|(_ & P)]; [|lia].
  unfold record_data. cbn [p_logs set_last_read p_next_bdp]. rewrite P. apply N.ltb_lt in G. rewrite G. reflexivity.
Qed.
Print Assumptions C43_spaced.

(* A probe at 1, its answer at 2; the data at 3 comes too early for another, the
   data a second later does not *)
Example C43_spaced_ex : let c := mkPC (Some 65535) None 0 false in
  let pong := PPoll (mkPin 2 false true true PongReady true true true false) in
  exists p b l0, timeline 0 ([PData 1 10 true; pong] ++ [PData 3 10 true]) /\ p_run (p_channel c 0) [PData 1 10 true; pong] = Some p /\ p_bdp p = Some b /\
    p_log p = l0 ++ [PPong 2] /\ p_log (record_data 3 10 true p) = p_log p ++ [PFrame 3] /\
    p_log (record_data 1000000002 10 true p) = p_log p ++ [PFrame 1000000002; PSend 1000000002 true].
Proof. cbv zeta. eexists _, _, [PFrame 1; PSend 1 true]. split; [cbn; lia|]. split; [vm_compute; reflexivity|]. repeat split; vm_compute; reflexivity. Qed.
