(* Theorems about HTTP/2 pings: C43 (adaptive window), C44 (keep-alive). *)
From Verif Require Import Base M_Ping.

(* ---- C43 ---- *)
(* Through the builders an adaptive window always starts at the value of the
   HTTP/2 specification *)
Theorem C43_builder : forall c settings w, wc_adaptive c = false ->
  bdp_initial_window (fold_left wset_apply settings c) = Some w -> w = 65535.
Proof.
  intros c settings w H. assert (wc_adaptive c = true -> wc_stream c = 65535) as H0 by congruence. clear H. revert c H0.
  induction settings as [|s r IH]; intros c H0; cbn [fold_left].
  - unfold bdp_initial_window. destruct (wc_adaptive c); [|discriminate]. intros E. inversion E; subst. auto.
  - apply IH. destruct s as [n|n|[|]]; cbn; try discriminate. reflexivity.
Qed.

Definition windows (l : list pev) : list N := flat_map (fun e => match e with PWindow _ w => [w] | _ => [] end) l.
Lemma windows_app a b : windows (a ++ b) = windows a ++ windows b.
Proof. apply flat_map_app. Qed.
(* How one step can touch the estimate *)
Definition same_est (p p' : pinger) : Prop := p_bdp p' = p_bdp p /\ windows (p_log p') = windows (p_log p).
Lemma same_est_refl p : same_est p p.
Proof. split; reflexivity. Qed.
Lemma same_est_trans p q r : same_est p q -> same_est q r -> same_est p r.
Proof. intros (A & Bq) (C & D). split; congruence. Qed.
Lemma same_logs e p : (forall t w, e <> PWindow t w) -> same_est p (p_logs e p).
Proof. intros H. split; [reflexivity|]. cbn. rewrite windows_app. destruct e; cbn; try apply app_nil_r. now destruct (H t w). Qed.
Lemma same_send t ok p : same_est p (send_ping t ok p).
Proof. unfold send_ping. destruct ok; [eapply same_est_trans; [|apply same_logs; discriminate]; split; reflexivity|apply same_logs; discriminate]. Qed.
Lemma same_data now len ok p : same_est p (record_data now len ok p).
Proof.
  unfold record_data. set (p1 := p_logs (PFrame now) (set_last_read now p)). assert (same_est p p1) as H1.
  { subst p1. eapply same_est_trans; [|apply same_logs; discriminate]. split; reflexivity. }
  clearbody p1. eapply same_est_trans; [exact H1|].
  assert (forall q, same_est q (record_bytes now len ok q)) as G.
  { intros q. unfold record_bytes. destruct (p_bytes q); [|apply same_est_refl]. destruct (p_sent_at q); [split; reflexivity|]. eapply same_est_trans; [|apply same_send]. split; reflexivity. }
  destruct (p_next_bdp p1) as [t|]; [|apply G]. destruct (now <? t); [apply same_est_refl|]. refine (same_est_trans _ (clear_next_bdp p1) _ _ (G _)). split; reflexivity.
Qed.
Lemma same_schedule idle p p' : ka_maybe_schedule idle p = Some p' -> same_est p p'.
Proof.
  unfold ka_maybe_schedule, ka_schedule. destruct (p_ka p) as [k|]; [|intros E; inversion E; apply same_est_refl].
  destruct (ka_st k); [destruct (_ && _)| |destruct (p_sent_at p)]; try (intros E; inversion E; apply same_est_refl);
  (destruct (p_last_read p); [|discriminate]; intros E; inversion E; split; reflexivity).
Qed.
Lemma same_ping now idle f ok p p' : ka_maybe_ping now idle f ok p = Some p' -> same_est p p'.
Proof.
  unfold ka_maybe_ping. destruct (p_ka p) as [k|]; [|intros E; inversion E; apply same_est_refl].
  destruct (ka_st k) as [|a|]; try (intros E; inversion E; apply same_est_refl).
  destruct (negb (sleep_ready now f k)); [intros E; inversion E; apply same_est_refl|]. destruct (p_last_read p) as [t|]; [|discriminate].
  destruct (a <? _); [intros E; inversion E; split; reflexivity|]. destruct (_ && _); intros E; inversion E; [subst; apply same_est_refl|].
  eapply same_est_trans; [|split; reflexivity]. eapply same_est_trans; [apply same_logs|apply same_send]. discriminate.
Qed.
Lemma act_est p a p' : p_act p a = Some p' ->
  same_est p p' \/
  exists b n slower b' u, p_bdp p = Some b /\ bdp_calculate n slower b = (b', u) /\ p_bdp p' = Some b' /\
    windows (p_log p') = windows (p_log p) ++ match u with Some w => [w] | None => [] end.
Proof.
  destruct a as [now len ok|now|i]; cbn [p_act].
  - intros E. inversion E. left. apply same_data.
  - intros E. inversion E. left. unfold record_non_data. eapply same_est_trans; [|apply same_logs; discriminate]. split; reflexivity.
  - destruct (p_poll i p) as [[q r]|] eqn:Ep; [|discriminate]. intros E. inversion E; subst q. clear E. unfold p_poll in Ep.
    destruct (ka_maybe_schedule (pi_idle i) p) as [p1|] eqn:E1; [|discriminate]. apply same_schedule in E1.
    destruct (ka_maybe_ping _ _ _ _ p1) as [p2|] eqn:E2; [|discriminate]. apply same_ping in E2.
    pose proof (same_est_trans _ _ _ E1 E2) as H2. clear E1 E2 p1.
    destruct (p_sent_at p2) as [st|]; [|inversion Ep; subst; left; exact H2].
    destruct (pi_pong i).
    + set (p3 := p_logs (PPong (pi_now i)) (set_sent None p2)) in Ep.
      assert (same_est p p3) as H3.
      { eapply same_est_trans; [exact H2|]. subst p3. eapply same_est_trans; [|apply same_logs; discriminate]. split; reflexivity. }
      clearbody p3. clear H2.
      assert (forall p4, match p_ka p3 with None => Some p3 | Some _ => match ka_maybe_schedule (pi_idle i) (set_last_read (pi_now i) p3) with Some q => ka_maybe_ping (pi_now i) (pi_idle i) (pi_f2 i) (pi_ok2 i) q | None => None end end = Some p4 -> same_est p p4) as H4.
      { intros p4 E. destruct (p_ka p3); [|inversion E; subst; exact H3]. destruct (ka_maybe_schedule _ _) as [q|] eqn:Eq; [|discriminate]. apply same_schedule in Eq. apply same_ping in E.
        eapply same_est_trans; [exact H3|]. eapply same_est_trans; [|exact E]. eapply same_est_trans; [|exact Eq]. split; reflexivity. }
      destruct (match p_ka p3 with None => Some p3 | Some _ => _ end) as [p4|]; [|discriminate]. specialize (H4 p4 eq_refl). destruct H4 as (A & Bq).
      destruct (p_bdp p4) as [b|] eqn:Eb; [|inversion Ep; subst; left; split; congruence]. destruct (p_bytes p4) as [n|]; [|discriminate].
      destruct (bdp_calculate n (pi_slower i) b) as [b' u] eqn:Ec. right. exists b, n, (pi_slower i), b', u. split; [congruence|]. split; [exact Ec|].
      destruct u as [w|]; inversion Ep; subst; cbn [p_bdp p_log p_logs]; (split; [reflexivity|]).
      * rewrite windows_app, Bq. reflexivity.
      * rewrite Bq, app_nil_r. reflexivity.
    + inversion Ep; subst; left; exact H2.
    + destruct (p_ka p2) as [k|]; [|inversion Ep; subst; left; exact H2].
      destruct (ka_st k); try (inversion Ep; subst; left; exact H2). destruct (sleep_ready _ _ _); inversion Ep; subst; left; [|exact H2].
      eapply same_est_trans; [exact H2|]. eapply same_est_trans; [|apply same_logs; discriminate]. split; reflexivity.
Qed.

(* Non-decreasing sequences *)
Fixpoint increasing (from : N) (l : list N) : Prop := match l with [] => True | x :: r => from <= x /\ increasing x r end.
Definition est_inv (w0 : N) (p : pinger) : Prop :=
  exists b, p_bdp p = Some b /\ bdp_bdp b = last (windows (p_log p)) w0 /\ w0 <= bdp_bdp b /\ bdp_bdp b <= BDP_LIMIT /\
    increasing w0 (windows (p_log p)) /\ Forall (fun w => w0 <= w <= BDP_LIMIT) (windows (p_log p)) /\
    bdp_delay b <= 40000000000.
Lemma last_head (l : list N) : forall y d, last (y :: l) d = last l y.
Proof. induction l as [|z l IH]; intros y d; [reflexivity|]. change (last (y :: z :: l) d) with (last (z :: l) d). rewrite (IH z d). symmetry. apply IH. Qed.
Lemma increasing_app l : forall from x, increasing from l -> last l from <= x -> increasing from (l ++ [x]).
Proof.
  induction l as [|y l IH]; intros from x H L; [cbn in *; auto|]. destruct H as (H1 & H2). cbn [app increasing]. split; [exact H1|]. apply IH; [exact H2|].
  now rewrite last_head in L.
Qed.
Lemma last_snoc (l : list N) x d : last (l ++ [x]) d = x.
Proof. induction l as [|y l IH]; [reflexivity|]. cbn [app last]. destruct (l ++ [x]) eqn:E; [destruct l; discriminate E|exact IH]. Qed.
Lemma calc_grow n b w b' slower : 4 <= bdp_bdp b -> bdp_bdp b <= BDP_LIMIT -> bdp_calculate n slower b = (b', Some w) ->
  bdp_bdp b' = w /\ bdp_bdp b <= w /\ w <= BDP_LIMIT /\ N.min (bdp_bdp b * 2 / 3 * 2) BDP_LIMIT <= w /\ bdp_delay b' = bdp_delay b / 2 /\ bdp_bdp b <> BDP_LIMIT.
Proof.
  intros H4 HL. unfold bdp_calculate. destruct (bdp_bdp b =? BDP_LIMIT) eqn:E; [discriminate|]. apply N.eqb_neq in E. destruct slower; [discriminate|].
  destruct (_ <=? n) eqn:En; [|discriminate]. apply N.leb_le in En. intros Q. inversion Q; subst; clear Q. cbn [bdp_bdp bdp_delay].
  remember (bdp_bdp b * 2 / 3) as q. assert (bdp_bdp b * 2 < 3 * (q + 1)) as Hq by (subst q; pose proof (N.div_mod (bdp_bdp b * 2) 3 ltac:(discriminate)); pose proof (N.mod_lt (bdp_bdp b * 2) 3 ltac:(discriminate)); lia).
  split; [reflexivity|]. split; [|split; [|split; [|split; [reflexivity|exact E]]]]; lia.
Qed.
Lemma stabilize_spec b : bdp_bdp (stabilize_delay b) = bdp_bdp b /\ (bdp_delay b <= 40000000000 -> bdp_delay (stabilize_delay b) <= 40000000000) /\ bdp_delay b <= bdp_delay (stabilize_delay b).
Proof.
  unfold stabilize_delay. destruct (bdp_delay b <? 10000000000) eqn:E; [|auto with arith]; [apply N.ltb_lt in E|split; [reflexivity|split; [auto|lia]]].
  destruct (2 <=? _); cbn; (split; [reflexivity|split; [lia|lia]]).
Qed.
Lemma calc_none n slower b b' : bdp_calculate n slower b = (b', None) -> b' = stabilize_delay b.
Proof. unfold bdp_calculate. destruct (_ =? _); [|destruct slower; [|destruct (_ <=? _)]]; intros E; inversion E; reflexivity. Qed.
Lemma est_step w0 p a p' : 4 <= w0 -> est_inv w0 p -> p_act p a = Some p' -> est_inv w0 p'.
Proof.
  intros H4 (b & Eb & El & L1 & L2 & I1 & F1 & D1) E. apply act_est in E. destruct E as [(A & W)|(b0 & n & sl & b' & u & E1 & E2 & E3 & W)].
  - exists b. rewrite W, A. auto 10.
  - rewrite Eb in E1. inversion E1; subst b0. exists b'. split; [exact E3|]. rewrite W. destruct u as [w|].
    + destruct (calc_grow n b w b' sl ltac:(lia) L2 E2) as (Q1 & Q2 & Q3 & _ & Q5 & _). rewrite last_snoc. split; [exact Q1|]. rewrite Q1. split; [lia|]. split; [exact Q3|]. split; [apply increasing_app; [exact I1|rewrite <- El; exact Q2]|].
      split; [apply Forall_app; split; [exact F1|constructor; [lia|constructor]]|]. rewrite Q5. etransitivity; [|exact D1]. pose proof (N.div_le_upper_bound (bdp_delay b) 2 (bdp_delay b)). lia.
    + apply calc_none in E2. subst b'. destruct (stabilize_spec b) as (Q1 & Q2 & _). rewrite app_nil_r, Q1. split; [exact El|]. split; [exact L1|]. split; [exact L2|]. split; [exact I1|]. split; [exact F1|auto].
Qed.
Theorem C43_window : forall c now l p w0, pc_window c = Some w0 -> 4 <= w0 -> w0 <= BDP_LIMIT -> p_run (p_channel c now) l = Some p ->
  increasing w0 (windows (p_log p)) /\ Forall (fun w => w0 <= w <= 16777216) (windows (p_log p)) /\
  exists b, p_bdp p = Some b /\ bdp_bdp b = last (windows (p_log p)) w0 /\ bdp_delay b <= 40000000000.
Proof.
  intros c now l p w0 Hc H4 HL Hr. assert (est_inv w0 (p_channel c now)) as H0.
  { exists (bdp_new w0). cbn. rewrite Hc. cbn. split; [reflexivity|]. split; [reflexivity|]. split; [lia|]. split; [exact HL|]. split; [exact I|]. split; [constructor|lia]. }
  assert (est_inv w0 p) as (b & A1 & A2 & A3 & A4 & A5 & A6 & A7).
  { revert H0 Hr. generalize (p_channel c now). induction l as [|a l IH]; intros q H0 Hr; [inversion Hr; subst; exact H0|]. cbn [p_run] in Hr. destruct (p_act q a) as [q'|] eqn:Eq; [|discriminate]. apply (IH q'); [|exact Hr]. eapply est_step; eassumption. }
  split; [exact A5|]. split; [exact A6|]. exists b. auto.
Qed.
(* From the value the builders give, the window grows at most 20 times and the
   delay between probes never becomes zero *)
Fixpoint grown (k : nat) (w : N) : N := match k with O => w | S k' => N.min (grown k' w * 2 / 3 * 2) BDP_LIMIT end.
Fixpoint halved (k : nat) (d : N) : N := match k with O => d | S k' => halved k' d / 2 end.
Definition count_inv (p : pinger) : Prop :=
  exists b, p_bdp p = Some b /\ 65535 <= bdp_bdp b /\ bdp_bdp b <= BDP_LIMIT /\
    grown (length (windows (p_log p))) 65535 <= bdp_bdp b /\ halved (length (windows (p_log p))) 100000000 <= bdp_delay b /\ (length (windows (p_log p)) <= 20)%nat.
Lemma grown_20 : grown 20 65535 = BDP_LIMIT.
Proof. vm_compute. reflexivity. Qed.
Lemma count_step p a p' : count_inv p -> p_act p a = Some p' -> count_inv p'.
Proof.
  intros (b & Eb & L1 & L2 & G & D & K) E. apply act_est in E. destruct E as [(A & W)|(b0 & n & sl & b' & u & E1 & E2 & E3 & W)].
  - exists b. rewrite W, A. auto 10.
  - rewrite Eb in E1. inversion E1; subst b0. exists b'. split; [exact E3|]. rewrite W. destruct u as [w|].
    + destruct (calc_grow n b w b' sl ltac:(lia) L2 E2) as (Q1 & Q2 & Q3 & Q4 & Q5 & Q6). rewrite app_length. cbn [length]. rewrite Nat.add_1_r. cbn [grown halved]. rewrite Q1, Q5. split; [lia|]. split; [exact Q3|].
      split; [|split].
      * etransitivity; [|exact Q4]. apply N.min_le_compat_r. apply N.mul_le_mono_r. apply N.div_le_mono; [discriminate|]. lia.
      * apply N.div_le_mono; [discriminate|exact D].
      * destruct (Nat.eq_dec (length (windows (p_log p))) 20) as [F|F]; [|lia]. exfalso. apply Q6. apply N.le_antisymm; [exact L2|]. rewrite <- grown_20. rewrite F in G. exact G.
    + apply calc_none in E2. subst b'. destruct (stabilize_spec b) as (Q1 & _ & Q3). rewrite app_nil_r, Q1. split; [exact L1|]. split; [exact L2|]. split; [exact G|]. split; [lia|exact K].
Qed.
Theorem C43_settles : forall c now l p, pc_window c = Some 65535 -> p_run (p_channel c now) l = Some p ->
  (length (windows (p_log p)) <= 20)%nat /\ exists b, p_bdp p = Some b /\ 0 < bdp_delay b.
Proof.
  intros c now l p Hc Hr. assert (count_inv (p_channel c now)) as H0.
  { exists (bdp_new 65535). cbn. rewrite Hc. cbn. split; [reflexivity|]. split; [lia|]. split; [discriminate|]. split; [lia|]. split; [lia|lia]. }
  assert (count_inv p) as (b & A1 & _ & _ & _ & A5 & A6).
  { revert H0 Hr. generalize (p_channel c now). induction l as [|a l IH]; intros q H0 Hr; [inversion Hr; subst; exact H0|]. cbn [p_run] in Hr. destruct (p_act q a) as [q'|] eqn:Eq; [|discriminate]. apply (IH q'); [|exact Hr]. eapply count_step; eassumption. }
  split; [exact A6|]. exists b. split; [exact A1|]. eapply N.lt_le_trans; [|exact A5]. remember (length (windows (p_log p))) as k eqn:Ek. clear Ek A5.
  do 21 (destruct k as [|k]; [reflexivity|]). lia.
Qed.
(* Outside that range the window can shrink, though the builders never start there *)
Theorem C43_shrink_refuted : exists b n slower b' w, bdp_calculate n slower b = (b', Some w) /\ w < bdp_bdp b /\ BDP_LIMIT < bdp_bdp b.
Proof. exists (bdp_new 33554432), 33554432, false. do 2 eexists. split; [reflexivity|]. split; reflexivity. Qed.

(* The delay between probes becomes longer only slowly: at most four times as long
   for every two answers *)
Definition pongs (l : list pev) : nat := length (filter (fun e => match e with PPong _ => true | _ => false end) l).
Lemma pongs_app a b : pongs (a ++ b) = (pongs a + pongs b)%nat.
Proof. unfold pongs. now rewrite filter_app, app_length. Qed.
Definition more (p p' : pinger) : Prop := p_bdp p' = p_bdp p /\ (pongs (p_log p) <= pongs (p_log p'))%nat.
Lemma more_trans p q r : more p q -> more q r -> more p r.
Proof. intros (A & Bq) (C & D). split; [congruence|lia]. Qed.
Lemma more_eq p p' : p_bdp p' = p_bdp p -> p_log p' = p_log p -> more p p'.
Proof. intros A Bq. split; [exact A|now rewrite Bq]. Qed.
Lemma more_logs e p : more p (p_logs e p).
Proof. split; [reflexivity|]. unfold p_logs. cbn [p_log]. rewrite pongs_app. lia. Qed.
Lemma more_send t ok p : more p (send_ping t ok p).
Proof. unfold send_ping. destruct ok; [eapply more_trans; [|apply more_logs]; now apply more_eq|apply more_logs]. Qed.
Lemma more_schedule idle p p' : ka_maybe_schedule idle p = Some p' -> more p p'.
Proof.
  unfold ka_maybe_schedule, ka_schedule. destruct (p_ka p) as [k|]; [|intros E; inversion E; now apply more_eq].
  destruct (ka_st k); [destruct (_ && _)| |destruct (p_sent_at p)]; try (intros E; inversion E; now apply more_eq);
  (destruct (p_last_read p); [|discriminate]; intros E; inversion E; now apply more_eq).
Qed.
Lemma more_ping now idle f ok p p' : ka_maybe_ping now idle f ok p = Some p' -> more p p'.
Proof.
  unfold ka_maybe_ping. destruct (p_ka p) as [k|]; [|intros E; inversion E; now apply more_eq].
  destruct (ka_st k) as [|a|]; try (intros E; inversion E; now apply more_eq).
  destruct (negb (sleep_ready now f k)); [intros E; inversion E; now apply more_eq|]. destruct (p_last_read p) as [t|]; [|discriminate].
  destruct (a <? _); [intros E; inversion E; now apply more_eq|]. destruct (_ && _); intros E; inversion E; [subst; now apply more_eq|].
  eapply more_trans; [|apply more_eq; reflexivity]. eapply more_trans; [apply more_logs|apply more_send].
Qed.
Lemma act_pongs p a p' : p_act p a = Some p' -> more p p' \/
  exists b n slower b' u, p_bdp p = Some b /\ bdp_calculate n slower b = (b', u) /\ p_bdp p' = Some b' /\ (pongs (p_log p) < pongs (p_log p'))%nat.
Proof.
  destruct a as [now len ok|now|i]; cbn [p_act].
  - intros E. inversion E. left. unfold record_data. set (p1 := p_logs (PFrame now) (set_last_read now p)).
    assert (more p p1) as H1 by (subst p1; eapply more_trans; [|apply more_logs]; now apply more_eq). clearbody p1. eapply more_trans; [exact H1|].
    assert (forall q, more q (record_bytes now len ok q)) as G.
    { intros q. unfold record_bytes. destruct (p_bytes q); [|now apply more_eq]. cbn [p_sent_at]. destruct (p_sent_at q); [now apply more_eq|]. eapply more_trans; [|apply more_send]. now apply more_eq. }
    destruct (p_next_bdp p1) as [t|]; [|apply G]. destruct (now <? t); [now apply more_eq|]. refine (more_trans _ (clear_next_bdp p1) _ _ (G _)). now apply more_eq.
  - intros E. inversion E. left. unfold record_non_data. eapply more_trans; [|apply more_logs]. now apply more_eq.
  - destruct (p_poll i p) as [[q r]|] eqn:Ep; [|discriminate]. intros E. inversion E; subst q. clear E. unfold p_poll in Ep.
    destruct (ka_maybe_schedule (pi_idle i) p) as [p1|] eqn:E1; [|discriminate]. apply more_schedule in E1.
    destruct (ka_maybe_ping _ _ _ _ p1) as [p2|] eqn:E2; [|discriminate]. apply more_ping in E2.
    pose proof (more_trans _ _ _ E1 E2) as H2. clear E1 E2 p1.
    destruct (p_sent_at p2) as [st|]; [|inversion Ep; subst; left; exact H2].
    destruct (pi_pong i).
    + set (p3 := p_logs (PPong (pi_now i)) (set_sent None p2)) in Ep.
      assert (more p p3 /\ (pongs (p_log p) < pongs (p_log p3))%nat) as H3.
      { subst p3. destruct H2 as (A & Bq). unfold more, p_logs, set_sent. cbn [p_log p_bdp]. rewrite pongs_app. change (pongs [PPong (pi_now i)]) with 1%nat. split; [split; [exact A|lia]|lia]. }
      clearbody p3. clear H2.
      assert (forall p4, match p_ka p3 with None => Some p3 | Some _ => match ka_maybe_schedule (pi_idle i) (set_last_read (pi_now i) p3) with Some q => ka_maybe_ping (pi_now i) (pi_idle i) (pi_f2 i) (pi_ok2 i) q | None => None end end = Some p4 -> more p3 p4) as H4.
      { intros p4 E. destruct (p_ka p3); [|inversion E; subst; now apply more_eq]. destruct (ka_maybe_schedule _ _) as [q|] eqn:Eq; [|discriminate]. apply more_schedule in Eq. apply more_ping in E.
        eapply more_trans; [|exact E]. eapply more_trans; [|exact Eq]. now apply more_eq. }
      destruct (match p_ka p3 with None => Some p3 | Some _ => _ end) as [p4|]; [|discriminate]. specialize (H4 p4 eq_refl). destruct H3 as (H3 & L3). destruct (more_trans _ _ _ H3 H4) as (A & _). destruct H4 as (_ & L4).
      destruct (p_bdp p4) as [b|] eqn:Eb; [|inversion Ep; subst; left; split; [congruence|lia]]. destruct (p_bytes p4) as [n|]; [|discriminate].
      destruct (bdp_calculate n (pi_slower i) b) as [b' u] eqn:Ec. right. exists b, n, (pi_slower i), b', u. split; [congruence|]. split; [exact Ec|].
      destruct u as [w|]; inversion Ep; subst; cbn [p_bdp p_log p_logs]; (split; [reflexivity|]); [rewrite pongs_app|]; lia.
    + inversion Ep; subst; left; exact H2.
    + destruct (p_ka p2) as [k|]; [|inversion Ep; subst; left; exact H2].
      destruct (ka_st k); try (inversion Ep; subst; left; exact H2). destruct (sleep_ready _ _ _); inversion Ep; subst; left; [|exact H2].
      eapply more_trans; [exact H2|]. eapply more_trans; [|apply more_logs]. now apply more_eq.
Qed.
Theorem C43_patient : forall c now l p b, p_run (p_channel c now) l = Some p -> p_bdp p = Some b ->
  bdp_delay b <= 100000000 * 4 ^ (N.of_nat (pongs (p_log p)) / 2).
Proof.
  assert (forall l p p', (forall b, p_bdp p = Some b -> exists q, bdp_delay b <= 100000000 * 4 ^ q /\ 2 * q + bdp_stable b <= N.of_nat (pongs (p_log p))) -> p_run p l = Some p' ->
    forall b, p_bdp p' = Some b -> exists q, bdp_delay b <= 100000000 * 4 ^ q /\ 2 * q + bdp_stable b <= N.of_nat (pongs (p_log p'))) as K.
  { induction l as [|a l IH]; intros p p' H E; [inversion E; subst; exact H|]. cbn [p_run] in E. destruct (p_act p a) as [p1|] eqn:Ea; [|discriminate]. apply (IH p1 p'); [|exact E]. clear IH E.
    intros b1 E1. apply act_pongs in Ea. destruct Ea as [(A & L)|(b & n & sl & b' & u & A1 & A2 & A3 & L)].
    - rewrite A in E1. destruct (H b1 E1) as (q & Q1 & Q2). exists q. split; [exact Q1|lia].
    - rewrite A3 in E1. injection E1 as <-. destruct (H b A1) as (q & Q1 & Q2). destruct u as [w|].
      + unfold bdp_calculate in A2. destruct (_ =? _); [discriminate|]. destruct sl; [discriminate|]. destruct (_ <=? n); [|discriminate]. injection A2 as <- _. cbn [bdp_delay bdp_stable].
        exists q. split; [|lia]. etransitivity; [|exact Q1]. apply N.div_le_upper_bound; lia.
      + apply calc_none in A2. subst b'. unfold stabilize_delay. destruct (_ <? _); [|exists q; split; [exact Q1|lia]]. destruct (2 <=? bdp_stable b + 1) eqn:E2; cbn [bdp_delay bdp_stable].
        * apply N.leb_le in E2. exists (q + 1). rewrite N.pow_add_r, N.pow_1_r. split; [nia|lia].
        * exists q. split; [exact Q1|lia]. }
  intros c now l p b H Hb. assert (exists q, bdp_delay b <= 100000000 * 4 ^ q /\ 2 * q + bdp_stable b <= N.of_nat (pongs (p_log p))) as (q & Q1 & Q2).
  - refine (K l _ p _ H b Hb). intros b0. cbn. destruct (pc_window c); [|discriminate]. intros E. injection E as <-. exists 0. cbn. split; lia.
  - etransitivity; [exact Q1|]. apply N.mul_le_mono_l. apply N.pow_le_mono_r; [discriminate|]. apply N.div_le_lower_bound; lia.
Qed.
Example C43_ex_patient : exists p b, p_run (p_channel (mkPC (Some 65535) None 5 false) 0) [PData 0 100 true; PPoll (mkPin 1 false false true PongReady false true false true); PData 200000000 100 true; PPoll (mkPin 200000001 false false true PongReady false true false true)] = Some p /\
  p_bdp p = Some b /\ bdp_delay b = 400000000 /\ pongs (p_log p) = 2%nat.
Proof. eexists. eexists. split; [vm_compute; reflexivity|]. split; [reflexivity|]. split; reflexivity. Qed.

(* ---- C44 ---- *)
Definition act_time (a : pact) : N := match a with PData t _ _ => t | PNonData t => t | PPoll i => pi_now i end.
Fixpoint timeline (t0 : N) (l : list pact) : Prop :=
  match l with [] => True | a :: r => t0 <= act_time a /\ timeline (act_time a) r end.
(* A ping is unanswered *)
Definition pending (l : list pev) : bool :=
  fold_left (fun b e => match e with PSend _ true => true | PPong _ => false | _ => b end) l false.
(* Something was received at time [t] *)
Definition heard (t : N) (l : list pev) : Prop := In (PFrame t) l \/ In (PPong t) l.
Definition no_pong (l : list pev) : Prop := forall t, ~ In (PPong t) l.
(* In the history [l] a keep-alive ping was asked for after the connection had
   been silent for the interval, the deadline is a timeout later, and no pong has
   arrived since *)
Definition asked (interval timeout start deadline : N) (l : list pev) : Prop :=
  exists l1 tp idle ok l2, l = l1 ++ PAsk tp idle :: PSend tp ok :: l2 /\
    start + interval <= tp /\ (forall t, heard t l1 -> t + interval <= tp) /\
    deadline = tp + timeout /\ no_pong l2.
Definition dead_ok (interval timeout start : N) (l : list pev) : Prop :=
  forall l0 t rest, l = l0 ++ PDead t :: rest ->
    pending l0 = true /\ exists deadline, deadline <= t /\ asked interval timeout start deadline l0.
Definition asks_ok (while_idle : bool) (l : list pev) : Prop := forall t idle, In (PAsk t idle) l -> while_idle = true \/ idle = false.

Section C44.
Context (i0 to start : N) (wi : bool).
Definition state_ok (r : N) (l : list pev) (k : keepalive) : Prop :=
  ka_interval k = i0 /\ ka_timeout k = to /\ ka_while_idle k = wi /\
  match ka_st k with
  | KaInit => True
  | KaScheduled at_ => at_ <= r + i0 /\ ka_deadline k = at_ /\ start + i0 <= at_
  | KaPingSent => asked i0 to start (ka_deadline k) l
  end.
(* the part about the log and the pending ping *)
Definition log_ok (p : pinger) : Prop :=
  ((exists s, p_sent_at p = Some s) <-> pending (p_log p) = true) /\ dead_ok i0 to start (p_log p) /\ asks_ok wi (p_log p).
Definition ka_ok (now : N) (p : pinger) : Prop :=
  exists r, p_last_read p = Some r /\ start <= r /\ r <= now /\ (forall t, heard t (p_log p) -> t <= r) /\
  match p_ka p with None => True | Some k => state_ok r (p_log p) k end.
Definition ping_inv (now : N) (p : pinger) : Prop := log_ok p /\ ka_ok now p.

Lemma pending_app l e : pending (l ++ [e]) = match e with PSend _ true => true | PPong _ => false | _ => pending l end.
Proof. unfold pending. rewrite fold_left_app. reflexivity. Qed.
Lemma heard_app t l e : heard t (l ++ [e]) -> heard t l \/ e = PFrame t \/ e = PPong t.
Proof. intros [H|H]; apply in_app_or in H; destruct H as [H|[H|[]]]; auto; left; [left|right]; exact H. Qed.
Lemma dead_app l e : dead_ok i0 to start l -> (forall t, e <> PDead t) -> dead_ok i0 to start (l ++ [e]).
Proof.
  intros H He l0 t rest E. destruct (rev rest) as [|x r] eqn:Er.
  - assert (rest = []) as -> by (rewrite <- (rev_involutive rest), Er; reflexivity). apply app_inj_tail in E. destruct E as (_ & E). now destruct (He t).
  - assert (rest = rev r ++ [x]) as -> by (rewrite <- (rev_involutive rest), Er; reflexivity). rewrite app_comm_cons, app_assoc in E. apply app_inj_tail in E. destruct E as (E & _). eapply H. exact E.
Qed.
Lemma asks_app l e : asks_ok wi l -> (forall t idle, e = PAsk t idle -> wi = true \/ idle = false) -> asks_ok wi (l ++ [e]).
Proof. intros H He t idle Hi. apply in_app_or in Hi. destruct Hi as [Hi|[Hi|[]]]; [eauto|eauto]. Qed.
Lemma asked_app d l e : asked i0 to start d l -> (forall t, e <> PPong t) -> asked i0 to start d (l ++ [e]).
Proof.
  intros (l1 & tp & idle & ok & l2 & -> & A1 & A2 & A3 & A4) He. exists l1, tp, idle, ok, (l2 ++ [e]). split; [now rewrite <- app_assoc|]. repeat (split; [assumption|]).
  intros t Hi. apply in_app_or in Hi. destruct Hi as [Hi|[Hi|[]]]; [now apply (A4 t)|now apply (He t)].
Qed.
Lemma state_app r l k e : state_ok r l k -> (forall t, e <> PPong t) -> state_ok r (l ++ [e]) k.
Proof. intros (A1 & A2 & A3 & A4) He. repeat (split; [assumption|]). destruct (ka_st k); auto. now apply asked_app. Qed.
Lemma state_read r r' l k : state_ok r l k -> r <= r' -> state_ok r' l k.
Proof. intros (A1 & A2 & A3 & A4) He. repeat (split; [assumption|]). destruct (ka_st k); auto. destruct A4 as (Q1 & Q2). split; [lia|exact Q2]. Qed.

Lemma inv_frame now t p : ping_inv now p -> now <= t -> ping_inv t (p_logs (PFrame t) (set_last_read t p)).
Proof.
  intros ((S1 & D1 & A1) & r & R & L1 & L2 & Hh & Hk) Ht. split.
  - split; [|split; [apply dead_app; [exact D1|discriminate]|apply asks_app; [exact A1|discriminate]]]. cbn [p_logs p_sent_at p_log set_last_read]. rewrite pending_app. exact S1.
  - exists t. cbn [p_logs p_last_read p_log set_last_read p_ka]. rewrite R. split; [reflexivity|]. split; [lia|]. split; [lia|]. split.
    + intros t' H. apply heard_app in H. destruct H as [H|[H|H]]; [apply Hh in H; lia|inversion H; lia|discriminate H].
    + destruct (p_ka p) as [k|]; [|exact I]. apply state_app; [|discriminate]. eapply state_read; [exact Hk|lia].
Qed.
Lemma inv_now now t p : ping_inv now p -> now <= t -> ping_inv t p.
Proof. intros (A & r & R & L1 & L2 & H) Ht. split; [exact A|]. exists r. split; [exact R|]. split; [exact L1|]. split; [lia|exact H]. Qed.
Lemma inv_send now t ok p : ping_inv now p -> ping_inv now (send_ping t ok p).
Proof.
  intros ((S1 & D1 & A1) & r & R & L1 & L2 & Hh & Hk). unfold send_ping. split.
  - split; [|split; [destruct ok; (apply dead_app; [exact D1|discriminate])|destruct ok; (apply asks_app; [exact A1|discriminate])]].
    destruct ok; cbn [p_logs p_sent_at p_log set_sent]; rewrite pending_app; [|exact S1]. split; [reflexivity|]. intros _. eauto.
  - exists r. split; [destruct ok; exact R|]. split; [exact L1|]. split; [exact L2|]. split.
    + intros t' H. assert (heard t' (p_log p)) as H'; [|apply Hh; exact H']. destruct ok; cbn [p_logs p_log set_sent] in H; apply heard_app in H; destruct H as [H|[H|H]]; try exact H; discriminate H.
    + destruct ok; cbn [p_logs p_log set_sent p_ka]; (destruct (p_ka p) as [k|]; [|exact I]); (apply state_app; [exact Hk|discriminate]).
Qed.
(* fields that do not matter *)
Lemma inv_same now p q : ping_inv now p -> p_sent_at q = p_sent_at p -> p_log q = p_log p -> p_last_read q = p_last_read p -> p_ka q = p_ka p -> ping_inv now q.
Proof. intros (A & K) E1 E2 E3 E4. unfold ping_inv, log_ok, ka_ok. rewrite E1, E2, E3, E4. split; [exact A|exact K]. Qed.
Lemma inv_data now t len ok p : ping_inv now p -> now <= t -> ping_inv t (record_data t len ok p).
Proof.
  intros H Ht. apply inv_frame with (t := t) in H; [|exact Ht]. unfold record_data. remember (p_logs (PFrame t) (set_last_read t p)) as p1 eqn:E1. clear E1.
  assert (forall q, ping_inv t q -> ping_inv t (record_bytes t len ok q)) as G.
  { intros q Hq. unfold record_bytes. destruct (p_bytes q); [|exact Hq]. cbn [p_sent_at]. destruct (p_sent_at q) eqn:Es; [eapply inv_same; [exact Hq|..]; cbn; congruence|]. apply inv_send. eapply inv_same; [exact Hq|..]; cbn; congruence. }
  destruct (p_next_bdp p1) as [x|]; [|auto]. destruct (t <? x); [exact H|]. apply G. eapply inv_same; [exact H|..]; reflexivity.
Qed.
Lemma inv_schedule_do now p k : ka_ok now (set_ka None p) -> ka_interval k = i0 -> ka_timeout k = to -> ka_while_idle k = wi -> log_ok p -> exists p', ka_schedule k p = Some p' /\ ping_inv now p' /\ p_sent_at p' = p_sent_at p /\ p_log p' = p_log p /\ p_bdp p' = p_bdp p /\ p_bytes p' = p_bytes p.
Proof.
  intros (r & R & L1 & L2 & Hh & _) K1 K2 K3 HL. unfold ka_schedule. cbn [set_ka p_last_read p_log] in *. rewrite R. eexists. split; [reflexivity|]. split; [|repeat split; reflexivity]. split; [exact HL|].
  exists r. cbn [set_ka p_last_read p_log p_ka]. split; [exact R|]. split; [exact L1|]. split; [exact L2|]. split; [exact Hh|]. unfold state_ok. cbn. repeat (split; [assumption|]). rewrite K1. split; [lia|]. split; [reflexivity|lia].
Qed.
Lemma ka_none now p : ka_ok now p -> ka_ok now (set_ka None p).
Proof. intros (r & R & L1 & L2 & Hh & _). exists r. cbn. auto. Qed.
Lemma inv_schedule now idle p p' : ping_inv now p -> ka_maybe_schedule idle p = Some p' -> ping_inv now p' /\ p_sent_at p' = p_sent_at p.
Proof.
  intros H E. unfold ka_maybe_schedule in E. destruct (p_ka p) as [k|] eqn:Ek; [|inversion E; subst; auto].
  pose proof H as (HL & HK). pose proof (ka_none _ _ HK) as HN. assert (ka_interval k = i0 /\ ka_timeout k = to /\ ka_while_idle k = wi) as (K1 & K2 & K3).
  { destruct HK as (r & _ & _ & _ & _ & Q). rewrite Ek in Q. destruct Q as (Q1 & Q2 & Q3 & _). auto. }
  destruct (inv_schedule_do now p k HN K1 K2 K3 HL) as (p2 & E2 & I2 & S2 & _).
  destruct (ka_st k); [destruct (_ && _)| |destruct (p_sent_at p) eqn:Es]; try (inversion E; subst; auto); rewrite E2 in E; inversion E; subst; split; congruence || exact I2.
Qed.
Lemma inv_ping now t idle f ok p p' : ping_inv now p -> now <= t -> ka_maybe_ping t idle f ok p = Some p' -> ping_inv t p'.
Proof.
  intros H Ht E. unfold ka_maybe_ping in E. destruct (p_ka p) as [k|] eqn:Ek; [|inversion E; subst; eapply inv_now; eassumption].
  destruct (ka_st k) as [|at_|] eqn:Est; try (inversion E; subst; eapply inv_now; eassumption).
  destruct (negb (sleep_ready t f k)) eqn:Esl; [inversion E; subst; eapply inv_now; eassumption|]. apply negb_false_iff in Esl. unfold sleep_ready in Esl. apply andb_prop in Esl. destruct Esl as (Esl & _). apply N.leb_le in Esl.
  destruct H as (HL & r & R & L1 & L2 & Hh & Hk). rewrite R in E. rewrite Ek in Hk. pose proof Hk as (K1 & K2 & K3 & K4). rewrite Est in K4. destruct K4 as (K4 & K5 & K6).
  destruct (at_ <? r + ka_interval k) eqn:Er.
  - inversion E; subst p'. split; [exact HL|]. exists r. cbn [set_ka p_last_read p_log p_ka]. split; [exact R|]. split; [exact L1|]. split; [lia|]. split; [exact Hh|]. unfold state_ok. cbn. auto.
  - apply N.ltb_ge in Er. destruct (negb (ka_while_idle k) && idle) eqn:Ew; [inversion E; subst; split; [exact HL|]; exists r; rewrite Ek; split; [exact R|]; split; [exact L1|]; split; [lia|]; split; [exact Hh|exact Hk]|].
    assert (wi = true \/ idle = false) as Hid by (rewrite K3 in Ew; destruct wi; [auto|destruct idle; [discriminate Ew|auto]]).
    remember (p_logs (PAsk t idle) p) as q eqn:Eq.
    assert (ping_inv t (set_ka None q)) as Hq.
    { destruct HL as (S1 & D1 & A1). subst q. split.
      - split; [|split]; cbn [set_ka p_logs p_sent_at p_log]; [rewrite pending_app; exact S1|apply dead_app; [exact D1|discriminate]|apply asks_app; [exact A1|]]. intros t' idle' F. inversion F; subst. exact Hid.
      - exists r. cbn [set_ka p_logs p_last_read p_log p_ka]. split; [exact R|]. split; [exact L1|]. split; [lia|]. split; [|exact I]. intros t' F. apply heard_app in F. destruct F as [F|[F|F]]; [auto|discriminate F|discriminate F]. }
    apply inv_send with (t := t) (ok := ok) in Hq. inversion E; subst p'. clear E.
    assert (p_log (send_ping t ok q) = p_log p ++ PAsk t idle :: PSend t ok :: []) as Elog.
    { unfold send_ping. destruct ok; cbn [p_logs p_log set_sent]; subst q; cbn [p_logs p_log]; rewrite <- app_assoc; reflexivity. }
    assert (forall k0, set_ka k0 (send_ping t ok (set_ka None q)) = set_ka k0 (send_ping t ok q)) as Es by (intros; destruct ok; reflexivity).
    destruct Hq as (HL2 & r2 & R2 & M1 & M2 & Hh2 & _). split.
    + destruct ok; exact HL2.
    + exists r2. split; [destruct ok; exact R2|]. split; [exact M1|]. split; [exact M2|]. split; [destruct ok; exact Hh2|]. cbn [set_ka p_ka p_log]. rewrite Elog. unfold state_ok. cbn [ka_interval ka_timeout ka_while_idle ka_st ka_deadline]. repeat (split; [assumption|]).
      exists (p_log p), t, idle, ok, []. split; [reflexivity|]. split; [lia|]. split; [intros t' F; apply Hh in F; lia|]. split; [lia|intros ? []].
Qed.
(* with keep-alive off, or after the connection was declared dead *)
Definition off (p : pinger) : Prop := p_ka p = None /\ log_ok p.
Lemma log_calc now p q n slower b p' o : p_sent_at q = p_sent_at p -> p_log q = p_log p -> log_ok p ->
  (let (b', u) := bdp_calculate n slower b in
   let p2 := mkP (Some b') (p_ka q) (p_sent_at q) (Some 0) (Some (now + bdp_delay b')) (p_last_read q) (p_timed_out q) (p_log q) in
   match u with Some w => Some (p_logs (PWindow now w) p2, PgSize w) | None => Some (p2, PgPending) end) = Some (p', o) ->
  log_ok p' /\ p_ka p' = p_ka q /\ p_last_read p' = p_last_read q /\ (p_log p' = p_log p \/ exists w, p_log p' = p_log p ++ [PWindow now w]).
Proof.
  intros E1 E2 (S1 & D1 & A1) E. destruct (bdp_calculate n slower b) as [b' u]. destruct u as [w|]; inversion E; subst; clear E; unfold log_ok; cbn [p_logs p_ka p_last_read p_log p_sent_at]; rewrite E1, E2.
  - split; [|split; [reflexivity|split; [reflexivity|right; eauto]]]. rewrite pending_app. split; [exact S1|]. split; [apply dead_app; [exact D1|discriminate]|apply asks_app; [exact A1|discriminate]].
  - split; [|split; [reflexivity|split; [reflexivity|left; reflexivity]]]. split; [exact S1|]. split; assumption.
Qed.
Lemma off_poll i p p' o : off p -> p_poll i p = Some (p', o) -> off p'.
Proof.
  intros (K & L) E. unfold p_poll, ka_maybe_schedule, ka_maybe_ping in E. rewrite K in E. rewrite K in E. destruct (p_sent_at p) as [st|] eqn:Es; [|inversion E; subst; split; assumption].
  destruct (pi_pong i); [|inversion E; subst; split; assumption|rewrite K in E; inversion E; subst; split; assumption].
  cbn [p_logs p_ka set_sent] in E. rewrite K in E.
  remember (p_logs (PPong (pi_now i)) (set_sent None p)) as p3 eqn:E3.
  assert (off p3) as (K3 & L3).
  { destruct L as (S1 & D1 & A1). split; [subst p3; exact K|]. split; [|split]; subst p3; cbn [p_logs p_log p_sent_at set_sent]; [rewrite pending_app; split; [intros (s & F); discriminate F|discriminate]|apply dead_app; [exact D1|discriminate]|apply asks_app; [exact A1|discriminate]]. }
  destruct (p_bdp p3) as [b|]; [|inversion E; subst; split; assumption]. destruct (p_bytes p3) as [n|]; [|discriminate].
  destruct (log_calc _ _ _ _ _ _ _ _ eq_refl eq_refl L3 E) as (Q1 & Q2 & _). split; [congruence|exact Q1].
Qed.
Lemma inv_poll now i p p' o : ping_inv now p -> now <= pi_now i -> p_poll i p = Some (p', o) -> ping_inv (pi_now i) p' \/ off p'.
Proof.
  intros H Ht E. unfold p_poll in E. destruct (ka_maybe_schedule (pi_idle i) p) as [p1|] eqn:E1; [|discriminate]. destruct (inv_schedule _ _ _ _ H E1) as (H1 & _).
  destruct (ka_maybe_ping _ _ _ _ p1) as [p2|] eqn:E2; [|discriminate]. pose proof (inv_ping _ _ _ _ _ _ _ H1 Ht E2) as H2. clear H1 E1 E2 p1 H.
  destruct (p_sent_at p2) as [st|] eqn:Es; [|inversion E; subst; left; exact H2]. destruct (pi_pong i).
  - set (p3 := p_logs (PPong (pi_now i)) (set_sent None p2)) in E. set (t := pi_now i) in *.
    assert (log_ok p3) as L3.
    { destruct H2 as ((S1 & D1 & A1) & _). split; [|split]; subst p3; cbn [p_logs p_log p_sent_at set_sent]; [rewrite pending_app; split; [intros (s & F); discriminate F|discriminate]|apply dead_app; [exact D1|discriminate]|apply asks_app; [exact A1|discriminate]]. }
    assert (ka_ok t (set_ka None (set_last_read t p3))) as N3.
    { destruct H2 as (_ & r & R & M1 & M2 & Hh & _). exists t. subst p3. cbn [set_ka set_last_read p_logs p_last_read p_log p_ka set_sent]. rewrite R. split; [reflexivity|]. split; [lia|]. split; [lia|]. split; [|exact I].
      intros t' F. apply heard_app in F. destruct F as [F|[F|F]]; [apply Hh in F; lia|discriminate F|inversion F; lia]. }
    assert (forall p4, match p_ka p3 with None => Some p3 | Some _ => match ka_maybe_schedule (pi_idle i) (set_last_read t p3) with Some q => ka_maybe_ping t (pi_idle i) (pi_f2 i) (pi_ok2 i) q | None => None end end = Some p4 -> ping_inv t p4 \/ off p4) as H4.
    { intros p4 E4. destruct (p_ka p3) as [k|] eqn:Ek.
      - destruct (ka_maybe_schedule (pi_idle i) (set_last_read t p3)) as [q|] eqn:Eq; [|discriminate]. left. assert (ping_inv t q) as Hq; [|eapply inv_ping; [exact Hq| |exact E4]; lia].
        assert (p_ka p2 = Some k) as Ek2 by exact Ek. destruct H2 as (_ & r & R & M1 & M2 & Hh & Hk). rewrite Ek2 in Hk. pose proof Hk as (K1 & K2 & K3 & K4).
        assert (ka_st k <> KaPingSent -> ping_inv t (set_last_read t p3)) as Hns.
        { intros F. split; [exact L3|]. destruct N3 as (r3 & R3 & Q1 & Q2 & Q3 & _). exists r3. split; [exact R3|]. split; [exact Q1|]. split; [exact Q2|]. split; [exact Q3|]. cbn [set_last_read p_ka]. rewrite Ek.
          cbn [set_ka set_last_read p_last_read p_logs p3 set_sent] in R3. rewrite R in R3. inversion R3; subst r3. unfold state_ok. repeat (split; [assumption|]). destruct (ka_st k); [exact I| |congruence]. destruct K4 as (Q4 & Q5). split; [lia|exact Q5]. }
        assert (forall k', k' = k -> exists p', ka_schedule k' (set_last_read t p3) = Some p' /\ ping_inv t p') as Hsch.
        { intros k' ->. destruct (inv_schedule_do t (set_last_read t p3) k N3 K1 K2 K3 L3) as (p5 & E5 & I5 & _). exists p5. split; assumption. }
        destruct (Hsch k eq_refl) as (p5 & E5 & I5). unfold ka_maybe_schedule in Eq. cbn [set_last_read p_ka] in Eq. change (p_ka p3) with (p_ka p2) in Eq. rewrite Ek2 in Eq.
        destruct (ka_st k) eqn:Est.
        + destruct (_ && _); [inversion Eq; subst; apply Hns; discriminate|]. congruence.
        + inversion Eq; subst. apply Hns. discriminate.
        + cbn [p_sent_at p3 p_logs set_sent set_last_read] in Eq. rewrite E5 in Eq. inversion Eq; subst. exact I5.
      - inversion E4; subst p4. right. split; assumption. }
    destruct (match p_ka p3 with None => Some p3 | Some _ => _ end) as [p4|]; [|discriminate]. specialize (H4 p4 eq_refl).
    destruct (p_bdp p4) as [b|]; [|inversion E; subst; exact H4]. destruct (p_bytes p4) as [n|]; [|discriminate].
    destruct H4 as [(L4 & r & R & M1 & M2 & Hh & Hk)|(K4 & L4)]; destruct (log_calc _ _ _ _ _ _ _ _ eq_refl eq_refl L4 E) as (Q1 & Q2 & Q3 & Q4).
    + left. split; [exact Q1|]. exists r. rewrite Q2, Q3. split; [exact R|]. split; [exact M1|]. split; [exact M2|]. destruct Q4 as [->|(w & ->)]; [split; assumption|]. split.
      * intros t' F. apply heard_app in F. destruct F as [F|[F|F]]; [auto|discriminate F|discriminate F].
      * destruct (p_ka p4); [|exact I]. apply state_app; [exact Hk|discriminate].
    + right. split; [congruence|exact Q1].
  - inversion E; subst. left. exact H2.
  - destruct (p_ka p2) as [k|] eqn:Ek; [|inversion E; subst; left; exact H2]. destruct (ka_st k) eqn:Est; try (inversion E; subst; left; exact H2).
    destruct (sleep_ready _ _ k) eqn:Esl; inversion E; subst; [|left; exact H2]. right. split; [reflexivity|].
    unfold sleep_ready in Esl. apply andb_prop in Esl. destruct Esl as (Esl & _). apply N.leb_le in Esl.
    destruct H2 as ((S1 & D1 & A1) & r & R & M1 & M2 & Hh & Hk). rewrite Ek in Hk. destruct Hk as (_ & _ & _ & K4). rewrite Est in K4.
    split; [|split]; cbn [p_logs p_log p_sent_at]; [rewrite pending_app, <- Es; exact S1| |apply asks_app; [exact A1|discriminate]].
    intros l0 t rest El. destruct (rev rest) as [|x y] eqn:Er.
    + assert (rest = []) as -> by (rewrite <- (rev_involutive rest), Er; reflexivity). apply app_inj_tail in El. destruct El as (<- & El). inversion El; subst. split; [apply S1; eauto|]. exists (ka_deadline k). auto.
    + assert (rest = rev y ++ [x]) as -> by (rewrite <- (rev_involutive rest), Er; reflexivity). rewrite app_comm_cons, app_assoc in El. apply app_inj_tail in El. destruct El as (El & _). eapply D1. exact El.
Qed.
Lemma off_act p a p' : off p -> p_act p a = Some p' -> off p'.
Proof.
  intros (K & L) E. assert (forall e q, (forall t, e <> PDead t) -> (forall t x, e <> PAsk t x) -> (forall t, e <> PSend t true) -> (forall t, e <> PPong t) -> p_sent_at q = p_sent_at p -> p_log q = p_log p -> log_ok (p_logs e q)) as G.
  { intros e q N1 N2 N3 N4 E1 E2. destruct L as (S1 & D1 & A1). split; [|split]; cbn [p_logs p_log p_sent_at]; rewrite ?E1, E2; [|apply dead_app; [exact D1|exact N1]|apply asks_app; [exact A1|intros t x F; now destruct (N2 t x)]].
    rewrite pending_app. destruct e; try exact S1; [destruct ok; [now destruct (N3 t)|exact S1]|now destruct (N4 t)]. }
  destruct a as [t len ok|t|i]; cbn [p_act] in E.
  - inversion E; subst p'; clear E. unfold record_data. assert (off (p_logs (PFrame t) (set_last_read t p))) as H1 by (split; [exact K|apply G; try discriminate; reflexivity]).
    remember (p_logs (PFrame t) (set_last_read t p)) as p1 eqn:E1. clear E1 G K L.
    assert (forall q, off q -> off (record_bytes t len ok q)) as R.
    { intros q (Kq & S1 & D1 & A1). unfold record_bytes. destruct (p_bytes q); [|split; [exact Kq|]; split; [exact S1|]; split; assumption]. cbn [p_sent_at].
      destruct (p_sent_at q) eqn:Es; [split; [exact Kq|split; [exact S1|split; assumption]]|].
      split; [destruct ok; exact Kq|]. unfold send_ping, log_ok. destruct ok; cbn [p_logs p_log p_sent_at set_sent]; rewrite pending_app.
      - split; [split; [reflexivity|eauto]|]. split; [apply dead_app; [exact D1|discriminate]|apply asks_app; [exact A1|discriminate]].
      - split; [exact S1|]. split; [apply dead_app; [exact D1|discriminate]|apply asks_app; [exact A1|discriminate]]. }
    destruct (p_next_bdp p1); [|auto]. destruct (_ <? _); [exact H1|]. apply R. exact H1.
  - inversion E; subst p'. split; [exact K|]. apply G; try discriminate; reflexivity.
  - destruct (p_poll i p) as [[q o]|] eqn:Ep; [|discriminate]. inversion E; subst. eapply off_poll; [split; eassumption|exact Ep].
Qed.
Lemma inv_run l : forall now p p', ping_inv now p \/ off p -> timeline now l -> p_run p l = Some p' -> log_ok p'.
Proof.
  induction l as [|a l IH]; intros now p p' H Ht E; [inversion E; subst; destruct H as [(H & _)|(_ & H)]; exact H|].
  cbn [p_run] in E. destruct Ht as (Ht & Ht2). destruct (p_act p a) as [p1|] eqn:Ea; [|discriminate]. refine (IH (act_time a) p1 p' _ Ht2 E). destruct H as [H|H]; [|right; eapply off_act; eassumption].
  destruct a as [t len ok|t|i]; cbn [p_act act_time] in *.
  - inversion Ea; subst. left. eapply inv_data; eassumption.
  - inversion Ea; subst. left. eapply inv_frame; eassumption.
  - destruct (p_poll i p) as [[q o]|] eqn:Ep; [|discriminate]. inversion Ea; subst. eapply inv_poll; eassumption.
Qed.
End C44.

(* h2 refuses a ping only while an earlier one is unanswered *)
Definition refused_only_pending (l : list pev) : Prop := forall l1 t l2, l = l1 ++ PSend t false :: l2 -> pending l1 = true.
Lemma channel_inv c i0 start : pc_interval c = Some i0 -> ping_inv i0 (pc_timeout c) start (pc_while_idle c) start (p_channel c start).
Proof.
  intros Hi. split.
  - split; [|split]; cbn; [split; [intros (s & F); discriminate F|discriminate]|intros l0 t rest F; destruct l0; discriminate F|intros t x []].
  - exists start. cbn. rewrite Hi. cbn. split; [reflexivity|]. split; [lia|]. split; [lia|]. split; [intros t [[]|[]]|]. unfold state_ok. cbn. auto.
Qed.
(* A connection is declared dead only if a ping was asked for after nothing had
   been received for the interval, one was under way from then on, and no answer
   had come when the timeout was over *)
Theorem C44_dead : forall c i0 start l p l0 t rest, pc_interval c = Some i0 -> timeline start l ->
  p_run (p_channel c start) l = Some p -> refused_only_pending (p_log p) -> p_log p = l0 ++ PDead t :: rest ->
  exists l1 tp idle ok l2, l0 = l1 ++ PAsk tp idle :: PSend tp ok :: l2 /\ start + i0 <= tp /\ (forall t', heard t' l1 -> t' + i0 <= tp) /\
    (ok = true \/ pending l1 = true) /\ no_pong l2 /\ tp + pc_timeout c <= t.
Proof.
  intros c i0 start l p l0 t rest Hi Ht Hr Hc El. pose proof (inv_run i0 (pc_timeout c) start (pc_while_idle c) l start _ p (or_introl (channel_inv c i0 start Hi)) Ht Hr) as (_ & D & _).
  destruct (D l0 t rest El) as (_ & d & Hd & l1 & tp & idle & ok & l2 & E & A1 & A2 & A3 & A4). exists l1, tp, idle, ok, l2. repeat (split; [assumption|]). split; [|split; [exact A4|lia]].
  destruct ok; [left; reflexivity|]. right. assert (pending (l1 ++ [PAsk tp idle]) = true) as Q; [|rewrite pending_app in Q; exact Q].
  apply (Hc _ tp (l2 ++ PDead t :: rest)). rewrite El, E, <- !app_assoc. reflexivity.
Qed.
(* Without while_idle no keep-alive ping is asked for on an idle connection *)
Theorem C44_idle : forall c i0 start l p t, pc_interval c = Some i0 -> pc_while_idle c = false -> timeline start l ->
  p_run (p_channel c start) l = Some p -> ~ In (PAsk t true) (p_log p).
Proof.
  intros c i0 start l p t Hi Hw Ht Hr F. pose proof (inv_run i0 (pc_timeout c) start (pc_while_idle c) l start _ p (or_introl (channel_inv c i0 start Hi)) Ht Hr) as (_ & _ & A).
  destruct (A t true F) as [Q|Q]; congruence.
Qed.
(* No run reaches one of the expects *)
Definition no_expect (p : pinger) : Prop := (p_ka p = None \/ p_last_read p <> None) /\ (p_bdp p = None \/ p_bytes p <> None).
Lemma ne_schedule idle p : no_expect p -> exists p', ka_maybe_schedule idle p = Some p' /\ no_expect p' /\ p_sent_at p' = p_sent_at p /\ (p_ka p = None -> p_ka p' = None /\ p_log p' = p_log p).
Proof.
  intros (A & Bq). unfold ka_maybe_schedule. destruct (p_ka p) as [k|] eqn:Ek; [|exists p; repeat split; auto; rewrite Ek; auto].
  destruct A as [A|A]; [discriminate A|]. assert (exists p', ka_schedule k p = Some p' /\ no_expect p' /\ p_sent_at p' = p_sent_at p /\ (Some k = None -> p_ka p' = None /\ p_log p' = p_log p)) as S.
  { unfold ka_schedule. destruct (p_last_read p) as [r|] eqn:Er; [|contradiction]. eexists. split; [reflexivity|]. split; [|split; [reflexivity|discriminate]]. split; cbn; [right; congruence|exact Bq]. }
  assert (no_expect p) as NE by (split; [right; exact A|exact Bq]).
  destruct (ka_st k); [destruct (_ && _)| |destruct (p_sent_at p) eqn:Es]; try exact S; exists p; (split; [reflexivity|split; [exact NE|split; [first [reflexivity|exact Es]|discriminate]]]).
Qed.
Lemma ne_ping now idle f ok p : no_expect p -> exists p', ka_maybe_ping now idle f ok p = Some p' /\ no_expect p' /\ (p_ka p = None -> p_ka p' = None /\ p_log p' = p_log p).
Proof.
  intros NE. pose proof NE as (A & Bq). unfold ka_maybe_ping. destruct (p_ka p) as [k|] eqn:Ek; [|exists p; auto].
  destruct A as [A|A]; [discriminate A|]. destruct (ka_st k) as [|a|]; try (exists p; split; [reflexivity|split; [exact NE|discriminate]]).
  destruct (negb _); [exists p; split; [reflexivity|split; [exact NE|discriminate]]|]. destruct (p_last_read p) as [r|] eqn:Er; [|contradiction].
  destruct (a <? _); [eexists; split; [reflexivity|split; [split; cbn; [right; congruence|exact Bq]|discriminate]]|]. destruct (_ && _); [exists p; split; [reflexivity|split; [exact NE|discriminate]]|].
  eexists. split; [reflexivity|]. split; [|discriminate]. split; unfold send_ping; destruct ok; cbn; try (right; congruence); exact Bq.
Qed.
Lemma ne_poll i p : no_expect p -> exists p' o, p_poll i p = Some (p', o) /\ no_expect p' /\
  (p_ka p = None -> p_ka p' = None /\ forall t, In (PDead t) (p_log p') -> In (PDead t) (p_log p)).
Proof.
  intros NE. unfold p_poll. destruct (ne_schedule (pi_idle i) p NE) as (p1 & -> & N1 & _ & K1). destruct (ne_ping (pi_now i) (pi_idle i) (pi_f1 i) (pi_ok1 i) p1 N1) as (p2 & -> & N2 & K2).
  assert (p_ka p = None -> p_ka p2 = None /\ p_log p2 = p_log p) as K by (intros F; destruct (K1 F) as (Q1 & Q2); destruct (K2 Q1) as (Q3 & Q4); split; congruence). clear K1 K2 N1 NE.
  assert (forall o : ponged, exists p' o', Some (p2, o) = Some (p', o') /\ no_expect p' /\ (p_ka p = None -> p_ka p' = None /\ forall t, In (PDead t) (p_log p') -> In (PDead t) (p_log p))) as Same.
  { intros o. exists p2, o. split; [reflexivity|]. split; [exact N2|]. intros F. destruct (K F) as (Q1 & Q2). split; [exact Q1|]. rewrite Q2. auto. }
  destruct (p_sent_at p2) as [st|]; [|apply Same]. destruct (pi_pong i); [|apply Same|].
  - remember (p_logs (PPong (pi_now i)) (set_sent None p2)) as p3 eqn:E3. assert (no_expect p3) as N3 by (subst p3; exact N2).
    assert (no_expect (set_last_read (pi_now i) p3)) as N3' by (destruct N3 as (A & Bq); split; [destruct A as [A|A]; [left; exact A|right; cbn; destruct (p_last_read p3); congruence]|exact Bq]).
    assert (exists p4, match p_ka p3 with None => Some p3 | Some _ => match ka_maybe_schedule (pi_idle i) (set_last_read (pi_now i) p3) with Some q => ka_maybe_ping (pi_now i) (pi_idle i) (pi_f2 i) (pi_ok2 i) q | None => None end end = Some p4 /\ no_expect p4 /\ (p_ka p3 = None -> p4 = p3)) as (p4 & -> & N4 & K4).
    { destruct (p_ka p3); [|exists p3; auto]. destruct (ne_schedule (pi_idle i) _ N3') as (q & -> & Nq & _). destruct (ne_ping (pi_now i) (pi_idle i) (pi_f2 i) (pi_ok2 i) q Nq) as (p4 & -> & N4 & _). exists p4. split; [reflexivity|]. split; [exact N4|discriminate]. }
    assert (p_ka p = None -> p_ka p4 = None /\ forall t, In (PDead t) (p_log p4) -> In (PDead t) (p_log p)) as K5.
    { intros F. destruct (K F) as (Q1 & Q2). assert (p_ka p3 = None) as Q3 by (subst p3; exact Q1). rewrite (K4 Q3). split; [exact Q3|]. intros t Hi. subst p3. cbn in Hi. rewrite Q2 in Hi. apply in_app_or in Hi. destruct Hi as [Hi|[Hi|[]]]; [exact Hi|discriminate Hi]. }
    destruct (p_bdp p4) as [b|] eqn:Eb; [|do 2 eexists; split; [reflexivity|]; split; [exact N4|exact K5]]. destruct (p_bytes p4) as [n|] eqn:En; [|destruct N4 as (_ & [N4|N4]); congruence].
    destruct (bdp_calculate n (pi_slower i) b) as [b' u]. destruct u as [w|]; do 2 eexists; (split; [reflexivity|]); (split; [split; [exact (proj1 N4)|right; discriminate]|]); intros F; destruct (K5 F) as (Q1 & Q2); (split; [exact Q1|]); cbn [p_logs p_log]; [|exact Q2].
    intros t Hi. apply in_app_or in Hi. destruct Hi as [Hi|[Hi|[]]]; [auto|discriminate Hi].
  - destruct (p_ka p2) as [k|] eqn:Ek; [|apply Same]. destruct (ka_st k); try apply Same. destruct (sleep_ready _ _ _); [|apply Same].
    do 2 eexists. split; [reflexivity|]. split; [split; [left; reflexivity|exact (proj2 N2)]|]. intros F. destruct (K F) as (Q1 & _). congruence.
Qed.
Lemma ne_data now len ok p : no_expect p -> no_expect (record_data now len ok p) /\ p_ka (record_data now len ok p) = p_ka p /\ forall t, In (PDead t) (p_log (record_data now len ok p)) -> In (PDead t) (p_log p).
Proof.
  intros (A & Bq). unfold record_data, record_bytes, clear_next_bdp, send_ping, no_expect, p_logs, set_last_read, set_sent. cbn [p_next_bdp p_bytes p_sent_at p_ka p_last_read p_bdp p_log].
  assert (p_ka p = None \/ match p_last_read p with Some _ => Some now | None => None end <> None) as A' by (destruct A as [A|A]; [left; exact A|right; destruct (p_last_read p); congruence]).
  assert (forall e l t, In (PDead t) (l ++ [e]) -> (forall t, e <> PDead t) -> In (PDead t) l) as Hd by (intros e l t Hi Hn; apply in_app_or in Hi; destruct Hi as [Hi|[Hi|[]]]; [exact Hi|now destruct (Hn t)]).
  assert (forall t e, (forall t, e <> PDead t) -> In (PDead t) ((p_log p ++ [PFrame now]) ++ [e]) -> In (PDead t) (p_log p)) as Hd2 by (intros t e He Hi; apply Hd in Hi; [apply Hd in Hi; [exact Hi|discriminate]|exact He]).
  destruct (p_next_bdp p) as [x|]; [destruct (now <? x)|]; destruct (p_bytes p) eqn:En; destruct (p_sent_at p); destruct ok; cbn [p_next_bdp p_bytes p_sent_at p_ka p_last_read p_bdp p_log]; (split; [split; [exact A'|try exact Bq; right; discriminate]|split; [reflexivity|intros t Hi]]); try (apply (Hd (PFrame now)) in Hi; [exact Hi|discriminate]); refine (Hd2 _ _ _ Hi); discriminate.
Qed.
Theorem C44_no_panic : forall c start l, exists p, p_run (p_channel c start) l = Some p /\ (pc_interval c = None -> forall t, ~ In (PDead t) (p_log p)).
Proof.
  intros c start l. assert (no_expect (p_channel c start)) as N0.
  { split; cbn; [destruct (pc_interval c); [right; discriminate|left; reflexivity]|destruct (pc_window c); [right; discriminate|left; reflexivity]]. }
  assert (forall l p, no_expect p -> exists p', p_run p l = Some p' /\ (p_ka p = None -> forall t, In (PDead t) (p_log p') -> In (PDead t) (p_log p))) as G.
  { clear. induction l as [|a l IH]; intros p NE; [exists p; auto|]. cbn [p_run].
    assert (exists p1, p_act p a = Some p1 /\ no_expect p1 /\ (p_ka p = None -> p_ka p1 = None /\ forall t, In (PDead t) (p_log p1) -> In (PDead t) (p_log p))) as (p1 & -> & N1 & K1).
    { destruct a as [t len ok|t|i]; cbn [p_act].
      - destruct (ne_data t len ok p NE) as (Q1 & Q2 & Q3). eexists. split; [reflexivity|]. split; [exact Q1|]. intros F. split; [congruence|exact Q3].
      - eexists. split; [reflexivity|]. destruct NE as (A & Bq). split; [split; [destruct A as [A|A]; [left; exact A|right; cbn; destruct (p_last_read p); congruence]|exact Bq]|]. intros F. split; [exact F|].
        intros t' Hi. cbn in Hi. apply in_app_or in Hi. destruct Hi as [Hi|[Hi|[]]]; [exact Hi|discriminate Hi].
      - destruct (ne_poll i p NE) as (p' & o & -> & Q). exists p'. split; [reflexivity|exact Q]. }
    destruct (IH p1 N1) as (p2 & E2 & K2). exists p2. split; [exact E2|]. intros F t Hi. destruct (K1 F) as (Q1 & Q2). auto. }
  destruct (G l _ N0) as (p & E & K). exists p. split; [exact E|]. intros F t Hi. apply K in Hi; [destruct Hi|]. cbn. rewrite F. reflexivity.
Qed.
(* Finding: "dead" does not mean silent: data that arrives while the answer to the
   ping is awaited does not count *)
Definition quiet (t : N) (pg : pong) : pact := PPoll (mkPin t false true true pg true true true false).
Theorem C44_not_silent_refuted : exists c start l p t, timeline start l /\ p_run (p_channel c start) l = Some p /\ refused_only_pending (p_log p) /\
  In (PDead t) (p_log p) /\ heard (t - 1) (p_log p) /\ pc_interval c = Some 10.
Proof.
  exists (mkPC None (Some 10) 5 true), 0, [quiet 1 PongPending; quiet 10 PongPending; PData 14 100 true; quiet 15 PongPending]. eexists. exists 15.
  split; [cbn; lia|]. split; [reflexivity|]. split; [|split; [cbn; auto 10|split; [left; cbn; auto 10|reflexivity]]].
  intros l1 t l2 F. cbn in F. repeat (destruct l1 as [|? l1]; inversion F; subst; try reflexivity; clear F; rename H1 into F). 
Qed.
Example C44_ex : exists p, p_run (p_channel (mkPC (Some 65535) (Some 10) 5 false) 0) [PNonData 3; quiet 4 PongPending; quiet 13 PongPending; quiet 18 PongPending] = Some p /\ p_log p = [PFrame 3; PAsk 13 false; PSend 13 true; PDead 18].
Proof. eexists. split; vm_compute; reflexivity. Qed.
Example C44_ex_answered : exists p, p_run (p_channel (mkPC (Some 65535) (Some 10) 5 false) 0) [PNonData 3; quiet 4 PongPending; quiet 13 PongPending; quiet 18 PongReady; quiet 20 PongPending] = Some p /\ p_log p = [PFrame 3; PAsk 13 false; PSend 13 true; PPong 18].
Proof. eexists. split; vm_compute; reflexivity. Qed.

Print Assumptions C43_builder.
Print Assumptions C43_window.
Print Assumptions C43_settles.
Print Assumptions C43_shrink_refuted.
Print Assumptions C44_dead.
Print Assumptions C44_idle.
Print Assumptions C44_no_panic.
Print Assumptions C44_not_silent_refuted.
Print Assumptions C43_patient.
