(* C84: a head that can be written is written; the only heads that fail are the
   application's own. *)
From Verif Require L_Reply L_Writable P_Refuse P_Accept.
From Coq Require Import Permutation.
From Verif Require Import M_Httparse.
From Verif Require Import Base M_Src M_Decode S_Buf L_Buf S_Transport S_Chunked S_Read S_Send L_Decode L_Chunked L_Body L_Read M_HeaderMap M_Headers M_Encode M_Role M_RoleEncode M_Buf M_WriteBuf M_Read M_Conn M_Dispatch S_Conn S_Client S_Framing L_Headers L_Framing S_Inbound S_Head L_Conn L_Moves L_ConnS L_Ka L_Exch L_Done L_Report L_Stream P_Stream P_Conn M_Parse S_Parse P_Parse S_Outbound L_Outbound P_Outbound P_EndToEnd P_View S_Reply P_Reply S_Answers P_Answers P_RoundTrip P_Conversation S_Accept S_Writable.

(* ---- No head fails but one that is handed over ---- *)
Definition nf (e : levent) : bool := match e with LHeadFail _ => false | _ => true end.
Definition clean (k k' : conn) : Prop := exists l, k_log k' = k_log k ++ l /\ forallb nf l = true.
Lemma nf_calm s l : forallb (calmly s) l = true -> forallb nf l = true.
Proof. induction l as [|e l IH]; [auto|]. cbn [forallb]. intros H. apply andb_prop in H. destruct H as (H1 & H2). rewrite (IH H2). destruct e; try discriminate H1; reflexivity. Qed.
Lemma clean_tame s k k' : tame s k k' -> clean k k'.
Proof. intros ((l & E & H) & _). exists l. split; [exact E|]. eapply nf_calm, H. Qed.
Lemma clean_same k k' : k_log k' = k_log k -> clean k k'.
Proof. intros E. exists []. now rewrite app_nil_r. Qed.
Lemma clean_trans k k' k'' : clean k k' -> clean k' k'' -> clean k k''.
Proof. intros (a & A1 & A2) (b & B1 & B2). exists (a ++ b). rewrite B1, A1, app_assoc, forallb_app, A2, B2. auto. Qed.
Lemma clean_log k l : forallb nf l = true -> clean k (log k l).
Proof. intros H. exists l. auto. Qed.
Definition NF (d : disp) : Prop := forallb nf (k_log (d_conn d)) = true.
Lemma NF_clean d d' : clean (d_conn d) (d_conn d') -> NF d -> NF d'.
Proof. intros (l & E & H) F. unfold NF in *. now rewrite E, forallb_app, F, H. Qed.

Lemma clean_head c now blk k : clean k (fst (k_poll_read_head c now blk k)).
Proof.
  unfold k_poll_read_head.
  assert (k_log (start_timer c now k) = k_log k) as L0 by (unfold start_timer; destruct (k_running k); [auto|]; destruct (c_timeout c); auto).
  remember (start_timer c now k) as k0 eqn:Ek. clear Ek. destruct (io_parse _ _ (k_rd k0)) as [rd r]. destruct r as [|[m|e]].
  - apply clean_same. cbn [k_running k_timer set_rd]. destruct (k_running k0), (k_timer k0) as [t|]; try exact L0. destruct (t <=? now); exact L0.
  - cbn [fst]. unfold got_head. set (k1 := if in_keep m then _ else _).
    assert (k_log k1 = k_log k) as L1. { subst k1. unfold busy, st_disable_keep_alive. destruct (c_server c); match goal with |- context [k_ka ?x] => destruct (k_ka x) end; destruct (in_keep m); exact L0. }
    clearbody k1. set (k2 := log (set_version k1 (in_version m)) [LIn m]). assert (clean k k2) as L2 by (exists [LIn m]; subst k2; cbn; rewrite L1; auto). clearbody k2.
    destruct (in_decode m =? DL_ZERO).
    + apply (clean_trans _ k2); [exact L2|]. apply (clean_trans _ (log (set_reading k2 RKeepAlive) [LInEnd])); [now exists [LInEnd]|]. destruct (c_server c); [now apply clean_same|]. destruct (clean_tame _ _ _ (tame_try true c blk (log (set_reading k2 RKeepAlive) [LInEnd]))) as (l & E & F). exists l. auto.
    + apply (clean_trans _ k2); [exact L2|]. destruct (_ && _); now apply clean_same.
  - destruct (parse_failure e) as [e' n]. unfold on_read_head_error. set (k1 := set_rd (close_read (set_rd (set_rd k0 rd) _)) _).
    assert (k_log k1 = k_log k /\ k_ka k1 = KDisabled) as (L1 & K1) by (split; [exact L0|reflexivity]). clearbody k1.
    destruct (_ || _); [|now apply clean_same]. unfold on_parse_error. destruct (k_writing k1); try now apply clean_same. destruct (has_h2_prefix k1); [now apply clean_same|].
    destruct (t_on_error c e') as [st|] eqn:Et; [|now apply clean_same]. cbn [fst]. unfold t_on_error in Et. destruct (c_server c) eqn:Hs; [|discriminate Et]. destruct e' as [p| | | | | | |]; try discriminate Et.
    destruct (write_auto c k1 (mkO HTTP11 (OResponse st None) [] None) Hs) as (_ & h' & out & L2 & _); [exists st, p; auto|exact K1|].
    exists [LHead true h' out; LEnd]. split; [cbn [k_log set_error]; now rewrite L2, L1|reflexivity].
Qed.

(* What the application may have ready without a head failing, whatever the request was *)
Definition safe (c : cfg) (i : inp) : Prop :=
  if c_server c then match i_msg i with Ready (Ok _) => False | _ => True end
  else (exists me ta, o_subject (fst (i_req i)) = ORequest me ta) /\ request_writable (fst (i_req i)).
Lemma clean_request c k h body me ta : o_subject h = ORequest me ta -> request_writable h -> clean k (write_head c false k h body).
Proof.
  intros Hs Hv. unfold write_head, encode_head. set (k0 := if c_server c then k else _).
  assert (k_log k0 = k_log k) as L0. { subst k0. destruct (c_server c); [auto|]. unfold busy, st_disable_keep_alive. destruct (k_ka k); destruct (connection_any_close _); reflexivity. }
  clearbody k0. pose proof (enforce_for k0 h) as Hf. pose proof (enforce_frame k0 h) as Q. destruct (enforce_version k0 h) as [k1 h1]. cbn [fst snd] in *.
  destruct Hf as (F1 & _ & F3 & _). assert (k_log k1 = k_log k0) as L1 by (apply Q).
  unfold t_encode. rewrite F1, Hs. unfold client_encode. cbn [c_version c_method c_headers c_body]. destruct (set_length _ _ _ _) as [hs e].
  assert (told_version (o_version h1)) as [-> | [-> | ->]] by (destruct F3 as [-> | ->]; [exact Hv|now left]).
  all: unfold clean; cbn; destruct (enc_is_eof e); eexists; (split; [rewrite L1, L0, <- ?app_assoc; reflexivity|reflexivity]).
Qed.
(* What survives every action but the writing of a head that is handed over *)
Lemma kept_stable c (good : inp -> Prop) (Q : list levent -> Prop) : (forall l l', forallb nf l' = true -> Q l -> Q (l ++ l')) ->
  (forall i k h body, good i -> Q (k_log k) -> (c_server c = true -> i_msg i = Ready (Ok (h, body))) -> (c_server c = false -> i_req i = (h, body)) -> Q (k_log (write_head c false k h body))) ->
  stable c good (fun _ => True) (fun d => Q (k_log (d_conn d))).
Proof.
  intros HQ Hw. set (Iv := fun d => Q (k_log (d_conn d))).
  assert (forall d d', clean (d_conn d) (d_conn d') -> Iv d -> Iv d') as Hcl by (intros d d' (l & E & F) H; unfold Iv; rewrite E; now apply HQ).
  assert (forall d k, clean (d_conn d) k -> Iv d -> Iv (dset_conn d k)) as RC by (intros d k; exact (Hcl d (dset_conn d k))).
  assert (forall d l, forallb nf l = true -> Iv d -> Iv (dlog d l)) as RL by (intros d l F; apply RC, clean_log, F).
  assert (forall d, Iv d -> Iv (d_close d)) as Cl by (intros d; apply Hcl; now apply clean_same).
  assert (forall d e, Iv d -> Iv (fst (recv_error c d e))) as Re.
  { intros d e H. unfold recv_error. destruct (c_server c); [exact H|]. destruct (d_callback d) as [id|]; [apply (RL (dset_client d _ _ _)); [reflexivity|exact H]|]. destruct (d_rx_closed d); [exact H|].
    destruct (ch_try_recv _) as [ch [id|]]; [apply (RL (dset_client d _ _ _)); [reflexivity|exact H]|exact H]. }
  assert (forall d, Iv d -> Iv (d_drop d)) as Dr.
  { intros d H. rewrite d_drop_eq. apply (Hcl d); [|exact H]. apply clean_log. unfold drop_events. rewrite !forallb_app.
    destruct (d_body_tx d), (d_callback d); cbn [forallb nf andb]; induction (ch_queue (d_chan d)); auto. }
  apply stable_introJ.
  - intros d tx rx p _ H. exact H.
  - intros d e He _ H. apply RL; [|exact H]. destruct e; try discriminate He; reflexivity.
  - intros d _ H. split; [|split; [|split]]; intros; (apply RC; [|exact H]); unfold wants_read_again, pending_upgrade, take_error; cbn [fst]; [now apply clean_same|now apply clean_same| |].
    + destruct (k_error (d_conn d)); now apply clean_same.
    + eapply clean_trans; [|apply clean_log; destruct sent; reflexivity]. now apply clean_same.
  - intros d _ H _. now apply Cl.
  - intros i d _ H _ Hc Hp. unfold d_poll_read_head. rewrite Hp.
    pose proof (clean_head c (i_now i) (i_blk i) (d_conn d)) as R. destruct (k_poll_read_head c _ _ _) as [k r]. cbn [fst] in R.
    assert (Iv (dset_conn d k)) as R0 by now apply RC.
    destruct r as [|[[m|e]|]].
    + exact R0.
    + set (d1 := if in_decode m =? DL_ZERO then _ else _). assert (Iv d1) as R1.
      { subst d1. destruct (in_decode m =? DL_ZERO); [exact R0|]. cbn [d_body_tx dset_conn]. destruct (d_body_tx d); [|exact R0]. apply (RL (dset_conn d k)); [reflexivity|exact R0]. }
      clearbody d1. set (d2 := if in_upgrade m then _ else _). assert (Iv d2) as R2 by (subst d2; destruct (in_upgrade m); [apply RC; [now apply clean_same|exact R1]|exact R1]). clearbody d2.
      unfold recv_ok. destruct (c_server c); [exact R2|]. destruct (d_callback d2); [|exact R2]. apply (RL (dset_client d2 _ _ _)); [reflexivity|exact R2].
    + specialize (Re _ e R0). destruct (recv_error c (dset_conn d k) e) as [d' [|]]; exact Re.
    + cbn [fst d_conn dset_conn]. destruct (is_write_closed k); [now apply Cl|exact R0].
  - intros i d _ H _ _. apply RC; [eapply clean_tame, (tame_drain true)|exact H].
  - intros i d _ H _ _. apply RC; [|exact H]. eapply clean_trans; [apply (clean_log (d_conn d) [LWant]); reflexivity|eapply clean_tame, (tame_read_body true)].
  - intros d _ H _. apply RC; [eapply clean_tame, (tame_close_read true)|exact H].
  - intros d _ H _ _ _. apply RC; [eapply clean_tame, (tame_keep_alive true)|exact H].
  - intros i d _ H. apply RC; [eapply clean_tame, (tame_flush true)|exact H].
  - intros i d Hg _ H _ Hc Hp. unfold d_poll_msg. destruct (c_server c) eqn:Hs; [destruct (i_msg i) as [|[[h body]|e]] eqn:Em; [exact H| |exact H]; apply (Hw i (d_conn d) h body Hg H); [auto|discriminate]|].
    destruct (ch_poll_recv _ _) as [ch [|[id|]]]; [exact H| |exact H]. destruct (i_canceled i); [apply (RL (dset_client d _ _ _)); [reflexivity|exact H]|].
    destruct (i_req i) as [h body] eqn:Em. set (d' := dlog _ _). assert (Iv d') as H' by (apply (RL (dset_client d _ _ _)); [reflexivity|exact H]). clearbody d'. apply (Hw i (d_conn d') h body Hg H'); [discriminate|auto].
  - intros i d _ H _. apply RC; [eapply clean_tame, (tame_end true); now right|exact H].
  - intros i d b _ H _ _. apply RC; [eapply clean_tame, tame_body|exact H].
  - intros i d b _ H _ _. apply RC; [eapply (clean_tame true), tame_effect; [apply write_body_and_end_effect|apply body_and_end_error|now right]|exact H].
  - intros i d t _ H _ _. apply RC; [eapply clean_tame, tame_trailers|exact H].
  - intros d e _ H. now apply Re.
  - intros d _ H. now apply Dr.
  - intros e d _ H. destruct e as [s| | |]; cbn [estep].
    + destruct (c_server c); exact H.
    + destruct (d_pc d); try exact H. destruct (c_server c); [|exact H]. unfold d_graceful, k_disable_keep_alive.
      set (d1 := dset_conn d _). assert (Iv d1) as H1 by (apply RC; [destruct (is_idle (d_conn d)); now apply clean_same|exact H]). clearbody d1.
      destruct (_ || _); [|exact H1]. now apply Cl.
    + destruct (d_pc d); try exact H. now apply Dr.
    + destruct (d_pc d), (k_log (d_conn d)); try exact H. destruct (c_server c); [|exact H]. apply RC; [now apply clean_same|exact H].
Qed.

Lemma NF_stable c : stable c (safe c) (fun _ => True) NF.
Proof.
  apply (kept_stable c (safe c) (fun l => forallb nf l = true)).
  - intros l l' H1 H2. now rewrite forallb_app, H1, H2.
  - intros i k h body Hg H H1 H2. unfold safe in Hg. destruct (c_server c) eqn:Hs; [rewrite (H1 eq_refl) in Hg; destruct Hg|]. rewrite (H2 eq_refl) in Hg. destruct Hg as ((me & ta & G1) & G2). cbn [fst] in *.
    destruct (clean_request c k h body me ta G1 G2) as (l & -> & F). now rewrite forallb_app, H, F.
Qed.
Lemma run_log c ms d : exists l, k_log (d_conn (run c ms d)) = k_log (d_conn d) ++ l.
Proof.
  apply (Inv_run c _ _ (kept_stable c (fun _ => True) (fun x => exists l, x = k_log (d_conn d) ++ l) (fun l l' _ H => match H with ex_intro _ y E => ex_intro _ (y ++ l') (eq_trans (f_equal (fun z => z ++ l') E) (eq_sym (app_assoc _ _ _))) end)
    (fun i k h body _ H _ _ => match write_head_report c k h body with ex_intro _ l (conj L _) => match H with ex_intro _ y E => ex_intro _ (y ++ l) (eq_trans L (eq_trans (f_equal (fun z => z ++ l) E) (eq_sym (app_assoc _ _ _)))) end end))); [auto|].
  exists []. now rewrite app_nil_r.
Qed.

(* ---- The move in which a head fails ---- *)
Definition mute (i : inp) : inp :=
  mkI (i_now i) (i_blk i) (i_room i) (i_wevs i) (i_canceled i) (i_body i) (i_send i) Pending (mkO HTTP11 (ORequest [] []) [] None, None) (i_frame i) (i_eos i) (i_shutdown i) (i_race i).
Lemma mute_safe c i : safe c (mute i).
Proof. unfold safe, mute. cbn. destruct (c_server c); [exact Logic.I|]. split; [eauto|]. right. now left. Qed.
Definition hands (c : cfg) (i : inp) (d : disp) (h : ohead) (b : option body_length) : Prop :=
  tells c (Step i) d = [TMsg h b] /\ d_body_rx d = false /\ can_write_head c (d_conn d) = true /\ should_poll c d = true /\ (c_server c = false -> i_req i = (h, b)) /\
  (c_server c = true -> i_msg i = Ready (Ok (h, b)) /\ d_conn (dmove c (Step i) d) = write_head c false (d_conn d) h b).
Lemma step_safe c i d : (exists i', safe c i' /\ dmove c (Step i) d = dmove c (Step i') d) \/ exists h b, hands c i d h b.
Proof.
  assert (dmove c (Step i) d = dmove c (Step (mute i)) d -> (exists i', safe c i' /\ dmove c (Step i) d = dmove c (Step i') d) \/ exists h b, hands c i d h b) as M by (intros E; left; exists (mute i); split; [apply mute_safe|exact E]).
  assert (forall n, d_pc d = PWrite n \/ d_pc d = PWrite2 n -> (exists i', safe c i' /\ dmove c (Step i) d = dmove c (Step i') d) \/ exists h b, hands c i d h b) as Wr.
  { intros n Hp. assert (poll_write_it c i d = poll_write_it c (mute i) d -> dmove c (Step i) d = dmove c (Step (mute i)) d) as P by (intros E; cbn [dmove]; unfold dstep; destruct Hp as [-> | ->]; rewrite E; reflexivity).
    destruct (d_closing d) eqn:Ec; [apply M, P; unfold poll_write_it; rewrite Ec; reflexivity|].
    destruct (negb (d_body_rx d) && can_write_head c (d_conn d) && should_poll c d) eqn:Eh; [|apply M, P; unfold poll_write_it; rewrite Ec, Eh; destruct i; reflexivity].
    pose proof Eh as Eh'. apply andb_prop in Eh as [Eh Efl]. apply andb_prop in Eh as [Erx Eh]. apply negb_true_iff in Erx.
    assert (tells c (Step i) d = offers c i d) as Et by (cbn; destruct Hp as [-> | ->]; reflexivity).
    destruct (c_server c) eqn:Hs.
    - destruct (i_msg i) as [|[[h b]|u]] eqn:Em.
      + apply M, P. unfold poll_write_it. rewrite Ec, Eh'. unfold d_poll_msg. rewrite Hs, Em. reflexivity.
      + right. exists h, b. unfold hands. rewrite Et, Hs. unfold offers. rewrite Ec, Eh'. unfold d_poll_msg at 1. rewrite Hs, Em. cbn [snd]. do 4 (split; [auto|]). split; [discriminate|]. intros _. split; [reflexivity|]. cbn [dmove]. unfold dstep. destruct Hp as [-> | ->]; unfold poll_write_it; rewrite Ec, Eh'; unfold d_poll_msg; rewrite Hs, Em; reflexivity.
      + left. exists i. split; [unfold safe; rewrite Hs, Em; exact Logic.I|reflexivity].
    - assert (forall ch r, ch_poll_recv (i_race i) (d_chan d) = (ch, r) -> (forall id, r = Ready (Some id) -> i_canceled i = true) -> poll_write_it c i d = poll_write_it c (mute i) d) as Z.
      { intros ch r Ep Hr. unfold poll_write_it. rewrite Ec, Eh'. unfold d_poll_msg. rewrite Hs. cbn [mute i_race i_canceled]. rewrite Ep. destruct r as [|[id|]]; try reflexivity. rewrite (Hr id eq_refl). reflexivity. }
      destruct (ch_poll_recv (i_race i) (d_chan d)) as [ch [|[id|]]] eqn:Ep.
      + apply M, P, (Z _ _ eq_refl). discriminate.
      + destruct (i_canceled i) eqn:Ei; [apply M, P, (Z _ _ eq_refl); auto|]. right. destruct (i_req i) as [h b] eqn:Er. exists h, b. unfold hands. rewrite Et, Hs. unfold offers. rewrite Ec, Eh'. unfold d_poll_msg at 1. rewrite Hs, Ep, Ei, Er. cbn [snd]. do 4 (split; [auto|]). split; [auto|discriminate].
      + apply M, P, (Z _ _ eq_refl). discriminate. }
  destruct (d_pc d) eqn:Ep; try (apply (Wr n); now auto); apply M; cbn [dmove]; unfold dstep; rewrite Ep; destruct i; reflexivity.
Qed.
Lemma first_failure c ms : forall d, NF d -> NF (run c ms d) \/
  exists ms1 i ms2 h b, ms = ms1 ++ Step i :: ms2 /\ NF (run c ms1 d) /\ ~ NF (dmove c (Step i) (run c ms1 d)) /\ hands c i (run c ms1 d) h b.
Proof.
  induction ms as [|m ms IH]; intros d H; [now left|]. change (run c (m :: ms) d) with (run c ms (dmove c m d)).
  assert (NF (dmove c m d) \/ ~ NF (dmove c m d) /\ exists i h b, m = Step i /\ hands c i d h b) as [N'|(N' & i & h & b & -> & Hh)].
  { unfold NF at 1 2. destruct (forallb nf (k_log (d_conn (dmove c m d)))) eqn:E; [now left|]. right. split; [discriminate|].
    assert (forall i, safe c i -> NF (dmove c (Step i) d)) as S by (intros i Hi; apply (Inv_run_good c _ _ (NF_stable c) [Step i] d); auto).
    destruct m as [i|e]; [|exfalso; assert (NF (dmove c (Env e) d)) as F by (apply (Inv_run_good c _ _ (NF_stable c) [Env e] d); auto); unfold NF in F; congruence].
    destruct (step_safe c i d) as [(i' & A & B')|(h & b & A)]; [|eauto]. specialize (S i' A). rewrite <- B' in S. unfold NF in S. congruence. }
  - destruct (IH _ N') as [G|(ms1 & i & ms2 & h & b & -> & G)]; [now left|]. right. exists (m :: ms1), i, ms2, h, b. split; [reflexivity|exact G].
  - right. exists [], i, ms, h, b. auto.
Qed.

(* ---- Which message it was ---- *)
Lemma told_app c a : forall b d, told_in c (a ++ b) d = told_in c a d ++ told_in c b (run c a d).
Proof. induction a as [|m a IH]; intros b d; [reflexivity|]. cbn [told_in app]. rewrite IH, app_assoc. reflexivity. Qed.
Definition named (g : gmsg) : ohead * option body_length := (g_head g, g_len g).
Lemma give_named ts : forall gs, exists x, map named (fold_left give ts gs) = x ++ map named gs.
Proof.
  induction ts as [|t ts IH]; intros gs; [now exists []|]. cbn [fold_left]. destruct (IH (give gs t)) as (x & ->).
  destruct t as [h b|b|t|]; cbn [give]; [exists (x ++ [(h, b)]); rewrite <- app_assoc; reflexivity|..]; exists x; destruct gs as [|g gs]; reflexivity.
Qed.
Lemma handed_at c h09 flat wmax evs ms1 i ms2 h b : let d := start h09 flat wmax evs in hands c i (run c ms1 d) h b ->
  exists g, nth_error (handed c h09 flat wmax evs (ms1 ++ Step i :: ms2)) (length (fold_left give (told_in c ms1 d) [])) = Some g /\ g_head g = h /\ g_len g = b.
Proof.
  intros d (T & _). unfold handed, given. fold d. rewrite told_app. cbn [told_in]. rewrite T, !fold_left_app. cbn [fold_left app].
  set (gs := fold_left give (told_in c ms1 d) []). set (ts := told_in c ms2 _). destruct (give_named ts (give gs (TMsg h b))) as (x & E). cbn [give map] in E.
  set (r := fold_left give ts _) in *. assert (nth_error (map named (rev r)) (length gs) = Some (h, b)) as F.
  { rewrite map_rev. change (fold_left give ts (give gs (TMsg h b))) with r in E. rewrite E, rev_app_distr. cbn [rev]. rewrite nth_error_app1, nth_error_app2; rewrite ?app_length, ?rev_length, ?map_length; cbn [length]; try lia. now rewrite Nat.sub_diag. }
  rewrite nth_error_map in F. destruct (nth_error (rev r) (length gs)) as [g|]; [|discriminate]. injection F as <- <-. exists g. auto.
Qed.
Lemma failed_NF c h09 flat wmax evs ms : (exists bs, In (LHeadFail bs) (history c h09 flat wmax evs ms)) -> ~ NF (run c ms (start h09 flat wmax evs)).
Proof. intros (bs & H) F. unfold NF in F. rewrite forallb_forall in F. specialize (F _ H). discriminate F. Qed.

(* A head that fails on a server is that of a response that the service handed
   over, refused by Server::encode as the answer to the request with its number *)
Theorem C84_failed : forall c h09 flat wmax evs ms bs, c_server c = true -> L_Reply.service_moves c ms ->
  let l := history c h09 flat wmax evs ms in In (LHeadFail bs) l ->
  exists n m g h' keep out err, nth_error (requests l) n = Some m /\ nth_error (handed c h09 flat wmax evs ms) n = Some g /\
    head_for (g_head g) h' /\ encodes c (in_method m) (g_len g) h' keep out (Err err).
Proof.
  intros c h09 flat wmax evs ms bs Hs Hm l Hf. set (d0 := start h09 flat wmax evs).
  destruct (first_failure c ms d0) as [F|(ms1 & i & ms2 & h & b & Em & N1 & N2 & Hh)]; [reflexivity|exfalso; refine (failed_NF _ _ _ _ _ _ _ F); eauto|].
  assert (L_Reply.service_moves c ms1 /\ L_Reply.good_service c i) as (Hm1 & Hi) by (rewrite Em in Hm; apply Forall_app in Hm; destruct Hm as (A & B'); split; [exact A|]; inversion B'; assumption).
  assert (L_Reply.RD c d0 []) as H0.
  { split; [apply SInv_start|]. split; [split; [discriminate|reflexivity]|]. apply (L_Reply.rk_done _ _ _ _ _ []); [reflexivity|reflexivity|exact Logic.I|reflexivity|discriminate]. }
  destruct (L_Reply.RD_run c ms1 Hs d0 [] Hm1 H0) as (_ & HM & HR). set (d := run c ms1 d0) in *. set (gs := fold_left give (told_in c ms1 d0) []) in *.
  pose proof Hh as (T & Erx & Ew & Efl & _ & Hc). destruct (Hc Hs) as (Hi' & Hc'). clear Hc. rename Hc' into Hc. unfold should_poll in Efl. rewrite Hs in Efl.
  assert (k_writing (d_conn d) = WInit) as Hw by (unfold can_write_head in Ew; destruct (_ && _) in Ew; [discriminate|]; destruct (k_writing (d_conn d)); auto; discriminate).
  destruct HM as (HM & _). destruct (HM Efl) as (M1 & M2). destruct (M2 Hw) as (m & M3 & M4 & _).
  assert (length (answers (k_log (d_conn d))) = length gs) as La by (destruct HR; congruence).
  assert (exists st re, o_subject h = OResponse st re) as Ho.
  { destruct Hi as (Hi & _). rewrite Hi' in Hi. exact Hi. }
  destruct (L_Reply.server_head c false (d_conn d) h b Hs Ho) as (h' & keep & out & r & Hf' & He & _ & _ & Hr).
  destruct (handed_at c h09 flat wmax evs ms1 i ms2 h b Hh) as (g & G1 & G2 & G3). fold d0 gs in G1. rewrite <- Em in G1.
  destruct r as [e|err].
  { exfalso. apply N2. unfold NF. rewrite Hc. destruct Hr as (-> & _). rewrite forallb_app. unfold NF in N1. rewrite N1. destruct (enc_is_eof e); reflexivity. }
  exists (length gs), m, g, h', keep, out, err. split; [|split; [exact G1|]; rewrite G2, G3, <- M4; auto].
  destruct (run_log c (Step i :: ms2) d) as (l2 & E2). subst l. unfold history. rewrite Em, run_app. fold d0 d. rewrite E2. unfold requests. rewrite flat_map_app. apply L_Reply.nth_more. rewrite <- La. exact M3.
Qed.

(* Server::encode accepts what is writable, with what the connection changes in it *)
Theorem C84_encodes : forall c method h len h' keep out r, reply_writable method h len -> head_for h h' -> encodes c method len h' keep out r -> exists e, r = Ok e.
Proof. exact L_Writable.reply_encodes. Qed.

(* If all that the service hands over is writable, no head fails *)
Theorem C84_server : forall c h09 flat wmax evs ms, c_server c = true -> L_Reply.service_moves c ms ->
  let l := history c h09 flat wmax evs ms in
  (forall n m g, nth_error (requests l) n = Some m -> nth_error (handed c h09 flat wmax evs ms) n = Some g -> reply_writable (in_method m) (g_head g) (g_len g)) ->
  no_failed_head l.
Proof.
  intros c h09 flat wmax evs ms Hs Hm l Hw bs Hf. destruct (C84_failed c h09 flat wmax evs ms bs Hs Hm Hf) as (n & m & g & h' & keep & out & err & A1 & A2 & A3 & A4).
  destruct (C84_encodes c _ _ _ _ _ _ _ (Hw n m g A1 A2) A3 A4). discriminate.
Qed.
Theorem C84_client : forall c h09 flat wmax evs ms, c_server c = false -> app_moves c ms ->
  Forall (fun q => request_writable (g_head q)) (handed c h09 flat wmax evs ms) -> ~ head_failed (history c h09 flat wmax evs ms).
Proof.
  intros c h09 flat wmax evs ms Hs Hm Hw Hf. set (d0 := start h09 flat wmax evs).
  destruct (first_failure c ms d0) as [F|(ms1 & i & ms2 & h & b & Em & N1 & N2 & Hh)]; [reflexivity|exact (failed_NF _ _ _ _ _ _ Hf F)|].
  apply N2. apply (Inv_run_good c _ _ (NF_stable c) [Step i] (run c ms1 d0)); [|exact N1]. apply Forall_cons; [|apply Forall_nil].
  rewrite Em in Hm. apply Forall_app in Hm. destruct Hm as (_ & Hm). apply Forall_cons_iff in Hm. destruct Hm as ((Hi & _) & _).
  unfold safe. rewrite Hs. split; [exact Hi|]. destruct (handed_at c h09 flat wmax evs ms1 i ms2 h b Hh) as (g & G1 & G2 & _). rewrite <- Em in G1. apply nth_error_In in G1. rewrite Forall_forall in Hw. specialize (Hw g G1).
  destruct Hh as (_ & _ & _ & _ & Hr & _). rewrite (Hr Hs). cbn [fst]. now rewrite <- G2.
Qed.

(* C83 for two applications that hand over writable messages: nothing is said
   about what happens on the connections but that the server writes in order *)
Theorem C84_conversation : forall c flat wmax evs ms o room s h09 flat' wmax' evs' ms' o' room' more more',
  c_server c = false -> parses_with c o -> hp_ok o -> reads_responses o room -> reads_trailers c -> app_moves c ms ->
  c_server s = true -> parses_with s o' -> hp_ok o' -> waits_for_rest o' -> reads_requests o' room' -> room' <= 24576 -> reads_trailers s -> 0 < c_max s -> value_chars (c_date s) -> L_Reply.service_moves s ms' ->
  let l := history c false flat wmax evs ms in let l' := history s h09 flat' wmax' evs' ms' in
  let qs := handed c false flat wmax evs ms in let gs := handed s h09 flat' wmax' evs' ms' in
  Forall (fun q => request_writable (g_head q)) qs ->
  (forall n m g, nth_error (requests l') n = Some m -> nth_error gs n = Some g -> reply_writable (in_method m) (g_head g) (g_len g)) ->
  in_order s flat' l' ->
  Forall (acceptable s c o' room' l) qs -> Forall (P_Accept.heads_fit s c l) qs -> Forall (readable c s room l') gs ->
  data_of evs' ++ more' = taken l -> data_of evs ++ more = taken l' ->
  (forall n r, nth_error (received l) n = Some r -> Forall goes_on (firstn n (received l)) ->
     exists q m g, nth_error qs n = Some q /\ nth_error (requests l') n = Some m /\ asked_as c o' l q m /\ nth_error gs n = Some g /\ same_reply s l' n g r) /\
  (forall r, receiving l = Some r -> Forall goes_on (received l) -> let n := length (received l) in
     exists q m g, nth_error qs n = Some q /\ nth_error (requests l') n = Some m /\ asked_as c o' l q m /\ nth_error gs n = Some g /\ begun_reply s l' n g r).
Proof.
  intros c flat wmax evs ms o room s h09 flat' wmax' evs' ms' o' room' more more' Hc Uc Oc Rc Tc Ha Hs Us Os Ws Rs Hroom Ts Hmax Hd Hsm l l' qs gs Hq Hg Hord Hok Hfit Hrd Hin Hback.
  apply (P_Accept.C83_conversation c flat wmax evs ms o room s h09 flat' wmax' evs' ms' o' room' more more'); auto.
  - now apply C84_client.
  - now apply C84_server.
Qed.
Print Assumptions C84_failed.
Print Assumptions C84_encodes.
Print Assumptions C84_server.
Print Assumptions C84_client.
Print Assumptions C84_conversation.

(* ---- The order of the fields ---- *)
(* Whether a response can be written should not depend on the order of its
   fields.  It does: to an HTTP/1.0 peer a Transfer-Encoding is left out, but only
   if it comes before the Content-Length; after it, the response is refused. *)
Definition te_cl : hmap := [(B "transfer-encoding", [B "chunked"]); (B "content-length", [B "3"])].
Definition cl_te : hmap := [(B "content-length", [B "3"]); (B "transfer-encoding", [B "chunked"])].
Theorem C84_order_refuted : exists c method len h1 h2 keep out1 e out2, Permutation (o_headers h1) (o_headers h2) /\ hm_wf (o_headers h1) /\
  o_version h1 = o_version h2 /\ o_subject h1 = o_subject h2 /\ o_case h1 = o_case h2 /\
  encodes c method len h1 keep out1 (Ok e) /\ encodes c method len h2 keep out2 (Err EUserHeader).
Proof.
  exists (ref_cfg true), (Some (B "GET")), (Some (Known 3)), (mkO HTTP10 (OResponse 200 None) te_cl None), (mkO HTTP10 (OResponse 200 None) cl_te None), false. do 3 eexists.
  split; [apply perm_swap|]. split; [split; [repeat constructor; cbn; intros F; repeat destruct F as [F|F]; try discriminate F; exact F|repeat constructor; discriminate]|]. do 3 (split; [reflexivity|]).
  split; exists 200, None; (split; [reflexivity|vm_compute; reflexivity]).
Qed.
Print Assumptions C84_order_refuted.

(* ---- Example ---- *)
Definition both_lengths : ohead := mkO HTTP11 (OResponse 200 None) cl_te None.
Example C84_failed_ex : exists bs, In (LHeadFail bs) (history (ref_cfg true) false true 8192 (open_with rt_wire) (steps 40 (inp_of (Ready (Ok (both_lengths, Some (Known 3)))) get Pending))).
Proof.
  assert (existsb (fun e => match e with LHeadFail _ => true | _ => false end) (history (ref_cfg true) false true 8192 (open_with rt_wire) (steps 40 (inp_of (Ready (Ok (both_lengths, Some (Known 3)))) get Pending))) = true) as E by (vm_compute; reflexivity).
  apply existsb_exists in E. destruct E as (e & H & F). destruct e as [ | | | | | | | |bs| | | | | | | | | | ]; try discriminate F. exists bs. exact H.
Qed.
(* The conversation of C80_ex and C83_ex: all that is handed over is writable *)
Example C84_ex : Forall (fun q => request_writable (g_head q)) rt_asked /\
  (forall n m g, nth_error (requests rt_log) n = Some m -> nth_error rt_given n = Some g -> reply_writable (in_method m) (g_head g) (g_len g)) /\
  length rt_given = 2%nat /\ length (requests rt_log) = 2%nat.
Proof.
  assert (map named rt_given = [(mkO HTTP11 (OResponse 200 None) [(B "x-note", [B " a "; B "b"]); (B "trailer", [B "x-sum"])] None, Some Unknown); (mkO HTTP11 (OResponse 201 (Some (B "Made"))) [(B "location", [B "/c"])] None, Some (Known 6))]) as E by (vm_compute; reflexivity).
  assert (map (fun g => o_version (g_head g)) rt_asked = [HTTP11; HTTP11]) as E' by (vm_compute; reflexivity).
  split; [|split; [|split; vm_compute; reflexivity]].
  - apply Forall_forall. intros q Hq. apply (in_map (fun g => o_version (g_head g))) in Hq. rewrite E' in Hq. right. left. destruct Hq as [Hq|[Hq|[]]]; congruence.
  - intros n m g _ Hg. apply (map_nth_error named) in Hg. rewrite E in Hg.
    destruct n as [|[|n]]; [| |destruct n; discriminate Hg]; injection Hg as Hh Hl; rewrite <- Hh, <- Hl.
    + constructor; cbn [o_headers o_version o_subject]; [split; [repeat constructor; cbn; intros F; repeat destruct F as [F|F]; try discriminate F; exact F|repeat constructor; discriminate]|right; now left|exists 200, None; split; [reflexivity|]; split; [right; lia|split; reflexivity]|now left|intros _; exists 0; split; [unfold u64_max; lia|apply Forall_nil]|discriminate].
    + constructor; cbn [o_headers o_version o_subject]; [split; [repeat constructor; cbn; intros F; repeat destruct F as [F|F]; try discriminate F; exact F|repeat constructor; discriminate]|right; now left|exists 201, (Some (B "Made")); split; [reflexivity|]; split; [right; lia|split; reflexivity]|now left|discriminate|discriminate].
Qed.
