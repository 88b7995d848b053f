(* C34: bytes that arrive while no request is outstanding never become a response *)
From Verif Require Import Base M_Src M_Decode M_HeaderMap M_Headers M_Encode M_Role M_RoleEncode M_Buf M_WriteBuf M_Read M_Conn M_Dispatch S_Conn L_Conn L_Moves L_ConnS L_ConnC L_Ext L_Ka L_Exch L_Outcome L_BodyTx P_Conn P_Requests P_Timer L_Done L_Return P_Graceful P_Eof.

(* ---- Specification ---- *)
(* Every send is complete before anything else happens *)
Fixpoint calm (ms : list move) : Prop :=
  match ms with
  | [] => True
  | Env (ESender SGive) :: r => match r with Env (ESender SPush) :: r => calm r | _ => False end
  | Step i :: r => i_race i = [] /\ calm r
  | Env _ :: r => calm r
  end.
(* io.rs 224-261, read_blocked: whether the last read of the transport had to
   wait, followed along an execution.  At the end of input it is not known
   whether there was another read. *)
Definition blocked (b : bool) (d d' : disp) : bool :=
  let e := r_evs (k_rd (d_conn d)) in
  match (length e - length (r_evs (k_rd (d_conn d'))))%nat with
  | O => match e with [] => false | _ => b end
  | S n => match nth n e EvErr with EvPending => true | _ => false end
  end.
(* The steps that look at the flag before they read *)
Definition writing_pc (p : pc) : bool := match p with PWrite _ | PWrite2 _ | PFlush _ _ | PFlush2 => true | _ => false end.
Fixpoint faithful (c : cfg) (b : bool) (d : disp) (ms : list move) : Prop :=
  match ms with
  | [] => True
  | m :: r => match m with Step i => writing_pc (d_pc d) = true -> b = true -> i_blk i = true | Env _ => True end /\
              faithful c (blocked b d (dmove c m d)) (dmove c m d) r
  end.
(* A step that begins with request id *)
Definition starts (id : N) (d d' : disp) : Prop := exists x, k_log (d_conn d') = k_log (d_conn d) ++ x /\ In (LStart id) x.

(* ---- Lemmas ---- *)
Definition W (ch : chan) : Prop := ch_want ch = true \/ ch_queue ch <> [] \/ ch_once ch = false \/ ch_given ch = true.
Definition Ch (ch : chan) : Prop := (length (ch_queue ch) + bit (ch_given ch) + bit (ch_want ch || negb (ch_once ch)) <= 1)%nat.
Definition rest (k : conn) : Prop := (k_reading k = RInit /\ k_writing k = WInit) \/ k_reading k = RClosed.
(* at rest, with nothing received *)
Definition quiet_rest (b : bool) (k : conn) : Prop := k_reading k = RInit -> r_buf (k_rd k) = [] /\ (b = true \/ r_evs (k_rd k) = []).

Lemma rest_notify blk k : rest k -> rest (maybe_notify blk k).
Proof.
  intros H. unfold maybe_notify. destruct (k_reading k) eqn:Er; try exact H. destruct H as [(_ & Hw)|F]; [|congruence]. rewrite Hw. destruct blk; [left; auto|].
  destruct (r_buf (k_rd k)); [|left; auto]. unfold read_io. destruct (r_read_io (k_rd k)) as [rd [|[n|e]]].
  - left; auto.
  - destruct (n =? 0); [|left; auto]. destruct (is_idle _); right; reflexivity.
  - right; reflexivity.
Qed.
Lemma rest_st_try c k : rest k -> k_reading k = RInit -> st_try_keep_alive c k = k.
Proof. intros H Hr. unfold st_try_keep_alive. rewrite Hr. reflexivity. Qed.
Lemma rest_try c blk k : rest k -> rest (try_keep_alive c blk k).
Proof.
  intros H. unfold try_keep_alive. apply rest_notify. destruct H as [(Hr & Hw)|Hr]; unfold st_try_keep_alive; rewrite Hr; [left; auto|]. destruct (k_writing k); right; auto.
Qed.
Lemma quiet_try c blk b k : rest k -> quiet_rest b k -> (b = true -> blk = true) -> quiet_rest b (try_keep_alive c blk k) /\
  (k_reading (try_keep_alive c blk k) = RInit -> k_rd (try_keep_alive c blk k) = k_rd k).
Proof.
  intros H Q Hb. unfold try_keep_alive. destruct H as [(Hr & Hw)|Hr].
  - assert (st_try_keep_alive c k = k) as -> by (unfold st_try_keep_alive; now rewrite Hr). destruct (Q Hr) as (B1 & B2). unfold maybe_notify. rewrite Hr, Hw, B1.
    destruct blk; [split; [exact Q|reflexivity]|]. destruct B2 as [F|B2]; [now specialize (Hb F)|].
    unfold read_io, r_read_io, poll_read_from_io. cbn [evs rbuf]. rewrite B1, B2. cbn [N.eqb]. destruct (is_idle _); (split; [intros F; discriminate F|intros F; discriminate F]).
  - assert (k_reading (maybe_notify blk (st_try_keep_alive c k)) = RClosed) as F.
    { assert (k_reading (st_try_keep_alive c k) = RClosed) as E by (unfold st_try_keep_alive; rewrite Hr; destruct (k_writing k); auto). unfold maybe_notify. now rewrite E. }
    split; intros G; congruence.
Qed.
Lemma closed_flush c i d : k_reading (d_conn d) = RClosed -> k_reading (d_conn (fst (d_flush c i d))) = RClosed.
Proof.
  intros H. unfold d_flush, k_poll_flush. destruct (wb_flush _ _ _ _) as [[[w ev] sent] r]. destruct r as [|[u|e]]; cbn [fst d_conn dset_conn]; try exact H.
  unfold try_keep_alive, st_try_keep_alive. cbn [k_reading k_writing log set_wb]. rewrite H. unfold maybe_notify. destruct (k_writing (d_conn d)); cbn [k_reading st_close set_ka set_writing set_reading log set_wb]; rewrite ?H; cbn; rewrite ?H; reflexivity.
Qed.
Lemma flush_frame c i d : d_chan (fst (d_flush c i d)) = d_chan d /\ d_pc (fst (d_flush c i d)) = d_pc d.
Proof. unfold d_flush. destruct (k_poll_flush _ _ _ _) as [k r]. split; reflexivity. Qed.
Lemma rest_flush c i d : rest (d_conn d) -> rest (d_conn (fst (d_flush c i d))).
Proof.
  intros H. unfold d_flush, k_poll_flush. destruct (wb_flush _ _ _ _) as [[[w ev] sent] r]. destruct r as [|[u|e]]; cbn [fst d_conn dset_conn]; try exact H. apply rest_try. exact H.
Qed.
Lemma quiet_flush c i b d : rest (d_conn d) -> quiet_rest b (d_conn d) -> (b = true -> i_blk i = true) -> quiet_rest b (d_conn (fst (d_flush c i d))) /\
  (k_reading (d_conn (fst (d_flush c i d))) = RInit -> k_rd (d_conn (fst (d_flush c i d))) = k_rd (d_conn d)).
Proof.
  intros H Q Hb. unfold d_flush, k_poll_flush. destruct (wb_flush _ _ _ _) as [[[w ev] sent] r]. destruct r as [|[u|e]]; cbn [fst d_conn dset_conn]; try (split; [exact Q|reflexivity]).
  match goal with |- context [try_keep_alive c ?x ?y] => apply (quiet_try c x b y H Q Hb) end.
Qed.

(* What the request channel needs *)
Definition HW (b : bool) (d : disp) : Prop :=
  Ch (d_chan d) /\ (W (d_chan d) -> rest (d_conn d)) /\
  (W (d_chan d) -> match d_pc d with PWrite _ => quiet_rest b (d_conn d) | PWrite2 _ => k_reading (d_conn d) = RClosed | _ => True end).
Definition H34 (b : bool) (d : disp) : Prop := d_pc d = PDead \/ HW b d /\ ch_given (d_chan d) = false.

Lemma pc_drop d : d_pc (d_drop d) = PDead.
Proof. now rewrite d_drop_eq. Qed.
Lemma pc_fail c d e : d_pc (d_fail c d e) = PDead.
Proof. unfold d_fail. destruct (recv_error _ _ _) as [d1 x]. apply pc_drop. Qed.
Lemma Ch_close ch : Ch ch -> Ch (fst (ch_try_recv (ch_close ch))) /\ ch_given (fst (ch_try_recv (ch_close ch))) = ch_given ch.
Proof.
  unfold Ch, ch_try_recv. intros H. cbn [ch_queue ch_close]. revert H. destruct (ch_queue ch) as [|id q] eqn:Eq; cbn; rewrite ?Eq; intros H; (split; [|reflexivity]); destruct (ch_given ch), (ch_want ch), (ch_once ch); cbn in *; lia.
Qed.
Lemma recv_error_chan c d e : Ch (d_chan d) -> Ch (d_chan (fst (recv_error c d e))) /\ ch_given (d_chan (fst (recv_error c d e))) = ch_given (d_chan d) /\ d_pc (fst (recv_error c d e)) = d_pc d.
Proof.
  intros H. unfold recv_error. destruct (c_server c); [auto|]. destruct (d_callback d); [auto|]. destruct (d_rx_closed d); [auto|].
  destruct (Ch_close _ H) as (A & B'). destruct (ch_try_recv _) as [ch [id|]]; cbn in *; auto.
Qed.

(* One iteration of poll_read *)
Lemma read_34 c i b d : c_server c = false -> CC d -> d_pc d <> PDead -> HW b d ->
  let d' := fst (poll_read_it c i d) in let r := snd (poll_read_it c i d) in
  (exists e, r = Ret (Ready (Err e))) \/
  (Ch (d_chan d') /\ ch_given (d_chan d') = ch_given (d_chan d) /\ d_pc d' = d_pc d /\ (W (d_chan d') -> rest (d_conn d')) /\
   (W (d_chan d') -> r <> Cont -> quiet_rest (blocked b d d') (d_conn d'))).
Proof.
  intros Hs Hcc Hp (Hch & Hr & _). cbn zeta.
  assert (forall d', k_reading (d_conn d') = RClosed -> rest (d_conn d') /\ forall x, quiet_rest x (d_conn d')) as Tc by (intros d' E; split; [now right|intros x F; congruence]).
  assert (forall d', ~ W (d_chan d) -> d_chan d' = d_chan d -> (W (d_chan d') -> rest (d_conn d')) /\ (W (d_chan d') -> forall x, quiet_rest x (d_conn d'))) as Tn by (intros d' F E; rewrite E; split; intros G; now destruct F).
  unfold poll_read_it. destruct (d_closing d) eqn:Ec.
  { right. cbn [fst snd]. destruct (Tc d (proj1 (Hcc Ec))) as (A & B'). auto 6. }
  destruct (can_read_head c (d_conn d)) eqn:Erh.
  { assert (~ W (d_chan d)) as Hn. { intros F. unfold can_read_head in Erh. destruct (Hr F) as [(E1 & E2)|E]; [rewrite E1, Hs, E2 in Erh; discriminate|rewrite E in Erh; discriminate]. }
    unfold d_poll_read_head. destruct (d_poll_ready c i d) as [|[u|u]].
    - right. cbn [fst snd]. destruct (Tn d Hn eq_refl). auto 6.
    - destruct (k_poll_read_head _ _ _ _) as [k r]. destruct r as [|[[m|e]|]].
      + right. cbn [fst snd]. destruct (Tn (dset_conn d k) Hn eq_refl). auto 6.
      + match goal with |- context [recv_ok c ?x m] => set (d1 := x) end.
        assert (d_chan d1 = d_chan d /\ d_pc d1 = d_pc d) as (E1 & E2) by (subst d1; destruct (in_decode m =? DL_ZERO), (in_upgrade m); cbn; auto; destruct (d_body_tx d); auto).
        clearbody d1. unfold recv_ok. rewrite Hs. destruct (d_callback d1); [|left; eexists; reflexivity]. right. cbn [fst snd]. set (d2 := dlog _ _). destruct (Tn d2 Hn E1) as (A & B'). split; [exact (eq_ind_r Ch Hch E1)|]. split; [now cbn; rewrite E1|]. split; [exact E2|]. split; [exact A|now intros _ F].
      + destruct (recv_error_chan c (dset_conn d k) e Hch) as (A1 & A2 & A3). destruct (recv_error c (dset_conn d k) e) as [d' []]; [left; eexists; reflexivity|]. right. cbn [fst snd] in *.
        destruct (Tc (d_close d') eq_refl) as (A & B'). split; [exact A1|]. split; [exact A2|]. split; [exact A3|]. split; auto.
      + right. cbn [fst snd]. destruct (is_write_closed _).
        * destruct (Tc (d_close (dset_conn d k)) eq_refl) as (A & B'). split; [exact Hch|]. split; [reflexivity|]. split; [reflexivity|]. split; auto.
        * destruct (Tn (dset_conn d k) Hn eq_refl). auto 6.
    - right. destruct (Tc (d_close d) eq_refl) as (A & B'). cbn [fst snd]. split; [exact Hch|]. split; [reflexivity|]. split; [reflexivity|]. split; auto. }
  destruct (d_body_tx d).
  - destruct (can_read_body (d_conn d)) eqn:Erb.
    + assert (~ W (d_chan d)) as Hn. { intros F. unfold can_read_body in Erb. destruct (Hr F) as [(E1 & E2)|E]; [rewrite E1 in Erb; discriminate|rewrite E in Erb; discriminate]. }
      assert (forall d' r, d_chan d' = d_chan d -> d_pc d' = d_pc d -> 
        (exists e, snd (d', r) = Ret (Ready (Err e))) \/ Ch (d_chan (fst (d', r : it))) /\ ch_given (d_chan (fst (d', r))) = ch_given (d_chan d) /\ d_pc (fst (d', r)) = d_pc d /\ (W (d_chan (fst (d', r))) -> rest (d_conn (fst (d', r)))) /\
         (W (d_chan (fst (d', r))) -> snd (d', r) <> Cont -> quiet_rest (blocked b d (fst (d', r))) (d_conn (fst (d', r))))) as T.
      { intros d' r E1 E2. right. cbn [fst snd]. destruct (Tn d' Hn E1). rewrite E1 in *. auto 6. }
      destruct (i_body i); try (apply T; reflexivity). destruct (k_poll_read_body _ _ _) as [k r]. destruct r as [|[[m|e]|]]; try (apply T; reflexivity). destruct (i_send i); [apply T; reflexivity|].
      match goal with |- context [if ?x then _ else _] => destruct x end; apply T; reflexivity.
    + right. cbn [fst snd]. split; [exact Hch|]. split; [reflexivity|]. split; [reflexivity|]. split; [intros F; exact (Hr F)|now intros _ G].
  - unfold k_poll_read_keep_alive. destruct (is_read_closed (d_conn d)) eqn:Erc.
    { right. cbn [fst snd]. assert (k_reading (d_conn d) = RClosed) as E by (unfold is_read_closed in Erc; destruct (k_reading (d_conn d)); congruence). destruct (Tc (dset_conn d (d_conn d)) E) as (A & B'). auto 6. }
    destruct (is_mid_message (d_conn d)) eqn:Em.
    { assert (~ W (d_chan d)) as Hn. { intros F. unfold is_mid_message, is_read_closed in *. destruct (Hr F) as [(E1 & E2)|E]; [rewrite E1, E2 in Em; discriminate|rewrite E in Erc; discriminate]. }
      destruct (mid_message_detect_eof _ _) as [k r]. right. cbn [fst snd]. destruct (Tn (dset_conn d k) Hn eq_refl). auto 6. }
    assert (k_reading (d_conn d) = RInit /\ k_writing (d_conn d) = WInit) as (E1 & E2) by (unfold is_mid_message in Em; destruct (k_reading (d_conn d)), (k_writing (d_conn d)); auto; discriminate).
    unfold require_empty_read. destruct (r_buf (k_rd (d_conn d))) as [|x y] eqn:Eb; [|left; eexists; reflexivity].
    unfold force_io_read, read_io, r_read_io, poll_read_from_io. cbn [evs rbuf]. destruct (r_evs (k_rd (d_conn d))) as [|[|dd|] es] eqn:Ee; cbn [rbuf evs].
    + cbn [N.eqb]. match goal with |- context [if should_error_on_eof c ?x then _ else _] => destruct (should_error_on_eof c x) end; [left; eexists; reflexivity|]. right. cbn [fst snd]. split; [exact Hch|]. split; [reflexivity|]. split; [reflexivity|]. split; [now right|intros _ _ F; discriminate F].
    + right. cbn [fst snd]. split; [exact Hch|]. split; [reflexivity|]. split; [reflexivity|]. split; [left; auto|]. intros _ _ _. cbn. rewrite Eb. split; [reflexivity|]. left. unfold blocked. cbn. rewrite Ee. cbn [length].
      replace (S (length es) - length es)%nat with 1%nat by lia. reflexivity.
    + destruct (lenN dd =? 0); [|left; eexists; reflexivity]. match goal with |- context [if should_error_on_eof c ?x then _ else _] => destruct (should_error_on_eof c x) end; [left; eexists; reflexivity|]. right. cbn [fst snd]. split; [exact Hch|]. split; [reflexivity|]. split; [reflexivity|]. split; [now right|intros _ _ F; discriminate F].
    + left; eexists; reflexivity.
Qed.

(* Only an iteration of poll_write begins with a request *)
Definition nst (e : levent) : bool := match e with LStart _ => false | _ => true end.
Definition ns (k k' : conn) : Prop := exists l, k_log k' = k_log k ++ l /\ forallb nst l = true.
Lemma own_nst s l : forallb (own s) l = true -> forallb nst l = true.
Proof. induction l as [|e l IH]; [reflexivity|]. cbn [forallb]. intros H. apply andb_prop in H. destruct H as (H1 & H2). rewrite (IH H2). destruct e; try discriminate H1; reflexivity. Qed.
Lemma ns_ext s k k' : ext s k k' -> ns k k'.
Proof. intros (l & L1 & L2). exists l. split; [exact L1|]. exact (own_nst s l L2). Qed.
Lemma ns_same k k' : k_log k' = k_log k -> ns k k'.
Proof. intros H. exists []. rewrite app_nil_r. auto. Qed.
Ltac nssame := apply ns_same; reflexivity.
Lemma ns_refl k : ns k k.
Proof. nssame. Qed.
Lemma ns_trans k k' k'' : ns k k' -> ns k' k'' -> ns k k''.
Proof. intros (a & A1 & A2) (b & B1 & B2). exists (a ++ b). rewrite B1, A1, app_assoc, forallb_app, A2, B2. auto. Qed.
Lemma ns_log k l : forallb nst l = true -> ns k (log k l).
Proof. intros H. exists l. auto. Qed.
Definition nsd (d d' : disp) : Prop := ns (d_conn d) (d_conn d').
Lemma nsd_flush c i d : nsd d (fst (d_flush c i d)).
Proof. unfold nsd, d_flush. pose proof (ns_ext true _ _ (ext_flush true c (i_blk i) (i_wevs i) (d_conn d))) as H. destruct (k_poll_flush c _ _ _). exact H. Qed.
Lemma nsd_recv_error c d e : nsd d (fst (recv_error c d e)).
Proof.
  unfold nsd, recv_error. destruct (c_server c); [nssame|]. destruct (d_callback d); [apply ns_log; reflexivity|]. destruct (d_rx_closed d); [nssame|].
  destruct (ch_try_recv _) as [ch [id|]]; [apply ns_log; reflexivity|nssame].
Qed.
Lemma nsd_read c i d : nsd d (fst (poll_read_it c i d)).
Proof.
  unfold nsd, poll_read_it. destruct (d_closing d); [nssame|]. destruct (can_read_head c (d_conn d)).
  - unfold d_poll_read_head. destruct (d_poll_ready c i d) as [|[u|u]]; [nssame| |nssame].
    pose proof (ns_ext _ _ _ (ext_poll_read_head c (i_now i) (i_blk i) (d_conn d))) as H. destruct (k_poll_read_head c _ _ _) as [k r]. cbn [fst] in H. destruct r as [|[[m|e]|]].
    + exact H.
    + set (d1 := if in_decode m =? DL_ZERO then _ else _).
      assert (ns (d_conn d) (d_conn d1)) as H1.
      { subst d1. destruct (in_decode m =? DL_ZERO); [exact H|]. cbn [d_body_tx dset_conn]. destruct (d_body_tx d); [|exact H]. eapply ns_trans; [exact H|]. apply ns_log. reflexivity. }
      clearbody d1. set (d2 := if in_upgrade m then _ else _). assert (ns (d_conn d) (d_conn d2)) as H2 by (subst d2; destruct (in_upgrade m); [eapply ns_trans; [exact H1|nssame]|exact H1]). clearbody d2.
      unfold recv_ok. destruct (c_server c); [exact H2|]. destruct (d_callback d2); [|exact H2]. eapply ns_trans; [exact H2|]. apply ns_log. reflexivity.
    + pose proof (nsd_recv_error c (dset_conn d k) e) as H1. destruct (recv_error c (dset_conn d k) e) as [d' [|]]; cbn [fst] in *; (eapply ns_trans; [exact H|]); [exact H1|]. eapply ns_trans; [exact H1|]. nssame.
    + cbn [fst d_conn dset_conn]. destruct (is_write_closed k); [|exact H]. eapply ns_trans; [exact H|nssame].
  - destruct (d_body_tx d).
    + destruct (can_read_body (d_conn d)); [|apply ns_log; reflexivity]. destruct (i_body i); [..|apply (ns_ext true), ext_drain].
      all: try nssame.
      pose proof (ns_ext _ _ _ (ext_poll_read_body true c (i_blk i) (log (d_conn d) [LWant]))) as H. destruct (k_poll_read_body c _ _) as [k r]. cbn [fst] in H.
      assert (ns (d_conn d) k) as H1 by (eapply ns_trans; [|exact H]; apply ns_log; reflexivity).
      destruct r as [|[[x|e]|]]; cbn [fst snd].
      * exact H1.
      * destruct (i_send i); [exact H1|]. cbn [d_conn dset_body_tx dset_conn]. destruct (can_read_body k); [|exact H1]. eapply ns_trans; [exact H1|]. nssame.
      * eapply ns_trans; [exact H1|]. apply ns_log. reflexivity.
      * eapply ns_trans; [exact H1|]. apply ns_log. reflexivity.
    + pose proof (ns_ext _ _ _ (ext_keep_alive_read true c (d_conn d))) as H. destruct (k_poll_read_keep_alive c (d_conn d)) as [k r]. exact H.
Qed.
Lemma nsd_end c i d : nsd d (fst (end_body_it c i d)).
Proof.
  unfold nsd, end_body_it. pose proof (ns_ext true _ _ (ext_effect true _ _ (end_body_effect (i_room i) (d_conn d)))) as H. destruct (k_end_body (i_room i) (d_conn d)) as [k [u|e]]; exact H.
Qed.

Lemma nsd_drop d : nsd d (d_drop d).
Proof.
  rewrite d_drop_eq. unfold nsd, ns. cbn [d_conn]. eexists. split; [reflexivity|]. unfold drop_events. rewrite !forallb_app. destruct (d_body_tx d), (d_callback d); cbn [forallb nst andb]; induction (ch_queue (d_chan d)); auto.
Qed.
Lemma nsd_complete d r : nsd d (d_complete d r).
Proof. unfold d_complete. eapply ns_trans; [|apply nsd_drop]. apply ns_log. reflexivity. Qed.
Lemma nsd_fail c d e : nsd d (d_fail c d e).
Proof.
  unfold d_fail. set (d1 := if d_body_tx d then _ else d). assert (nsd d d1) as H1 by (subst d1; unfold nsd; destruct (d_body_tx d); [apply ns_log; reflexivity|nssame]). clearbody d1.
  pose proof (nsd_recv_error c d1 e) as H2. destruct (recv_error c d1 e) as [d2 b]. cbn [fst snd] in *. eapply ns_trans; [exact H1|]. eapply ns_trans; [exact H2|apply nsd_complete].
Qed.
(* When an iteration of poll_write begins with a request *)
Definition takes (c : cfg) (d : disp) : Prop := d_closing d = false /\ can_write_head c (d_conn d) = true /\ ch_queue (d_chan d) <> [].
Lemma nsd_write c i d : c_server c = false -> takes c d \/ nsd d (fst (poll_write_it c i d)).
Proof.
  intros Hs. unfold poll_write_it. destruct (d_closing d) eqn:Ec; [right; apply ns_refl|]. destruct (negb (d_body_rx d) && can_write_head c (d_conn d) && should_poll c d) eqn:Em.
  - unfold d_poll_msg. rewrite Hs. unfold ch_poll_recv. destruct (ch_queue (d_chan d)) as [|id q] eqn:Eq.
    + right. destruct (ch_tx (d_chan d) && ch_rx (d_chan d)); unfold nsd; nssame.
    + left. apply andb_prop in Em. destruct Em as (Em & _). apply andb_prop in Em. destruct Em as (_ & Em). split; [exact Ec|]. split; [exact Em|]. congruence.
  - right. destruct (negb (can_buffer_body c (d_conn d))).
    + pose proof (nsd_flush c i d) as H. destruct (d_flush c i d) as [d' [|[u|e]]]; exact H.
    + destruct (d_body_rx d).
      * destruct (negb (k_can_write_body (d_conn d))); [apply ns_refl|]. destruct (i_frame i) as [|[[[b|t|]|u]|]]; try apply ns_refl.
        -- destruct (i_eos i); destruct (brem b =? 0); try apply ns_refl.
           ++ apply (nsd_end c i (dset_body_rx d false)).
           ++ exact (ns_ext true _ _ (ext_effect true _ _ (write_body_and_end_effect c (i_room i) (d_conn d) b))).
           ++ exact (ns_ext true _ _ (ext_effect true _ _ (write_body_effect c (i_room i) (d_conn d) b))).
        -- exact (ns_ext true _ _ (ext_effect true _ _ (write_trailers_effect c (i_room i) (d_conn d) t))).
        -- apply (nsd_end c i (dset_body_rx d false)).
      * destruct (k_can_write_body (d_conn d)); [apply nsd_end|apply ns_refl].
Qed.
Lemma nsd_step c i d : c_server c = false -> nsd d (dstep c i d) \/ (takes c d /\ exists n, d_pc d = PWrite n \/ d_pc d = PWrite2 n).
Proof.
  intros Hs. unfold dstep. destruct (d_pc d) as [|n|n|n wr|n| | |] eqn:Ep.
  - left. unfold nsd. nssame.
  - left. pose proof (nsd_read c i d) as H. destruct (poll_read_it c i d) as [d' [|[|[u|e]]]]; try exact H. eapply ns_trans; [exact H|apply nsd_fail].
  - destruct (nsd_write c i d Hs) as [H|H]; [right; eauto|left]. destruct (poll_write_it c i d) as [d' [|[|[u|e]]]]; try exact H. eapply ns_trans; [exact H|apply nsd_fail].
  - left. pose proof (nsd_flush c i d) as H. destruct (d_flush c i d) as [d' [|[u|e]]]; [exact H|exact H|]. eapply ns_trans; [exact H|apply nsd_fail].
  - destruct (nsd_write c i d Hs) as [H|H]; [right; eauto|left]. destruct (poll_write_it c i d) as [d' [|[|[u|e]]]]; try exact H. eapply ns_trans; [exact H|apply nsd_fail].
  - left. pose proof (nsd_flush c i d) as H. destruct (d_flush c i d) as [d' [|[u|e]]]; [exact H|exact H|]. eapply ns_trans; [exact H|apply nsd_fail].
  - left. destruct (d_is_done c d); [|unfold nsd; nssame]. unfold pending_upgrade.
    assert (forall d, nsd d (match take_error (d_conn d) with (k, Ok _) => d_complete (dset_conn d k) None | (k, Err e) => d_fail c (dset_conn d k) e end)) as T.
    { clear. intros d. unfold take_error. destruct (k_error (d_conn d)); [|apply (nsd_complete (dset_conn d (d_conn d)))]. eapply ns_trans; [|apply nsd_fail]. nssame. }
    destruct (k_upgrade (d_conn d)); [eapply ns_trans; [|apply T]; nssame|].
    destruct (wb_flush _ _ _ _) as [[[w ev] sent] r]. set (d2 := dset_conn (dset_conn d _) _). assert (nsd d d2) as H2 by (subst d2; unfold nsd; cbn [d_conn dset_conn]; (eapply ns_trans; [|apply ns_log; destruct sent; reflexivity]); nssame). clearbody d2.
    destruct r as [|[u|e]]; [exact H2| |eapply ns_trans; [exact H2|apply nsd_fail]]. destruct (i_shutdown i) as [|[u'|e']]; [exact H2| |eapply ns_trans; [exact H2|apply nsd_fail]]. eapply ns_trans; [exact H2|]. eapply ns_trans; [|apply T]. apply ns_log. reflexivity.
  - left. apply ns_refl.
Qed.
Lemma not_starts id d d' : nsd d d' -> ~ starts id d d'.
Proof.
  intros (l & L1 & L2) (x & X1 & X2). rewrite L1 in X1. apply app_inv_head in X1. subst x. rewrite forallb_forall in L2. now specialize (L2 _ X2).
Qed.

(* One iteration of poll_write *)
Lemma quiet_same b d d' : k_rd (d_conn d') = k_rd (d_conn d) -> k_reading (d_conn d') = k_reading (d_conn d) -> quiet_rest b (d_conn d) -> quiet_rest (blocked b d d') (d_conn d').
Proof.
  intros E1 E2 Q F. rewrite E2 in F. destruct (Q F) as (B1 & B2). rewrite E1. split; [exact B1|]. unfold blocked. rewrite E1, Nat.sub_diag. destruct (r_evs (k_rd (d_conn d))); [now right|]. destruct B2 as [B2|B2]; [now left|discriminate B2].
Qed.
Lemma write_34 c i b d : c_server c = false -> CI (d_conn d) -> CC d -> HW b d -> ch_given (d_chan d) = false -> i_race i = [] -> (b = true -> i_blk i = true) ->
  (exists n, d_pc d = PWrite n \/ d_pc d = PWrite2 n) ->
  let d' := fst (poll_write_it c i d) in let r := snd (poll_write_it c i d) in
  Ch (d_chan d') /\ ch_given (d_chan d') = false /\ d_pc d' = d_pc d /\ (W (d_chan d') -> rest (d_conn d')) /\
   (W (d_chan d') -> r = Cont -> match d_pc d with PWrite _ => quiet_rest (blocked b d d') (d_conn d') | PWrite2 _ => k_reading (d_conn d') = RClosed | _ => True end).
Proof.
  intros Hs Hci Hcc (Hch & Hr & Hq) Hg Hrace Hblk Hpc. cbn zeta.
  assert (forall d' r, d_chan d' = d_chan d -> d_pc d' = d_pc d -> (W (d_chan d) -> rest (d_conn d) -> rest (d_conn d')) -> (r = Cont -> W (d_chan d) -> rest (d_conn d) -> match d_pc d with PWrite _ => quiet_rest b (d_conn d) | PWrite2 _ => k_reading (d_conn d) = RClosed | _ => True end ->
       match d_pc d with PWrite _ => quiet_rest (blocked b d d') (d_conn d') | PWrite2 _ => k_reading (d_conn d') = RClosed | _ => True end) ->
     Ch (d_chan (fst (d', r : it))) /\ ch_given (d_chan (fst (d', r))) = false /\ d_pc (fst (d', r)) = d_pc d /\ (W (d_chan (fst (d', r))) -> rest (d_conn (fst (d', r)))) /\
   (W (d_chan (fst (d', r))) -> snd (d', r) = Cont -> match d_pc d with PWrite _ => quiet_rest (blocked b d (fst (d', r))) (d_conn (fst (d', r))) | PWrite2 _ => k_reading (d_conn (fst (d', r))) = RClosed | _ => True end)) as T.
  { intros d' r E1 E2 R1 R2. cbn [fst snd]. rewrite E1, E2. split; [exact Hch|]. split; [exact Hg|]. split; [reflexivity|]. split; [auto|]. intros F G. exact (R2 G F (Hr F) (Hq F)). }
  assert (forall d' r, d_chan d' = d_chan d -> d_pc d' = d_pc d -> k_rd (d_conn d') = k_rd (d_conn d) -> k_reading (d_conn d') = k_reading (d_conn d) -> k_writing (d_conn d') = k_writing (d_conn d) ->
     Ch (d_chan (fst (d', r : it))) /\ ch_given (d_chan (fst (d', r))) = false /\ d_pc (fst (d', r)) = d_pc d /\ (W (d_chan (fst (d', r))) -> rest (d_conn (fst (d', r)))) /\
   (W (d_chan (fst (d', r))) -> snd (d', r) = Cont -> match d_pc d with PWrite _ => quiet_rest (blocked b d (fst (d', r))) (d_conn (fst (d', r))) | PWrite2 _ => k_reading (d_conn (fst (d', r))) = RClosed | _ => True end)) as Ts.
  { intros d' r E1 E2 E3 E4 E5. apply T; auto; [unfold rest; now rewrite E4, E5|]. intros _ _ _. destruct (d_pc d); try exact (fun H => H); [now apply quiet_same|congruence]. }
  assert (forall d' r, k_can_write_body (d_conn d) = true -> d_chan d' = d_chan d -> d_pc d' = d_pc d -> body_effect (d_conn d) (d_conn d') ->
     Ch (d_chan (fst (d', r : it))) /\ ch_given (d_chan (fst (d', r))) = false /\ d_pc (fst (d', r)) = d_pc d /\ (W (d_chan (fst (d', r))) -> rest (d_conn (fst (d', r)))) /\
   (W (d_chan (fst (d', r))) -> snd (d', r) = Cont -> match d_pc d with PWrite _ => quiet_rest (blocked b d (fst (d', r))) (d_conn (fst (d', r))) | PWrite2 _ => k_reading (d_conn (fst (d', r))) = RClosed | _ => True end)) as Tb.
  { intros d' r Hw E1 E2 Ef. assert (k_reading (d_conn d') = k_reading (d_conn d)) as E3 by (destruct Ef as [-> |(e & l & w' & _ & E & _)]; auto).
    assert (rest (d_conn d) -> k_reading (d_conn d') = RClosed) as E4. { intros [(_ & F)|F]; [|congruence]. unfold k_can_write_body in Hw. rewrite F in Hw. discriminate Hw. }
    apply T; auto; [intros _ F; right; auto|]. intros _ _ F _. specialize (E4 F). destruct (d_pc d); auto. intros G. congruence. }
  unfold poll_write_it. destruct (d_closing d) eqn:Ec; [apply Ts; reflexivity|].
  destruct (negb (d_body_rx d) && can_write_head c (d_conn d) && should_poll c d) eqn:Em.
  { apply andb_prop in Em. destruct Em as (Em & _). apply andb_prop in Em. destruct Em as (_ & Em).
    assert (k_reading (d_conn d) = RInit /\ k_writing (d_conn d) = WInit) as (E1 & E2).
    { unfold can_write_head, is_read_closed in Em. rewrite Hs in Em. destruct Hci as (x & _ & _ & Q & _). destruct (k_writing (d_conn d)); try (destruct (k_reading (d_conn d)); discriminate Em). destruct Q as [Q|Q]; [auto|]. rewrite Q in Em. discriminate Em. }
    unfold d_poll_msg. rewrite Hs, Hrace. unfold ch_poll_recv. destruct (ch_queue (d_chan d)) as [|id q] eqn:Eq.
    - destruct (ch_tx (d_chan d) && ch_rx (d_chan d)); cbn [fold_left fst snd].
      + cbn [d_chan dset_client d_pc d_conn]. split; [unfold Ch; cbn [ch_ask ch_queue ch_given ch_want orb bit]; rewrite Eq, Hg; cbn [length bit]; lia|]. split; [exact Hg|]. split; [reflexivity|]. split; [left; auto|discriminate].
      + cbn [fst snd d_chan dset_client d_pc d_conn d_close dset_conn dset_closing]. split; [exact Hch|]. split; [exact Hg|]. split; [reflexivity|]. split; [now right|discriminate].
    - assert (Ch (mkCh q (ch_want (d_chan d)) (ch_once (d_chan d)) (ch_given (d_chan d)) (ch_tx (d_chan d)) (ch_rx (d_chan d)) (ch_next (d_chan d))) /\ ~ W (mkCh q (ch_want (d_chan d)) (ch_once (d_chan d)) (ch_given (d_chan d)) (ch_tx (d_chan d)) (ch_rx (d_chan d)) (ch_next (d_chan d)))) as (C1 & C2).
      { clear T Ts Tb. unfold Ch, W in *. cbn [ch_queue ch_given ch_want ch_once] in *. rewrite Eq in Hch. cbn [length] in Hch. rewrite Hg in *. cbn [bit] in *. destruct (ch_want (d_chan d)), (ch_once (d_chan d)); cbn in Hch; try lia. destruct q; [|cbn in Hch; lia]. cbn. split; [lia|]. intros [F|[F|[F|F]]]; try discriminate F. now apply F. }
      destruct (i_canceled i).
      + cbn [fst snd]. split; [exact C1|]. split; [exact Hg|]. split; [reflexivity|]. split; [now right|discriminate].
      + destruct (i_req i) as [h body]. cbn [fst snd]. split; [exact C1|]. split; [exact Hg|]. split; [reflexivity|]. split; intros F; exfalso; exact (C2 F). }
  destruct (negb (can_buffer_body c (d_conn d))).
  { pose proof (flush_frame c i d) as (F1 & F2). pose proof (rest_flush c i d) as F3. pose proof (quiet_flush c i b d) as F4. pose proof (closed_flush c i d) as F5.
    assert (forall r, Ch (d_chan (fst (fst (d_flush c i d), r : it))) /\ ch_given (d_chan (fst (fst (d_flush c i d), r))) = false /\ d_pc (fst (fst (d_flush c i d), r)) = d_pc d /\ (W (d_chan (fst (fst (d_flush c i d), r))) -> rest (d_conn (fst (fst (d_flush c i d), r)))) /\
      (W (d_chan (fst (fst (d_flush c i d), r))) -> snd (fst (d_flush c i d), r) = Cont -> match d_pc d with PWrite _ => quiet_rest (blocked b d (fst (fst (d_flush c i d), r))) (d_conn (fst (fst (d_flush c i d), r))) | PWrite2 _ => k_reading (d_conn (fst (fst (d_flush c i d), r))) = RClosed | _ => True end)) as Tf.
    { intros r. apply T; auto. intros _ _ R Q. destruct (d_pc d); auto. destruct (F4 R Q Hblk) as (G1 & G2). intros G. destruct (G1 G) as (H1 & H2). split; [exact H1|]. unfold blocked. rewrite (G2 G), Nat.sub_diag. rewrite (G2 G) in H2. destruct (r_evs (k_rd (d_conn d))); [now right|]. destruct H2 as [H2|H2]; [now left|discriminate H2]. }
    destruct (d_flush c i d) as [d' [|[u|e]]]; exact (Tf _). }
  destruct (d_body_rx d).
  - destruct (k_can_write_body (d_conn d)) eqn:Ek; [|apply Ts; reflexivity]. cbn [negb].
    assert (forall x, let e := end_body_it c i (dset_body_rx d x) in d_chan (fst e) = d_chan d /\ d_pc (fst e) = d_pc d /\ body_effect (d_conn d) (d_conn (fst e))) as Te.
    { intros x. unfold end_body_it. pose proof (end_body_effect (i_room i) (d_conn d)) as H. cbn [d_conn dset_body_rx] in *. destruct (k_end_body (i_room i) (d_conn d)) as [k [u|e]]; auto. }
    destruct (i_frame i) as [|[[[bb|t|]|u]|]]; try (apply Ts; reflexivity).
    + destruct (i_eos i); destruct (brem bb =? 0); try (apply Ts; reflexivity).
      * destruct (Te false) as (A1 & A2 & A3). destruct (end_body_it c i (dset_body_rx d false)) as [d' r]. now apply Tb.
      * apply Tb; auto. apply write_body_and_end_effect.
      * apply Tb; auto. apply write_body_effect.
    + apply Tb; auto. apply write_trailers_effect.
    + destruct (Te false) as (A1 & A2 & A3). destruct (end_body_it c i (dset_body_rx d false)) as [d' r]. now apply Tb.
  - destruct (k_can_write_body (d_conn d)) eqn:Ek; [|apply Ts; reflexivity].
    unfold end_body_it. pose proof (end_body_effect (i_room i) (d_conn d)) as H. destruct (k_end_body (i_room i) (d_conn d)) as [k [u|e]]; apply Tb; auto.
Qed.

(* Every step and every move *)
Definition core (d : disp) : Prop := Ch (d_chan d) /\ (W (d_chan d) -> rest (d_conn d)) /\ ch_given (d_chan d) = false.
Lemma core_pc b d p : core d -> match p with PWrite _ | PWrite2 _ => False | _ => True end -> H34 b (dset_pc d p).
Proof. intros (A & B' & C) Hp. right. split; [|exact C]. split; [exact A|]. split; [exact B'|]. intros _. cbn [d_pc dset_pc]. destruct p; try exact I; destruct Hp. Qed.
Lemma core_of b d : HW b d -> ch_given (d_chan d) = false -> core d.
Proof. intros (A & B' & _) C. split; auto. Qed.
Lemma round_ok n : match next_round n with PWrite _ | PWrite2 _ => False | _ => True end.
Proof. unfold next_round. destruct n as [|[|n]]; exact I. Qed.
Lemma core_flush c i d : core d -> core (fst (d_flush c i d)).
Proof. intros (A & B' & C). destruct (flush_frame c i d) as (F1 & _). unfold core. rewrite F1. split; [exact A|]. split; [|exact C]. intros F. apply rest_flush, B', F. Qed.
Lemma step_34 c i b d : c_server c = false -> CI (d_conn d) -> CC d -> H34 b d -> i_race i = [] -> (writing_pc (d_pc d) = true -> b = true -> i_blk i = true) ->
  H34 (blocked b d (dstep c i d)) (dstep c i d).
Proof.
  intros Hs Hci Hcc [Hd|(H & Hg)] Hrace Hblk; [left; unfold dstep; now rewrite Hd|]. pose proof (core_of b d H Hg) as Hco.
  set (bb := blocked b d (dstep c i d)). assert (bb = blocked b d (dstep c i d)) as Hbb by reflexivity. clearbody bb. unfold dstep in *. destruct (d_pc d) as [|n|n|n wr|n| | |] eqn:Ep.
  - now apply core_pc.
  - assert (d_pc d <> PDead) as Hnd by congruence. pose proof (read_34 c i b d Hs Hcc Hnd H) as Q. cbn zeta in Q. destruct (poll_read_it c i d) as [d' r]. cbn [fst snd] in Q. destruct Q as [(e & ->)|(Q1 & Q2 & Q3 & Q4 & Q5)]; [left; apply pc_fail|].
    destruct r as [|[|[u|e]]].
    + right. split; [|congruence]. split; [exact Q1|]. split; [exact Q4|]. intros _. rewrite Q3, Ep. exact I.
    + right. split; [|cbn; congruence]. split; [exact Q1|]. split; [exact Q4|]. intros F. subst bb. apply Q5; [exact F|discriminate].
    + right. split; [|cbn; congruence]. split; [exact Q1|]. split; [exact Q4|]. intros F. subst bb. apply Q5; [exact F|discriminate].
    + left. apply pc_fail.
  - pose proof (write_34 c i b d Hs Hci Hcc H Hg Hrace (Hblk eq_refl) ltac:(eauto)) as Q. cbn zeta in Q. rewrite Ep in Q. destruct (poll_write_it c i d) as [d' r]. cbn [fst snd] in Q. destruct Q as (Q1 & Q2 & Q3 & Q4 & Q5).
    destruct r as [|[|[u|e]]].
    + right. split; [|congruence]. split; [exact Q1|]. split; [exact Q4|]. intros F. rewrite Q3. subst bb. exact (Q5 F eq_refl).
    + apply core_pc; [split; auto|exact I].
    + apply core_pc; [split; auto|exact I].
    + left. apply pc_fail.
  - pose proof (core_flush c i d Hco) as Hf. destruct (d_flush c i d) as [d' r]. cbn [fst] in Hf.
    assert (forall p, (forall n, p = PWrite2 n -> can_write_again d' = true) -> (forall n, p <> PWrite n) -> H34 bb (dset_pc (dset_conn d' (set_notify (d_conn d') false)) p)) as T.
    { intros p Hp1 Hp2. destruct Hf as (A & B' & C). right. split; [|exact C]. split; [exact A|]. split; [exact B'|]. intros F. cbn [d_pc dset_pc]. destruct p as [| |m| |m| | |]; try exact I; [now destruct (Hp2 m)|].
      specialize (Hp1 m eq_refl). unfold can_write_again, k_can_write_body in Hp1. apply andb_prop in Hp1. destruct Hp1 as (_ & Hp1). destruct (B' F) as [(_ & F')|F']; [rewrite F' in Hp1; discriminate Hp1|exact F']. }
    destruct r as [|[u|e]]; unfold wants_read_again; [..|left; apply pc_fail]; (destruct (k_notify (d_conn d')); [apply T; pose proof (round_ok n) as R; destruct (next_round n); try discriminate; destruct R|]);
      (destruct (can_write_again d'); cbn [andb]; [match goal with |- context [if ?x then _ else _] => destruct x end|]); apply T; try discriminate; auto.
  - pose proof (write_34 c i b d Hs Hci Hcc H Hg Hrace (Hblk eq_refl) ltac:(eauto)) as Q. cbn zeta in Q. rewrite Ep in Q. destruct (poll_write_it c i d) as [d' r]. cbn [fst snd] in Q. destruct Q as (Q1 & Q2 & Q3 & Q4 & Q5).
    destruct r as [|[|[u|e]]].
    + right. split; [|congruence]. split; [exact Q1|]. split; [exact Q4|]. intros F. rewrite Q3. exact (Q5 F eq_refl).
    + apply core_pc; [split; auto|]. destruct (has_buffered_write _); exact I.
    + apply core_pc; [split; auto|apply round_ok].
    + left. apply pc_fail.
  - pose proof (core_flush c i d Hco) as Hf. destruct (d_flush c i d) as [d' [|[u|e]]]; cbn [fst] in Hf; try (now apply core_pc). left. apply pc_fail.
  - destruct (d_is_done c d); [|now apply core_pc]. unfold pending_upgrade.
    assert (forall d, H34 bb (match take_error (d_conn d) with (k, Ok _) => d_complete (dset_conn d k) None | (k, Err e) => d_fail c (dset_conn d k) e end)) as T.
    { clear. intros d. left. destruct (take_error (d_conn d)) as [k [u|e]]; [apply pc_drop|apply pc_fail]. }
    destruct (k_upgrade (d_conn d)); [apply T|]. destruct (wb_flush _ _ _ _) as [[[w ev] sent] r]. set (d2 := dset_conn (dset_conn d _) _). assert (core d2) as H2 by exact Hco. clearbody d2.
    destruct r as [|[u|e]]; [now apply core_pc| |left; apply pc_fail]. destruct (i_shutdown i) as [|[u'|e']]; [now apply core_pc| |left; apply pc_fail]. apply T.
  - right. split; [|exact Hg]. split; [apply H|]. split; [apply H|]. rewrite Ep. auto.
Qed.
Lemma blocked_env b d d' : d_conn d' = d_conn d -> forall k, quiet_rest b k -> k_rd k = k_rd (d_conn d) -> quiet_rest (blocked b d d') k.
Proof.
  intros E k Q Ek F. destruct (Q F) as (B1 & B2). split; [exact B1|]. unfold blocked. rewrite E, Nat.sub_diag. rewrite Ek in *. destruct (r_evs (k_rd (d_conn d))); [now right|]. destruct B2 as [B2|B2]; [now left|discriminate B2].
Qed.
(* the channel moves that keep what is needed *)
Lemma chan_34 c s b d : c_server c = false -> HW b d -> Ch (smake (d_chan d) s) -> (W (smake (d_chan d) s) -> W (d_chan d)) ->
  HW (blocked b d (estep c (ESender s) d)) (estep c (ESender s) d).
Proof.
  intros Hs (A & B' & C) H1 H2. cbn [estep]. rewrite Hs. split; [exact H1|]. split; [exact (fun F => B' (H2 F))|]. intros F. specialize (C (H2 F)). cbn [d_pc dset_client d_conn]. destruct (d_pc d); auto.
  eapply blocked_env; [|exact C|]; reflexivity.
Qed.
Lemma smake_34 ch s : Ch ch -> Ch (smake ch s) /\ (W (smake ch s) -> W ch).
Proof.
  intros H. destruct s; cbn [smake].
  - destruct (ch_tx ch && negb (ch_given ch)) eqn:E; [|auto]. apply andb_prop in E. destruct E as (_ & E). unfold ch_give. destruct (ch_want ch || negb (ch_once ch)) eqn:E2; [|auto]. unfold Ch, W in *. cbn. rewrite E2 in H. destruct (ch_given ch); [discriminate E|]. cbn in *. split; [lia|]. intros _. destruct (ch_want ch); [auto|]. destruct (ch_once ch); [discriminate E2|auto].
  - destruct (ch_tx ch && ch_given ch) eqn:E; [|auto]. apply andb_prop in E. destruct E as (_ & E). unfold ch_push. destruct (ch_rx ch); unfold Ch, W in *; cbn; rewrite E in H; cbn in H; rewrite ?app_length; cbn; (split; [lia|auto]).
  - destruct (ch_given ch) eqn:E; [auto|]. unfold Ch, W in *. cbn. rewrite E in *. split; [exact H|tauto].
Qed.
Lemma given_34 ch : ch_given ch = false -> ch_given (smake (smake ch SGive) SPush) = false /\ ch_given (smake ch SPush) = false /\ ch_given (smake ch SDrop) = false.
Proof.
  intros H. cbn [smake]. rewrite H. rewrite andb_true_r, !andb_false_r. split; [|auto]. destruct (ch_tx ch) eqn:Et; [|now rewrite Et, H]. unfold ch_give. destruct (_ || _); cbn; rewrite ?Et; cbn; [|now rewrite H]. unfold ch_push. cbn. destruct (ch_rx ch); reflexivity.
Qed.
Lemma CC_step c m d : CC d -> CC (dmove c m d).
Proof. apply CC_move. Qed.
Lemma CI_step c m d : client_cfg c -> CI (d_conn d) -> CI (d_conn (dmove c m d)).
Proof. intros Hc H. exact (client_inv c Hc [m] d H). Qed.
(* the flag after a list of moves *)
Fixpoint flag (c : cfg) (b : bool) (d : disp) (ms : list move) : bool :=
  match ms with [] => b | m :: r => flag c (blocked b d (dmove c m d)) (dmove c m d) r end.
Lemma faithful_app c ms i : forall b d, faithful c b d (ms ++ [Step i]) -> faithful c b d ms /\ (writing_pc (d_pc (run c ms d)) = true -> flag c b d ms = true -> i_blk i = true).
Proof.
  induction ms as [|m ms IH]; intros b d H; [destruct H as (H & _); split; [exact I|exact H]|]. destruct H as (H1 & H2). destruct (IH _ _ H2) as (A & B'). split; [split; auto|exact B'].
Qed.
Lemma env_34 c s b d : c_server c = false -> s <> SGive -> H34 b d -> H34 (blocked b d (dmove c (Env (ESender s)) d)) (dmove c (Env (ESender s)) d).
Proof.
  intros Hs Hne [H|(H & Hg)]; [left; cbn; rewrite Hs; exact H|]. destruct (smake_34 (d_chan d) s (proj1 H)) as (A & B'). right. split; [now apply chan_34|]. cbn. rewrite Hs. cbn [d_chan dset_client]. destruct (given_34 _ Hg) as (G1 & G2 & G3). destruct s; [now destruct Hne| |]; assumption.
Qed.
Lemma same_34 b d : H34 b d -> H34 (blocked b d d) d.
Proof.
  intros [H|((A & B' & C) & Hg)]; [now left|]. right. split; [|exact Hg]. split; [exact A|]. split; [exact B'|]. intros F. specialize (C F). destruct (d_pc d); auto. eapply blocked_env; [|exact C|]; reflexivity.
Qed.
Lemma run_34 c : client_cfg c -> forall n ms, (length ms <= n)%nat -> forall b d, CI (d_conn d) -> CC d -> H34 b d -> calm ms -> faithful c b d ms -> H34 (flag c b d ms) (run c ms d).
Proof.
  intros Hc. pose proof (proj1 Hc) as Hs. induction n as [|n IH]; intros ms Hn b d Hci Hcc H Hcalm Hf; (destruct ms as [|m ms]; [exact H|]); [cbn in Hn; lia|]. cbn [length] in Hn. destruct Hf as (Hf1 & Hf2).
  assert (H34 (blocked b d (dmove c m d)) (dmove c m d) -> calm ms -> H34 (flag c b d (m :: ms)) (run c (m :: ms) d)) as T.
  { intros T1 T2. apply (IH ms); [lia|now apply CI_step|now apply CC_move|exact T1|exact T2|exact Hf2]. }
  destruct m as [i|[s| | |]].
  - destruct Hcalm as (Hr & Hcalm). apply T; [|exact Hcalm]. now apply step_34.
  - destruct s.
    + destruct ms as [|[i|[[]| | |]] ms]; try contradiction Hcalm. cbn [length] in Hn. destruct Hf2 as (_ & Hf2).
      set (d1 := dmove c (Env (ESender SGive)) d) in *. set (b1 := blocked b d d1) in *. set (d2 := dmove c (Env (ESender SPush)) d1) in *. set (b2 := blocked b1 d1 d2) in *.
      assert (H34 b2 d2) as H2.
      { destruct H as [H|(H & Hg)]; [left; subst d2 d1; cbn; rewrite !Hs; exact H|]. right. destruct (smake_34 (d_chan d) SGive (proj1 H)) as (A & B'). pose proof (chan_34 c SGive b d Hs H A B') as H1. change (HW b1 d1) in H1.
        destruct (smake_34 (d_chan d1) SPush (proj1 H1)) as (A1 & B1). split; [exact (chan_34 c SPush b1 d1 Hs H1 A1 B1)|]. subst d2 d1. cbn. rewrite !Hs. cbn [d_chan dset_client]. apply (given_34 _ Hg). }
      change (H34 (flag c b2 d2 ms) (run c ms d2)). apply (IH ms); [lia| | |exact H2|exact Hcalm|exact Hf2].
      * apply (CI_step c (Env (ESender SPush)) d1 Hc). now apply (CI_step c (Env (ESender SGive)) d Hc).
      * apply CC_move, CC_move, Hcc.
    + apply T; [|exact Hcalm]. now apply env_34.
    + apply T; [|exact Hcalm]. now apply env_34.
  - apply T; [|exact Hcalm]. assert (dmove c (Env EGraceful) d = d) as -> by (cbn; rewrite Hs; destruct (d_pc d); reflexivity). now apply same_34.
  - apply T; [|exact Hcalm]. destruct (d_pc d) eqn:Ep; [left; cbn; rewrite Ep; apply pc_drop|..].
    all: assert (dmove c (Env EDrop) d = d) as -> by (cbn; rewrite Ep; reflexivity); now apply same_34.
  - apply T; [|exact Hcalm]. assert (dmove c (Env EOff) d = d) as -> by (cbn; rewrite Hs; destruct (d_pc d), (k_log (d_conn d)); reflexivity). now apply same_34.
Qed.

(* ---- Theorems ---- *)
(* When a request is begun, nothing that was received is left over: whatever is
   taken for its response arrives later *)
Theorem C34_fresh : forall c h09 flat wmax evs ms i id, client_cfg c -> calm ms -> i_race i = [] ->
  faithful c false (start h09 flat wmax evs) (ms ++ [Step i]) ->
  let d := after c h09 flat wmax evs ms in
  starts id d (dstep c i d) -> r_buf (k_rd (d_conn d)) = [].
Proof.
  intros c h09 flat wmax evs ms i id Hc Hcalm Hrace Hf d Hst. pose proof (proj1 Hc) as Hs. destruct (faithful_app _ _ _ _ _ Hf) as (Hf1 & Hf2).
  assert (H34 false (start h09 flat wmax evs)) as H0. { right. split; [|reflexivity]. split; [unfold Ch; cbn; lia|]. split; [intros _; left; split; reflexivity|exact (fun _ => I)]. }
  pose proof (run_34 c Hc (length ms) ms (le_n _) false _ (CInv_start h09 flat wmax evs) ltac:(discriminate) H0 Hcalm Hf1) as H.
  change (run c ms (start h09 flat wmax evs)) with d in *.
  destruct (nsd_step c i d Hs) as [F|((Tc & Tw & Tq) & n & Hp)]; [destruct (not_starts id _ _ F Hst)|].
  destruct H as [F|(H & Hg)]; [destruct Hp; congruence|].
  assert (W (d_chan d)) as HWd by (right; left; exact Tq).
  assert (r_buf (k_rd (d_conn d)) = []) as Hb.
  { destruct H as (_ & B' & C). specialize (C HWd). unfold can_write_head, is_read_closed in Tw. rewrite Hs in Tw. destruct (B' HWd) as [(E1 & E2)|E]; [|rewrite E in Tw; discriminate Tw].
    destruct Hp as [Hp|Hp]; rewrite Hp in C; [apply C, E1|congruence]. }
  exact Hb.
Qed.

(* Bytes that arrive while nothing is asked for end the connection with an
   error: they are in the buffer, or the transport delivers them *)
Definition unsolicited (d : disp) : Prop :=
  r_buf (k_rd (d_conn d)) <> [] \/ exists b r, r_evs (k_rd (d_conn d)) = EvData b :: r /\ b <> [].
Theorem C34_reported : forall c h09 flat wmax evs ms i n, client_cfg c -> let d := after c h09 flat wmax evs ms in
  d_pc d = PRead n -> k_reading (d_conn d) = RInit -> k_writing (d_conn d) = WInit -> d_body_tx d = false -> d_callback d = None ->
  unsolicited d ->
  d_pc (dstep c i d) = PDead /\
  exists x, k_log (d_conn (dstep c i d)) = k_log (d_conn d) ++ x /\ (In (LReturn (Some CUnexpected)) x \/ exists id, In (LOutcome id OReturned) x).
Proof.
  intros c h09 flat wmax evs ms i n Hc d Hp Hr Hw Ht Hcb Hu. pose proof (proj1 Hc) as Hs. assert (d_closing d = false) as Hcl by (apply not_closing; [apply CC_after|congruence]).
  assert (exists k, dstep c i d = d_fail c (dset_conn d k) CUnexpected /\ k_log k = k_log (d_conn d)) as (k & -> & K).
  { unfold dstep. rewrite Hp. unfold poll_read_it. rewrite Hcl. unfold can_read_head. rewrite Hr, Hs, Hw, Ht. unfold k_poll_read_keep_alive, is_read_closed, is_mid_message, require_empty_read. rewrite Hr, Hw.
    destruct (r_buf (k_rd (d_conn d))) as [|x y] eqn:Eb; [|eexists; split; reflexivity]. destruct Hu as [Hu|(bb & r & Hu & Hn)]; [now destruct Hu|].
    unfold force_io_read, read_io, r_read_io, poll_read_from_io. cbn [M_Src.evs rbuf]. rewrite Hu. cbn [M_Src.evs rbuf]. assert (lenN bb =? 0 = false) as -> by (destruct bb; [now destruct Hn|]; apply N.eqb_neq; unfold lenN; cbn; lia).
    eexists. split; [reflexivity|]. reflexivity. }
  split; [apply pc_fail|]. destruct (fail_log_client c (dset_conn d k) CUnexpected Hs Hcb) as (x & L & X). exists x. rewrite L. cbn. rewrite K. auto.
Qed.

(* Without the restriction to complete sends it is false.  The first request is
   sent in two steps with a poll between them, so that the connection asks while
   it is under way, and a second request can follow at once (F18).  The peer
   answers the first request before its body is complete, and appends a second
   response.  The end of the body fills the write queue (16 pieces); poll_write flushes it,
   the connection becomes idle, and poll_write goes on with the second request,
   with the second response already in the buffer. *)
Definition always_fresh : Prop := forall c h09 flat wmax evs ms i id, client_cfg c ->
  faithful c false (start h09 flat wmax evs) (ms ++ [Step i]) ->
  let d := after c h09 flat wmax evs ms in starts id d (dstep c i d) -> r_buf (k_rd (d_conn d)) = [].
Definition post : ohead := mkO HTTP11 (ORequest (B "POST") (B "/")) [] None.
Definition posting (blk eos : bool) (fr : poll (option (result uframe unit))) : inp :=
  mkI 0 blk true [WAccept 65536; WAccept 65536] false BReady true Pending (post, Some (Known 16)) fr eos (Ready (Ok tt)) [].
Definition piece : poll (option (result uframe unit)) := Ready (Some (Ok (UData (Segs true [[97]])))).
Definition two_at_once : list event := [EvPending; EvPending; EvData (line (B "HTTP/1.1 200 OK") ++ line (B "HTTP/1.0 200 OK"))] ++ repeat EvPending 10.
Definition overlapping : list move :=
  [Env (ESender SGive)] ++ steps 3 starved ++ [Env (ESender SPush); Env (ESender SGive); Env (ESender SPush)] ++ steps 12 (posting true false Pending) ++ steps 15 (posting false false piece) ++ steps 2 (posting false true piece).
Lemma overlapping_faithful : faithful (ex_cfg false false None) false (start false false 8192 two_at_once) (overlapping ++ [Step (posting false true Pending)]).
Proof. vm_compute. repeat (split; [try exact I; intros; try discriminate; reflexivity|]). exact I. Qed.
Lemma overlapping_starts : let d := after (ex_cfg false false None) false false 8192 two_at_once overlapping in
  starts 1 d (dstep (ex_cfg false false None) (posting false true Pending) d).
Proof. unfold starts. eexists [_; _]. split; [vm_compute; reflexivity|now left]. Qed.
Theorem C34_race_refuted : ~ always_fresh.
Proof.
  intros H. specialize (H (ex_cfg false false None) false false 8192 two_at_once overlapping (posting false true Pending) 1 (ex_client false None) overlapping_faithful overlapping_starts).
  revert H. vm_compute. discriminate.
Qed.
(* and the bytes become the response to the second request: no more of them
   arrive before it is complete *)
Theorem C34_race_answered_refuted :
  let d := after (ex_cfg false false None) false false 8192 two_at_once overlapping in
  d_callback d = None /\ Forall (fun e => e = EvPending) (r_evs (k_rd (d_conn d))) /\
  starts 1 d (dstep (ex_cfg false false None) (posting false true Pending) d) /\
  In (LOutcome 1 (OResp (ex_msg HTTP10 200 0 false true))) (history (ex_cfg false false None) false false 8192 two_at_once (overlapping ++ steps 7 (posting false true Pending))).
Proof.
  cbn zeta. split; [vm_compute; reflexivity|]. split; [vm_compute; repeat constructor|]. split; [exact overlapping_starts|].
  vm_compute. repeat (try (left; reflexivity); right).
Qed.

(* ---- Examples ---- *)
Example C34_ex_fresh : let c := ex_cfg false false None in let e := repeat EvPending 9 in let ms := one_request ++ steps 2 starved in
  calm ms /\ faithful c false (start false true 8192 e) (ms ++ [Step starved]) /\ starts 0 (after c false true 8192 e ms) (dstep c starved (after c false true 8192 e ms)).
Proof.
  cbn zeta. split; [cbn; auto 10|]. split; [vm_compute; repeat (split; [try exact I; intros; try discriminate; reflexivity|]); exact I|]. unfold starts. eexists [_; _; _]. split; [vm_compute; reflexivity|now left].
Qed.
(* A response that nobody asked for, after a complete exchange *)
Example C34_ex_reported : let c := ex_cfg false false None in
  let e := [EvPending; EvPending; EvData (line (B "HTTP/1.1 200 OK") ++ line (B "HTTP/1.1 200 OK")); EvPending] in
  let d := after c false true 8192 e (one_request ++ steps 13 starved) in
  d_pc d = PRead 16 /\ is_idle (d_conn d) = true /\ d_body_tx d = false /\ d_callback d = None /\ unsolicited d /\
  In (LReturn (Some CUnexpected)) (k_log (d_conn (dstep c starved d))).
Proof.
  cbn zeta. split; [vm_compute; reflexivity|]. split; [vm_compute; reflexivity|]. split; [vm_compute; reflexivity|]. split; [vm_compute; reflexivity|]. split; [left; vm_compute; discriminate|].
  vm_compute. repeat (try (left; reflexivity); right).
Qed.

Print Assumptions C34_fresh.
Print Assumptions C34_reported.
Print Assumptions C34_race_refuted.
Print Assumptions C34_race_answered_refuted.
