(* For C40: a server connection owes no response when it is done *)
From Verif Require Import Base M_Src M_Decode M_HeaderMap M_Headers M_Encode M_Role M_RoleEncode M_Buf M_WriteBuf M_Read M_Conn M_Dispatch S_Conn L_Conn L_Moves L_ConnS L_BodyTx.

(* A request has come in, and neither has its response been finished nor its
   failure been noted *)
Fixpoint owes (o : bool) (l : list levent) : bool :=
  match l with
  | [] => o
  | LIn _ :: r => owes true r
  | (LEnd | LAbort | LHeadFail _) :: r => owes false r
  | _ :: r => owes o r
  end.
Definition owed (l : list levent) : bool := owes false l.
Definition oquiet (e : levent) : bool := match e with LIn _ | LEnd | LAbort | LHeadFail _ => false | _ => true end.
Lemma owes_app l : forall o l', owes o (l ++ l') = owes (owes o l) l'.
Proof. induction l as [|e l IH]; intros o l'; [reflexivity|]. cbn [app owes]. destruct e; apply IH. Qed.
Lemma owes_quiet l : forall o, forallb oquiet l = true -> owes o l = o.
Proof. induction l as [|e l IH]; intros o H; [reflexivity|]. cbn [forallb] in H. apply andb_prop in H. destruct H as (H1 & H2). destruct e; try discriminate H1; cbn [owes]; auto. Qed.
Lemma owed_quiet l q : forallb oquiet q = true -> owed (l ++ q) = owed l.
Proof. intros H. unfold owed. rewrite owes_app. now apply owes_quiet. Qed.

Definition noin (e : levent) : bool := match e with LIn _ => false | _ => true end.
Lemma oquiet_noin q : forallb oquiet q = true -> forallb noin q = true.
Proof. induction q as [|e q IH]; [auto|]. cbn [forallb]. intros H. apply andb_prop in H. destruct H as (H1 & H2). rewrite (IH H2). destruct e; try discriminate H1; reflexivity. Qed.

Record DI (fl : bool) (k : conn) : Prop := mkDI {
  di_init : k_reading k = RInit -> owed (k_log k) = false /\ k_writing k = WInit;
  di_fl : fl = true -> k_writing k = WInit /\ k_reading k <> RInit;
  di_winit : k_writing k = WInit -> fl = true \/ owed (k_log k) = false;
  di_wend : k_writing k = WKeepAlive \/ k_writing k = WClosed -> owed (k_log k) = false;
  di_idle : k_ka k = KIdle -> k_reading k = RInit;
  di_first : k_reading k = RInit -> k_ka k = KIdle \/ forallb noin (k_log k) = true;
  di_err : k_error k <> None -> k_writing k = WClosed \/ k_reading k = RClosed
}.
Lemma DI_upd fl k k' q : k_log k' = k_log k ++ q -> forallb oquiet q = true -> k_reading k' = k_reading k -> k_writing k' = k_writing k -> (k_ka k' = KIdle <-> k_ka k = KIdle) -> (k_error k' <> None -> k_error k <> None) -> DI fl k -> DI fl k'.
Proof.
  intros A A2 B' C D E [H1 H2 H3 H4 H5 H6 H7]. pose proof (owed_quiet (k_log k) q A2) as Q. pose proof (oquiet_noin q A2) as Q2. constructor; rewrite ?A, ?Q, ?B', ?C; auto; try tauto.
  intros Hr. rewrite forallb_app, Q2, andb_true_r. destruct (H6 Hr); tauto.
Qed.
Lemma DI_same fl k k' : k_log k' = k_log k -> k_reading k' = k_reading k -> k_writing k' = k_writing k -> (k_ka k' = KIdle <-> k_ka k = KIdle) -> (k_error k' <> None -> k_error k <> None) -> DI fl k -> DI fl k'.
Proof. intros A. apply (DI_upd fl k k' []); [now rewrite app_nil_r|reflexivity]. Qed.
Ltac dsame := eapply DI_same; [..|eassumption]; try reflexivity; try (exact (fun H => H)); try discriminate.
Lemma DI_log fl k q : forallb oquiet q = true -> DI fl k -> DI fl (log k q).
Proof. intros H. apply DI_upd with (q := q); auto. reflexivity. Qed.
Lemma DI_close_read fl k : DI fl k -> DI fl (close_read k).
Proof.
  intros [H1 H2 H3 H4 H5 H6 H7]. constructor; cbn; try discriminate; auto.
  intros F. destruct (H2 F). split; [auto|discriminate].
Qed.
Lemma DI_st_close k : owed (k_log k) = false -> DI false (st_close k).
Proof. intros H. constructor; cbn; try discriminate; auto. Qed.
Lemma DI_close_write k : k_reading k <> RInit -> owed (k_log k) = false -> DI false (close_write k).
Proof. intros H Ho. constructor; cbn; try discriminate; auto. congruence. Qed.
Lemma DI_fl_false fl k : DI fl k -> k_writing k <> WInit -> fl = false.
Proof. intros [_ H _ _ _ _ _] Hw. destruct fl; [|reflexivity]. destruct (H eq_refl). contradiction. Qed.
Lemma DI_init_false fl k : DI fl k -> k_reading k = RInit -> fl = false.
Proof. intros [_ H _ _ _ _ _] Hw. destruct fl; [|reflexivity]. destruct (H eq_refl). contradiction. Qed.
Lemma DI_st_try c fl k : DI fl k -> DI fl (st_try_keep_alive c k).
Proof.
  intros H. unfold st_try_keep_alive. destruct (k_reading k) eqn:Er; try exact H; destruct (k_writing k) eqn:Ew; try exact H.
  all: assert (fl = false) as -> by (apply (DI_fl_false fl k H); congruence).
  all: assert (owed (k_log k) = false) as Ho by (apply (di_wend _ _ H); rewrite Ew; auto).
  2,3: now apply DI_st_close.
  destruct (k_ka k); try now apply DI_st_close.
  unfold idle. destruct (c_server c), (c_timeout c); (constructor; cbn; auto; try discriminate; try (intros [F|F]; discriminate F); intros F; destruct (di_err _ _ H F); congruence).
Qed.
Lemma DI_io fl k : DI fl k -> DI fl (fst (read_io k)).
Proof. intros H. unfold read_io. destruct (r_read_io (k_rd k)). cbn [fst]. dsame. Qed.
Lemma DI_notify fl blk k : DI fl k -> DI fl (maybe_notify blk k).
Proof.
  intros H. unfold maybe_notify. destruct (k_reading k) eqn:Er; try exact H.
  pose proof (DI_init_false _ _ H Er) as ->. destruct (di_init _ _ H Er) as (Ho & Ew). rewrite Ew.
  destruct blk; [exact H|]. destruct (r_buf (k_rd k)); [|dsame]. pose proof (DI_io _ _ H) as H1. pose proof (read_io_same k) as (L1 & _).
  destruct (read_io k) as [k' [|[n|e]]]; cbn [fst] in *; [exact H1| |].
  - destruct (n =? 0); [|dsame]. destruct (is_idle k'); [apply DI_st_close; congruence|now apply DI_close_read].
  - constructor; cbn; try discriminate; auto. intros _. rewrite L1. exact Ho.
Qed.
Lemma DI_try c fl blk k : DI fl k -> DI fl (try_keep_alive c blk k).
Proof. intros H. apply DI_notify, DI_st_try, H. Qed.
Lemma DI_flush c fl blk wevs k : DI fl k -> DI fl (fst (k_poll_flush c blk wevs k)).
Proof.
  intros H. unfold k_poll_flush. destruct (wb_flush _ _ _ _) as [[[w ev] sent] r].
  assert (DI fl (log (set_wb k w) (match sent with [] => [] | _ => [LSent sent] end))) as H1 by (apply DI_log; [destruct sent; reflexivity|dsame]).
  destruct r as [|[u|e]]; cbn [fst]; [exact H1|now apply DI_try|exact H1].
Qed.
Lemma DI_effect fl k k' : body_effect k k' -> k_error k' = k_error k -> DI fl k -> DI fl k'.
Proof.
  intros [->|(e & l & w' & Ew & Er & El & Ew' & Ek & F)]; [auto|]. intros Ee H. pose proof (DI_fl_false _ _ H ltac:(congruence)) as ->.
  assert (k_reading k <> RInit) as Hr by (intros Q; destruct (di_init _ _ H Q); congruence).
  destruct H as [H1 H2 H3 H4 H5 H6 H7]. constructor; rewrite ?Er, ?Ew', ?Ek, ?Ee; auto; try congruence.
  - intros ->. destruct F as [(bs & _ & (e' & F))|[[_ [F|F]]|[_ F]]]; discriminate F.
  - intros Hw. rewrite El. unfold owed. rewrite owes_app. destruct F as [(bs & _ & (e' & ->))|[[Hl _]|[Hl _]]]; [destruct Hw; discriminate|..]; destruct Hl as [->|(bs & ->)]; reflexivity.
  - intros F'. destruct (H7 F') as [Q|Q]; [congruence|now right].
Qed.
Lemma buffer_error room k b : k_error (k_buffer room k b) = k_error k.
Proof. unfold k_buffer. destruct (wb_buffer _ _ _); reflexivity. Qed.
Lemma body_error c room k b : k_error (k_write_body c room k b) = k_error k.
Proof. unfold k_write_body. destruct (k_writing k); try reflexivity. destruct (encode_buf _ _ _). destruct (negb _); cbn; apply buffer_error. Qed.
Lemma trailers_error c room k t : k_error (k_write_trailers c room k t) = k_error k.
Proof. unfold k_write_trailers. destruct (_ && _); [reflexivity|]. destruct (k_writing k); try reflexivity. destruct (encode_trailers _ _ _); [|reflexivity]. cbn. apply buffer_error. Qed.
Lemma body_and_end_error c room k b : k_error (k_write_body_and_end c room k b) = k_error k.
Proof. unfold k_write_body_and_end. destruct (k_writing k); try reflexivity. cbn. apply buffer_error. Qed.
Lemma end_body_error room k : k_error (fst (k_end_body room k)) = k_error k.
Proof. unfold k_end_body. destruct (k_writing k); try reflexivity. destruct (enc_end _) as [[|x o]|?]; cbn; try reflexivity. apply buffer_error. Qed.
Lemma write_head_error c auto k h body : k_error (write_head c auto k h body) = k_error k \/ k_writing (write_head c auto k h body) = WClosed.
Proof.
  unfold write_head, encode_head. set (k0 := if c_server c then k else _).
  assert (k_error k0 = k_error k) as H0 by (subst k0; destruct (c_server c); [reflexivity|]; unfold busy, st_disable_keep_alive; destruct (connection_any_close (o_headers h)), (k_ka k); reflexivity).
  clearbody k0. assert (k_error (fst (enforce_version k0 h)) = k_error k0) as H1.
  { unfold enforce_version, fix_keep_alive. destruct (k_version k0); try reflexivity; [|destruct (k_ka k0); reflexivity]. destruct (match hm_get (o_headers h) (B "connection") with Some v => connection_keep_alive v | None => false end); [reflexivity|]. destruct (o_version h); try reflexivity. destruct (wants_keep_alive k0); reflexivity. }
  destruct (enforce_version k0 h) as [k1 h1]. cbn [fst] in H1. destruct (t_encode c k1 h1 body) as [[out m] [e|e]]; [left; cbn; congruence|right; reflexivity].
Qed.
Lemma DI_write_head c auto fl k h body : c_server c = true -> DI fl k -> k_writing k = WInit -> k_reading k <> RInit -> DI false (write_head c auto k h body).
Proof.
  intros Hs H Hw Hr. pose proof (write_head_cases c auto k h body) as (A & K & C).
  assert (k_ka (write_head c auto k h body) <> KIdle) as Hk by (apply K; right; intros F; exact (Hr (di_idle _ _ H F))).
  constructor; rewrite ?A; try congruence.
  - intros F. destruct C as [(? & ? & ? & _ & _ & C)|[(? & ? & _ & [C|C])|(? & _ & C)]]; congruence.
  - intros F. destruct C as [(? & ? & ? & _ & _ & C)|[(? & ? & C & _)|(? & C & _)]]; [destruct F; congruence|..]; rewrite C; unfold owed; rewrite owes_app; reflexivity.
  - intros F. destruct (write_head_error c auto k h body) as [E|E]; [|now left]. rewrite E in F. destruct (di_err _ _ H F); [congruence|now right].
Qed.
Lemma DI_reading fl k r : DI fl k -> k_reading k <> RInit -> k_reading k <> RClosed -> r <> RInit -> DI fl (set_reading k r).
Proof.
  intros [H1 H2 H3 H4 H5 H6 H7] Hr Hc Hn. constructor; cbn; auto; try (intros F; contradiction).
  - intros F. destruct (H2 F). auto.
  - intros F. destruct (Hr (H5 F)).
  - intros F. destruct (H7 F); [auto|contradiction].
Qed.
Lemma DI_read_body c fl blk k : DI fl k -> DI fl (fst (k_poll_read_body c blk k)).
Proof.
  assert (forall k d, k_reading k <> RInit -> k_reading k <> RClosed -> DI fl k -> DI fl (fst (read_body_state c blk k d))) as R.
  { clear. intros k d Hr Hrc H. unfold read_body_state, k_decode. destruct (decode _ _ _) as [[d' s] r].
    set (k1 := set_rd k _). assert (DI fl k1 /\ k_reading k1 <> RInit /\ k_reading k1 <> RClosed) as (H1 & H2 & H3) by (split; [subst k1; dsame|split; [exact Hr|exact Hrc]]). clearbody k1.
    destruct r as [|[[x|t]|e]].
    - cbn [fst]. apply DI_reading; auto. discriminate.
    - destruct (is_eof d').
      + destruct x; cbn [fst]; apply DI_try; (apply DI_log; [reflexivity|]; apply DI_reading; [auto|auto|auto|discriminate]).
      + destruct x; cbn [fst]; [apply DI_try; apply DI_reading; [auto|auto|auto|discriminate]|apply DI_log; [reflexivity|]; apply DI_reading; [auto|auto|auto|discriminate]].
    - cbn [fst]. apply DI_try, DI_log; [reflexivity|]. apply DI_reading; [auto|auto|auto|discriminate].
    - cbn [fst]. apply DI_try, DI_log; [reflexivity|]. apply DI_reading; [auto|auto|auto|discriminate]. }
  intros H. unfold k_poll_read_body. destruct (k_reading k) eqn:Er; try exact H.
  - set (k1 := match k_writing k with WInit => _ | _ => k end).
    assert (DI fl k1 /\ k_reading k1 = RContinue d) as (H1 & H2).
    { subst k1. destruct (k_writing k); try (split; [exact H|exact Er]). split; [|exact Er]. apply DI_log; [reflexivity|dsame]. }
    clearbody k1. apply R; [discriminate|discriminate|]. apply DI_reading; [exact H1|congruence|congruence|discriminate].
  - apply R; [congruence|congruence|exact H].
Qed.
Lemma DI_drain c fl blk k : DI fl k -> k_reading k <> RInit -> DI fl (drain_or_close_read c blk k).
Proof.
  intros H Hr. unfold drain_or_close_read. set (k1 := match k_reading k with RContinue d => _ | _ => k end).
  assert (DI fl k1) as H1 by (subst k1; destruct (k_reading k) eqn:Er; auto; apply DI_reading; [exact H|congruence|congruence|discriminate]). clearbody k1.
  pose proof (DI_read_body c fl blk k1 H1) as H2. destruct (k_reading (fst (k_poll_read_body c blk k1))) eqn:Er; auto; now apply DI_close_read.
Qed.
Lemma DI_keep_alive c fl k : DI fl k -> match snd (k_poll_read_keep_alive c k) with Ready (Err _) => True | _ => DI fl (fst (k_poll_read_keep_alive c k)) end.
Proof.
  intros H. unfold k_poll_read_keep_alive, mid_message_detect_eof, require_empty_read, force_io_read. pose proof (DI_io fl k H) as H1.
  destruct (is_read_closed k); [exact H|]. destruct (is_mid_message k).
  - destruct (_ || _); [exact H|]. destruct (read_io k) as [k' [|[n|e]]]; cbn [fst snd] in *; auto. destruct (n =? 0); cbn; auto.
  - destruct (r_buf (k_rd k)); [|exact I]. destruct (read_io k) as [k' [|[n|e]]]; cbn [fst snd] in *; auto. destruct (n =? 0); cbn; auto. destruct (should_error_on_eof c k'); auto. now apply DI_close_read.
Qed.
Lemma DI_read_head c now blk k : c_server c = true -> k_reading k = RInit -> DI false k ->
  match snd (k_poll_read_head c now blk k) with
  | Ready (Some (Ok _)) => DI true (fst (k_poll_read_head c now blk k))
  | Ready (Some (Err _)) => True
  | _ => DI false (fst (k_poll_read_head c now blk k))
  end /\ (k_reading (fst (k_poll_read_head c now blk k)) = RClosed \/ snd (k_poll_read_head c now blk k) <> Ready None).
Proof.
  intros Hs Er H. unfold k_poll_read_head.
  assert (DI false (start_timer c now k) /\ k_reading (start_timer c now k) = RInit) as (H0 & R0).
  { unfold start_timer. destruct (k_running k); [auto|]. destruct (c_timeout c); [|auto]. split; [dsame|exact Er]. }
  remember (start_timer c now k) as k0 eqn:E0. clear E0 H Er k.
  destruct (di_init _ _ H0 R0) as (Ho & Hw).
  assert (k_error k0 = None) as He by (destruct (k_error k0) eqn:Ee; [|reflexivity]; destruct (di_err _ _ H0); congruence).
  destruct (io_parse _ _ (k_rd k0)) as [rd [|[m|e]]].
  - cbn [k_running k_timer set_rd]. destruct (k_running k0), (k_timer k0) as [t|]; try (cbn; split; [dsame|right; discriminate]). destruct (t <=? now); cbn; (split; [try exact I; dsame|right; discriminate]).
  - cbn [fst snd]. split; [|right; discriminate]. unfold got_head. rewrite Hs.
    set (k1 := if in_keep m then _ else _). assert (k_writing k1 = WInit /\ k_ka k1 <> KIdle /\ k_error k1 = None) as (W1 & K1 & E1).
    { subst k1. unfold busy, st_disable_keep_alive. destruct (k_ka (set_h09 (set_timer (set_method (set_rd k0 rd) (in_method m)) None false) false)) eqn:Ek, (in_keep m); cbn in *; repeat split; congruence. }
    clearbody k1. destruct (in_decode m =? DL_ZERO); [|destruct (_ && _)]; (constructor; cbn; auto; try congruence; try discriminate; try (intros [F|F]; congruence); intros F; try (destruct (F E1)); split; [exact W1|discriminate]).
  - destruct (parse_failure e) as [e' n]. unfold on_read_head_error.
    set (k1 := set_rd (close_read (set_rd (set_rd k0 rd) _)) _).
    assert (DI false k1 /\ k_reading k1 = RClosed /\ owed (k_log k1) = false) as (H1 & R1 & O1).
    { split; [|split; [reflexivity|exact Ho]]. assert (DI false (close_read k0)) as Q by now apply DI_close_read. subst k1. dsame. }
    clearbody k1. destruct (_ || _).
    + unfold on_parse_error. destruct (k_writing k1) eqn:W1; try (cbn; split; [exact I|right; discriminate]).
      destruct (has_h2_prefix k1); [cbn; split; [exact I|right; discriminate]|]. destruct (t_on_error c e'); [|cbn; split; [exact I|right; discriminate]]. cbn [fst snd].
      split; [|right; discriminate]. pose proof (DI_write_head c true false k1 (mkO HTTP11 (OResponse n0 None) [] None) None Hs H1 W1 ltac:(congruence)) as [Q1 Q2 Q3 Q4 Q5 Q6 Q7]. destruct (write_head_cases c true k1 (mkO HTTP11 (OResponse n0 None) [] None) None) as (A & _). constructor; auto. intros _. right. cbn. congruence.
    + cbn [fst snd]. split; [|left; exact R1]. apply DI_close_write; [congruence|exact O1].
Qed.

(* ---- The dispatcher ---- *)
Definition DD (d : disp) : Prop :=
  DI (d_in_flight d) (d_conn d) /\ (d_closing d = true -> k_reading (d_conn d) = RClosed /\ k_writing (d_conn d) = WClosed).
Lemma DD_conn d k : DI (d_in_flight d) k -> d_closing d = false -> DD (dset_conn d k).
Proof. intros H Hc. split; [exact H|]. cbn. congruence. Qed.
Lemma DD_same d d' : d_conn d' = d_conn d -> d_in_flight d' = d_in_flight d -> d_closing d' = d_closing d -> DD d -> DD d'.
Proof. intros A B' C [H1 H2]. split; rewrite ?A, ?B', ?C; auto. Qed.
Lemma DD_log d q : forallb oquiet q = true -> DD d -> DD (dlog d q).
Proof. intros Hq [H1 H2]. split; [now apply DI_log|exact H2]. Qed.
Lemma DD_close d : d_in_flight d = false -> owed (k_log (d_conn d)) = false -> DD (d_close d).
Proof.
  intros Hf Ho. split; [|intros _; split; reflexivity]. cbn [d_close d_in_flight dset_conn dset_closing d_conn]. rewrite Hf.
  apply DI_close_write; [discriminate|exact Ho].
Qed.
Lemma flush_closed c blk wevs k : k_reading k = RClosed /\ k_writing k = WClosed -> let k' := fst (k_poll_flush c blk wevs k) in k_reading k' = RClosed /\ k_writing k' = WClosed.
Proof.
  intros (Hr & Hw). cbn zeta. unfold k_poll_flush. destruct (wb_flush _ _ _ _) as [[[w ev] sent] [|[u|e]]]; cbn [fst]; auto.
  unfold try_keep_alive, st_try_keep_alive, maybe_notify. cbn [k_reading k_writing log set_wb]. rewrite Hr, Hw. cbn [k_reading k_writing log set_wb]. rewrite Hr. auto.
Qed.
Lemma DD_flush c i d : DD d -> DD (fst (d_flush c i d)).
Proof.
  intros [H1 H2]. unfold d_flush. pose proof (DI_flush c _ (i_blk i) (i_wevs i) _ H1) as H. pose proof (flush_closed c (i_blk i) (i_wevs i) (d_conn d)) as F.
  destruct (k_poll_flush c _ _ _) as [k r]. cbn [fst] in *. split; [exact H|]. intros Hc. apply F, H2, Hc.
Qed.
Definition keeps (r : disp * it) : Prop := match snd r with Ret (Ready (Err _)) => True | _ => DD (fst r) end.
Lemma DD_read c i d : c_server c = true -> DD d -> keeps (poll_read_it c i d).
Proof.
  intros Hs (H1 & H2). unfold keeps, poll_read_it. destruct (d_closing d) eqn:Hc; [split; [exact H1|intros _; auto]|]. clear H2.
  assert (DD d) as H0 by (split; [exact H1|congruence]).
  destruct (can_read_head c (d_conn d)) eqn:Eh.
  - assert (k_reading (d_conn d) = RInit) as Er by (unfold can_read_head in Eh; destruct (k_reading (d_conn d)); try discriminate Eh; reflexivity).
    unfold d_poll_read_head, d_poll_ready. rewrite Hs. pose proof (DI_init_false _ _ H1 Er) as Hf. rewrite Hf. rewrite Hf in H1.
    destruct (DI_read_head c (i_now i) (i_blk i) (d_conn d) Hs Er H1) as (R1 & R2). destruct (k_poll_read_head c _ _ _) as [k r]. cbn [fst snd] in *. destruct r as [|[[m|e]|]].
    + cbn [fst snd]. apply DD_conn; [now rewrite Hf|exact Hc].
    + unfold recv_ok. rewrite Hs. cbn [fst snd]. set (d1 := if in_decode m =? DL_ZERO then _ else _).
      assert (DI true (d_conn d1) /\ d_closing d1 = false) as (Q1 & Q2).
      { subst d1. destruct (in_decode m =? DL_ZERO); [split; [exact R1|exact Hc]|]. cbn [d_body_tx dset_conn]. destruct (d_body_tx d); cbn [d_conn dset_body_tx dlog dset_conn d_closing]; (split; [|exact Hc]); [apply DI_log; [reflexivity|exact R1]|exact R1]. }
      clearbody d1. destruct (in_upgrade m); (split; [|cbn; congruence]); cbn [d_conn d_in_flight dset_in_flight dset_conn]; [dsame|exact Q1].
    + unfold recv_error. rewrite Hs. exact I.
    + cbn [fst snd d_conn dset_conn]. destruct (is_write_closed k) eqn:Ew; [|apply DD_conn; [now rewrite Hf|exact Hc]].
      apply DD_close; [exact Hf|]. cbn. apply (di_wend _ _ R1). right. unfold is_write_closed in Ew. destruct (k_writing k); try discriminate Ew; reflexivity.
  - assert (k_reading (d_conn d) <> RInit) as Hr by (unfold can_read_head in Eh; rewrite Hs in Eh; intros F; rewrite F in Eh; discriminate Eh).
    destruct (d_body_tx d).
    + destruct (can_read_body (d_conn d)); [|apply DD_log; [reflexivity|exact (DD_same d _ eq_refl eq_refl eq_refl H0)]].
      destruct (i_body i); cbn [fst snd]; [..|apply (DD_conn (dset_body_tx d false)); [apply DI_drain; auto|exact Hc]].
      all: try exact H0.
      assert (DI (d_in_flight d) (log (d_conn d) [LWant])) as HL by (apply DI_log; [reflexivity|exact H1]).
      pose proof (DI_read_body c _ (i_blk i) _ HL) as H. destruct (k_poll_read_body c _ _) as [k r]. cbn [fst] in H. assert (DD (dset_conn d k)) as Hk by (apply DD_conn; auto).
      destruct r as [|[[x|e]|]]; cbn [fst snd].
      * exact Hk.
      * destruct (i_send i); cbn [fst snd]; [exact Hk|]. cbn [d_conn dset_body_tx dset_conn]. destruct (can_read_body k); [|exact (DD_same _ _ eq_refl eq_refl eq_refl Hk)].
        apply (DD_conn (dset_body_tx (dset_conn d k) false)); [now apply DI_close_read|exact Hc].
      * apply DD_log; [reflexivity|exact (DD_same _ _ eq_refl eq_refl eq_refl Hk)].
      * apply DD_log; [reflexivity|exact (DD_same _ _ eq_refl eq_refl eq_refl Hk)].
    + pose proof (DI_keep_alive c _ _ H1) as H. destruct (k_poll_read_keep_alive c (d_conn d)) as [k r]. cbn [fst snd] in *. destruct r as [|[u|e]]; try exact I; apply DD_conn; auto.
Qed.
Lemma DD_end c i d : DD d -> d_closing d = false -> keeps (end_body_it c i d).
Proof.
  intros (H1 & _) Hc. unfold keeps, end_body_it. pose proof (DI_effect _ _ _ (end_body_effect (i_room i) (d_conn d)) (end_body_error _ _) H1) as H.
  destruct (k_end_body (i_room i) (d_conn d)) as [k [u|e]]; cbn [fst snd] in *; [|exact I]. now apply DD_conn.
Qed.
Lemma DD_write c i d : c_server c = true -> DD d -> keeps (poll_write_it c i d).
Proof.
  intros Hs (H1 & H2). unfold poll_write_it. destruct (d_closing d) eqn:Hc; [split; [exact H1|intros _; auto]|]. clear H2.
  assert (DD d) as H0 by (split; [exact H1|congruence]). assert (DD (dset_body_rx d false)) as H0' by exact (DD_same _ _ eq_refl eq_refl eq_refl H0).
  destruct (negb (d_body_rx d) && can_write_head c (d_conn d) && should_poll c d) eqn:Ec.
  - apply andb_prop in Ec. destruct Ec as (_ & Ep). unfold should_poll in Ep. rewrite Hs in Ep.
    destruct (di_fl _ _ H1 Ep) as (Hw & Hr). unfold d_poll_msg. rewrite Hs. unfold keeps. destruct (i_msg i) as [|[[h body]|u]]; cbn [fst snd]; try exact I; [exact H0|].
    apply (DD_conn (dset_body_rx (dset_in_flight d false) _)); [|exact Hc]. exact (DI_write_head c false _ _ h body Hs H1 Hw Hr).
  - destruct (negb (can_buffer_body c (d_conn d))).
    + pose proof (DD_flush c i d H0) as H. destruct (d_flush c i d) as [d' [|[u|e]]]; try exact I; exact H.
    + destruct (d_body_rx d).
      * destruct (negb (k_can_write_body (d_conn d))); [exact H0'|]. destruct (i_frame i) as [|[[[b|t|]|u]|]]; try exact H0; try exact I.
        -- destruct (i_eos i); destruct (brem b =? 0); try exact H0.
           ++ apply DD_end; auto.
           ++ apply DD_conn; [|exact Hc]. exact (DI_effect _ _ _ (write_body_and_end_effect c _ _ _) (body_and_end_error _ _ _ _) H1).
           ++ apply DD_conn; [|exact Hc]. exact (DI_effect _ _ _ (write_body_effect c _ _ _) (body_error _ _ _ _) H1).
        -- apply (DD_conn (dset_body_rx d false)); [|exact Hc]. exact (DI_effect _ _ _ (write_trailers_effect c _ _ _) (trailers_error _ _ _ _) H1).
        -- apply DD_end; auto.
      * destruct (k_can_write_body (d_conn d)); [apply DD_end; auto|exact H0].
Qed.
(* The connection's last poll, which ends it without an error *)
Definition gives_up (d : disp) : bool :=
  negb (d_closing d) && k_can_write_body (d_conn d) && negb (d_body_rx d) && negb (d_in_flight d) && is_read_closed (d_conn d).
Lemma done_owes c d : c_server c = true -> DD d -> d_is_done c d = true -> owed (k_log (d_conn d)) = false \/ gives_up d = true.
Proof.
  intros Hs (H1 & H2) Hd. unfold d_is_done in Hd. unfold gives_up. destruct (d_closing d) eqn:Hc.
  { left. apply (di_wend _ _ H1). right. now apply H2. }
  rewrite Hs in Hd. cbn [negb andb] in Hd. apply andb_prop in Hd. destruct Hd as (Hr & Hd). unfold should_poll in Hd. rewrite Hs in Hd. rewrite Hr.
  unfold is_write_closed in Hd. unfold k_can_write_body. destruct (k_writing (d_conn d)) eqn:Ew; try (left; apply (di_wend _ _ H1); rewrite Ew; now auto).
  - left. cbn [orb] in Hd. apply andb_prop in Hd. destruct Hd as (Hd & _). destruct (di_winit _ _ H1 Ew) as [F|F]; [rewrite F in Hd; discriminate Hd|exact F].
  - right. cbn [orb] in Hd. apply andb_prop in Hd. destruct Hd as (Hd & Hb). now rewrite Hd, Hb.
Qed.
