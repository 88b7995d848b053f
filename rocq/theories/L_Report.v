(* For C62: a server's connection keeps its error until its future returns it *)
From Verif Require Import Base M_Src M_Decode M_HeaderMap M_Headers M_Encode M_Role M_RoleEncode M_Buf M_WriteBuf M_Read M_Conn M_Dispatch S_Conn L_Conn L_Moves L_ConnS L_Ka L_Ext L_BodyTx P_Requests L_Done L_Return.

(* Events that are no sign of a failure; [s]: a body given up counts as calm *)
Definition calmly (s : bool) (e : levent) : bool :=
  match e with LHead true _ _ | LHeadFail _ | LReturn _ => false | LAbort => s | _ => true end.
(* [tame s k k']: only calm events, and no error is lost *)
Definition tame (s : bool) (k k' : conn) : Prop :=
  (exists l, k_log k' = k_log k ++ l /\ forallb (calmly s) l = true) /\
  (k_error k' = k_error k \/ k_error k' = Some CIo) /\
  (k_reading k = RClosed -> k_writing k = WClosed -> k_reading k' = RClosed /\ k_writing k' = WClosed /\ k_error k' = k_error k).
Lemma kept_trans (a b d : option cerr) : b = a \/ b = Some CIo -> d = b \/ d = Some CIo -> d = a \/ d = Some CIo.
Proof. intros [-> | ->] [-> | ->]; auto. Qed.
Lemma tame_refl s k : tame s k k.
Proof. split; [exists []; now rewrite app_nil_r|]. auto. Qed.
Lemma tame_trans s k k' k'' : tame s k k' -> tame s k' k'' -> tame s k k''.
Proof.
  intros ((a & A1 & A2) & A3 & A4) ((b & B1 & B2) & B3 & B4). split; [exists (a ++ b); rewrite B1, A1, app_assoc, forallb_app, A2, B2; auto|]. split; [eapply kept_trans; eauto|].
  intros H1 H2. destruct (A4 H1 H2) as (C1 & C2 & C3). destruct (B4 C1 C2) as (D1 & D2 & D3). repeat split; congruence.
Qed.
Lemma tame_true s k k' : tame s k k' -> tame true k k'.
Proof.
  intros ((l & A & B') & C). split; [|exact C]. exists l. split; [exact A|]. clear A. induction l as [|e l IH]; [reflexivity|]. cbn [forallb] in *. apply andb_prop in B'. destruct B' as (B1 & B2). rewrite (IH B2).
  destruct e as [ | | | | | | |[|] | | | | | | | | | | | ]; try discriminate B1; reflexivity.
Qed.
Lemma tame_upd s k k' l : k_log k' = k_log k ++ l -> forallb (calmly s) l = true -> k_error k' = k_error k -> (k_reading k = RClosed -> k_reading k' = RClosed) -> (k_writing k = WClosed -> k_writing k' = WClosed) -> tame s k k'.
Proof. intros A B' C D E. split; [eauto|]. split; [now left|]. auto. Qed.
Lemma tame_same s k k' : k_log k' = k_log k -> k_error k' = k_error k -> (k_reading k = RClosed -> k_reading k' = RClosed) -> (k_writing k = WClosed -> k_writing k' = WClosed) -> tame s k k'.
Proof. intros A. apply (tame_upd s k k' []); [now rewrite app_nil_r|reflexivity]. Qed.
Ltac tsame := apply tame_same; try reflexivity; try (exact (fun H => H)).
Lemma tame_log s k l : forallb (calmly s) l = true -> tame s k (log k l).
Proof. intros H. apply (tame_upd s k _ l); auto. Qed.
Lemma tame_st_try s c k : tame s k (st_try_keep_alive c k).
Proof.
  unfold st_try_keep_alive. destruct (k_reading k) eqn:Er; try apply tame_refl; destruct (k_writing k) eqn:Ew; try apply tame_refl.
  2,3: apply tame_same; auto; congruence.
  destruct (k_ka k); try (apply tame_same; auto; congruence).
  unfold idle. destruct (c_server c), (c_timeout c); apply tame_same; auto; congruence.
Qed.
Lemma tame_io s k : tame s k (fst (read_io k)).
Proof. unfold read_io. destruct (r_read_io (k_rd k)). tsame. Qed.
Lemma tame_notify s blk k : tame s k (maybe_notify blk k).
Proof.
  unfold maybe_notify. destruct (k_reading k) eqn:Er; try apply tame_refl.
  destruct (k_writing k) eqn:Ew; try apply tame_refl; (destruct blk; [apply tame_refl|]); (destruct (r_buf (k_rd k)); [|apply tame_same; auto; congruence]);
  pose proof (tame_io s k) as H; (destruct (read_io k) as [k' [|[n|e]]]; cbn [fst] in H; [exact H| |]).
  1,3,5: destruct (n =? 0); [|eapply tame_trans; [exact H|tsame]]; (destruct (is_idle k'); eapply tame_trans; [exact H|apply tame_same; auto|exact H|apply tame_same; auto]).
  all: destruct H as (H1 & H2 & H3); split; [exact H1|split; [now right|congruence]].
Qed.
Lemma tame_try s c blk k : tame s k (try_keep_alive c blk k).
Proof. eapply tame_trans; [apply tame_st_try|apply tame_notify]. Qed.
Lemma tame_flush s c blk wevs k : tame s k (fst (k_poll_flush c blk wevs k)).
Proof.
  unfold k_poll_flush. destruct (wb_flush _ _ _ _) as [[[w ev] sent] r].
  assert (tame s k (log (set_wb k w) (match sent with [] => [] | _ => [LSent sent] end))) as H1 by (eapply tame_trans; [|apply tame_log; destruct sent; reflexivity]; tsame).
  destruct r as [|[u|e]]; cbn [fst]; [exact H1|eapply tame_trans; [exact H1|apply tame_try]|exact H1].
Qed.
Lemma tame_close_read s k : tame s k (close_read k).
Proof. apply tame_same; auto. Qed.
Lemma tame_close_write s k : tame s k (close_write k).
Proof. apply tame_same; auto. Qed.
Lemma tame_read_body s c blk k : tame s k (fst (k_poll_read_body c blk k)).
Proof.
  assert (forall k d, k_reading k <> RClosed -> tame s k (fst (read_body_state c blk k d))) as R.
  { clear. intros k d Hr. unfold read_body_state, k_decode. destruct (decode _ _ _) as [[d' s'] r].
    set (k1 := set_rd k _). assert (tame s k k1 /\ k_reading k1 <> RClosed) as (H1 & H2) by (split; [subst k1; tsame|exact Hr]). clearbody k1.
    assert (forall l rd, forallb (calmly s) l = true -> tame s k (log (set_reading k1 rd) l)) as T by (intros l rd Hl; eapply tame_trans; [exact H1|]; apply (tame_upd s _ _ l); auto; congruence).
    assert (forall rd, tame s k (set_reading k1 rd)) as T0 by (intros rd; eapply tame_trans; [exact H1|]; apply tame_same; auto; congruence).
    destruct r as [|[[x|t]|e]]; cbn [fst]; auto.
    - destruct (is_eof d'); destruct x; cbn [fst]; auto; (eapply tame_trans; [|apply tame_try]); auto.
    - eapply tame_trans; [|apply tame_try]; auto.
    - eapply tame_trans; [|apply tame_try]; auto. }
  unfold k_poll_read_body. destruct (k_reading k) eqn:Er; try apply tame_refl; [|apply R; congruence].
  set (k1 := match k_writing k with WInit => _ | _ => k end). assert (tame s k k1 /\ k_reading k1 = RContinue d) as (H1 & H2).
  { subst k1. destruct (k_writing k); try (split; [apply tame_refl|exact Er]). split; [|exact Er]. eapply tame_trans; [|apply tame_log; reflexivity]. tsame. }
  clearbody k1. eapply tame_trans; [exact H1|]. eapply tame_trans; [|apply R; discriminate]. apply tame_same; auto. congruence.
Qed.
Lemma tame_drain s c blk k : tame s k (drain_or_close_read c blk k).
Proof.
  unfold drain_or_close_read. set (k1 := match k_reading k with RContinue d => _ | _ => k end).
  assert (tame s k k1) as H1 by (subst k1; destruct (k_reading k) eqn:Er; try apply tame_refl; apply tame_same; auto; congruence). clearbody k1.
  assert (tame s k (fst (k_poll_read_body c blk k1))) as H2 by (eapply tame_trans; [exact H1|apply tame_read_body]).
  destruct (k_reading (fst (k_poll_read_body c blk k1))) eqn:Er; auto; (eapply tame_trans; [exact H2|apply tame_close_read]).
Qed.
Lemma tame_keep_alive s c k : tame s k (fst (k_poll_read_keep_alive c k)).
Proof.
  unfold k_poll_read_keep_alive, mid_message_detect_eof, require_empty_read, force_io_read. pose proof (tame_io s k) as H1.
  assert (forall k', tame s k k' -> tame s k (close_read k')) as C by (intros k' H; eapply tame_trans; [exact H|apply tame_close_read]).
  assert (forall k', tame s k k' -> tame s k (st_close k')) as C2 by (intros k' H; eapply tame_trans; [exact H|apply tame_same; auto]).
  destruct (is_read_closed k); [apply tame_refl|]. destruct (is_mid_message k).
  - destruct (_ || _); [apply tame_refl|]. destruct (read_io k) as [k' [|[n|e]]]; cbn [fst snd] in *; auto. destruct (n =? 0); cbn; auto.
  - destruct (r_buf (k_rd k)); [|apply tame_refl]. destruct (read_io k) as [k' [|[n|e]]]; cbn [fst snd] in *; auto. destruct (n =? 0); cbn; auto.
Qed.
Lemma tame_effect s k k' : body_effect k k' -> k_error k' = k_error k -> ((exists l, k_log k' = k_log k ++ l /\ forallb (calmly s) l = true) \/ s = true) -> tame s k k'.
Proof.
  intros [->|(e & l & w' & Ew & Er & El & Ew' & Ek & F)]; [intros; apply tame_refl|]. intros Ee Hs. split; [|split; [now left|congruence]].
  destruct Hs as [Hs| ->]; [exact Hs|]. exists l. split; [exact El|]. destruct F as [(bs & -> & _)|[[[->|(bs & ->)] _]|[[->|(bs & ->)] _]]]; reflexivity.
Qed.
Lemma buffer_log room k b : k_log (k_buffer room k b) = k_log k.
Proof. unfold k_buffer. destruct (wb_buffer _ _ _); reflexivity. Qed.
Lemma tame_body c room k b : tame false k (k_write_body c room k b).
Proof.
  apply tame_effect; [apply write_body_effect|apply body_error|]. left. unfold k_write_body. destruct (k_writing k); try (exists []; rewrite app_nil_r; auto; fail).
  destruct (encode_buf _ _ _) as [e' eb]. destruct (negb _); cbn [k_log log set_writing]; rewrite buffer_log, <- ?app_assoc; eexists; split; reflexivity.
Qed.
Lemma tame_trailers c room k t : tame false k (k_write_trailers c room k t).
Proof.
  apply tame_effect; [apply write_trailers_effect|apply trailers_error|]. left. unfold k_write_trailers. destruct (_ && _); [exists []; rewrite app_nil_r; auto|]. destruct (k_writing k); try (exists []; rewrite app_nil_r; auto; fail).
  destruct (encode_trailers _ _ _); [|exists []; rewrite app_nil_r; auto]. cbn [k_log log set_writing]; rewrite buffer_log; eexists; split; reflexivity.
Qed.
Lemma tame_end s room k : snd (k_end_body room k) = Ok tt \/ s = true -> tame s k (fst (k_end_body room k)).
Proof.
  intros Hs. apply tame_effect; [apply end_body_effect|apply end_body_error|]. destruct Hs as [Hs| ->]; [left|now right]. unfold k_end_body in *. destruct (k_writing k); try (exists []; rewrite app_nil_r; auto; fail).
  destruct (enc_end e) as [[|o out]|err]; cbn [fst snd] in *; [| |discriminate Hs]; cbn [k_log log set_writing]; rewrite ?buffer_log, <- ?app_assoc; eexists; split; reflexivity.
Qed.
(* The last buffer of the user's body comes with the news that it is the last
   (write_body_and_end, conn.rs 764-782) *)
Definition announces_end (i : inp) : bool :=
  i_eos i && match i_frame i with Ready (Some (Ok (UData b))) => negb (brem b =? 0) | _ => false end.
(* The error of an automatic response *)
Definition fits (h : ohead) (e : cerr) : Prop := exists p st, e = CParse p /\ server_on_error p = Some st /\ o_subject h = OResponse st None.
(* An error of the parser that there is a response to is the error of such a response *)
Definition answered (l : list levent) (e : cerr) : Prop := forall p st, e = CParse p -> server_on_error p = Some st -> exists h bs, In (LHead true h bs) l /\ o_subject h = OResponse st None.
Definition okerr (l : list levent) (e : cerr) : Prop := (forall h bs, In (LHead true h bs) l -> e = CIo \/ fits h e) /\ answered l e.
Lemma answered_more l l' e : answered l e -> answered (l ++ l') e.
Proof. intros H p st E Hp. destruct (H p st E Hp) as (h & bs & F & S). exists h, bs. split; [apply in_or_app; now left|exact S]. Qed.
Record BI (s : bool) (d : disp) : Prop := mkBI {
  bi_auto : forall h bs, In (LHead true h bs) (k_log (d_conn d)) -> d_in_flight d = false /\ k_reading (d_conn d) = RClosed /\ k_writing (d_conn d) = WClosed /\ exists e, k_error (d_conn d) = Some e /\ fits h e;
  bi_fail : forall out, In (LHeadFail out) (k_log (d_conn d)) -> k_error (d_conn d) <> None;
  bi_abort : s = false -> ~ In LAbort (k_log (d_conn d));
  bi_ret : forallb nret (k_log (d_conn d)) = true;
  bi_err : forall e, k_error (d_conn d) = Some e -> answered (k_log (d_conn d)) e
}.
Lemma calm_auto s l h bs : forallb (calmly s) l = true -> ~ In (LHead true h bs) l.
Proof. intros H F. rewrite forallb_forall in H. apply H in F. discriminate F. Qed.
Lemma calm_fail s l out : forallb (calmly s) l = true -> ~ In (LHeadFail out) l.
Proof. intros H F. rewrite forallb_forall in H. apply H in F. discriminate F. Qed.
Lemma calm_abort l : forallb (calmly false) l = true -> ~ In LAbort l.
Proof. intros H F. rewrite forallb_forall in H. apply H in F. discriminate F. Qed.
Lemma calm_ret s l : forallb (calmly s) l = true -> forallb nret l = true.
Proof. induction l as [|e l IH]; [reflexivity|]. cbn [forallb]. intros H. apply andb_prop in H. destruct H as (H1 & H2). rewrite (IH H2). destruct e; try discriminate H1; reflexivity. Qed.
Lemma BI_tame s d d' : d_in_flight d' = d_in_flight d -> tame s (d_conn d) (d_conn d') -> BI s d -> BI s d'.
Proof.
  intros Hf ((l & L1 & L2) & T1 & T2) [B1 B2 B3 B4 B5]. constructor; rewrite L1.
  - intros h bs F. apply in_app_or in F. destruct F as [F|F]; [|now apply (calm_auto s l h bs) in F]. destruct (B1 h bs F) as (C1 & C2 & C3 & e & C4 & C5). destruct (T2 C2 C3) as (D1 & D2 & D3). rewrite Hf. repeat split; auto. exists e. split; [congruence|exact C5].
  - intros out F. apply in_app_or in F. destruct F as [F|F]; [specialize (B2 out F); destruct T1 as [-> | ->]; congruence|now apply (calm_fail s l out) in F].
  - intros -> F. apply in_app_or in F. destruct F as [F|F]; [exact (B3 eq_refl F)|now apply calm_abort in F].
  - now rewrite forallb_app, B4, (calm_ret s l L2).
  - intros e E. destruct T1 as [T1|T1]; rewrite T1 in E; [apply answered_more, B5, E|]. injection E as <-. discriminate.
Qed.
(* without an automatic response in the log: whatever becomes of the rest *)
Definition noauto (l : list levent) : Prop := forall h bs, ~ In (LHead true h bs) l.
Lemma BI_free s d d' l : noauto (k_log (d_conn d)) -> k_log (d_conn d') = k_log (d_conn d) ++ l -> forallb (calmly s) l = true -> (k_error (d_conn d') = k_error (d_conn d) \/ k_error (d_conn d') = Some CIo) -> BI s d -> BI s d'.
Proof.
  intros Ha L1 L2 He [B1 B2 B3 B4 B5]. constructor; rewrite L1.
  - intros h bs F. apply in_app_or in F. destruct F as [F|F]; [now apply Ha in F|now apply (calm_auto s l h bs) in F].
  - intros out F. apply in_app_or in F. destruct F as [F|F]; [specialize (B2 out F); destruct He as [-> | ->]; congruence|now apply (calm_fail s l out) in F].
  - intros -> F. apply in_app_or in F. destruct F as [F|F]; [exact (B3 eq_refl F)|now apply calm_abort in F].
  - now rewrite forallb_app, B4, (calm_ret s l L2).
  - intros e E. destruct He as [He|He]; rewrite He in E; [apply answered_more, B5, E|]. injection E as <-. discriminate.
Qed.
Lemma BI_noauto s d : BI s d -> k_reading (d_conn d) <> RClosed \/ k_writing (d_conn d) <> WClosed \/ d_in_flight d = true -> noauto (k_log (d_conn d)).
Proof. intros [B1 _ _ _ _] H h bs F. destruct (B1 h bs F) as (C1 & C2 & C3 & _). destruct H as [H|[H|H]]; congruence. Qed.
Lemma BI_conn s d k : tame s (d_conn d) k -> BI s d -> BI s (dset_conn d k).
Proof. intros H. exact (BI_tame s d (dset_conn d k) eq_refl H). Qed.
Lemma BI_log s d l : forallb (calmly s) l = true -> BI s d -> BI s (dlog d l).
Proof. intros H. apply BI_conn, tame_log, H. Qed.
Lemma BI_close s d : BI s d -> BI s (d_close d).
Proof. apply BI_tame; [reflexivity|]. eapply tame_trans; [apply tame_close_read|apply tame_close_write]. Qed.
Lemma BI_same s d d' : d_conn d' = d_conn d -> d_in_flight d' = d_in_flight d -> BI s d -> BI s d'.
Proof. intros H1 H2. apply BI_tame; [exact H2|]. rewrite H1. apply tame_refl. Qed.
Lemma BI_tx s d b : BI s d -> BI s (dset_body_tx d b).
Proof. now apply BI_same. Qed.
Lemma BI_rx s d b : BI s d -> BI s (dset_body_rx d b).
Proof. now apply BI_same. Qed.
Lemma BI_pc s d b : BI s d -> BI s (dset_pc d b).
Proof. now apply BI_same. Qed.
(* The head of a request *)
Lemma report_read_head s c now blk k : c_server c = true -> k_reading k = RInit -> DI false k -> let r := k_poll_read_head c now blk k in
  match snd r with
  | Ready (Some (Err e)) => k_log (fst r) = k_log k /\ answered [] e
  | Pending => tame s k (fst r) \/ exists h bs e, k_log (fst r) = k_log k ++ [LHead true h bs; LEnd] /\ k_error (fst r) = Some e /\ fits h e /\ k_reading (fst r) = RClosed /\ k_writing (fst r) = WClosed
  | _ => tame s k (fst r)
  end.
Proof.
  intros Hs Er H. cbn zeta. unfold k_poll_read_head.
  assert (tame s k (start_timer c now k) /\ k_log (start_timer c now k) = k_log k /\ k_reading (start_timer c now k) = RInit /\ k_error (start_timer c now k) = k_error k /\ k_writing (start_timer c now k) = WInit) as (H0 & L0 & R0 & E0 & W0).
  { destruct (di_init _ _ H Er) as (_ & W). unfold start_timer. destruct (k_running k); [auto 6 using tame_refl|]. destruct (c_timeout c); [|auto 6 using tame_refl]. repeat split; auto. tsame. }
  remember (start_timer c now k) as k0 eqn:Ek. clear Ek.
  destruct (io_parse _ _ (k_rd k0)) as [rd [|[m|e]]].
  - cbn [k_running k_timer set_rd]. destruct (k_running k0), (k_timer k0) as [t|]; try (cbn; left; eapply tame_trans; [exact H0|tsame]). destruct (t <=? now); cbn; [split; [exact L0|discriminate]|left; eapply tame_trans; [exact H0|tsame]].
  - cbn [fst snd]. eapply tame_trans; [exact H0|]. unfold got_head. rewrite Hs.
    set (k1 := if in_keep m then _ else _). assert (tame s k0 k1) as K1.
    { subst k1. unfold busy, st_disable_keep_alive. destruct (k_ka (set_h09 (set_timer (set_method (set_rd k0 rd) (in_method m)) None false) false)), (in_keep m); tsame. }
    assert (k_reading k1 = RInit) as R1. { subst k1. unfold busy, st_disable_keep_alive. destruct (k_ka (set_h09 (set_timer (set_method (set_rd k0 rd) (in_method m)) None false) false)), (in_keep m); exact R0. }
    clearbody k1. eapply tame_trans; [exact K1|].
    assert (forall k2 l, k_log k2 = k_log k1 ++ l -> forallb (calmly s) l = true -> k_error k2 = k_error k1 -> tame s k1 k2) as T.
    { intros k2 l A1 A2 A3. split; [eauto|]. split; [now left|congruence]. }
    destruct (in_decode m =? DL_ZERO); [apply (T _ [LIn m; LInEnd]); try reflexivity; cbn; now rewrite <- app_assoc|destruct (_ && _); apply (T _ [LIn m]); reflexivity].
  - destruct (parse_failure e) as [e' n]. unfold on_read_head_error.
    set (k1 := set_rd (close_read (set_rd (set_rd k0 rd) _)) _).
    assert (tame s k0 k1 /\ k_reading k1 = RClosed /\ k_log k1 = k_log k /\ k_ka k1 = KDisabled /\ k_writing k1 = WInit) as (T1 & R1 & L1 & K1 & W1).
    { split; [|repeat split; assumption]. subst k1. apply tame_same; try reflexivity; auto. }
    clearbody k1. destruct (_ || _).
    + unfold on_parse_error. rewrite W1. destruct (has_h2_prefix k1); [split; [exact L1|]; intros p st Ep; injection Ep as <-; discriminate|].
      destruct (t_on_error c e') as [st|] eqn:Et; [|split; [exact L1|]; intros p st -> Hst; unfold t_on_error in Et; rewrite Hs in Et; congruence]. cbn [fst snd]. right.
      unfold t_on_error in Et. rewrite Hs in Et. destruct e' as [p| | | | | | |]; try discriminate Et.
      destruct (write_auto c k1 (mkO HTTP11 (OResponse st None) [] None) Hs) as (W2 & h' & out & L2 & S2); [exists st, p; auto|exact K1|].
      exists h', out, (CParse p). destruct (write_head_cases c true k1 (mkO HTTP11 (OResponse st None) [] None) None) as (A & _).
      cbn [k_log k_error k_reading k_writing set_error]. rewrite L2, L1. repeat split; auto; [exists p, st; auto|congruence].
    + cbn [fst snd]. eapply tame_trans; [exact H0|]. eapply tame_trans; [exact T1|apply tame_close_write].
Qed.
(* [told]: after an iteration *)
Definition told (s : bool) (r : disp * it) : Prop :=
  match snd r with Ret (Ready (Err e)) => okerr (k_log (d_conn (fst r))) e | _ => BI s (fst r) end.
Lemma noauto_okerr l e : noauto l -> answered l e -> okerr l e.
Proof. intros H A. split; [|exact A]. intros h bs F. now apply H in F. Qed.
Lemma io_okerr l : okerr l CIo.
Proof. split; [intros h bs _; now left|discriminate]. Qed.
Lemma noauto_calm s l l' : noauto l -> forallb (calmly s) l' = true -> noauto (l ++ l').
Proof. intros H H' h bs F. apply in_app_or in F. destruct F as [F|F]; [exact (H h bs F)|exact (calm_auto s l' h bs H' F)]. Qed.
Lemma keep_alive_error c k k' p : k_poll_read_keep_alive c k = (k', Ready (Err (CParse p))) -> False.
Proof.
  unfold k_poll_read_keep_alive, mid_message_detect_eof, require_empty_read. destruct (is_read_closed k); [discriminate|]. destruct (is_mid_message k).
  - destruct (_ || _); [discriminate|]. destruct (force_io_read k) as [k1 [|[n|e]]]; try discriminate. destruct (n =? 0); discriminate.
  - destruct (r_buf (k_rd k)); [|discriminate]. destruct (force_io_read k) as [k1 [|[n|e]]]; try discriminate. destruct (n =? 0); [|discriminate]. destruct (should_error_on_eof c k1); discriminate.
Qed.
Lemma told_read s c i d : c_server c = true -> DD d -> BI s d -> told s (poll_read_it c i d).
Proof.
  intros Hs (H1 & H2) H. unfold told, poll_read_it. destruct (d_closing d) eqn:Hc; [exact H|]. clear H2.
  destruct (can_read_head c (d_conn d)) eqn:Eh.
  - assert (k_reading (d_conn d) = RInit) as Er by (unfold can_read_head in Eh; destruct (k_reading (d_conn d)); try discriminate Eh; reflexivity).
    unfold d_poll_read_head, d_poll_ready. rewrite Hs. pose proof (DI_init_false _ _ H1 Er) as Hf. rewrite Hf. rewrite Hf in H1.
    assert (noauto (k_log (d_conn d))) as Hn by (apply (BI_noauto s); [exact H|left; congruence]).
    pose proof (report_read_head s c (i_now i) (i_blk i) (d_conn d) Hs Er H1) as R. cbn zeta in R. destruct (k_poll_read_head c _ _ _) as [k r]. cbn [fst snd] in *. destruct r as [|[[m|e]|]].
    + cbn [fst snd]. destruct R as [R|(h & bs & e & R1 & R2 & R3 & R4 & R5)]; [now apply BI_conn|].
      constructor; cbn [d_conn dset_conn d_in_flight]; rewrite R1.
      * intros h' bs' F. apply in_app_or in F. destruct F as [F|[F|[F|[]]]]; [now apply Hn in F| |discriminate F]. injection F as <- <-. repeat split; eauto.
      * congruence.
      * intros -> F. apply in_app_or in F. destruct F as [F|[F|[F|[]]]]; try discriminate F. exact (bi_abort _ _ H eq_refl F).
      * now rewrite forallb_app, (bi_ret _ _ H).
      * intros e' E'. rewrite R2 in E'. injection E' as <-. destruct R3 as (p0 & st0 & -> & Hst0 & S0). intros p st Ep Hp. injection Ep as <-. exists h, bs. split; [apply in_or_app; right; now left|congruence].
    + unfold recv_ok. rewrite Hs. cbn [fst snd]. set (d1 := if in_decode m =? DL_ZERO then _ else _).
      assert (tame s (d_conn d) (d_conn d1)) as Q1.
      { subst d1. destruct (in_decode m =? DL_ZERO); [exact R|]. cbn [d_body_tx dset_conn]. destruct (d_body_tx d); [eapply tame_trans; [exact R|apply tame_log; reflexivity]|exact R]. }
      clearbody d1. assert (tame s (d_conn d) (d_conn (if in_upgrade m then dset_conn d1 (on_upgrade (d_conn d1)) else d1))) as Q2 by (destruct (in_upgrade m); [eapply tame_trans; [exact Q1|tsame]|exact Q1]).
      destruct Q2 as ((l & L1 & L2) & Q3 & _). apply (BI_free s d _ l); auto.
    + unfold recv_error. rewrite Hs. cbn [fst snd]. destruct R as (R & Ra). cbn [d_conn dset_conn]. rewrite R. apply noauto_okerr; [exact Hn|exact (answered_more [] _ _ Ra)].
    + cbn [fst snd d_conn dset_conn]. destruct (is_write_closed k); [apply BI_close|]; now apply BI_conn.
  - destruct (d_body_tx d).
    + destruct (can_read_body (d_conn d)); [|apply BI_log; [reflexivity|apply BI_tx, H]].
      destruct (i_body i); cbn [fst snd]; [..|apply (BI_conn s (dset_body_tx d false)); [apply tame_drain|apply BI_tx, H]].
      all: try exact H.
      assert (tame s (d_conn d) (log (d_conn d) [LWant])) as HL by (apply tame_log; reflexivity).
      pose proof (tame_trans _ _ _ _ HL (tame_read_body s c (i_blk i) _)) as T. destruct (k_poll_read_body c _ _) as [k r]. cbn [fst] in T. assert (BI s (dset_conn d k)) as Hk by now apply BI_conn.
      destruct r as [|[[x|e]|]]; cbn [fst snd].
      * exact Hk.
      * destruct (i_send i); cbn [fst snd]; [exact Hk|]. cbn [d_conn dset_body_tx dset_conn]. assert (BI s (dset_body_tx (dset_conn d k) false)) as Hk' by (apply BI_tx, Hk). destruct (can_read_body k); [|exact Hk'].
        apply (BI_conn s (dset_body_tx (dset_conn d k) false)); [exact (tame_close_read s k)|exact Hk'].
      * apply BI_log; [reflexivity|apply BI_tx, Hk].
      * apply BI_log; [reflexivity|apply BI_tx, Hk].
    + pose proof (tame_keep_alive s c (d_conn d)) as T. destruct (k_poll_read_keep_alive c (d_conn d)) as [k r] eqn:Ek. cbn [fst snd] in *. destruct r as [|[u|e]]; try (now apply BI_conn).
      apply noauto_okerr; [|intros p st ->; exfalso; exact (keep_alive_error c (d_conn d) k p Ek)]. cbn [d_conn dset_conn]. assert (k_reading (d_conn d) <> RClosed) as Hr.
      { unfold k_poll_read_keep_alive, is_read_closed in Ek. intros F. rewrite F in Ek. discriminate Ek. }
      destruct T as ((l & -> & L2) & _). apply (noauto_calm s); [|exact L2]. apply (BI_noauto s); auto.
Qed.

Lemma write_head_report c k h body : exists l, k_log (write_head c false k h body) = k_log k ++ l /\
  ((forallb (calmly false) l = true /\ k_error (write_head c false k h body) = k_error k) \/ (exists out, l = [LHeadFail out]) /\ exists e, k_error (write_head c false k h body) = Some e /\ forall p, e <> CParse p).
Proof.
  unfold write_head, encode_head. set (k0 := if c_server c then k else _).
  assert (k_error k0 = k_error k /\ k_log k0 = k_log k) as (H0 & L0) by (subst k0; destruct (c_server c); [auto|]; unfold busy, st_disable_keep_alive; destruct (connection_any_close (o_headers h)), (k_ka k); auto).
  clearbody k0. assert (k_error (fst (enforce_version k0 h)) = k_error k0 /\ k_log (fst (enforce_version k0 h)) = k_log k0) as (H1 & L1).
  { unfold enforce_version, fix_keep_alive. destruct (k_version k0); auto; [|destruct (k_ka k0); auto]. destruct (match hm_get (o_headers h) (B "connection") with Some v => connection_keep_alive v | None => false end); [auto|]. destruct (o_version h); auto. destruct (wants_keep_alive k0); auto. }
  destruct (enforce_version k0 h) as [k1 h1]. cbn [fst] in *. assert (forall out m e, t_encode c k1 h1 body = (out, m, Err e) -> forall p, e <> CParse p) as Ht.
  { intros out m e. unfold t_encode. destruct (o_subject h1) as [sc rs|me ta]; [destruct (server_encode _ _ _) as [o [x|x]]; intros F; inversion F; discriminate|]. destruct (client_encode _) as [(o & x)|]; intros F; inversion F; discriminate. }
  destruct (t_encode c k1 h1 body) as [[out m] [e|e]].
  - exists ([LHead false h1 out] ++ if enc_is_eof e then [LEnd] else []). cbn [k_log k_error log set_writing set_method set_wb]. rewrite L1, L0, app_assoc. split; [reflexivity|]. left. split; [destruct (enc_is_eof e); reflexivity|congruence].
  - exists [LHeadFail out]. cbn [k_log k_error log set_writing set_error set_method set_wb]. rewrite L1, L0. split; [reflexivity|]. right. split; [eauto|]. exists e. split; [reflexivity|eauto].
Qed.
Lemma end_error room k p k' : k_end_body room k = (k', Err (CParse p)) -> False.
Proof. unfold k_end_body. destruct (k_writing k); try discriminate. destruct (enc_end e) as [o|?]; discriminate. Qed.
Lemma told_end s c i d : BI s d -> told s (end_body_it c i d).
Proof.
  intros H. unfold told, end_body_it. pose proof (tame_end s (i_room i) (d_conn d)) as T. pose proof (tame_end true (i_room i) (d_conn d) (or_intror eq_refl)) as T'. assert (forall e, snd (k_end_body (i_room i) (d_conn d)) = Err e -> noauto (k_log (d_conn d))) as Hn.
  { intros e He. apply (BI_noauto s); [exact H|]. right. left. intros F. unfold k_end_body in He. rewrite F in He. discriminate He. }
  destruct (k_end_body (i_room i) (d_conn d)) as [k [u|e]] eqn:He; cbn [fst snd] in *; [apply BI_conn; [apply T; left; now destruct u|exact H]|].
  apply noauto_okerr; [|intros p st ->; exfalso; exact (end_error _ _ p _ He)]. destruct T' as ((l & L1 & L2) & _). cbn [d_conn dset_conn]. rewrite L1. apply (noauto_calm true); [exact (Hn e eq_refl)|exact L2].
Qed.
Lemma told_flush s c i d : BI s d -> BI s (fst (d_flush c i d)) /\ forall e, snd (d_flush c i d) = Ready (Err e) -> e = CIo.
Proof.
  intros H. unfold d_flush. pose proof (tame_flush s c (i_blk i) (i_wevs i) (d_conn d)) as T. destruct (k_poll_flush c _ _ _) as [k r]. cbn [fst snd] in *. split; [now apply BI_conn|]. intros e. destruct r as [|[u|u]]; congruence.
Qed.
Lemma told_write s c i d : c_server c = true -> (s = true \/ announces_end i = false) -> BI s d -> told s (poll_write_it c i d).
Proof.
  intros Hs Hi H. unfold poll_write_it. destruct (d_closing d) eqn:Hc; [exact H|].
  destruct (negb (d_body_rx d) && can_write_head c (d_conn d) && should_poll c d) eqn:Ec.
  - apply andb_prop in Ec. destruct Ec as (_ & Ep). unfold should_poll in Ep. rewrite Hs in Ep.
    assert (noauto (k_log (d_conn d))) as Hn by (apply (BI_noauto s); auto).
    unfold d_poll_msg. rewrite Hs. unfold told. destruct (i_msg i) as [|[[h body]|u]]; cbn [fst snd]; [exact H| |apply noauto_okerr; [exact Hn|discriminate]].
    destruct (write_head_report c (d_conn d) h body) as (l & L1 & L2). cbn [d_conn d_in_flight dset_body_rx dset_in_flight]. destruct L2 as [(L2 & L3)|((out & ->) & e & L3 & L4)].
    + apply (BI_free s d _ l); auto. clear - L2. destruct s; [|exact L2]. induction l as [|e l IH]; [reflexivity|]. cbn [forallb] in *. apply andb_prop in L2. destruct L2 as (A & A2). rewrite (IH A2). destruct e as [ | | | | | | |[|] | | | | | | | | | | | ]; try discriminate A; reflexivity.
    + constructor; cbn [d_conn dset_conn]; rewrite L1.
      * intros h' bs' F. apply in_app_or in F. destruct F as [F|[F|[]]]; [now apply Hn in F|discriminate F].
      * congruence.
      * intros -> F. apply in_app_or in F. destruct F as [F|[F|[]]]; [|discriminate F]. exact (bi_abort _ _ H eq_refl F).
      * now rewrite forallb_app, (bi_ret _ _ H).
      * intros e' E'. rewrite L3 in E'. injection E' as <-. intros p st ->. destruct (L4 p eq_refl).
  - destruct (negb (can_buffer_body c (d_conn d))).
    + destruct (told_flush s c i d H) as (T1 & T2). destruct (d_flush c i d) as [d' [|[u|e]]]; try exact T1. cbn [told snd fst]. rewrite (T2 e eq_refl). apply io_okerr.
    + assert (forall P : Prop, (noauto (k_log (d_conn d)) -> P) -> k_can_write_body (d_conn d) = true -> P) as Hb.
      { intros P HP F. apply HP, (BI_noauto s); [exact H|]. right. left. intros G. unfold k_can_write_body in F. rewrite G in F. discriminate F. }
      assert (forall k, tame false (d_conn d) k -> tame s (d_conn d) k) as TT by (intros k; destruct s; [apply tame_true|auto]).
      destruct (d_body_rx d).
      * destruct (negb (k_can_write_body (d_conn d))) eqn:Eb; [apply BI_rx, H|]. apply negb_false_iff in Eb. unfold announces_end in Hi. destruct (i_frame i) as [|[[[b|t|]|u]|]]; try exact H.
        -- destruct (i_eos i); destruct (brem b =? 0); try exact H.
           ++ apply told_end, BI_rx, H.
           ++ destruct Hi as [-> | Hi]; [|discriminate Hi]. apply (BI_conn true (dset_body_rx d false)); [|apply BI_rx, H]. apply tame_effect; [apply write_body_and_end_effect|apply body_and_end_error|auto].
           ++ apply BI_conn; [|exact H]. apply TT, tame_body.
        -- apply (BI_conn s (dset_body_rx d false)); [|apply BI_rx, H]. apply TT, tame_trailers.
        -- unfold told. cbn [fst snd]. apply Hb; [|exact Eb]. intros Hn. apply noauto_okerr; [exact Hn|discriminate].
        -- apply told_end, BI_rx, H.
      * destruct (k_can_write_body (d_conn d)); [apply told_end, H|exact H].
Qed.
(* What is known when the future returns r after the log a *)
Definition result_ok (s : bool) (a : list levent) (r : option cerr) : Prop :=
  match r with
  | Some e => okerr a e
  | None => noauto a /\ (forall out, ~ In (LHeadFail out) a) /\ (s = false -> ~ In LAbort a)
  end.
Definition returns (s : bool) (d : disp) : Prop := exists a r b, k_log (d_conn d) = a ++ LReturn r :: b /\ forallb nret b = true /\ result_ok s a r.
Lemma returns_complete s d r : result_ok s (k_log (d_conn d)) r -> returns s (d_complete d r).
Proof.
  intros H. unfold d_complete. destruct (drop_log (dlog d [LReturn r])) as (l & L1 & L2). exists (k_log (d_conn d)), r, l. rewrite L1. cbn [k_log log dlog d_conn dset_conn]. rewrite <- app_assoc. auto.
Qed.
Lemma okerr_calm s l l' e : okerr l e -> forallb (calmly s) l' = true -> okerr (l ++ l') e.
Proof. intros (H & Ha) H'. split; [|now apply answered_more]. intros h bs F. apply in_app_or in F. destruct F as [F|F]; [exact (H h bs F)|now apply (calm_auto s l' h bs) in F]. Qed.
Lemma returns_fail s c d e : c_server c = true -> okerr (k_log (d_conn d)) e -> returns s (d_fail c d e).
Proof.
  intros Hs H. unfold d_fail, recv_error. rewrite Hs. apply returns_complete. destruct (d_body_tx d); [|exact H]. cbn [d_conn dlog dset_conn log k_log dset_body_tx]. apply (okerr_calm true); [exact H|reflexivity].
Qed.
Lemma BI_okerr s d e : BI s d -> k_error (d_conn d) = Some e -> okerr (k_log (d_conn d)) e.
Proof. intros H E. split; [|exact (bi_err _ _ H e E)]. intros h bs F. destruct (bi_auto _ _ H h bs F) as (_ & _ & _ & e' & E' & F'). right. congruence. Qed.
Lemma BI_result s d : BI s d -> k_error (d_conn d) = None -> result_ok s (k_log (d_conn d)) None.
Proof.
  intros [B1 B2 B3 _ _] E. split; [|split; [|exact B3]].
  - intros h bs F. destruct (B1 h bs F) as (_ & _ & _ & e & E' & _). congruence.
  - intros out F. exact (B2 out F E).
Qed.
Lemma report_step s c i d : c_server c = true -> (s = true \/ announces_end i = false) -> DD d -> BI s d -> d_pc d <> PDead -> BI s (dstep c i d) \/ returns s (dstep c i d).
Proof.
  intros Hs Hi HD H Hp. unfold dstep. destruct (d_pc d) as [|n|n|n wr|n| | |] eqn:Ep; try contradiction.
  - left. apply BI_pc, H.
  - pose proof (told_read s c i d Hs HD H) as T. unfold told in T. destruct (poll_read_it c i d) as [d' [|[|[u|e]]]]; cbn [fst snd] in T; [left; exact T|left; apply BI_pc, T|left; apply BI_pc, T|right; now apply returns_fail].
  - pose proof (told_write s c i d Hs Hi H) as T. unfold told in T. destruct (poll_write_it c i d) as [d' [|[|[u|e]]]]; cbn [fst snd] in T; [left; exact T|left; apply BI_pc, T|left; apply BI_pc, T|right; now apply returns_fail].
  - destruct (told_flush s c i d H) as (T & T2). destruct (d_flush c i d) as [d' [|[u|e]]]; cbn [fst snd] in *.
    3: right; apply returns_fail; [exact Hs|]; rewrite (T2 e eq_refl); apply io_okerr.
    all: left; unfold wants_read_again; apply BI_pc, BI_conn; [tsame|exact T].
  - pose proof (told_write s c i d Hs Hi H) as T. unfold told in T. destruct (poll_write_it c i d) as [d' [|[|[u|e]]]]; cbn [fst snd] in T; [left; exact T|left; apply BI_pc, T|left; apply BI_pc, T|right; now apply returns_fail].
  - destruct (told_flush s c i d H) as (T & T2). destruct (d_flush c i d) as [d' [|[u|e]]]; cbn [fst snd] in *; try (left; apply BI_pc, T).
    right; apply returns_fail; [exact Hs|]; rewrite (T2 e eq_refl); apply io_okerr.
  - destruct (d_is_done c d); [|left; apply BI_pc, H]. unfold pending_upgrade. set (d1 := dset_conn d (set_upgrade (d_conn d) false)).
    assert (BI s d1) as H1 by (apply BI_conn; [tsame|exact H]). clearbody d1.
    assert (forall d1, BI s d1 -> returns s (match take_error (d_conn d1) with (k, Ok _) => d_complete (dset_conn d1 k) None | (k, Err e) => d_fail c (dset_conn d1 k) e end)) as T.
    { clear - Hs. intros d1 H1. unfold take_error. destruct (k_error (d_conn d1)) as [e|] eqn:Ee.
      - apply returns_fail; [exact Hs|]. exact (BI_okerr s d1 e H1 Ee).
      - apply returns_complete. exact (BI_result s d1 H1 Ee). }
    destruct (k_upgrade (d_conn d)); [right; apply T, H1|]. destruct (wb_flush _ _ _ _) as [[[w ev] sent] r].
    set (d2 := dset_conn d1 _). assert (BI s d2) as H2.
    { subst d2. apply BI_conn; [|exact H1]. eapply tame_trans; [|apply tame_log; destruct sent; reflexivity]. tsame. }
    clearbody d2. assert (forall l, okerr l CIo) as HC by apply io_okerr.
    destruct r as [|[u|e]]; [left; apply BI_pc, H2| |right; apply returns_fail; auto].
    destruct (i_shutdown i) as [|[u'|e']]; [left; apply BI_pc, H2| |right; apply returns_fail; auto].
    right. apply T, BI_log; [reflexivity|exact H2].
Qed.
