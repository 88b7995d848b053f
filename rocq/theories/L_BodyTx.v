(* Lemmas: what a move of the dispatcher does to the body sender, in terms of
   the events of the log only. *)
From Verif Require Import Base M_Src M_Decode M_HeaderMap M_Headers M_Encode M_Role M_RoleEncode M_Buf M_WriteBuf M_Read M_Conn M_Dispatch S_Conn L_Conn L_Moves L_ConnS L_Ext.

Definition tquiet (e : levent) : bool := match e with LIn _ | LBodyEnd | LBodyFail => false | _ => true end.
(* [bq k k']: nothing about bodies happened *)
Definition bq (k k' : conn) : Prop :=
  exists l, k_log k' = k_log k ++ l /\ forallb tquiet l = true /\ can_read_body k' = can_read_body k.
Lemma bq_refl k : bq k k.
Proof. exists []. rewrite app_nil_r. auto. Qed.
Lemma bq_trans k k' k'' : bq k k' -> bq k' k'' -> bq k k''.
Proof. intros (a & A1 & A2 & A3) (b & B1 & B2 & B3). exists (a ++ b). rewrite B1, A1, app_assoc, forallb_app, A2, B2, B3. auto. Qed.
Lemma bq_same k k' : k_log k' = k_log k -> k_reading k' = k_reading k -> bq k k'.
Proof. intros H1 H2. exists []. rewrite app_nil_r. unfold can_read_body. rewrite H2. auto. Qed.
Lemma bq_log k l : forallb tquiet l = true -> bq k (log k l).
Proof. intros H. exists l. auto. Qed.
Ltac bsame := apply bq_same; reflexivity.
(* Two states neither of which reads a body *)
Lemma bq_off k k' : k_log k' = k_log k -> can_read_body k = false -> can_read_body k' = false -> bq k k'.
Proof. intros H1 H2 H3. exists []. rewrite app_nil_r, H2, H3. auto. Qed.

Lemma bq_st_try c k : bq k (st_try_keep_alive c k).
Proof.
  unfold st_try_keep_alive, idle. destruct (k_reading k) eqn:Er; try apply bq_refl; destruct (k_writing k) eqn:Ew; try apply bq_refl;
    try (apply bq_off; [reflexivity|unfold can_read_body; rewrite Er; reflexivity|reflexivity]).
  destruct (k_ka k); try (apply bq_off; [reflexivity|unfold can_read_body; rewrite Er; reflexivity|reflexivity]).
  destruct (c_server c), (c_timeout c); (apply bq_off; [reflexivity|unfold can_read_body; rewrite Er; reflexivity|reflexivity]).
Qed.
Lemma read_io_same k : k_log (fst (read_io k)) = k_log k /\ k_reading (fst (read_io k)) = k_reading k.
Proof. unfold read_io. destruct (r_read_io (k_rd k)). auto. Qed.
Lemma bq_maybe_notify blk k : bq k (maybe_notify blk k).
Proof.
  unfold maybe_notify. destruct (k_reading k) eqn:Er; try apply bq_refl.
  assert (can_read_body k = false) as Hk by (unfold can_read_body; now rewrite Er).
  pose proof (read_io_same k) as (H1 & H2).
  assert (bq k (if blk then k else match r_buf (k_rd k) with
     | [] => match read_io k with
             | (k, Ready (Ok n)) => if n =? 0 then (if is_idle k then st_close k else close_read k) else set_notify k true
             | (k, Pending) => k
             | (k, Ready (Err _)) => set_notify (set_error (st_close k) (Some CIo)) true
             end
     | _ => set_notify k true end)) as Q.
  { destruct blk; [apply bq_refl|]. destruct (r_buf (k_rd k)); [|bsame]. destruct (read_io k) as [k' [|[n|e]]]; cbn [fst] in *.
    - apply bq_same; auto.
    - destruct (n =? 0); [destruct (is_idle k')|]; [..|apply bq_same; auto]; apply bq_off; auto.
    - apply bq_off; auto. }
  destruct (k_writing k); first [apply bq_refl | exact Q].
Qed.
Lemma bq_try c blk k : bq k (try_keep_alive c blk k).
Proof. eapply bq_trans; [apply bq_st_try|apply bq_maybe_notify]. Qed.
Lemma bq_flush c blk wevs k : bq k (fst (k_poll_flush c blk wevs k)).
Proof.
  unfold k_poll_flush. destruct (wb_flush _ _ _ _) as [[[w ev] sent] r].
  assert (bq k (log (set_wb k w) (match sent with [] => [] | _ => [LSent sent] end))) as H1.
  { destruct sent as [|x sent]; (eapply bq_trans; [|apply bq_log; reflexivity]); bsame. }
  destruct r as [|[u|e]]; cbn [fst]; [exact H1|eapply bq_trans; [exact H1|apply bq_try]|exact H1].
Qed.
Lemma bq_effect k k' : body_effect k k' -> bq k k'.
Proof.
  intros [->|(e & l & w' & Ew & Er & El & Ew' & Ek & F)]; [apply bq_refl|]. exists l. unfold can_read_body. rewrite Er. split; [exact El|]. split; [|reflexivity].
  destruct F as [(bs & -> & _)|[[Hl _]|[Hl _]]]; [reflexivity|..]; destruct Hl as [->|(bs & ->)]; reflexivity.
Qed.
Lemma bq_write_head c auto k h body : bq k (write_head c auto k h body).
Proof.
  unfold write_head, encode_head.
  set (k0 := if c_server c then k else _).
  assert (k_log k0 = k_log k /\ k_reading k0 = k_reading k) as (H0 & R0).
  { subst k0. unfold busy. destruct (c_server c); [auto|]. match goal with |- context [if ?b then _ else _] => destruct b end; destruct (k_ka k) eqn:Ek; auto. }
  clearbody k0. pose proof (enforce_frame k0 h) as Q. destruct (enforce_version k0 h) as [k1 h1]. destruct Q as (Q & Q2 & _).
  destruct (t_encode c k1 h1 body) as [[out m] [e|e]].
  - exists (LHead auto h1 out :: (if enc_is_eof e then [LEnd] else [])). unfold can_read_body. cbn. rewrite Q, H0, Q2, R0, <- app_assoc. split; [reflexivity|]. split; [destruct (enc_is_eof e); reflexivity|reflexivity].
  - exists [LHeadFail out]. unfold can_read_body. cbn. rewrite Q, H0, Q2, R0. auto.
Qed.
Lemma bq_read_head_error c k e : can_read_body k = false -> bq k (fst (on_read_head_error c k e)).
Proof.
  intros Hk. unfold on_read_head_error. destruct (_ || _); [|apply bq_off; auto].
  unfold on_parse_error. destruct (k_writing _); try (apply bq_off; auto; fail). destruct (has_h2_prefix _); [apply bq_off; auto|].
  destruct (t_on_error c e); cbn [fst]; [|apply bq_off; auto]. eapply bq_trans; [|bsame]. eapply bq_trans; [|apply bq_write_head]. apply bq_off; auto.
Qed.
(* Reading a head: nothing, or a message *)
Lemma poll_read_head_body c now blk k : can_read_body k = false ->
  match k_poll_read_head c now blk k with
  | (k', Ready (Some (Ok m))) =>
      if in_decode m =? DL_ZERO then k_log k' = k_log k ++ [LIn m; LInEnd] /\ can_read_body k' = false
      else k_log k' = k_log k ++ [LIn m] /\ can_read_body k' = true
  | (k', _) => bq k k'
  end.
Proof.
  intros Hk. unfold k_poll_read_head.
  assert (bq k (start_timer c now k) /\ k_log (start_timer c now k) = k_log k) as (H0 & H0') by (unfold start_timer; destruct (k_running k); [split; [bsame|reflexivity]|]; destruct (c_timeout c); split; try bsame; reflexivity).
  remember (start_timer c now k) as k0 eqn:E0. clear E0.
  assert (can_read_body k0 = false) as Hk0 by (destruct H0 as (l & _ & _ & H); congruence).
  destruct (io_parse _ _ (k_rd k0)) as [rd [|[m|e]]].
  - cbn [k_running k_timer set_rd]. destruct (k_running k0); [|eapply bq_trans; [exact H0|bsame]]. destruct (k_timer k0) as [t|]; [|eapply bq_trans; [exact H0|bsame]]. destruct (t <=? now); (eapply bq_trans; [exact H0|bsame]).
  - rewrite <- H0'. clear H0 H0' Hk k. rename k0 into k.
    unfold got_head.
    set (k1 := log _ [LIn m]).
    assert (k_log k1 = k_log k ++ [LIn m]) as H1.
    { subst k1. unfold busy. destruct (c_server c), (in_keep m), (k_ka k) eqn:Ek; cbn; rewrite ?Ek; reflexivity. }
    clearbody k1. destruct (in_decode m =? DL_ZERO).
    + match goal with |- k_log (set_trailers ?x _) = _ /\ _ => assert (k_log x = k_log k ++ [LIn m; LInEnd] /\ can_read_body x = false) as (A & B'); [|split; [exact A|exact B']] end.
      destruct (c_server c); [split; [cbn; rewrite H1, <- app_assoc; reflexivity|reflexivity]|].
      pose proof (bq_try c blk (log (set_reading k1 RKeepAlive) [LInEnd])) as (l & _ & _ & L3). split; [|rewrite L3; reflexivity].
      assert (k_log (try_keep_alive c blk (log (set_reading k1 RKeepAlive) [LInEnd])) = k_log (log (set_reading k1 RKeepAlive) [LInEnd])) as Q.
      { clear. generalize (log (set_reading k1 RKeepAlive) [LInEnd]). intros k. unfold try_keep_alive.
        assert (k_log (st_try_keep_alive c k) = k_log k) as Q1.
        { unfold st_try_keep_alive, idle. destruct (k_reading k); try reflexivity; destruct (k_writing k); try reflexivity. destruct (k_ka k); try reflexivity. destruct (c_server c), (c_timeout c); reflexivity. }
        rewrite <- Q1. generalize (st_try_keep_alive c k). clear. intros k. unfold maybe_notify. destruct (k_reading k); try reflexivity.
        pose proof (read_io_same k) as (H1 & _).
        destruct (k_writing k); try reflexivity; (destruct blk; [reflexivity|]; destruct (r_buf (k_rd k)); [|reflexivity]; destruct (read_io k) as [k' [|[n|e]]]; cbn [fst] in *; [exact H1| |exact H1]; destruct (n =? 0); [destruct (is_idle k')|]; exact H1). }
      rewrite Q. cbn. rewrite H1, <- app_assoc. reflexivity.
    + destruct (_ && _); (split; [exact H1|reflexivity]).
  - destruct (parse_failure e) as [e' n].
    match goal with |- context [on_read_head_error c ?x e'] => set (kk := x) end.
    assert (bq k0 (fst (on_read_head_error c kk e'))) as Q by (eapply bq_trans; [|apply bq_read_head_error; exact Hk0]; bsame).
    destruct (on_read_head_error c kk e') as [k' r] eqn:Eo.
    assert (forall m, r <> Ready (Some (Ok m))) as Hr.
    { clear - Eo. unfold on_read_head_error in Eo. destruct (_ || _) in Eo; [|inversion Eo; discriminate]. destruct (on_parse_error c _ e') as [k2 [u|e2]]; inversion Eo; discriminate. }
    cbn [fst] in Q. destruct r as [|[[m|e2]|]]; try (eapply bq_trans; [exact H0|exact Q]). exfalso. exact (Hr m eq_refl).
Qed.

(* The decoder gives an empty piece only at the end of the body *)
Lemma cdecode_empty (dt : bytes -> N -> option hmap) fuel : forall c s c' s', cdecode dt fuel c s = (c', s', Ready (Ok (FData []))) -> is_eof (DChunked c') = true.
Proof.
  induction fuel as [|fuel IH]; intros c s c' s' E; cbn in E; [discriminate E|].
  destruct (cstep c s) as [[c1 s1] [|[buf|e]]] eqn:Es; try discriminate E.
  assert (buf <> Some []) as Hb.
  { intros ->. unfold cstep, with_byte, read_body in Es. destruct (cs c); try discriminate Es;
      repeat match type of Es with (match ?x with _ => _ end) = _ => destruct x eqn:?; try discriminate Es end; inversion Es. }
  destruct (cs c1) eqn:Ec; try (destruct buf as [d|]; [inversion E; subst; congruence|apply (IH _ _ _ _ E)]).
  destruct (tbuf c1) as [t|]; [destruct (dt t (tcnt c1)); discriminate E|]. inversion E; subst. cbn. now rewrite Ec.
Qed.
Lemma decode_empty (dt : bytes -> N -> option hmap) d s d' s' : decode dt d s = (d', s', Ready (Ok (FData []))) -> is_eof d' = true.
Proof.
  unfold decode. destruct d as [n|c|b].
  - destruct (n =? 0) eqn:En; intros E.
    + inversion E; subst. apply N.eqb_eq in En. now subst n.
    + destruct (read_mem s n) as [s1 [|[buf|e]]]; try discriminate E. destruct (n <? lenN buf); [inversion E; reflexivity|]. destruct (lenN buf =? 0) eqn:El; [discriminate E|]. inversion E; subst. discriminate El.
  - destruct (cdecode dt (S (src_size s)) c s) as [[c' s1] r] eqn:Ec. intros E. inversion E; subst. eapply cdecode_empty. exact Ec.
  - destruct b; intros E; [inversion E; reflexivity|]. destruct (read_mem s 8192) as [s1 [|[buf|e]]]; try discriminate E. inversion E; subst. reflexivity.
Qed.
(* Reading the body *)
Lemma log_bq k l k' : bq (log k l) k' -> exists l', k_log k' = k_log k ++ l ++ l' /\ forallb tquiet l' = true /\ can_read_body k' = can_read_body k.
Proof. intros (l' & A & B' & C). exists l'. rewrite A. cbn. rewrite <- app_assoc. auto. Qed.
Lemma poll_read_body_body c blk k : can_read_body k = true ->
  exists l, k_log (fst (k_poll_read_body c blk k)) = k_log k ++ l /\ forallb tquiet l = true /\
  match k_poll_read_body c blk k with
  | (k', Pending) => can_read_body k' = true
  | (k', Ready (Some (Ok _))) => can_read_body k' = true \/ In LInEnd l
  | (k', Ready None) => In LInEnd l /\ can_read_body k' = false
  | (k', Ready (Some (Err _))) => can_read_body k' = false
  end.
Proof.
  intros Hk.
  assert (forall k d, exists l, k_log (fst (read_body_state c blk k d)) = k_log k ++ l /\ forallb tquiet l = true /\
    match read_body_state c blk k d with
    | (k', Pending) => can_read_body k' = true
    | (k', Ready (Some (Ok _))) => can_read_body k' = true \/ In LInEnd l
    | (k', Ready None) => In LInEnd l /\ can_read_body k' = false
    | (k', Ready (Some (Err _))) => can_read_body k' = false
    end) as S.
  { clear. intros k d. unfold read_body_state, k_decode.
    destruct (decode (c_dt c) d _) as [[d' sc] r] eqn:Ed.
    set (k1 := set_rd k _). assert (k_log k1 = k_log k) as H1 by reflexivity. clearbody k1. rewrite <- H1. clear H1. rename k into k00. rename k1 into k.
    destruct r as [|[[x|t]|e]].
    - exists []. cbn. rewrite app_nil_r. auto.
    - destruct (is_eof d') eqn:Ee.
      + destruct x as [|b x]; cbn [app fst].
        * destruct (log_bq _ _ _ (bq_try c blk (log (set_reading k RKeepAlive) [LInEnd]))) as (l' & A & B' & C).
          exists (LInEnd :: l'). split; [exact A|]. split; [exact B'|]. split; [left; reflexivity|rewrite C; reflexivity].
        * destruct (log_bq _ _ _ (bq_try c blk (log (set_reading k RKeepAlive) [LInData (b :: x); LInEnd]))) as (l' & A & B' & C).
          exists (LInData (b :: x) :: LInEnd :: l'). split; [exact A|]. split; [exact B'|]. right. right. left. reflexivity.
      + destruct x as [|b x]; [exfalso; pose proof (decode_empty _ _ _ _ _ Ed); congruence|]. cbn [fst].
        exists [LInData (b :: x)]. cbn. auto.
    - cbn [fst]. destruct (log_bq _ _ _ (bq_try c blk (log (set_reading k RKeepAlive) [LInTrailers t; LInEnd]))) as (l' & A & B' & C).
      exists (LInTrailers t :: LInEnd :: l'). split; [exact A|]. split; [exact B'|]. right. right. left. reflexivity.
    - cbn [fst]. destruct (log_bq _ _ _ (bq_try c blk (log (set_reading k RClosed) [LInError e]))) as (l' & A & B' & C).
      exists (LInError e :: l'). split; [exact A|]. split; [exact B'|]. rewrite C. reflexivity. }
  unfold k_poll_read_body, can_read_body in *. destruct (k_reading k) eqn:Er; try discriminate Hk; [|apply S].
  set (k1 := set_reading _ (RBody d)). destruct (S k1 d) as (l & A & B' & C).
  assert (exists l0, k_log k1 = k_log k ++ l0 /\ forallb tquiet l0 = true) as (l0 & D & E).
  { subst k1. destruct (k_writing k); [exists [LContinue]|exists []..]; cbn; rewrite ?app_nil_r; auto. }
  exists (l0 ++ l). rewrite A, D, app_assoc, forallb_app, B', E. split; [reflexivity|]. split; [reflexivity|].
  destruct (read_body_state c blk k1 d) as [k2 [|[[f|e]|]]]; rewrite ?in_app_iff; tauto.
Qed.
Lemma drain_body c blk k : can_read_body k = true ->
  exists l, k_log (drain_or_close_read c blk k) = k_log k ++ l /\ forallb tquiet l = true /\ can_read_body (drain_or_close_read c blk k) = false.
Proof.
  intros Hk. unfold drain_or_close_read. set (k1 := match k_reading k with RContinue d => _ | _ => k end).
  assert (k_log k1 = k_log k /\ can_read_body k1 = true) as (H1 & H2) by (subst k1; unfold can_read_body in *; destruct (k_reading k) eqn:Er; cbn; rewrite ?Er; auto).
  destruct (poll_read_body_body c blk k1 H2) as (l & A & B' & _). exists l. rewrite <- H1, <- A.
  unfold can_read_body. destruct (k_reading (fst (k_poll_read_body c blk k1))) eqn:E; cbn; rewrite ?E; auto.
Qed.
Lemma keep_alive_body c k : exists l, k_log (fst (k_poll_read_keep_alive c k)) = k_log k ++ l /\ forallb tquiet l = true /\
  (can_read_body (fst (k_poll_read_keep_alive c k)) = true -> can_read_body k = true).
Proof.
  assert (forall k', k_log k' = k_log k -> (can_read_body k' = true -> can_read_body k = true) -> exists l, k_log k' = k_log k ++ l /\ forallb tquiet l = true /\ (can_read_body k' = true -> can_read_body k = true)) as Q
    by (intros k' A B'; exists []; rewrite app_nil_r; auto).
  unfold k_poll_read_keep_alive, mid_message_detect_eof, require_empty_read, force_io_read.
  pose proof (read_io_same k) as (H1 & H2).
  assert (can_read_body (fst (read_io k)) = can_read_body k) as H3 by (unfold can_read_body; now rewrite H2).
  destruct (is_read_closed k); [apply Q; auto|]. destruct (is_mid_message k).
  - destruct (_ || _); [apply Q; auto|]. destruct (read_io k) as [k' [|[n|e]]]; cbn [fst] in *; [apply Q; auto; congruence| |apply Q; auto; discriminate].
    destruct (n =? 0); apply Q; auto; try discriminate. cbn [fst]. congruence.
  - destruct (r_buf (k_rd k)); [|apply Q; auto]. destruct (read_io k) as [k' [|[n|e]]]; cbn [fst] in *; [apply Q; auto; congruence| |apply Q; auto; discriminate].
    destruct (n =? 0); apply Q; auto; try discriminate. cbn [fst]. congruence.
Qed.

(* ---- The dispatcher ---- *)
(* The connection, whether there is a body sender, whether the dispatcher is closing *)
Definition bst : Type := (conn * bool * bool)%type.
Definition tri (d : disp) : bst := (d_conn d, d_body_tx d, d_closing d).
(* [stay]: the application keeps its bodies *)
Inductive bm (stay : bool) : bst -> bst -> Prop :=
| bm_quiet k k' tx cl : bq k k' -> bm stay (k, tx, cl) (k', tx, cl)
| bm_keep k k' cl l : k_log k' = k_log k ++ l -> forallb tquiet l = true -> (can_read_body k' = true -> can_read_body k = true) -> bm stay (k, false, cl) (k', false, cl)
| bm_close k k' tx cl : k_log k' = k_log k -> can_read_body k' = false -> bm stay (k, tx, cl) (k', tx, true)
| bm_zero k k' tx m : can_read_body k = false -> in_decode m = 0 -> k_log k' = k_log k ++ [LIn m; LInEnd] -> can_read_body k' = false -> bm stay (k, tx, false) (k', tx, false)
| bm_got k k' (tx : bool) m : can_read_body k = false -> in_decode m <> 0 -> k_log k' = k_log k ++ LIn m :: (if tx then [LBodyEnd] else []) -> can_read_body k' = true -> bm stay (k, tx, false) (k', true, false)
| bm_body k k' cl l : can_read_body k = true -> k_log k' = k_log k ++ l -> forallb tquiet l = true -> can_read_body k' = true \/ In LInEnd l -> bm stay (k, true, cl) (k', true, cl)
| bm_none k k' cl l : can_read_body k = true -> k_log k' = k_log k ++ l ++ [LBodyEnd] -> forallb tquiet l = true -> In LInEnd l -> can_read_body k' = false -> bm stay (k, true, cl) (k', false, cl)
| bm_end k : can_read_body k = false -> bm stay (k, true, false) (log k [LBodyEnd], false, false)
| bm_fail k k' cl l : k_log k' = k_log k ++ l ++ [LBodyFail] -> forallb tquiet l = true -> (can_read_body k' = true -> can_read_body k = true) -> bm stay (k, true, cl) (k', false, cl)
| bm_gone k k' cl l : stay = false -> k_log k' = k_log k ++ l -> forallb tquiet l = true -> can_read_body k' = false -> bm stay (k, true, cl) (k', false, cl).
Inductive bms (stay : bool) : bst -> bst -> Prop :=
| bms_nil s : bms stay s s
| bms_cons s s' s'' : bm stay s s' -> bms stay s' s'' -> bms stay s s''.
Lemma bms_one st s s' : bm st s s' -> bms st s s'.
Proof. intros H. eapply bms_cons; [exact H|apply bms_nil]. Qed.
Lemma bms_trans st s s' s'' : bms st s s' -> bms st s' s'' -> bms st s s''.
Proof. induction 1; intros H2; [exact H2|]. eapply bms_cons; eauto. Qed.
Lemma bms_quiet st k k' tx cl : bq k k' -> bms st (k, tx, cl) (k', tx, cl).
Proof. intros H. apply bms_one, bm_quiet, H. Qed.

Lemma bms_close st d : bms st (tri d) (tri (d_close d)).
Proof. apply bms_one, bm_close; reflexivity. Qed.
Lemma quiet_outs l : forallb tquiet (map (fun id => LOutcome id OReturned) l) = true.
Proof. induction l; auto. Qed.
Lemma bms_recv_error st c d e : bms st (tri d) (tri (fst (recv_error c d e))) /\ d_body_tx (fst (recv_error c d e)) = d_body_tx d.
Proof.
  unfold recv_error. destruct (c_server c); [split; [apply bms_nil|reflexivity]|]. destruct (d_callback d) as [id|].
  - split; [|reflexivity]. apply bms_quiet. apply bq_log. reflexivity.
  - destruct (d_rx_closed d); [split; [apply bms_nil|reflexivity]|]. destruct (ch_try_recv _) as [ch [id|]]; (split; [|reflexivity]); [apply bms_quiet, bq_log; reflexivity|apply bms_nil].
Qed.
Lemma bms_drop st d : bms st (tri d) (tri (d_drop d)).
Proof.
  rewrite d_drop_eq. unfold tri. cbn [d_conn d_body_tx d_closing]. unfold drop_events. destruct (d_body_tx d).
  - eapply bms_cons; [apply (bm_fail _ _ (log (d_conn d) [LBodyFail]) _ []); [reflexivity|reflexivity|exact (fun H => H)]|].
    rewrite <- log_log. apply bms_quiet, bq_log. rewrite forallb_app, quiet_outs. destruct (d_callback d); reflexivity.
  - apply bms_quiet, bq_log. cbn [app]. rewrite forallb_app, quiet_outs. destruct (d_callback d); reflexivity.
Qed.
Lemma bms_complete st d r : bms st (tri d) (tri (d_complete d r)).
Proof. unfold d_complete. eapply bms_trans; [|apply bms_drop]. apply bms_quiet, bq_log. reflexivity. Qed.
Lemma bms_failed st c d e : bms st (tri d) (tri (d_fail c d e)).
Proof.
  unfold d_fail. set (d1 := if d_body_tx d then _ else d).
  assert (bms st (tri d) (tri d1)) as H1.
  { subst d1. destruct d as [k tx rx cl fl cb rc ch p]. cbn [d_body_tx]. destruct tx; [|apply bms_nil]. apply bms_one. apply (bm_fail _ _ _ _ []); [reflexivity|reflexivity|exact (fun H => H)]. }
  clearbody d1. eapply bms_trans; [exact H1|]. destruct (bms_recv_error st c d1 e) as (H2 & _). destruct (recv_error c d1 e) as [d2 b]. cbn [fst] in H2.
  eapply bms_trans; [exact H2|apply bms_complete].
Qed.
Lemma head_not_body c k : can_read_head c k = true -> can_read_body k = false.
Proof. unfold can_read_head, can_read_body. destruct (k_reading k); auto; discriminate. Qed.
Lemma bms_read_head st c i d : d_closing d = false -> can_read_head c (d_conn d) = true -> bms st (tri d) (tri (fst (d_poll_read_head c i d))).
Proof.
  intros Hc Hh. pose proof (head_not_body _ _ Hh) as Hb. unfold d_poll_read_head. destruct (d_poll_ready c i d) as [|[u|u]]; [apply bms_nil| |apply bms_close].
  pose proof (poll_read_head_body c (i_now i) (i_blk i) (d_conn d) Hb) as H. destruct (k_poll_read_head c (i_now i) (i_blk i) (d_conn d)) as [k r].
  destruct d as [k0 tx rx cl fl cb rc ch p]. cbn [d_conn d_closing] in *. subst cl.
  destruct r as [|[[m|e]|]].
  - apply bms_quiet, H.
  - set (d1 := if in_decode m =? DL_ZERO then _ else _).
    assert (bms st (k0, tx, false) (tri d1)) as H1.
    { subst d1. destruct (in_decode m =? DL_ZERO) eqn:Em; destruct H as (A & B').
      - apply bms_one. apply bm_zero with (m := m); auto. now apply N.eqb_eq in Em.
      - apply bms_one. cbn [d_body_tx dset_conn]. destruct tx.
        + apply (bm_got st k0 (log k [LBodyEnd]) true m); auto; [now apply N.eqb_neq in Em|]. cbn. rewrite A, <- app_assoc. reflexivity.
        + apply (bm_got st k0 k false m); auto. now apply N.eqb_neq in Em. }
    clearbody d1. set (d2 := if in_upgrade m then _ else d1).
    assert (bms st (tri d1) (tri d2)) as H2 by (subst d2; destruct (in_upgrade m); [apply bms_quiet; bsame|apply bms_nil]).
    clearbody d2. assert (bms st (k0, tx, false) (tri d2)) as H3 by (eapply bms_trans; eassumption).
    eapply bms_trans; [exact H3|]. unfold recv_ok. destruct (c_server c); [apply bms_nil|]. destruct (d_callback d2); [apply bms_quiet, bq_log; reflexivity|apply bms_nil].
  - set (d1 := dset_conn _ k). assert (bms st (k0, tx, false) (tri d1)) as H1 by (apply bms_quiet, H).
    destruct (bms_recv_error st c d1 e) as (H2 & _). destruct (recv_error c d1 e) as [d2 [|]]; cbn [fst] in *; (eapply bms_trans; [eapply bms_trans; eassumption|]); [apply bms_nil|apply bms_close].
  - set (d1 := dset_conn _ k). assert (bms st (k0, tx, false) (tri d1)) as H1 by (apply bms_quiet, H). cbn [fst].
    destruct (is_write_closed (d_conn d1)); [|exact H1]. eapply bms_trans; [exact H1|apply bms_close].
Qed.
Definition stays (i : inp) : Prop := i_body i <> BCanceled /\ i_send i = true.
Lemma bms_read st c i d : (st = true -> stays i) -> bms st (tri d) (tri (fst (poll_read_it c i d))).
Proof.
  intros Hst. unfold poll_read_it. destruct (d_closing d) eqn:Hc; [apply bms_nil|]. destruct (can_read_head c (d_conn d)) eqn:Hh; [now apply bms_read_head|].
  destruct d as [k0 tx rx cl fl cb rc ch p]. cbn [d_conn d_body_tx d_closing] in *. subst cl. destruct tx.
  - destruct (can_read_body k0) eqn:Hb.
    + destruct (i_body i) eqn:Hi.
      * destruct (poll_read_body_body c (i_blk i) (log k0 [LWant]) Hb) as (l & A & B' & C).
        destruct (k_poll_read_body c (i_blk i) (log k0 [LWant])) as [k r]. cbn [fst] in A. cbn [log k_log] in A. rewrite <- app_assoc in A.
        destruct r as [|[[f|e]|]]; cbn [fst].
        -- apply bms_one. apply (bm_body st k0 k false ([LWant] ++ l)); auto.
        -- destruct (i_send i) eqn:Hs; cbn [fst].
           ++ apply bms_one. apply (bm_body st k0 k false ([LWant] ++ l)); auto. destruct C as [C|C]; [left; exact C|right; right; exact C].
           ++ assert (st = false) as Hst' by (destruct st; [destruct (Hst eq_refl); congruence|reflexivity]).
              apply bms_one. cbn [d_conn dset_body_tx dset_conn]. destruct (can_read_body k) eqn:Hk.
              ** apply (bm_gone st k0 (close_read k) false ([LWant] ++ l)); auto.
              ** apply (bm_gone st k0 k false ([LWant] ++ l)); auto.
        -- apply bms_one. apply (bm_fail st k0 (log k [LBodyFail]) false ([LWant] ++ l)); auto. cbn. rewrite A, <- !app_assoc. reflexivity.
        -- apply bms_one. destruct C as (C1 & C2). apply (bm_none st k0 (log k [LBodyEnd]) false ([LWant] ++ l)); auto; [|right; exact C1]. cbn. rewrite A, <- !app_assoc. reflexivity.
      * apply bms_nil.
      * assert (st = false) as Hst' by (destruct st; [destruct (Hst eq_refl); congruence|reflexivity]).
        destruct (drain_body c (i_blk i) k0 Hb) as (l & A & B' & C). apply bms_one. apply (bm_gone st k0 (drain_or_close_read c (i_blk i) k0) false l); auto.
    + apply bms_one, bm_end, Hb.
  - destruct (keep_alive_body c k0) as (l & A & B' & C). destruct (k_poll_read_keep_alive c k0) as [k r]. cbn [fst] in *. apply bms_one. exact (bm_keep st k0 k false l A B' C).
Qed.
Lemma bms_flush st c i d : bms st (tri d) (tri (fst (d_flush c i d))).
Proof. unfold d_flush. pose proof (bq_flush c (i_blk i) (i_wevs i) (d_conn d)) as H. destruct (k_poll_flush c (i_blk i) (i_wevs i) (d_conn d)) as [k r]. cbn [fst] in *. apply bms_quiet, H. Qed.
Lemma bms_end_body st c i d : bms st (tri d) (tri (fst (end_body_it c i d))).
Proof. unfold end_body_it. pose proof (bq_effect _ _ (end_body_effect (i_room i) (d_conn d))) as H. destruct (k_end_body (i_room i) (d_conn d)) as [k [u|e]]; cbn [fst] in *; apply bms_quiet, H. Qed.
Lemma bms_write st c i d : bms st (tri d) (tri (fst (poll_write_it c i d))).
Proof.
  unfold poll_write_it. destruct (d_closing d) eqn:Hc; [apply bms_nil|]. destruct (negb (d_body_rx d) && _ && _).
  - assert (bms st (tri d) (tri (fst (d_poll_msg c i d)))) as H1.
    { unfold d_poll_msg. destruct (c_server c); [destruct (i_msg i) as [|[m|u]]; apply bms_nil|]. destruct (ch_poll_recv (i_race i) (d_chan d)) as [ch [|[id|]]]; try apply bms_nil.
      destruct (i_canceled i); apply bms_quiet, bq_log; reflexivity. }
    destruct (d_poll_msg c i d) as [d' [|[[[h body]|u]|]]]; cbn [fst] in *; try exact H1.
    + eapply bms_trans; [exact H1|]. apply bms_quiet. apply bq_write_head.
    + eapply bms_trans; [exact H1|apply bms_close].
  - destruct (negb (can_buffer_body c (d_conn d))).
    + pose proof (bms_flush st c i d) as H1. destruct (d_flush c i d) as [d' [|[u|e]]]; exact H1.
    + destruct (d_body_rx d).
      * destruct (negb (k_can_write_body (d_conn d))); [apply bms_nil|]. destruct (i_frame i) as [|[[[b|t|]|u]|]]; try apply bms_nil.
        -- destruct (i_eos i); destruct (brem b =? 0); try apply bms_nil; try apply (bms_end_body st c i (dset_body_rx d false)).
           ++ apply bms_quiet, bq_effect, write_body_and_end_effect.
           ++ apply bms_quiet, bq_effect, write_body_effect.
        -- apply bms_quiet, bq_effect, write_trailers_effect.
        -- apply (bms_end_body st c i (dset_body_rx d false)).
      * destruct (k_can_write_body (d_conn d)); [apply bms_end_body|apply bms_nil].
Qed.
Lemma bms_pc st d s p : bms st s (tri d) -> bms st s (tri (dset_pc d p)).
Proof. exact (fun H => H). Qed.
Lemma bq_take_error k : bq k (fst (take_error k)).
Proof. unfold take_error. destruct (k_error k); bsame. Qed.
Definition stays_move (m : move) : Prop := match m with Step i => stays i | Env _ => True end.
Lemma bms_move st c m d : (st = true -> stays_move m) -> bms st (tri d) (tri (dmove c m d)).
Proof.
  destruct m as [i|e]; cbn [dmove stays_move]; intros Hst.
  - unfold dstep. destruct (d_pc d) as [|n|n|n wr|n| | |].
    + apply bms_nil.
    + pose proof (bms_read st c i d Hst) as H1. destruct (poll_read_it c i d) as [d' [|[|[u|e]]]]; cbn [fst] in H1; try exact H1. eapply bms_trans; [exact H1|apply bms_failed].
    + pose proof (bms_write st c i d) as H1. destruct (poll_write_it c i d) as [d' [|[|[u|e]]]]; cbn [fst] in H1; try exact H1. eapply bms_trans; [exact H1|apply bms_failed].
    + pose proof (bms_flush st c i d) as H1. destruct (d_flush c i d) as [d' [|[u|e]]]; cbn [fst] in H1; [| |eapply bms_trans; [exact H1|apply bms_failed]];
        (eapply bms_trans; [exact H1|apply bms_quiet; bsame]).
    + pose proof (bms_write st c i d) as H1. destruct (poll_write_it c i d) as [d' [|[|[u|e]]]]; cbn [fst] in H1; try exact H1. eapply bms_trans; [exact H1|apply bms_failed].
    + pose proof (bms_flush st c i d) as H1. destruct (d_flush c i d) as [d' [|[u|e]]]; cbn [fst] in H1; try exact H1. eapply bms_trans; [exact H1|apply bms_failed].
    + destruct (d_is_done c d); [|apply bms_nil]. unfold pending_upgrade. set (d1 := dset_conn d (set_upgrade (d_conn d) false)).
      assert (bms st (tri d) (tri d1)) as H1 by (apply bms_quiet; bsame). eapply bms_trans; [exact H1|]. clearbody d1. clear H1.
      assert (forall d1, bms st (tri d1) (tri (match take_error (d_conn d1) with (k, Ok _) => d_complete (dset_conn d1 k) None | (k, Err e) => d_fail c (dset_conn d1 k) e end))) as T.
      { clear. intros d1. pose proof (bq_take_error (d_conn d1)) as Q. destruct (take_error (d_conn d1)) as [k [u|e]]; cbn [fst] in Q;
        (eapply bms_trans; [apply (bms_quiet st _ k _ _ Q)|]); [apply (bms_complete st (dset_conn d1 k))|apply (bms_failed st c (dset_conn d1 k))]. }
      destruct (k_upgrade (d_conn d)); [apply T|].
      destruct (wb_flush _ _ _ _) as [[[w ev] sent] r].
      set (d2 := dset_conn d1 _). assert (bms st (tri d1) (tri d2)) as H2.
      { apply bms_quiet. destruct sent as [|x sent]; (eapply bq_trans; [|apply bq_log; reflexivity]); bsame. }
      eapply bms_trans; [exact H2|]. clearbody d2. destruct r as [|[u|e]]; [apply bms_nil| |apply bms_failed].
      destruct (i_shutdown i) as [|[u'|e']]; [apply bms_nil| |apply bms_failed].
      eapply bms_trans; [|apply T]. apply bms_quiet, bq_log. reflexivity.
    + apply bms_nil.
  - destruct e as [s| | |]; cbn [estep].
    + destruct (c_server c); apply bms_nil.
    + destruct (d_pc d); try apply bms_nil. destruct (c_server c); [|apply bms_nil]. unfold d_graceful, k_disable_keep_alive.
      destruct (is_idle (d_conn d)).
      * cbn [d_conn dset_conn is_write_closed st_close set_ka set_writing k_writing orb]. apply bms_one. apply bm_close; reflexivity.
      * set (d1 := dset_conn d _). assert (bms st (tri d) (tri d1)) as H1 by (apply bms_quiet; bsame). destruct (_ || _); [|exact H1]. eapply bms_trans; [exact H1|apply bms_close].
    + destruct (d_pc d); try apply bms_nil. apply bms_drop.
    + destruct (d_pc d), (k_log (d_conn d)); try apply bms_nil. destruct (c_server c); [|apply bms_nil]. apply bms_quiet. bsame.
Qed.
Lemma bms_run st c ms : forall d, (st = true -> Forall stays_move ms) -> bms st (tri d) (tri (run c ms d)).
Proof.
  induction ms as [|m ms IH]; intros d H; [apply bms_nil|]. cbn. eapply bms_trans; [apply (bms_move st c m d)|apply IH]; intros Q; specialize (H Q); inversion H; assumption.
Qed.
