(* For C64: who asked for an upgrade, and what may follow a response that
   switches the protocol. *)
From Verif Require Import Base M_Src M_Decode M_HeaderMap M_Headers M_Encode M_Role M_RoleEncode M_Buf M_WriteBuf M_Read M_Conn M_Dispatch S_Conn S_Head L_Conn L_Moves L_ConnS L_Ka L_RoleEncode2 L_BodyTx P_Requests L_Done L_View.

(* Neither reading a head nor writing anything of a message *)
Definition quiet (e : levent) : bool := match e with LIn _ | LHead _ _ _ | LHeadFail _ | LBody _ | LContinue => false | _ => true end.
Definition shut (k : conn) : Prop := k_writing k = WClosed /\ k_reading k <> RInit.
Definition uf (k k' : conn) : Prop :=
  k_upgrade k' = k_upgrade k /\ exists l, k_log k' = k_log k ++ l /\ forallb still l = true /\ (shut k -> shut k' /\ forallb quiet l = true).
Lemma uf_same k k' l : k_log k' = k_log k ++ l -> forallb quiet l = true -> k_upgrade k' = k_upgrade k -> (k_writing k = WClosed -> k_writing k' = WClosed) -> (k_reading k' = RInit -> k_reading k = RInit) -> uf k k'.
Proof.
  intros A B' C D E. split; [exact C|]. exists l. split; [exact A|]. split; [|intros (F & G); split; [split; auto|exact B']].
  clear - B'. induction l as [|e l IH]; [reflexivity|]. cbn [forallb] in *. apply andb_prop in B'. destruct B' as (B1 & B2). rewrite (IH B2). destruct e; try discriminate B1; reflexivity.
Qed.
Lemma uf_refl k : uf k k.
Proof. apply (uf_same k k []); auto. now rewrite app_nil_r. Qed.
Lemma uf_trans k k' k'' : uf k k' -> uf k' k'' -> uf k k''.
Proof.
  intros (A1 & a & A2 & A3 & A4) (B1 & b & B2 & B3 & B4). split; [congruence|]. exists (a ++ b). rewrite B2, A2, app_assoc, !forallb_app, A3, B3. split; [reflexivity|]. split; [reflexivity|].
  intros H. destruct (A4 H) as (H1 & H2). destruct (B4 H1) as (H3 & H4). rewrite H2, H4. auto.
Qed.
Ltac usame := match goal with |- uf ?k _ => apply (uf_same k _ []); try reflexivity; try (exact (fun H => H)); cbn [k_log log set_rd set_wb set_reading set_error set_notify set_timer set_ka set_writing]; try (now rewrite app_nil_r) end.
Lemma uf_logged k l : forallb quiet l = true -> uf k (log k l).
Proof. intros H. apply (uf_same k _ l); auto. Qed.
Lemma uf_reading k r : r <> RInit -> uf k (set_reading k r).
Proof. intros H. usame. cbn. intros F. contradiction. Qed.
Lemma uf_close_read k : uf k (close_read k).
Proof. usame. discriminate. Qed.
Lemma uf_closed k k' : k_log k' = k_log k -> k_upgrade k' = k_upgrade k -> k_reading k' = RClosed -> k_writing k' = WClosed -> uf k k'.
Proof. intros A B' C D. apply (uf_same k k' []); auto; [now rewrite app_nil_r|congruence]. Qed.
Lemma uf_close_write k : uf k (close_write k).
Proof. usame. Qed.
Lemma uf_open k k' : k_log k' = k_log k -> k_upgrade k' = k_upgrade k -> k_writing k <> WClosed -> uf k k'.
Proof. intros A B' C. split; [exact B'|]. exists []. rewrite app_nil_r. split; [exact A|]. split; [reflexivity|]. intros (F & _). contradiction. Qed.
Lemma uf_st_try c k : uf k (st_try_keep_alive c k).
Proof.
  unfold st_try_keep_alive. destruct (k_reading k) eqn:Er; try apply uf_refl; destruct (k_writing k) eqn:Ew; try apply uf_refl; try (now apply uf_closed).
  destruct (k_ka k); try (now apply uf_closed).
  unfold idle. destruct (c_server c), (c_timeout c); apply uf_open; try reflexivity; congruence.
Qed.
Lemma uf_io k : uf k (fst (read_io k)).
Proof. unfold read_io. destruct (r_read_io (k_rd k)). usame. Qed.
Lemma uf_notify blk k : uf k (maybe_notify blk k).
Proof.
  unfold maybe_notify. destruct (k_reading k) eqn:Er; try apply uf_refl.
  destruct (k_writing k) eqn:Ew; try apply uf_refl; (destruct blk; [apply uf_refl|]); (destruct (r_buf (k_rd k)); [|usame]);
  pose proof (uf_io k) as H; (destruct (read_io k) as [k' [|[n|e]]]; cbn [fst] in H; [exact H| |]).
  all: try (destruct (n =? 0); [|eapply uf_trans; [exact H|usame]]; destruct (is_idle k'); eapply uf_trans; [exact H|now apply uf_closed|exact H|usame; discriminate]).
  all: eapply uf_trans; [exact H|]; now apply uf_closed.
Qed.
Lemma uf_try c blk k : uf k (try_keep_alive c blk k).
Proof. eapply uf_trans; [apply uf_st_try|apply uf_notify]. Qed.
Lemma uf_flush c blk wevs k : uf k (fst (k_poll_flush c blk wevs k)).
Proof.
  unfold k_poll_flush. destruct (wb_flush _ _ _ _) as [[[w ev] sent] r].
  assert (uf k (log (set_wb k w) (match sent with [] => [] | _ => [LSent sent] end))) as H1 by (eapply uf_trans; [|apply uf_logged; destruct sent; reflexivity]; usame).
  destruct r as [|[u|e]]; cbn [fst]; [exact H1|eapply uf_trans; [exact H1|apply uf_try]|exact H1].
Qed.
Lemma uf_read_body c blk k : uf k (fst (k_poll_read_body c blk k)).
Proof.
  assert (forall k d, uf k (fst (read_body_state c blk k d))) as R.
  { clear. intros k d. unfold read_body_state, k_decode. destruct (decode _ _ _) as [[d' s'] r].
    set (k1 := set_rd k _). assert (uf k k1) as H1 by (subst k1; usame). clearbody k1.
    assert (forall l rd, rd <> RInit -> forallb quiet l = true -> uf k (log (set_reading k1 rd) l)) as T by (intros l rd Hr Hl; eapply uf_trans; [exact H1|]; eapply uf_trans; [apply (uf_reading _ rd Hr)|apply uf_logged, Hl]).
    assert (forall rd, rd <> RInit -> uf k (set_reading k1 rd)) as T0 by (intros rd Hr; eapply uf_trans; [exact H1|]; apply (uf_reading _ rd Hr)).
    destruct r as [|[[x|t]|e]]; cbn [fst]; try (apply T0; discriminate).
    - destruct (is_eof d'); destruct x; cbn [fst]; try (eapply uf_trans; [|apply uf_try]); try (apply T; [discriminate|reflexivity]); apply T0; discriminate.
    - eapply uf_trans; [|apply uf_try]. apply T; [discriminate|reflexivity].
    - eapply uf_trans; [|apply uf_try]. apply T; [discriminate|reflexivity]. }
  unfold k_poll_read_body. destruct (k_reading k) eqn:Er; try apply uf_refl; [|apply R].
  set (k1 := match k_writing k with WInit => _ | _ => k end). assert (uf k k1) as H1.
  { subst k1. destruct (k_writing k) eqn:Ew; try apply uf_refl. split; [reflexivity|]. exists [LContinue]. split; [reflexivity|]. split; [reflexivity|]. intros (F & _). congruence. }
  clearbody k1. eapply uf_trans; [exact H1|]. eapply uf_trans; [|apply R]. apply uf_reading. discriminate.
Qed.
Lemma uf_drain c blk k : uf k (drain_or_close_read c blk k).
Proof.
  unfold drain_or_close_read. set (k1 := match k_reading k with RContinue d => _ | _ => k end).
  assert (uf k k1) as H1 by (subst k1; destruct (k_reading k) eqn:Er; try apply uf_refl; apply uf_reading; discriminate). clearbody k1.
  assert (uf k (fst (k_poll_read_body c blk k1))) as H2 by (eapply uf_trans; [exact H1|apply uf_read_body]).
  destruct (k_reading (fst (k_poll_read_body c blk k1))) eqn:Er; auto; (eapply uf_trans; [exact H2|apply uf_close_read]).
Qed.
Lemma uf_keep_alive c k : uf k (fst (k_poll_read_keep_alive c k)).
Proof.
  unfold k_poll_read_keep_alive, mid_message_detect_eof, require_empty_read, force_io_read. pose proof (uf_io k) as H1.
  assert (forall k', uf k k' -> uf k (close_read k')) as C by (intros k' H; eapply uf_trans; [exact H|apply uf_close_read]).
  assert (forall k', uf k k' -> uf k (st_close k')) as C2 by (intros k' H; eapply uf_trans; [exact H|now apply uf_closed]).
  destruct (is_read_closed k); [apply uf_refl|]. destruct (is_mid_message k).
  - destruct (_ || _); [apply uf_refl|]. destruct (read_io k) as [k' [|[n|e]]]; cbn [fst snd] in *; auto. destruct (n =? 0); cbn; auto.
  - destruct (r_buf (k_rd k)); [|apply uf_refl]. destruct (read_io k) as [k' [|[n|e]]]; cbn [fst snd] in *; auto. destruct (n =? 0); cbn; auto.
Qed.
Lemma uf_effect k k' : body_effect k k' -> k_upgrade k' = k_upgrade k -> uf k k'.
Proof.
  intros [->|(e & l & w' & Ew & Er & El & Ew' & Ek & F)] U; [apply uf_refl|]. split; [exact U|]. exists l. split; [exact El|].
  split; [destruct F as [(bs & -> & _)|[[[->|(bs & ->)] _]|[[->|(bs & ->)] _]]]; reflexivity|]. intros (F' & _). congruence.
Qed.
Lemma up_buffer room k b : k_upgrade (k_buffer room k b) = k_upgrade k.
Proof. unfold k_buffer. destruct (wb_buffer _ _ _); reflexivity. Qed.
Lemma up_body c room k b : k_upgrade (k_write_body c room k b) = k_upgrade k.
Proof. unfold k_write_body. destruct (k_writing k); try reflexivity. destruct (encode_buf _ _ _). destruct (negb _); apply (up_buffer room k b0). Qed.
Lemma up_body_and_end c room k b : k_upgrade (k_write_body_and_end c room k b) = k_upgrade k.
Proof. unfold k_write_body_and_end. destruct (k_writing k); try reflexivity. apply (up_buffer room k (encode_and_end_buf (c_take_vec c) e b)). Qed.
Lemma up_trailers c room k t : k_upgrade (k_write_trailers c room k t) = k_upgrade k.
Proof. unfold k_write_trailers. destruct (_ && _); [reflexivity|]. destruct (k_writing k); try reflexivity. destruct (encode_trailers _ _ _) as [b|]; [match goal with |- context [k_buffer room k ?x] => exact (up_buffer room k x) end|reflexivity]. Qed.
Lemma up_end room k : k_upgrade (fst (k_end_body room k)) = k_upgrade k.
Proof. unfold k_end_body. destruct (k_writing k); try reflexivity. destruct (enc_end e) as [[|o out]|err]; cbn [fst]; try reflexivity. match goal with |- context [k_buffer room k ?b] => exact (up_buffer room k b) end. Qed.
Lemma up_write_head c auto k h body : k_upgrade (write_head c auto k h body) = k_upgrade k.
Proof.
  unfold write_head, encode_head. set (k0 := if c_server c then k else _). assert (k_upgrade k0 = k_upgrade k) as A by (subst k0; destruct (c_server c); [reflexivity|]; unfold busy, st_disable_keep_alive; destruct (connection_any_close (o_headers h)), (k_ka k); reflexivity). clearbody k0.
  assert (k_upgrade (fst (enforce_version k0 h)) = k_upgrade k0) as B'.
  { unfold enforce_version, fix_keep_alive. destruct (k_version k0); try reflexivity; [|destruct (k_ka k0); reflexivity]. destruct (match hm_get (o_headers h) (B "connection") with Some v => connection_keep_alive v | None => false end); [reflexivity|]. destruct (o_version h); try reflexivity. destruct (wants_keep_alive k0); reflexivity. }
  destruct (enforce_version k0 h) as [k1 h1]. cbn [fst] in B'. destruct (t_encode c k1 h1 body) as [[out m] [e|e]]; cbn; congruence.
Qed.
Lemma up_got_head c blk k m : k_upgrade (got_head c blk k m) = k_upgrade k.
Proof.
  unfold got_head. set (k1 := log _ [LIn m]).
  assert (k_upgrade k1 = k_upgrade k) as A by (subst k1; unfold busy, st_disable_keep_alive; destruct (c_server c), (in_keep m), (k_ka k) eqn:Ek; cbn; rewrite ?Ek; reflexivity).
  clearbody k1. cbn [k_upgrade set_trailers]. destruct (in_decode m =? DL_ZERO); [|destruct (_ && _); exact A]. destruct (c_server c); [exact A|].
  set (k2 := log _ _). assert (k_upgrade k2 = k_upgrade k1) as A2 by reflexivity. clearbody k2. destruct (uf_try c blk k2) as (U & _). congruence.
Qed.

(* ---- The invariant of a server ---- *)
(* A final response after which the connection speaks another protocol: 101, or
   2xx to CONNECT *)
Definition switches (method : option bytes) (st : N) : bool := (st =? 101) || (method_is method (B "CONNECT") && is_success st).
Lemma switch_last reason date m out e : server_encode reason date m = (out, Ok e) -> switches (m_method m) (m_status m) = true -> enc_is_eof e = true /\ is_last e = true.
Proof.
  intros H Hw.
  assert (can_have_body (m_method m) (m_status m) = false) as Hb.
  { change (can_chunked (m_method m) (m_status m) = false). destruct (can_chunked _ _) eqn:Ec; [|reflexivity]. exfalso. apply can_chunked_spec in Ec. apply Ec. unfold body_forbidden, switches in *. apply orb_true_iff in Hw. destruct Hw as [Hw|Hw].
    - apply N.eqb_eq in Hw. rewrite Hw. right. right. left. lia.
    - apply andb_prop in Hw. destruct Hw as (Hm & Hst). right. left. unfold method_is in Hm. destruct (m_method m) as [x|]; [|discriminate Hm]. apply beq_eq in Hm. split; [now f_equal|]. unfold is_success in Hst. apply andb_prop in Hst. rewrite N.leb_le in Hst. destruct Hst as (A & A'). split; [exact A|]. apply N.leb_le in A'. lia. }
  assert (forall w line wl out' e', encode_headers m w date line true wl = Some (out', e') -> enc_is_eof e' = true /\ is_last e' = true) as Q.
  { unfold encode_headers. intros w line wl out' e' H'. destruct (s_headers _ _ _ _) as [s|] eqn:Eh; [|discriminate]. apply s_headers_last in Eh; [|now left].
    unfold s_finish in H'. rewrite Hb in H'. inversion H' as [[H1 H2]]. clear H' H1 H2. split; [reflexivity|]. cbn.
    match goal with |- s_last ?x = true => assert (s_last x = s_last s) as Ex end; [|rewrite Ex; exact Eh].
    assert (s_last (s_default_len m w (s_new_name s)) = s_last s) as Ed.
    { assert (s_last (s_new_name s) = s_last s) as En by (unfold s_new_name; destruct (s_written s); reflexivity).
      unfold s_default_len. destruct (s_wrote_len (s_new_name s)); [exact En|].
      destruct (m_body m) as [[[|n]|]|]; repeat match goal with |- context [if ?b then _ else _] => destruct b end; cbn; rewrite ?s_last_line; exact En. }
    destruct (negb _ && _); rewrite ?s_last_line; exact Ed. }
  unfold server_encode, switches in *. destruct (m_status m =? 101).
  - destruct (status_line reason m); [|discriminate]. destruct (encode_headers _ _ _ _ _ _) as [[o e1]|] eqn:Ee; [|discriminate]. inversion H. subst. eapply Q; eauto.
  - cbn [orb] in Hw. rewrite Hw in H. destruct (status_line reason m); [|discriminate]. destruct (encode_headers _ _ _ _ _ _) as [[o e1]|] eqn:Ee; [|discriminate]. inversion H. subst. eapply Q; eauto.
Qed.
Definition asked (l : list levent) : Prop := exists m, In (LIn m) l /\ in_upgrade m = true.
Record UI (k : conn) : Prop := mkUI {
  ui_up : k_upgrade k = true -> asked (k_log k);
  ui_sw : forall a h bs b st rs, k_log k = a ++ LHead false h bs :: b -> o_subject h = OResponse st rs -> switches (min a) st = true -> shut k /\ forallb quiet b = true
}.
Lemma asked_app a b : asked a -> asked (a ++ b).
Proof. intros (m & M1 & M2). exists m. split; [apply in_or_app; now left|exact M2]. Qed.
Lemma UI_uf k k' : uf k k' -> UI k -> UI k'.
Proof.
  intros (U & l & L1 & L2 & L3) [A B']. constructor.
  - rewrite U, L1. intros H. apply asked_app, A, H.
  - intros a h bs b st rs E Ho Hw. rewrite L1 in E. destruct (app_cons_split _ _ _ _ _ E) as [(b' & E1 & ->)|(a' & -> & E2)].
    + destruct (B' _ _ _ _ _ _ E1 Ho Hw) as (S1 & Q1). destruct (L3 S1) as (S2 & Q2). split; [exact S2|]. now rewrite forallb_app, Q1, Q2.
    + exfalso. rewrite E2, forallb_app in L2. cbn in L2. rewrite andb_false_r in L2. discriminate L2.
Qed.
Definition UD (d : disp) : Prop := UI (d_conn d).
Lemma UD_conn d k : uf (d_conn d) k -> UD d -> UD (dset_conn d k).
Proof. intros H. exact (UI_uf (d_conn d) k H). Qed.
(* Before anything of a response was written there is no such response *)
Lemma UI_fresh k : UI k -> ~ shut k -> forall a h bs b st rs, k_log k = a ++ LHead false h bs :: b -> o_subject h = OResponse st rs -> switches (min a) st = false.
Proof. intros H Hn a h bs b st rs E Ho. destruct (switches (min a) st) eqn:Hw; [|reflexivity]. destruct Hn. eapply (ui_sw _ H); eassumption. Qed.
Lemma UI_write_head c auto k h body : UI k -> ~ shut k -> k_reading k <> RInit -> (auto = false -> k_method k = min (k_log k)) -> UI (write_head c auto k h body).
Proof.
  intros H Hn Hr Hm. pose proof (UI_fresh k H Hn) as Fr. pose proof (up_write_head c auto k h body) as U. destruct (view_write_head c auto k h body) as (_ & _ & _ & R & _ & W). cbn zeta in *. set (k' := write_head c auto k h body) in *. clearbody k'.
  constructor.
  - rewrite U. intros Hu. pose proof (ui_up _ H Hu). destruct W as [(h' & out & enc & _ & -> & _)|(out & -> & _)]; now apply asked_app.
  - intros a h0 bs b st rs E Ho Hw. assert (forall l', k_log k' = k_log k ++ l' -> exists a', a = k_log k ++ a' /\ l' = a' ++ LHead false h0 bs :: b) as Q.
    { intros l' L. rewrite L in E. destruct (app_cons_split _ _ _ _ _ E) as [(b' & E1 & ->)|(a' & -> & E2)]; [|eauto]. rewrite (Fr _ _ _ _ _ _ E1 Ho) in Hw. discriminate Hw. }
    destruct W as [(h' & out & enc & O & L & En & _ & _ & _ & W)|(out & L & _)]; destruct (Q _ L) as (a' & -> & E').
    + destruct a' as [|x [|y a']]; cbn in E'; [|destruct (enc_is_eof enc); discriminate E'|destruct (enc_is_eof enc); [destruct a'; discriminate E'|discriminate E']].
      injection E' as -> -> -> Eb. rewrite app_nil_r in Hw. destruct (En st rs Ho) as (ka & Ek). rewrite (Hm eq_refl) in Ek. destruct (switch_last _ _ _ _ _ Ek Hw) as (E1 & E2).
      unfold after_head in W. rewrite E1, E2 in W. cbn in W. split; [split; [exact W|congruence]|]. rewrite <- Eb, E1. reflexivity.
    + destruct a' as [|x [|y a']]; discriminate E'.
Qed.
(* Reading a head *)
Lemma UI_read_head c now blk k : c_server c = true -> UI k -> k_reading k = RInit -> let r := k_poll_read_head c now blk k in
  UI (fst r) /\ match snd r with Ready (Some (Ok m)) => In (LIn m) (k_log (fst r)) | _ => True end.
Proof.
  intros Hs H Er. cbn zeta. unfold k_poll_read_head.
  assert (uf k (start_timer c now k) /\ k_reading (start_timer c now k) = RInit) as (F0 & R0).
  { unfold start_timer. destruct (k_running k); [split; [apply uf_refl|auto]|]. destruct (c_timeout c); [|split; [apply uf_refl|auto]]. split; [usame|auto]. }
  remember (start_timer c now k) as k0 eqn:Ek. clear Ek. assert (UI k0) as H0 by exact (UI_uf _ _ F0 H). clear F0 H Er k.
  destruct (io_parse _ _ (k_rd k0)) as [rd [|[m|e]]] eqn:Ep.
  - cbn [k_running k_timer set_rd]. destruct (k_running k0), (k_timer k0) as [t|]; try (cbn [fst snd]; split; [|exact Logic.I]; eapply UI_uf; [|exact H0]; usame). destruct (t <=? now); cbn [fst snd]; split; try exact Logic.I; (eapply UI_uf; [|exact H0]; usame).
  - cbn [fst snd]. pose proof (up_got_head c blk (set_rd k0 rd) m) as U. destruct (view_got_head c blk (set_rd k0 rd) m) as ((l & L1 & L2) & _). cbn zeta in *. set (k' := got_head c blk (set_rd k0 rd) m) in *. clearbody k'. cbn [k_log set_rd k_upgrade] in *.
    split; [|rewrite L1; apply in_or_app; right; now left]. constructor.
    + rewrite U, L1. intros Hu. apply asked_app, (ui_up _ H0 Hu).
    + intros a h bs b st rs E Ho Hw. rewrite L1 in E. destruct (app_cons_split _ _ _ _ _ E) as [(b' & E1 & ->)|(a' & -> & E2)].
      * rewrite (UI_fresh k0 H0 (fun F => proj2 F R0) _ _ _ _ _ _ E1 Ho) in Hw. discriminate Hw.
      * destruct a' as [|x a']; [discriminate E2|]. cbn in E2. injection E2 as _ E2. exfalso. rewrite E2, forallb_app in L2. cbn in L2. rewrite andb_false_r in L2. discriminate L2.
  - split; [|destruct (snd _) as [|[[|]|]] eqn:Es; try exact Logic.I].
    + destruct (parse_failure e) as [e' n]. unfold on_read_head_error.
      set (k1 := set_rd (close_read (set_rd (set_rd k0 rd) _)) _). assert (UI k1) as H1 by (eapply UI_uf; [|exact H0]; subst k1; usame; discriminate). assert (k_reading k1 = RClosed) as R1 by reflexivity. clearbody k1.
      destruct (_ || _); [|cbn [fst]; eapply UI_uf; [apply uf_close_write|exact H1]].
      unfold on_parse_error. destruct (k_writing k1) eqn:W1; try exact H1. destruct (has_h2_prefix k1); [exact H1|]. destruct (t_on_error c e') as [st|]; [|exact H1]. cbn [fst].
      eapply UI_uf; [|apply (UI_write_head c true k1 (mkO HTTP11 (OResponse st None) [] None) None H1)]; [usame| | |discriminate]; [intros (F & _)|]; congruence.
    + exfalso. destruct (parse_failure e) as [e' n]. unfold on_read_head_error in Es. destruct (_ || _); [|discriminate Es]. destruct (on_parse_error _ _ _) as [k1 [u|e1]]; discriminate Es.
Qed.
Lemma UD_recv c d e : UD d -> UD (fst (recv_error c d e)).
Proof.
  intros H. unfold recv_error. destruct (c_server c); [exact H|]. destruct (d_callback d); [apply (UD_conn (dset_client d None (d_rx_closed d) (d_chan d))); [apply uf_logged; reflexivity|exact H]|]. destruct (d_rx_closed d); [exact H|].
  destruct (ch_try_recv _) as [ch [id|]]; [apply (UD_conn (dset_client d None (d_rx_closed d) ch)); [apply uf_logged; reflexivity|exact H]|exact H].
Qed.
Lemma UD_drop d : UD d -> UD (d_drop d).
Proof.
  intros H. rewrite d_drop_eq. apply (UI_uf (d_conn d)); [|exact H]. apply uf_logged. unfold drop_events. rewrite !forallb_app. destruct (d_body_tx d), (d_callback d); cbn [forallb quiet andb]; induction (ch_queue (d_chan d)); auto.
Qed.
Lemma UD_stable c h09 : c_server c = true -> stable c (fun _ => True) (VD c h09) UD.
Proof.
  intros Hs. apply stable_introJ.
  - intros d tx rx p _ H. exact H.
  - intros d e He _ H. apply UD_conn; [|exact H]. apply uf_logged. destruct e; try discriminate He; reflexivity.
  - intros d _ H. split; [|split; [|split]]; intros; unfold wants_read_again, pending_upgrade, take_error; cbn [fst].
    + apply UD_conn; [usame|exact H].
    + destruct H as [A B']. constructor; [discriminate|exact B'].
    + destruct (k_error (d_conn d)); cbn [fst]; (apply UD_conn; [|exact H]); [usame|apply uf_refl].
    + apply UD_conn; [|exact H]. eapply uf_trans; [|apply uf_logged; destruct sent; reflexivity]; usame.
  - intros d _ H _. apply (UD_conn (dset_closing d true)); [now apply uf_closed|exact H].
  - intros i d V H _ Hc Hp. unfold d_poll_read_head. rewrite Hp.
    assert (k_reading (d_conn d) = RInit) as Er by (unfold can_read_head in Hc; destruct (k_reading (d_conn d)); try discriminate Hc; reflexivity).
    destruct (UI_read_head c (i_now i) (i_blk i) (d_conn d) Hs H Er) as (R & R'). cbn zeta in *. destruct (k_poll_read_head c _ _ _) as [k r]. cbn [fst snd] in *.
    destruct r as [|[[m|e]|]].
    + exact R.
    + set (d1 := if in_decode m =? DL_ZERO then _ else _). assert (UI (d_conn d1) /\ In (LIn m) (k_log (d_conn d1))) as (R1 & R2).
      { subst d1. destruct (in_decode m =? DL_ZERO); [split; assumption|]. cbn [d_body_tx dset_conn]. destruct (d_body_tx d); [|split; assumption]. split; [eapply UI_uf; [|exact R]; apply uf_logged; reflexivity|]. cbn. apply in_or_app. now left. }
      clearbody d1. unfold recv_ok. rewrite Hs. cbn [fst]. unfold UD. cbn [d_conn dset_in_flight]. destruct (in_upgrade m) eqn:Eu; [|exact R1].
      destruct R1 as [A B']. constructor; [|exact B']. intros _. exists m. split; [exact R2|exact Eu].
    + pose proof (UD_recv c (dset_conn d k) e R) as Z. destruct (recv_error c (dset_conn d k) e) as [d' [|]]; cbn [fst] in *; [exact Z|]. apply (UD_conn (dset_closing d' true)); [now apply uf_closed|exact Z].
    + cbn [fst d_conn dset_conn]. destruct (is_write_closed k); [|exact R]. apply (UD_conn (dset_closing (dset_conn d k) true)); [now apply uf_closed|exact R].
  - intros i d _ H _ _. apply UD_conn; [apply uf_drain|exact H].
  - intros i d _ H _ _. apply UD_conn; [|exact H]. eapply uf_trans; [|apply uf_read_body]. apply uf_logged. reflexivity.
  - intros d _ H _. apply UD_conn; [apply uf_close_read|exact H].
  - intros d _ H _ _ _. apply UD_conn; [apply uf_keep_alive|exact H].
  - intros i d _ H. apply UD_conn; [apply uf_flush|exact H].
  - intros i d _ V H _ Hc Hp. unfold d_poll_msg, should_poll in *. rewrite Hs in *.
    destruct (i_msg i) as [|[[h body]|e]]; [exact H| |exact H]. unfold can_write_head in Hc. rewrite Hs in Hc. cbn [negb andb] in Hc.
    destruct (vi_fl _ _ _ _ V Hs Hp) as (_ & A & A'). apply UI_write_head; [exact H| |exact A|intros _; exact A'].
    intros (F & _). change (k_writing (d_conn d) = WClosed) in F. rewrite F in Hc. discriminate Hc.
  - intros i d _ H _. apply UD_conn; [|exact H]. apply uf_effect; [apply end_body_effect|apply up_end].
  - intros i d b _ H _ _. apply UD_conn; [|exact H]. apply uf_effect; [apply write_body_effect|apply up_body].
  - intros i d b _ H _ _. apply UD_conn; [|exact H]. apply uf_effect; [apply write_body_and_end_effect|apply up_body_and_end].
  - intros i d t _ H _ _. apply UD_conn; [|exact H]. apply uf_effect; [apply write_trailers_effect|apply up_trailers].
  - intros d e _ H. now apply UD_recv.
  - intros d _ H. now apply UD_drop.
  - intros e d _ H. destruct e as [s| | |]; cbn [estep].
    + rewrite Hs. exact H.
    + destruct (d_pc d); try exact H. rewrite Hs. unfold d_graceful, k_disable_keep_alive.
      set (d1 := dset_conn d _). assert (UD d1) as H1 by (apply UD_conn; [destruct (is_idle (d_conn d)); [now apply uf_closed|usame]|exact H]). clearbody d1.
      destruct (_ || _); [|exact H1]. apply (UD_conn (dset_closing d1 true)); [now apply uf_closed|exact H1].
    + destruct (d_pc d); try exact H. now apply UD_drop.
    + destruct (d_pc d), (k_log (d_conn d)); try exact H. rewrite Hs. apply UD_conn; [usame|exact H].
Qed.
