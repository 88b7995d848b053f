(* For C83: what a server knows of the bytes that it has looked at. *)
From Verif Require L_Rest.
From Verif Require Import M_Httparse.
From Verif Require Import Base M_Src M_Decode S_Buf L_Buf S_Transport S_Chunked S_Read L_Decode L_Chunked L_Body L_Read M_HeaderMap M_Headers M_Encode M_Role M_RoleEncode M_Buf M_WriteBuf M_Read M_Conn M_Dispatch S_Conn S_Framing L_Headers L_Framing L_Fold P_Framing S_Inbound S_Head L_Conn L_Moves L_ConnS L_Ka L_Exch L_BodyTx L_Done L_View L_Upgrade L_Inbound P_Conn P_Requests L_Return P_Graceful L_Report P_Report P_View P_Upgrade P_Inbound M_Parse S_Parse P_Parse S_Refuse P_Refuse S_Accept.

(* ---- How much of the buffer is known to be no head ---- *)
Definition known (o : hparse) (b : bytes) (partial : option N) : Prop :=
  match partial with None => True | Some n => n <= lenN b /\ incomplete o (takeN n b) end.
Definition PT (o : hparse) (k : conn) : Prop :=
  k_reading k = RClosed \/ match k_reading k with RInit => known o (r_buf (k_rd k)) (r_partial (k_rd k)) | _ => r_partial (k_rd k) = None end.

Section Partial.
Variables (c : cfg) (o : hparse).
Hypothesis Hs : c_server c = true.
Hypothesis U : parses_with c o.
Hypothesis Ho : hp_ok o.
Hypothesis Hw : waits_for_rest o.

Lemma nil_incomplete : incomplete o [].
Proof. intros n q E. rewrite (proj1 Hw) in E. discriminate. Qed.
Lemma parser_more me h09 x n : c_parse c me h09 x = PMore n -> n = 0 /\ incomplete o x.
Proof.
  rewrite U, Hs. unfold role_parse, parse_request. destruct (h_request o x) as [n' q| |e seen] eqn:E; cbn.
  - destruct (_ <? _); [discriminate|]. destruct (negb _); [discriminate|]. destruct (negb _); [discriminate|]. destruct (negb _); [discriminate|]. destruct (negb _); [discriminate|]. destruct (server_parse _ _ _); discriminate.
  - intros F. injection F as <-. split; [reflexivity|]. intros m q. congruence.
  - destruct e; discriminate.
Qed.
Lemma headers_more me h09 b partial n : known o b partial -> parse_headers (c_parse c me h09) b partial = PMore n -> n = 0 /\ incomplete o b.
Proof.
  intros K. unfold parse_headers. destruct b as [|x b]; [intros E; injection E as <-; auto using nil_incomplete|]. set (y := x :: b) in *. destruct partial as [k|]; [|apply parser_more].
  destruct (is_complete_fast y k) eqn:Ef; [apply parser_more|]. intros E. injection E as <-. split; [reflexivity|]. intros m q E. destruct K as (K1 & K2).
  destruct (proj1 Ho _ _ _ E) as ((L1 & L2) & Z). destruct (N.leb_spec m k) as [L|L].
  - apply (K2 m q). specialize (Z (dropN m (takeN k y))). rewrite <- Z. f_equal.
    transitivity (takeN m (takeN k y) ++ dropN m (takeN k y)); [symmetry; apply takeN_dropN|]. f_equal. rewrite takeN_takeN. f_equal. lia.
  - destruct (proj1 (proj2 Hw _ _ _ E)) as (pre & t & Bt & Et). pose proof (fast_sees (takeN k y) (dropN k y) pre t (dropN m y) Bt) as F.
    rewrite takeN_dropN in F. rewrite takeN_len in F. replace (N.min k (lenN y)) with k in F by lia. rewrite F in Ef; [discriminate| |].
    + rewrite app_assoc, <- Et. symmetry. apply takeN_dropN.
    + rewrite <- Et, takeN_len. lia.
Qed.
Lemma parse_known me h09 : forall evs b partial s r, known o b partial -> parse_loop (c_parse c me h09) (c_max c) b partial evs = (s, r) ->
  match r with
  | Pending => known o (r_buf s) (r_partial s)
  | Ready (Ok _) => r_partial s = None
  | Ready (Err ETooLarge) => incomplete o (r_buf s) /\ c_max c <= lenN (r_buf s) /\ b ++ data_of evs = r_buf s ++ data_of (r_evs s)
  | _ => True
  end.
Proof.
  assert (forall b, incomplete o b -> known o b (if 0 <? lenN b then Some (lenN b) else None)) as Kn.
  { intros b H. destruct (0 <? lenN b); [|exact Logic.I]. split; [lia|]. now rewrite takeN_all by lia. }
  induction evs as [|ev evs IH]; intros b partial s r K; cbn [parse_loop]; destruct (parse_headers _ b partial) as [n|n m|e'] eqn:Ep.
  2,5: intros E; injection E as <- <-; reflexivity.
  2,4: intros E; injection E as <- <-; exact Logic.I.
  all: apply headers_more in Ep; [|exact K]; destruct Ep as (-> & Hi); rewrite dropN_0; cbv zeta; destruct (N.leb_spec (c_max c) (lenN b)); [intros E; injection E as <- <-; auto|].
  - intros E; injection E as <- <-; exact Logic.I.
  - destruct ev as [|d|]; [intros E; injection E as <- <-; exact (Kn b Hi)| |intros E; injection E as <- <-; exact Logic.I].
    destruct (N.eqb_spec (lenN d) 0) as [Z|Z]; [intros E; injection E as <- <-; exact Logic.I|].
    intros E. apply IH in E.
    + destruct r as [|[m|[| | |]]]; try exact E. destruct E as (E1 & E2 & E3). split; [exact E1|]. split; [exact E2|]. cbn [data_of]. rewrite <- E3. now rewrite <- app_assoc.
    + destruct (0 <? lenN b); [|exact Logic.I]. split; [rewrite lenN_app; lia|]. now rewrite takeN_app_le, takeN_all by lia.
Qed.

(* ---- It stays known ---- *)
Lemma PT_same k k' : k_rd k' = k_rd k -> k_reading k' = k_reading k -> PT o k -> PT o k'.
Proof. unfold PT. now intros -> ->. Qed.
Lemma PT_closed k : k_reading k = RClosed -> PT o k. Proof. now left. Qed.
Lemma PT_ws k k' : L_Rest.ws k k' -> PT o k -> PT o k'.
Proof. intros (H1 & H2 & _). now apply PT_same. Qed.
Lemma PT_read_io k k' r : read_io k = (k', r) -> PT o k -> PT o k'.
Proof.
  intros E [H|H]; [left; now destruct (L_Rest.read_io_rd k k' r E) as (-> & _)|]. pose proof (L_Rest.read_io_rd k k' r E) as (R & _). right. rewrite R. revert E. unfold read_io, r_read_io, poll_read_from_io. cbn [rbuf M_Src.evs].
  destruct (k_reading k); destruct (r_evs (k_rd k)) as [|[|dta|] ev]; intros E; injection E as <- <-; cbn [k_rd set_rd r_partial r_buf rbuf] in *; try exact H.
  all: unfold known in *; destruct (r_partial (k_rd k)) as [n|]; [|exact Logic.I]; destruct H as (H1 & H2); split; [rewrite lenN_app; lia|now rewrite takeN_app_le].
Qed.
Lemma PT_st_try k : PT o k -> PT o (st_try_keep_alive c k).
Proof.
  intros H. unfold st_try_keep_alive. destruct (k_reading k) eqn:Er; destruct (k_writing k); try exact H; try (now left).
  destruct (k_ka k); try (now left). destruct H as [H|H]; [congruence|]. rewrite Er in H. right.
  unfold idle. rewrite Hs. destruct (c_timeout c); cbn [k_reading k_rd set_notify set_writing set_reading]; unfold known; change (r_partial _) with (r_partial (k_rd k)); now rewrite H.
Qed.
Lemma PT_notify blk k : PT o k -> PT o (maybe_notify blk k).
Proof.
  intros H. unfold maybe_notify. destruct (k_reading k) eqn:Er; try exact H. destruct (k_writing k); try exact H.
  all: destruct blk; [exact H|]; destruct (r_buf (k_rd k)); [|exact (PT_same _ _ eq_refl eq_refl H)].
  all: destruct (read_io k) as [k1 [|[n|e]]] eqn:Ei; apply PT_read_io in Ei; [|exact H|..]; try exact H; try exact Ei; try (now left).
  all: try (destruct (n =? 0); [destruct (is_idle k1); now left|exact (PT_same _ _ eq_refl eq_refl Ei)]).
Qed.
Lemma PT_try blk k : PT o k -> PT o (try_keep_alive c blk k).
Proof. intros H. now apply PT_notify, PT_st_try. Qed.
Lemma PT_body blk k : PT o k -> PT o (fst (k_poll_read_body c blk k)).
Proof.
  assert (forall k d, r_partial (k_rd k) = None -> PT o (fst (read_body_state c blk k d))) as S.
  { clear k. intros k d H. unfold read_body_state, k_decode. destruct (decode (c_dt c) d _) as [[d' s'] r].
    set (k1 := set_rd k (mkR (rbuf s') (r_partial (k_rd k)) (M_Src.evs s'))). assert (r_partial (k_rd k1) = None) as H1 by exact H. clearbody k1.
    assert (forall r l, r <> RInit -> PT o (log (set_reading k1 r) l)) as Q by (intros r0 l Hr; right; cbn [k_reading log set_reading k_rd]; destruct r0; try exact H1; now contradiction Hr).
    assert (forall r, r <> RInit -> PT o (set_reading k1 r)) as Q' by (intros r0 Hr; right; cbn [k_reading set_reading k_rd]; destruct r0; try exact H1; now contradiction Hr).
    destruct r as [|[[x|t]|e]]; cbn [fst]; [now apply Q'| | |]; try (apply PT_try, Q; discriminate).
    destruct (is_eof d'); [destruct x; apply PT_try, Q; discriminate|]. destruct x; cbn [fst]; [apply PT_try, Q'; discriminate|apply Q; discriminate]. }
  intros H. unfold k_poll_read_body. destruct (k_reading k) eqn:Er; try exact H; destruct H as [H|H]; try congruence; rewrite Er in H; apply S; [destruct (k_writing k); exact H|exact H].
Qed.
Lemma PT_drain blk k : PT o k -> PT o (drain_or_close_read c blk k).
Proof.
  intros H. unfold drain_or_close_read. set (k1 := match k_reading k with RContinue d => _ | _ => _ end).
  assert (PT o k1) as H1. { subst k1. destruct (k_reading k) eqn:Er; try exact H. right. destruct H as [H|H]; [congruence|]. rewrite Er in H. exact H. }
  clearbody k1. apply (PT_body blk) in H1. destruct (k_poll_read_body c blk k1) as [k2 r]. cbn [fst] in *. destruct (k_reading k2); try exact H1; now left.
Qed.
Lemma PT_keep k : PT o k -> PT o (fst (k_poll_read_keep_alive c k)).
Proof.
  intros H. unfold k_poll_read_keep_alive, mid_message_detect_eof, require_empty_read, force_io_read. destruct (is_read_closed k); [exact H|].
  destruct (read_io k) as [k1 r] eqn:Ei. apply PT_read_io in Ei; [|exact H].
  destruct (is_mid_message k); [destruct (_ || _); [exact H|]|destruct (r_buf (k_rd k)); [|exact H]].
  all: destruct r as [|[n|e]]; try exact Ei; try (now left); destruct (n =? 0); cbn [fst]; [now left|exact Ei].
Qed.
Lemma PT_flush blk wevs k : PT o k -> PT o (fst (k_poll_flush c blk wevs k)).
Proof.
  intros H. unfold k_poll_flush. destruct (wb_flush _ _ _ _) as [[[w ev] sent] r]. set (k1 := log _ _). assert (PT o k1) as H1 by exact (PT_same _ _ eq_refl eq_refl H). clearbody k1.
  destruct r as [|[u|e]]; cbn [fst]; auto using PT_try.
Qed.
Lemma PT_head now blk k : k_reading k = RInit -> PT o k -> PT o (fst (k_poll_read_head c now blk k)).
Proof.
  intros Er [H|H]; [congruence|]. rewrite Er in H. unfold k_poll_read_head.
  assert (k_rd (start_timer c now k) = k_rd k /\ k_reading (start_timer c now k) = RInit) as (D0 & R0).
  { unfold start_timer. destruct (k_running k); [auto|]. destruct (c_timeout c); auto. }
  remember (start_timer c now k) as k0 eqn:Ek. clear Ek. destruct (io_parse _ _ (k_rd k0)) as [rd r] eqn:Ep. unfold io_parse in Ep. rewrite D0 in Ep. apply parse_known in Ep; [|exact H]. destruct r as [|[m|e]].
  - assert (PT o (set_rd k0 rd)) as Q by (right; cbn [k_reading set_rd k_rd]; rewrite R0; exact Ep). cbn [k_running k_timer set_rd]. destruct (k_running k0); [|exact Q]. destruct (k_timer k0) as [t|]; [|exact Q]. destruct (t <=? now); [|exact Q]. exact (PT_same _ _ eq_refl eq_refl Q).
  - cbn [fst]. unfold got_head. rewrite Hs. set (k1 := if in_keep m then _ else _).
    assert (k_rd k1 = rd) as L1. { subst k1. unfold busy, st_disable_keep_alive. destruct (k_ka (set_h09 (set_timer (set_method (set_rd k0 rd) (in_method m)) None false) false)), (in_keep m); reflexivity. }
    clearbody k1. right. destruct (in_decode m =? DL_ZERO); [|destruct (_ && _)]; cbn [k_reading k_rd set_trailers set_reading log set_version]; now rewrite L1.
  - destruct (parse_failure e) as [e' n]. unfold on_read_head_error. set (k1 := set_rd (close_read (set_rd (set_rd k0 rd) _)) _). assert (k_reading k1 = RClosed) as C1 by reflexivity. clearbody k1.
    destruct (_ || _); [|now left]. unfold on_parse_error. destruct (k_writing k1); try (now left). destruct (has_h2_prefix k1); [now left|]. destruct (t_on_error c e'); [|now left]. cbn [fst]. left. cbn [k_reading set_error].
    destruct (L_Rest.ws_write_head c true k1 (mkO HTTP11 (OResponse n0 None) [] None) None) as (_ & A & _). congruence.
Qed.
Lemma PT_stable : stable c (fun _ => True) (fun _ => True) (fun d => PT o (d_conn d)).
Proof.
  apply stable_introJ.
  - intros d tx rx p _ H. exact H.
  - intros d e He _ H. exact H.
  - intros d _ H. split; [|split; [|split]]; intros; unfold wants_read_again, pending_upgrade, take_error; cbn [fst d_conn dset_conn]; [exact H|exact H| |exact H]. destruct (k_error (d_conn d)); exact H.
  - intros d _ H _. now left.
  - intros i d _ H _ Hc Hp. unfold d_poll_read_head. rewrite Hp.
    assert (k_reading (d_conn d) = RInit) as Er by (unfold can_read_head in Hc; destruct (k_reading (d_conn d)); try discriminate Hc; reflexivity).
    pose proof (PT_head (i_now i) (i_blk i) (d_conn d) Er H) as R. destruct (k_poll_read_head c _ _ _) as [k r]. cbn [fst] in R.
    destruct r as [|[[m|e]|]].
    + exact R.
    + set (d1 := if in_decode m =? DL_ZERO then _ else _). assert (PT o (d_conn d1)) as R1.
      { subst d1. destruct (in_decode m =? DL_ZERO); [exact R|]. cbn [d_body_tx dset_conn]. destruct (d_body_tx d); exact R. }
      clearbody d1. set (d2 := if in_upgrade m then _ else _). assert (PT o (d_conn d2)) as R2 by (subst d2; destruct (in_upgrade m); exact R1). clearbody d2.
      unfold recv_ok. rewrite Hs. exact R2.
    + unfold recv_error. rewrite Hs. exact R.
    + cbn [fst d_conn dset_conn]. destruct (is_write_closed k); [now left|exact R].
  - intros i d _ H _ _. now apply PT_drain.
  - intros i d _ H _ _. now apply PT_body.
  - intros d _ H _. now left.
  - intros d _ H _ _ _. now apply PT_keep.
  - intros i d _ H. now apply PT_flush.
  - intros i d _ _ H _ Hc Hp. unfold d_poll_msg. rewrite Hs. destruct (i_msg i) as [|[[h body]|e]]; [exact H| |exact H]. exact (PT_ws _ _ (L_Rest.ws_write_head _ _ _ _ _) H).
  - intros i d _ H _. exact (PT_ws _ _ (L_Rest.ws_end_body _ _) H).
  - intros i d b _ H _ _. exact (PT_ws _ _ (L_Rest.ws_write_body _ _ _ _) H).
  - intros i d b _ H _ _. exact (PT_ws _ _ (L_Rest.ws_body_and_end _ _ _ _) H).
  - intros i d t _ H _ _. exact (PT_ws _ _ (L_Rest.ws_write_trailers _ _ _ _) H).
  - intros d e _ H. unfold recv_error. rewrite Hs. exact H.
  - intros d _ H. rewrite d_drop_eq. exact H.
  - intros e d _ H. destruct e as [s| | |]; cbn [estep].
    + destruct (c_server c); exact H.
    + destruct (d_pc d); try exact H. destruct (c_server c); [|exact H]. unfold d_graceful, k_disable_keep_alive.
      set (d1 := dset_conn d _). assert (PT o (d_conn d1)) as H1 by (subst d1; cbn [d_conn dset_conn]; destruct (is_idle (d_conn d)); [now left|exact H]). clearbody d1.
      destruct (_ || _); [now left|exact H1].
    + destruct (d_pc d); try exact H. rewrite d_drop_eq. exact H.
    + destruct (d_pc d), (k_log (d_conn d)); try exact H. destruct (c_server c); exact H.
Qed.
Lemma PT_full k : PT o k -> full_with c (incomplete o) k.
Proof.
  intros [H|H] Er me h09 s Ep; [congruence|]. rewrite Er in H. unfold io_parse in Ep. apply parse_known in Ep; [|exact H]. destruct Ep as (E1 & E2 & E3). exists [], (r_buf s), (data_of (r_evs s)). split; [exact E3|]. split; [constructor|auto].
Qed.
End Partial.
