(* Lemmas: what is written to the transport is what was queued, in order, for
   whole connections. *)
From Verif Require Import Base M_Src M_Decode M_HeaderMap M_Headers M_Encode M_Role M_RoleEncode M_Buf M_WriteBuf M_Read M_Conn M_Dispatch S_Conn S_Client S_Buf L_Buf L_WriteBuf L_Conn L_Moves L_ConnS L_ConnC L_Ext L_Ka L_Outcome.
From Verif Require P_Write.

Lemma queued_app a b : queued (a ++ b) = queued a ++ queued b.
Proof. induction a as [|e a IH]; [reflexivity|]. cbn. rewrite IH, app_assoc. reflexivity. Qed.
Lemma taken_app a b : taken (a ++ b) = taken a ++ taken b.
Proof. induction a as [|e a IH]; [reflexivity|]. cbn. destruct e; rewrite IH, ?app_assoc; reflexivity. Qed.

(* Events that do not concern the write buffer *)
Definition silent (e : levent) : bool := match e with LSent _ | LShutdown | LHead _ _ _ | LHeadFail _ | LBody _ | LContinue => false | _ => true end.
Lemma silent_queued l : forallb silent l = true -> queued l = [] /\ taken l = [].
Proof. induction l as [|e l IH]; [auto|]. cbn. intros H. apply andb_prop in H. destruct H as [H1 H2]. destruct (IH H2) as [A B']. destruct e; try discriminate; auto. Qed.

(* The state of the write side *)
Definition TI (flat : bool) (k : conn) : Prop :=
  wb_wf (k_wb k) /\ wflat (k_wb k) = flat /\ taken (k_log k) ++ wb_den (k_wb k) = queued (k_log k) /\
  forall e, k_writing k = WBody e -> enc_is_eof e = false.
(* Steps that leave the write side alone *)
Definition still (k k' : conn) : Prop :=
  k_wb k' = k_wb k /\ (forall e, k_writing k' = WBody e -> k_writing k = WBody e) /\
  exists l, k_log k' = k_log k ++ l /\ forallb silent l = true.
Lemma TI_still flat k k' : still k k' -> TI flat k -> TI flat k'.
Proof.
  intros (A & B' & l & E & Hl) (W & F & Q & Hb). destruct (silent_queued l Hl) as [Q1 Q2]. unfold TI. rewrite A, E, taken_app, queued_app, Q1, Q2, !app_nil_r.
  split; [exact W|]. split; [exact F|]. split; [exact Q|]. intros e He. apply Hb, B', He.
Qed.
Lemma still_same k k' : k_wb k' = k_wb k -> (k_writing k' = k_writing k \/ forall e, k_writing k' <> WBody e) -> k_log k' = k_log k -> still k k'.
Proof.
  intros A B' C. split; [exact A|]. split; [|exists []; rewrite app_nil_r; auto]. intros e He. destruct B' as [B'|B']; [congruence|destruct (B' e He)].
Qed.
Ltac ssame := apply still_same; [reflexivity|first [left; reflexivity | right; discriminate]|reflexivity].
Lemma still_trans k k' k'' : still k k' -> still k' k'' -> still k k''.
Proof.
  intros (A1 & B1 & a & E1 & S1) (A2 & B2 & b & E2 & S2). split; [congruence|]. split; [auto|].
  exists (a ++ b). rewrite E2, E1, app_assoc, forallb_app, S1, S2. auto.
Qed.
Lemma still_log k l : forallb silent l = true -> still k (log k l).
Proof. intros H. split; [reflexivity|]. split; [auto|]. exists l. auto. Qed.
Lemma still_st_try c k : still k (st_try_keep_alive c k).
Proof.
  unfold st_try_keep_alive, idle. destruct (k_reading k) eqn:Er; try ssame; destruct (k_writing k) eqn:Ew; try ssame.
  - destruct (k_ka k); try ssame. destruct (c_server c), (c_timeout c); ssame.
Qed.
Lemma still_read_io k : still k (fst (read_io k)).
Proof. unfold read_io. destruct (r_read_io (k_rd k)). ssame. Qed.
Lemma still_maybe_notify blk k : still k (maybe_notify blk k).
Proof.
  unfold maybe_notify. pose proof (still_read_io k) as H'.
  destruct (k_reading k); try ssame. destruct (k_writing k); try ssame;
  (destruct blk; [ssame|]; destruct (r_buf (k_rd k)); [|ssame];
   destruct (read_io k) as [k' [|[n|e]]]; cbn [fst] in H'; [exact H'| |eapply still_trans; [exact H'|ssame]];
   destruct (n =? 0); [destruct (is_idle k')|]; (eapply still_trans; [exact H'|ssame])).
Qed.
Lemma still_try c blk k : still k (try_keep_alive c blk k).
Proof. eapply still_trans; [apply still_st_try|apply still_maybe_notify]. Qed.
Lemma still_got_head c blk k m : still k (got_head c blk k m).
Proof.
  unfold got_head.
  set (k1 := log _ [LIn m]).
  assert (still k k1) as H1.
  { subst k1. unfold busy, st_disable_keep_alive. destruct (c_server c), (in_keep m), (k_ka k) eqn:Ek;
      (split; [cbn; rewrite ?Ek; reflexivity|]; split; [cbn; rewrite ?Ek; auto|exists [LIn m]; cbn; rewrite ?Ek; auto]). }
  clearbody k1. eapply still_trans; [exact H1|].
  match goal with |- still _ (set_trailers ?x _) => assert (still k1 x) as H2; [|eapply still_trans; [exact H2|ssame]] end.
  assert (still k1 (log (set_reading k1 RKeepAlive) [LInEnd])) as H3 by (eapply still_trans; [|now apply still_log]; ssame).
  destruct (in_decode m =? DL_ZERO).
  - destruct (c_server c); [exact H3|]. eapply still_trans; [exact H3|apply still_try].
  - destruct (_ && _); ssame.
Qed.
Lemma still_read_body_state c blk k d : still k (fst (read_body_state c blk k d)).
Proof.
  unfold read_body_state, k_decode.
  destruct (decode (c_dt c) d _) as [[d' sc] r].
  set (k1 := set_rd k _). assert (still k k1) as H1 by ssame. clearbody k1.
  eapply still_trans; [exact H1|]. clear H1.
  destruct r as [|[[x|t]|e]].
  - ssame.
  - destruct (is_eof d').
    + destruct x as [|b x]; cbn [fst app]; (eapply still_trans; [|apply still_try]); eapply still_trans; [|apply still_log; reflexivity| |apply still_log; reflexivity]; ssame.
    + destruct x as [|b x]; cbn [fst]; [eapply still_trans; [|apply still_try]; ssame|]. eapply still_trans; [|apply still_log; reflexivity]. ssame.
  - cbn [fst]. (eapply still_trans; [|apply still_try]). eapply still_trans; [|apply still_log; reflexivity]. ssame.
  - cbn [fst]. (eapply still_trans; [|apply still_try]). eapply still_trans; [|apply still_log; reflexivity]. ssame.
Qed.
Lemma still_keep_alive_read c k : still k (fst (k_poll_read_keep_alive c k)).
Proof.
  unfold k_poll_read_keep_alive, mid_message_detect_eof, require_empty_read, force_io_read.
  pose proof (still_read_io k) as H1.
  destruct (is_read_closed k); [ssame|]. destruct (is_mid_message k).
  - destruct (_ || _); [ssame|]. destruct (read_io k) as [k' [|[n|e]]]; cbn [fst] in *; [exact H1| |eapply still_trans; [exact H1|ssame]].
    destruct (n =? 0); [eapply still_trans; [exact H1|ssame]|exact H1].
  - destruct (r_buf (k_rd k)); [|ssame]. destruct (read_io k) as [k' [|[n|e]]]; cbn [fst] in *; [exact H1| |eapply still_trans; [exact H1|ssame]].
    destruct (n =? 0); [eapply still_trans; [exact H1|ssame]|exact H1].
Qed.

(* A head is put into the buffer *)
Definition headroom (flat : bool) (k : conn) : Prop := flat = true \/ can_headers_buf (k_wb k) = true.
Lemma flat_headers w : wb_wf w -> wflat w = true -> can_headers_buf w = true.
Proof. intros (_ & _ & H) F. unfold can_headers_buf. rewrite (H F). reflexivity. Qed.
Lemma TI_put flat k out l : TI flat k -> headroom flat k -> queued l = out -> taken l = [] -> TI flat (log (set_wb k (wb_head (k_wb k) out)) l).
Proof.
  intros (W & F & Q & Hb) Hr E1 E2.
  assert (can_headers_buf (k_wb k) = true) as C by (destruct Hr as [->|C]; [now apply flat_headers|exact C]).
  destruct (wb_head_spec (k_wb k) out W C) as [W' D]. split; [exact W'|]. split; [exact F|]. cbn [log set_wb k_log k_wb k_writing]. rewrite taken_app, queued_app, D, E1, E2, app_nil_r.
  split; [rewrite app_assoc, Q; reflexivity|exact Hb].
Qed.
Lemma TI_frame flat k k' : k_wb k' = k_wb k -> k_log k' = k_log k -> (forall e, k_writing k' = WBody e -> enc_is_eof e = false) -> TI flat k -> TI flat k'.
Proof. intros A B' C (W & F & Q & _). unfold TI. rewrite A, B'. auto. Qed.
Lemma still_enforce k h : k_wb (fst (enforce_version k h)) = k_wb k /\ k_log (fst (enforce_version k h)) = k_log k /\ k_writing (fst (enforce_version k h)) = k_writing k.
Proof.
  unfold enforce_version, fix_keep_alive. destruct (k_version k); auto.
  - destruct (match hm_get _ _ with Some _ => _ | None => _ end); [auto|]. destruct (o_version h); auto. destruct (wants_keep_alive k); auto.
  - destruct (k_ka k); auto.
Qed.
Lemma TI_write_head flat c auto k h body : TI flat k -> headroom flat k -> TI flat (write_head c auto k h body).
Proof.
  intros H Hr. unfold write_head, encode_head.
  set (k0 := if c_server c then k else _).
  assert (k_log k0 = k_log k /\ k_wb k0 = k_wb k /\ k_writing k0 = k_writing k) as (A1 & A2 & A3).
  { subst k0. unfold busy. destruct (c_server c); [auto|]. match goal with |- context [if ?b then _ else _] => destruct b end; destruct (k_ka k) eqn:Ek; auto. }
  clearbody k0. destruct (still_enforce k0 h) as (B1 & B2 & B3). destruct (enforce_version k0 h) as [k1 h1]. cbn [fst] in *.
  assert (TI flat k1) as H1.
  { eapply TI_frame; [| | |exact H]; [congruence|congruence|]. rewrite B3, A3. apply H. }
  assert (headroom flat k1) as Hr1 by (unfold headroom in *; rewrite B1, A2; exact Hr).
  destruct (t_encode c k1 h1 body) as [[out m] [e|e]].
  - assert (TI flat (log (set_wb k1 (wb_head (k_wb k1) out)) [LHead auto h1 out])) as H2.
    { apply TI_put; auto. cbn. now rewrite app_nil_r. }
    eapply TI_still with (k := set_writing (log (set_method (set_wb k1 (wb_head (k_wb k1) out)) m) [LHead auto h1 out]) (after_head e)).
    { apply still_log. destruct (enc_is_eof e); reflexivity. }
    eapply TI_frame; [| | |exact H2]; try reflexivity. cbn. unfold after_head. intros e' He.
    destruct (enc_is_eof e) eqn:Ee; cbn in He; [destruct (is_last e); discriminate|]. congruence.
  - assert (TI flat (log (set_wb k1 (wb_head (k_wb k1) out)) [LHeadFail out])) as H2.
    { apply TI_put; auto. cbn. now rewrite app_nil_r. }
    eapply TI_frame; [| | |exact H2]; try reflexivity. cbn. discriminate.
Qed.

(* A body buffer is queued *)
Lemma den_buf_bytes b : wf_buf b -> buf_bytes b = den b.
Proof. intros W. unfold buf_bytes. rewrite flatten_spec; [reflexivity|exact W|]. rewrite brem_den. lia. Qed.
Lemma TI_buffer flat room k b l : TI flat k -> good_buf b -> queued l = den b -> taken l = [] -> TI flat (log (k_buffer room k b) l).
Proof.
  intros (W & F & Q & Hb) G E1 E2. unfold k_buffer. destruct (wb_buffer_spec room (k_wb k) b W G) as (w' & -> & W' & D & _ & F' & _).
  split; [exact W'|]. split; [cbn; congruence|]. cbn [log set_wb k_log k_wb k_writing]. rewrite taken_app, queued_app, D, E1, E2, app_nil_r. split; [rewrite app_assoc, Q; reflexivity|exact Hb].
Qed.
(* The application's buffers keep the contract of the Buf trait *)
Definition good_data (c : cfg) (b : buf) : Prop :=
  wf_buf b /\ vec_contract b /\ ((pieces b <= 1)%nat \/ (c_take_vec c = true /\ (pieces b <= 16)%nat)).
Lemma nonempty_encode v e b : den b <> [] -> enc_is_eof e = false -> den (snd (encode_buf v e b)) <> [] /\ den (encode_and_end_buf v e b) <> [].
Proof.
  intros D E. unfold encode_buf, encode_and_end_buf. destruct e as [[al|r|] il]; cbn [ekind is_last].
  - cbn. split; intros F; apply app_eq_nil in F; destruct F as [_ F]; discriminate.
  - cbn in E. destruct (r <? brem b); cbn [snd den]; [|auto].
    assert (takeN r (den b) <> []) as Q.
    { intros F. assert (r <> 0) as E' by (destruct r; [discriminate E|discriminate]). apply (f_equal lenN) in F. rewrite takeN_len in F. change (lenN (@nil N)) with 0 in F.
      assert (lenN (den b) <> 0) by (intros Z; apply lenN_0 in Z; contradiction). lia. }
    auto.
  - auto.
Qed.
Lemma TI_write_body flat c room k b : TI flat k -> good_data c b -> brem b =? 0 = false -> TI flat (k_write_body c room k b).
Proof.
  intros H (W & V & P) Hne. unfold k_write_body. destruct (k_writing k) as [|e| |] eqn:Ew; try exact H.
  assert (enc_is_eof e = false) as Ee by (apply H, Ew).
  assert (den b <> []) as D.
  { intros F. rewrite brem_den, F in Hne. discriminate. }
  destruct (P_Write.C27_encode (c_take_vec c) e b W V D P) as (_ & _ & W1 & V1 & _).
  destruct (nonempty_encode (c_take_vec c) e b D Ee) as [D1 _].
  destruct (encode_buf (c_take_vec c) e b) as [e' eb]. cbn [snd] in *.
  assert (TI flat (log (k_buffer room k eb) [LBody (buf_bytes eb)])) as H1.
  { apply TI_buffer; [exact H|split; [exact W1|split; [exact V1|exact D1]]| |reflexivity]. cbn. rewrite app_nil_r. now apply den_buf_bytes. }
  destruct (enc_is_eof e') eqn:Ee'; cbn [negb].
  - eapply TI_still; [apply still_log; reflexivity|]. eapply TI_frame; [| | |exact H1]; try reflexivity. cbn. destruct (is_last e'); discriminate.
  - eapply TI_frame; [| | |exact H1]; try reflexivity. cbn. intros x Hx. congruence.
Qed.
Lemma TI_write_body_and_end flat c room k b : TI flat k -> good_data c b -> brem b =? 0 = false -> TI flat (k_write_body_and_end c room k b).
Proof.
  intros H (W & V & P) Hne. unfold k_write_body_and_end. destruct (k_writing k) as [|e| |] eqn:Ew; try exact H.
  assert (enc_is_eof e = false) as Ee by (apply H, Ew).
  assert (den b <> []) as D.
  { intros F. rewrite brem_den, F in Hne. discriminate. }
  destruct (P_Write.C27_encode (c_take_vec c) e b W V D P) as (_ & _ & _ & _ & _ & W1 & V1).
  destruct (nonempty_encode (c_take_vec c) e b D Ee) as [_ D1].
  set (eb := encode_and_end_buf (c_take_vec c) e b) in *.
  set (short := match ekind e with KLength n => _ | _ => _ end). clearbody short.
  assert (TI flat (log (k_buffer room k eb) [LBody (buf_bytes eb); if short then LAbort else LEnd])) as H1.
  { apply TI_buffer; [exact H|split; [exact W1|split; [exact V1|exact D1]]| |destruct short; reflexivity]. cbn. rewrite (den_buf_bytes eb W1). destruct short; now rewrite !app_nil_r. }
  eapply TI_frame; [| | |exact H1]; try reflexivity. cbn. destruct (match ekind e with KChunked _ => _ | _ => _ end); discriminate.
Qed.
Lemma TI_end_body flat room k : TI flat k -> TI flat (fst (k_end_body room k)).
Proof.
  intros H. unfold k_end_body. destruct (k_writing k) as [|e| |] eqn:Ew; try exact H.
  destruct (enc_end e) as [out|n] eqn:Ee; cbn [fst].
  - eapply TI_still; [apply still_log; reflexivity|].
    assert (forall k', TI flat k' -> TI flat (set_writing k' (if is_last e || is_close_delimited e then WClosed else WKeepAlive))) as Q.
    { intros k' Hk. eapply TI_frame; [| | |exact Hk]; try reflexivity. cbn. destruct (_ || _); discriminate. }
    apply Q. destruct out as [|x out]; [exact H|]. apply TI_buffer; [exact H| |cbn|reflexivity].
    + apply (P_Write.C27_encode_end [0]). discriminate.
    + unfold enc_end in Ee. destruct (ekind e) as [al|r|]; try discriminate; [inversion Ee; reflexivity|]. destruct r; discriminate.
  - eapply TI_still; [apply still_log; reflexivity|]. eapply TI_frame; [| | |exact H]; try reflexivity. cbn. discriminate.
Qed.
Lemma TI_write_trailers flat c room k t : TI flat k -> TI flat (k_write_trailers c room k t).
Proof.
  intros H. unfold k_write_trailers. destruct (_ && _); [exact H|]. destruct (k_writing k) as [|e| |] eqn:Ew; try exact H.
  destruct (encode_trailers e t (c_title c)) as [out|] eqn:Ee; [|exact H].
  unfold encode_trailers in Ee. destruct (ekind e) as [[al|]| |]; try discriminate.
  remember (write_headers (c_title c) (filter_trailers al t)) as block eqn:Eb.
  assert (block <> [] /\ out = B "0" ++ CRLF ++ block ++ CRLF) as (Hn & ->) by (destruct block; [discriminate|]; inversion Ee; split; [discriminate|reflexivity]). clear Eb Ee.
  destruct (P_Write.C27_encode_end block Hn) as (_ & _ & G & D).
  assert (takeN (lenN (B "0" ++ CRLF ++ block ++ CRLF) - 5) (dropN 3 (B "0" ++ CRLF ++ block ++ CRLF)) = block) as ->.
  { change (B "0" ++ CRLF ++ block ++ CRLF) with ([48; 13; 10] ++ block ++ [13; 10]).
    rewrite !lenN_app. change (lenN [48; 13; 10]) with 3. change (lenN [13; 10]) with 2.
    rewrite dropN_app_ge by (cbn; lia). replace (3 - lenN [48; 13; 10]) with 0 by reflexivity. rewrite dropN_0.
    replace (3 + (lenN block + 2) - 5) with (lenN block) by lia. rewrite takeN_app_le by lia. apply takeN_all; lia. }
  eapply TI_frame with (k := log (k_buffer room k (trailers_buf block)) [LBody (B "0" ++ CRLF ++ block ++ CRLF); LEnd]); try reflexivity.
  { cbn. destruct (_ || _); discriminate. }
  apply TI_buffer; [exact H|exact G| |reflexivity]. rewrite D. cbn. now rewrite app_nil_r.
Qed.
Lemma TI_sent flat k pipeline unread wevs w ev sent r : wb_flush pipeline unread (k_wb k) wevs = (w, ev, sent, r) ->
  TI flat k -> TI flat (log (set_wb k w) (sent_ev sent)).
Proof.
  intros E (W & F & Q & Hb). pose proof (wb_flush_ok pipeline unread (k_wb k) wevs W) as P. rewrite E in P. destruct P as (W' & D & _ & _ & P).
  split; [exact W'|]. split; [cbn; destruct P as (_ & P & _); congruence|]. cbn. rewrite taken_app, queued_app.
  assert (queued (sent_ev sent) = [] /\ taken (sent_ev sent) = sent) as [-> ->] by (destruct sent; cbn; rewrite ?app_nil_r; auto).
  rewrite app_nil_r, <- app_assoc, D. split; [exact Q|exact Hb].
Qed.
Lemma TI_flush flat c blk wevs k : TI flat k -> TI flat (fst (k_poll_flush c blk wevs k)).
Proof.
  intros H. unfold k_poll_flush. destruct (wb_flush _ _ _ _) as [[[w ev] sent] r] eqn:E.
  pose proof (TI_sent flat k _ _ _ _ _ _ _ E H) as H1. unfold sent_ev in H1.
  destruct r as [|[u|e]]; cbn [fst]; [exact H1|eapply TI_still; [apply still_try|exact H1]|exact H1].
Qed.

(* The same, unless the connection wrote a head of its own accord and buffers
   are queued without being flattened *)
Definition wild (k : conn) : bool := existsb unasked (k_log k).
(* When the transport is shut down nothing is left in the buffer *)
Definition SD (pl flat : bool) (k : conn) : Prop :=
  forall a b, k_log k = a ++ LShutdown :: b -> pl = true \/ (flat = false /\ existsb unasked a = true) \/ taken a = queued a.
Definition TW (pl flat : bool) (k : conn) : Prop := ((flat = false /\ wild k = true) \/ TI flat k) /\ SD pl flat k.
Lemma SD_app pl flat k k' l : k_log k' = k_log k ++ l -> ~ In LShutdown l -> SD pl flat k -> SD pl flat k'.
Proof.
  intros E N H a b E'. rewrite E in E'. destruct (app_cons_split _ _ _ _ _ E') as [(b' & E1 & ->)|(a' & -> & E2)].
  - exact (H a b' E1).
  - destruct N. rewrite E2. apply in_or_app. right. left. reflexivity.
Qed.
Lemma own_shut s l : forallb (own s) l = true -> ~ In LShutdown l.
Proof. intros H F. rewrite forallb_forall in H. specialize (H _ F). discriminate. Qed.
Lemma silent_shut l : forallb silent l = true -> ~ In LShutdown l.
Proof. intros H F. rewrite forallb_forall in H. specialize (H _ F). discriminate. Qed.
Lemma TW_step pl flat s k k' : ext s k k' -> (TI flat k -> (flat = false /\ wild k' = true) \/ TI flat k') -> TW pl flat k -> TW pl flat k'.
Proof.
  intros (l & E & Hl) H (T & S). split; [|eapply SD_app; [exact E|eapply own_shut, Hl|exact S]].
  destruct T as [(F & W)|W]; [|auto]. left. split; [exact F|]. unfold wild in *. rewrite E, existsb_app, W. reflexivity.
Qed.
Lemma TW_step' pl flat s k k' : ext s k k' -> (TI flat k -> TI flat k') -> TW pl flat k -> TW pl flat k'.
Proof. intros E H. eapply TW_step; [exact E|]. right. auto. Qed.
Lemma wild_still k k' : still k k' -> wild k = true -> wild k' = true.
Proof. intros (_ & _ & l & E & Hl) W. unfold wild in *. rewrite E, existsb_app, W. reflexivity. Qed.
Lemma TT_still flat k k' : still k k' -> (flat = false /\ wild k = true) \/ TI flat k -> (flat = false /\ wild k' = true) \/ TI flat k'.
Proof. intros S [(F & W)|W]; [left; split; [exact F|eapply wild_still; eauto]|right; eapply TI_still; eauto]. Qed.
Lemma TW_still pl flat k k' : still k k' -> TW pl flat k -> TW pl flat k'.
Proof.
  intros S. pose proof S as (_ & _ & l & E & Hl). intros (T & D). split; [|eapply SD_app; [exact E|eapply silent_shut, Hl|exact D]].
  eapply TT_still; eauto.
Qed.
Lemma wild_last k e l : unasked e = true -> wild (log k (e :: l)) = true.
Proof. intros H. unfold wild. cbn. rewrite existsb_app. cbn. rewrite H. apply orb_true_r. Qed.

(* Reading *)
Lemma TW_read_head_error pl flat c k e : TW pl flat k -> TW pl flat (fst (on_read_head_error c k e)).
Proof.
  apply TW_step with (s := c_server c); [apply ext_read_head_error|]. intros H.
  unfold on_read_head_error. set (k1 := set_rd (close_read k) _).
  assert (k_ka k1 = KDisabled) as Hk by reflexivity.
  assert (TI flat k1) as H1 by (eapply TI_still; [|exact H]; ssame). clearbody k1.
  destruct (_ || _); [|right; eapply TI_still; [|exact H1]; ssame].
  unfold on_parse_error. destruct (k_writing k1) eqn:Ew; try (right; exact H1). destruct (has_h2_prefix k1); [right; exact H1|]. unfold t_on_error. destruct (c_server c) eqn:Es; [|right; exact H1].
  destruct (match e with CParse p => server_on_error p | _ => None end) as [st|] eqn:Est; [|right; exact H1].
  cbn [fst]. match goal with |- context [set_error ?x _] => apply TT_still with (k := x); [ssame|] end. destruct flat eqn:Ef.
  - right. apply TI_write_head; [exact H1|left; reflexivity].
  - left. split; [reflexivity|].
    destruct (write_auto c k1 (mkO HTTP11 (OResponse st None) [] None) Es) as (_ & h' & out & L & _); [|exact Hk|].
    + destruct e as [p| | | | | | | ]; try discriminate. exists st, p. split; [reflexivity|exact Est].
    + unfold wild. rewrite L, existsb_app. cbn. apply orb_true_r.
Qed.
Lemma TW_poll_read_head pl flat c now blk k : TW pl flat k -> TW pl flat (fst (k_poll_read_head c now blk k)).
Proof.
  intros H. unfold k_poll_read_head.
  assert (TW pl flat (start_timer c now k)) as H0 by (eapply TW_still; [|exact H]; unfold start_timer; destruct (k_running k); [ssame|]; destruct (c_timeout c); ssame).
  remember (start_timer c now k) as k0 eqn:E0. clear E0.
  destruct (io_parse _ _ (k_rd k0)) as [rd [|[m|e]]].
  - cbn [k_running k_timer set_rd]. eapply TW_still; [|exact H0]. destruct (k_running k0); [|ssame]. destruct (k_timer k0) as [t|]; [|ssame]. destruct (t <=? now); ssame.
  - cbn [fst]. eapply TW_still; [|exact H0]. eapply still_trans; [|apply still_got_head]. ssame.
  - destruct (parse_failure e) as [e' n]. apply TW_read_head_error. eapply TW_still; [|exact H0]. ssame.
Qed.
Lemma TW_poll_read_body pl flat c blk k : TW pl flat k -> TW pl flat (fst (k_poll_read_body c blk k)).
Proof.
  apply TW_step with (s := true); [apply ext_poll_read_body|]. intros H.
  unfold k_poll_read_body. destruct (k_reading k) eqn:Er; try (right; exact H); (eapply TT_still; [apply still_read_body_state|]); [|right; exact H].
  match goal with |- context [set_reading ?x _] => apply TT_still with (k := x); [ssame|] end. destruct (k_writing k) eqn:Ew; try (right; exact H).
  destruct flat eqn:Ef; [right|left].
  - apply TI_put; [exact H|left; reflexivity|reflexivity|reflexivity].
  - split; [reflexivity|]. apply wild_last. reflexivity.
Qed.
Lemma TW_drain pl flat c blk k : TW pl flat k -> TW pl flat (drain_or_close_read c blk k).
Proof.
  intros H. unfold drain_or_close_read.
  assert (forall k1, TW pl flat k1 ->
    TW pl flat (match k_reading (fst (k_poll_read_body c blk k1)) with RInit | RKeepAlive => fst (k_poll_read_body c blk k1) | _ => close_read (fst (k_poll_read_body c blk k1)) end)) as Q.
  { intros k1 H1. assert (TW pl flat (fst (k_poll_read_body c blk k1))) as H2 by (apply TW_poll_read_body; exact H1).
    destruct (k_reading (fst (k_poll_read_body c blk k1))); try exact H2; (eapply TW_still; [|exact H2]; ssame). }
  destruct (k_reading k) eqn:Er; apply Q; try exact H.
Qed.

(* The dispatcher *)
Definition TInv (pl flat : bool) (d : disp) : Prop := TW pl flat (d_conn d).
Definition good_inp (c : cfg) (i : inp) : Prop := match i_frame i with Ready (Some (Ok (UData b))) => good_data c b | _ => True end.
Lemma TInv_still pl flat d d' : still (d_conn d) (d_conn d') -> TInv pl flat d -> TInv pl flat d'.
Proof. apply TW_still. Qed.
Lemma TInv_recv_error pl flat c d e : TInv pl flat d -> TInv pl flat (fst (recv_error c d e)).
Proof.
  intros H. unfold recv_error. destruct (c_server c); [exact H|]. destruct (d_callback d); [eapply TInv_still; [|exact H]; apply still_log; reflexivity|].
  destruct (d_rx_closed d); [exact H|]. destruct (ch_try_recv _) as [ch [id|]]; [|exact H]. eapply TInv_still; [|exact H]. apply still_log. reflexivity.
Qed.
Lemma TInv_drop pl flat d : TInv pl flat d -> TInv pl flat (d_drop d).
Proof.
  intros H. unfold d_drop. cbn [ch_drop_rx].
  assert (forall d', TInv pl flat d' -> TInv pl flat (let (ch, l) := ch_drop_rx (d_chan d') in dset_pc (dlog (dset_client d' (d_callback d') (d_rx_closed d') ch) l) PDead)) as Q.
  { intros d' H'. cbn. eapply TInv_still; [|exact H']. apply still_log. induction (ch_queue (d_chan d')); auto. }
  apply Q. clear Q.
  assert (TInv pl flat (if d_body_tx d then dlog (dset_body_tx d false) [LBodyFail] else d)) as H1.
  { destruct (d_body_tx d); [|exact H]. eapply TInv_still; [|exact H]. apply still_log. reflexivity. }
  remember (if d_body_tx d then _ else d) as d1 eqn:E1. clear E1. destruct (d_callback d1); [|exact H1]. eapply TInv_still; [|exact H1]. apply still_log. reflexivity.
Qed.
Lemma TInv_close pl flat d : TInv pl flat d -> TInv pl flat (d_close d).
Proof. intros H. eapply TInv_still; [|exact H]. ssame. Qed.

Theorem stream_stable flat c : stable c (good_inp c) (fun _ => True) (TInv (c_pipeline c) flat).
Proof.
  set (pl := c_pipeline c). constructor.
  - intros d tx rx p _ H. exact H.
  - intros d e He _ H. eapply TInv_still; [|exact H]. apply still_log. destruct e; try discriminate; reflexivity.
  - intros d _ H. split; [|split]; (eapply TInv_still; [|exact H]); [ssame|ssame|]. unfold take_error. destruct (k_error (d_conn d)); ssame.
  - intros i d unread w evs sent r _ _ H E. unfold TInv. cbn [dset_conn d_conn]. eapply TW_step' with (s := true); [|intros T; eapply TI_sent; [exact E|exact T]|exact H].
    exists (sent_ev sent). split; [reflexivity|]. destruct sent; reflexivity.
  - intros i d unread w evs sent d2 _ _ (T0 & _) E -> _ (T & D). unfold TInv, TW. cbn [dlog dset_conn d_conn] in *. split.
    + destruct T as [(F & W)|(W & F & Q & Hb)]; [left; split; [exact F|]; unfold wild; cbn; rewrite existsb_app; unfold wild in W; cbn in W; rewrite W; reflexivity|].
      right. split; [exact W|]. split; [exact F|]. split; [|exact Hb]. cbn. cbn in Q. rewrite taken_app, queued_app. cbn. now rewrite !app_nil_r.
    + intros a b E'. cbn in E'. destruct (app_cons_split _ _ _ _ _ E') as [(b' & E1 & ->)|(a' & -> & E2)]; [exact (D a b' E1)|].
      destruct a' as [|? [|]]; inversion E2; subst. rewrite app_nil_r. destruct T0 as [(F & W)|(W0 & _)].
      { right. left. split; [exact F|]. unfold wild in W. rewrite existsb_app, W. reflexivity. }
      destruct T as [(F & W)|(W & F & Q & Hb)]; [right; left; split; [exact F|exact W]|].
      destruct pl eqn:Ep; [left; reflexivity|right; right].
      pose proof (wb_flush_ok (c_pipeline c) unread (k_wb (d_conn d)) (i_wevs i) W0) as P. fold pl in E. fold pl in P. rewrite Ep in E, P. rewrite E in P.
      destruct P as (_ & _ & P & _). cbn in Q. rewrite (P eq_refl eq_refl), app_nil_r in Q. exact Q.
  - intros d _ H _. now apply TInv_close.
  - intros i d _ H Hc Hr Hp. unfold d_poll_read_head. rewrite Hp.
    pose proof (TW_poll_read_head pl flat c (i_now i) (i_blk i) (d_conn d) H) as Q.
    destruct (k_poll_read_head c (i_now i) (i_blk i) (d_conn d)) as [k r]. cbn [fst] in Q.
    assert (TInv pl flat (dset_conn d k)) as Q0 by exact Q.
    destruct r as [|[[m|e]|]]; cbn [fst].
    + exact Q.
    + match goal with |- context [recv_ok c ?dd m] => assert (TInv pl flat dd) as Q1; [|remember dd as d1 eqn:E1; clear E1] end.
      { change (d_body_tx (dset_conn d k)) with (d_body_tx d).
        assert (TInv pl flat (dlog (dset_conn d k) [LBodyEnd])) as Q' by (eapply TInv_still; [|exact Q0]; apply still_log; reflexivity).
        destruct (in_decode m =? DL_ZERO), (in_upgrade m), (d_body_tx d); try exact Q0; try exact Q'. }
      unfold recv_ok. destruct (c_server c); [exact Q1|]. destruct (d_callback d1) as [id|]; [|exact Q1]. eapply TInv_still; [|exact Q1]. apply still_log. reflexivity.
    + pose proof (TInv_recv_error pl flat c (dset_conn d k) e Q0) as Q2.
      destruct (recv_error c (dset_conn d k) e) as [d' b]. cbn [fst] in Q2.
      destruct b; [exact Q2|now apply TInv_close].
    + destruct (is_write_closed _); [now apply TInv_close|exact Q].
  - intros i d _ H _ _. unfold TInv. cbn [dset_conn d_conn]. now apply TW_drain.
  - intros i d _ H _ _. unfold TInv. cbn [dset_conn d_conn]. apply TW_poll_read_body. eapply TW_still; [apply still_log; reflexivity|exact H].
  - intros d _ H _. eapply TInv_still; [|exact H]. ssame.
  - intros d _ H _ _ _. eapply TInv_still; [|exact H]. apply still_keep_alive_read.
  - intros i d _ H. unfold TInv. cbn [dset_conn d_conn]. eapply TW_step'; [apply (ext_flush true)|intros T; now apply TI_flush|exact H].
  - intros i d _ _ H _ Hw _.
    assert (headroom flat (d_conn d)) as Hr.
    { right. unfold can_write_head in Hw. destruct (_ && _); [discriminate|]. destruct (k_writing (d_conn d)); try discriminate. exact Hw. }
    unfold d_poll_msg. destruct (c_server c) eqn:Es.
    + destruct (i_msg i) as [|[[h body]|e]]; try exact H. unfold TInv. cbn [dset_conn d_conn dset_in_flight]. eapply TW_step'; [apply ext_write_head|intros T; now apply TI_write_head|exact H].
    + destruct (ch_poll_recv (i_race i) (d_chan d)) as [ch [|[id|]]]; try exact H. destruct (i_canceled i).
      * eapply TInv_still; [|exact H]. apply still_log. reflexivity.
      * destruct (i_req i) as [h body]. unfold TInv. cbn [dset_conn d_conn dlog dset_client]. eapply TW_step'; [apply ext_write_head|intros T; apply TI_write_head; [exact T|exact Hr]|].
        eapply TW_still; [apply still_log; reflexivity|exact H].
  - intros i d _ H _. unfold TInv. cbn [dset_conn d_conn]. eapply TW_step'; [apply (ext_effect true), end_body_effect|intros T; now apply TI_end_body|exact H].
  - intros i d b Hg Ef Hne _ H _ _. unfold good_inp in Hg. rewrite Ef in Hg. unfold TInv. cbn [dset_conn d_conn]. eapply TW_step'; [apply (ext_effect true), write_body_effect|intros T; now apply TI_write_body|exact H].
  - intros i d b Hg Ef Hne _ H _ _. unfold good_inp in Hg. rewrite Ef in Hg. unfold TInv. cbn [dset_conn d_conn]. eapply TW_step'; [apply (ext_effect true), write_body_and_end_effect|intros T; now apply TI_write_body_and_end|exact H].
  - intros i d t _ _ _ H _ _. unfold TInv. cbn [dset_conn d_conn]. eapply TW_step'; [apply (ext_effect true), write_trailers_effect|intros T; now apply TI_write_trailers|exact H].
  - intros d e _ H. now apply TInv_recv_error.
  - intros d _ H. now apply TInv_drop.
  - intros e d _ H. destruct e; cbn.
    + destruct (c_server c); exact H.
    + destruct (d_pc d); try exact H. destruct (c_server c); [|exact H]. unfold d_graceful.
      assert (TInv pl flat (dset_conn d (k_disable_keep_alive (d_conn d)))) as H1.
      { eapply TInv_still; [|exact H]. unfold k_disable_keep_alive, st_disable_keep_alive. cbn. destruct (is_idle _); ssame. }
      destruct (_ || _); [now apply TInv_close|exact H1].
    + destruct (d_pc d); try exact H. now apply TInv_drop.
    + destruct (d_pc d), (k_log (d_conn d)); try exact H. destruct (c_server c); [|exact H]. eapply TInv_still; [|exact H]. cbn. ssame.
Qed.
