(* Lemmas: every function of the connection only appends to the log, and only
   events of its own; requests and their outcomes are logged by the dispatcher. *)
From Verif Require Import Base M_Src M_Decode M_HeaderMap M_Headers M_Encode M_Role M_RoleEncode M_Buf M_WriteBuf M_Read M_Conn M_Dispatch S_Conn L_Conn L_Moves L_ConnS.

(* Events of the connection's functions; [srv]: message heads too (a client's
   heads are written only at the dispatcher's request) *)
Definition own (srv : bool) (e : levent) : bool :=
  match e with
  | LWant | LBodyEnd | LBodyFail | LStart _ | LOutcome _ _ | LShutdown | LReturn _ => false
  | LHead _ _ _ | LHeadFail _ => srv
  | _ => true
  end.
Definition ext (srv : bool) (k k' : conn) : Prop := exists l, k_log k' = k_log k ++ l /\ forallb (own srv) l = true.

Lemma ext_refl s k : ext s k k.
Proof. exists []. rewrite app_nil_r. auto. Qed.
Lemma ext_same s k k' : k_log k' = k_log k -> ext s k k'.
Proof. intros H. exists []. rewrite app_nil_r. auto. Qed.
Lemma ext_trans s k k' k'' : ext s k k' -> ext s k' k'' -> ext s k k''.
Proof.
  intros (a & A1 & A2) (b & B1 & B2). exists (a ++ b). rewrite B1, A1, app_assoc, forallb_app, A2, B2. auto.
Qed.
Lemma ext_log s k l : forallb (own s) l = true -> ext s k (log k l).
Proof. intros H. exists l. auto. Qed.
Ltac esame := apply ext_same; reflexivity.
Lemma ext_st_try s c k : ext s k (st_try_keep_alive c k).
Proof.
  unfold st_try_keep_alive, idle. destruct (k_reading k); try esame; destruct (k_writing k); try esame.
  destruct (k_ka k); try esame. destruct (c_server c), (c_timeout c); esame.
Qed.
Lemma ext_read_io s k : ext s k (fst (read_io k)).
Proof. unfold read_io. destruct (r_read_io (k_rd k)). esame. Qed.
Lemma ext_maybe_notify s blk k : ext s k (maybe_notify blk k).
Proof.
  unfold maybe_notify. pose proof (ext_read_io s k) as H'.
  destruct (k_reading k); try esame. destruct (k_writing k); try esame;
  (destruct blk; [esame|]; destruct (r_buf (k_rd k)); [|esame];
   destruct (read_io k) as [k' [|[n|e]]]; cbn [fst] in H'; [exact H'| |eapply ext_trans; [exact H'|esame]];
   destruct (n =? 0); [destruct (is_idle k')|]; (eapply ext_trans; [exact H'|esame])).
Qed.
Lemma ext_try s c blk k : ext s k (try_keep_alive c blk k).
Proof. eapply ext_trans; [apply ext_st_try|apply ext_maybe_notify]. Qed.
Lemma ext_got_head s c blk k m : ext s k (got_head c blk k m).
Proof.
  unfold got_head.
  set (k1 := log _ [LIn m]).
  assert (ext s k k1) as H1.
  { subst k1. exists [LIn m]. unfold busy. destruct (c_server c), (in_keep m), (k_ka k) eqn:Ek; cbn; rewrite ?Ek; auto. }
  clearbody k1. eapply ext_trans; [exact H1|].
  match goal with |- ext s _ (set_trailers ?x _) => assert (ext s k1 x) as H2; [|eapply ext_trans; [exact H2|esame]] end.
  assert (ext s k1 (log (set_reading k1 RKeepAlive) [LInEnd])) as H3 by (exists [LInEnd]; auto).
  destruct (in_decode m =? DL_ZERO).
  - destruct (c_server c); [exact H3|]. eapply ext_trans; [exact H3|apply ext_try].
  - destruct (_ && _); esame.
Qed.
Lemma ext_write_head c auto k h body : ext true k (write_head c auto k h body).
Proof.
  unfold write_head, encode_head.
  set (k0 := if c_server c then k else _).
  assert (k_log k0 = k_log k) as H0.
  { subst k0. unfold busy. destruct (c_server c); [reflexivity|]. match goal with |- context [if ?b then _ else _] => destruct b end; destruct (k_ka k) eqn:Ek; reflexivity. }
  clearbody k0. pose proof (enforce_frame k0 h) as Q. destruct (enforce_version k0 h) as [k1 h1]. destruct Q as (Q & _).
  destruct (t_encode c k1 h1 body) as [[out m] [e|e]].
  - exists (LHead auto h1 out :: (if enc_is_eof e then [LEnd] else [])). cbn. rewrite Q, H0, <- app_assoc. split; [reflexivity|]. destruct (enc_is_eof e); reflexivity.
  - exists [LHeadFail out]. cbn. rewrite Q, H0. auto.
Qed.
Lemma ext_read_head_error c k e : ext (c_server c) k (fst (on_read_head_error c k e)).
Proof.
  unfold on_read_head_error. destruct (_ || _); [|esame].
  unfold on_parse_error. destruct (k_writing _); try esame. destruct (has_h2_prefix _); [esame|]. unfold t_on_error. destruct (c_server c); [|esame]. destruct (match e with CParse p => server_on_error p | _ => None end); [|esame].
  cbn [fst]. eapply ext_trans; [|esame]. eapply ext_trans; [|apply ext_write_head]. esame.
Qed.
Lemma ext_poll_read_head c now blk k : ext (c_server c) k (fst (k_poll_read_head c now blk k)).
Proof.
  unfold k_poll_read_head.
  assert (ext (c_server c) k (start_timer c now k)) as H0 by (unfold start_timer; destruct (k_running k); [esame|]; destruct (c_timeout c); esame).
  remember (start_timer c now k) as k0 eqn:E0. clear E0. eapply ext_trans; [exact H0|].
  destruct (io_parse _ _ (k_rd k0)) as [rd [|[m|e]]].
  - cbn [k_running k_timer set_rd]. destruct (k_running k0); [|esame]. destruct (k_timer k0) as [t|]; [|esame]. destruct (t <=? now); esame.
  - cbn [fst]. eapply ext_trans; [|apply ext_got_head]. esame.
  - destruct (parse_failure e) as [e' n]. eapply ext_trans; [|apply ext_read_head_error]. esame.
Qed.
Lemma ext_read_body_state s c blk k d : ext s k (fst (read_body_state c blk k d)).
Proof.
  unfold read_body_state, k_decode.
  destruct (decode (c_dt c) d _) as [[d' sc] r].
  set (k1 := set_rd k _). assert (ext s k k1) as H1 by esame. clearbody k1.
  eapply ext_trans; [exact H1|]. clear H1.
  destruct r as [|[[x|t]|e]].
  - esame.
  - destruct (is_eof d').
    + destruct x as [|b x]; cbn [fst app]; (eapply ext_trans; [|apply ext_try]); eapply ext_trans; [|apply ext_log; reflexivity| |apply ext_log; reflexivity]; esame.
    + destruct x as [|b x]; cbn [fst]; [eapply ext_trans; [|apply ext_try]; esame|]. eapply ext_trans; [|apply ext_log; reflexivity]. esame.
  - cbn [fst]. (eapply ext_trans; [|apply ext_try]). eapply ext_trans; [|apply ext_log; reflexivity]. esame.
  - cbn [fst]. (eapply ext_trans; [|apply ext_try]). eapply ext_trans; [|apply ext_log; reflexivity]. esame.
Qed.
Lemma ext_poll_read_body s c blk k : ext s k (fst (k_poll_read_body c blk k)).
Proof.
  unfold k_poll_read_body. destruct (k_reading k); try esame; [|apply ext_read_body_state].
  eapply ext_trans; [|apply ext_read_body_state].
  destruct (k_writing k); try esame. exists [LContinue]. auto.
Qed.
Lemma ext_drain s c blk k : ext s k (drain_or_close_read c blk k).
Proof.
  unfold drain_or_close_read. set (k1 := match k_reading k with RContinue d => _ | _ => k end).
  assert (ext s k k1) as H1 by (subst k1; destruct (k_reading k); esame).
  eapply ext_trans; [exact H1|]. eapply ext_trans; [apply ext_poll_read_body|].
  destruct (k_reading (fst (k_poll_read_body c blk k1))); esame.
Qed.
Lemma ext_keep_alive_read s c k : ext s k (fst (k_poll_read_keep_alive c k)).
Proof.
  unfold k_poll_read_keep_alive, mid_message_detect_eof, require_empty_read, force_io_read.
  pose proof (ext_read_io s k) as H1.
  destruct (is_read_closed k); [esame|]. destruct (is_mid_message k).
  - destruct (_ || _); [esame|]. destruct (read_io k) as [k' [|[n|e]]]; cbn [fst] in *; [exact H1| |eapply ext_trans; [exact H1|esame]].
    destruct (n =? 0); [eapply ext_trans; [exact H1|esame]|exact H1].
  - destruct (r_buf (k_rd k)); [|esame]. destruct (read_io k) as [k' [|[n|e]]]; cbn [fst] in *; [exact H1| |eapply ext_trans; [exact H1|esame]].
    destruct (n =? 0); [eapply ext_trans; [exact H1|esame]|exact H1].
Qed.
Lemma ext_flush s c blk wevs k : ext s k (fst (k_poll_flush c blk wevs k)).
Proof.
  unfold k_poll_flush. destruct (wb_flush _ _ _ _) as [[[w ev] sent] r].
  assert (ext s k (log (set_wb k w) (match sent with [] => [] | _ => [LSent sent] end))) as H1.
  { destruct sent as [|x sent]; [exists []|exists [LSent (x :: sent)]]; cbn; rewrite ?app_nil_r; auto. }
  destruct r as [|[u|e]]; cbn [fst]; [exact H1|eapply ext_trans; [exact H1|apply ext_try]|exact H1].
Qed.
Lemma ext_effect s k k' : body_effect k k' -> ext s k k'.
Proof.
  intros [->|(e & l & w' & Ew & Er & El & Ew' & Ek & F)]; [apply ext_refl|]. exists l. split; [exact El|].
  destruct F as [(bs & -> & _)|[[Hl _]|[Hl _]]]; [reflexivity|..]; destruct Hl as [->|(bs & ->)]; reflexivity.
Qed.
