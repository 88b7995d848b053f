(* For C63: what the connection remembers of the exchange - the method, the
   version, TE: trailers, whether anything came in - is what its log says. *)
From Verif Require Import Base M_Src M_Decode M_HeaderMap M_Headers M_Encode M_Role M_RoleEncode M_Buf M_WriteBuf M_Read M_Conn M_Dispatch S_Conn L_Conn L_Moves L_ConnS L_Ka L_BodyTx P_Requests L_Done.

Definition still (e : levent) : bool := match e with LIn _ | LHead _ _ _ | LHeadFail _ => false | _ => true end.
(* nothing of an outgoing message has begun *)
Definition wi (k : conn) : Prop := k_writing k = WInit \/ k_writing k = WClosed.
Record fr (k k' : conn) : Prop := mkFr {
  fr_log : exists l, k_log k' = k_log k ++ l /\ forallb still l = true;
  fr_v : k_version k' = k_version k; fr_h : k_h09 k' = k_h09 k; fr_t : k_trailers k' = k_trailers k;
  fr_m : (k_method k' = k_method k /\ (k_reading k' = RInit -> k_reading k = RInit /\ (k_writing k = WInit -> k_writing k' = WInit)) /\ (k_writing k' = WInit -> k_writing k = WInit) /\ (wi k -> wi k'))
       \/ (~ wi k /\ k_method k' = None /\ (k_reading k' = RInit -> k_writing k' = WInit) /\ wi k')
}.
Lemma fr_same k k' l : k_log k' = k_log k ++ l -> forallb still l = true -> k_version k' = k_version k -> k_h09 k' = k_h09 k -> k_trailers k' = k_trailers k -> k_method k' = k_method k ->
  (k_reading k' = RInit -> k_reading k = RInit) -> k_writing k' = k_writing k -> fr k k'.
Proof. intros A B' C D E F G H. constructor; eauto. left. unfold wi. rewrite H. repeat split; auto. Qed.
Lemma fr_refl k : fr k k.
Proof. apply (fr_same k k []); auto. now rewrite app_nil_r. Qed.
Lemma fr_trans k k' k'' : fr k k' -> fr k' k'' -> fr k k''.
Proof.
  intros [(a & A1 & A2) A3 A4 A5 A6] [(b & B1 & B2) B3 B4 B5 B6]. constructor; try congruence.
  - exists (a ++ b). rewrite B1, A1, app_assoc, forallb_app, A2, B2. auto.
  - destruct A6 as [(C1 & C2 & C3 & C4)|(C1 & C2 & C3 & C4)], B6 as [(D1 & D2 & D3 & D4)|(D1 & D2 & D3 & D4)].
    + left. split; [congruence|]. split; [|split; auto]. intros H. destruct (D2 H) as (E1 & E2). destruct (C2 E1) as (E3 & E4). auto.
    + right. auto.
    + right. split; [exact C1|]. split; [congruence|]. split; [|auto]. intros H. destruct (D2 H) as (E1 & E2). auto.
    + contradiction.
Qed.
Ltac fsame := match goal with |- fr ?k _ => apply (fr_same k _ []); try reflexivity; try (exact (fun H => H)); cbn [k_log log set_rd set_wb set_reading set_error set_notify set_timer set_upgrade set_ka]; try (now rewrite app_nil_r) end.
Lemma fr_logged k l : forallb still l = true -> fr k (log k l).
Proof. intros H. apply (fr_same k _ l); auto. Qed.
Lemma fr_reading k r : r <> RInit -> fr k (set_reading k r).
Proof. intros H. fsame. cbn. intros F. contradiction. Qed.
Lemma fr_close_read k : fr k (close_read k).
Proof. fsame. discriminate. Qed.
Lemma fr_closed k k' : k_log k' = k_log k -> k_version k' = k_version k -> k_h09 k' = k_h09 k -> k_trailers k' = k_trailers k -> k_method k' = k_method k -> k_reading k' = RClosed -> k_writing k' = WClosed -> fr k k'.
Proof. intros A B' C D E F G. constructor; auto; [exists []; now rewrite app_nil_r|]. left. unfold wi. rewrite F, G. repeat split; auto; try discriminate. Qed.
Lemma fr_close_write k : k_reading k <> RInit -> fr k (close_write k).
Proof. intros H. constructor; auto; [exists []; now rewrite app_nil_r|]. left. split; [reflexivity|]. split; [intros F; contradiction|]. split; [discriminate|]. intros _. now right. Qed.
Lemma fr_st_try c k : fr k (st_try_keep_alive c k).
Proof.
  unfold st_try_keep_alive. destruct (k_reading k) eqn:Er; try apply fr_refl; destruct (k_writing k) eqn:Ew; try apply fr_refl; try (now apply fr_closed).
  destruct (k_ka k); try (now apply fr_closed).
  assert (forall k', k_log k' = k_log k -> k_version k' = k_version k -> k_h09 k' = k_h09 k -> k_trailers k' = k_trailers k -> k_method k' = None -> k_writing k' = WInit -> fr k k') as T.
  { intros k' A1 A2 A3 A4 A5 A6. constructor; auto; [exists []; now rewrite app_nil_r|]. right. split; [intros [F|F]; congruence|]. split; [exact A5|]. split; [auto|now left]. }
  unfold idle. destruct (c_server c), (c_timeout c); apply T; reflexivity.
Qed.
Lemma fr_io k : fr k (fst (read_io k)).
Proof. unfold read_io. destruct (r_read_io (k_rd k)). fsame. Qed.
Lemma fr_notify blk k : fr k (maybe_notify blk k).
Proof.
  unfold maybe_notify. destruct (k_reading k) eqn:Er; try apply fr_refl.
  destruct (k_writing k) eqn:Ew; try apply fr_refl; (destruct blk; [apply fr_refl|]); (destruct (r_buf (k_rd k)); [|fsame]);
  pose proof (fr_io k) as H; (destruct (read_io k) as [k' [|[n|e]]]; cbn [fst] in H; [exact H| |]).
  all: try (destruct (n =? 0); [|eapply fr_trans; [exact H|fsame]]; destruct (is_idle k'); eapply fr_trans; [exact H|now apply fr_closed|exact H|fsame; discriminate]).
  all: eapply fr_trans; [exact H|]; now apply fr_closed.
Qed.
Lemma fr_try c blk k : fr k (try_keep_alive c blk k).
Proof. eapply fr_trans; [apply fr_st_try|apply fr_notify]. Qed.
Lemma fr_flush c blk wevs k : fr k (fst (k_poll_flush c blk wevs k)).
Proof.
  unfold k_poll_flush. destruct (wb_flush _ _ _ _) as [[[w ev] sent] r].
  assert (fr k (log (set_wb k w) (match sent with [] => [] | _ => [LSent sent] end))) as H1 by (eapply fr_trans; [|apply fr_logged; destruct sent; reflexivity]; fsame).
  destruct r as [|[u|e]]; cbn [fst]; [exact H1|eapply fr_trans; [exact H1|apply fr_try]|exact H1].
Qed.
Lemma fr_read_body c blk k : fr k (fst (k_poll_read_body c blk k)).
Proof.
  assert (forall k d, fr k (fst (read_body_state c blk k d))) as R.
  { clear. intros k d. unfold read_body_state, k_decode. destruct (decode _ _ _) as [[d' s'] r].
    set (k1 := set_rd k _). assert (fr k k1) as H1 by (subst k1; fsame). clearbody k1.
    assert (forall l rd, rd <> RInit -> forallb still l = true -> fr k (log (set_reading k1 rd) l)) as T by (intros l rd Hr Hl; eapply fr_trans; [exact H1|]; eapply fr_trans; [apply (fr_reading _ rd Hr)|apply fr_logged, Hl]).
    assert (forall rd, rd <> RInit -> fr k (set_reading k1 rd)) as T0 by (intros rd Hr; eapply fr_trans; [exact H1|]; apply (fr_reading _ rd Hr)).
    destruct r as [|[[x|t]|e]]; cbn [fst]; try (apply T0; discriminate).
    - destruct (is_eof d'); destruct x; cbn [fst]; try (eapply fr_trans; [|apply fr_try]); try (apply T; [discriminate|reflexivity]); apply T0; discriminate.
    - eapply fr_trans; [|apply fr_try]. apply T; [discriminate|reflexivity].
    - eapply fr_trans; [|apply fr_try]. apply T; [discriminate|reflexivity]. }
  unfold k_poll_read_body. destruct (k_reading k) eqn:Er; try apply fr_refl; [|apply R].
  set (k1 := match k_writing k with WInit => _ | _ => k end). assert (fr k k1) as H1.
  { subst k1. destruct (k_writing k); try apply fr_refl. eapply fr_trans; [|apply fr_logged; reflexivity]. fsame. }
  clearbody k1. eapply fr_trans; [exact H1|]. eapply fr_trans; [|apply R]. apply fr_reading. discriminate.
Qed.
Lemma fr_drain c blk k : fr k (drain_or_close_read c blk k).
Proof.
  unfold drain_or_close_read. set (k1 := match k_reading k with RContinue d => _ | _ => k end).
  assert (fr k k1) as H1 by (subst k1; destruct (k_reading k) eqn:Er; try apply fr_refl; apply fr_reading; discriminate). clearbody k1.
  assert (fr k (fst (k_poll_read_body c blk k1))) as H2 by (eapply fr_trans; [exact H1|apply fr_read_body]).
  destruct (k_reading (fst (k_poll_read_body c blk k1))) eqn:Er; auto; (eapply fr_trans; [exact H2|apply fr_close_read]).
Qed.
Lemma fr_keep_alive c k : fr k (fst (k_poll_read_keep_alive c k)).
Proof.
  unfold k_poll_read_keep_alive, mid_message_detect_eof, require_empty_read, force_io_read. pose proof (fr_io k) as H1.
  assert (forall k', fr k k' -> fr k (close_read k')) as C by (intros k' H; eapply fr_trans; [exact H|apply fr_close_read]).
  assert (forall k', fr k k' -> fr k (st_close k')) as C2 by (intros k' H; eapply fr_trans; [exact H|now apply fr_closed]).
  destruct (is_read_closed k); [apply fr_refl|]. destruct (is_mid_message k).
  - destruct (_ || _); [apply fr_refl|]. destruct (read_io k) as [k' [|[n|e]]]; cbn [fst snd] in *; auto. destruct (n =? 0); cbn; auto.
  - destruct (r_buf (k_rd k)); [|apply fr_refl]. destruct (read_io k) as [k' [|[n|e]]]; cbn [fst snd] in *; auto. destruct (n =? 0); cbn; auto.
Qed.
(* Writing: only the writing half and the buffer change *)
Definition same_mem (k k' : conn) : Prop := k_version k' = k_version k /\ k_h09 k' = k_h09 k /\ k_trailers k' = k_trailers k /\ k_method k' = k_method k.
Lemma fr_effect k k' : body_effect k k' -> same_mem k k' -> fr k k'.
Proof.
  intros [->|(e & l & w' & Ew & Er & El & Ew' & Ek & F)] (M1 & M2 & M3 & M4); [apply fr_refl|].
  constructor; auto.
  - exists l. split; [exact El|]. destruct F as [(bs & -> & _)|[[[->|(bs & ->)] _]|[[->|(bs & ->)] _]]]; reflexivity.
  - left. split; [exact M4|]. unfold wi. rewrite Er, Ew, Ew'. split; [intros H; split; [exact H|discriminate]|]. split; [|intros [H|H]; discriminate H].
    intros H. destruct F as [(bs & _ & e' & F)|[[_ F]|[_ F]]]; [congruence|destruct F; congruence|congruence].
Qed.
Lemma mem_buffer room k b : same_mem k (k_buffer room k b).
Proof. unfold k_buffer. destruct (wb_buffer _ _ _); repeat split. Qed.
Lemma mem_body c room k b : same_mem k (k_write_body c room k b).
Proof. unfold k_write_body. destruct (k_writing k); try (repeat split; fail). destruct (encode_buf _ _ _). destruct (negb _); apply (mem_buffer room k b0). Qed.
Lemma mem_body_and_end c room k b : same_mem k (k_write_body_and_end c room k b).
Proof. unfold k_write_body_and_end. destruct (k_writing k); try (repeat split; fail). apply (mem_buffer room k (encode_and_end_buf (c_take_vec c) e b)). Qed.
Lemma mem_trailers c room k t : same_mem k (k_write_trailers c room k t).
Proof. unfold k_write_trailers. destruct (_ && _); [repeat split|]. destruct (k_writing k); try (repeat split; fail). destruct (encode_trailers _ _ _) as [b|]; [match goal with |- context [k_buffer room k ?x] => exact (mem_buffer room k x) end|repeat split]. Qed.
Lemma mem_end room k : same_mem k (fst (k_end_body room k)).
Proof. unfold k_end_body. destruct (k_writing k); try (repeat split; fail). destruct (enc_end e) as [[|o out]|err]; cbn [fst]; try (repeat split; fail). match goal with |- context [k_buffer room k ?b] => exact (mem_buffer room k b) end. Qed.

(* ---- What the log says ---- *)
(* the method of the last request that came in; of the last request that went out *)
Definition mstep (o : option bytes) (e : levent) : option bytes := match e with LIn m => in_method m | _ => o end.
Definition min (l : list levent) : option bytes := fold_left mstep l None.
Definition ostep (o : option bytes) (e : levent) : option bytes :=
  match e with LHead _ h _ => match o_subject h with ORequest m _ => Some m | OResponse _ _ => None end | _ => o end.
Definition mout (l : list levent) : option bytes := fold_left ostep l None.
(* whether the last message that came in said TE: trailers *)
Definition tstep (o : bool) (e : levent) : bool := match e with LIn m => te_is_trailers (in_headers m) | _ => o end.
Definition tein (l : list levent) : bool := fold_left tstep l false.
Definition nofail (e : levent) : bool := match e with LHeadFail _ => false | _ => true end.
Lemma min_app a b : min (a ++ b) = fold_left mstep b (min a).
Proof. unfold min. apply fold_left_app. Qed.
Lemma mout_app a b : mout (a ++ b) = fold_left ostep b (mout a).
Proof. unfold mout. apply fold_left_app. Qed.
Lemma tein_app a b : tein (a ++ b) = fold_left tstep b (tein a).
Proof. unfold tein. apply fold_left_app. Qed.
Lemma still_facts l : forallb still l = true -> (forall o, fold_left mstep l o = o) /\ (forall o, fold_left ostep l o = o) /\ (forall o, fold_left tstep l o = o) /\ (forall v, vlast v l = v) /\ forallb noin l = true /\ forallb nofail l = true.
Proof.
  induction l as [|e l IH]; [repeat split|]. cbn [forallb]. intros H. apply andb_prop in H. destruct H as (H1 & H2). destruct (IH H2) as (A & B' & C & D & E & F).
  unfold vlast in *. destruct e; try discriminate H1; cbn [fold_left]; rewrite E, F; repeat split; auto.
Qed.
(* ---- What each event says of the log before it ---- *)
Definition parsed_by (c : cfg) (method : option bytes) (h09 : bool) (m : inmsg) : Prop := exists buf n, c_parse c method h09 buf = PDone n m.
Definition encoded (c : cfg) (method : option bytes) (body : option body_length) (h : ohead) (bs : bytes) (e : encoder) : Prop :=
  forall st rs, o_subject h = OResponse st rs -> exists ka,
    server_encode (c_reason c) (c_date c) (mkSmsg (o_version h) st method body (o_headers h) ka (c_date_header c) (c_title c) (o_case h) rs) = (bs, Ok e).
(* the head of an automatic response after enforce_version *)
Definition auto_dressed (v : version) (st : N) : ohead :=
  mkO (match v with HTTP10 => HTTP10 | _ => HTTP11 end) (OResponse st None) (match v with HTTP11 => [(B "connection", [B "close"])] | _ => [] end) None.
Definition evp (c : cfg) (h09 : bool) (a : list levent) (e : levent) (b : list levent) : Prop :=
  match e with
  | LIn m => c_server c = true \/ forallb nofail a = true -> parsed_by c (if c_server c then None else mout a) (h09 && forallb noin a) m
  | LHead auto h bs => (vlast HTTP11 a = HTTP10 -> o_version h = HTTP10) /\ (c_server c = true ->
      exists body enc, encoded c (if auto then None else min a) body h bs enc /\ (enc_is_eof enc = true -> exists b', b = LEnd :: b') /\
      (auto = true -> body = None /\ exists st, h = auto_dressed (vlast HTTP11 a) st))
  | _ => True
  end.
Record VI (c : cfg) (h09 : bool) (fl : bool) (k : conn) : Prop := mkVI {
  vi_v : k_version k = vlast HTTP11 (k_log k);
  vi_h : k_h09 k = h09 && forallb noin (k_log k);
  vi_t : k_trailers k = tein (k_log k);
  vi_init : c_server c = true -> k_reading k = RInit -> k_method k = None /\ wi k;
  vi_fl : c_server c = true -> fl = true -> wi k /\ k_reading k <> RInit /\ k_method k = min (k_log k);
  vi_cl : c_server c = false -> forallb nofail (k_log k) = true -> k_reading k = RInit -> k_writing k <> WInit -> k_method k = mout (k_log k);
  vi_clw : c_server c = false -> k_writing k = WInit -> k_method k = None;
  vi_ev : forall a e b, k_log k = a ++ e :: b -> evp c h09 a e b
}.
Lemma evp_more c h09 a e b b' : evp c h09 a e b -> evp c h09 a e (b ++ b').
Proof.
  destruct e; cbn; auto. intros (Hv & H). split; [exact Hv|]. intros Hs. destruct (H Hs) as (body & enc & H1 & H2 & H3). exists body, enc. split; [exact H1|]. split; [|exact H3]. intros He. destruct (H2 He) as (x & ->). exists (x ++ b'). reflexivity.
Qed.
Lemma still_evp c h09 a e b : still e = true -> evp c h09 a e b.
Proof. destruct e; try discriminate; intros _; exact Logic.I. Qed.
Lemma ev_append c h09 l l' : (forall a e b, l = a ++ e :: b -> evp c h09 a e b) -> (forall a e b, l' = a ++ e :: b -> evp c h09 (l ++ a) e b) -> forall a e b, l ++ l' = a ++ e :: b -> evp c h09 a e b.
Proof.
  intros H H' a e b E. destruct (app_cons_split _ _ _ _ _ E) as [(b' & E1 & ->)|(a' & -> & E2)]; [apply evp_more, H, E1|apply H', E2].
Qed.
Lemma ev_still c h09 l l' : (forall a e b, l = a ++ e :: b -> evp c h09 a e b) -> forallb still l' = true -> forall a e b, l ++ l' = a ++ e :: b -> evp c h09 a e b.
Proof.
  intros H Hl. apply ev_append; [exact H|]. intros a e b E. apply still_evp. rewrite E, forallb_app in Hl. apply andb_prop in Hl. destruct Hl as (_ & Hl). apply andb_prop in Hl. apply Hl.
Qed.
Lemma VI_fr c h09 fl k k' : fr k k' -> VI c h09 fl k -> VI c h09 fl k'.
Proof.
  intros [(l & L1 & L2) F1 F2 F3 F4] [V1 V2 V3 V4 V5 V6 V7 V8]. destruct (still_facts l L2) as (S1 & S2 & S3 & S4 & S5 & S6).
  constructor; rewrite ?L1, ?min_app, ?mout_app, ?tein_app, ?vlast_app, ?S1, ?S2, ?S3, ?S4, ?forallb_app, ?S5, ?S6, ?andb_true_r; try congruence.
  - intros Hs Hr. destruct F4 as [(A & B' & _ & C)|(_ & A & _ & C)]; [|auto]. rewrite A. destruct (V4 Hs (proj1 (B' Hr))). auto.
  - intros Hs Hf. destruct (V5 Hs Hf) as (A & B' & C). destruct F4 as [(D & E & _ & G)|(F & _)]; [|contradiction]. split; [auto|]. split; [intros H; apply B', E, H|congruence].
  - intros Hs Hn Hr Hw. destruct F4 as [(A & B' & _)|(_ & _ & B' & _)]; [|destruct Hw; auto]. destruct (B' Hr) as (C & D). rewrite A. apply V6; auto.
  - intros Hs Hw. destruct F4 as [(A & _ & B' & _)|(_ & A & _)]; [|exact A]. rewrite A. auto.
  - apply ev_still; assumption.
Qed.
Lemma VI_fl c h09 fl k : VI c h09 fl k -> VI c h09 false k.
Proof. intros [V1 V2 V3 V4 V5 V6 V7 V8]. constructor; auto. discriminate. Qed.
Lemma parse_done {M E} (P : bytes -> presult M E) max evs : forall b partial rd m, parse_loop P max b partial evs = (rd, Ready (Ok m)) -> exists buf n, P buf = PDone n m.
Proof.
  assert (forall b partial n m, parse_headers P b partial = PDone n m -> P b = PDone n m) as H.
  { intros b partial n m. unfold parse_headers. destruct b; [discriminate|]. destruct partial; [|auto]. destruct (is_complete_fast _ _); [auto|discriminate]. }
  induction evs as [|e evs IH]; intros b partial rd m; cbn [parse_loop]; destruct (parse_headers P b partial) as [n|n m'|e'] eqn:Ep; try discriminate.
  2,4: intros F; injection F as _ <-; eauto.
  all: destruct (max <=? _); try discriminate. destruct e; try discriminate. destruct (lenN _ =? 0); [discriminate|apply IH].
Qed.
Lemma view_got_head c blk k m : let k' := got_head c blk k m in
  (exists l, k_log k' = k_log k ++ LIn m :: l /\ forallb still l = true) /\ k_version k' = in_version m /\ k_h09 k' = false /\ k_trailers k' = te_is_trailers (in_headers m) /\
  (c_server c = true -> k_method k' = in_method m /\ k_reading k' <> RInit /\ k_writing k' = k_writing k) /\
  (c_server c = false -> k_writing k <> WInit -> (k_reading k' = RInit -> k_writing k' = WInit) /\ (k_writing k' = WInit -> k_method k' = None)).
Proof.
  cbn zeta. unfold got_head. set (k1 := log _ [LIn m]).
  assert (k_log k1 = k_log k ++ [LIn m] /\ k_version k1 = in_version m /\ k_h09 k1 = false /\ k_method k1 = (if c_server c then in_method m else k_method k) /\ k_writing k1 = k_writing k) as (L1 & V1 & H1 & M1 & W1).
  { subst k1. unfold busy, st_disable_keep_alive. destruct (c_server c), (in_keep m), (k_ka k) eqn:Ek; cbn; rewrite ?Ek; repeat split; reflexivity. }
  clearbody k1.
  assert (forall r l, r <> RInit -> forallb still l = true -> let k2 := log (set_reading k1 r) l in
    (exists l, k_log k2 = k_log k ++ LIn m :: l /\ forallb still l = true) /\ k_version k2 = in_version m /\ k_h09 k2 = false /\
    (c_server c = true -> k_method k2 = in_method m /\ k_reading k2 <> RInit /\ k_writing k2 = k_writing k) /\
    (c_server c = false -> k_writing k <> WInit -> (k_reading k2 = RInit -> k_writing k2 = WInit) /\ (k_writing k2 = WInit -> k_method k2 = None))) as T.
  { intros r l Hr Hl. cbn zeta. split; [exists l; cbn; now rewrite L1, <- app_assoc|]. split; [exact V1|]. split; [exact H1|]. split.
    - intros Hs. rewrite Hs in M1. repeat split; auto.
    - intros Hs Hw. cbn. rewrite W1. split; intros; contradiction. }
  match goal with |- context [set_trailers ?x _] => set (k2 := x) end.
  assert ((exists l, k_log k2 = k_log k ++ LIn m :: l /\ forallb still l = true) /\ k_version k2 = in_version m /\ k_h09 k2 = false /\
    (c_server c = true -> k_method k2 = in_method m /\ k_reading k2 <> RInit /\ k_writing k2 = k_writing k) /\
    (c_server c = false -> k_writing k <> WInit -> (k_reading k2 = RInit -> k_writing k2 = WInit) /\ (k_writing k2 = WInit -> k_method k2 = None))) as Q.
  { assert (forall r, r <> RInit -> (exists l, k_log (set_reading k1 r) = k_log k ++ LIn m :: l /\ forallb still l = true) /\ k_version (set_reading k1 r) = in_version m /\ k_h09 (set_reading k1 r) = false /\
      (c_server c = true -> k_method (set_reading k1 r) = in_method m /\ k_reading (set_reading k1 r) <> RInit /\ k_writing (set_reading k1 r) = k_writing k) /\
      (c_server c = false -> k_writing k <> WInit -> (k_reading (set_reading k1 r) = RInit -> k_writing (set_reading k1 r) = WInit) /\ (k_writing (set_reading k1 r) = WInit -> k_method (set_reading k1 r) = None))) as T0.
    { intros r Hr. destruct (T r [] Hr eq_refl) as (A & B' & C & D & E). split; [|auto]. exists []. cbn. auto. }
    subst k2. destruct (in_decode m =? DL_ZERO).
    - destruct (c_server c) eqn:Hs; [apply T; [discriminate|reflexivity]|].
      destruct (T RKeepAlive [LInEnd]) as ((l & A1 & A2) & B' & C & _ & E); [discriminate|reflexivity|]. cbn zeta in *. set (k3 := log _ _) in *.
      assert (k_reading k3 = RKeepAlive) as R3 by reflexivity. assert (k_writing k3 = k_writing k) as W3 by exact W1. clearbody k3.
      destruct (fr_try c blk k3) as [(l' & L' & S') F1 F2 F3 F4]. split; [exists (l ++ l'); rewrite L', A1, <- app_assoc, forallb_app, A2, S'; auto|]. split; [congruence|]. split; [congruence|]. split; [discriminate|].
      intros _ Hw. destruct F4 as [(G1 & G2 & G3 & _)|(G1 & G2 & G3 & _)]; [|auto]. split; [intros F; destruct (G2 F); congruence|]. intros F. apply G3 in F. congruence.
    - destruct (_ && _); apply T0; discriminate. }
  clearbody k2. destruct Q as (Q1 & Q2 & Q3 & Q4 & Q5). repeat split; auto; try (apply Q4; assumption); apply Q5; assumption.
Qed.
Lemma view_write_head c auto k h body : let k' := write_head c auto k h body in
  k_version k' = k_version k /\ k_h09 k' = k_h09 k /\ k_trailers k' = k_trailers k /\ k_reading k' = k_reading k /\ k_writing k' <> WInit /\
  ((exists h' out enc, o_subject h' = o_subject h /\ k_log k' = k_log k ++ LHead auto h' out :: (if enc_is_eof enc then [LEnd] else []) /\ encoded c (k_method k) body h' out enc /\
     (k_version k = HTTP10 -> o_version h' = HTTP10) /\ (forall st, c_server c = true -> h = mkO HTTP11 (OResponse st None) [] None -> k_ka k = KDisabled -> h' = auto_dressed (k_version k) st) /\
     k_method k' = (match o_subject h' with ORequest m _ => Some m | OResponse _ _ => k_method k end) /\ k_writing k' = after_head enc) \/
   (exists out, k_log k' = k_log k ++ [LHeadFail out] /\ k_writing k' = WClosed)).
Proof.
  cbn zeta. unfold write_head, encode_head. set (k0 := if c_server c then k else _).
  assert (same_mem k k0 /\ k_reading k0 = k_reading k /\ k_log k0 = k_log k) as ((A1 & A2 & A3 & A4) & A5 & A6) by (subst k0; destruct (c_server c); [repeat split|]; unfold busy, st_disable_keep_alive; destruct (connection_any_close (o_headers h)), (k_ka k); repeat split).
  assert (forall st, c_server c = true -> h = mkO HTTP11 (OResponse st None) [] None -> k_ka k = KDisabled -> snd (enforce_version k0 h) = auto_dressed (k_version k) st) as Dr.
  { intros st Hs -> Hk. subst k0. rewrite Hs. unfold enforce_version, fix_keep_alive, wants_keep_alive, auto_dressed. cbn [o_headers o_version hm_get hm_get_all]. destruct (k_version k); rewrite ?Hk; reflexivity. }
  clearbody k0. assert (k_version k = HTTP10 -> o_version (snd (enforce_version k0 h)) = HTTP10) as Vr.
  { intros Hv. unfold enforce_version. rewrite A1, Hv. destruct (fix_keep_alive k0 h). reflexivity. }
  assert (same_mem k0 (fst (enforce_version k0 h)) /\ k_reading (fst (enforce_version k0 h)) = k_reading k0 /\ k_log (fst (enforce_version k0 h)) = k_log k0 /\ o_subject (snd (enforce_version k0 h)) = o_subject h) as ((B1 & B2 & B3 & B4) & B5 & B6 & B7).
  { unfold enforce_version, fix_keep_alive. destruct (k_version k0) eqn:Ev; try (repeat split; fail); [|destruct (k_ka k0); repeat split]. destruct (match hm_get (o_headers h) (B "connection") with Some v => connection_keep_alive v | None => false end); [repeat split|]. destruct (o_version h); try (repeat split; fail). destruct (wants_keep_alive k0); repeat split. }
  destruct (enforce_version k0 h) as [k1 h1]. cbn [fst snd] in *. unfold t_encode. destruct (o_subject h1) as [st rs|meth tgt] eqn:Eo; cycle 1.
  - destruct (client_encode _) as [[out e]|].
    + cbn [k_version k_h09 k_trailers k_reading k_writing k_log k_method log set_writing set_method set_wb]. repeat split; try congruence; [unfold after_head; destruct (enc_is_eof e); [destruct (is_last e)|]; discriminate|]. left. exists h1, out, e. rewrite Eo. split; [congruence|]. split; [rewrite B6, A6, <- app_assoc; reflexivity|]. split; [intros st rs F; congruence|]. split; [exact Vr|]. split; [exact Dr|]. split; reflexivity.
    + cbn [k_version k_h09 k_trailers k_reading k_writing k_log k_method log set_writing set_error set_method set_wb]. repeat split; try congruence; try discriminate. right. eexists. rewrite B6, A6. split; reflexivity.
  - destruct (server_encode _ _ _) as [out [e|e]] eqn:Ee.
    + cbn [k_version k_h09 k_trailers k_reading k_writing k_log k_method log set_writing set_method set_wb]. repeat split; try congruence; [unfold after_head; destruct (enc_is_eof e); [destruct (is_last e)|]; discriminate|]. left. exists h1, out, e. rewrite Eo. split; [congruence|]. split; [rewrite B6, A6, <- app_assoc; reflexivity|]. split; [|split; [exact Vr|split; [exact Dr|split; [congruence|reflexivity]]]].
      intros st' rs' F. injection (eq_trans (eq_sym Eo) F) as <- <-. exists (wants_keep_alive k1). rewrite <- A4, <- B4. exact Ee.
    + cbn [k_version k_h09 k_trailers k_reading k_writing k_log k_method log set_writing set_error set_method set_wb]. repeat split; try congruence; try discriminate. right. eexists. rewrite B6, A6. split; reflexivity.
Qed.
Lemma VI_write_head c h09 (auto fl : bool) k h body : VI c h09 fl k -> k_writing k = WInit -> (c_server c = true -> k_reading k <> RInit /\ k_method k = (if auto then @None bytes else min (k_log k))) ->
  (auto = true -> body = None /\ k_ka k = KDisabled /\ exists st, h = mkO HTTP11 (OResponse st None) [] None) -> VI c h09 false (write_head c auto k h body).
Proof.
  intros [V1 V2 V3 V4 V5 V6 V7 V8] Hw Hsv Hau. destruct (view_write_head c auto k h body) as (W1 & W2 & W3 & W4 & W5 & W6). cbn zeta in *. set (k' := write_head c auto k h body) in *. clearbody k'.
  destruct W6 as [(h' & out & enc & O & L & En & Vr & Dr & M & _)|(out & L & _)].
  - set (q := if enc_is_eof enc then [LEnd] else []) in *. assert (forallb still q = true) as Hq by (subst q; destruct (enc_is_eof enc); reflexivity).
    destruct (still_facts q Hq) as (S1 & S2 & S3 & S4 & S5 & S6).
    constructor; rewrite ?L, ?min_app, ?mout_app, ?tein_app, ?vlast_app, ?forallb_app; cbn [fold_left mstep ostep tstep forallb noin nofail andb]; rewrite ?S1, ?S2, ?S3, ?S5, ?S6, ?andb_true_r; try congruence.
    + change (k_version k' = vlast (vlast HTTP11 (k_log k)) q). now rewrite S4, W1.
    + intros Hs Hr. destruct (Hsv Hs). congruence.
    + intros Hs Hn Hr Hw'. rewrite M. destruct (o_subject h'); [now apply V7|reflexivity].
    + apply ev_append; [exact V8|]. intros a e b E. destruct a as [|x a].
      * cbn in E. injection E as <- <-. rewrite app_nil_r. cbn [evp]. rewrite <- V1. split; [exact Vr|]. intros Hs. exists body, enc. destruct (Hsv Hs) as (_ & <-). split; [exact En|]. split; [intros He; subst q; rewrite He; eauto|].
        intros Ha. destruct (Hau Ha) as (A1 & A2 & st & A3). split; [exact A1|]. exists st. now apply Dr.
      * cbn in E. injection E as _ E. apply still_evp. rewrite E, forallb_app in Hq. apply andb_prop in Hq. destruct Hq as (_ & Hq). apply andb_prop in Hq. apply Hq.
  - constructor; rewrite ?L, ?min_app, ?mout_app, ?tein_app, ?vlast_app, ?forallb_app; cbn [fold_left mstep ostep tstep forallb noin nofail andb]; rewrite ?andb_true_r, ?andb_false_r; try congruence; try discriminate.
    + unfold vlast at 1. cbn [fold_left]. congruence.
    + intros Hs Hr. destruct (Hsv Hs). congruence.
    + apply ev_append; [exact V8|]. intros a e b E. destruct a as [|x [|y a]]; cbn in E; try discriminate E. injection E as <- <-. exact Logic.I.
Qed.
Lemma VI_read_head c h09 now blk k : VI c h09 false k -> can_read_head c k = true -> let r := k_poll_read_head c now blk k in
  VI c h09 (match snd r with Ready (Some (Ok _)) => true | _ => false end) (fst r).
Proof.
  intros H Hc. cbn zeta. assert (k_reading k = RInit) as Er by (unfold can_read_head in Hc; destruct (k_reading k); try discriminate Hc; reflexivity).
  assert (c_server c = false -> k_writing k <> WInit) as Hcl by (intros Hs F; unfold can_read_head in Hc; rewrite Er, Hs, F in Hc; discriminate Hc). clear Hc.
  unfold k_poll_read_head.
  assert (fr k (start_timer c now k) /\ k_reading (start_timer c now k) = RInit /\ k_writing (start_timer c now k) = k_writing k) as (F0 & R0 & W0).
  { unfold start_timer. destruct (k_running k); [split; [apply fr_refl|auto]|]. destruct (c_timeout c); [|split; [apply fr_refl|auto]]. split; [fsame|auto]. }
  remember (start_timer c now k) as k0 eqn:Ek. clear Ek. assert (VI c h09 false k0) as H0 by exact (VI_fr _ _ _ _ _ F0 H). rewrite <- W0 in Hcl. clear W0 F0 H Er k.
  destruct (io_parse _ _ (k_rd k0)) as [rd [|[m|e]]] eqn:Ep.
  - cbn [k_running k_timer set_rd]. destruct (k_running k0), (k_timer k0) as [t|]; try (cbn [fst snd]; eapply VI_fr; [|exact H0]; fsame). destruct (t <=? now); cbn [fst snd]; (eapply VI_fr; [|exact H0]; fsame).
  - cbn [fst snd]. destruct (view_got_head c blk (set_rd k0 rd) m) as ((l & L1 & L2) & G1 & G2 & G3 & G4 & G5). cbn zeta in *. set (k' := got_head c blk (set_rd k0 rd) m) in *. clearbody k'.
    cbn [k_log set_rd k_writing] in *. destruct (still_facts l L2) as (S1 & S2 & S3 & S4 & S5 & S6). destruct H0 as [V1 V2 V3 V4 V5 V6 V7 V8].
    apply parse_done in Ep. constructor; rewrite ?L1, ?min_app, ?mout_app, ?tein_app, ?vlast_app, ?forallb_app; cbn [fold_left mstep ostep tstep forallb noin nofail andb]; rewrite ?S1, ?S2, ?S3, ?S5, ?S6, ?andb_true_r, ?andb_false_r; try congruence.
    + rewrite G1. change (in_version m = vlast (in_version m) l). now rewrite S4.
    + intros Hs F. destruct (G4 Hs) as (_ & G6 & _). contradiction.
    + intros Hs _. destruct (G4 Hs) as (G6 & G7 & G8). split; [|auto]. unfold wi. rewrite G8. apply V4; assumption.
    + intros Hs Hn Hr Hw. destruct (G5 Hs (Hcl Hs)) as (G6 & _). destruct (Hw (G6 Hr)).
    + intros Hs Hw. destruct (G5 Hs (Hcl Hs)) as (_ & G6). auto.
    + apply ev_append; [exact V8|]. intros a e b E. destruct a as [|x a].
      * cbn in E. injection E as <- <-. rewrite app_nil_r. cbn [evp]. intros Hn. destruct Ep as (buf & n & Ep). exists buf, n. rewrite <- Ep. rewrite V2. f_equal.
        destruct (c_server c) eqn:Hs; [symmetry; now apply V4|]. symmetry. destruct Hn as [Hn|Hn]; [discriminate Hn|]. apply V6; auto.
      * cbn in E. injection E as _ E. apply still_evp. rewrite E, forallb_app in L2. apply andb_prop in L2. destruct L2 as (_ & L2). apply andb_prop in L2. apply L2.
  - destruct (parse_failure e) as [e' n]. unfold on_read_head_error.
    assert (c_server c = true -> k_method k0 = None) as Hm by (intros Hs; now apply (vi_init _ _ _ _ H0)).
    set (k1 := set_rd (close_read (set_rd (set_rd k0 rd) _)) _).
    assert (VI c h09 false k1 /\ k_reading k1 = RClosed /\ k_method k1 = k_method k0 /\ k_ka k1 = KDisabled) as (H1 & R1 & M1 & Ka1).
    { split; [|auto]. eapply VI_fr; [|exact H0]. subst k1. fsame. discriminate. }
    clearbody k1. destruct (_ || _).
    + unfold on_parse_error. destruct (k_writing k1) eqn:W1; try exact H1.
      destruct (has_h2_prefix k1); [exact H1|]. unfold t_on_error. destruct (c_server c) eqn:Hs; [|exact H1]. destruct (match e' with CParse p => server_on_error p | _ => None end) as [st|]; [|exact H1]. cbn [fst snd].
      eapply VI_fr; [|apply (VI_write_head c h09 true false k1 (mkO HTTP11 (OResponse st None) [] None) None H1 W1)]; [fsame| |].
      * intros _. split; [congruence|]. rewrite M1. auto.
      * intros _. eauto.
    + cbn [fst snd]. eapply VI_fr; [|exact H1]. apply fr_close_write. congruence.
Qed.
Definition VD (c : cfg) (h09 : bool) (d : disp) : Prop := VI c h09 (d_in_flight d) (d_conn d).
Lemma VD_conn c h09 d k : fr (d_conn d) k -> VD c h09 d -> VD c h09 (dset_conn d k).
Proof. intros H. exact (VI_fr c h09 (d_in_flight d) (d_conn d) k H). Qed.
Lemma VD_recv c h09 d e : VD c h09 d -> VD c h09 (fst (recv_error c d e)).
Proof.
  intros H. unfold recv_error. destruct (c_server c); [exact H|]. destruct (d_callback d); [apply (VD_conn c h09 (dset_client d None (d_rx_closed d) (d_chan d))); [apply fr_logged; reflexivity|exact H]|]. destruct (d_rx_closed d); [exact H|].
  destruct (ch_try_recv _) as [ch [id|]]; [apply (VD_conn c h09 (dset_client d None (d_rx_closed d) ch)); [apply fr_logged; reflexivity|exact H]|exact H].
Qed.
Lemma VD_stable c h09 : stable c (fun _ => True) (fun _ => True) (VD c h09).
Proof.
  apply stable_intro.
  - intros d tx rx p H. exact H.
  - intros d e He H. apply VD_conn; [|exact H]. apply fr_logged. destruct e; try discriminate He; reflexivity.
  - intros d H. split; [|split; [|split]]; intros; (apply VD_conn; [|exact H]); unfold wants_read_again, pending_upgrade, take_error; cbn [fst]; [fsame|fsame| |fsame].
    destruct (k_error (d_conn d)); cbn [fst]; [fsame|apply fr_refl].
  - intros d H _. apply VD_conn; [|exact H]. now apply fr_closed.
  - intros i d H _ Hc Hp. unfold d_poll_read_head. rewrite Hp.
    assert (VI c h09 false (d_conn d)) as H0 by exact (VI_fl _ _ _ _ H).
    pose proof (VI_read_head c h09 (i_now i) (i_blk i) (d_conn d) H0 Hc) as R. cbn zeta in R. destruct (k_poll_read_head c _ _ _) as [k r]. cbn [fst snd] in *.
    assert (forall k, VI c h09 false k -> VD c h09 (dset_conn d k)) as Q.
    { intros k0 K0. destruct K0 as [V1 V2 V3 V4 V5 V6 V7 V8]. constructor; auto. intros Hs Hf. unfold d_poll_ready in Hp. rewrite Hs in Hp. cbn in Hf. rewrite Hf in Hp. discriminate Hp. }
    destruct r as [|[[m|e]|]].
    + apply Q, R.
    + set (d1 := if in_decode m =? DL_ZERO then _ else _). assert (VI c h09 true (d_conn d1)) as R1.
      { subst d1. destruct (in_decode m =? DL_ZERO); [exact R|]. cbn [d_body_tx dset_conn]. destruct (d_body_tx d); [|exact R]. eapply VI_fr; [|exact R]. apply fr_logged. reflexivity. }
      clearbody d1. set (d2 := if in_upgrade m then _ else _). assert (VI c h09 true (d_conn d2)) as R2 by (subst d2; destruct (in_upgrade m); [eapply VI_fr; [|exact R1]; fsame|exact R1]). clearbody d2.
      assert (forall f d3, fr (d_conn d2) (d_conn d3) -> c_server c = false -> VI c h09 f (d_conn d3)) as Q2.
      { intros f d3 F Hs. pose proof (VI_fr _ _ _ _ _ F R2) as [V1 V2 V3 V4 V5 V6 V7 V8]. constructor; auto; congruence. }
      unfold recv_ok. destruct (c_server c) eqn:Hs; [exact R2|]. destruct (d_callback d2); cbn [fst]; apply Q2; auto; [apply fr_logged; reflexivity|apply fr_refl].
    + pose proof (VD_recv c h09 (dset_conn d k) e (Q k R)) as Z. destruct (recv_error c (dset_conn d k) e) as [d' [|]]; cbn [fst] in *; [exact Z|]. apply (VD_conn c h09 (dset_closing d' true)); [now apply fr_closed|exact Z].
    + cbn [fst d_conn dset_conn]. destruct (is_write_closed k); [|apply Q, R]. apply (VD_conn c h09 (dset_closing (dset_conn d k) true)); [now apply fr_closed|apply Q, R].
  - intros i d H _ _. apply VD_conn; [apply fr_drain|exact H].
  - intros i d H _ _. apply VD_conn; [|exact H]. eapply fr_trans; [|apply fr_read_body]. apply fr_logged. reflexivity.
  - intros d H _. apply VD_conn; [apply fr_close_read|exact H].
  - intros d H _ _ _. apply VD_conn; [apply fr_keep_alive|exact H].
  - intros i d H. apply VD_conn; [apply fr_flush|exact H].
  - intros i d _ H _ Hc Hp. unfold d_poll_msg, should_poll in *. unfold can_write_head in Hc. destruct (c_server c) eqn:Hs.
    + destruct (i_msg i) as [|[[h body]|e]]; [exact H| |exact H]. apply (VI_write_head c h09 false (d_in_flight d)); [exact H| | |discriminate].
      * destruct (vi_fl _ _ _ _ H Hs Hp) as ([W|W] & _); [exact W|]. cbn in Hc. rewrite W in Hc. cbn in Hc. discriminate Hc.
      * intros _. destruct (vi_fl _ _ _ _ H Hs Hp) as (_ & A & A'). auto.
    + destruct (ch_poll_recv _ _) as [ch [|[id|]]]; [exact H| |exact H].
      destruct (i_canceled i); [apply (VD_conn c h09 (dset_client d (d_callback d) (d_rx_closed d) ch)); [apply fr_logged; reflexivity|exact H]|]. destruct (i_req i) as [h body].
      set (d1 := dlog _ _). assert (VI c h09 (d_in_flight d1) (d_conn d1)) as H1 by (eapply VI_fr; [|exact H]; apply fr_logged; reflexivity). assert (k_writing (d_conn d1) = k_writing (d_conn d)) as W1 by reflexivity. clearbody d1.
      assert (VI c h09 false (write_head c false (d_conn d1) h body)) as [V1 V2 V3 V4 V5 V6 V7 V8]; [|constructor; auto; congruence].
      apply (VI_write_head c h09 false (d_in_flight d1)); [exact H1| |congruence|discriminate]. rewrite W1. destruct (negb false && is_read_closed (d_conn d)); [discriminate Hc|]. destruct (k_writing (d_conn d)); try discriminate Hc; reflexivity.
  - intros i d H _. apply VD_conn; [|exact H]. apply fr_effect; [apply end_body_effect|apply mem_end].
  - intros i d b H _ _. apply VD_conn; [|exact H]. apply fr_effect; [apply write_body_effect|apply mem_body].
  - intros i d b H _ _. apply VD_conn; [|exact H]. apply fr_effect; [apply write_body_and_end_effect|apply mem_body_and_end].
  - intros i d t H _ _. apply VD_conn; [|exact H]. apply fr_effect; [apply write_trailers_effect|apply mem_trailers].
  - intros d e H. now apply VD_recv.
  - intros d H. rewrite d_drop_eq. apply (VI_fr c h09 _ (d_conn d)); [|exact H]. apply fr_logged. unfold drop_events. rewrite !forallb_app. destruct (d_body_tx d), (d_callback d); cbn [forallb still andb]; induction (ch_queue (d_chan d)); auto.
  - intros e d H. destruct e as [s| | |]; cbn [estep].
    + destruct (c_server c); exact H.
    + destruct (d_pc d); try exact H. destruct (c_server c); [|exact H]. unfold d_graceful, k_disable_keep_alive.
      set (d1 := dset_conn d _). assert (VD c h09 d1) as H1 by (apply VD_conn; [destruct (is_idle (d_conn d)); [now apply fr_closed|fsame]|exact H]). clearbody d1.
      destruct (_ || _); [|exact H1]. apply (VD_conn c h09 (dset_closing d1 true)); [now apply fr_closed|exact H1].
    + destruct (d_pc d); try exact H. rewrite d_drop_eq. apply (VI_fr c h09 _ (d_conn d)); [|exact H]. apply fr_logged. unfold drop_events. rewrite !forallb_app. destruct (d_body_tx d), (d_callback d); cbn [forallb still andb]; induction (ch_queue (d_chan d)); auto.
    + destruct (d_pc d), (k_log (d_conn d)); try exact H. destruct (c_server c); [|exact H]. apply VD_conn; [fsame|exact H].
Qed.
