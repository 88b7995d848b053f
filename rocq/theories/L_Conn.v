(* Lemmas: the connection's functions keep its log within the rules of S_Conn. *)
From Verif Require Import Base M_Src M_Decode M_HeaderMap M_Headers M_Encode M_Role M_RoleEncode M_Buf M_WriteBuf M_Read M_Conn S_Conn.

Lemma x_run_app f : forall l x l', x_run f x (l ++ l') = match x_run f x l with Some y => x_run f y l' | None => None end.
Proof. induction l as [|e r IH]; intros x l'; cbn [app x_run]; [reflexivity|]. destruct (f x e); [apply IH|reflexivity]. Qed.

(* ------------------------------------------------------------------ *)
(* Server *)
Definition SJ (fl : bool) (x : exch) (r : reading) (w : writing) : Prop :=
  (match r with
   | RInit => w = WInit /\ fl = false /\ at_rest x = true /\ x_over x = false
   | RContinue _ => x_over x = false /\ exists m, x_in x = IOpen m /\ in_expect m = true /\ after_http10 (in_version m) = true /\ x_continue x = false
   | RBody _ => x_over x = false /\ exists m, x_in x = IOpen m
   | RKeepAlive => x_over x = false /\ exists m, x_in x = IDone m
   | RClosed => True
   end) /\
  (match w with
   | WInit => r = RInit \/ x_out x = ONone \/ (r = RClosed /\ fl = false)
   | WBody _ => x_out x = OStarted
   | WKeepAlive => x_out x = ODone
   | WClosed => True
   end) /\
  (fl = true -> x_in x <> INone /\ x_out x = ONone /\ x_over x = false /\ (w = WInit \/ w = WClosed)).
Definition SI (fl : bool) (k : conn) : Prop :=
  exists x, x_run x_server x_start (k_log k) = Some x /\ SJ fl x (k_reading k) (k_writing k).

Lemma SI_frame fl k k' : k_log k' = k_log k -> k_reading k' = k_reading k -> k_writing k' = k_writing k ->
  SI fl k -> SI fl k'.
Proof. intros H1 H2 H3 (x & Hx & Hj). exists x. now rewrite H1, H2, H3. Qed.
Ltac sframe := eapply SI_frame; [..|eassumption]; reflexivity.

Lemma SI_new h09 flat wmax evs : SI false (conn_new h09 flat wmax evs).
Proof.
  exists x_start. split; [reflexivity|]. cbn. split; [auto|]. split; [auto|discriminate].
Qed.

Lemma SI_st_close fl k : SI fl k -> SI fl (st_close k).
Proof.
  intros (x & Hx & Hj). exists x. split; [exact Hx|]. cbn. split; [exact I|]. split; [exact I|].
  intros Hf. destruct Hj as (_ & _ & H). destruct (H Hf) as (A & B' & C & _). auto.
Qed.
Lemma SI_close_read fl k : SI fl k -> SI fl (close_read k).
Proof.
  intros (x & Hx & Hj). exists x. split; [exact Hx|]. cbn. destruct Hj as (Hr & Hw & Hf).
  split; [exact I|]. split; [|exact Hf].
  destruct (k_writing k); auto.
  destruct Hw as [Hw|[Hw|[Hw Hw']]]; auto. rewrite Hw in Hr. destruct Hr as (_ & Hr & _). auto.
Qed.
Lemma SI_close_write fl k : SI fl k -> k_reading k <> RInit -> SI fl (close_write k).
Proof.
  intros (x & Hx & Hj) Hn. exists x. split; [exact Hx|]. cbn. destruct Hj as (Hr & Hw & Hf).
  split; [|split; [exact I|]].
  - destruct (k_reading k); auto. congruence.
  - intros F. destruct (Hf F) as (A & B' & C & _). auto.
Qed.
Lemma SI_idle c fl k m : x_run x_server x_start (k_log k) = Some m -> SJ fl m RKeepAlive WKeepAlive ->
  SI fl (idle c k).
Proof.
  intros Hx Hj. exists m.
  assert (k_log (idle c k) = k_log k /\ k_reading (idle c k) = RInit /\ k_writing (idle c k) = WInit) as (A & B' & C).
  { unfold idle. destruct (c_server c), (c_timeout c); cbn; auto. }
  rewrite A, B', C. split; [exact Hx|].
  destruct Hj as ((Ho & mm & Hi) & Hout & Hf). cbn.
  assert (fl = false) as ->.
  { destruct fl; [|reflexivity]. destruct (Hf eq_refl) as (_ & _ & _ & [F|F]); discriminate. }
  split; [|split; [auto|discriminate]]. unfold at_rest. rewrite Hi, Hout. auto.
Qed.
Lemma SI_st_try c fl k : SI fl k -> SI fl (st_try_keep_alive c k).
Proof.
  intros H. unfold st_try_keep_alive.
  destruct (k_reading k) eqn:Er; try exact H; destruct (k_writing k) eqn:Ew; try exact H;
    try (apply SI_st_close; exact H).
  destruct (k_ka k); try (apply SI_st_close; exact H).
  destruct H as (x & Hx & Hj). rewrite Er, Ew in Hj. eapply SI_idle; eassumption.
Qed.
Lemma SI_read_io fl k : SI fl k -> SI fl (fst (read_io k)).
Proof. intros H. unfold read_io. destruct (r_read_io (k_rd k)). cbn [fst]. sframe. Qed.
Lemma SI_set_notify fl k b : SI fl k -> SI fl (set_notify k b).
Proof. intros H. sframe. Qed.
Lemma SI_set_error fl k b : SI fl k -> SI fl (set_error k b).
Proof. intros H. sframe. Qed.
Lemma SI_maybe_notify fl blk k : SI fl k -> SI fl (maybe_notify blk k).
Proof.
  intros H. unfold maybe_notify. destruct (k_reading k) eqn:Er; try exact H.
  destruct (k_writing k) eqn:Ew; try exact H;
  (destruct blk; [exact H|]; destruct (r_buf (k_rd k)); [|apply SI_set_notify; exact H];
   pose proof (SI_read_io _ _ H) as H'; destruct (read_io k) as [k' [|[n|e]]]; cbn [fst] in H';
   [exact H'| |apply SI_set_notify, SI_set_error, SI_st_close, H'];
   destruct (n =? 0); [|apply SI_set_notify, H'];
   destruct (is_idle k'); [apply SI_st_close, H'|apply SI_close_read, H']).
Qed.
Lemma SI_try_keep_alive c fl blk k : SI fl k -> SI fl (try_keep_alive c blk k).
Proof. intros H. apply SI_maybe_notify, SI_st_try, H. Qed.

(* Writing *)
Lemma enforce_frame k h : let (k', h') := enforce_version k h in
  k_log k' = k_log k /\ k_reading k' = k_reading k /\ k_writing k' = k_writing k /\ k_wb k' = k_wb k
  /\ k_rd k' = k_rd k /\ k_notify k' = k_notify k /\ k_version k' = k_version k
  /\ (k_ka k <> KIdle -> k_ka k' <> KIdle).
Proof.
  unfold enforce_version, fix_keep_alive.
  remember (match hm_get (o_headers h) (B "connection") with Some v => connection_keep_alive v | None => false end) as og eqn:E.
  clear E. destruct (k_version k) eqn:Ev; try (repeat split; assumption || reflexivity || exact (fun x => x)).
  - destruct og; [repeat split; assumption || exact (fun x => x)|]. destruct (o_version h); try (repeat split; assumption || exact (fun x => x)).
    + repeat split; try assumption. cbn. discriminate.
    + destruct (wants_keep_alive k); repeat split; assumption || exact (fun x => x).
  - destruct (k_ka k) eqn:Ek; repeat split; try assumption; rewrite Ek; exact (fun x => x).
Qed.
(* what encode_head does to log and state *)
Lemma encode_head_cases c auto k h body :
  let (k', r) := encode_head c auto k h body in
  k_reading k' = k_reading k /\
  (c_server c = false \/ k_ka k <> KIdle -> k_ka k' <> KIdle) /\
  match r with
  | Some e => exists h' out, k_log k' = k_log k ++ [LHead auto h' out] /\ k_writing k' = k_writing k
  | None => exists out, k_log k' = k_log k ++ [LHeadFail out] /\ k_writing k' = WClosed
  end.
Proof.
  unfold encode_head.
  set (k0 := if c_server c then k else _).
  assert (k_log k0 = k_log k /\ k_reading k0 = k_reading k /\ k_writing k0 = k_writing k /\
    (c_server c = false \/ k_ka k <> KIdle -> k_ka k0 <> KIdle)) as (A & B' & C & D).
  { subst k0. destruct (c_server c).
    - repeat split; auto. intros [F|F]; [discriminate|exact F].
    - unfold busy, st_disable_keep_alive. destruct (connection_any_close _), (k_ka k) eqn:Ek; cbn; rewrite ?Ek; repeat split; auto; intros _; discriminate. }
  pose proof (enforce_frame k0 h) as F. destruct (enforce_version k0 h) as [k1 h1].
  destruct F as (A1 & B1 & C1 & _ & _ & _ & _ & D1).
  destruct (t_encode c k1 h1 body) as [[out m] [e|e]]; cbn.
  - split; [congruence|]. split; [intros Q; apply D1, D, Q|]. exists h1, out. rewrite A1, A, C1, C. auto.
  - split; [congruence|]. split; [intros Q; apply D1, D, Q|]. exists out. rewrite A1, A. auto.
Qed.
Lemma write_head_cases c auto k h body :
  k_reading (write_head c auto k h body) = k_reading k /\
  (c_server c = false \/ k_ka k <> KIdle -> k_ka (write_head c auto k h body) <> KIdle) /\
  ((exists h' out e, enc_is_eof e = false /\ k_log (write_head c auto k h body) = k_log k ++ [LHead auto h' out]
       /\ k_writing (write_head c auto k h body) = WBody e)
   \/ (exists h' out, k_log (write_head c auto k h body) = k_log k ++ [LHead auto h' out; LEnd]
       /\ (k_writing (write_head c auto k h body) = WClosed \/ k_writing (write_head c auto k h body) = WKeepAlive))
   \/ (exists out, k_log (write_head c auto k h body) = k_log k ++ [LHeadFail out]
       /\ k_writing (write_head c auto k h body) = WClosed)).
Proof.
  unfold write_head. pose proof (encode_head_cases c auto k h body) as H.
  destruct (encode_head c auto k h body) as [k' [e|]].
  - destruct H as (A & K & h' & out & B' & C). cbn. split; [exact A|]. split; [exact K|].
    unfold after_head. destruct (enc_is_eof e) eqn:E; cbn.
    + right. left. exists h', out. rewrite B', <- app_assoc. cbn. split; [reflexivity|]. destruct (is_last e); auto.
    + left. exists h', out, e. rewrite B', app_nil_r. auto.
  - destruct H as (A & K & out & B' & C). split; [exact A|]. split; [exact K|]. right. right. exists out. auto.
Qed.

(* Writing a response: in_flight is over. *)
Lemma SI_write_head c k h body : SI true k -> k_writing k = WInit -> SI false (write_head c false k h body).
Proof.
  intros (x & Hx & Hr & Hw & Hf) Ew. destruct (Hf eq_refl) as (Hi & Ho & Hov & _).
  assert (k_reading k <> RInit) as Hn by (intros E; rewrite E in Hr; destruct Hr as (_ & F & _); discriminate).
  destruct x as [i o kk w ov]. cbn in *. subst o ov.
  pose proof (write_head_cases c false k h body) as (A & _ & [H|[H|H]]).
  - destruct H as (h' & out & e & He & Hl & Hw'). exists (mkX i OStarted kk w false).
    rewrite Hl, x_run_app, Hx, A, Hw'. cbn. split.
    + destruct i; cbn; congruence.
    + split; [|split; [reflexivity|discriminate]]. destruct (k_reading k); auto. congruence.
  - destruct H as (h' & out & Hl & Hw'). exists (mkX i ODone kk w false).
    rewrite Hl, x_run_app, Hx, A. cbn. split.
    + destruct i; cbn; congruence.
    + split; [|split; [destruct Hw' as [-> | ->]; reflexivity|discriminate]]. destruct (k_reading k); auto. congruence.
  - destruct H as (out & Hl & Hw'). exists (mkX i OBroken kk w false).
    rewrite Hl, x_run_app, Hx, A, Hw'. cbn. split.
    + destruct i; cbn; congruence.
    + split; [|split; [exact I|discriminate]]. destruct (k_reading k); auto. congruence.
Qed.
(* An automatic error response. *)
Lemma SI_write_auto c k h body :
  (exists x, x_run x_server x_start (k_log k) = Some x /\ at_rest x = true /\ x_over x = false) ->
  k_reading k = RClosed -> SI false (write_head c true k h body).
Proof.
  intros (x & Hx & Hat & Hov) Er. destruct x as [i o kk w ov]. cbn in Hov. subst ov.
  pose proof (write_head_cases c true k h body) as (A & _ & [H|[H|H]]).
  - destruct H as (h' & out & e & He & Hl & Hw'). exists (mkX i OStarted kk w true).
    rewrite Hl, x_run_app, Hx, A, Hw', Er. cbn [x_run x_server]. rewrite Hat. cbn. auto.
    split; [reflexivity|]. split; [exact I|]. split; [reflexivity|discriminate].
  - destruct H as (h' & out & Hl & Hw'). exists (mkX i ODone kk w true).
    rewrite Hl, x_run_app, Hx, A, Er. cbn [x_run x_server]. rewrite Hat. cbn.
    split; [reflexivity|]. split; [exact I|]. split; [destruct Hw' as [-> | ->]; reflexivity|discriminate].
  - destruct H as (out & Hl & Hw'). exists (mkX i OBroken kk w true).
    rewrite Hl, x_run_app, Hx, A, Hw', Er. cbn [x_run x_server]. rewrite Hat. cbn.
    split; [reflexivity|]. split; [exact I|]. split; [exact I|discriminate].
Qed.

(* Body parts *)
Lemma k_buffer_frame room k b : k_log (k_buffer room k b) = k_log k /\ k_reading (k_buffer room k b) = k_reading k
  /\ k_writing (k_buffer room k b) = k_writing k /\ k_ka (k_buffer room k b) = k_ka k.
Proof. unfold k_buffer. destruct (wb_buffer _ _ _); auto. Qed.
Lemma SI_body fl k k' e l w' : SI fl k -> k_writing k = WBody e -> k_reading k' = k_reading k ->
  k_log k' = k_log k ++ l -> k_writing k' = w' ->
  ((exists bs, l = [LBody bs] /\ exists e', w' = WBody e')
   \/ ((l = [LEnd] \/ exists bs, l = [LBody bs; LEnd]) /\ (w' = WClosed \/ w' = WKeepAlive))
   \/ ((l = [LAbort] \/ exists bs, l = [LBody bs; LAbort]) /\ w' = WClosed)) ->
  SI fl k'.
Proof.
  intros (x & Hx & Hr & Hw & Hf) Ew Er El Ew' H. rewrite Ew in Hr, Hw, Hf.
  assert (fl = false) as -> by (destruct fl; [|reflexivity]; destruct (Hf eq_refl) as (_ & _ & _ & [F|F]); discriminate).
  assert (k_reading k <> RInit) as Hn by (intros E; rewrite E in Hr; destruct Hr as (F & _); discriminate).
  destruct x as [i o kk w ov]. cbn in *. subst o.
  assert (forall y, x_out y = OStarted \/ True -> x_over y = ov -> x_in y = i -> x_continue y = kk ->
    match k_reading k' with
    | RInit => w' = WInit /\ false = false /\ at_rest y = true /\ x_over y = false
    | RContinue _ => x_over y = false /\ exists m, x_in y = IOpen m /\ in_expect m = true /\ after_http10 (in_version m) = true /\ x_continue y = false
    | RBody _ => x_over y = false /\ exists m, x_in y = IOpen m
    | RKeepAlive => x_over y = false /\ exists m, x_in y = IDone m
    | RClosed => True
    end) as Q.
  { intros y _ H1 H2 H3. rewrite Er, H1, H2, H3. destruct (k_reading k); auto. congruence. }
  destruct H as [(bs & -> & e' & ->)|[[Hl H]|[Hl ->]]].
  - exists (mkX i OStarted kk w ov). rewrite El, x_run_app, Hx. split; [reflexivity|]. rewrite Ew'.
    split; [apply Q; auto|]. split; [reflexivity|discriminate].
  - exists (mkX i ODone kk w ov). rewrite El, x_run_app, Hx. split; [destruct Hl as [->|(bs & ->)]; reflexivity|]. rewrite Ew'.
    split; [apply Q; auto|]. split; [destruct H as [-> | ->]; reflexivity|discriminate].
  - exists (mkX i OBroken kk w ov). rewrite El, x_run_app, Hx. split; [destruct Hl as [->|(bs & ->)]; reflexivity|]. rewrite Ew'.
    split; [apply Q; auto|]. split; [exact I|discriminate].
Qed.

(* What the body functions do, for both sides *)
Definition body_effect (k k' : conn) : Prop :=
  k' = k \/ exists e l w', k_writing k = WBody e /\ k_reading k' = k_reading k /\ k_log k' = k_log k ++ l /\ k_writing k' = w' /\ k_ka k' = k_ka k /\
  ((exists bs, l = [LBody bs] /\ exists e', w' = WBody e')
   \/ ((l = [LEnd] \/ exists bs, l = [LBody bs; LEnd]) /\ (w' = WClosed \/ w' = WKeepAlive))
   \/ ((l = [LAbort] \/ exists bs, l = [LBody bs; LAbort]) /\ w' = WClosed)).
Lemma write_body_effect c room k b : body_effect k (k_write_body c room k b).
Proof.
  unfold k_write_body. destruct (k_writing k) eqn:Ew; try (left; reflexivity). right.
  destruct (encode_buf (c_take_vec c) e b) as [e' eb].
  pose proof (k_buffer_frame room k eb) as (A & B' & C & D).
  destruct (enc_is_eof e'); cbn [negb].
  - exists e, [LBody (buf_bytes eb); LEnd], (if is_last e' then WClosed else WKeepAlive). cbn. rewrite A, <- app_assoc.
    repeat split; auto. right. left. split; [right; eauto|]. destruct (is_last e'); auto.
  - exists e, [LBody (buf_bytes eb)], (WBody e'). cbn. rewrite A.
    repeat split; auto. left. eauto.
Qed.
Lemma write_trailers_effect c room k t : body_effect k (k_write_trailers c room k t).
Proof.
  unfold k_write_trailers. destruct (c_server c && negb (k_trailers k)); [left; reflexivity|].
  destruct (k_writing k) eqn:Ew; try (left; reflexivity).
  destruct (encode_trailers e t (c_title c)) as [out|]; [|left; reflexivity]. right.
  match goal with |- context [k_buffer room k ?b] => pose proof (k_buffer_frame room k b) as (A & B' & C & D) end.
  exists e, [LBody out; LEnd], (if is_last e || is_close_delimited e then WClosed else WKeepAlive). cbn. rewrite A.
  repeat split; auto. right. left. split; [right; eauto|]. destruct (is_last e || is_close_delimited e); auto.
Qed.
Lemma write_body_and_end_effect c room k b : body_effect k (k_write_body_and_end c room k b).
Proof.
  unfold k_write_body_and_end. destruct (k_writing k) eqn:Ew; try (left; reflexivity). right.
  match goal with |- context [k_buffer room k ?b] => pose proof (k_buffer_frame room k b) as (A & B' & C & D); remember b as eb end.
  destruct (ekind e) as [to|n|] eqn:Ek.
  - exists e, [LBody (buf_bytes eb); LEnd], (if negb (is_last e) then WKeepAlive else WClosed). cbn. rewrite A. repeat split; auto.
    right. left. split; [right; eauto|]. destruct (is_last e); auto.
  - destruct (brem b <? n) eqn:Es.
    + exists e, [LBody (buf_bytes eb); LAbort], WClosed. cbn. rewrite A. repeat split; auto. right. right. eauto.
    + exists e, [LBody (buf_bytes eb); LEnd], (if negb (is_last e) then WKeepAlive else WClosed). cbn. rewrite A. repeat split; auto.
      right. left. split; [right; eauto|]. destruct (is_last e); auto.
  - exists e, [LBody (buf_bytes eb); LEnd], WClosed. cbn. rewrite A. repeat split; auto.
    right. left. split; [right; eauto|]. auto.
Qed.
Lemma end_body_effect room k : body_effect k (fst (k_end_body room k)).
Proof.
  unfold k_end_body. destruct (k_writing k) eqn:Ew; try (left; reflexivity). right.
  destruct (enc_end e) as [out|err]; cbn [fst].
  - pose proof (k_buffer_frame room k end_buf) as (A & B' & C & D).
    destruct out as [|o out].
    + exists e, [LEnd], (if is_last e || is_close_delimited e then WClosed else WKeepAlive). cbn. repeat split; auto.
      right. left. split; [auto|]. destruct (is_last e || is_close_delimited e); auto.
    + exists e, [LBody (o :: out); LEnd], (if is_last e || is_close_delimited e then WClosed else WKeepAlive). cbn.
      rewrite A, <- app_assoc. repeat split; auto.
      right. left. split; [right; eauto|]. destruct (is_last e || is_close_delimited e); auto.
  - exists e, [LAbort], WClosed. cbn. repeat split; auto 10.
Qed.
Lemma SI_effect fl k k' : SI fl k -> body_effect k k' -> SI fl k'.
Proof.
  intros H [->|(e & l & w' & A & B' & C & D & _ & F)]; [exact H|]. eapply SI_body; eauto.
Qed.
