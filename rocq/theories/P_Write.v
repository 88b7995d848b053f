(* Theorems about buffers and the write side of a connection: C20, C21, C27. *)
From Verif Require Import Base M_HeaderMap M_Encode M_Buf M_WriteBuf S_Buf L_Buf L_WriteBuf.

(* ------------------------------------------------------------------ *)
(* C27: a list of buffers behaves as the concatenation of its buffers. *)

Theorem C27_list_remaining : forall l, bl_rem l = lenN (bl_den l).
Proof. exact bl_rem_den. Qed.

Theorem C27_list_advance : forall l n, Forall good_buf l -> n <= lenN (bl_den l) ->
  exists l', bl_adv n l = Some l' /\ bl_den l' = dropN n (bl_den l) /\ Forall good_buf l'.
Proof.
  intros l n G H. destruct (bl_adv_spec l n G H) as (l' & A & B & C & _). eauto.
Qed.

Theorem C27_list_copy : forall l n, Forall good_buf l -> n <= lenN (bl_den l) ->
  exists l', bl_copy n l = Some (takeN n (bl_den l), l') /\ bl_den l' = dropN n (bl_den l) /\
             Forall good_buf l'.
Proof. intros. now apply bl_copy_spec. Qed.

Theorem C27_list_vectored : forall l k, Forall good_buf l -> view_of k (bl_vec k l) (bl_den l).
Proof. intros. now apply bl_vec_view. Qed.

(* chunk() of a list whose buffers are not exhausted: a prefix, empty only at the end *)
Theorem C27_list_chunk : forall l, Forall good_buf l ->
  (exists r, bl_den l = bl_chunk l ++ r) /\ (bl_chunk l = [] -> bl_den l = []).
Proof.
  intros l G. split; [apply bl_chunk_prefix|]. destruct l as [|b l]; auto. cbn [bl_chunk].
  inversion G as [|? ? (W & _ & D) _]. intros E. exfalso. now apply (bchunk_nonempty b W D).
Qed.

(* Going past the end is refused, never silently accepted. *)
Theorem C27_list_copy_too_much : forall l n, lenN (bl_den l) < n -> bl_copy n l = None.
Proof.
  intros l n H. unfold bl_copy. rewrite bl_rem_den.
  destruct (N.ltb_spec (lenN (bl_den l)) n); [|lia]. destruct l as [|b l]; auto.
  rewrite bl_den_cons, lenN_app in H. rewrite !brem_den.
  destruct (N.eqb_spec (lenN (den b)) n); [lia|]. destruct (N.ltb_spec n (lenN (den b))); [lia|]. reflexivity.
Qed.

(* The composed buffers (EncodedBuf): remaining, chunk, advance and views. *)
Theorem C27_buffer : forall b k n, wf_buf b -> vec_contract b ->
  brem b = lenN (den b) /\
  (exists r, den b = bchunk b ++ r) /\ (bchunk b = [] -> den b = []) /\
  view_of k (bvec k b) (den b) /\
  (n <= lenN (den b) -> exists b', badv n b = Some b' /\ den b' = dropN n (den b) /\
                                   wf_buf b' /\ vec_contract b').
Proof.
  intros b k n W V. split; [apply brem_den|]. split; [apply bchunk_prefix|]. split.
  - intros E. destruct (den b) eqn:D; auto. exfalso. apply (bchunk_nonempty b W); [now rewrite D|auto].
  - split; [now apply bvec_view|]. intros H.
    destruct (badv_spec b n H) as (b' & A & C & _ & D & E). exists b'. auto.
Qed.

(* The buffers the encoder queues stand for the bytes the encoder writes
   (the bytes of M_Encode, on which C01 and C13 are proved). *)
Theorem C27_encode : forall v e b, wf_buf b -> vec_contract b -> den b <> [] ->
  (pieces b <= 1)%nat \/ (v = true /\ (pieces b <= 16)%nat) ->
  fst (encode_buf v e b) = fst (encode e (den b)) /\
  den (snd (encode_buf v e b)) = snd (encode e (den b)) /\
  wf_buf (snd (encode_buf v e b)) /\ vec_contract (snd (encode_buf v e b)) /\
  den (encode_and_end_buf v e b) = fst (encode_and_end e (den b)) /\
  wf_buf (encode_and_end_buf v e b) /\ vec_contract (encode_and_end_buf v e b).
Proof.
  assert (forall n, chunk_size n <> []) as CS.
  { intros n E. unfold chunk_size in E. now apply app_eq_nil in E as [_ ?]. }
  intros v e b W V D P. unfold encode_buf, encode, encode_and_end_buf, encode_and_end. rewrite brem_den.
  destruct e as [[al|r|] il]; cbn [ekind is_last].
  - cbn [fst snd den concat wf_buf vec_contract length].
    rewrite !app_nil_r. repeat rewrite <- app_assoc.
    split; auto. split; auto. split; [|split; [|split; [|split]]]; auto 10;
      repeat split; auto; try (constructor; auto; easy); try (right; cbn; lia).
  - destruct (N.ltb_spec r (lenN (den b))) as [L|L]; cbn [fst snd].
    + split; auto. split; auto. split; auto. split.
      { cbn [vec_contract]. split; auto. destruct P as [P|[-> P]]; [destruct v; lia|auto]. }
      split.
      { destruct (N.compare_spec (lenN (den b)) r); try lia. reflexivity. }
      cbn [wf_buf vec_contract]. split; auto. split; auto. destruct P as [P|[-> P]]; [destruct v; lia|auto].
    + split; auto. split; auto. split; auto. split; auto. split; auto.
      destruct (N.compare_spec (lenN (den b)) r); try lia; reflexivity.
  - cbn [fst snd]. auto 10.
Qed.
Theorem C27_encode_end : forall block, block <> [] ->
  good_buf end_buf /\ Ok (den end_buf) = enc_end enc_chunked /\
  good_buf (trailers_buf block) /\ den (trailers_buf block) = B "0" ++ CRLF ++ block ++ CRLF.
Proof.
  intros block N. unfold good_buf. split; [|split; [reflexivity|]].
  - split; [constructor; easy|]. split; [right; cbn; lia|easy].
  - split; [|cbn; now rewrite app_nil_r].
    split; [cbn; repeat split; constructor; easy|]. split; [cbn; repeat split; right; lia|easy].
Qed.

(* A chunked buffer of a three-piece body, advanced into the middle of it. *)
Definition ex_rope : buf := Segs true [B "hel"; B "lo "; B "world"].
Definition ex_chunk : buf := snd (encode_buf true enc_chunked ex_rope).
Example C27_ex_good : Forall good_buf [ex_chunk; end_buf].
Proof.
  constructor; [|constructor; [|constructor]]; (split; [|split; [|easy]]);
    cbn; repeat split; auto; repeat (constructor; try easy).
Qed.
Example C27_ex_bytes : bl_den [ex_chunk; end_buf] = B "B" ++ CRLF ++ B "hello world" ++ CRLF ++ B "0" ++ CRLF ++ CRLF.
Proof. reflexivity. Qed.
Example C27_ex_adv : exists l', bl_adv 8 [ex_chunk; end_buf] = Some l' /\
  bl_den l' = B " world" ++ CRLF ++ B "0" ++ CRLF ++ CRLF /\
  bl_vec 64 l' = [B " "; B "world"; CRLF; B "0" ++ CRLF ++ CRLF].
Proof. eexists. split; [vm_compute; reflexivity|]. split; vm_compute; reflexivity. Qed.
Example C27_ex_copy : option_map fst (bl_copy 9 [ex_chunk; end_buf]) = Some (B "B" ++ CRLF ++ B "hello ").
Proof. vm_compute. reflexivity. Qed.

(* The vectored view needs the contract of chunks_vectored.  The provided
   method of the Buf trait breaks it for buffers in several pieces: the view of
   a chunk then skips the pieces after the first. *)
Theorem C27_default_vectored_refuted : exists b k,
  wf_buf b /\ ~ vec_contract b /\ bvec k b = [B "6" ++ CRLF; B "foo"; CRLF] /\
  den b = B "6" ++ CRLF ++ B "foobar" ++ CRLF /\ ~ view_of k (bvec k b) (den b).
Proof.
  exists (snd (encode_buf true enc_chunked (Segs false [B "foo"; B "bar"]))), 64%nat.
  split; [cbn; repeat split; repeat (constructor; try easy)|]. split.
  { cbn. intros [[_ [H|H]] _]; [easy|lia]. }
  split; [vm_compute; reflexivity|]. split; [vm_compute; reflexivity|].
  intros (_ & (r & E) & _). vm_compute in E. discriminate.
Qed.

(* ------------------------------------------------------------------ *)
(* C20: outgoing bytes are written exactly once and in order. *)

(* At every moment the bytes accepted by the transport are a prefix of what was
   queued; the missing part is exactly what the buffer still reports. *)
Theorem C20_write_fifo : forall pipeline flat max ops, Forall good_op ops ->
  let h := history pipeline flat max ops in
  exists pending, h_queued h = h_wire h ++ pending /\ wb_rem (h_wb h) = lenN pending /\
                  h_flush h <> Some (Ready (Err EPanicW)).
Proof.
  intros pipeline flat max ops G h. destruct (history_ok pipeline flat max ops G) as (W & E & P).
  fold h in W, E, P. exists (wb_den (h_wb h)). split; auto. split; auto. apply wb_rem_den.
Qed.

(* A flush that completes has handed over everything.  (With pipeline_flush and
   unread input, poll_flush returns success without writing: excluded.) *)
Theorem C20_flush_complete : forall pipeline flat max ops unread evs, Forall good_op ops ->
  pipeline && unread = false ->
  let h := history pipeline flat max (ops ++ [OFlush unread evs]) in
  h_flush h = Some (Ready (Ok tt)) -> h_wire h = h_queued h /\ wb_rem (h_wb h) = 0.
Proof.
  intros pipeline flat max ops unread evs G PU. unfold history. rewrite fold_left_app.
  pose proof (history_ok pipeline flat max ops G) as (W & E & _). unfold history in W, E.
  set (h0 := fold_left (step pipeline) ops _) in *. cbn [fold_left step].
  pose proof (wb_flush_ok pipeline unread (h_wb h0) evs W) as F.
  destruct (wb_flush pipeline unread (h_wb h0) evs) as [[[w' e'] s'] r].
  cbn [h_flush h_wire h_queued h_wb]. intros X. injection X as X.
  destruct F as (A & B & C & _). specialize (C X PU). rewrite C, app_nil_r in B.
  rewrite wb_rem_den, C. split; auto. rewrite B. exact E.
Qed.

(* A transport that accepts at least one byte per call completes the flush. *)
Theorem C20_flush_progress : forall pipeline flat max ops evs, Forall good_op ops ->
  Forall accepts evs -> wb_rem (h_wb (history pipeline flat max ops)) < lenN evs ->
  h_flush (history pipeline flat max (ops ++ [OFlush false evs])) = Some (Ready (Ok tt)).
Proof.
  intros pipeline flat max ops evs G A L. unfold history in *. rewrite fold_left_app.
  pose proof (history_ok pipeline flat max ops G) as (W & E & _). unfold history in W, E.
  set (h0 := fold_left (step pipeline) ops _) in *. cbn [fold_left step].
  rewrite wb_rem_den in L. pose proof (wb_flush_done pipeline (h_wb h0) evs W A L) as D.
  destruct (wb_flush pipeline false (h_wb h0) evs) as [[[w' e'] s'] r]. cbn in *. now rewrite D.
Qed.

(* A flush reports what the transport answers: it goes on while the transport
   accepts, and ends with the first answer that is none - waiting, an error - with
   a write that accepts nothing, or with the transport's own flush. *)
Definition accepted (e : wevent) : Prop := exists n, e = WAccept n.
Definition reported (evs : list wevent) (o : flush_out) : Prop :=
  let '(_, rest, _, r) := o in exists used, Forall accepted used /\
  match r with
  | Ready (Ok tt) => used <> [] /\ evs = used ++ rest
  | Ready (Err ETransportW) => evs = used ++ WFail :: rest
  | Ready (Err EWriteZero) => evs = used ++ WAccept 0 :: rest
  | Ready (Err EPanicW) => False
  | Pending => evs = used ++ WPending :: rest \/ (evs = used /\ rest = [])
  end.
Lemma reported_cons e evs o : accepted e -> reported evs o -> reported (e :: evs) o.
Proof.
  intros A. destruct o as [[[w rest] sent] r]. cbn. intros (used & F & H). exists (e :: used). split; [constructor; auto|].
  destruct r as [|[[]|[]]]; auto; try (now rewrite H). - destruct H as [-> | [-> ->]]; [left|right]; auto. - destruct H as [_ ->]. split; [discriminate|reflexivity].
Qed.
Lemma reported_io w sent evs : reported evs (io_flush w sent evs).
Proof.
  destruct evs as [|[| |n] r]; cbn.
  - exists []. auto.
  - exists []. auto.
  - exists []. auto.
  - exists [WAccept n]. split; [constructor; [now exists n|constructor]|]. split; [discriminate|reflexivity].
Qed.
Lemma reported_flat evs : forall w sent, wb_wf w -> wflat w = true -> wb_den w <> [] -> reported evs (flush_flat w sent evs).
Proof.
  induction evs as [|e r IH]; intros w sent W F D; [exists []; auto|]. destruct e as [| |a]; cbn [flush_flat]; try (exists []; auto; fail).
  pose proof W as (P & G & Q). specialize (Q F). assert (wb_den w = cur_chunk (whead w)) as DW by (unfold wb_den; rewrite Q; apply app_nil_r). rewrite DW in D. apply lenN_pos in D.
  set (off := cur_chunk (whead w)) in *. set (n := N.min a (lenN off)). set (h := cur_adv n (whead w)).
  assert (cur_chunk h = dropN n off) as CH by (unfold h, cur_adv, off, cur_chunk; cbn [cpos cbytes]; rewrite dropN_dropN; f_equal; lia).
  destruct (N.eqb_spec (cur_rem h) 0) as [Z|Z]; [apply reported_cons; [now exists a|apply reported_io]|].
  destruct (N.eqb_spec n 0) as [Zn|Zn].
  - exists []. split; [constructor|]. cbn [app]. repeat f_equal. lia.
  - apply reported_cons; [now exists a|]. apply IH; auto.
    + unfold wb_wf, h, cur_adv. cbn [whead wqueue wflat cpos cbytes]. split; auto. assert (n <= lenN off) as H by lia. unfold off in H. rewrite <- cur_rem_chunk in H. unfold cur_rem in H. lia.
    + unfold wb_den. cbn [whead wqueue]. rewrite cur_rem_chunk in Z. intros X. apply app_eq_nil in X as [X _]. rewrite X in Z. cbn in Z. lia.
Qed.
Lemma reported_queue evs : forall w sent, wb_wf w -> wb_den w <> [] -> reported evs (flush_queue w sent evs).
Proof.
  induction evs as [|e r IH]; intros w sent W D; [exists []; auto|]. destruct e as [| |a]; cbn [flush_queue]; try (exists []; auto; fail).
  pose proof (wb_vec_view 64 w W) as V. pose proof (view_prefix_len _ _ _ V) as VL. assert (0 < 64)%nat as L64 by lia.
  pose proof (view_nonempty _ _ _ V L64 D) as VN. apply lenN_pos in VN. set (off := concat (wb_vec 64 w)) in *. set (n := N.min a (lenN off)).
  destruct (wb_adv_spec w n W) as (w' & A1 & A2 & A3 & A4 & A5 & A6); [lia|]. rewrite A1, wb_rem_den.
  destruct (N.eqb_spec (lenN (wb_den w')) 0) as [Z|Z]; [apply reported_cons; [now exists a|apply reported_io]|].
  destruct (N.eqb_spec n 0) as [Zn|Zn].
  - exists []. split; [constructor|]. cbn [app]. repeat f_equal. lia.
  - apply reported_cons; [now exists a|]. apply IH; auto. intros X. rewrite X in Z. cbn in Z. lia.
Qed.
Theorem C20_flush_reports : forall pipeline unread w evs, wb_wf w -> pipeline && unread = false ->
  reported evs (wb_flush pipeline unread w evs).
Proof.
  intros pipeline unread w evs W PU. unfold wb_flush. rewrite PU, wb_rem_den. destruct (N.eqb_spec (lenN (wb_den w)) 0) as [Z|Z]; [apply reported_io|].
  assert (wb_den w <> []) by (intros X; rewrite X in Z; cbn in Z; lia). destruct (wflat w) eqn:F; [now apply reported_flat|now apply reported_queue].
Qed.

Example C20_ex_reports : let w := wb_head (wb_new true 8192) (B "HEAD") in
  wb_wf w /\ snd (wb_flush false false w [WAccept 3; WFail; WAccept 1]) = Ready (Err ETransportW) /\
  snd (wb_flush false false w [WAccept 4; WFail]) = Ready (Err ETransportW).
Proof. split; [|split; vm_compute; reflexivity]. split; [cbn; lia|]. split; [constructor|reflexivity]. Qed.

Definition ex_ops : list wop :=
  [OHead (B "HEAD1|"); OBody true ex_chunk; OFlush false [WAccept 3; WAccept 5; WPending];
   OForce true end_buf; OHead (B "HEAD2|"); OFlush false [WAccept 4; WFail];
   OFlush false [WAccept 100; WAccept 0]; OHead (B "HEAD3|")].
Example C20_ex_good : Forall good_op ex_ops.
Proof.
  pose proof C27_ex_good as G. inversion G as [|? ? G1 G']. inversion G' as [|? ? G2 _].
  repeat (constructor; [cbn [good_op]; auto|]). constructor.
Qed.
(* Queue strategy: HEAD2 is held back while the body is not flushed. *)
Example C20_ex_queue : let h := history false false 8192 ex_ops in
  h_wire h = B "HEAD1|" ++ den ex_chunk ++ den end_buf /\
  h_queued h = B "HEAD1|" ++ den ex_chunk ++ den end_buf ++ B "HEAD3|".
Proof. vm_compute. split; reflexivity. Qed.
Example C20_ex_flat : let h := history false true 8192 ex_ops in
  h_wire h = B "HEAD1|" ++ den ex_chunk ++ den end_buf ++ B "HEAD2|" /\
  h_queued h = B "HEAD1|" ++ den ex_chunk ++ den end_buf ++ B "HEAD2|HEAD3|".
Proof. vm_compute. split; reflexivity. Qed.

(* Without the chunks_vectored contract the bytes on the wire are wrong. *)
Theorem C20_default_vectored_refuted : exists b ops, wf_buf b /\
  let h := history false false 8192 (OBody true b :: ops) in
  h_queued h = B "6" ++ CRLF ++ B "foobar" ++ CRLF /\
  h_wire h = B "6" ++ CRLF ++ B "foo" ++ CRLF ++ B "r" ++ CRLF.
Proof.
  exists (snd (encode_buf true enc_chunked (Segs false [B "foo"; B "bar"]))),
         [OFlush false [WAccept 1000; WAccept 1000; WAccept 1000]].
  split; [cbn; repeat split; repeat (constructor; try easy)|]. vm_compute. split; reflexivity.
Qed.

(* Without the gate on heads (debug_assert in headers_mut) order is lost: a head
   appended while body bytes are queued overtakes them. *)
Theorem C20_ungated_head_refuted : exists w bs, wb_wf w /\ can_headers_buf w = false /\
  wb_den w = B "body" /\ wb_den (wb_head w bs) = bs ++ B "body" /\ bs <> [].
Proof.
  exists (mkWb (mkCur [] 0) 8192 [Segs false [B "body"]] false), (B "HEAD").
  split; [|split; [vm_compute; reflexivity|split; [reflexivity|split; [reflexivity|easy]]]].
  split; [cbn; lia|]. split; [|easy].
  constructor; [|constructor]. split; [cbn; repeat (constructor; try easy)|]. split; [right; cbn; lia|easy].
Qed.

(* ------------------------------------------------------------------ *)
(* C21: write back-pressure. *)

(* However much is already waiting (heads and ends of bodies are not gated),
   operations that respect can_buffer() never take the waiting bytes above the
   configured maximum plus one body buffer, nor the queue above 16 buffers. *)
Theorem C21_backpressure : forall flat max m ops1 ops2,
  Forall good_op ops1 -> Forall good_op ops2 -> Forall gated ops2 -> Forall (body_at_most m) ops2 ->
  let h1 := history false flat max ops1 in
  let h := history false flat max (ops1 ++ ops2) in
  wb_rem (h_wb h) <= N.max (wb_rem (h_wb h1)) (max + m) /\
  (flat = false -> lenN (wqueue (h_wb h)) <= N.max (lenN (wqueue (h_wb h1))) 16).
Proof.
  intros flat max m ops1 ops2 G1 G2 GA BM. unfold history. rewrite fold_left_app.
  pose proof (history_ok false flat max ops1 G1) as H1. unfold history in H1.
  assert (wmax (h_wb (history false flat max ops1)) = max /\
          wflat (h_wb (history false flat max ops1)) = flat) as [C1 C2].
  { unfold history. assert (hist_ok (mkHist (wb_new flat max) [] [] None)) as H0.
    { split; [apply wb_new_wf|easy]. }
    assert (wmax (h_wb (mkHist (wb_new flat max) [] [] None)) = max) as E1 by reflexivity.
    assert (wflat (h_wb (mkHist (wb_new flat max) [] [] None)) = flat) as E2 by reflexivity.
    revert H0 E1 E2. generalize (mkHist (wb_new flat max) [] [] None). clear -G1.
    induction G1 as [|o ops Go G IH]; intros h H0 E1 E2; cbn [fold_left]; auto.
    destruct (step_const false h o H0 Go) as [S1 S2]. apply IH; [now apply step_ok|congruence|congruence]. }
  unfold history in C1, C2.
  destruct (gated_run m ops2 _ H1 G2 GA BM) as [R1 R2]. rewrite C1, C2 in *. auto.
Qed.
(* From a fresh connection, or whenever everything has been flushed. *)
Theorem C21_backpressure_fresh : forall flat max m ops1 ops2,
  Forall good_op ops1 -> Forall good_op ops2 -> Forall gated ops2 -> Forall (body_at_most m) ops2 ->
  wb_rem (h_wb (history false flat max ops1)) <= max ->
  wb_rem (h_wb (history false flat max (ops1 ++ ops2))) <= max + m.
Proof.
  intros flat max m ops1 ops2 G1 G2 GA BM L.
  destruct (C21_backpressure flat max m ops1 ops2 G1 G2 GA BM) as [H _]. cbv zeta in H. lia.
Qed.

(* With the maximum that is set if the user sets none, 408 KiB *)
Theorem C21_default : forall flat m ops1 ops2,
  Forall good_op ops1 -> Forall good_op ops2 -> Forall gated ops2 -> Forall (body_at_most m) ops2 ->
  wb_rem (h_wb (history false flat default_max_buffer_size ops1)) = 0 ->
  wb_rem (h_wb (history false flat default_max_buffer_size (ops1 ++ ops2))) <= 417792 + m.
Proof. intros flat m ops1 ops2 G1 G2 GA BM L. apply (C21_backpressure_fresh flat default_max_buffer_size m ops1 ops2 G1 G2 GA BM). rewrite L. vm_compute. discriminate. Qed.

Example C21_ex : let b := Segs true [B "0123456789"] in
  let ops := [OBody true b; OBody true b; OBody true b] in
  wb_rem (h_wb (history false true 15 ops)) = 20 /\ Forall gated ops /\
  Forall (body_at_most 10) ops /\ Forall good_op ops.
Proof.
  split; [vm_compute; reflexivity|]. split; [repeat constructor|].
  assert (good_buf (Segs true [B "0123456789"])).
  { split; [repeat (constructor; try easy)|]. split; [now left|easy]. }
  split; repeat (constructor; [cbn; first [assumption|lia]|]); constructor.
Qed.

(* pipeline_flush switches the gate off: there is no bound at all. *)
Theorem C21_pipeline_flush_refuted : forall bound, exists ops,
  Forall good_op ops /\ Forall gated ops /\ Forall (body_at_most 1) ops /\
  bound < wb_rem (h_wb (history true true 8192 ops)).
Proof.
  intros bound. set (b := Segs true [[65]]).
  assert (good_buf b) as G. { split; [repeat (constructor; try easy)|]. split; [now left|easy]. }
  exists (repeat (OBody true b) (S (N.to_nat bound))).
  split; [apply Forall_forall; intros x H; apply repeat_spec in H; now subst|].
  split; [apply Forall_forall; intros x H; apply repeat_spec in H; now subst|].
  split; [apply Forall_forall; intros x H; apply repeat_spec in H; subst; cbn; lia|].
  assert (forall k h, hist_ok h ->
    wb_rem (h_wb (fold_left (step true) (repeat (OBody true b) k) h)) = wb_rem (h_wb h) + N.of_nat k) as K.
  { induction k as [|k IH]; intros h H; cbn [repeat fold_left]; [lia|].
    rewrite IH by (apply step_ok; auto). cbn [step]. unfold can_buffer. cbn [orb].
    destruct H as (W & _). destruct (wb_buffer_spec true (h_wb h) b W G) as (w' & E1 & _ & E3 & _).
    rewrite E1. cbn [h_wb]. rewrite !wb_rem_den, E3, lenN_app. cbn [den concat b app].
    change (lenN [65]) with 1. lia. }
  unfold history. rewrite K; [cbn; lia|]. split; [apply wb_new_wf|easy].
Qed.

Print Assumptions C27_list_remaining.
Print Assumptions C27_list_advance.
Print Assumptions C27_list_copy.
Print Assumptions C27_list_vectored.
Print Assumptions C27_list_chunk.
Print Assumptions C27_list_copy_too_much.
Print Assumptions C27_buffer.
Print Assumptions C27_encode.
Print Assumptions C27_encode_end.
Print Assumptions C27_default_vectored_refuted.
Print Assumptions C20_write_fifo.
Print Assumptions C20_flush_complete.
Print Assumptions C20_flush_progress.
Print Assumptions C20_default_vectored_refuted.
Print Assumptions C20_ungated_head_refuted.
Print Assumptions C21_backpressure.
Print Assumptions C21_backpressure_fresh.
Print Assumptions C21_pipeline_flush_refuted.
Print Assumptions C20_flush_reports.
