(* The write buffer: what is pending, and what flushing does to it. *)
From Verif Require Import Base M_Encode M_Buf M_WriteBuf S_Buf L_Buf.

Definition wb_den (w : wbuf) : bytes := cur_chunk (whead w) ++ bl_den (wqueue w).
Definition wb_wf (w : wbuf) : Prop :=
  cpos (whead w) <= lenN (cbytes (whead w)) /\ Forall good_buf (wqueue w) /\
  (wflat w = true -> wqueue w = []).

Lemma cur_rem_chunk c : cur_rem c = lenN (cur_chunk c).
Proof. unfold cur_rem, cur_chunk. now rewrite dropN_len. Qed.
Lemma wb_rem_den w : wb_rem w = lenN (wb_den w).
Proof. unfold wb_rem, wb_den. now rewrite lenN_app, cur_rem_chunk, bl_rem_den. Qed.
Lemma wb_new_wf flat max : wb_wf (wb_new flat max).
Proof. unfold wb_wf. cbn. split; [lia|]. auto. Qed.

Lemma flatten_spec f : forall b acc, wf_buf b -> lenN (den b) < N.of_nat f ->
  flatten f b acc = Some (acc ++ den b).
Proof.
  induction f as [|f IH]; intros b acc W H; [lia|]. cbn [flatten].
  destruct (bchunk b) as [|x s] eqn:E.
  - assert (den b = []) as ->; [|now rewrite app_nil_r].
    destruct (den b) eqn:D; auto. exfalso. apply (bchunk_nonempty b W); [now rewrite D|exact E].
  - rewrite <- E. destruct (bchunk_prefix b) as [r P].
    assert (0 < lenN (bchunk b)) as L. { rewrite E, lenN_cons. lia. }
    destruct (badv_spec b (lenN (bchunk b))) as (b' & E1 & E2 & E3 & E4 & E5).
    { rewrite P, lenN_app. lia. }
    rewrite E1, IH; auto.
    + rewrite E2, P. rewrite dropN_app_ge by lia. rewrite N.sub_diag, dropN_0. now rewrite app_assoc.
    + rewrite E2, dropN_len. rewrite P, lenN_app in *. lia.
Qed.

Lemma unshift_spec room c : cpos c <= lenN (cbytes c) ->
  cur_chunk (maybe_unshift room c) = cur_chunk c /\
  cpos (maybe_unshift room c) <= lenN (cbytes (maybe_unshift room c)).
Proof.
  intros H. unfold maybe_unshift. destruct (cpos c =? 0); auto. destruct room; auto.
  unfold cur_chunk. cbn [cpos cbytes]. rewrite dropN_0. split; [auto|lia].
Qed.

Lemma wb_buffer_spec room w b : wb_wf w -> good_buf b ->
  exists w', wb_buffer room w b = Some w' /\ wb_wf w' /\ wb_den w' = wb_den w ++ den b /\
             wmax w' = wmax w /\ wflat w' = wflat w /\
             (length (wqueue w') <= S (length (wqueue w)))%nat.
Proof.
  intros (P & G & F) GB. unfold wb_buffer. destruct (wflat w) eqn:FL.
  - destruct (unshift_spec room (whead w) P) as [U1 U2].
    destruct GB as (W & V & D). rewrite flatten_spec; [|auto|rewrite brem_den; lia].
    eexists. split; [reflexivity|]. specialize (F eq_refl). rewrite F.
    unfold wb_wf, wb_den, cur_chunk. cbn [whead wqueue wflat wmax cpos cbytes]. rewrite F.
    rewrite lenN_app. split; [split; [lia|auto]|]. split; [|auto].
    rewrite dropN_app_le by lia. fold (cur_chunk (maybe_unshift room (whead w))). rewrite U1.
    unfold cur_chunk, bl_den. cbn. now rewrite !app_nil_r.
  - eexists. split; [reflexivity|]. unfold wb_wf, wb_den, bl_push. cbn [whead wqueue wflat wmax].
    split; [split; [auto|split; [|congruence]]|].
    + apply Forall_app. auto.
    + rewrite bl_den_app. unfold bl_den at 2. cbn [map concat]. rewrite app_nil_r.
      rewrite app_assoc. split; auto. split; auto. split; auto. rewrite app_length. cbn. lia.
Qed.

Lemma good_queue_empty q : Forall good_buf q -> bl_den q = [] -> q = [].
Proof.
  destruct q as [|b q]; auto. intros G E. inversion G as [|? ? (_ & _ & D) _].
  rewrite bl_den_cons in E. now apply app_eq_nil in E as [? _].
Qed.
Lemma can_headers_buf_spec w : wb_wf w -> can_headers_buf w = true -> wqueue w = [].
Proof.
  intros (_ & G & _) H. apply good_queue_empty; auto. unfold can_headers_buf in H.
  apply lenN_0. rewrite <- bl_rem_den. destruct (N.ltb_spec 0 (bl_rem (wqueue w))); [easy|lia].
Qed.
Lemma wb_head_spec w bs : wb_wf w -> can_headers_buf w = true ->
  wb_wf (wb_head w bs) /\ wb_den (wb_head w bs) = wb_den w ++ bs.
Proof.
  intros W C. pose proof (can_headers_buf_spec w W C) as Q. destruct W as (P & G & F).
  unfold wb_wf, wb_den, wb_head. cbn [whead wqueue wflat cpos cbytes]. rewrite Q.
  rewrite lenN_app. split; [split; [lia|auto]|]. unfold cur_chunk. cbn [cpos cbytes bl_den map concat].
  rewrite !app_nil_r. now rewrite dropN_app_le by lia.
Qed.

Lemma wb_adv_spec w n : wb_wf w -> n <= lenN (wb_den w) ->
  exists w', wb_adv n w = Some w' /\ wb_wf w' /\ wb_den w' = dropN n (wb_den w) /\
             wmax w' = wmax w /\ wflat w' = wflat w /\ (length (wqueue w') <= length (wqueue w))%nat.
Proof.
  intros (P & G & F) H. unfold wb_adv. unfold wb_den in *. rewrite cur_rem_chunk.
  rewrite lenN_app in H.
  destruct (N.compare_spec (lenN (cur_chunk (whead w))) n) as [E|E|E].
  - eexists. split; [reflexivity|]. unfold wb_wf, cur_reset, cur_chunk at 1.
    cbn [whead wqueue wflat wmax cpos cbytes]. split; [split; [cbn; lia|auto]|].
    cbn [dropN app]. split; [|auto]. rewrite dropN_app_ge by lia. rewrite E, N.sub_diag. now rewrite dropN_0.
  - destruct (bl_adv_spec (wqueue w) (n - lenN (cur_chunk (whead w)))) as (q & Q1 & Q2 & Q3 & Q4); [auto|lia|].
    rewrite Q1. eexists. split; [reflexivity|]. unfold wb_wf, cur_reset, cur_chunk at 1.
    cbn [whead wqueue wflat wmax cpos cbytes]. split; [split; [cbn; lia|split; auto]|].
    + intros X. specialize (F X). rewrite F in *. destruct q; auto. cbn in Q4. lia.
    + cbn [dropN app]. split; [|auto]. rewrite Q2. now rewrite dropN_app_ge by lia.
  - eexists. split; [reflexivity|]. unfold wb_wf, cur_adv.
    cbn [whead wqueue wflat wmax cpos cbytes]. split; [split; [|auto]|].
    + rewrite <- cur_rem_chunk in E. unfold cur_rem in E. lia.
    + split; [|auto]. rewrite dropN_app_le by lia. f_equal. unfold cur_chunk. cbn [cpos cbytes].
      rewrite dropN_dropN. f_equal. lia.
Qed.

Lemma wb_vec_view k w : wb_wf w -> view_of k (wb_vec k w) (wb_den w).
Proof.
  intros (P & G & F). unfold wb_vec, wb_den. apply view_app.
  - destruct (Nat.eqb_spec k 0) as [->|Hk].
    { unfold view_of. cbn. split; [lia|]. split; [now eexists|]. split; [lia|auto]. }
    destruct (N.ltb_spec 0 (cur_rem (whead w))) as [L|L].
    + rewrite cur_rem_chunk in L. unfold view_of. cbn [concat length]. rewrite app_nil_r.
      split; [lia|]. split; [exists []; now rewrite app_nil_r|]. split; auto.
      constructor; auto. intros E. rewrite E in L. cbn in L. lia.
    + assert (cur_chunk (whead w) = []) as ->. { apply lenN_0. rewrite <- cur_rem_chunk. lia. }
      unfold view_of. cbn. split; [lia|]. split; [now exists []|]. auto.
  - apply bl_vec_view. auto.
Qed.

(* ------------------------------------------------------------------ *)
(* Flushing *)
Definition flush_ok (w : wbuf) (sent : bytes) (o : flush_out) : Prop :=
  let '(w', _, sent', r) := o in
  wb_wf w' /\ sent' ++ wb_den w' = sent ++ wb_den w /\
  (r = Ready (Ok tt) -> wb_den w' = []) /\ r <> Ready (Err EPanicW) /\
  wmax w' = wmax w /\ wflat w' = wflat w /\ (length (wqueue w') <= length (wqueue w))%nat.

Lemma io_flush_ok w sent evs : wb_wf w -> wb_den w = [] -> flush_ok w sent (io_flush w sent evs).
Proof.
  intros W D. destruct evs as [|[| |a] r]; cbn [io_flush flush_ok]; repeat (split; auto; try easy).
Qed.
Lemma flush_ok_trans w1 w2 s1 s2 o :
  s2 ++ wb_den w2 = s1 ++ wb_den w1 -> wmax w2 = wmax w1 -> wflat w2 = wflat w1 ->
  (length (wqueue w2) <= length (wqueue w1))%nat ->
  flush_ok w2 s2 o -> flush_ok w1 s1 o.
Proof.
  intros E1 E2 E3 E4. destruct o as [[[w' evs] s'] r]. unfold flush_ok.
  intros (A & B & C & D & E & F & G). repeat (split; [now auto || congruence|]). lia.
Qed.

Lemma flush_flat_ok evs : forall w sent, wb_wf w -> wflat w = true ->
  flush_ok w sent (flush_flat w sent evs).
Proof.
  induction evs as [|e r IH]; intros w sent W F.
  - cbn. repeat (split; auto; try easy).
  - destruct e as [| |a]; cbn [flush_flat]; try (cbn; repeat (split; auto; try easy); fail).
    set (off := cur_chunk (whead w)). set (n := N.min a (lenN off)).
    set (h := cur_adv n (whead w)).
    assert (cur_chunk h = dropN n off) as CH.
    { unfold h, cur_adv, off, cur_chunk. cbn [cpos cbytes]. rewrite dropN_dropN. f_equal. lia. }
    pose proof W as (P & G & Q). specialize (Q F).
    assert (wb_wf (mkWb h (wmax w) (wqueue w) (wflat w))) as W'.
    { unfold wb_wf, h, cur_adv. cbn [whead wqueue wflat cpos cbytes]. split; auto.
      assert (n <= lenN off) by lia. unfold off in H. rewrite <- cur_rem_chunk in H.
      unfold cur_rem in H. lia. }
    assert ((sent ++ takeN n off) ++ wb_den (mkWb h (wmax w) (wqueue w) (wflat w)) = sent ++ wb_den w) as D.
    { unfold wb_den. cbn [whead wqueue]. rewrite CH. rewrite <- app_assoc. f_equal. rewrite app_assoc.
      now rewrite takeN_dropN. }
    destruct (N.eqb_spec (cur_rem h) 0) as [Z|Z].
    + rewrite cur_rem_chunk in Z. apply lenN_0 in Z.
      eapply flush_ok_trans; [| | | |apply io_flush_ok].
      * rewrite <- D. unfold wb_den. cbn [whead wqueue]. rewrite Z. unfold cur_reset, cur_chunk.
        cbn. reflexivity.
      * reflexivity.
      * reflexivity.
      * cbn. lia.
      * unfold wb_wf. cbn. split; [lia|]. split; [auto|]. auto.
      * unfold wb_den, cur_reset, cur_chunk. cbn. now rewrite Q.
    + destruct (N.eqb_spec n 0) as [Zn|Zn].
      * cbn [flush_ok]. split; auto. split; auto. repeat (split; [easy|]). cbn. lia.
      * eapply flush_ok_trans; [exact D| | | |apply IH]; auto.
Qed.

Lemma flush_queue_ok evs : forall w sent, wb_wf w -> flush_ok w sent (flush_queue w sent evs).
Proof.
  induction evs as [|e r IH]; intros w sent W.
  - cbn. repeat (split; auto; try easy).
  - destruct e as [| |a]; cbn [flush_queue]; try (cbn; repeat (split; auto; try easy); fail).
    set (off := concat (wb_vec 64 w)). set (n := N.min a (lenN off)).
    pose proof (wb_vec_view 64 w W) as V. pose proof (view_prefix_len _ _ _ V) as VL.
    destruct V as (_ & (rest & E) & _). fold off in E, VL.
    destruct (wb_adv_spec w n W) as (w' & A1 & A2 & A3 & A4 & A5 & A6); [lia|]. rewrite A1.
    assert ((sent ++ takeN n off) ++ wb_den w' = sent ++ wb_den w) as D.
    { rewrite A3. rewrite <- app_assoc. f_equal.
      replace (takeN n off) with (takeN n (wb_den w)); [now rewrite takeN_dropN|].
      rewrite E. rewrite takeN_app_le by lia. reflexivity. }
    rewrite wb_rem_den. destruct (N.eqb_spec (lenN (wb_den w')) 0) as [Z|Z].
    + eapply flush_ok_trans; [exact D|auto|auto|auto|]. apply io_flush_ok; auto. now apply lenN_0.
    + destruct (N.eqb_spec n 0) as [Zn|Zn].
      * cbn [flush_ok]. split; auto. split; auto. repeat (split; [easy|]). auto.
      * eapply flush_ok_trans; [exact D|auto|auto|auto|]. apply IH. auto.
Qed.

Lemma wb_flush_ok pipeline unread w evs : wb_wf w ->
  let '(w', _, sent, r) := wb_flush pipeline unread w evs in
  wb_wf w' /\ sent ++ wb_den w' = wb_den w /\
  (r = Ready (Ok tt) -> pipeline && unread = false -> wb_den w' = []) /\ r <> Ready (Err EPanicW) /\
  wmax w' = wmax w /\ wflat w' = wflat w /\ (length (wqueue w') <= length (wqueue w))%nat.
Proof.
  intros W. unfold wb_flush. destruct (pipeline && unread) eqn:PU.
  - repeat (split; auto; try easy).
  - assert (flush_ok w [] (if wb_rem w =? 0 then io_flush w [] evs
            else if wflat w then flush_flat w [] evs else flush_queue w [] evs)) as H.
    { destruct (N.eqb_spec (wb_rem w) 0) as [Z|Z].
      - apply io_flush_ok; auto. rewrite wb_rem_den in Z. now apply lenN_0.
      - destruct (wflat w) eqn:F; [now apply flush_flat_ok|now apply flush_queue_ok]. }
    destruct (if wb_rem w =? 0 then _ else _) as [[[w' e'] s'] r]. unfold flush_ok in H.
    destruct H as (A & B & C & D & E & F & G). repeat (split; auto).
Qed.

(* A transport that keeps accepting at least one byte completes the flush. *)
Definition accepts (e : wevent) : Prop := match e with WAccept n => 0 < n | _ => False end.

Lemma flush_flat_done evs : forall w sent, wb_wf w -> wflat w = true ->
  Forall accepts evs -> lenN (wb_den w) < lenN evs -> wb_den w <> [] ->
  snd (flush_flat w sent evs) = Ready (Ok tt).
Proof.
  induction evs as [|e r IH]; intros w sent W F A L N; [cbn in L; lia|].
  inversion A as [|? ? Ae Ar]. subst. destruct e as [| |a]; cbn in Ae; try easy.
  rewrite lenN_cons in L. cbn [flush_flat].
  pose proof W as (P & G & Q). specialize (Q F).
  assert (wb_den w = cur_chunk (whead w)) as DW. { unfold wb_den. rewrite Q. cbn. now rewrite app_nil_r. }
  rewrite DW in *. apply lenN_pos in N.
  set (off := cur_chunk (whead w)) in *. set (n := N.min a (lenN off)).
  set (h := cur_adv n (whead w)).
  assert (cur_chunk h = dropN n off) as CH.
  { unfold h, cur_adv, off, cur_chunk. cbn [cpos cbytes]. rewrite dropN_dropN. f_equal. lia. }
  destruct (N.eqb_spec (cur_rem h) 0) as [Z|Z].
  - destruct r as [|e r]; [cbn in L; lia|]. inversion Ar as [|? ? Ae' _]. destruct e; easy.
  - destruct (N.eqb_spec n 0); [lia|]. apply IH; auto.
    + unfold wb_wf, h, cur_adv. cbn [whead wqueue wflat cpos cbytes]. split; auto.
      assert (n <= lenN off) by lia. unfold off in H. rewrite <- cur_rem_chunk in H.
      unfold cur_rem in H. lia.
    + unfold wb_den. cbn [whead wqueue]. rewrite CH, Q. cbn. rewrite app_nil_r, dropN_len. lia.
    + rewrite cur_rem_chunk in Z. unfold wb_den. cbn [whead wqueue]. intros X.
      apply app_eq_nil in X as [X _]. rewrite X in Z. cbn in Z. lia.
Qed.
Lemma flush_queue_done evs : forall w sent, wb_wf w ->
  Forall accepts evs -> lenN (wb_den w) < lenN evs -> wb_den w <> [] ->
  snd (flush_queue w sent evs) = Ready (Ok tt).
Proof.
  induction evs as [|e r IH]; intros w sent W A L N; [cbn in L; lia|].
  inversion A as [|? ? Ae Ar]. subst. destruct e as [| |a]; cbn in Ae; try easy.
  rewrite lenN_cons in L. cbn [flush_queue].
  pose proof (wb_vec_view 64 w W) as V. pose proof (view_prefix_len _ _ _ V) as VL.
  assert (0 < 64)%nat as L64 by lia.
  pose proof (view_nonempty _ _ _ V L64 N) as VN. apply lenN_pos in VN.
  set (off := concat (wb_vec 64 w)) in *. set (n := N.min a (lenN off)).
  destruct (wb_adv_spec w n W) as (w' & A1 & A2 & A3 & A4 & A5 & A6); [lia|]. rewrite A1.
  rewrite wb_rem_den. destruct (N.eqb_spec (lenN (wb_den w')) 0) as [Z|Z].
  - destruct r as [|e r]; [apply lenN_pos in N; cbn in L; lia|]. inversion Ar as [|? ? Ae' _]. destruct e; easy.
  - destruct (N.eqb_spec n 0); [lia|]. apply IH; auto.
    + rewrite A3, dropN_len. lia.
    + intros X. rewrite X in Z. cbn in Z. lia.
Qed.
Lemma wb_flush_done pipeline w evs : wb_wf w ->
  Forall accepts evs -> lenN (wb_den w) < lenN evs ->
  snd (wb_flush pipeline false w evs) = Ready (Ok tt).
Proof.
  intros W A L. unfold wb_flush. rewrite andb_false_r. rewrite wb_rem_den.
  destruct (N.eqb_spec (lenN (wb_den w)) 0) as [Z|Z].
  - destruct evs as [|e r]; [cbn in L; lia|]. inversion A as [|? ? Ae _]. destruct e; easy.
  - assert (wb_den w <> []) by (intros X; rewrite X in Z; cbn in Z; lia).
    destruct (wflat w) eqn:F; [apply flush_flat_done|apply flush_queue_done]; auto.
Qed.

(* ------------------------------------------------------------------ *)
(* Histories *)
Definition hist_ok (h : whist) : Prop :=
  wb_wf (h_wb h) /\ h_wire h ++ wb_den (h_wb h) = h_queued h /\ h_flush h <> Some (Ready (Err EPanicW)).

Lemma step_ok pipeline h o : hist_ok h -> good_op o -> hist_ok (step pipeline h o).
Proof.
  intros (W & E & P) G.
  assert (hist_ok (mkHist (h_wb h) (h_queued h) (h_wire h) None)) as Same by (split; [|split]; easy).
  assert (forall room b, good_buf b -> hist_ok
    match wb_buffer room (h_wb h) b with
    | Some w => mkHist w (h_queued h ++ den b) (h_wire h) None
    | None => mkHist (h_wb h) (h_queued h) (h_wire h) (Some (Ready (Err EPanicW)))
    end) as Force.
  { intros room b GB. destruct (wb_buffer_spec room (h_wb h) b W GB) as (w' & A1 & A2 & A3 & _).
    rewrite A1. split; [|split]; cbn [h_wb h_queued h_wire h_flush]; try easy. rewrite A3, app_assoc. now rewrite E. }
  destruct o as [bs|room b|room b|unread evs]; cbn [step good_op] in *.
  - destruct (can_headers_buf (h_wb h)) eqn:C; auto.
    destruct (wb_head_spec (h_wb h) bs W C) as [A1 A2].
    split; [|split]; cbn [h_wb h_queued h_wire h_flush]; try easy. rewrite A2, app_assoc. now rewrite E.
  - destruct (can_buffer pipeline (h_wb h)); auto.
  - auto.
  - pose proof (wb_flush_ok pipeline unread (h_wb h) evs W) as F.
    destruct (wb_flush pipeline unread (h_wb h) evs) as [[[w' e'] s'] r].
    destruct F as (A & B & C & D & _). split; [|split]; cbn [h_wb h_queued h_wire h_flush]; auto.
    + rewrite <- app_assoc, B. exact E.
    + congruence.
Qed.
Lemma history_ok_from pipeline ops : forall h, hist_ok h -> Forall good_op ops ->
  hist_ok (fold_left (step pipeline) ops h).
Proof.
  induction ops as [|o ops IH]; intros h H G; auto. inversion G. cbn. apply IH; auto.
  now apply step_ok.
Qed.
Lemma history_ok pipeline flat max ops : Forall good_op ops -> hist_ok (history pipeline flat max ops).
Proof.
  intros G. apply history_ok_from; auto. split; [apply wb_new_wf|]. easy.
Qed.

(* back-pressure: an operation that is not forced *)
Definition gated (o : wop) : Prop :=
  match o with OBody _ _ | OFlush _ _ => True | _ => False end.
Definition body_at_most (m : N) (o : wop) : Prop :=
  match o with OBody _ b | OForce _ b => lenN (den b) <= m | _ => True end.

Lemma step_const pipeline h o : hist_ok h -> good_op o ->
  wmax (h_wb (step pipeline h o)) = wmax (h_wb h) /\ wflat (h_wb (step pipeline h o)) = wflat (h_wb h).
Proof.
  intros (W & E & P) G.
  destruct o as [bs|room b|room b|unread evs]; cbn [step good_op] in *.
  - destruct (can_headers_buf _); auto.
  - destruct (can_buffer _ _); auto.
    destruct (wb_buffer_spec room (h_wb h) b W G) as (w' & -> & A2 & A3 & A4 & A5 & _). auto.
  - destruct (wb_buffer_spec room (h_wb h) b W G) as (w' & -> & A2 & A3 & A4 & A5 & _). auto.
  - pose proof (wb_flush_ok pipeline unread (h_wb h) evs W) as F.
    destruct (wb_flush pipeline unread (h_wb h) evs) as [[[w' e'] s'] r]. cbn. tauto.
Qed.

Lemma gated_step m h o : hist_ok h -> good_op o -> gated o -> body_at_most m o ->
  wb_rem (h_wb (step false h o)) <= N.max (wb_rem (h_wb h)) (wmax (h_wb h) + m) /\
  (wflat (h_wb h) = false ->
   lenN (wqueue (h_wb (step false h o))) <= N.max (lenN (wqueue (h_wb h))) 16).
Proof.
  intros (W & E & P) G GA BM.
  destruct o as [bs|room b|room b|unread evs]; cbn [step good_op gated body_at_most] in *; try easy.
  - unfold can_buffer. cbn [orb]. destruct (wb_can_buffer (h_wb h)) eqn:C; [|cbn; lia].
    destruct (wb_buffer_spec room (h_wb h) b W G) as (w' & -> & A2 & A3 & A4 & A5 & A6).
    cbn [h_wb]. rewrite !wb_rem_den, A3, lenN_app. unfold wb_can_buffer in C.
    rewrite wb_rem_den in C. unfold max_buf_list_buffers, bl_cnt in C.
    destruct (wflat (h_wb h)).
    + apply N.ltb_lt in C. split; [lia|easy].
    + apply andb_true_iff in C as [C1 C2]. apply N.ltb_lt in C1, C2. split; [lia|].
      intros _. unfold lenN in *. lia.
  - pose proof (wb_flush_ok false unread (h_wb h) evs W) as F.
    destruct (wb_flush false unread (h_wb h) evs) as [[[w' e'] s'] r]. cbn [h_wb].
    destruct F as (A & B & C & D & _ & _ & L). rewrite !wb_rem_den. rewrite <- B.
    rewrite lenN_app. split; [lia|]. intros _. unfold lenN. lia.
Qed.
Lemma gated_run m ops : forall h, hist_ok h -> Forall good_op ops -> Forall gated ops ->
  Forall (body_at_most m) ops ->
  let h' := fold_left (step false) ops h in
  wb_rem (h_wb h') <= N.max (wb_rem (h_wb h)) (wmax (h_wb h) + m) /\
  (wflat (h_wb h) = false -> lenN (wqueue (h_wb h')) <= N.max (lenN (wqueue (h_wb h))) 16).
Proof.
  induction ops as [|o ops IH]; intros h H G GA BM; cbn [fold_left].
  - cbv zeta. split; [lia|]. intros; lia.
  - inversion G as [|? ? G1 G2]. inversion GA as [|? ? A1 A2]. inversion BM as [|? ? B1 B2]. subst.
    destruct (gated_step m h o H G1 A1 B1) as [S1 S2].
    destruct (step_const false h o H G1) as [C1 C2].
    destruct (IH (step false h o)) as [I1 I2]; auto; [now apply step_ok|].
    cbv zeta. rewrite C1, C2 in *. split; [lia|]. intros F. specialize (I2 F). specialize (S2 F). lia.
Qed.
