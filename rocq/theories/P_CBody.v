(* C81: bodies and transport of the C interface. *)
From Coq Require Import ZArith.
From Verif Require Import Base M_HeaderMap M_Headers M_Incoming M_WriteBuf M_ReadBuf M_CBody S_Buf L_Buf L_WriteBuf P_Incoming P_ReadBuf.

(* ---- Spec ---- *)
(* The data among frames, and the frames that a C application is told of: no
   trailers *)
Definition data_in (l : list cframe) : list bytes := flat_map (fun x => match x with CfData d => [d] | _ => [] end) l.
Definition told_of (l : list cframe) : list cdata := flat_map (fun x => match x with CfData d => [CdBuf d] | CfFail => [CdErr] | CfEnd => [CdNone] | _ => [] end) l.
Definition completed (l : list (poll cdata)) : list cdata := flat_map (fun x => match x with Ready a => [a] | Pending => [] end) l.
Definition bufs (l : list cdata) : list bytes := flat_map (fun x => match x with CdBuf d => [d] | _ => [] end) l.
Definition goes (x : cframe) : Prop := x <> CfEnd /\ x <> CfFail.
(* What an Incoming answered, from the log of its channel; when it had nothing, it
   answered Pending any number of times *)
Definition answered (l : list ievent) : list cframe :=
  flat_map (fun e => match e with RData d => [CfData d] | RTrailers t => [CfTrailers t] | RFail => [CfFail] | REnd => [CfEnd] | _ => [] end) l.
Definition not_pending (x : cframe) : bool := match x with CfPending => false | _ => true end.
Definition polled (l : list ievent) (fs : list cframe) : Prop := filter not_pending fs = answered l.

Lemma told_of_app a b : told_of (a ++ b) = told_of a ++ told_of b.
Proof. apply flat_map_app. Qed.
Lemma data_in_app a b : data_in (a ++ b) = data_in a ++ data_in b.
Proof. apply flat_map_app. Qed.

(* ---- hyper_body_data ---- *)
Lemma data_one l : let '(a, r) := cb_data l in exists used, l = used ++ r /\ told_of used = completed [a].
Proof.
  induction l as [|[|d|t| |] l IH]; cbn [cb_data].
  - exists []. auto.
  - exists [CfPending]. auto.
  - exists [CfData d]. auto.
  - destruct (cb_data l) as [a r]. destruct IH as (used & -> & E). exists (CfTrailers t :: used). auto.
  - exists [CfFail]. auto.
  - exists [CfEnd]. auto.
Qed.
(* The tasks complete with exactly the data of the body, its errors and its end, one
   after the other; only trailers are left out *)
Theorem C81_data : forall n l rs r, cb_datas n l = (rs, r) -> exists used, l = used ++ r /\ completed rs = told_of used.
Proof.
  induction n as [|n IH]; intros l rs r E; cbn [cb_datas] in E; [injection E as <- <-; exists []; auto|].
  pose proof (data_one l) as D. destruct (cb_data l) as [a l1]. destruct (cb_datas n l1) as [rs1 r1] eqn:E1. injection E as <- <-. destruct D as (u1 & -> & T1). destruct (IH _ _ _ E1) as (u2 & -> & T2).
  exists (u1 ++ u2). split; [now rewrite app_assoc|]. rewrite told_of_app, T1, <- T2. cbn [completed flat_map]. destruct a; reflexivity.
Qed.
(* ---- hyper_body_foreach ---- *)
(* [calls]: the chunks the callback was given; all of them but the last one were
   answered with HYPER_ITER_CONTINUE *)
Definition all_continue (f : list bytes -> bytes -> Z) (calls : list bytes) : Prop :=
  forall a d b, calls = a ++ d :: b -> f a d = 0%Z.
Definition each_end (f : list bytes -> bytes -> Z) (o : poll ceach) (calls : list bytes) (l r : list cframe) : Prop :=
  match o with
  | Pending => exists used, l = used ++ r /\ Forall goes used /\ calls = data_in used /\ all_continue f calls
  | Ready CeOk => exists used, l = used ++ CfEnd :: r /\ Forall goes used /\ calls = data_in used /\ all_continue f calls
  | Ready CeErr => exists used, l = used ++ CfFail :: r /\ Forall goes used /\ calls = data_in used /\ all_continue f calls
  | Ready CeAborted => exists used d, l = used ++ CfData d :: r /\ Forall goes used /\ calls = data_in used ++ [d] /\ all_continue f (data_in used) /\ f (data_in used) d <> 0%Z
  end.
Lemma all_continue_snoc f calls d : all_continue f calls -> f calls d = 0%Z -> all_continue f (calls ++ [d]).
Proof.
  intros H E a x b Q. destruct b as [|y b] using rev_ind.
  - apply app_inj_tail in Q as [-> ->]. exact E.
  - rewrite app_comm_cons, app_assoc in Q. apply app_inj_tail in Q as [-> _]. eapply H. reflexivity.
Qed.
Lemma each_one f : forall l used, Forall goes used -> all_continue f (data_in used) ->
  let '(o, calls, r) := cb_each f (data_in used) l in each_end f o calls (used ++ l) r.
Proof.
  induction l as [|[|d|t| |] l IH]; intros used F C; cbn [cb_each].
  - exists used. auto.
  - exists (used ++ [CfPending]). rewrite <- app_assoc, data_in_app. cbn. rewrite app_nil_r. split; [reflexivity|]. split; [apply Forall_app; split; [exact F|constructor; [split; discriminate|constructor]]|auto].
  - destruct (Z.eqb_spec (f (data_in used) d) ITER_CONTINUE) as [E|E].
    + specialize (IH (used ++ [CfData d])). rewrite data_in_app in IH. cbn [data_in flat_map app] in IH.
      assert (Forall goes (used ++ [CfData d])) as F' by (apply Forall_app; split; [exact F|constructor; [split; discriminate|constructor]]).
      specialize (IH F' (all_continue_snoc f _ d C E)). rewrite <- app_assoc in IH. exact IH.
    + exists used, d. auto 10.
  - specialize (IH (used ++ [CfTrailers t])). rewrite data_in_app in IH. cbn [data_in flat_map] in IH. rewrite app_nil_r in IH.
    assert (Forall goes (used ++ [CfTrailers t])) as F' by (apply Forall_app; split; [exact F|constructor; [split; discriminate|constructor]]).
    specialize (IH F' C). rewrite <- app_assoc in IH. exact IH.
  - exists used. auto.
  - exists used. auto.
Qed.
(* The callback is given the chunks of the body in order, each once, until it does
   not answer CONTINUE: then it is not called again, and the task's value says so.
   The task succeeds only at the end of the body. *)
Theorem C81_foreach : forall n f l o calls r, cb_eaches n f [] l = (o, calls, r) -> each_end f o calls l r.
Proof.
  assert (forall n f l used, Forall goes used -> all_continue f (data_in used) -> let '(o, calls, r) := cb_eaches n f (data_in used) l in each_end f o calls (used ++ l) r) as K.
  { induction n as [|n IH]; intros f l used F C; cbn [cb_eaches]; [exists used; auto|].
    pose proof (each_one f l used F C) as E. destruct (cb_each f (data_in used) l) as [[[|v] calls] r]; [|exact E].
    destruct E as (u & -> & Fu & -> & Cu). apply IH; assumption. }
  intros n f l o calls r E. assert (all_continue f (data_in [])) as C0 by (intros a d b Q; destruct a; discriminate Q). pose proof (K n f l [] ltac:(constructor) C0) as Q. cbn [data_in flat_map app] in Q. rewrite E in Q. exact Q.
Qed.
(* ---- with the body of a message that comes in over HTTP/1 ---- *)
Lemma items_answered l : chunks (got_items l) = data_in (answered l).
Proof. induction l as [|e l IH]; [reflexivity|]. destruct e; cbn; try exact IH. f_equal. exact IH. Qed.
Lemma data_in_filter fs : data_in (filter not_pending fs) = data_in fs.
Proof. induction fs as [|[|d|t| |] fs IH]; cbn; try exact IH; auto. f_equal. exact IH. Qed.
Lemma answered_split log used x r : x <> CfPending -> filter not_pending (used ++ x :: r) = answered log ->
  exists p e q, log = p ++ e :: q /\ filter not_pending used = answered p /\ answered [e] = [x] /\ filter not_pending r = answered q.
Proof.
  intros Hx. rewrite filter_app. cbn [filter]. assert (not_pending x = true) as -> by (destruct x; auto; destruct (Hx eq_refl)). generalize (filter not_pending used) as u. clear used.
  induction log as [|e log IH]; intros u E; [destruct u; discriminate E|].
  assert (answered (e :: log) = answered [e] ++ answered log) as A by (cbn; rewrite app_nil_r; reflexivity). rewrite A in E.
  assert (answered [e] = [] \/ exists y, answered [e] = [y]) as [Z|(y & Z)] by (destruct e; cbn; eauto).
  - rewrite Z in E. destruct (IH u E) as (p & e' & q & -> & B1 & B2 & B3). exists (e :: p), e', q. split; [reflexivity|]. split; [|auto]. rewrite B1. change (e :: p) with ([e] ++ p). unfold answered. rewrite flat_map_app. fold (answered [e]). fold (answered p). now rewrite Z.
  - rewrite Z in E. destruct u as [|v u]; cbn in E; injection E as E1 E2.
    + subst y. exists [], e, log. auto.
    + destruct (IH u E2) as (p & e' & q & -> & B1 & B2 & B3). exists (e :: p), e', q. split; [reflexivity|]. split; [|auto]. change (e :: p) with ([e] ++ p). unfold answered. rewrite flat_map_app. fold (answered [e]). fold (answered p). rewrite Z, <- B1, E1. reflexivity.
Qed.
(* hyper_body_foreach succeeds only when the connection has finished the body
   without an error, and the callback was given all of its data *)
Theorem C81_received : forall len wanter acts b fs n f calls r, b_run (b_new len wanter) acts = Some b -> polled (b_log b) fs ->
  cb_eaches n f [] fs = (Ready CeOk, calls, r) ->
  exists p q, b_log b = p ++ REnd :: q /\ In SEnd p /\ ~ In SFail p /\ calls = chunks (sent_items p).
Proof.
  intros len wanter acts b fs n f calls r Hb Hp E. destruct (C81_foreach _ _ _ _ _ _ E) as (used & -> & F & -> & _).
  destruct (answered_split (b_log b) used CfEnd r ltac:(discriminate) Hp) as (p & e & q & El & A1 & A2 & _).
  assert (e = REnd) as -> by (destruct e; try discriminate A2; reflexivity).
  destruct (C37_clean_end len wanter acts b p q Hb El) as (C1 & C2 & C3 & C4). exists p, q. split; [exact El|]. split; [exact C1|]. split.
  - intros H. apply C4 in H. assert (In CfFail (answered p)) as G by (apply in_flat_map; exists RFail; split; [exact H|left; reflexivity]). rewrite <- A1 in G. apply filter_In in G as [G _]. rewrite Forall_forall in F. destruct (F _ G) as [_ G']. now apply G'.
  - rewrite <- C2, items_answered, <- A1, data_in_filter. reflexivity.
Qed.
(* ---- UserBody ---- *)
(* What the callback says is what hyper sees; a buffer goes into the body exactly
   when it comes with HYPER_POLL_READY *)
Theorem C81_user_body : forall code out,
  (fst (ub_poll code out) = CfEnd <-> code = 0%Z /\ out = None) /\
  (forall d, fst (ub_poll code out) = CfData d <-> code = 0%Z /\ out = Some d) /\
  (fst (ub_poll code out) = CfPending <-> code = 1%Z) /\
  (fst (ub_poll code out) = CfFail <-> code <> 0%Z /\ code <> 1%Z) /\
  (forall t, fst (ub_poll code out) <> CfTrailers t).
Proof.
  intros code out. unfold ub_poll, POLL_READY, POLL_PENDING. destruct (Z.eqb_spec code 0%Z) as [->|N0]; [|destruct (Z.eqb_spec code 1%Z) as [->|N1]].
  - destruct out as [d|]; cbn [fst]; repeat split; try discriminate; try congruence; try tauto; intros H; try (destruct H; congruence); discriminate H.
  - cbn [fst]. repeat split; try discriminate; try congruence; try tauto; intros; try discriminate; try tauto; lia.
  - cbn [fst]. repeat split; try discriminate; try congruence; try tauto; intros; try discriminate; try tauto.
Qed.
(* A buffer that comes with another code is lost: neither sent nor freed *)
Theorem C81_user_buffer_refuted : exists code out d, ub_poll code out = (CfPending, Some d).
Proof. exists 1%Z, (Some [1]), [1]. reflexivity. Qed.

(* ---- hyper_io ---- *)
Lemma cio_as_meant m len : len < IO_ERROR -> cio_write (cio_return m len) = match m with CmCount n => Ready (Ok (N.min n len)) | CmPending => Pending | CmError => Ready (Err tt) end.
Proof.
  intros H. unfold cio_write, cio_return. destruct m as [n| |]; [|reflexivity|reflexivity]. unfold IO_ERROR, IO_PENDING in *.
  destruct (N.eqb_spec (N.min n len) 4294967295) as [E|_]; [lia|]. destruct (N.eqb_spec (N.min n len) 4294967294) as [E|_]; [lia|]. reflexivity.
Qed.
Lemma takeN_min {A} n (l : list A) : takeN n l = takeN (N.min n (lenN l)) l.
Proof. destruct (N.le_gt_cases n (lenN l)) as [H|H]; [now rewrite N.min_l|]. rewrite N.min_r by lia. rewrite !takeN_all by lia. reflexivity. Qed.
(* While less than 4 GiB - 2 is waiting: hyper takes for sent exactly what the
   callback took, in order, each byte once; what is left is what was not taken; it
   says Ready only when everything was taken *)
Theorem C81_write : forall ms w sent app, cur_rem (whead w) < 4294967294 ->
  let '(w', sent', app', o) := cio_flush w sent app ms in
  exists x, sent' = sent ++ x /\ app' = app ++ x /\ x ++ cur_chunk (whead w') = cur_chunk (whead w) /\ wqueue w' = wqueue w /\
    (o = Ready (Ok tt) -> cur_chunk (whead w') = []).
Proof.
  induction ms as [|m ms IH]; intros w sent app H; cbn [cio_flush]; [exists []; rewrite !app_nil_r; repeat split; discriminate|].
  rewrite cur_rem_chunk in H. set (off := cur_chunk (whead w)) in *. rewrite (cio_as_meant m (lenN off)) by exact H.
  destruct m as [n| |]; [|exists []; rewrite !app_nil_r; repeat split; discriminate|exists []; rewrite !app_nil_r; repeat split; discriminate].
  rewrite (takeN_min n off). set (k := N.min n (lenN off)). assert (k <= lenN off) as Hk by (unfold k; lia).
  assert (cur_chunk (cur_adv k (whead w)) = dropN k off) as CH by (unfold cur_adv, off, cur_chunk; cbn [cpos cbytes]; rewrite dropN_dropN; f_equal; lia).
  destruct (N.eqb_spec (cur_rem (cur_adv k (whead w))) 0) as [Z|Z].
  - rewrite cur_rem_chunk, CH in Z. apply lenN_0 in Z. exists (takeN k off). cbn [whead wqueue cur_reset cur_chunk]. repeat split; auto. rewrite <- (takeN_dropN k off) at 2. rewrite Z. reflexivity.
  - destruct (N.eqb_spec k 0) as [K|K].
    + exists (takeN k off). cbn [whead wqueue]. rewrite CH. split; [reflexivity|]. split; [reflexivity|]. split; [apply takeN_dropN|]. split; [reflexivity|discriminate].
    + specialize (IH (mkWb (cur_adv k (whead w)) (wmax w) (wqueue w) (wflat w)) (sent ++ takeN k off) (app ++ takeN k off)). cbn [whead] in IH.
      assert (cur_rem (cur_adv k (whead w)) < 4294967294) as Hr by (rewrite cur_rem_chunk, CH, dropN_len; unfold IO_ERROR in H; lia). specialize (IH Hr).
      destruct (cio_flush _ _ _ ms) as [[[w' sent'] app'] o]. destruct IH as (x & -> & -> & E & Q & D). exists (takeN k off ++ x). rewrite !app_assoc. split; [reflexivity|]. split; [reflexivity|]. split; [|auto]. rewrite <- app_assoc, E, CH. apply takeN_dropN.
Qed.
(* With more waiting it does not hold: a callback that takes 0xFFFFFFFF bytes has to
   return the number that means HYPER_IO_PENDING; hyper keeps all of them and will
   offer them again *)
Theorem C81_write_refuted : exists w, forall sent app, cio_flush w sent app [CmCount IO_PENDING] = (w, sent, app ++ cur_chunk (whead w), Pending) /\ lenN (cur_chunk (whead w)) = IO_PENDING.
Proof.
  set (x := repeat 0 (N.to_nat IO_PENDING)). assert (lenN x = IO_PENDING) as L by (unfold x; apply lenN_repeat). clearbody x.
  exists (mkWb (mkCur x 0) 0 [] true). intros sent app. cbn [whead cur_chunk cpos cbytes]. unfold cur_chunk. cbn [cpos cbytes whead]. rewrite dropN_0. split; [|exact L].
  cbn [cio_flush]. unfold cur_chunk. cbn [whead cpos cbytes]. rewrite dropN_0, L. unfold cio_return. rewrite N.min_id. unfold cio_write. rewrite N.eqb_refl. rewrite takeN_all by lia. reflexivity.
Qed.
(* Reading: a callback that writes [s] and says so; the buffer then holds [s] behind
   what it held *)
Theorem C81_read : forall cap b d t s, cap < 4294967294 -> holds cap b (mkS d t) -> lenN s <= cap - lenN d ->
  exists b', cio_read s (lenN s) b = Some (b', RpOk) /\ holds cap b' (mkS (d ++ s) (dropN (lenN s) t)).
Proof.
  intros cap b d t s Hc Hh Hs. pose proof (holds_le _ _ _ Hh) as Hle. cbn [s_data s_tail] in Hle.
  assert (cap <= u64_max) as Hu by (unfold u64_max; lia). pose proof (step_holds cap b (mkS d t) (RUnsafe s (lenN s)) Hu Hh) as Q. cbn [s_step allowed s_data s_tail] in Q.
  assert (lenN s <=? cap - lenN d = true) as E by (now apply N.leb_le). rewrite E in Q. destruct Q as (b' & R & H'); [lia|].
  unfold cio_read. cbn [rstep] in R. destruct (rb_as_mut_write s b) as [b1|]; [|discriminate R]. unfold IO_PENDING, IO_ERROR.
  destruct (N.eqb_spec (lenN s) 4294967295) as [F|_]; [lia|]. destruct (N.eqb_spec (lenN s) 4294967294) as [F|_]; [lia|]. rewrite R. exists b'. split; [reflexivity|].
  assert (takeN (lenN s) (s ++ dropN (lenN s) t) = s) as T1 by (rewrite takeN_app_le by lia; apply takeN_all; lia). rewrite T1 in H'.
  assert (dropN (lenN s) (takeN (N.max (lenN s) (lenN t)) (s ++ dropN (lenN s) t)) = dropN (lenN s) t) as T2.
  { rewrite takeN_all by (rewrite lenN_app, dropN_len; lia). rewrite dropN_app_ge by lia. now rewrite N.sub_diag, dropN_0. }
  rewrite T2 in H'. exact H'.
Qed.
(* A callback that says it has nothing, or an error: whatever it wrote behind the
   data, the data is what it was *)
Theorem C81_read_nothing : forall cap b d t s, cap <= u64_max -> holds cap b (mkS d t) -> lenN s <= cap - lenN d ->
  exists b', cio_read s IO_PENDING b = Some (b', RpPending) /\ cio_read s IO_ERROR b = Some (b', RpErr) /\ rb_get_filled b' = Some (map Some d).
Proof.
  intros cap b d t s Hu Hh Hs. pose proof Hh as (F & _ & L & rest & R). cbn [s_data s_tail] in *. pose proof (holds_le _ _ _ Hh) as Hle. cbn [s_data s_tail] in Hle.
  assert (rb_capacity b = cap) as C by exact L.
  unfold cio_read, rb_as_mut_write. rewrite C, F. assert ((lenN d <=? cap) && (lenN s <=? cap - lenN d) = true) as -> by (apply andb_true_intro; split; apply N.leb_le; lia).
  eexists. split; [reflexivity|]. split; [reflexivity|]. unfold rb_get_filled. cbn [rb_filled rb_raw].
  assert (takeN (lenN d) (overwrite (rb_raw b) (lenN d) s) = map Some d) as T.
  { assert (takeN (lenN d) (rb_raw b) = map Some d) as T0.
    { rewrite R, map_app, <- app_assoc. rewrite takeN_app_le by (rewrite lenN_map; lia). apply takeN_all. rewrite lenN_map. lia. }
    unfold overwrite. rewrite T0. rewrite takeN_app_le by (rewrite lenN_map; lia). apply takeN_all. rewrite lenN_map. lia. }
  rewrite T. unfold rb_capacity. cbn [rb_raw].
  assert (lenN d <=? lenN (overwrite (rb_raw b) (lenN d) s) = true) as ->; [|reflexivity].
  apply N.leb_le. assert (lenN (takeN (lenN d) (overwrite (rb_raw b) (lenN d) s)) = lenN d) as Q by (rewrite T; apply lenN_map). rewrite takeN_len in Q. lia.
Qed.
(* A callback that claims more than there was room for is believed: the filled part
   then ends behind the memory *)
Theorem C81_read_unchecked_refuted : exists s ret b b', cio_read s ret b = Some (b', RpOk) /\ rb_filled b' > rb_capacity b' /\ rb_get_filled b' = None.
Proof. exists [7], 5, (rb_new [0; 0]). eexists. split; [vm_compute; reflexivity|]. split; vm_compute; reflexivity. Qed.

(* ---- Examples ---- *)
Definition cb_ex : list cframe := [CfPending; CfData [1; 2]; CfPending; CfData [3]; CfTrailers [(B "x-sum", [B "1"])]; CfEnd].
Example C81_data_ex : let '(rs, r) := cb_datas 5 cb_ex in rs = [Pending; Ready (CdBuf [1; 2]); Pending; Ready (CdBuf [3]); Ready CdNone] /\ r = [].
Proof. vm_compute. auto. Qed.
Example C81_foreach_ex : cb_eaches 3 (fun _ _ => 0%Z) [] cb_ex = (Ready CeOk, [[1; 2]; [3]], []) /\
  cb_eaches 3 (fun seen _ => match seen with [] => 1%Z | _ => 0%Z end) [] cb_ex = (Ready CeAborted, [[1; 2]], [CfPending; CfData [3]; CfTrailers [(B "x-sum", [B "1"])]; CfEnd]).
Proof. split; reflexivity. Qed.
Example C81_received_ex : exists b, b_run (b_new 3 false) ex_full = Some b /\ polled (b_log b) (cb_ex) /\ chunks (sent_items (b_log b)) = [[1; 2]; [3]].
Proof. eexists. split; [vm_compute; reflexivity|]. split; reflexivity. Qed.
Example C81_write_ex : cio_flush (mkWb (mkCur [1; 2; 3; 4; 5] 0) 8192 [] true) [] [] [CmCount 2; CmCount 1; CmPending] = (mkWb (mkCur [1; 2; 3; 4; 5] 3) 8192 [] true, [1; 2; 3], [1; 2; 3], Pending).
Proof. reflexivity. Qed.
Example C81_read_ex : holds 4 (rb_uninit [None; None; None; None]) (mkS [] []) /\ exists b', cio_read [8; 9] 2 (rb_uninit [None; None; None; None]) = Some (b', RpOk) /\ rb_get_filled b' = Some [Some 8; Some 9].
Proof. split; [repeat split; exists [None; None; None; None]; reflexivity|]. eexists. split; reflexivity. Qed.
Print Assumptions C81_data.
Print Assumptions C81_foreach.
Print Assumptions C81_received.
Print Assumptions C81_user_body.
Print Assumptions C81_user_buffer_refuted.
Print Assumptions C81_write.
Print Assumptions C81_write_refuted.
Print Assumptions C81_read.
Print Assumptions C81_read_nothing.
Print Assumptions C81_read_unchecked_refuted.
