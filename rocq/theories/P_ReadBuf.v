(* Theorems about the read buffer: C46. *)
From Verif Require Import Base M_ReadBuf.

(* Independent specification: a buffer of a given capacity holds the bytes
   delivered so far and, after them, bytes known to be initialised.  There is no
   uninitialised memory in this description. *)
Record sbuf := mkS { s_data : bytes; s_tail : bytes }.
(* None: not allowed *)
Definition s_step (cap : N) (b : sbuf) (o : rop) : option sbuf :=
  let room := cap - lenN (s_data b) in
  match o with
  | RPut s => if lenN s <=? room then Some (mkS (s_data b ++ s) (dropN (lenN s) (s_tail b))) else None
  | RInitWrite n s =>
      if (n <=? room) && (lenN s <=? n)
      then Some (mkS (s_data b) (s ++ dropN (lenN s) (s_tail b ++ repeat 0 (N.to_nat (n - lenN (s_tail b)))))) else None
  | RUnsafe s n =>
      let x := s ++ dropN (lenN s) (s_tail b) in
      if lenN s <=? room
      then Some (mkS (s_data b ++ takeN n x) (dropN n (takeN (N.max n (lenN (s_tail b))) x))) else None
  end.
(* The contract of [advance]: it covers bytes that were initialised *)
Definition allowed (b : sbuf) (o : rop) : Prop :=
  match o with RUnsafe s n => n <= N.max (lenN s) (lenN (s_tail b)) | _ => True end.
Definition safe_op (o : rop) : Prop := match o with RUnsafe _ _ => False | _ => True end.
Fixpoint s_run (cap : N) (b : sbuf) (l : list rop) : option sbuf :=
  match l with
  | [] => Some b
  | o :: r => match s_step cap b o with Some b' => s_run cap b' r | None => None end
  end.
Fixpoint all_allowed (cap : N) (b : sbuf) (l : list rop) : Prop :=
  match l with
  | [] => True
  | o :: r => allowed b o /\ match s_step cap b o with Some b' => all_allowed cap b' r | None => True end
  end.
(* What the memory of a ReadBuf holds: exactly the data, then initialised bytes,
   then memory of which nothing is known *)
Definition holds (cap : N) (b : readbuf) (s : sbuf) : Prop :=
  rb_filled b = lenN (s_data s) /\ rb_init b = lenN (s_data s) + lenN (s_tail s) /\
  lenN (rb_raw b) = cap /\
  exists rest, rb_raw b = map Some (s_data s ++ s_tail s) ++ rest.

Lemma lenN_map {A C} (f : A -> C) l : lenN (map f l) = lenN l.
Proof. unfold lenN. now rewrite map_length. Qed.
Lemma lenN_repeat {A} (x : A) n : lenN (repeat x (N.to_nat n)) = n.
Proof. unfold lenN. rewrite repeat_length. lia. Qed.
Lemma takeN_map {A C} (f : A -> C) l : forall n, takeN n (map f l) = map f (takeN n l).
Proof. induction l as [|a l IH]; intros n; [reflexivity|]. cbn. destruct (n =? 0); [reflexivity|]. cbn. now rewrite IH. Qed.
Lemma dropN_map {A C} (f : A -> C) l : forall n, dropN n (map f l) = map f (dropN n l).
Proof. induction l as [|a l IH]; intros n; [reflexivity|]. cbn. destruct (n =? 0); [reflexivity|]. now rewrite IH. Qed.
Lemma overwrite_shape d t rest s :
  overwrite (map Some (d ++ t) ++ rest) (lenN d) s = map Some (d ++ s ++ dropN (lenN s) t) ++ dropN (lenN s - lenN t) rest.
Proof.
  unfold overwrite. rewrite !map_app, <- !app_assoc. f_equal.
  - rewrite takeN_app_le by (rewrite lenN_map; lia). apply takeN_all. rewrite lenN_map. lia.
  - f_equal. rewrite dropN_app_ge by (rewrite lenN_map; lia). rewrite lenN_map. replace (lenN d + lenN s - lenN d) with (lenN s) by lia.
    destruct (N.le_gt_cases (lenN s) (lenN t)) as [H|H].
    + rewrite dropN_app_le by (rewrite lenN_map; lia). rewrite dropN_map. replace (lenN s - lenN t) with 0 by lia. now rewrite dropN_0.
    + rewrite dropN_app_ge by (rewrite lenN_map; lia). rewrite lenN_map, (dropN_all _ t) by lia. reflexivity.
Qed.
Lemma overwrite_len raw a s : a + lenN s <= lenN raw -> lenN (overwrite raw a s) = lenN raw.
Proof. intros H. unfold overwrite. rewrite !lenN_app, takeN_len, dropN_len, lenN_map. lia. Qed.
Lemma takeN_takeN {A} (l : list A) : forall a b, a <= b -> takeN a (takeN b l) = takeN a l.
Proof.
  induction l as [|x l IH]; intros a b H; [reflexivity|]. cbn. destruct (b =? 0) eqn:E; [apply N.eqb_eq in E; replace a with 0 by lia; reflexivity|].
  cbn. destruct (a =? 0) eqn:E2; [reflexivity|]. apply N.eqb_neq in E, E2. f_equal. apply IH. lia.
Qed.

Lemma holds_le cap b s : holds cap b s -> lenN (s_data s) + lenN (s_tail s) <= cap.
Proof. intros (_ & _ & L & rest & E). rewrite <- L, E, lenN_app, lenN_map, lenN_app. lia. Qed.
Lemma step_holds cap b s o : cap <= u64_max -> holds cap b s -> allowed s o ->
  match s_step cap s o with
  | Some s' => exists b', rstep b o = Some b' /\ holds cap b' s'
  | None => rstep b o = None
  end.
Proof.
  intros Hu Hh Ha. pose proof (holds_le cap b s Hh) as Hle. destruct Hh as (Hf & Hi & Hl & rest & Hr). destruct b as [raw f i], s as [d t]. cbn [rb_raw rb_filled rb_init s_data s_tail] in *.
  subst f i raw. destruct o as [s|n s|s n]; cbn [s_step rstep s_data s_tail].
  - unfold rb_put_slice, rb_remaining, rb_capacity. cbn [rb_raw rb_filled rb_init]. rewrite Hl. destruct (lenN s <=? cap - lenN d) eqn:E; [|reflexivity]. apply N.leb_le in E.
    eexists. split; [reflexivity|]. unfold holds. cbn [rb_raw rb_filled rb_init s_data s_tail]. rewrite !lenN_app, dropN_len. split; [reflexivity|]. split; [|split].
    + destruct (lenN d + lenN t <? lenN d + lenN s) eqn:E2; [apply N.ltb_lt in E2|apply N.ltb_ge in E2]; lia.
    + rewrite overwrite_len; [exact Hl|]. rewrite Hl. lia.
    + rewrite overwrite_shape. rewrite app_assoc. eexists. reflexivity.
  - unfold rb_initialize, rb_remaining, rb_capacity. cbn [rb_raw rb_filled rb_init]. rewrite Hl. destruct (n <=? cap - lenN d) eqn:E; [|reflexivity]. apply N.leb_le in E. cbn [andb].
    assert (exists b1, (if lenN d + lenN t <? lenN d + n
             then Some (mkRB (overwrite (map Some (d ++ t) ++ rest) (lenN d + lenN t) (repeat 0 (N.to_nat (lenN d + n - (lenN d + lenN t))))) (lenN d) (lenN d + n))
             else Some (mkRB (map Some (d ++ t) ++ rest) (lenN d) (lenN d + lenN t))) = Some b1 /\
             holds cap b1 (mkS d (t ++ repeat 0 (N.to_nat (n - lenN t))))) as (b1 & -> & H1).
    { destruct (lenN d + lenN t <? lenN d + n) eqn:E2; [apply N.ltb_lt in E2|apply N.ltb_ge in E2]; eexists; (split; [reflexivity|]); unfold holds; cbn [rb_raw rb_filled rb_init s_data s_tail].
      - split; [reflexivity|]. split; [rewrite lenN_app, lenN_repeat; lia|]. split.
        + rewrite overwrite_len; [exact Hl|]. rewrite Hl, lenN_repeat. lia.
        + pose proof (overwrite_shape (d ++ t) [] rest (repeat 0 (N.to_nat (lenN d + n - (lenN d + lenN t))))) as Q. rewrite app_nil_r, lenN_app in Q. rewrite Q.
          replace (lenN d + n - (lenN d + lenN t)) with (n - lenN t) by lia. cbn [dropN]. rewrite app_nil_r, <- app_assoc. eexists. reflexivity.
      - replace (n - lenN t) with 0 by lia. cbn [N.to_nat repeat]. rewrite app_nil_r. split; [reflexivity|]. split; [reflexivity|]. split; [exact Hl|]. eexists. reflexivity. }
    destruct (lenN s <=? n) eqn:E3; [|reflexivity]. apply N.leb_le in E3. remember (t ++ repeat 0 (N.to_nat (n - lenN t))) as t1 eqn:Et1.
    assert (n <= lenN t1) as Lt1 by (subst t1; rewrite lenN_app, lenN_repeat; lia).
    destruct H1 as (Hf1 & Hi1 & Hl1 & rest1 & Hr1). destruct b1 as [raw1 f1 i1]. cbn [rb_raw rb_filled rb_init s_data s_tail] in *. subst f1 i1 raw1.
    unfold rb_as_mut_write, rb_capacity. cbn [rb_raw rb_filled rb_init]. rewrite Hl1.
    replace (lenN d <=? cap) with true by (symmetry; apply N.leb_le; lia). replace (lenN s <=? cap - lenN d) with true by (symmetry; apply N.leb_le; lia). cbn [andb].
    eexists. split; [reflexivity|]. unfold holds. cbn [rb_raw rb_filled rb_init s_data s_tail]. split; [reflexivity|]. split; [rewrite lenN_app, dropN_len; lia|]. split.
    + rewrite overwrite_len; [exact Hl1|]. rewrite Hl1. lia.
    + rewrite overwrite_shape. eexists. reflexivity.
  - cbn [allowed s_tail] in Ha. unfold rb_as_mut_write, rb_capacity. cbn [rb_raw rb_filled rb_init]. rewrite Hl. replace (lenN d <=? cap) with true by (symmetry; apply N.leb_le; lia). cbn [andb].
    destruct (lenN s <=? cap - lenN d) eqn:E; [|reflexivity]. apply N.leb_le in E. unfold rb_advance, checked_add. cbn [rb_raw rb_filled rb_init].
    assert (lenN d + n <= cap) as Hb by lia.
    replace (lenN d + n <=? u64_max) with true by (symmetry; apply N.leb_le; exact (N.le_trans _ _ _ Hb Hu)).
    eexists. split; [reflexivity|]. remember (s ++ dropN (lenN s) t) as x eqn:Ex. assert (lenN x = N.max (lenN s) (lenN t)) as Lx by (subst x; rewrite lenN_app, dropN_len; lia).
    unfold holds. cbn [rb_raw rb_filled rb_init s_data s_tail]. rewrite lenN_app, takeN_len, dropN_len, takeN_len. split; [lia|]. split; [lia|]. split.
    + rewrite overwrite_len; [exact Hl|]. rewrite Hl. lia.
    + rewrite overwrite_shape. rewrite <- Ex.
      replace ((d ++ takeN n x) ++ dropN n (takeN (N.max n (lenN t)) x)) with (d ++ takeN (N.max n (lenN t)) x).
      2:{ rewrite <- app_assoc. f_equal. rewrite <- (takeN_takeN x n (N.max n (lenN t))) by lia. symmetry. apply takeN_dropN. }
      exists (map Some (dropN (N.max n (lenN t)) x) ++ dropN (lenN s - lenN t) rest). rewrite app_assoc. f_equal. rewrite <- map_app. f_equal. rewrite <- app_assoc. f_equal. symmetry. apply takeN_dropN.
Qed.

(* Whatever a reader does with the safe operations, or with the unsafe ones within
   their contract, the buffer behaves like the specification: the filled part is
   exactly what was delivered, in order, the initialised part is initialised, and
   what does not fit panics *)
Theorem C46_refines : forall cap l b s, cap <= u64_max -> holds cap b s -> all_allowed cap s l ->
  match s_run cap s l with
  | Some s' => exists b', rrun b l = Some b' /\ holds cap b' s'
  | None => rrun b l = None
  end.
Proof.
  intros cap l. induction l as [|o l IH]; intros b s Hu Hh Ha.
  - exists b. auto.
  - cbn [s_run rrun]. destruct Ha as (A1 & A2). pose proof (step_holds cap b s o Hu Hh A1) as Q. destruct (s_step cap s o) as [s'|]; [|now rewrite Q].
    destruct Q as (b' & -> & Hh'). apply IH; assumption.
Qed.
(* What can be observed: the filled part consists of initialised bytes only *)
Theorem C46_observed : forall cap b s, holds cap b s ->
  rb_filled b <= rb_init b /\ rb_init b <= rb_capacity b /\
  rb_get_filled b = Some (map Some (s_data s)) /\
  forall n, n <= lenN (s_tail s) -> rb_slice n b = map Some (takeN n (s_tail s)).
Proof.
  intros cap b s H. pose proof (holds_le cap b s H) as Hle. destruct H as (Hf & Hi & Hl & rest & Hr). unfold rb_get_filled, rb_capacity, rb_slice. rewrite Hf, Hi, Hl.
  split; [lia|]. split; [exact Hle|]. split.
  - replace (lenN (s_data s) <=? cap) with true by (symmetry; apply N.leb_le; lia). f_equal. rewrite Hr, map_app, <- app_assoc. rewrite takeN_app_le by (rewrite lenN_map; lia). apply takeN_all. rewrite lenN_map. lia.
  - intros n Hn. rewrite Hr, map_app, <- app_assoc. rewrite dropN_app_ge by (rewrite lenN_map; lia). rewrite lenN_map, N.sub_diag, dropN_0. rewrite takeN_app_le by (rewrite lenN_map; lia). apply takeN_map.
Qed.
(* The two ways to make a buffer *)
Theorem C46_fresh : forall raw m, holds (lenN raw) (rb_new raw) (mkS [] raw) /\ holds (lenN m) (rb_uninit m) (mkS [] []).
Proof.
  intros raw m. unfold holds, rb_new, rb_uninit. cbn [rb_raw rb_filled rb_init s_data s_tail]. split; (split; [reflexivity|]; split; [reflexivity|]).
  - split; [apply lenN_map|]. exists []. now rewrite app_nil_r.
  - split; [reflexivity|]. exists m. reflexivity.
Qed.
(* The safe operations alone need no contract, and deliver what was put *)
Fixpoint put_bytes (l : list rop) : bytes :=
  match l with [] => [] | RPut s :: r => s ++ put_bytes r | _ :: r => put_bytes r end.
Theorem C46_safe : forall m l b, Forall safe_op l -> lenN m <= u64_max -> rrun (rb_uninit m) l = Some b ->
  rb_get_filled b = Some (map Some (put_bytes l)).
Proof.
  intros m l b Hs Hu Hr. assert (forall cap s, all_allowed cap s l) as Ha.
  { clear - Hs. induction Hs as [|o l Ho _ IH]; intros cap s; cbn; [exact I|]. split; [destruct o; [exact I|exact I|destruct Ho]|]. destruct (s_step cap s o); [apply IH|exact I]. }
  destruct (C46_fresh [] m) as (_ & Hh). pose proof (C46_refines (lenN m) l _ _ Hu Hh (Ha _ _)) as Q. destruct (s_run (lenN m) (mkS [] []) l) as [s'|] eqn:E; [|congruence].
  destruct Q as (b' & Eb & Hb). rewrite Hr in Eb. inversion Eb; subst b'. destruct (C46_observed _ _ _ Hb) as (_ & _ & -> & _). do 2 f_equal.
  assert (forall l s, Forall safe_op l -> s_run (lenN m) s l = Some s' -> s_data s' = s_data s ++ put_bytes l) as D.
  { clear. induction l as [|o l IH]; intros s Hs E; [inversion E; now rewrite app_nil_r|]. inversion Hs; subst. cbn [s_run] in E. destruct (s_step (lenN m) s o) as [s1|] eqn:Es; [|discriminate].
    rewrite (IH s1) by assumption. destruct o as [x|n x|x n]; cbn [s_step put_bytes] in *; [|  |destruct H1].
    - destruct (_ <=? _); inversion Es; subst. cbn. now rewrite app_assoc.
    - destruct (_ && _); inversion Es; subst. reflexivity. }
  apply (D l (mkS [] [])); assumption.
Qed.
Example C46_ex : exists b, rrun (rb_uninit [None; Some 7; None; None; None; None]) [RPut [1; 2]; RInitWrite 3 [9]; RUnsafe [5] 1; RPut [6]] = Some b /\
  rb_get_filled b = Some [Some 1; Some 2; Some 5; Some 6] /\ rb_raw b = [Some 1; Some 2; Some 5; Some 6; Some 0; None] /\
  rrun b [RPut [1; 2; 3]] = None.
Proof. eexists. split; [vm_compute; reflexivity|]. repeat split; vm_compute; reflexivity. Qed.

(* The adapter between the two traits *)
Theorem C46_adapter : forall cap l t s, cap <= u64_max -> holds cap t s -> all_allowed cap s l ->
  (s_tail s = [] \/ lenN (s_data s) + lenN (s_tail s) = cap) ->
  match s_run cap s l with
  | Some s' => exists t', compat_read l RpOk t = Some (t', RpOk) /\ holds cap t' s'
  | None => compat_read l RpOk t = None
  end.
Proof.
  intros cap l t s Hu Hh Ha Hc. unfold compat_read.
  replace (rb_set_filled (rb_filled t) (rb_set_init (rb_init t) (rb_uninit (rb_raw t)))) with t.
  2:{ destruct t as [raw f i]. unfold rb_set_filled, rb_set_init, rb_uninit. cbn. f_equal; lia. }
  pose proof (C46_refines cap l t s Hu Hh Ha) as Q.
  assert (forall s', s_run cap s l = Some s' -> lenN (s_data s) + lenN (s_tail s) <= lenN (s_data s') + lenN (s_tail s')) as Hm.
  { clear. revert s. induction l as [|o l IH]; intros s s' E; [inversion E; lia|]. cbn [s_run] in E. destruct (s_step cap s o) as [s1|] eqn:Es; [|discriminate].
    apply IH in E. etransitivity; [|exact E]. clear E IH. destruct o as [x|n x|x n]; cbn [s_step] in Es.
    - destruct (_ <=? _); inversion Es; subst. cbn [s_data s_tail]. rewrite lenN_app, dropN_len. lia.
    - destruct (_ && _); inversion Es; subst. cbn [s_data s_tail]. rewrite lenN_app, dropN_len, lenN_app. lia.
    - destruct (_ <=? _); inversion Es; subst. cbn [s_data s_tail]. rewrite lenN_app, takeN_len, dropN_len, takeN_len, !lenN_app, dropN_len. lia. }
  destruct (s_run cap s l) as [s'|]; [|now rewrite Q]. destruct Q as (b & -> & Hb). specialize (Hm s' eq_refl). pose proof (holds_le _ _ _ Hb) as Hle.
  destruct Hh as (F & I0 & L & rest & R). destruct Hb as (F' & I' & L' & rest' & R').
  unfold tb_set_filled, tb_assume_init. cbn [rb_raw rb_filled rb_init].
  assert (N.max (rb_init t) (rb_filled t + (rb_init b - rb_init t)) = rb_init b) as Ei.
  { rewrite F, I0, I' in *. destruct Hc as [Hc|Hc]; [rewrite Hc in *; change (lenN (@nil N)) with 0 in *; lia|lia]. }
  rewrite Ei. replace (rb_filled b <=? rb_init b) with true by (symmetry; apply N.leb_le; lia).
  eexists. split; [reflexivity|]. unfold holds. cbn [rb_raw rb_filled rb_init]. split; [exact F'|]. split; [exact I'|]. split; [exact L'|]. exists rest'. exact R'.
Qed.
(* Finding: with initialised room that ends before the capacity the adapter may
   panic on a well-behaved reader *)
Theorem C46_adapter_refuted : exists cap l t s, cap <= u64_max /\ holds cap t s /\ all_allowed cap s l /\ Forall safe_op l /\ s_run cap s l <> None /\ compat_read l RpOk t = None.
Proof.
  exists 4, [RPut [1; 2; 3]], (mkRB [Some 0; Some 0; None; None] 0 2), (mkS [] [0; 0]).
  split; [discriminate|]. split; [unfold holds; cbn; repeat split; exists [None; None]; reflexivity|].
  split; [cbn; auto|]. split; [repeat constructor|]. split; [discriminate|reflexivity].
Qed.

(* set_init and set_filled (used by the adapters) only ever extend, and up to what
   was said; nothing else changes *)
Theorem C46_set : forall n b, let i := rb_set_init n b in let f := rb_set_filled n b in
  (n <= rb_init i /\ rb_init b <= rb_init i /\ (rb_init i = n \/ rb_init i = rb_init b) /\ rb_raw i = rb_raw b /\ rb_filled i = rb_filled b) /\
  (n <= rb_filled f /\ rb_filled b <= rb_filled f /\ (rb_filled f = n \/ rb_filled f = rb_filled b) /\ rb_raw f = rb_raw b /\ rb_init f = rb_init b).
Proof. intros n b. unfold rb_set_init, rb_set_filled. cbn [rb_init rb_filled rb_raw]. repeat split; lia. Qed.
Example C46_set_ex : rb_init (rb_set_init 1 (rb_new [1; 2; 3])) = 3 /\ rb_filled (rb_set_filled 2 (rb_new [1; 2; 3])) = 2.
Proof. split; reflexivity. Qed.
Print Assumptions C46_refines.
Print Assumptions C46_observed.
Print Assumptions C46_fresh.
Print Assumptions C46_safe.
Print Assumptions C46_adapter.
Print Assumptions C46_adapter_refuted.
Print Assumptions C46_set.
