(* Buffers and buffer lists agree with the bytes they stand for. *)
From Verif Require Import Base M_Encode M_Buf M_WriteBuf S_Buf.

Lemma brem_den b : brem b = lenN (den b).
Proof.
  induction b as [v l|a IHa b IHb|v n b IH]; cbn [brem den].
  - reflexivity.
  - rewrite lenN_app, IHa, IHb. reflexivity.
  - rewrite takeN_len, IH. lia.
Qed.
Lemma brem_pos b : (0 <? brem b) = true <-> den b <> [].
Proof.
  rewrite brem_den. rewrite N.ltb_lt. split.
  - intros H E. rewrite E in H. cbn in H. lia.
  - apply lenN_pos.
Qed.
Lemma brem_zero b : brem b = 0 <-> den b = [].
Proof.
  rewrite brem_den. split; [apply lenN_0|]. now intros ->.
Qed.

Lemma takeN_takeN {A} n m (l : list A) : takeN n (takeN m l) = takeN (N.min n m) l.
Proof.
  revert n m. induction l as [|x l IH]; intros n m; cbn [takeN]; auto.
  destruct (N.eqb_spec m 0) as [->|Hm].
  - cbn [takeN]. destruct (N.eqb_spec (N.min n 0) 0); [reflexivity|lia].
  - cbn [takeN]. destruct (N.eqb_spec n 0) as [->|Hn].
    + destruct (N.eqb_spec (N.min 0 m) 0); [reflexivity|lia].
    + destruct (N.eqb_spec (N.min n m) 0); [lia|]. rewrite IH. do 2 f_equal. lia.
Qed.
Lemma dropN_takeN {A} n m (l : list A) : dropN n (takeN m l) = takeN (m - n) (dropN n l).
Proof.
  revert n m. induction l as [|x l IH]; intros n m; cbn [takeN dropN]; auto.
  destruct (N.eqb_spec m 0) as [->|Hm].
  - cbn [dropN]. destruct (N.eqb_spec n 0).
    + subst. rewrite N.sub_0_r. now rewrite takeN_0.
    + now rewrite N.sub_0_l, takeN_0.
  - cbn [dropN]. destruct (N.eqb_spec n 0) as [->|Hn].
    + rewrite N.sub_0_r. cbn [takeN]. destruct (N.eqb_spec m 0); [lia|]. reflexivity.
    + rewrite IH. f_equal. lia.
Qed.

Lemma prefix_takeN {A} (d p r : list A) : d = p ++ r -> p = takeN (lenN p) d.
Proof. intros ->. rewrite takeN_app_le by lia. now rewrite takeN_all by lia. Qed.

(* chunk() is a prefix, empty only at the end *)
Lemma bchunk_prefix b : exists r, den b = bchunk b ++ r.
Proof.
  induction b as [v l|a [ra Ea] b [rb Eb]|v n b [r E]]; cbn [den bchunk].
  - destruct l as [|x l]; [now exists []|]. exists (concat l). reflexivity.
  - destruct (0 <? brem a) eqn:Z.
    + exists (ra ++ den b). rewrite Ea at 1. now rewrite app_assoc.
    + assert (den a = []) as ->. { apply brem_zero. apply N.ltb_ge in Z. lia. }
      exists rb. exact Eb.
  - set (k := N.min (lenN (bchunk b)) n).
    exists (dropN k (takeN n (den b))).
    assert (takeN k (bchunk b) = takeN k (takeN n (den b))) as ->.
    { rewrite takeN_takeN. rewrite E. rewrite takeN_app_le by lia. f_equal. lia. }
    now rewrite takeN_dropN.
Qed.
Lemma bchunk_nonempty b : wf_buf b -> den b <> [] -> bchunk b <> [].
Proof.
  induction b as [v l|a IHa b IHb|v n b IH]; cbn [den bchunk wf_buf].
  - intros W N. destruct l as [|x l]; [easy|]. now inversion W.
  - intros [Wa Wb] N. destruct (0 <? brem a) eqn:Z.
    + apply IHa; auto. now apply brem_pos.
    + apply IHb; auto. intros E. apply N. rewrite E, app_nil_r.
      apply brem_zero. apply N.ltb_ge in Z. lia.
  - intros W N E. assert (den b <> []) as Nb. { intros Eb. rewrite Eb in N. now destruct n. }
    specialize (IH W Nb). apply lenN_pos in IH. apply (f_equal lenN) in E. rewrite takeN_len in E.
    cbn in E. assert (n = 0) as -> by lia. now rewrite takeN_0 in N.
Qed.

(* advance *)
Lemma segs_adv_spec l : forall n, n <= lenN (concat l) ->
  exists l', segs_adv n l = Some l' /\ concat l' = dropN n (concat l) /\
             (length l' <= length l)%nat /\
             (Forall (fun s => s <> []) l -> Forall (fun s => s <> []) l').
Proof.
  induction l as [|x l IH]; intros n H; cbn [segs_adv concat] in *.
  - cbn in H. destruct (N.eqb_spec n 0); [|lia]. exists []. subst. auto.
  - rewrite lenN_app in H. destruct (N.ltb_spec n (lenN x)).
    + exists (dropN n x :: l). split; auto. split; [|split].
      * cbn [concat]. rewrite dropN_app_le by lia. reflexivity.
      * cbn. lia.
      * intros F. inversion F; subst. constructor; auto. intros E.
        apply (f_equal lenN) in E. rewrite dropN_len in E. cbn in E. lia.
    + destruct (IH (n - lenN x)) as (l' & E1 & E2 & E3 & E4); [lia|].
      exists l'. split; auto. split; [|split].
      * rewrite E2. rewrite dropN_app_ge by lia. reflexivity.
      * cbn. lia.
      * intros F. inversion F; auto.
Qed.

Lemma badv_spec b : forall n, n <= lenN (den b) ->
  exists b', badv n b = Some b' /\ den b' = dropN n (den b) /\ (pieces b' <= pieces b)%nat /\
             (wf_buf b -> wf_buf b') /\ (vec_contract b -> vec_contract b').
Proof.
  induction b as [v l|a IHa b IHb|v m b IH]; intros n H; cbn [badv den wf_buf vec_contract pieces] in *.
  - destruct (segs_adv_spec l n H) as (l' & E1 & E2 & E3 & E4). rewrite E1. cbn [option_map].
    exists (Segs v l'). cbn [den wf_buf vec_contract pieces]. do 4 (split; auto).
    intros [?|?]; [now left|right; lia].
  - rewrite lenN_app in H. rewrite brem_den.
    destruct (N.eqb_spec (lenN (den a)) 0) as [Z|Z]; cbn [negb].
    + destruct (IHb n) as (b' & E1 & E2 & E3 & E4 & E5); [lia|]. rewrite E1. cbn [option_map].
      exists (Chain a b'). cbn [den wf_buf vec_contract pieces].
      rewrite (lenN_0 _ Z). cbn [app]. split; auto. split; auto. split; [lia|]. tauto.
    + destruct (N.leb_spec n (lenN (den a))).
      * destruct (IHa n) as (a' & E1 & E2 & E3 & E4 & E5); [lia|]. rewrite E1. cbn [option_map].
        exists (Chain a' b). cbn [den wf_buf vec_contract pieces]. rewrite E2.
        rewrite dropN_app_le by lia. split; auto. split; auto. split; [lia|]. tauto.
      * destruct (IHa (lenN (den a))) as (a' & E1 & E2 & E3 & E4 & E5); [lia|].
        destruct (IHb (n - lenN (den a))) as (b' & F1 & F2 & F3 & F4 & F5); [lia|].
        rewrite E1, F1. cbn [option_map]. exists (Chain a' b').
        cbn [den wf_buf vec_contract pieces]. rewrite E2, F2.
        rewrite dropN_all by lia. rewrite dropN_app_ge by lia.
        split; auto. split; auto. split; [lia|]. tauto.
  - rewrite takeN_len in H. destruct (N.ltb_spec m n); [lia|].
    destruct (IH n) as (b' & E1 & E2 & E3 & E4 & E5); [lia|]. rewrite E1. cbn [option_map].
    exists (Take v (m - n) b'). cbn [den wf_buf vec_contract pieces]. rewrite E2.
    rewrite dropN_takeN. split; auto. split; auto. split; auto. split; auto.
    intros [V P]. split; auto. lia.
Qed.

(* vectored views *)
Lemma concat_firstn_prefix {A} (l : list (list A)) k : exists r, concat l = concat (firstn k l) ++ r.
Proof. exists (concat (skipn k l)). rewrite <- concat_app. now rewrite firstn_skipn. Qed.

Lemma Forall_firstn {A} (P : A -> Prop) k l : Forall P l -> Forall P (firstn k l).
Proof. revert k. induction l; intros [|k] F; cbn; auto. inversion F; auto. Qed.

Lemma view_segs k v l : Forall (fun s => s <> []) l -> (v = true \/ (length l <= 1)%nat) ->
  view_of k (if v then firstn k l else firstn (Nat.min k 1) l) (concat l).
Proof.
  intros W C.
  assert (forall j, (j <= k)%nat ->
            ((length l <= 1)%nat /\ j = Nat.min k 1 \/ j = k) ->
            view_of k (firstn j l) (concat l)) as H.
  { intros j Hj Hc. unfold view_of. split; [rewrite firstn_length; lia|].
    split; [apply concat_firstn_prefix|]. split.
    - rewrite firstn_length. intros HL. rewrite firstn_all2; auto.
      destruct Hc as [[? ->]| ->]; [|lia]. destruct k; lia.
    - now apply Forall_firstn. }
  destruct v.
  - apply H; auto.
  - apply H; [lia|]. left. destruct C; [easy|]. split; [auto|lia].
Qed.

Lemma view_nonempty k v d : view_of k v d -> (0 < k)%nat -> d <> [] -> concat v <> [].
Proof.
  intros (A1 & A2 & A3 & A4) Hk Hn E. destruct v as [|s v].
  - cbn in *. apply Hn. symmetry. now apply A3.
  - inversion A4 as [|? ? X1 X2]. cbn in E. now apply app_eq_nil in E as [? _].
Qed.
Lemma view_empty k v : view_of k v [] -> v = [].
Proof.
  intros (A1 & (r & A2) & A3 & A4). destruct v as [|s v]; auto.
  inversion A4 as [|? ? X1 X2]. cbn in A2. symmetry in A2.
  apply app_eq_nil in A2 as [A2 _]. now apply app_eq_nil in A2 as [? _].
Qed.
Lemma view_prefix_len k v d : view_of k v d -> lenN (concat v) <= lenN d.
Proof. intros (_ & (r & ->) & _). rewrite lenN_app. lia. Qed.

Lemma view_app k a b va vb :
  view_of k va a -> view_of (k - length va) vb b -> view_of k (va ++ vb) (a ++ b).
Proof.
  intros (A1 & (ra & A2) & A3 & A4) (B1 & (rb & B2) & B3 & B4). unfold view_of.
  rewrite app_length, concat_app. split; [lia|].
  destruct (Nat.eq_dec (length va) k) as [E|E].
  - assert (vb = []) as ->. { destruct vb; auto. cbn in B1. lia. }
    cbn [concat length]. rewrite !app_nil_r. split.
    + exists (ra ++ b). rewrite A2 at 1. now rewrite app_assoc.
    + split; [lia|]. exact A4.
  - assert (length va < k)%nat as HL by lia. rewrite (A3 HL) in *.
    split; [exists rb; rewrite B2 at 1; now rewrite app_assoc|]. split.
    + intros H. rewrite B3 by lia. reflexivity.
    + apply Forall_app. auto.
Qed.

Lemma trim_spec l : forall lim, 0 < lim -> Forall (fun s => s <> []) l ->
  (length (trim lim l) <= length l)%nat /\ concat (trim lim l) = takeN lim (concat l) /\
  Forall (fun s => s <> []) (trim lim l).
Proof.
  induction l as [|s l IH]; intros lim P F; cbn [trim concat length].
  - cbn. auto.
  - inversion F as [|? ? F1 F2]. subst. destruct (N.leb_spec lim (lenN s)).
    + cbn [concat length]. rewrite app_nil_r. split; [lia|]. split.
      * rewrite takeN_app_le by lia. reflexivity.
      * constructor; auto. intros E. apply (f_equal lenN) in E. rewrite takeN_len in E. cbn in E. lia.
    + destruct (IH (lim - lenN s)) as (I1 & I2 & I3); [lia|auto|]. cbn [concat length].
      split; [lia|]. split; [|constructor; auto].
      rewrite I2. rewrite takeN_app_ge by lia. reflexivity.
Qed.

Lemma trim_len l : forall lim, (length (trim lim l) <= length l)%nat.
Proof.
  induction l as [|s l IH]; intros lim; cbn [trim length]; auto.
  destruct (lim <=? lenN s); cbn [length]; [lia|]. specialize (IH (lim - lenN s)). lia.
Qed.
Lemma bvec_pieces b : forall k, (length (bvec k b) <= pieces b)%nat.
Proof.
  induction b as [v l|a IHa b IHb|v n b IH]; intros k; cbn [bvec pieces].
  - destruct v; rewrite firstn_length; lia.
  - rewrite app_length. specialize (IHa k). specialize (IHb (k - length (bvec k a))%nat). lia.
  - destruct (n =? 0); [cbn; lia|]. destruct v.
    + etransitivity; [apply trim_len|]. apply IH.
    + destruct k; [cbn; lia|]. destruct (0 <? brem (Take false n b)) eqn:Z; [|cbn; lia].
      cbn [length]. destruct (pieces b) eqn:P; [|lia]. exfalso.
      assert (den b = []) as E.
      { clear -P. induction b as [v l|a IHa b IHb|v m b IH]; cbn [pieces den] in *.
        - destruct l; [auto|cbn in P; lia].
        - rewrite IHa, IHb by lia. reflexivity.
        - rewrite IH by auto. reflexivity. }
      cbn [brem] in Z. rewrite brem_den, E in Z. apply N.ltb_lt in Z. cbn in Z. lia.
Qed.

Lemma pieces_one_chunk b : wf_buf b -> (pieces b <= 1)%nat -> bchunk b = den b.
Proof.
  induction b as [v l|a IHa b IHb|v n b IH]; cbn [wf_buf pieces bchunk den]; intros W P.
  - destruct l as [|x [|y l]]; cbn in *; auto; [now rewrite app_nil_r|lia].
  - destruct W as [Wa Wb].
    assert (forall c, pieces c = 0%nat -> den c = []) as Z.
    { clear. induction c as [v l|a IHa b IHb|v m b IH]; cbn [pieces den]; intros P.
        - destruct l; [auto|cbn in P; lia].
        - rewrite IHa, IHb by lia. reflexivity.
        - rewrite IH by auto. reflexivity. }
    destruct (0 <? brem a) eqn:Ra.
    + assert (pieces a <> 0%nat) as Na. { intros E. apply brem_pos in Ra. apply Ra, Z, E. }
      rewrite IHa by (auto; lia). rewrite (Z b) by lia. now rewrite app_nil_r.
    + assert (den a = []) as ->. { apply brem_zero. apply N.ltb_ge in Ra. lia. }
      cbn [app]. apply IHb; auto. lia.
  - rewrite IH by auto. rewrite N.min_comm. rewrite <- takeN_takeN. now rewrite (takeN_all (lenN (den b)) (den b)) by lia.
Qed.

Lemma trim_short l : forall lim, (length (trim lim l) < length l)%nat -> lim <= lenN (concat l).
Proof.
  induction l as [|s l IH]; intros lim; cbn [trim concat length]; [lia|].
  rewrite lenN_app. destruct (N.leb_spec lim (lenN s)); [lia|]. cbn [length]. intros H1.
  specialize (IH (lim - lenN s)). lia.
Qed.
Lemma pieces_zero c : pieces c = 0%nat -> den c = [].
Proof.
  induction c as [v l|a IHa b IHb|v m b IH]; cbn [pieces den]; intros P.
  - destruct l; [auto|cbn in P; lia].
  - rewrite IHa, IHb by lia. reflexivity.
  - rewrite IH by auto. reflexivity.
Qed.
Lemma bvec_all_pieces b : forall k, wf_buf b -> length (bvec k b) = pieces b -> concat (bvec k b) = den b.
Proof.
  induction b as [v l|a IHa b IHb|v n b IH]; intros k W L; cbn [wf_buf bvec pieces den] in *.
  - destruct v; rewrite firstn_length in L; rewrite firstn_all2; auto; lia.
  - destruct W. rewrite app_length in L. pose proof (bvec_pieces a k).
    pose proof (bvec_pieces b (k - length (bvec k a))). rewrite concat_app.
    rewrite IHa, IHb by (auto; lia). reflexivity.
  - destruct (N.eqb_spec n 0) as [->|Hn].
    { cbn in *. rewrite takeN_0. reflexivity. }
    destruct v.
    + pose proof (bvec_pieces b (Nat.min k 16)).
      pose proof (trim_len (bvec (Nat.min k 16) b) n) as T.
      rewrite <- (IH (Nat.min k 16)) by (auto; lia).
      assert (forall l lim, 0 < lim -> concat (trim lim l) = takeN lim (concat l)) as TC.
      { clear. induction l as [|s l IH]; intros lim P; cbn [trim concat]; auto.
        destruct (N.leb_spec lim (lenN s)).
        - cbn [concat]. rewrite app_nil_r. now rewrite takeN_app_le by lia.
        - cbn [concat]. rewrite IH by lia. now rewrite takeN_app_ge by lia. }
      apply TC. lia.
    + destruct k as [|k].
      { cbn in *. rewrite pieces_zero by auto. reflexivity. }
      destruct (0 <? brem (Take false n b)) eqn:Z.
      * cbn in L. pose proof (pieces_one_chunk (Take false n b) W) as E. cbn [pieces den] in E.
        rewrite E by lia. cbn. now rewrite app_nil_r.
      * symmetry. apply (proj1 (brem_zero (Take false n b))). apply N.ltb_ge in Z. lia.
Qed.

Lemma bvec_view b : forall k, wf_buf b -> vec_contract b -> view_of k (bvec k b) (den b).
Proof.
  induction b as [v l|a IHa b IHb|v n b IH]; intros k W C; cbn [wf_buf vec_contract] in *.
  - cbn [bvec den]. now apply view_segs.
  - cbn [bvec den]. destruct W, C. apply view_app; auto.
  - destruct C as [C P]. cbn [bvec den]. destruct (N.eqb_spec n 0) as [->|Hn].
    { rewrite takeN_0. unfold view_of. cbn. split; [lia|]. split; [now exists []|]. auto. }
    destruct v.
    + specialize (IH (Nat.min k 16) W C). destruct IH as (A1 & (r & A2) & A3 & A4).
      destruct (trim_spec (bvec (Nat.min k 16) b) n) as (T1 & T2 & T3); [lia|auto|].
      unfold view_of. split; [lia|]. rewrite T2. split.
      * exists (dropN (lenN (takeN n (concat (bvec (Nat.min k 16) b)))) (takeN n (den b))).
        rewrite <- (takeN_dropN (lenN (takeN n (concat (bvec (Nat.min k 16) b)))) (takeN n (den b))) at 1.
        f_equal. rewrite takeN_len, takeN_takeN. rewrite A2. rewrite takeN_app_le by lia.
        set (c := concat (bvec (Nat.min k 16) b)).
        destruct (N.le_ge_cases n (lenN c)).
        -- f_equal. lia.
        -- rewrite !takeN_all by lia. reflexivity.
      * split; auto. intros HL.
        destruct (Nat.lt_ge_cases (length (bvec (Nat.min k 16) b)) (Nat.min k 16)) as [L|L].
        -- now rewrite (A3 L).
        -- (* all slots used: either the limit cut the view short or the pieces ran out *)
           assert (length (bvec (Nat.min k 16) b) = Nat.min k 16) as EL by lia.
           destruct (Nat.lt_ge_cases (length (trim n (bvec (Nat.min k 16) b)))
                                     (length (bvec (Nat.min k 16) b))) as [X|X].
           ++ apply trim_short in X. rewrite A2. now rewrite takeN_app_le by lia.
           ++ rewrite bvec_all_pieces; auto. pose proof (bvec_pieces b (Nat.min k 16)). lia.
    + destruct k as [|k].
      { unfold view_of. cbn. split; [lia|]. split; [now eexists|]. split; [lia|auto]. }
      destruct (0 <? brem (Take false n b)) eqn:Z.
      * pose proof (pieces_one_chunk (Take false n b) W P) as E. cbn [den] in E. rewrite E.
        apply brem_pos in Z. cbn [den] in Z.
        unfold view_of. cbn [concat length]. rewrite app_nil_r. split; [lia|].
        split; [exists []; now rewrite app_nil_r|]. auto.
      * assert (takeN n (den b) = []) as ->.
        { apply (proj1 (brem_zero (Take false n b))). apply N.ltb_ge in Z. lia. }
        unfold view_of. cbn. split; [lia|]. split; [now exists []|]. auto.
Qed.

(* ------------------------------------------------------------------ *)
(* Buffer lists *)
Lemma bl_rem_den l : bl_rem l = lenN (bl_den l).
Proof.
  induction l as [|b l IH]; unfold bl_den; cbn [bl_rem map concat]; auto.
  rewrite lenN_app, brem_den, IH. reflexivity.
Qed.
Lemma bl_den_cons b l : bl_den (b :: l) = den b ++ bl_den l.
Proof. reflexivity. Qed.
Lemma bl_den_app a b : bl_den (a ++ b) = bl_den a ++ bl_den b.
Proof. unfold bl_den. now rewrite map_app, concat_app. Qed.

(* Advancing drops exactly that many bytes and keeps the good buffers good. *)
Lemma bl_adv_spec l : forall n, Forall good_buf l -> n <= lenN (bl_den l) ->
  exists l', bl_adv n l = Some l' /\ bl_den l' = dropN n (bl_den l) /\ Forall good_buf l' /\
             (length l' <= length l)%nat.
Proof.
  induction l as [|b l IH]; intros n G H.
  - cbn in H. assert (n = 0) as -> by lia. exists []. auto.
  - rewrite bl_den_cons, lenN_app in *. cbn [bl_adv]. inversion G as [|? ? Gb Gl]. subst.
    destruct (N.eqb_spec n 0) as [->|Hn].
    { exists (b :: l). now rewrite dropN_0. }
    rewrite brem_den. destruct (N.ltb_spec n (lenN (den b))).
    + destruct Gb as (W & V & D).
      destruct (badv_spec b n) as (b' & E1 & E2 & E3 & E4 & E5); [lia|]. rewrite E1. cbn [option_map].
      exists (b' :: l). split; auto. split; [|split].
      * rewrite bl_den_cons, E2. rewrite dropN_app_le by lia. reflexivity.
      * constructor; auto. split; auto. split; auto. rewrite E2. intros E.
        apply (f_equal lenN) in E. rewrite dropN_len in E. cbn in E. lia.
      * cbn. lia.
    + destruct (badv_spec b (lenN (den b))) as (b' & E1 & _); [lia|]. rewrite E1.
      destruct (IH (n - lenN (den b))) as (l' & F1 & F2 & F3 & F4); [auto|lia|].
      exists l'. split; auto. split; [|split]; auto.
      * rewrite F2. now rewrite dropN_app_ge by lia.
      * cbn. lia.
Qed.

Lemma bl_vec_view l : forall k, Forall good_buf l -> view_of k (bl_vec k l) (bl_den l).
Proof.
  induction l as [|b l IH]; intros k G; cbn [bl_vec].
  - unfold view_of, bl_den. cbn. split; [lia|]. split; [now exists []|]. auto.
  - inversion G as [|? ? (W & V & D) Gl]. subst. rewrite bl_den_cons.
    destruct (Nat.eqb_spec k 0) as [->|Hk].
    { unfold view_of. cbn. split; [lia|]. split; [now eexists|]. split; [lia|auto]. }
    pose proof (bvec_view b k W V) as Vb. destruct (Nat.eqb_spec (length (bvec k b)) k) as [E|E].
    + rewrite <- (app_nil_r (bvec k b)). apply view_app; auto. rewrite E, Nat.sub_diag.
      unfold view_of. cbn. split; [lia|]. split; [now eexists|]. split; [lia|auto].
    + apply view_app; auto.
Qed.

(* copying out *)
Lemma put_take_spec f : forall n b acc, wf_buf b -> n <= lenN (den b) -> n < N.of_nat f ->
  exists b', put_take f n b acc = Some (acc ++ takeN n (den b), b') /\ den b' = dropN n (den b) /\
             wf_buf b' /\ (vec_contract b -> vec_contract b').
Proof.
  induction f as [|f IH]; intros n b acc W H F; [lia|]. cbn [put_take]. rewrite brem_den.
  destruct (N.eqb_spec (N.min (lenN (den b)) n) 0) as [Z|Z].
  - assert (n = 0) as -> by lia. exists b. rewrite takeN_0, app_nil_r, dropN_0. auto.
  - assert (den b <> []) as D. { intros E. rewrite E in Z. cbn in Z. lia. }
    pose proof (bchunk_nonempty b W D) as C. apply lenN_pos in C.
    destruct (bchunk_prefix b) as [r E].
    assert (lenN (bchunk b) <= lenN (den b)) as L. { rewrite E. rewrite lenN_app. lia. }
    rewrite takeN_len.
    destruct (badv_spec b (N.min n (lenN (bchunk b)))) as (b' & E1 & E2 & E3 & E4 & E5); [lia|].
    rewrite E1.
    destruct (IH (n - N.min n (lenN (bchunk b))) b' (acc ++ takeN n (bchunk b))) as (b2 & F1 & F2 & F3 & F4).
    + auto.
    + rewrite E2, dropN_len. lia.
    + lia.
    + exists b2. rewrite F1. split; [|split; [|split]]; auto.
      * rewrite E2. rewrite <- app_assoc. do 3 f_equal.
        destruct (N.le_ge_cases n (lenN (bchunk b))).
        -- rewrite N.min_l by lia. rewrite N.sub_diag, takeN_0, app_nil_r.
           rewrite E. now rewrite takeN_app_le by lia.
        -- rewrite N.min_r by lia. rewrite (takeN_all n) by lia. rewrite E.
           rewrite takeN_app_ge by lia. rewrite dropN_app_ge by lia. rewrite N.sub_diag, dropN_0. reflexivity.
      * rewrite F2, E2. rewrite dropN_dropN. f_equal. lia.
Qed.
Lemma bcopy_spec n b : wf_buf b -> n <= lenN (den b) ->
  exists b', bcopy n b = Some (takeN n (den b), b') /\ den b' = dropN n (den b) /\
             wf_buf b' /\ (vec_contract b -> vec_contract b').
Proof.
  intros W H. unfold bcopy. rewrite brem_den. destruct (N.ltb_spec (lenN (den b)) n); [lia|].
  apply (put_take_spec (S (N.to_nat n)) n b [] W H). lia.
Qed.

Lemma bl_chunk_prefix l : exists r, bl_den l = bl_chunk l ++ r.
Proof.
  destruct l as [|b l]; cbn [bl_chunk]; [now exists []|]. rewrite bl_den_cons.
  destruct (bchunk_prefix b) as [r E]. exists (r ++ bl_den l). rewrite E at 1. now rewrite app_assoc.
Qed.
Lemma bl_put_take_spec f : forall n l acc, Forall good_buf l -> n <= lenN (bl_den l) -> n < N.of_nat f ->
  exists l', bl_put_take f n l acc = Some (acc ++ takeN n (bl_den l), l') /\ bl_den l' = dropN n (bl_den l) /\
             Forall good_buf l'.
Proof.
  induction f as [|f IH]; intros n l acc W H F; [lia|]. cbn [bl_put_take]. rewrite bl_rem_den.
  destruct (N.eqb_spec (N.min (lenN (bl_den l)) n) 0) as [Z|Z].
  - assert (n = 0) as -> by lia. exists l. rewrite takeN_0, app_nil_r, dropN_0. auto.
  - destruct (bl_chunk_prefix l) as [r E].
    assert (0 < lenN (bl_chunk l)) as C.
    { destruct l as [|b l]; [cbn in Z; lia|]. cbn [bl_chunk]. inversion W as [|? ? (W1 & W2 & W3) Wl].
      apply lenN_pos. now apply bchunk_nonempty. }
    assert (lenN (bl_chunk l) <= lenN (bl_den l)) as L. { rewrite E. rewrite lenN_app. lia. }
    rewrite takeN_len.
    destruct (bl_adv_spec l (N.min n (lenN (bl_chunk l)))) as (b' & E1 & E2 & E3 & E4); [auto|lia|].
    rewrite E1.
    destruct (IH (n - N.min n (lenN (bl_chunk l))) b' (acc ++ takeN n (bl_chunk l))) as (b2 & F1 & F2 & F3).
    + auto.
    + rewrite E2, dropN_len. lia.
    + lia.
    + exists b2. rewrite F1. split; [|split]; auto.
      * rewrite E2. rewrite <- app_assoc. do 3 f_equal.
        destruct (N.le_ge_cases n (lenN (bl_chunk l))).
        -- rewrite N.min_l by lia. rewrite N.sub_diag, takeN_0, app_nil_r.
           rewrite E. now rewrite takeN_app_le by lia.
        -- rewrite N.min_r by lia. rewrite (takeN_all n) by lia. rewrite E.
           rewrite takeN_app_ge by lia. rewrite dropN_app_ge by lia. rewrite N.sub_diag, dropN_0. reflexivity.
      * rewrite F2, E2. rewrite dropN_dropN. f_equal. lia.
Qed.
Lemma bl_copy_spec n l : Forall good_buf l -> n <= lenN (bl_den l) ->
  exists l', bl_copy n l = Some (takeN n (bl_den l), l') /\ bl_den l' = dropN n (bl_den l) /\
             Forall good_buf l'.
Proof.
  intros G H. unfold bl_copy.
  assert (exists l', (if bl_rem l <? n then None else bl_put_take (S (N.to_nat n)) n l []) =
             Some (takeN n (bl_den l), l') /\ bl_den l' = dropN n (bl_den l) /\ Forall good_buf l') as S.
  { rewrite bl_rem_den. destruct (N.ltb_spec (lenN (bl_den l)) n); [lia|].
    apply (bl_put_take_spec (S (N.to_nat n)) n l []); auto. lia. }
  destruct l as [|b l]; auto. inversion G as [|? ? (W & V & D) Gl]. subst.
  rewrite bl_den_cons in *. rewrite brem_den. destruct (N.eqb_spec (lenN (den b)) n) as [E|E].
  - destruct (bcopy_spec n b W) as (b' & C1 & C2 & _); [lia|]. rewrite C1. exists l.
    rewrite takeN_app_le by lia. split; auto. split; auto.
    rewrite dropN_app_ge by lia. rewrite E, N.sub_diag, dropN_0. reflexivity.
  - destruct (N.ltb_spec n (lenN (den b))); auto.
    destruct (bcopy_spec n b W) as (b' & C1 & C2 & C3 & C4); [lia|]. rewrite C1. exists (b' :: l).
    rewrite takeN_app_le by lia. split; auto. split.
    + rewrite bl_den_cons, C2. now rewrite dropN_app_le by lia.
    + constructor; auto. split; auto. split; auto. rewrite C2. intros X.
      apply (f_equal lenN) in X. rewrite dropN_len in X. cbn in X. lia.
Qed.
