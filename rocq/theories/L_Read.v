(* Read sizes, the end-of-head scan, head parsing, byte conservation. *)
From Verif Require Import Base M_Src M_Read S_Transport S_Read.

(* ------------------------------------------------------------------ *)
(* prev_power_of_two *)
Lemma prev_power_spec n : 4 <= n -> n <= u64_max -> prev_power_of_two n = 2 ^ (N.log2 n - 1).
Proof.
  intros H U. unfold prev_power_of_two, leading_zeros. rewrite N.size_log2 by lia.
  assert (2 <= N.log2 n) as L2. { change 2 with (N.log2 4). apply N.log2_le_mono. lia. }
  assert (N.log2 n <= 63) as L63. { change 63 with (N.log2 u64_max). apply N.log2_le_mono. lia. }
  rewrite N.shiftr_div_pow2. generalize dependent (N.log2 n). intros l H2 H63.
  assert (exists k, l = 2 + k /\ k <= 61) as (k & -> & K) by (exists (l - 2); lia).
  replace (64 - N.succ (2 + k) + 2) with (63 - k) by lia.
  replace (2 + k - 1) with (1 + k) by lia.
  change u64_max with (2 ^ 64 - 1).
  assert (2 ^ 64 = 2 ^ (63 - k) * 2 ^ (1 + k)) as E. { rewrite <- N.pow_add_r. f_equal. lia. }
  assert (0 < 2 ^ (63 - k)) as P1 by (apply N.neq_0_lt_0, N.pow_nonzero; lia).
  assert (0 < 2 ^ (1 + k)) as P2 by (apply N.neq_0_lt_0, N.pow_nonzero; lia).
  rewrite E. clear E. remember (2 ^ (63 - k)) as a. remember (2 ^ (1 + k)) as b.
  clear Heqa Heqb K H2 H63 k.
  replace ((a * b - 1) / a) with (b - 1); [lia|].
  apply N.div_unique with (r := a - 1); [lia|]. nia.
Qed.
Lemma pow2_log2 n : 0 < n -> 2 ^ N.log2 n <= n.
Proof. intros. now apply N.log2_spec. Qed.
Lemma prev_power_lt n : 4 <= n -> n <= u64_max -> prev_power_of_two n < n.
Proof.
  intros H U. rewrite prev_power_spec by auto.
  pose proof (pow2_log2 n ltac:(lia)).
  assert (2 <= N.log2 n) as L2. { change 2 with (N.log2 4). apply N.log2_le_mono. lia. }
  replace (N.log2 n) with (N.succ (N.log2 n - 1)) in H0 at 1 by lia.
  rewrite N.pow_succ_r' in H0.
  assert (0 < 2 ^ (N.log2 n - 1)) by (apply N.neq_0_lt_0, N.pow_nonzero; lia). lia.
Qed.

Lemma rev_case {A} (l : list A) : l = [] \/ exists l' x, l = l' ++ [x].
Proof. destruct l as [|a l] using rev_ind; eauto. Qed.

Definition pow2 (n : N) : Prop := exists k, n = 2 ^ k.
(* the invariant of the adaptive strategy *)
Definition rs_inv (max : N) (s : rstrategy) : Prop :=
  exists dec next, s = Adaptive dec next max /\ 8192 <= next <= max /\ (pow2 next \/ next = max).

Lemma rs_record_inv max s n : 8192 <= max -> max <= u64_max -> rs_inv max s -> rs_inv max (rs_record s n).
Proof.
  intros M U (dec & next & -> & [L1 L2] & P). cbn [rs_record].
  destruct (N.leb_spec next n).
  - exists false, (N.min (incr_power_of_two next) max). split; auto. unfold incr_power_of_two.
    split; [split; [lia|apply N.le_min_r]|].
    destruct (N.le_ge_cases max (next * 2)).
    + right. rewrite N.min_r; auto. apply N.min_glb; auto.
    + left. destruct P as [[k ->]| ->]; [|lia].
      exists (N.succ k). rewrite N.pow_succ_r'. rewrite N.min_l by (etransitivity; [apply N.le_min_l|auto]).
      rewrite N.min_l by lia. lia.
  - destruct (N.ltb_spec n (prev_power_of_two next)); [|exists false, next; auto].
    destruct dec; [|exists true, next; auto].
    exists false, (N.max (prev_power_of_two next) init_buffer_size). split; auto.
    unfold init_buffer_size. pose proof (prev_power_lt next ltac:(lia) ltac:(lia)). split.
    + split; [apply N.le_max_r|]. apply N.max_lub; lia.
    + left. rewrite prev_power_spec by lia.
      destruct (N.max_spec (2 ^ (N.log2 next - 1)) 8192) as [[_ ->]|[_ ->]];
        [exists 13; reflexivity|eexists; reflexivity].
Qed.

(* ------------------------------------------------------------------ *)
(* the scan *)
Lemma beq_true a : forall b, beq a b = true <-> a = b.
Proof.
  induction a as [|x a IH]; intros [|y b]; cbn; try (split; easy).
  rewrite andb_true_iff, N.eqb_eq, IH. split; [intros [-> ->]; auto|]. intros E. now injection E.
Qed.
Lemma takeN_pre {A} n (r : list A) t : takeN n r = t -> exists post, r = t ++ post.
Proof. intros <-. exists (dropN n r). now rewrite takeN_dropN. Qed.

Lemma scan_end_sound l : scan_end l = true -> exists pre t post, blank t /\ l = pre ++ t ++ post.
Proof.
  induction l as [|b r IH]; cbn [scan_end]; [easy|].
  assert ((exists pre t post, blank t /\ r = pre ++ t ++ post) ->
          exists pre t post, blank t /\ b :: r = pre ++ t ++ post) as Cons.
  { intros (pre & t & post & H & ->). exists (b :: pre), t, post. auto. }
  destruct (N.eqb_spec b CR) as [->|Hb].
  - destruct (beq (takeN 3 r) [LF; CR; LF]) eqn:E.
    + intros _. apply beq_true in E. apply takeN_pre in E as [post ->].
      exists [CR], [LF; CR; LF], post. split; [now right|reflexivity].
    + intros H. apply Cons. auto.
  - destruct (N.eqb_spec b LF) as [->|Hl]; cbn [andb]; [|intros H; apply Cons; auto].
    destruct (beq (takeN 1 r) [LF]) eqn:E1; cbn [orb].
    + intros _. apply beq_true in E1. apply takeN_pre in E1 as [post ->].
      exists [], [LF; LF], post. split; [now left|reflexivity].
    + destruct (beq (takeN 2 r) [CR; LF]) eqn:E2; [|intros H; apply Cons; auto].
      intros _. apply beq_true in E2. apply takeN_pre in E2 as [post ->].
      exists [], [LF; CR; LF], post. split; [now right|reflexivity].
Qed.
Lemma scan_end_complete pre : forall t post, blank t -> scan_end (pre ++ t ++ post) = true.
Proof.
  induction pre as [|b pre IH]; intros t post H.
  - destruct H as [->| ->]; destruct post as [|? [|? ?]]; reflexivity.
  - cbn [app scan_end]. rewrite (IH t post H).
    destruct (b =? CR); [destruct (beq _ _); auto|]. destruct (_ && _); auto.
Qed.

(* ------------------------------------------------------------------ *)
(* parsing heads *)
Lemma parse_headers_fast {M E} (P : bytes -> presult M E) b n :
  (forall c m, P b = PDone c m -> is_complete_fast b n = true) ->
  (forall c, P b = PMore c -> 0 < c -> is_complete_fast b n = true) ->
  parse_headers P b (Some n) = P b \/
  (parse_headers P b (Some n) = PMore 0 /\ (P b = PMore 0 \/ exists e, P b = PFail e)) \/
  b = [].
Proof.
  intros H1 H2. unfold parse_headers. destruct b as [|x b]; auto.
  destruct (is_complete_fast (x :: b) n) eqn:F; auto. right. left. split; auto.
  destruct (P (x :: b)) as [c|c m|e] eqn:EP.
  - left. destruct (N.eq_dec c 0) as [->|]; auto. specialize (H2 c eq_refl ltac:(lia)). congruence.
  - specialize (H1 c m eq_refl). congruence.
  - right. eauto.
Qed.

(* A blank line that ends beyond the old bytes is seen by the scan. *)
Lemma fast_sees a d pre t post : blank t -> a ++ d = pre ++ t ++ post ->
  lenN a < lenN (pre ++ t) -> is_complete_fast (a ++ d) (lenN a) = true.
Proof.
  intros B E L. unfold is_complete_fast.
  assert (lenN t <= 3) as T. { destruct B as [->| ->]; cbn; lia. }
  rewrite lenN_app in L.
  assert (lenN a - 3 <= lenN pre) as K by lia.
  rewrite E. rewrite dropN_app_le by lia. now apply scan_end_complete.
Qed.
Lemma ends_blank_sees a d c : c <= lenN (a ++ d) -> ends_blank (takeN c (a ++ d)) -> lenN a < c ->
  is_complete_fast (a ++ d) (lenN a) = true.
Proof.
  intros L (pre & t & B & E) C.
  apply (fast_sees a d pre t (dropN c (a ++ d)) B).
  - rewrite app_assoc, <- E. now rewrite takeN_dropN.
  - rewrite <- E, takeN_len. lia.
Qed.

Section Parse.
  Context {M E : Type} (P : bytes -> presult M E) (max : N).

  Definition next_partial (b : bytes) : option N := if 0 <? lenN b then Some (lenN b) else None.

  Lemma drive_data n b partial d r c :
    parse_headers P b partial = PMore c -> lenN (dropN c b) < max -> d <> [] ->
    drive n P max (mkR b partial (EvData d :: r)) =
    drive n P max (mkR (dropN c b ++ d) (next_partial (dropN c b)) r).
  Proof.
    intros H L D. apply lenN_pos in D.
    assert (io_parse P max (mkR b partial (EvData d :: r)) =
            io_parse P max (mkR (dropN c b ++ d) (next_partial (dropN c b)) r)) as X.
    { unfold io_parse. cbn [r_buf r_partial r_evs parse_loop]. rewrite H. cbv zeta.
      destruct (N.leb_spec max (lenN (dropN c b))); [lia|].
      destruct (N.eqb_spec (lenN d) 0); [lia|]. reflexivity. }
    destruct n; cbn [drive]; now rewrite X.
  Qed.
  Lemma drive_pending n b partial r c :
    parse_headers P b partial = PMore c -> lenN (dropN c b) < max ->
    drive (S n) P max (mkR b partial (EvPending :: r)) =
    drive n P max (mkR (dropN c b) (next_partial (dropN c b)) r).
  Proof.
    intros H L. cbn [drive]. unfold io_parse at 1. cbn [r_buf r_partial r_evs parse_loop]. rewrite H.
    cbv zeta. destruct (N.leb_spec max (lenN (dropN c b))); [lia|]. reflexivity.
  Qed.

  Definition waiting (partial : option N) (b : bytes) : Prop :=
    partial = None \/
    exists x c d, P x = PMore c /\ partial = Some (lenN (dropN c x)) /\ b = dropN c x ++ d.

  (* The scan decides as the parser would. *)
  Lemma fast_same partial b : head_parser P -> waiting partial b ->
    let s := match b with [] => PMore 0 | _ => P b end in
    parse_headers P b partial = s \/ exists e, s = PFail e.
  Proof.
    intros HP W s. destruct b as [|y b]; [now left|]. subst s.
    set (b0 := y :: b) in *. destruct W as [->|(x & c & d & H & -> & Eb)]; [now left|].
    destruct (parse_headers_fast P b0 (lenN (dropN c x))) as [F|[[F [F2|[e F2]]]|F]].
    - intros c' m Hd. rewrite Eb in *.
      destruct (hp_done P HP _ _ _ Hd) as [L1 L2].
      eapply ends_blank_sees; eauto. eapply (hp_wait_done P HP); eauto.
    - intros c' Hd Pos. rewrite Eb in *.
      destruct (hp_more P HP _ _ Hd Pos) as [L1 L2].
      eapply ends_blank_sees; eauto. eapply (hp_wait_more P HP); eauto.
    - now left.
    - left. now rewrite F, F2.
    - right. eauto.
    - easy.
  Qed.

  Lemma waiting_next b c d : b <> [] -> P b = PMore c -> waiting (next_partial (dropN c b)) (dropN c b ++ d).
  Proof.
    intros N H. unfold next_partial. destruct (0 <? lenN (dropN c b)); [|now left].
    right. exists b, c, d. auto.
  Qed.

  Lemma drive_agrees evs : head_parser P -> forall n b partial, (length evs <= n)%nat ->
    waiting partial b -> agrees (head_outcome P max b evs) (drive n P max (mkR b partial evs)).
  Proof.
    intros HP. induction evs as [|e r IH]; intros n b partial Hn W.
    - pose proof (fast_same partial b HP W) as F. cbn [head_outcome] in *.
      destruct (match b with [] => PMore 0 | _ :: _ => P b end) as [c|c m|e] eqn:S.
      + destruct F as [F|[e F]]; [|easy]. cbv zeta.
        destruct n; cbn [drive]; unfold io_parse; cbn [r_buf r_partial r_evs parse_loop]; rewrite F; cbv zeta;
          destruct (max <=? lenN (dropN c b)); reflexivity.
      + destruct F as [F|[e F]]; [|easy].
        destruct n; cbn [drive]; unfold io_parse; cbn [r_buf r_partial r_evs parse_loop]; rewrite F; reflexivity.
      + easy.
    - pose proof (fast_same partial b HP W) as F. cbn [length] in Hn. cbn [head_outcome].
      destruct (match b with [] => PMore 0 | _ :: _ => P b end) as [c|c m|e'] eqn:S.
      + destruct F as [F|[e' F]]; [|easy]. cbv zeta.
        assert (forall d, waiting (next_partial (dropN c b)) (dropN c b ++ d)) as WN.
        { intros d. destruct b as [|y b].
          - injection S as <-. now left.
          - apply waiting_next; easy. }
        destruct (N.leb_spec max (lenN (dropN c b))) as [L|L].
        * destruct n; cbn [drive]; unfold io_parse; cbn [r_buf r_partial r_evs parse_loop]; rewrite F; cbv zeta;
            (destruct (N.leb_spec max (lenN (dropN c b))); [reflexivity|lia]).
        * destruct e as [|d|].
          -- destruct n; [lia|]. rewrite (drive_pending n b partial r c F L). apply IH; [lia|].
             rewrite <- (app_nil_r (dropN c b)) at 2. apply WN.
          -- destruct (N.eqb_spec (lenN d) 0) as [Z|Z].
             ++ destruct n; cbn [drive]; unfold io_parse; cbn [r_buf r_partial r_evs parse_loop]; rewrite F; cbv zeta;
                (destruct (N.leb_spec max (lenN (dropN c b))); [lia|]);
                destruct (N.eqb_spec (lenN d) 0); (reflexivity || lia).
             ++ rewrite (drive_data n b partial d r c F L).
                ** apply IH; [lia|]. apply WN.
                ** intros ->. cbn in Z. lia.
          -- destruct n; cbn [drive]; unfold io_parse; cbn [r_buf r_partial r_evs parse_loop]; rewrite F; cbv zeta;
              (destruct (N.leb_spec max (lenN (dropN c b))); [lia|reflexivity]).
      + destruct F as [F|[e' F]]; [|easy].
        destruct n; cbn [drive]; unfold io_parse; cbn [r_buf r_partial r_evs parse_loop]; rewrite F; reflexivity.
      + easy.
  Qed.

  (* Outcomes in terms of the delivered pieces, for parsers that consume
     nothing until a head is complete (the server's). *)
  Lemma outcome_message evs : forall b ds1 ds2 c m, max > 0 ->
    deliveries evs = Some (ds1 ++ ds2) -> Forall (fun d => d <> []) ds1 ->
    (forall p q, ds1 = p ++ q -> q <> [] -> b ++ concat p <> [] -> P (b ++ concat p) = PMore 0) ->
    (forall p q, ds1 = p ++ q -> q <> [] -> lenN (b ++ concat p) < max) ->
    P (b ++ concat ds1) = PDone c m -> b ++ concat ds1 <> [] ->
    exists left, head_outcome P max b evs = HMessage m (dropN c (b ++ concat ds1)) left /\
                 deliveries left = Some ds2.
  Proof.
    induction evs as [|e r IH]; intros b ds1 ds2 c m Pos D NE Inc Small Done Ne.
    - cbn in D. injection D as D. symmetry in D. apply app_eq_nil in D as [-> ->].
      cbn [concat] in *. rewrite app_nil_r in *. cbn [head_outcome].
      destruct b as [|x b]; [easy|]. rewrite Done. exists []. auto.
    - destruct ds1 as [|d ds1].
      + cbn [concat app] in *. rewrite app_nil_r in *. cbn [head_outcome].
        destruct b as [|x b]; [easy|]. rewrite Done. exists (e :: r). auto.
      + cbn [head_outcome].
        assert ((match b with [] => PMore 0 | _ => P b end) = PMore 0) as S0.
        { destruct b as [|x b]; auto. specialize (Inc [] (d :: ds1) eq_refl ltac:(easy)).
          cbn [concat] in Inc. rewrite app_nil_r in Inc. apply Inc. easy. }
        rewrite S0. cbv zeta. rewrite dropN_0.
        assert (lenN b < max) as L.
        { specialize (Small [] (d :: ds1) eq_refl ltac:(easy)). cbn [concat] in Small. now rewrite app_nil_r in Small. }
        destruct (N.leb_spec max (lenN b)); [lia|].
        destruct e as [|d'|]; cbn [deliveries] in D.
        * apply (IH b (d :: ds1) ds2 c m); auto.
        * destruct (deliveries r) as [ds|] eqn:Dr; [|easy]. cbn in D. injection D as -> D.
          inversion NE as [|? ? N1 N2]. subst. apply lenN_pos in N1.
          destruct (N.eqb_spec (lenN d) 0); [lia|].
          cbn [concat] in Done, Ne. rewrite app_assoc in Done, Ne.
          cbn [concat]. rewrite app_assoc.
          apply (IH (b ++ d) ds1 ds2 c m); auto.
          -- intros p q -> Hq. rewrite <- !app_assoc. apply (Inc (d :: p) q); auto.
          -- intros p q -> Hq. rewrite <- !app_assoc. apply (Small (d :: p) q); auto.
        * easy.
  Qed.

  Lemma outcome_large evs : forall b ds1 ds2, max > 0 ->
    deliveries evs = Some (ds1 ++ ds2) -> Forall (fun d => d <> []) ds1 ->
    (forall p q, ds1 = p ++ q -> b ++ concat p <> [] -> P (b ++ concat p) = PMore 0) ->
    (forall p q, ds1 = p ++ q -> q <> [] -> lenN (b ++ concat p) < max) ->
    max <= lenN (b ++ concat ds1) ->
    head_outcome P max b evs = HTooLarge.
  Proof.
    induction evs as [|e r IH]; intros b ds1 ds2 Pos D NE Inc Small Big.
    - cbn in D. injection D as D. symmetry in D. apply app_eq_nil in D as [-> ->].
      cbn [concat] in *. rewrite app_nil_r in *. cbn [head_outcome].
      specialize (Inc [] [] eq_refl). cbn [concat] in Inc. rewrite app_nil_r in Inc.
      assert ((match b with [] => PMore 0 | _ => P b end) = PMore 0) as ->.
      { destruct b as [|x b]; auto. apply Inc. easy. }
      cbv zeta. rewrite dropN_0. destruct (N.leb_spec max (lenN b)); [reflexivity|lia].
    - assert ((match b with [] => PMore 0 | _ => P b end) = PMore 0) as S0.
      { destruct b as [|x b]; auto. specialize (Inc [] ds1 eq_refl).
        cbn [concat] in Inc. rewrite app_nil_r in Inc. apply Inc. easy. }
      cbn [head_outcome]. rewrite S0. cbv zeta. rewrite dropN_0.
      destruct (N.leb_spec max (lenN b)) as [|L]; [reflexivity|].
      destruct ds1 as [|d ds1]; [cbn in Big; rewrite app_nil_r in Big; lia|].
      destruct e as [|d'|]; cbn [deliveries] in D.
      + apply (IH b (d :: ds1) ds2); auto.
      + destruct (deliveries r) as [ds|] eqn:Dr; [|easy]. cbn in D. injection D as -> D.
        inversion NE as [|? ? N1 N2]. subst. apply lenN_pos in N1.
        destruct (N.eqb_spec (lenN d) 0); [lia|].
        cbn [concat] in Big. rewrite app_assoc in Big.
        apply (IH (b ++ d) ds1 ds2); auto.
        * intros p q ->. rewrite <- !app_assoc. apply (Inc (d :: p) q); auto.
        * intros p q -> Hq. rewrite <- !app_assoc. apply (Small (d :: p) q); auto.
      + easy.
  Qed.

  (* Nothing but one read beyond the limit is ever held. *)
  Lemma parse_loop_bound evs k : Forall (fun e => match e with EvData d => lenN d <= k | _ => True end) evs ->
    forall b partial, lenN b < max + k ->
    let (s, r) := parse_loop P max b partial evs in
    lenN (r_buf s) < max + k /\ (r = Pending -> lenN (r_buf s) < max).
  Proof.
    induction evs as [|e r IH]; intros F b partial L; cbn [parse_loop].
    - destruct (parse_headers P b partial) as [c|c m|e].
      + cbv zeta. pose proof (dropN_len c b).
        destruct (N.leb_spec max (lenN (dropN c b))); cbn [r_buf]; split; try easy; lia.
      + cbn [r_buf]. rewrite dropN_len. split; [lia|easy].
      + cbn [r_buf]. split; [lia|easy].
    - inversion F as [|? ? F1 F2]. subst. destruct (parse_headers P b partial) as [c|c m|e'].
      + cbv zeta. pose proof (dropN_len c b).
        destruct (N.leb_spec max (lenN (dropN c b))); [cbn [r_buf]; split; try easy; lia|].
        destruct e as [|d|]; try (cbn [r_buf]; split; [lia|intros; lia || easy]; fail).
        destruct (N.eqb_spec (lenN d) 0); [cbn [r_buf]; split; [lia|easy]|].
        apply IH; auto. rewrite lenN_app. lia.
      + cbn [r_buf]. rewrite dropN_len. split; [lia|easy].
      + cbn [r_buf]. split; [lia|easy].
  Qed.

  (* Conservation. *)
  Lemma parse_loop_takes evs : in_bounds P -> forall b partial,
    let (s, r) := parse_loop P max b partial evs in
    exists u, b ++ data_of evs = u ++ stream s /\
      match r with
      | Ready (Ok m) => exists x c skipped, P x = PDone c m /\ u = skipped ++ takeN c x /\
                                            x = takeN c x ++ r_buf s
      | _ => (forall x c, P x = PMore c -> c = 0) -> u = []
      end.
  Proof.
    intros IB.
    assert (forall b partial, match parse_headers P b partial with
              PMore c | PDone c _ => c <= lenN b | PFail _ => True end) as PB.
    { intros b partial. unfold parse_headers. destruct b as [|x b]; [lia|].
      destruct partial as [n|]; [destruct (is_complete_fast _ _)|]; try lia; apply IB. }
    assert (forall b partial c m, parse_headers P b partial = PDone c m -> P b = PDone c m) as PD.
    { intros b partial c m. unfold parse_headers. destruct b as [|x b]; [easy|].
      destruct partial as [n|]; [destruct (is_complete_fast _ _)|]; auto. easy. }
    assert (forall b partial c, parse_headers P b partial = PMore c ->
             (forall x c, P x = PMore c -> c = 0) -> c = 0) as PM.
    { intros b partial c. unfold parse_headers. destruct b as [|x b]; [now intros [= <-]|].
      destruct partial as [n|]; [destruct (is_complete_fast _ _)|]; eauto. now intros [= <-]. }
    induction evs as [|e r IH]; intros b partial; cbn [parse_loop];
      pose proof (PB b partial) as PBx; pose proof (PD b partial) as PDx; pose proof (PM b partial) as PMx;
      destruct (parse_headers P b partial) as [c|c m|e'].
    - cbv zeta. specialize (PMx c eq_refl). unfold stream. cbn [data_of].
      destruct (max <=? lenN (dropN c b)); cbn [r_buf r_evs data_of]; exists (takeN c b);
        rewrite !app_nil_r, takeN_dropN; split; auto; intros Z; rewrite (PMx Z); apply takeN_0.
    - specialize (PDx c m eq_refl). unfold stream. cbn [data_of r_buf r_evs].
      exists (takeN c b). rewrite !app_nil_r, takeN_dropN. split; auto. exists b, c, [].
      rewrite takeN_dropN. auto.
    - unfold stream. cbn. exists []. auto.
    - cbv zeta. specialize (PMx c eq_refl). unfold stream.
      assert (forall x, b ++ x = takeN c b ++ dropN c b ++ x) as S.
      { intros x. rewrite app_assoc. now rewrite takeN_dropN. }
      assert ((forall x c, P x = PMore c -> c = 0) -> takeN c b = []) as Z.
      { intros Z. rewrite (PMx Z). apply takeN_0. }
      destruct (max <=? lenN (dropN c b)); cbn [r_buf r_evs].
      + exists (takeN c b). split; auto.
      + destruct e as [|d|]; cbn [r_buf r_evs data_of].
        * exists (takeN c b). split; auto.
        * destruct (N.eqb_spec (lenN d) 0) as [Zd|Zd].
          -- apply lenN_0 in Zd. subst d. cbn [app r_buf r_evs]. exists (takeN c b). auto.
          -- specialize (IH (dropN c b ++ d) (if 0 <? lenN (dropN c b) then Some (lenN (dropN c b)) else None)).
             destruct (parse_loop P max _ _ r) as [s o]. destruct IH as (u & E1 & E2).
             exists (takeN c b ++ u). split.
             ++ rewrite S. rewrite <- (app_assoc (takeN c b)). f_equal. unfold stream in E1. rewrite <- E1. now rewrite <- app_assoc.
             ++ destruct o as [|[m|e]].
                ** intros X. rewrite (Z X), (E2 X). reflexivity.
                ** destruct E2 as (x & c' & sk & X1 & X2 & X3). exists x, c', (takeN c b ++ sk).
                   split; auto. split; auto. rewrite X2. now rewrite app_assoc.
                ** intros X. rewrite (Z X), (E2 X). reflexivity.
        * exists (takeN c b). split; auto.
    - specialize (PDx c m eq_refl). unfold stream. cbn [r_buf r_evs].
      exists (takeN c b). rewrite app_assoc, takeN_dropN. split; auto. exists b, c, [].
      rewrite takeN_dropN. auto.
    - unfold stream. cbn [r_buf r_evs]. exists []. auto.
  Qed.
End Parse.

(* ------------------------------------------------------------------ *)
Lemma skip_lines_spec b : exists u, b = u ++ skip_lines b /\ Forall (fun x => x = CR \/ x = LF) u /\
  (match skip_lines b with x :: _ => x <> CR /\ x <> LF | [] => True end).
Proof.
  induction b as [|x b (u & E & F & G)]; cbn [skip_lines]; [now exists []|].
  destruct (N.eqb_spec x CR); destruct (N.eqb_spec x LF); cbn [orb].
  1-3: exists (x :: u); split; [now rewrite E at 1|]; split; [constructor; auto|exact G].
  exists []. auto.
Qed.

Lemma read_mem_takes b evs len : let (s', r) := read_mem (mkSrc b evs) len in
  b ++ data_of evs = match r with Ready (Ok d) => d | _ => [] end ++ rbuf s' ++ data_of (M_Src.evs s').
Proof.
  unfold read_mem. cbn [rbuf M_Src.evs]. destruct b as [|x b].
  - unfold poll_read_from_io. cbn [rbuf M_Src.evs].
    destruct evs as [|[|d|] r]; cbn [rbuf M_Src.evs data_of app]; auto.
    rewrite app_assoc. now rewrite takeN_dropN.
  - cbn [rbuf M_Src.evs]. rewrite app_assoc. now rewrite takeN_dropN.
Qed.

Lemma step_takes {M E} s (o : rop M E) : op_in_bounds o ->
  exists u, stream s = u ++ stream (r_step s o) /\ takes s o u.
Proof.
  destruct s as [b p evs]. intros IB. destruct o as [P max| |len|]; cbn [r_step takes op_in_bounds] in *.
  - pose proof (parse_loop_takes P max evs IB b p) as H. unfold io_parse. cbn [r_buf r_partial r_evs].
    destruct (parse_loop P max b p evs) as [s' r]. destruct H as (u & E1 & E2). exists u.
    cbn [fst snd]. auto.
  - destruct (skip_lines_spec b) as (u & E0 & F & _). exists u. unfold stream, consume_leading_lines.
    cbn [r_buf r_evs]. split; auto. rewrite E0 at 1. now rewrite app_assoc.
  - pose proof (read_mem_takes b evs len) as H. unfold r_read_mem. cbn [r_buf r_evs r_partial].
    destruct (read_mem (mkSrc b evs) len) as [s' r]. unfold stream. cbn [fst snd r_buf r_evs].
    exists (match r with Ready (Ok d) => d | _ => [] end). split; auto. destruct r as [|[d|]]; auto.
  - exists []. split; auto. unfold r_read_io, poll_read_from_io, stream. cbn [r_buf r_evs r_partial rbuf M_Src.evs].
    destruct evs as [|[|d|] r]; cbn; auto. now rewrite <- app_assoc.
Qed.
Lemma accounts_all {M E} (ops : list (rop M E)) : forall s, Forall op_in_bounds ops ->
  exists used, accounts s ops used /\ stream s = used ++ stream (fold_left r_step ops s).
Proof.
  induction ops as [|o ops IH]; intros s F; cbn [accounts fold_left].
  - now exists [].
  - inversion F as [|? ? F1 F2]. subst. destruct (step_takes s o F1) as (u & E1 & T).
    destruct (IH (r_step s o) F2) as (v & A & E2). exists (u ++ v). split; [eauto|].
    rewrite E1, E2. now rewrite app_assoc.
Qed.

(* ------------------------------------------------------------------ *)
Lemma io_read_data cap evs : let (e, r) := io_read cap evs in
  data_of evs = match r with Ready (Ok d) => d | _ => [] end ++ data_of e /\
  (forall d, r = Ready (Ok d) -> lenN d <= cap).
Proof.
  destruct evs as [|[|d|] r]; cbn [io_read data_of app]; try (split; [reflexivity|easy]).
  - split; auto. intros d [= <-]. cbn. lia.
  - destruct (N.leb_spec (lenN d) cap) as [L|L]; cbn [data_of].
    + split; auto. now intros d' [= <-].
    + split; [rewrite app_assoc; now rewrite takeN_dropN|]. intros d' [= <-]. rewrite takeN_len. lia.
Qed.
Lemma rw_read_stream cap s : let (s', r) := rw_read cap s in
  rw_stream s = match r with Ready (Ok d) => d | _ => [] end ++ rw_stream s' /\
  (forall d, r = Ready (Ok d) -> lenN d <= cap).
Proof.
  destruct s as [pre evs]. unfold rw_read, rw_stream. cbn [rw_pre rw_evs].
  pose proof (io_read_data cap evs) as I. destruct (io_read cap evs) as [e r].
  destruct pre as [[|x p]|]; cbn [rw_pre rw_evs app]; auto.
  set (b := x :: p). split.
  - rewrite app_comm_cons. fold b. destruct (dropN (N.min (lenN b) cap) b) as [|y q] eqn:D.
    + cbn [app]. rewrite <- (takeN_dropN (N.min (lenN b) cap) b) at 1. rewrite D. now rewrite app_nil_r.
    + rewrite <- D. rewrite app_assoc. now rewrite takeN_dropN.
  - intros d Hd. assert (d = takeN (N.min (lenN b) cap) b) as -> by congruence. rewrite takeN_len. lia.
Qed.
Lemma app_reads_stream caps : forall s, let (s', bs) := app_reads caps s in rw_stream s = bs ++ rw_stream s'.
Proof.
  induction caps as [|c caps IH]; intros s; cbn [app_reads]; auto.
  pose proof (rw_read_stream c s) as H. destruct (rw_read c s) as [s1 o]. specialize (IH s1).
  destruct (app_reads caps s1) as [s2 bs]. destruct H as [H _]. rewrite H, IH. now rewrite app_assoc.
Qed.
