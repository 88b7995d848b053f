(* Theorems about the read side of a connection: C22 - C26. *)
From Verif Require Import Base M_Src M_Read S_Transport S_Read L_Read.

(* ------------------------------------------------------------------ *)
(* C23: the adaptive read size. *)

Theorem C23_bounds : forall max reads, 8192 <= max -> max <= u64_max ->
  let s := fold_left rs_record reads (with_max max) in
  8192 <= rs_next s <= max /\ ((exists k, rs_next s = 2 ^ k) \/ rs_next s = max) /\ rs_max s = max.
Proof.
  intros max reads M U.
  assert (forall s, rs_inv max s -> rs_inv max (fold_left rs_record reads s)) as H.
  { induction reads as [|n reads IH]; intros s I; cbn; auto. apply IH. now apply rs_record_inv. }
  destruct (H (with_max max)) as (dec & next & -> & L & P).
  { exists false, 8192. split; auto. split; [lia|]. left. now exists 13. }
  cbn. auto.
Qed.

(* A read is small for the current size if it would fit into half of the
   largest power of two that is not above it. *)
Definition small (size n : N) : Prop := n < 2 ^ (N.log2 size - 1).

Theorem C23_shrink : forall max reads n, 8192 <= max -> max <= u64_max ->
  let s := fold_left rs_record reads (with_max max) in
  rs_next (rs_record s n) < rs_next s ->
  exists reads' m, reads = reads' ++ [m] /\
    rs_next (fold_left rs_record reads' (with_max max)) = rs_next s /\
    small (rs_next s) m /\ small (rs_next s) n /\
    (rs_next (rs_record s n) = 2 ^ (N.log2 (rs_next s) - 1) \/ rs_next (rs_record s n) = 8192).
Proof.
  intros max reads n M U s D.
  pose proof (C23_bounds max reads M U) as (B1 & B2 & B3). fold s in B1, B2, B3.
  assert (exists next, s = Adaptive true next max /\ n < prev_power_of_two next /\
            rs_next (rs_record s n) = N.max (prev_power_of_two next) 8192) as (next & Es & Sn & Nx).
  { destruct s as [dec next mx|x]; [|cbn in D; lia]. cbn [rs_record rs_next rs_max] in *. subst mx.
    destruct (N.leb_spec next n).
    - cbn [rs_next] in D. unfold incr_power_of_two in D.
      destruct (N.min_spec (next * 2) u64_max) as [[_ Z]|[_ Z]]; rewrite Z in D; lia.
    - destruct (N.ltb_spec n (prev_power_of_two next)); [|cbn in D; lia].
      destruct dec; [|cbn in D; lia]. exists next. auto. }
  rewrite Es in *. cbn [rs_next] in *. unfold small. rewrite prev_power_spec in * by lia.
  destruct (rev_case reads) as [->|(reads' & m & ->)].
  { exfalso. unfold s in Es. cbn in Es. discriminate. }
  exists reads', m. split; auto. unfold s in Es. rewrite fold_left_app in Es. cbn [fold_left] in Es.
  pose proof (C23_bounds max reads' M U) as (A1 & A2 & A3).
  destruct (fold_left rs_record reads' (with_max max)) as [dec' next' mx'|x]; [|cbn in Es; discriminate].
  cbn [rs_next rs_max] in *. subst mx'. cbn [rs_record] in Es.
  destruct (next' <=? m); [discriminate|].
  destruct (N.ltb_spec m (prev_power_of_two next')) as [L|L]; [|discriminate].
  destruct dec'; [discriminate|]. injection Es as ->. rewrite prev_power_spec in L by lia.
  split; auto. split; auto. split; auto. rewrite Nx.
  destruct (N.max_spec (2 ^ (N.log2 next - 1)) 8192) as [[_ ->]|[_ ->]]; auto.
Qed.

Theorem C23_grow : forall max reads n, 8192 <= max -> max <= u64_max ->
  let s := fold_left rs_record reads (with_max max) in
  rs_next s < rs_next (rs_record s n) ->
  rs_next s <= n /\ rs_next (rs_record s n) <= 2 * rs_next s.
Proof.
  intros max reads n M U s D.
  pose proof (C23_bounds max reads M U) as (B1 & B2 & B3). fold s in B1, B2, B3.
  destruct s as [dec next mx|x]; cbn [rs_record rs_next rs_max] in *; [|lia]. subst mx.
  destruct (N.leb_spec next n) as [L|L].
  - cbn [rs_next] in *. unfold incr_power_of_two. split; auto.
    etransitivity; [apply N.le_min_l|]. etransitivity; [apply N.le_min_l|]. lia.
  - exfalso. pose proof (prev_power_lt next ltac:(lia) ltac:(lia)).
    destruct (_ <? _); [destruct dec|]; cbn [rs_next] in D; unfold init_buffer_size in D; lia.
Qed.

(* 8192 -> 16384 -> 20000 (the maximum), then two small reads: 8192 *)
Example C23_ex : map (fun l => rs_next (fold_left rs_record l (with_max 20000)))
  [[]; [8192]; [8192; 16384]; [8192; 16384; 100]; [8192; 16384; 100; 100]]
  = [8192; 16384; 20000; 20000; 8192].
Proof. vm_compute. reflexivity. Qed.

(* ------------------------------------------------------------------ *)
(* C24: waiting for a head never misses its end. *)

(* The scan answers exactly whether an empty line starts in the last three old
   bytes or later. *)
Theorem C24_scan : forall b n,
  is_complete_fast b n = true <->
  exists pre t post, blank t /\ dropN (n - 3) b = pre ++ t ++ post.
Proof.
  intros b n. unfold is_complete_fast. split; [apply scan_end_sound|].
  intros (pre & t & post & H & ->). now apply scan_end_complete.
Qed.

(* However the bytes were split, an empty line that was not complete in the old
   bytes is noticed. *)
Theorem C24_split : forall old new pre t post, blank t -> old ++ new = pre ++ t ++ post ->
  lenN old < lenN (pre ++ t) -> is_complete_fast (old ++ new) (lenN old) = true.
Proof. intros. eapply fast_sees; eauto. Qed.

(* Head parsing with the shortcut ends as it would if the parser looked at the
   buffer after every delivery (unless the parser then refuses the bytes: an
   error may be noticed later). *)
Theorem C24_shortcut : forall M E (P : bytes -> presult M E) max evs, head_parser P ->
  agrees (head_outcome P max [] evs) (drive (length evs) P max (mkR [] None evs)).
Proof. intros. apply drive_agrees; auto. now left. Qed.

(* A parser with this contract: it takes everything up to the first empty line. *)
Fixpoint find_end (l : bytes) : option N :=
  match l with
  | [] => None
  | b :: r =>
      if (b =? LF) && beq (takeN 1 r) [LF] then Some 2
      else if (b =? LF) && beq (takeN 2 r) [CR; LF] then Some 3
      else match find_end r with Some c => Some (c + 1) | None => None end
  end.
Definition toy (x : bytes) : presult bytes unit :=
  match find_end x with Some c => PDone c (takeN c x) | None => PMore 0 end.

Lemma find_end_blank l : forall c, find_end l = Some c -> c <= lenN l /\ ends_blank (takeN c l).
Proof.
  induction l as [|b r IH]; intros c; cbn [find_end]; [easy|].
  destruct (N.eqb_spec b LF) as [->|Nb]; cbn [andb].
  - destruct (beq (takeN 1 r) [LF]) eqn:E1.
    + apply beq_true, takeN_pre in E1 as [post ->]. intros [= <-]. rewrite !lenN_cons, lenN_app.
      split; [change (lenN [LF]) with 1; lia|]. exists [], [LF; LF]. split; [now left|]. cbn. destruct post; reflexivity.
    + destruct (beq (takeN 2 r) [CR; LF]) eqn:E2.
      * apply beq_true, takeN_pre in E2 as [post ->]. intros [= <-]. rewrite !lenN_cons, lenN_app.
        split; [change (lenN [CR; LF]) with 2; lia|]. exists [], [LF; CR; LF]. split; [now right|]. cbn. destruct post; reflexivity.
      * destruct (find_end r) as [c0|]; [|easy]. intros Hc. assert (c = c0 + 1) as -> by congruence.
        destruct (IH c0 eq_refl) as [L (pre & t & Bt & Et)]. rewrite lenN_cons.
        split; [lia|].
        exists (LF :: pre), t. split; auto. cbn [takeN]. destruct (N.eqb_spec (c0 + 1) 0); [lia|].
        replace (c0 + 1 - 1) with c0 by lia. rewrite Et. reflexivity.
  - destruct (find_end r) as [c0|]; [|easy]. intros Hc. assert (c = c0 + 1) as -> by congruence.
    destruct (IH c0 eq_refl) as [L (pre & t & Bt & Et)]. rewrite lenN_cons. split; [lia|].
    exists (b :: pre), t. split; auto. cbn [takeN]. destruct (N.eqb_spec (c0 + 1) 0); [lia|].
    replace (c0 + 1 - 1) with c0 by lia. rewrite Et. reflexivity.
Qed.
Lemma find_end_wait l : forall d c, find_end l = None -> find_end (l ++ d) = Some c -> lenN l < c.
Proof.
  induction l as [|b r IH]; intros d c H H2.
  - cbn [app] in H2. destruct d as [|x d]; [easy|]. cbn [find_end] in *.
    destruct (_ && _); [injection H2 as <-; cbn; lia|].
    destruct (_ && _); [injection H2 as <-; cbn; lia|].
    destruct (find_end d) as [k|]; [|easy]. assert (c = k + 1) as -> by congruence.
    change (lenN (@nil N)) with 0. lia.
  - cbn [app find_end] in *. rewrite lenN_cons.
    destruct ((b =? LF) && beq (takeN 1 r) [LF]) eqn:A1; [easy|].
    destruct ((b =? LF) && beq (takeN 2 r) [CR; LF]) eqn:A2; [easy|].
    destruct (find_end r) as [|] eqn:Fr; [easy|].
    destruct ((b =? LF) && beq (takeN 1 (r ++ d)) [LF]) eqn:B1.
    + injection H2 as <-. destruct r as [|y r]; [cbn; lia|]. exfalso.
      cbn [app takeN] in *. change (1 =? 0) with false in *. cbv iota in *. change (1 - 1) with 0 in *.
      rewrite takeN_0 in *. congruence.
    + destruct ((b =? LF) && beq (takeN 2 (r ++ d)) [CR; LF]) eqn:B2.
      * injection H2 as <-. destruct r as [|y [|z r]]; [cbn; lia|cbn; lia|]. exfalso.
        cbn [app takeN] in *. change (2 =? 0) with false in *. cbv iota in *. change (2 - 1) with 1 in *.
        change (1 =? 0) with false in *. cbv iota in *. change (1 - 1) with 0 in *.
        rewrite takeN_0 in *. congruence.
      * destruct (find_end (r ++ d)) as [c0|] eqn:F2; [|easy]. assert (c = c0 + 1) as -> by congruence.
        specialize (IH d c0 eq_refl F2). lia.
Qed.
Lemma toy_parser : head_parser toy.
Proof.
  unfold toy. split.
  - intros x c m H. destruct (find_end x) as [c0|] eqn:F; [|easy]. injection H as <- _.
    now apply find_end_blank.
  - intros x c H L. destruct (find_end x); [easy|]. injection H as <-. lia.
  - intros x c d c' m H H2. destruct (find_end x) eqn:F; [easy|]. injection H as <-. rewrite dropN_0 in *.
    destruct (find_end (x ++ d)) as [c0|] eqn:F2; [|easy]. injection H2 as <- _. eapply find_end_wait; eauto.
  - intros x c d c' H H2 L. destruct (find_end (dropN c x ++ d)); [easy|]. injection H2 as <-. lia.
Qed.

(* A head cut into pieces in the middle of its end. *)
Definition ex_evs : list event :=
  [EvData (B "GET / HTTP/1.1" ++ [CR]); EvPending; EvData [LF; CR]; EvData ([LF] ++ B "next"); EvData (B "!")].
Example C24_ex : drive 5 toy 8192 (mkR [] None ex_evs) =
  (mkR (B "next") None [EvData (B "!")], Ready (Ok (B "GET / HTTP/1.1" ++ CRLF ++ CRLF))).
Proof. vm_compute. reflexivity. Qed.

(* The contract fails for HTTP/0.9 responses (http09_responses): the client takes
   a buffer that cannot start with HTTP/ as a complete head of no bytes
   (role.rs 1076-1080).  If the first delivery is a prefix of "HTTP/", the
   shortcut then waits for an empty line that a 0.9 body need not have, and the
   response ends in an error although the parser accepts it. *)
Definition h09 (x : bytes) : presult unit unit :=
  if beq x (takeN (lenN x) (B "HTTP/")) then PMore 0 else PDone 0 tt.
Theorem C24_http09_refuted : exists evs,
  head_outcome h09 8192 [] evs = HMessage tt (B "Hello") [] /\
  snd (drive (length evs) h09 8192 (mkR [] None evs)) = Ready (Err EIncomplete).
Proof. exists [EvData (B "H"); EvData (B "ello")]. split; vm_compute; reflexivity. Qed.

(* ------------------------------------------------------------------ *)
(* C22: heads are limited by the configured size. *)

(* The head becomes complete with the last of these pieces, and before that fewer
   than [max] bytes were buffered: accepted, whatever the size. *)
Theorem C22_not_refused_early : forall M E (P : bytes -> presult M E) max evs ds1 ds2 c m,
  head_parser P -> 0 < max ->
  deliveries evs = Some (ds1 ++ ds2) -> Forall (fun d => d <> []) ds1 -> ds1 <> [] ->
  (forall p q, ds1 = p ++ q -> q <> [] -> p <> [] -> P (concat p) = PMore 0) ->
  (forall p q, ds1 = p ++ q -> q <> [] -> lenN (concat p) < max) ->
  P (concat ds1) = PDone c m ->
  exists evs', drive (length evs) P max (mkR [] None evs) =
                 (mkR (dropN c (concat ds1)) None evs', Ready (Ok m)) /\
               deliveries evs' = Some ds2.
Proof.
  intros M E P max evs ds1 ds2 c m HP Pos D NE Ne Inc Small Done.
  destruct (outcome_message P max evs [] ds1 ds2 c m) as (l & O & L); auto; [lia| | |].
  - intros p q -> Hq Hn. apply (Inc p q); auto. intros ->. now cbn in Hn.
  - cbn [app]. destruct ds1 as [|d ds1]; [easy|]. inversion NE as [|? ? N1 N2]. destruct d; easy.
  - exists l. split; auto. pose proof (C24_shortcut M E P max evs HP) as A. rewrite O in A. exact A.
Qed.

(* Still incomplete with [max] bytes buffered: refused as too large. *)
Theorem C22_refused : forall M E (P : bytes -> presult M E) max evs ds1 ds2,
  head_parser P -> 0 < max ->
  deliveries evs = Some (ds1 ++ ds2) -> Forall (fun d => d <> []) ds1 ->
  (forall p q, ds1 = p ++ q -> p <> [] -> P (concat p) = PMore 0) ->
  (forall p q, ds1 = p ++ q -> q <> [] -> lenN (concat p) < max) ->
  max <= lenN (concat ds1) ->
  snd (drive (length evs) P max (mkR [] None evs)) = Ready (Err ETooLarge).
Proof.
  intros M E P max evs ds1 ds2 HP Pos D NE Inc Small Big.
  assert (head_outcome P max [] evs = HTooLarge) as O.
  { apply (outcome_large P max evs [] ds1 ds2); auto; [lia|].
    intros p q -> Hn. apply (Inc p q); auto. intros ->. now cbn in Hn. }
  pose proof (C24_shortcut M E P max evs HP) as A. rewrite O in A. exact A.
Qed.

(* Never more than the limit plus one read is held; a parse that waits for more
   holds less than the limit. *)
Theorem C22_bound : forall M E (P : bytes -> presult M E) max k evs b partial,
  Forall (fun e => match e with EvData d => lenN d <= k | _ => True end) evs -> lenN b < max + k ->
  lenN (r_buf (fst (io_parse P max (mkR b partial evs)))) < max + k /\
  (snd (io_parse P max (mkR b partial evs)) = Pending ->
   lenN (r_buf (fst (io_parse P max (mkR b partial evs)))) < max).
Proof.
  intros M E P max k evs b partial F L. pose proof (parse_loop_bound P max evs k F b partial L) as H.
  unfold io_parse. cbn [r_buf r_partial r_evs]. destruct (parse_loop P max b partial evs) as [s r]. exact H.
Qed.

(* A limit of 16: a head of 18 bytes passes if it arrives complete, and is refused
   if 16 of its bytes arrive first. *)
Example C22_ex_pass : snd (drive 1 toy 16 (mkR [] None [EvData (B "GET / HTTP/1.1" ++ CRLF ++ CRLF)]))
  = Ready (Ok (B "GET / HTTP/1.1" ++ CRLF ++ CRLF)).
Proof. vm_compute. reflexivity. Qed.
Example C22_ex_refuse : snd (drive 2 toy 16 (mkR [] None [EvData (B "GET / HTTP/1.1" ++ CRLF); EvData CRLF]))
  = Ready (Err ETooLarge).
Proof. vm_compute. reflexivity. Qed.

(* The hypotheses of the two theorems hold for such splits. *)
Lemma split2 (a b : bytes) p q : [a; b] = p ++ q ->
  (p = [] /\ q = [a; b]) \/ (p = [a] /\ q = [b]) \/ (p = [a; b] /\ q = []).
Proof.
  destruct p as [|x [|y [|z p]]]; cbn [app]; intros H.
  - left. auto.
  - injection H as <- <-. auto.
  - injection H as <- <- <-. auto.
  - discriminate.
Qed.
Example C22_ex_hyps : exists evs', drive 2 toy 20 (mkR [] None [EvData (B "GET / HTTP/1.1" ++ CRLF); EvData (CRLF ++ B "rest")])
    = (mkR (B "rest") None evs', Ready (Ok (B "GET / HTTP/1.1" ++ CRLF ++ CRLF))) /\ deliveries evs' = Some [].
Proof.
  apply (C22_not_refused_early _ _ toy 20 [EvData (B "GET / HTTP/1.1" ++ CRLF); EvData (CRLF ++ B "rest")]
    [B "GET / HTTP/1.1" ++ CRLF; CRLF ++ B "rest"] [] 18); auto using toy_parser; try reflexivity.
  - repeat first [apply Forall_nil|apply Forall_cons; [easy|]].
  - easy.
  - intros p q H Q N. apply split2 in H as [[-> ->]|[[-> ->]|[-> ->]]]; try easy.
  - intros p q H Q. apply split2 in H as [[-> ->]|[[-> ->]|[-> ->]]]; easy.
Qed.

(* ------------------------------------------------------------------ *)
(* C25: every byte read from the transport is used once and in order. *)
Theorem C25_conservation : forall M E (ops : list (rop M E)) s, Forall op_in_bounds ops ->
  exists used, accounts s ops used /\
  let s' := fold_left r_step ops s in
  stream s = used ++ snd (into_inner s') ++ data_of (fst (into_inner s')).
Proof. intros M E ops s F. exact (accounts_all ops s F). Qed.

Lemma toy_in_bounds : in_bounds toy.
Proof.
  intros x. unfold toy. destruct (find_end x) as [c|] eqn:F; [|lia].
  now destruct (find_end_blank x c F).
Qed.
Example C25_ex : let ops := [RParse toy 8192; RParse toy 8192; RMem 3; RLead; RMem 2; RRead] in
  let s' := fold_left r_step ops (mkR [] None ex_evs) in
  Forall op_in_bounds ops /\ into_inner s' = ([], B "!").
Proof. split; [repeat first [apply Forall_nil|apply Forall_cons; [cbn; auto using toy_in_bounds|]]|vm_compute; reflexivity]. Qed.

(* ------------------------------------------------------------------ *)
(* C26: upgrades hand over leftover bytes first. *)

(* Whatever sizes the application reads with, it sees the leftover bytes and then
   the transport's bytes; what it has not read yet is still there. *)
Theorem C26_stream : forall left evs caps,
  let (s', bs) := app_reads caps (new_buffered (evs, left)) in
  left ++ data_of evs = bs ++ snd (rw_into_inner s') ++ data_of (fst (rw_into_inner s')).
Proof.
  intros left evs caps. pose proof (app_reads_stream caps (new_buffered (evs, left))) as H.
  destruct (app_reads caps (new_buffered (evs, left))) as [s' bs]. exact H.
Qed.
(* Nothing is invented at the end: a read with room that returns no bytes means
   the leftover is used up and the transport itself answered so. *)
Theorem C26_no_false_eof : forall s cap, 0 < cap -> snd (rw_read cap s) = Ready (Ok []) ->
  snd (rw_into_inner s) = [] /\ snd (io_read cap (rw_evs s)) = Ready (Ok []).
Proof.
  intros [pre evs] cap L. unfold rw_read, rw_into_inner. cbn [rw_pre rw_evs snd fst].
  destruct pre as [[|x p]|].
  - destruct (io_read cap evs). cbn. auto.
  - cbn [snd]. intros E. exfalso.
    assert (takeN (N.min (lenN (x :: p)) cap) (x :: p) = []) as E1 by congruence.
    apply (f_equal lenN) in E1. rewrite takeN_len, lenN_cons in E1. change (lenN (@nil N)) with 0 in E1. lia.
  - destruct (io_read cap evs). cbn. auto.
Qed.
(* The transport is not read while leftover bytes remain, and a read never
   returns more than the buffer holds. *)
Theorem C26_leftover_first : forall s cap p, rw_pre s = Some p -> p <> [] ->
  rw_evs (fst (rw_read cap s)) = rw_evs s /\
  snd (rw_read cap s) = Ready (Ok (takeN (N.min (lenN p) cap) p)).
Proof. intros [pre evs] cap p H N. cbn in H. subst pre. destruct p as [|x p]; [easy|]. cbn. auto. Qed.
Theorem C26_read_fits : forall s cap d, snd (rw_read cap s) = Ready (Ok d) -> lenN d <= cap.
Proof.
  intros s cap d H. pose proof (rw_read_stream cap s) as R. destruct (rw_read cap s) as [s' r].
  cbn in H. now apply R.
Qed.
(* From the head on: the message and body readers, then the upgraded connection,
   share the stream without a gap or an overlap. *)
Theorem C26_upgrade : forall M E (ops : list (rop M E)) s caps, Forall op_in_bounds ops ->
  exists used, accounts s ops used /\
  let (s', bs) := app_reads caps (new_buffered (into_inner (fold_left r_step ops s))) in
  stream s = used ++ bs ++ snd (rw_into_inner s') ++ data_of (fst (rw_into_inner s')).
Proof.
  intros M E ops s caps F. destruct (C25_conservation M E ops s F) as (used & A & S). exists used.
  split; auto. pose proof (C26_stream (snd (into_inner (fold_left r_step ops s)))
    (fst (into_inner (fold_left r_step ops s))) caps) as H.
  rewrite <- surjective_pairing in H. destruct (app_reads caps _) as [s' bs]. rewrite S. now rewrite H.
Qed.
Example C26_ex : app_reads [2; 2; 10; 1; 5; 5] (new_buffered ([EvPending; EvData (B "xyz")], B "abc"))
  = (mkRw None [], B "abcxyz").
Proof. vm_compute. reflexivity. Qed.

Print Assumptions C23_bounds.
Print Assumptions C23_shrink.
Print Assumptions C23_grow.
Print Assumptions C24_scan.
Print Assumptions C24_split.
Print Assumptions C24_shortcut.
Print Assumptions C24_http09_refuted.
Print Assumptions C22_not_refused_early.
Print Assumptions C22_refused.
Print Assumptions C22_bound.
Print Assumptions C25_conservation.
Print Assumptions C26_stream.
Print Assumptions C26_no_false_eof.
Print Assumptions C26_leftover_first.
Print Assumptions C26_read_fits.
Print Assumptions C26_upgrade.
