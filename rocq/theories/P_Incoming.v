(* C37, C39: the body channel between a connection and the application, and
   HTTP/2 bodies. *)
From Verif Require Import Base M_HeaderMap M_Headers M_Role M_Dispatch M_Incoming L_Framing.

(* ---- Specification: reading the log ---- *)
Definition sent_items (l : list ievent) : list item :=
  flat_map (fun e => match e with SData d => [ItData d] | SFail => [ItFail] | _ => [] end) l.
Definition got_items (l : list ievent) : list item :=
  flat_map (fun e => match e with RData d => [ItData d] | RFail => [ItFail] | _ => [] end) l.
Definition sent_trailers (l : list ievent) : list hmap := flat_map (fun e => match e with STrailers t => [t] | _ => [] end) l.
Definition got_trailers (l : list ievent) : list hmap := flat_map (fun e => match e with RTrailers t => [t] | _ => [] end) l.
Definition chunks (l : list item) : list bytes := flat_map (fun i => match i with ItData d => [d] | ItFail => [] end) l.
Definition prefix {A} (a b : list A) : Prop := exists c, b = a ++ c.
(* The connection sends data only after poll_ready said so, once each time *)
Definition polite (l : list ievent) : Prop :=
  forall a d b, l = a ++ SData d :: b -> exists a1 a2, a = a1 ++ SReady :: a2 /\ forall d', ~ In (SData d') a2.

(* ---- Lemmas ---- *)
Lemma sent_items_app a b : sent_items (a ++ b) = sent_items a ++ sent_items b.
Proof. apply flat_map_app. Qed.
Lemma got_items_app a b : got_items (a ++ b) = got_items a ++ got_items b.
Proof. apply flat_map_app. Qed.
Lemma sent_trailers_app a b : sent_trailers (a ++ b) = sent_trailers a ++ sent_trailers b.
Proof. apply flat_map_app. Qed.
Lemma got_trailers_app a b : got_trailers (a ++ b) = got_trailers a ++ got_trailers b.
Proof. apply flat_map_app. Qed.
Lemma chunks_app a b : chunks (a ++ b) = chunks a ++ chunks b.
Proof. apply flat_map_app. Qed.
Definition olist {A} (o : option A) : list A := match o with Some x => [x] | None => [] end.

Record binv (w0 : bool) (b : bchan) : Prop := mkInv {
  iv_items : b_rx b = true -> sent_items (b_log b) = got_items (b_log b) ++ b_queue b;
  iv_pre : prefix (got_items (b_log b)) (sent_items (b_log b));
  iv_trl : b_rx b = true -> sent_trailers (b_log b) = got_trailers (b_log b) ++ olist (b_slot b);
  iv_tpre : prefix (got_trailers (b_log b)) (sent_trailers (b_log b));
  iv_ts : b_tsender b = true -> sent_trailers (b_log b) = [];
  iv_one : (length (sent_trailers (b_log b)) <= 1)%nat;
  iv_park : b_rx b = true -> length (chunks (b_queue b)) = (if b_parked b then 1 else 0)%nat;
  iv_end : b_sender b = false <-> In SEnd (b_log b);
  iv_over : b_over b = true -> b_sender b = false /\ b_queue b = [];
  iv_trail : b_pc b = RTrail -> b_over b = true;
  iv_want : w0 = true -> b_want b = WantReady -> In RAsk (b_log b);
  iv_asked : b_pc b <> RIdle -> b_pc b <> RGone -> b_want b = WantReady;
  iv_ready : w0 = true -> In SReady (b_log b) -> In RAsk (b_log b);
  iv_done : In REnd (b_log b) -> b_over b = true /\ b_tsender b = false /\ b_slot b = None;
  iv_gone : b_rx b = false <-> In RDrop (b_log b);
  iv_gonew : b_rx b = false -> b_want b = WantClosed
}.
Lemma new_inv len w : binv w (b_new len w).
Proof. constructor; cbn; try tauto; try discriminate; try (exists []; reflexivity); auto. - split; [discriminate|tauto]. - intros -> E. discriminate E. - split; [discriminate|tauto]. Qed.

Ltac logs := repeat first [rewrite sent_items_app | rewrite got_items_app | rewrite sent_trailers_app | rewrite got_trailers_app | rewrite chunks_app];
  cbn [sent_items got_items sent_trailers got_trailers chunks flat_map app]; rewrite ?app_nil_r.
Lemma in_snoc {A} (x e : A) l : In x (l ++ [e]) <-> In x l \/ e = x.
Proof. rewrite in_app_iff. cbn. tauto. Qed.
Lemma prefix_snoc {A} (a b : list A) x : prefix a b -> prefix a (b ++ x).
Proof. intros (c & ->). exists (c ++ x). now rewrite app_assoc. Qed.
Lemma step_inv w b a b' : binv w b -> b_step b a = Some b' -> binv w b'.
Proof.
  intros I E. destruct b as [wt q pk s ts sl ov len pc lg].
  destruct I as [H1 H2 H3 H4 H5 H6 H7 H8 H9 H10 H11 H12 H13 H14 H15 H16].
  cbn [b_want b_queue b_parked b_sender b_tsender b_slot b_over b_len b_pc b_log] in *.
  assert (b_rx (mkB wt q pk s ts sl ov len pc lg) = match pc with RGone => false | _ => true end) as Erx by reflexivity.
  rewrite Erx in *. clear Erx.
  destruct a; unfold b_step, b_rx, b_poll_ready in E; cbn [b_want b_pc b_parked] in E; destruct pc; try discriminate E; cbn [andb] in E.
  all: repeat match type of E with
       | (match ?x with _ => _ end) = Some _ => destruct x eqn:?; try discriminate E
       | Some (match ?x with _ => _ end) = Some _ => destruct x eqn:?
       end.
  all: injection E as <-; subst.
  all: constructor; unfold b_rx; cbn [b_want b_queue b_parked b_sender b_tsender b_slot b_over b_len b_pc b_log b_rx olist andb negb] in *; logs; rewrite ?in_snoc; try assumption.
  all: try (solve [intuition congruence]).
  all: try (solve [apply prefix_snoc; assumption]).
  all: repeat match goal with H : ?b = true -> _, K : ?b = true |- _ => specialize (H K) | H : true = true -> _ |- _ => specialize (H eq_refl) end.
  all: intros; repeat match goal with H : (_ && _)%bool = true |- _ => apply andb_true_iff in H; destruct H end; subst.
  all: try (match goal with H : negb _ = true |- _ => apply negb_true_iff in H; subst end).
  all: try (match goal with K : sent_items ?l = got_items ?l ++ _ |- context [sent_items ?l] => rewrite K end; cbn [app]; rewrite ?app_nil_r, <- ?app_assoc; first [reflexivity | eexists; rewrite <- app_assoc; reflexivity]).
  all: try (match goal with K : sent_trailers ?l = got_trailers ?l ++ _ |- context [prefix] => rewrite K; exists []; rewrite app_nil_r; reflexivity | K : sent_trailers ?l = got_trailers ?l ++ _ |- sent_trailers ?l = _ => rewrite K; cbn; rewrite ?app_nil_r; reflexivity end).
  all: try (match goal with K : sent_trailers ?l = got_trailers ?l ++ _ , N : sent_trailers ?l = [] |- _ => rewrite N in *; cbn; auto end).
  all: try (match goal with K : sent_trailers ?l = [] |- (_ <= _)%nat => rewrite K; cbn; auto end).
  all: try (match goal with K : [] = got_trailers ?l ++ _ |- _ => symmetry in K; apply app_eq_nil in K; destruct K as (-> & _); reflexivity end).
  all: try (match goal with K : length (chunks ?q) = _ |- length (chunks ?q ++ _) = _ => rewrite app_length, K; reflexivity end).
  all: try (match goal with K : length (chunks (_ :: ?q)) = (if ?b then _ else _) |- length (chunks ?q) = _ => destruct b; cbn in K |- *; lia end).
  all: try (match goal with |- context [if ?b then RTrail else _] => destruct b end; solve [intuition congruence]).
  all: try (match goal with K : context [if ?b then RTrail else _] |- _ => destruct b end; solve [intuition congruence]).
  all: try (match goal with |- In RAsk ?l \/ _ => left; match goal with K : _ = BReady |- _ => destruct wt; try discriminate K end; auto end).
  change (chunks (ItData d :: l)) with (d :: chunks l) in H7. cbn [length] in H7. destruct pk; [now injection H7|discriminate H7].
Qed.
Lemma run_inv w l : forall b b', binv w b -> b_run b l = Some b' -> binv w b'.
Proof.
  induction l as [|a l IH]; intros b b' I E; cbn in E; [injection E as <-; exact I|].
  destruct (b_step b a) as [b1|] eqn:Es; [|discriminate E]. eapply IH; [|exact E]. eapply step_inv; eassumption.
Qed.
Lemma b_run_app l1 l2 b : b_run b (l1 ++ l2) = match b_run b l1 with Some b1 => b_run b1 l2 | None => None end.
Proof. revert b. induction l1 as [|a l1 IH]; intros b; cbn; [reflexivity|]. destruct (b_step b a); [apply IH|reflexivity]. Qed.
(* A step logs at most one event *)
Lemma step_log b a b' : b_step b a = Some b' -> b_log b' = b_log b \/ exists e, b_log b' = b_log b ++ [e].
Proof.
  intros E. destruct b as [wt q pk s ts sl ov len pc lg]. unfold b_step in E.
  destruct a; repeat match type of E with
       | (match ?x with _ => _ end) = Some _ => destruct x; try discriminate E
       | Some (match ?x with _ => _ end) = Some _ => destruct x
       end; injection E as <-; cbn [b_log]; eauto.
Qed.
(* Every event was logged by some step *)
Lemma run_event l : forall b b' p e r, b_run b l = Some b' -> b_log b' = p ++ e :: r -> (length (b_log b) <= length p)%nat ->
  exists l1 a l2 b1 b2, l = l1 ++ a :: l2 /\ b_run b l1 = Some b1 /\ b_log b1 = p /\ b_step b1 a = Some b2 /\ b_log b2 = p ++ [e] /\ b_run b2 l2 = Some b'.
Proof.
  induction l as [|a l IH] using rev_ind; intros b b' p e r E El Hp.
  - cbn in E. injection E as <-. rewrite El, app_length in Hp. cbn in Hp. lia.
  - rewrite b_run_app in E. destruct (b_run b l) as [b1|] eqn:E1; [|discriminate E]. cbn in E. destruct (b_step b1 a) as [b2|] eqn:Es; [|discriminate E]. injection E as ->.
    destruct (step_log _ _ _ Es) as [Q|(e' & Q)].
    + rewrite Q in El. destruct (IH _ _ _ _ _ E1 El Hp) as (l1 & a' & l2 & c1 & c2 & -> & A & B & C & D & F).
      exists l1, a', (l2 ++ [a]), c1, c2. rewrite <- app_assoc. repeat (split; [first [reflexivity|assumption]|]). rewrite b_run_app, F. cbn. now rewrite Es.
    + rewrite Q in El. destruct r as [|y r _] using rev_ind.
      * apply app_inj_tail in El. destruct El as (El & <-). exists l, a, [], b1, b'. repeat (split; [first [reflexivity|assumption]|]). split; [now rewrite Q, El|reflexivity].
      * rewrite app_comm_cons, app_assoc in El. apply app_inj_tail in El. destruct El as (El & <-).
        destruct (IH _ _ _ _ _ E1 El Hp) as (l1 & a' & l2 & c1 & c2 & -> & A & B & C & D & F).
        exists l1, a', (l2 ++ [a]), c1, c2. rewrite <- app_assoc. repeat (split; [first [reflexivity|assumption]|]). rewrite b_run_app, F. cbn. now rewrite Es.
Qed.
(* Which steps log what the receiver got *)
Lemma step_end b a b' : b_step b a = Some b' -> b_log b' = b_log b ++ [REnd] -> b_pc b = RTrail /\ b_tsender b = false /\ b_slot b = None.
Proof.
  intros E El. destruct b as [wt q pk s ts sl ov len pc lg]. unfold b_step in E.
  destruct a; repeat match type of E with
       | (match ?x with _ => _ end) = Some _ => destruct x eqn:?; try discriminate E
       | Some (match ?x with _ => _ end) = Some _ => destruct x eqn:?
       end; injection E as <-; cbn [b_log] in El |- *; first [apply app_inv_head in El; discriminate El | apply (f_equal (@length _)) in El; rewrite app_length in El; cbn in El; lia | subst; auto].
Qed.
Lemma step_trailers b a b' t : b_step b a = Some b' -> b_log b' = b_log b ++ [RTrailers t] -> b_pc b = RTrail /\ b_slot b = Some t.
Proof.
  intros E El. destruct b as [wt q pk s ts sl ov len pc lg]. unfold b_step in E.
  destruct a; repeat match type of E with
       | (match ?x with _ => _ end) = Some _ => destruct x eqn:?; try discriminate E
       | Some (match ?x with _ => _ end) = Some _ => destruct x eqn:?
       end; injection E as <-; cbn [b_log b_pc b_slot] in El |- *; first [apply (f_equal (@length _)) in El; rewrite app_length in El; cbn in El; lia | apply app_inv_head in El; first [discriminate El | idtac]].
  injection El as El. subst. auto.
Qed.

(* ---- C37: the channel, for every interleaving ---- *)
(* What was received is always a prefix of what was sent: data and errors in one order *)
Theorem C37_in_order : forall len wanter l b, b_run (b_new len wanter) l = Some b ->
  prefix (got_items (b_log b)) (sent_items (b_log b)) /\ prefix (got_trailers (b_log b)) (sent_trailers (b_log b)).
Proof. intros len w l b E. pose proof (run_inv w _ _ _ (new_inv len w) E) as I. split; [apply (iv_pre w b I)|apply (iv_tpre w b I)]. Qed.

(* Trailers come once, after all data, and after the connection has finished the data *)
Theorem C37_trailers_last : forall len wanter l b p t r, b_run (b_new len wanter) l = Some b -> b_log b = p ++ RTrailers t :: r ->
  In SEnd p /\ got_items p = sent_items p /\ sent_trailers p = [t] /\ got_trailers p = [] /\
  got_items r = [] /\ got_trailers r = [] /\ sent_items r = [].
Proof.
  intros len w l b p t r E El.
  destruct (run_event _ _ _ _ _ _ E El (Nat.le_0_l _)) as (l1 & a & l2 & b1 & b2 & -> & E1 & L1 & Es & L2 & E2).
  pose proof (run_inv w _ _ _ (new_inv len w) E1) as I. pose proof (run_inv w _ _ _ (new_inv len w) E) as I'. subst p.
  destruct (step_trailers _ _ _ _ Es L2) as (Hpc & Hsl). destruct (iv_over w b1 I (iv_trail w b1 I Hpc)) as (Hs & Hq).
  assert (b_rx b1 = true) as Hrx by (unfold b_rx; now rewrite Hpc).
  pose proof (iv_items w b1 I Hrx) as Hi. rewrite Hq, app_nil_r in Hi. pose proof (iv_trl w b1 I Hrx) as Ht. rewrite Hsl in Ht.
  pose proof (iv_one w b1 I) as Ho. rewrite Ht, app_length in Ho. cbn in Ho. assert (got_trailers (b_log b1) = []) as Hg by (destruct (got_trailers (b_log b1)); [reflexivity|cbn in Ho; lia]).
  rewrite Hg in Ht. split; [now apply (iv_end w b1 I)|]. split; [auto|]. split; [exact Ht|]. split; [exact Hg|].
  assert (sent_items r = []) as Hsr.
  { clear - E2 Es Hs L2 El. assert (b_sender b2 = false) as Hs2.
    { destruct b1 as [wt q pk s ts sl ov ln pc lg]. cbn in Hs. subst s. unfold b_step in Es. destruct a; try discriminate Es; repeat match type of Es with (match ?x with _ => _ end) = Some _ => destruct x; try discriminate Es end; injection Es as <-; reflexivity. }
    assert (forall l c c', b_sender c = false -> b_run c l = Some c' -> sent_items (b_log c') = sent_items (b_log c)) as K.
    { clear. induction l as [|a l IH]; intros c c' Hc R; cbn in R; [injection R as <-; reflexivity|]. destruct (b_step c a) as [c1|] eqn:Es; [|discriminate R].
      assert (b_sender c1 = false /\ sent_items (b_log c1) = sent_items (b_log c)) as (A & B).
      { destruct c as [wt q pk s ts sl ov ln pc lg]. cbn in Hc. subst s. unfold b_step in Es. destruct a; try discriminate Es; repeat match type of Es with (match ?x with _ => _ end) = Some _ => destruct x; try discriminate Es end; injection Es as <-; cbn [b_log b_sender]; logs; auto. }
      rewrite (IH _ _ A R). exact B. }
    pose proof (K _ _ _ Hs2 E2) as Q. rewrite L2, El in Q. revert Q. logs. change (sent_items (RTrailers t :: r)) with (sent_items r). intros Q. rewrite <- (app_nil_r (sent_items (b_log b1))) in Q at 2. now apply app_inv_head in Q. }
  destruct (iv_pre w b I') as (c & Hc). rewrite El in Hc. revert Hc. rewrite sent_items_app, got_items_app. change (sent_items (RTrailers t :: r)) with (sent_items r). change (got_items (RTrailers t :: r)) with (got_items r). rewrite Hsr, app_nil_r, Hi. intros Hc.
  rewrite <- (app_nil_r (got_items (b_log b1))), <- !app_assoc in Hc. apply app_inv_head in Hc. cbn in Hc. symmetry in Hc. apply app_eq_nil in Hc. destruct Hc as (Hc & _).
  split; [exact Hc|]. split; [|reflexivity].
  destruct (iv_tpre w b I') as (c' & Hc'). pose proof (iv_one w b I') as Ho'. rewrite El in Hc', Ho'. revert Hc' Ho'. rewrite sent_trailers_app, got_trailers_app, Ht, Hg. change (got_trailers (RTrailers t :: r)) with (t :: got_trailers r). change (sent_trailers (RTrailers t :: r)) with (sent_trailers r).
  intros Hc' Ho'. rewrite app_length in Ho'. cbn in Ho'. destruct (sent_trailers r); [|cbn in Ho'; lia]. cbn in Hc'. injection Hc' as Hc'. symmetry in Hc'. apply app_eq_nil in Hc'. tauto.
Qed.

(* The end is reported only when the connection has finished, and everything it
   sent has been received: an error sent by the connection comes before the end *)
Theorem C37_clean_end : forall len wanter l b p r, b_run (b_new len wanter) l = Some b -> b_log b = p ++ REnd :: r ->
  In SEnd p /\ got_items p = sent_items p /\ got_trailers p = sent_trailers p /\ (In SFail p -> In RFail p).
Proof.
  intros len w l b p r E El.
  destruct (run_event _ _ _ _ _ _ E El (Nat.le_0_l _)) as (l1 & a & l2 & b1 & b2 & -> & E1 & L1 & Es & L2 & E2).
  pose proof (run_inv w _ _ _ (new_inv len w) E1) as I. subst p.
  destruct (step_end _ _ _ Es L2) as (Hpc & Hts & Hsl). destruct (iv_over w b1 I (iv_trail w b1 I Hpc)) as (Hs & Hq).
  assert (b_rx b1 = true) as Hrx by (unfold b_rx; now rewrite Hpc).
  pose proof (iv_items w b1 I Hrx) as Hi. rewrite Hq, app_nil_r in Hi. pose proof (iv_trl w b1 I Hrx) as Ht. rewrite Hsl in Ht. cbn in Ht. rewrite app_nil_r in Ht.
  split; [now apply (iv_end w b1 I)|]. split; [auto|]. split; [auto|]. intros F.
  assert (In ItFail (sent_items (b_log b1))) as G by (apply in_flat_map; exists SFail; split; [exact F|left; reflexivity]).
  rewrite Hi in G. apply in_flat_map in G. destruct G as (e & Ge & Gi). destruct e; cbn in Gi; try tauto; destruct Gi as [Gi|[]]; first [discriminate Gi | exact Ge].
Qed.

(* The announced remaining size *)
Definition total (l : list bytes) : N := fold_right N.add 0 (map lenN l).
Lemma total_app a b : total (a ++ b) = total a + total b.
Proof. unfold total. induction a as [|x a IH]; cbn [app map fold_right]; [reflexivity|]. rewrite IH. lia. Qed.
Lemma consume_snoc d l x : consume d (l ++ [x]) = match consume d l with Some d' => dl_sub_if d' x | None => None end.
Proof. revert d. induction l as [|a l IH]; intros d; cbn [app consume]; [destruct (dl_sub_if d x); reflexivity|]. destruct (dl_sub_if d a); [apply IH|reflexivity]. Qed.
Lemma run_len l : forall len b b', b_len b = consume len (map lenN (chunks (got_items (b_log b)))) -> b_run b l = Some b' ->
  b_len b' = consume len (map lenN (chunks (got_items (b_log b')))).
Proof.
  induction l as [|a l IH]; intros len b b' H R; cbn in R; [injection R as <-; exact H|]. destruct (b_step b a) as [b1|] eqn:Es; [|discriminate R]. eapply IH; [|exact R].
  clear IH R. destruct b as [wt q pk s ts sl ov ln pc lg]. cbn [b_len b_log] in H. unfold b_step in Es.
  destruct a; repeat match type of Es with
       | (match ?x with _ => _ end) = Some _ => destruct x; try discriminate Es
       | Some (match ?x with _ => _ end) = Some _ => destruct x
       end; injection Es as <-; cbn [b_log b_len]; logs; try exact H.
  all: rewrite map_app; cbn [map]; rewrite consume_snoc, <- H; reflexivity.
Qed.
Lemma consume_ok amts : forall d, d <= MAX_LEN -> fold_right N.add 0 amts <= d -> consume d amts = Some (d - fold_right N.add 0 amts).
Proof.
  induction amts as [|a amts IH]; intros d Hd H; cbn [consume fold_right] in *; [now rewrite N.sub_0_r|].
  rewrite dl_sub_if_len by exact Hd. destruct (N.leb_spec a d) as [Ha|Ha]; [|lia]. rewrite IH; [f_equal; lia| |lia]. eapply N.le_trans; [apply N.le_sub_l|exact Hd].
Qed.
Lemma into_opt_len n : n <= MAX_LEN -> dl_into_opt n = Some n.
Proof. intros H. destruct (checked_new_class n n) as (_ & Q); [|exact Q]. unfold dl_checked_new. destruct (N.leb_spec n MAX_LEN); [reflexivity|exfalso; eapply N.lt_irrefl, N.lt_le_trans; eassumption]. Qed.
Theorem C37_remaining : forall len wanter l b, b_run (b_new len wanter) l = Some b -> len < 2 ^ 64 - 2 ->
  total (chunks (sent_items (b_log b))) <= len ->
  b_size_hint b = Some (len - total (chunks (got_items (b_log b)))) /\
  (b_is_end_stream b = true <-> total (chunks (got_items (b_log b))) = len).
Proof.
  intros len w l b E Hl Ht. pose proof (run_inv w _ _ _ (new_inv len w) E) as I.
  pose proof (run_len l len _ _ (eq_refl : b_len (b_new len w) = consume len []) E) as Hc.
  assert (len <= MAX_LEN) as Hm by (unfold MAX_LEN, u64_max in *; lia).
  assert (total (chunks (got_items (b_log b))) <= len) as Hg. { destruct (iv_pre w b I) as (c & Hp). rewrite Hp, chunks_app, total_app in Ht. lia. }
  rewrite consume_ok in Hc by assumption. fold (total (chunks (got_items (b_log b)))) in Hc.
  unfold b_size_hint, b_is_end_stream. rewrite Hc. split; [apply into_opt_len; eapply N.le_trans; [apply N.le_sub_l|exact Hm]|]. rewrite N.eqb_eq. lia.
Qed.
Theorem C37_remaining_unknown : forall len wanter l b, b_run (b_new len wanter) l = Some b ->
  len = DL_CHUNKED \/ len = DL_CLOSE_DELIMITED -> b_size_hint b = None /\ b_is_end_stream b = false.
Proof.
  intros len w l b E Hl. pose proof (run_len l len _ _ (eq_refl : b_len (b_new len w) = consume len []) E) as Hc.
  rewrite consume_reserved in Hc by exact Hl. unfold b_size_hint, b_is_end_stream. rewrite Hc. destruct Hl as [-> | ->]; split; vm_compute; reflexivity.
Qed.

(* Nothing stays behind: once the connection has let go, an application that
   keeps asking gets everything and then the end *)
Definition ask (b : bchan) : list iact := AAsk :: (if b_over b then [ATrail] else if match b_queue b with [] => true | _ => false end then [ANext; ATrail] else [ANext]).
Fixpoint asks (n : nat) (b : bchan) : bchan :=
  match n with O => b | S n => match b_run b (ask b) with Some b' => asks n b' | None => b end end.
Theorem C37_all_delivered : forall len wanter l b, b_run (b_new len wanter) l = Some b ->
  b_sender b = false -> b_tsender b = false -> b_pc b = RIdle ->
  let b' := asks (length (b_queue b) + length (olist (b_slot b)) + 1) b in
  In REnd (b_log b') /\ got_items (b_log b') = sent_items (b_log b) /\ got_trailers (b_log b') = sent_trailers (b_log b).
Proof.
  intros len w l b E Hs Ht Hp b'. pose proof (run_inv w _ _ _ (new_inv len w) E) as I. clear E.
  assert (b_rx b = true) as Hrx by (unfold b_rx; now rewrite Hp).
  rewrite (iv_items w b I Hrx), (iv_trl w b I Hrx). pose proof (iv_over w b I) as Hov. clear I Hrx. subst b'.
  destruct b as [wt q pk s ts sl ov ln pc lg]. cbn [b_sender b_tsender b_pc b_queue b_slot b_over b_log] in *. subst s ts pc.
  revert wt pk ln lg. induction q as [|it q IH]; intros wt pk ln lg.
  - destruct sl as [t|]; destruct ov; cbn; logs; rewrite ?in_snoc, <- ?app_assoc; auto.
  - assert (ov = false) as -> by (destruct ov; [destruct (Hov eq_refl) as (_ & F); discriminate F|reflexivity]).
    cbn [length Nat.add asks]. unfold ask. cbn [b_over b_queue]. destruct it as [d|].
    + cbn [b_run b_step]. set (b1 := mkB _ _ _ _ _ _ _ _ _ _). destruct (IH ltac:(discriminate) WantReady false (match ln with Some l0 => dl_sub_if l0 (lenN d) | None => None end) ((lg ++ [RAsk]) ++ [RData d])) as (A & B & C). split; [exact A|]. split; [etransitivity; [exact B|]; logs; rewrite <- app_assoc; reflexivity|etransitivity; [exact C|]; logs; reflexivity].
    + cbn [b_run b_step]. destruct (IH ltac:(discriminate) WantReady pk ln ((lg ++ [RAsk]) ++ [RFail])) as (A & B & C). split; [exact A|]. split; [etransitivity; [exact B|]; logs; rewrite <- app_assoc; reflexivity|etransitivity; [exact C|]; logs; reflexivity].
Qed.

(* A send after poll_ready said ready is refused only when the receiver is gone:
   no data is dropped for lack of room *)
Theorem C37_not_refused : forall len wanter l b p m d b', b_run (b_new len wanter) l = Some b ->
  b_log b = p ++ SReady :: m -> (forall d', ~ In (SData d') m) -> b_step b (ASendData d) = Some b' ->
  b_log b' = b_log b ++ [SData d] \/ In RDrop (b_log b).
Proof.
  intros len w l b p m d b' E El Nm Es.
  assert (b_parked b = false \/ b_rx b = false) as [Hp|Hp].
  { destruct (run_event _ _ _ _ _ _ E El (Nat.le_0_l _)) as (l1 & a & l2 & b1 & b2 & -> & E1 & L1 & Es1 & L2 & E2).
    assert (b_parked b2 = false) as Hb2.
    { destruct b1 as [wt q pk s ts sl ov ln pc lg]. cbn [b_log] in L1. subst lg. unfold b_step, b_poll_ready in Es1. cbn [b_want b_pc b_parked] in Es1.
      destruct a; repeat match type of Es1 with
       | (match ?x with _ => _ end) = Some _ => destruct x eqn:?; try discriminate Es1
       | Some (match ?x with _ => _ end) = Some _ => destruct x eqn:?
       end; injection Es1 as <-; cbn [b_log b_parked] in L2 |- *; first [apply (f_equal (@length _)) in L2; rewrite app_length in L2; cbn in L2; lia | apply app_inv_head in L2; discriminate L2 | idtac].
      destruct wt; try discriminate; destruct pc; try discriminate; destruct pk; try discriminate; reflexivity. }
    assert (exists m', b_log b = b_log b2 ++ m' /\ forall d', ~ In (SData d') m') as Hm by (exists m; split; [rewrite El, L2, <- app_assoc; reflexivity|exact Nm]).
    clear - E2 Hb2 Hm. revert b2 Hb2 E2 Hm. induction l2 as [|a l2 IH]; intros b2 Hb2 E2 Hm; cbn in E2; [injection E2 as <-; auto|].
    destruct (b_step b2 a) as [b3|] eqn:Es; [|discriminate E2].
    assert (exists x, b_log b = b_log b3 ++ x) as (x & Hx).
    { clear - E2. revert b3 E2. induction l2 as [|a l2 IH]; intros b3 E2; cbn in E2; [injection E2 as <-; exists []; now rewrite app_nil_r|]. destruct (b_step b3 a) as [b4|] eqn:Es; [|discriminate E2].
      destruct (IH _ E2) as (x & ->). destruct (step_log _ _ _ Es) as [Q|(e & Q)]; rewrite Q, <- ?app_assoc; eauto. }
    destruct Hm as (m' & Em & Nm). apply (IH b3); [|exact E2|].
    - destruct b2 as [wt q pk s ts sl ov ln pc lg]. cbn [b_parked b_log] in *. subst pk. unfold b_step in Es.
      destruct a; repeat match type of Es with
       | (match ?x with _ => _ end) = Some _ => destruct x; try discriminate Es
       | Some (match ?x with _ => _ end) = Some _ => destruct x
       end; injection Es as <-; cbn [b_log b_parked] in *; try reflexivity.
      exfalso. rewrite Em, <- app_assoc in Hx. apply app_inv_head in Hx. subst m'. eapply Nm. left. reflexivity.
    - destruct (step_log _ _ _ Es) as [Q|(e & Q)]; [exists m'; rewrite Q; auto|]. exists x. split; [exact Hx|]. rewrite Q, Em, <- app_assoc in Hx. apply app_inv_head in Hx. subst m'. intros d' Hi. apply (Nm d'). right. exact Hi. }
  - pose proof (run_inv w _ _ _ (new_inv len w) E) as I. destruct (b_rx b) eqn:Hr; [left|right; now apply (iv_gone w b I)].
    destruct b as [wt q pk s ts sl ov ln pc lg]. cbn [b_parked b_log] in *. subst pk. unfold b_step in Es. rewrite Hr in Es. cbn in Es. destruct s; [|discriminate Es]. injection Es as <-. reflexivity.
  - pose proof (run_inv w _ _ _ (new_inv len w) E) as I. right. now apply (iv_gone w b I).
Qed.

(* ---- C39 ---- *)
(* The connection is never more than one piece of data ahead of the application *)
Lemma chunks_le a b : prefix a b -> (length (chunks a) <= length (chunks b))%nat.
Proof. intros (c & ->). rewrite chunks_app, app_length. lia. Qed.
Theorem C39_one_ahead : forall len wanter l b, b_run (b_new len wanter) l = Some b -> ~ In RDrop (b_log b) ->
  (length (chunks (sent_items (b_log b))) <= length (chunks (got_items (b_log b))) + 1)%nat.
Proof.
  intros len w l b E Hd. pose proof (run_inv w _ _ _ (new_inv len w) E) as I.
  assert (b_rx b = true) as Hrx by (destruct (b_rx b) eqn:Q; [reflexivity|exfalso; now apply Hd, (iv_gone w b I)]).
  rewrite (iv_items w b I Hrx), chunks_app, app_length, (iv_park w b I Hrx). destruct (b_parked b); lia.
Qed.
(* With a request that waits for 100 Continue, nothing is sent before the
   application has asked *)
Theorem C39_asked_first : forall len l b p d r, b_run (b_new len true) l = Some b -> polite (b_log b) ->
  b_log b = p ++ SData d :: r -> In RAsk p.
Proof.
  intros len l b p d r E P El. destruct (P _ _ _ El) as (a1 & a2 & -> & _).
  destruct (run_event _ _ _ _ _ _ E El (Nat.le_0_l _)) as (l1 & a & l2 & b1 & b2 & -> & E1 & L1 & _).
  pose proof (run_inv true _ _ _ (new_inv len true) E1) as I. rewrite <- L1. apply (iv_ready true b1 I eq_refl). rewrite L1. apply in_or_app. right. left. reflexivity.
Qed.
(* Without, the first piece is sent before the application has asked: the
   property as first stated does not hold *)
Theorem C39_first_chunk_refuted : exists l b p d r, b_run (b_new 10 false) l = Some b /\ polite (b_log b) /\
  b_log b = p ++ SData d :: r /\ ~ In RAsk p.
Proof.
  exists [AReady; ASendData [1; 2]]. eexists. exists [SReady], [1; 2], []. split; [vm_compute; reflexivity|]. split; [|split; [reflexivity|intros [H|[]]; discriminate H]].
  intros a d b E. destruct a as [|x a]; [discriminate E|]. cbn in E. injection E as <- E. destruct a as [|y a]; [|cbn in E; injection E as _ E; destruct a; discriminate E].
  exists [], []. split; [reflexivity|intros ? []].
Qed.

(* ---- HTTP/2 ---- *)
Definition x_data (l : list h2res) : list bytes := flat_map (fun r => match r with XData d => [d] | _ => [] end) l.
Definition x_chunks (l : list h2in) : list bytes := flat_map (fun r => match r with HChunk d => [d] | _ => [] end) l.
(* Well-formed: data, then possibly trailers, then nothing; or a reset at the end *)
Fixpoint h2_stream (l : list h2in) : Prop :=
  match l with
  | [] => True
  | HPending :: r | HChunk _ :: r => h2_stream r
  | HTrail _ :: r => forall x, In x r -> x = HPending
  | HReset _ :: r => r = []
  end.
Theorem C37_h2_in_order : forall n x rs x', x_polls n x = (rs, x') -> prefix (x_data rs) (x_chunks (x_left x)).
Proof.
  assert (forall x r x1, x_poll_frame x = (r, x1) -> x_chunks (x_left x) = x_data [r] ++ x_chunks (x_left x1)) as K.
  { intros [dn ln lf] r x1. unfold x_poll_frame, x_trailers. cbn [x_done x_len x_left]. destruct dn; destruct lf as [|[| | |[|]] lf]; cbn [x_left x_done x_len]; try (intros E; injection E as <- <-; reflexivity).
    destruct (dl_sub_if ln (lenN d)); intros E; injection E as <- <-; reflexivity. }
  induction n as [|n IH]; intros x rs x' E; cbn in E; [injection E as <- <-; exists (x_chunks (x_left x)); reflexivity|].
  destruct (x_poll_frame x) as [r x1] eqn:E1. destruct (x_polls n x1) as [rs1 x2] eqn:E2. injection E as <- <-. destruct (IH _ _ _ E2) as (c & Hc). exists c.
  rewrite (K _ _ _ E1), Hc. change (r :: rs1) with ([r] ++ rs1). assert (x_data ([r] ++ rs1) = x_data [r] ++ x_data rs1) as -> by apply flat_map_app. apply app_assoc.
Qed.
(* A clean end: all data received, or the peer reset the stream with NO_ERROR *)
Theorem C37_h2_clean_end : forall n x rs x', x_polls n x = (rs ++ [XNone], x') -> h2_stream (x_left x) ->
  x_data rs = x_chunks (x_left x) \/ In (HReset true) (x_left x).
Proof.
  induction n as [|n IH]; intros x rs x' E W; cbn in E; [destruct rs; discriminate E|].
  destruct (x_poll_frame x) as [r x1] eqn:E1. destruct (x_polls n x1) as [rs1 x2] eqn:E2. injection E as E <-.
  destruct x as [dn ln lf]. cbn [x_left] in W |- *.
  destruct rs as [|r0 rs]; cbn [app] in E; injection E as -> E.
  - unfold x_poll_frame, x_trailers in E1. cbn [x_done x_len x_left] in E1. destruct dn; destruct lf as [|[| | |[|]] lf]; cbn in E1; try discriminate E1; auto; try (right; left; reflexivity).
    destruct (dl_sub_if ln (lenN d)); discriminate E1.
  - rewrite E in E2. assert (h2_stream (x_left x1) /\ (In (HReset true) (x_left x1) -> In (HReset true) lf) /\ x_chunks lf = x_data [r0] ++ x_chunks (x_left x1)) as (A & B & C).
    { clear - E1 W. unfold x_poll_frame, x_trailers in E1. cbn [x_done x_len x_left] in E1. destruct dn; destruct lf as [|[| | |[|]] lf]; cbn in E1; try (injection E1 as <- <-; cbn [x_left] in *; cbn in W; repeat split; auto; cbn; auto; fail).
      - injection E1 as <- <-. cbn [x_left]. split; [|split; [cbn; auto|reflexivity]]. cbn in W. clear - W. induction lf as [|y lf IH]; [exact I|]. rewrite (W y (or_introl eq_refl)). cbn. apply IH. intros z Hz. apply W. right. exact Hz.
      - destruct (dl_sub_if ln (lenN d)); injection E1 as <- <-; cbn [x_left] in *; cbn in W; repeat split; auto; cbn; auto.
      - injection E1 as <- <-. cbn [x_left]. split; [|split; [cbn; auto|reflexivity]]. cbn in W. clear - W. induction lf as [|y lf IH]; [exact I|]. rewrite (W y (or_introl eq_refl)). cbn. apply IH. intros z Hz. apply W. right. exact Hz. }
    destruct (IH _ _ _ E2 A) as [Q|Q]; [left|right; auto]. rewrite C, <- Q. change (r0 :: rs) with ([r0] ++ rs). apply flat_map_app.
Qed.
(* ... so a response body of which a part is missing, against its declared
   length, ends like a complete one when the server resets with NO_ERROR *)
Theorem C37_h2_truncated_refuted : exists rs x', x_polls 2 (x_new false 10 [HChunk [1; 2; 3]; HReset true]) = (rs, x') /\
  rs = [XData [1; 2; 3]; XNone] /\ x_len x' = 7.
Proof. eexists. eexists. split; [vm_compute; reflexivity|]. split; reflexivity. Qed.

(* The size hint: what was declared minus what was delivered *)
Theorem C37_h2_remaining : forall n ended len l rs x', x_polls n (x_new ended len l) = (rs, x') -> len < 2 ^ 64 - 2 -> total (x_chunks l) <= len ->
  dl_into_opt (x_len x') = Some (len - total (x_data rs)) /\ ~ In XPanic rs.
Proof.
  assert (forall n x rs x', x_polls n x = (rs, x') -> x_len x < 2 ^ 64 - 2 -> total (x_chunks (x_left x)) <= x_len x ->
    x_len x' = x_len x - total (x_data rs) /\ total (x_data rs) <= x_len x /\ ~ In XPanic rs) as K.
  { induction n as [|n IH]; intros x rs x' E Hl Ht; cbn in E; [injection E as <- <-; cbn; split; [lia|split; [lia|auto]]|].
    destruct (x_poll_frame x) as [r x1] eqn:E1. destruct (x_polls n x1) as [rs1 x2] eqn:E2. injection E as <- <-.
    assert (x_len x1 = x_len x - total (x_data [r]) /\ total (x_data [r]) <= x_len x /\ total (x_chunks (x_left x1)) <= x_len x1 /\ r <> XPanic) as (A & A1 & A2 & A3).
    { destruct x as [dn ln lf]. unfold x_poll_frame, x_trailers in E1. cbn [x_done x_len x_left] in *.
      assert (forall t : h2res, (forall d, t <> XData d) -> total (x_data [t]) = 0) as Z by (intros [| | | | |]; cbn; intros Q; try reflexivity; now destruct (Q d)).
      destruct dn; destruct lf as [|[|d|t|[|]] lf]; cbn [x_left x_done x_len] in *; try (injection E1 as <- <-; cbn [x_len x_left]; rewrite Z by discriminate; split; [lia|split; [lia|split; [exact Ht|discriminate]]]).
      change (x_chunks (HChunk d :: lf)) with ([d] ++ x_chunks lf) in Ht. rewrite total_app in Ht. unfold dl_sub_if in E1.
      replace (ln =? DL_CHUNKED) with false in E1 by (symmetry; apply N.eqb_neq; unfold DL_CHUNKED; intros Q; rewrite Q in Hl; vm_compute in Hl; discriminate Hl).
      replace (ln =? DL_CLOSE_DELIMITED) with false in E1 by (symmetry; apply N.eqb_neq; unfold DL_CLOSE_DELIMITED; intros Q; rewrite Q in Hl; vm_compute in Hl; discriminate Hl).
      assert (total [d] = lenN d) as Td by (unfold total; cbn; lia). rewrite Td in Ht.
      replace (lenN d <=? ln) with true in E1 by (symmetry; apply N.leb_le; lia). cbn [orb] in E1.
      injection E1 as <- <-. cbn [x_len x_left]. change (x_data [XData d]) with [d]. rewrite Td. split; [reflexivity|]. split; [lia|]. split; [lia|discriminate]. }
    destruct (IH _ _ _ E2 ltac:(lia) A2) as (C1 & C2 & C3). replace (x_data (r :: rs1)) with (x_data [r] ++ x_data rs1) by (destruct r; reflexivity). 
    rewrite total_app.
    split; [lia|]. split; [lia|]. intros [Q|Q]; auto. }
  intros n ended len l rs x' E Hl Ht. unfold x_new in E.
  replace (dl_is_exact len) with true in E by (symmetry; apply N.leb_le; assert (MAX_LEN = 2 ^ 64 - 3) as -> by (vm_compute; reflexivity); lia). cbn [negb andb] in E.
  destruct (K _ _ _ _ E Hl Ht) as (C1 & C2 & C3). cbn [x_len x_left] in *. split; [|exact C3]. rewrite C1. unfold dl_into_opt.
  assert (len - total (x_data rs) < 2 ^ 64 - 2) as Q by lia.
  destruct (N.eqb_spec (len - total (x_data rs)) DL_CHUNKED) as [F|_]; [rewrite F in Q; vm_compute in Q; discriminate Q|].
  destruct (N.eqb_spec (len - total (x_data rs)) DL_CLOSE_DELIMITED) as [F|_]; [rewrite F in Q; vm_compute in Q; discriminate Q|]. reflexivity.
Qed.
(* A response to HEAD: the stream has ended and there is no data, but the hint is
   the length that the response declared *)
Theorem C37_h2_head_refuted : exists x rs x', x = x_new true 10 [] /\ x_polls 1 x = (rs, x') /\ rs = [XNone] /\ dl_into_opt (x_len x') = Some 10.
Proof. do 3 eexists. split; [reflexivity|]. split; [reflexivity|]. split; vm_compute; reflexivity. Qed.

(* ---- Examples ---- *)
Definition ex_trailers : hmap := [(B "x-sum", [B "1"])].
Definition ex_full : list iact := [AReady; ASendData [1; 2]; AAsk; ANext; AReady; ASendData [3]; ASendTrailers ex_trailers; AAsk; ADropData; ANext; ADropTrailers; AAsk; ANext; ATrail; AAsk; ATrail].
Example C37_ex_full : exists b p r, b_run (b_new 3 false) ex_full = Some b /\ b_log b = p ++ REnd :: r /\
  chunks (got_items p) = [[1; 2]; [3]] /\ got_trailers p = [ex_trailers] /\ b_size_hint b = Some 0.
Proof. eexists. exists [SReady; SData [1; 2]; RAsk; RData [1; 2]; SReady; SData [3]; STrailers ex_trailers; RAsk; SEnd; RData [3]; RAsk; RTrailers ex_trailers; RAsk], []. split; [vm_compute; reflexivity|]. repeat split. Qed.
(* The connection stops early: the application sees the error, then the end *)
Definition ex_abort : list iact := [AReady; ASendData [1]; ASendError; ADropData; ADropTrailers; AAsk; ANext; AAsk; ANext; AAsk; ANext; ATrail].
Example C37_ex_abort : exists b p r, b_run (b_new 3 false) ex_abort = Some b /\ b_log b = p ++ REnd :: r /\
  got_items p = [ItData [1]; ItFail] /\ b_size_hint b = Some 2.
Proof. eexists. exists [SReady; SData [1]; SFail; SEnd; RAsk; RData [1]; RAsk; RFail; RAsk], []. split; [vm_compute; reflexivity|]. repeat split. Qed.
(* A request that waits: ready only after the application asked; then one ahead *)
Example C39_ex_wait : exists b, b_run (b_new 3 true) [AReady; AAsk; AReady; ANext; ASendData [7]; AReady] = Some b /\
  b_log b = [RAsk; SReady; SData [7]] /\ b_poll_ready b = BPending.
Proof. eexists. split; [vm_compute; reflexivity|]. split; vm_compute; reflexivity. Qed.
Example C37_ex_rest :
  exists c, b_run (b_new 9 false) [ASendData [1]; ASendTrailers ex_trailers; ADropData; ADropTrailers] = Some c /\ b_sender c = false /\ b_tsender c = false /\ b_pc c = RIdle /\
  got_items (b_log (asks 3 c)) = [ItData [1]].
Proof. eexists. split; [vm_compute; reflexivity|]. repeat split. Qed.
Example C37_ex_remaining : exists rs x', x_polls 3 (x_new false 5 [HChunk [1; 2]; HPending; HChunk [3]]) = (rs, x') /\ total (x_chunks [HChunk [1; 2]; HPending; HChunk [3]]) <= 5 /\
  x_data rs = [[1; 2]; [3]] /\ dl_into_opt (x_len x') = Some 2.
Proof. do 2 eexists. split; [reflexivity|]. split; [vm_compute; discriminate|]. split; vm_compute; reflexivity. Qed.
Example C37_ex_h2 : exists rs x', x_polls 5 (x_new false DL_CHUNKED [HChunk [1]; HPending; HChunk [2; 3]; HTrail ex_trailers]) = (rs ++ [XNone], x') /\
  x_data rs = [[1]; [2; 3]] /\ h2_stream [HChunk [1]; HPending; HChunk [2; 3]; HTrail ex_trailers].
Proof. exists [XData [1]; XPending; XData [2; 3]; XTrailers ex_trailers]. eexists. split; [vm_compute; reflexivity|]. split; [reflexivity|]. intros x []. Qed.

Print Assumptions C37_in_order.
Print Assumptions C37_trailers_last.
Print Assumptions C37_clean_end.
Print Assumptions C37_remaining.
Print Assumptions C37_remaining_unknown.
Print Assumptions C37_all_delivered.
Print Assumptions C37_not_refused.
Print Assumptions C39_one_ahead.
Print Assumptions C39_asked_first.
Print Assumptions C39_first_chunk_refuted.
Print Assumptions C37_h2_in_order.
Print Assumptions C37_h2_clean_end.
Print Assumptions C37_h2_truncated_refuted.
Print Assumptions C37_h2_remaining.
Print Assumptions C37_h2_head_refuted.
