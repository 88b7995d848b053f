(* C61: requests and responses of an HTTP/2 client. *)
From Verif Require Import Base M_HeaderMap M_Headers M_RoleEncode M_H2Headers M_H2Body M_H2Client P_H2Body.
From Coq Require Import Sorted.

(* ---- Specification ---- *)
Definition outcomes (id : N) (l : list kev) : list outcome := flat_map (fun e => match e with KAnswer i o => if i =? id then [o] else [] | _ => [] end) l.
(* The requests given to h2 with their streams *)
Definition opened (l : list kev) : list (N * N) := flat_map (fun e => match e with KOpen i st _ _ => [(i, st)] | _ => [] end) l.

(* ---- Lemmas ---- *)
Lemma outcomes_app id a b : outcomes id (a ++ b) = outcomes id a ++ outcomes id b.
Proof. apply flat_map_app. Qed.
Lemma opened_app a b : opened (a ++ b) = opened a ++ opened b.
Proof. apply flat_map_app. Qed.
Lemma opened_in l id st : In (id, st) (opened l) <-> exists h e, In (KOpen id st h e) l.
Proof.
  unfold opened. rewrite in_flat_map. split.
  - intros (x & H1 & H2). destruct x; cbn in H2; try contradiction. destruct H2 as [H2|[]]. injection H2 as <- <-. eauto.
  - intros (h & e & H). exists (KOpen id st h e). split; [exact H|left; reflexivity].
Qed.
Lemma outcomes_in id o l : In o (outcomes id l) <-> In (KAnswer id o) l.
Proof.
  unfold outcomes. rewrite in_flat_map. split.
  - intros (x & H1 & H2). destruct x; cbn in H2; try contradiction. destruct (id0 =? id) eqn:E; [|destruct H2]. destruct H2 as [<-|[]]. apply N.eqb_eq in E. subst. exact H1.
  - intros H. exists (KAnswer id o). split; [exact H|]. rewrite N.eqb_refl. left. reflexivity.
Qed.
Fixpoint wsum {A} (w : A -> nat) (l : list A) : nat := match l with [] => O | x :: r => (w x + wsum w r)%nat end.
Lemma wsum_app {A} (w : A -> nat) a b : wsum w (a ++ b) = (wsum w a + wsum w b)%nat.
Proof. induction a; cbn; lia. Qed.
Lemma wsum_upd {A} (w : A -> nat) f : forall l n x, nth_error l n = Some x -> (wsum w (upd n f l) + w x = wsum w l + w (f x))%nat.
Proof. induction l as [|y l IH]; intros [|n] x E; try discriminate E; cbn in *; [injection E as ->; lia|specialize (IH _ _ E); lia]. Qed.
Lemma upd_in {A} f : forall (l : list A) n y, In y (upd n f l) -> In y l \/ exists x, nth_error l n = Some x /\ y = f x.
Proof.
  induction l as [|z l IH]; intros [|n] y H; cbn in *; try contradiction; destruct H as [H|H]; auto.
  - right. eauto.
  - destruct (IH n y H) as [Q|Q]; auto.
Qed.
Definition one (a b : N) : nat := if a =? b then 1 else 0.
Definition qn (id : N) (q : list (N * creq)) : nat := wsum (fun e => one (fst e) id) q.
Definition cn (id : N) (c : option fctx) : nat := match c with Some f => one (f_id f) id | None => O end.
Definition wn (id : N) (l : list swhen) : nat := wsum (fun w => if w_done w then O else one (w_id w) id) l.
Definition places (s : kl) (id : N) : nat := (qn id (k_queue s) + cn id (k_ctx s) + wn id (k_whens s) + length (outcomes id (k_log s)))%nat.
(* Where every request is: exactly one place *)
Lemma outcome1 id i o : length (outcomes id [KAnswer i o]) = one i id.
Proof. unfold one. cbn. destruct (i =? id); reflexivity. Qed.
Lemma outcomes_back id q : length (outcomes id (map (fun e : N * creq => KAnswer (fst e) KBack) q)) = qn id q.
Proof. induction q as [|e q IH]; [reflexivity|]. cbn [map]. pose proof (outcomes_app id [KAnswer (fst e) KBack] (map (fun e : N * creq => KAnswer (fst e) KBack) q)) as E. cbn [app] in E. rewrite E, app_length, IH, outcome1. reflexivity. Qed.
Lemma poll_pipe_places f s id : places (poll_pipe f s) id = (places s id + one (f_id f) id)%nat.
Proof. unfold places, poll_pipe. cbn [kl_tasks k_queue k_ctx k_whens k_log]. unfold wn. rewrite wsum_app. cbn. lia. Qed.
Lemma w_finish_places n s w id p l : nth_error (k_whens s) n = Some w -> w_done w = false -> length (outcomes id l) = one (w_id w) id ->
  places (kl_log l (kl_tasks (upd n w_finish (k_whens s)) p s)) id = places s id.
Proof.
  intros E D L. unfold places. cbn [kl_log kl_tasks k_queue k_ctx k_whens k_log]. rewrite outcomes_app, app_length, L.
  pose proof (wsum_upd (fun w => if w_done w then O else one (w_id w) id) w_finish _ _ _ E) as Q. cbn in Q. rewrite D in Q. unfold wn. lia.
Qed.
Lemma move_places s m id : (forall i, places s i = if i <? k_sent s then 1%nat else O) -> places (kl_move s m) id = (if id <? k_sent (kl_move s m) then 1%nat else O).
Proof.
  intros H. destruct m as [q|i| |i| |n r|n|n start i]; cbn [kl_move].
  - unfold kl_send. destruct (k_open s); [|apply H]. cbn [k_pc k_queue]. specialize (H id).
    assert (((if (id <? k_sent s)%N then 1 else 0) + one (k_sent s) id)%nat = (if id <? k_sent s + 1 then 1%nat else O)) as E.
    { unfold one. destruct (N.ltb_spec id (k_sent s)), (N.eqb_spec (k_sent s) id), (N.ltb_spec id (k_sent s + 1)); lia. }
    destruct (k_pc s); unfold places in *; cbn [kl_log kl_queue k_queue k_ctx k_whens k_log k_sent] in *; rewrite !outcomes_app, !app_length, ?outcome1; unfold qn in *; rewrite ?wsum_app; cbn [wsum fst outcomes flat_map app length]; rewrite <- E, <- H; lia.
  - destruct (i <? k_sent s); apply H.
  - apply H.
  - unfold task_step. destruct (k_pc s); try apply H. destruct (ti_ready i).
    + apply H.
    + destruct (k_ctx s) as [f|] eqn:Ec.
      { rewrite poll_pipe_places. change (k_sent (poll_pipe f (kl_ctx None s))) with (k_sent s). rewrite <- H. unfold places. cbn [kl_ctx k_queue k_ctx k_whens k_log]. rewrite Ec. cbn [cn]. lia. }
      destruct (k_queue s) as [|(j, q) r] eqn:Eq.
      { destruct (negb (k_open s) || ti_eof i); [|apply H]. cbn [kl_log kl_pc k_sent]. rewrite <- H. unfold places. cbn [kl_log kl_pc k_queue k_ctx k_whens k_log]. rewrite outcomes_app, app_length. cbn. lia. }
      assert (places s id = places (kl_queue r s) id + one j id)%nat as E by (unfold places; cbn [kl_queue k_queue k_ctx k_whens k_log]; rewrite Eq; unfold qn; cbn; lia).
      assert (forall o, places (kl_log [KAnswer j o] (kl_queue r s)) id = places s id) as Ea.
      { intros o. rewrite E. unfold places. cbn [kl_log kl_queue k_queue k_ctx k_whens k_log]. rewrite outcomes_app, app_length, outcome1. lia. }
      destruct (canceled (kl_queue r s) j); [rewrite Ea; apply H|]. destruct (h2_request _ _ _ _) as [(h, eos)|]; [|rewrite Ea; apply H]. destruct (ti_sent i); [|rewrite Ea; apply H].
      set (s1 := kl_next _ _). assert (places s1 id = places (kl_queue r s) id) as E1 by (unfold s1, places; cbn [kl_next kl_log kl_queue k_queue k_ctx k_whens k_log]; rewrite outcomes_app, app_length; cbn; lia).
      destruct (ti_ready2 i).
      * change (k_sent (kl_ctx _ _)) with (k_sent s). rewrite <- H, E, <- E1. unfold places. cbn [kl_ctx k_queue k_ctx k_whens k_log]. change (k_ctx s1) with (k_ctx s). rewrite Ec. cbn. lia.
      * rewrite poll_pipe_places. change (k_sent (poll_pipe _ _)) with (k_sent s). cbn [f_id]. rewrite <- H. lia.
      * change (k_sent (kl_log _ _)) with (k_sent s). rewrite <- H, E, <- E1. unfold places. cbn [kl_log k_queue k_ctx k_whens k_log]. rewrite outcomes_app, app_length, outcome1. lia.
    + change (k_sent (kl_log _ _)) with (k_sent s). rewrite <- H. unfold places. cbn [kl_log kl_pc k_queue k_ctx k_whens k_log]. rewrite outcomes_app, app_length. cbn. lia.
  - assert (places (kl_log (map (fun e => KAnswer (fst e) KBack) (k_queue s) ++ match k_ctx s with Some f => [KAnswer (f_id f) KGone] | None => [] end)
           (kl_pc KDropped (kl_queue [] (kl_ctx None s)))) id = places s id) as E.
    { unfold places. cbn [kl_log kl_pc kl_queue kl_ctx k_queue k_ctx k_whens k_log]. rewrite !outcomes_app, !app_length, outcomes_back. destruct (k_ctx s); [rewrite outcome1|]; cbn; lia. }
    unfold task_drop. destruct (k_pc s); [rewrite E; apply H|rewrite E; apply H|apply H].
  - unfold when_step. destruct (nth_error (k_whens s) n) as [w|] eqn:En; [|apply H]. destruct (w_done w) eqn:Ed; [apply H|].
    destruct r as [|st nz|]; [destruct (canceled s (w_id w)); [|apply H]|destruct (w_connect w && (st =? 200)); [destruct nz|]|];
      (change (k_sent (kl_log _ _)) with (k_sent s); rewrite (w_finish_places n s w); [apply H|exact En|exact Ed|]); cbn; unfold one; destruct (w_id w =? id); reflexivity.
  - unfold when_drop. destruct (nth_error (k_whens s) n) as [w|] eqn:En; [|apply H]. destruct (w_done w) eqn:Ed; [apply H|].
    change (k_sent (kl_log _ _)) with (k_sent s). rewrite (w_finish_places n s w); [apply H|exact En|exact Ed|apply outcome1].
  - apply (H id).
Qed.

(* What a pipe has sent *)
Definition pipe_content (p : cpipe) : Prop :=
  if cp_done p then exists a rest, a ++ rest = script (cp_body p) /\ (pp_log (cp_pipe p) = a \/ (pp_log (cp_pipe p) = a ++ [M_H2Body.HReset] /\ cp_cancel p = PcUsed))
  else pp_log (cp_pipe p) ++ todo (cp_pipe p) = script (cp_body p).
Definition pipe_ok (s : kl) (p : cpipe) : Prop :=
  (exists h, In (KOpen (cp_id p) (cp_stream p) h false) (k_log s)) /\ (cp_cancel p = PcUsed -> In (cp_id p) (k_cancelled s)) /\ pipe_content p.
Record Inv (s : kl) : Prop := mkInv {
  v_places : forall i, places s i = if i <? k_sent s then 1%nat else O;
  v_sorted : StronglySorted N.lt (map fst (opened (k_log s)) ++ map fst (k_queue s));
  v_sent : Forall (fun i => i < k_sent s) (map fst (opened (k_log s)) ++ map fst (k_queue s));
  v_streams : NoDup (map snd (opened (k_log s)));
  v_next : Forall (fun st => st < k_next s) (map snd (opened (k_log s)));
  v_ctx : forall f, k_ctx s = Some f -> exists h, In (KOpen (f_id f) (f_stream f) h (negb (c_connect (f_req f)) && c_eos (f_req f))) (k_log s);
  v_whens : forall w, In w (k_whens s) -> In (w_id w, w_stream w) (opened (k_log s));
  v_resp : forall id st status t, In (KAnswer id (KResp st status t)) (k_log s) -> In (id, st) (opened (k_log s));
  v_back : forall id, In (KAnswer id KBack) (k_log s) -> ~ In id (map fst (opened (k_log s)));
  v_nobody : forall id, In (KAnswer id KNobody) (k_log s) -> In id (k_cancelled s);
  v_pipes : Forall (pipe_ok s) (k_pipes s);
  v_dropped : k_pc s = KDropped -> k_queue s = [] /\ k_ctx s = None }.
(* A move that opens no stream *)
Lemma inv_keep s s' l : Inv s -> (forall i, places s' i = if i <? k_sent s' then 1%nat else O) ->
  k_log s' = k_log s ++ l -> opened l = [] -> (exists pre, k_queue s = pre ++ k_queue s') -> k_sent s' = k_sent s -> k_next s' = k_next s ->
  (k_ctx s' = k_ctx s \/ k_ctx s' = None) -> (forall w, In w (k_whens s') -> In (w_id w, w_stream w) (opened (k_log s))) ->
  incl (k_cancelled s) (k_cancelled s') ->
  (forall id o, In (KAnswer id o) l -> match o with KResp st _ _ => In (id, st) (opened (k_log s)) | KBack => ~ In id (map fst (opened (k_log s))) | KNobody => In id (k_cancelled s') | _ => True end) ->
  Forall (fun p => pipe_ok s p \/ pipe_ok s' p) (k_pipes s') -> (k_pc s' = KDropped -> k_queue s' = [] /\ k_ctx s' = None) -> Inv s'.
Proof.
  intros I Hp El Eo (pre & Eq) Es En Ec Ew Hc Ha Fp Hd. assert (opened (k_log s') = opened (k_log s)) as E by (rewrite El, opened_app, Eo, app_nil_r; reflexivity).
  assert (forall e, In e (k_log s) -> In e (k_log s')) as Gr by (intros e He; rewrite El; apply in_or_app; auto).
  assert (forall e, In e (k_log s') -> In e (k_log s) \/ In e l) as Gl by (intros e He; rewrite El in He; now apply in_app_or).
  split.
  - exact Hp.
  - rewrite E. pose proof (v_sorted s I) as H. rewrite Eq, map_app in H. clear - H. induction (map fst (opened (k_log s))) as [|x l IH]; cbn [app] in *.
    + induction (map fst pre) as [|y p IHp]; cbn [app] in H; [exact H|]. inversion H; auto.
    + inversion H as [|? ? H1 H2]; subst. constructor; [auto|]. rewrite Forall_forall in *. intros z Hz. apply H2. apply in_app_or in Hz. apply in_or_app. destruct Hz; [auto|]. right. apply in_or_app. auto.
  - rewrite E, Es. pose proof (v_sent s I) as H. rewrite Eq, map_app in H. rewrite Forall_forall in *. intros z Hz. apply H. apply in_app_or in Hz. apply in_or_app. destruct Hz; [auto|]. right. apply in_or_app. auto.
  - rewrite E. apply I.
  - rewrite E, En. apply I.
  - intros f Hf. destruct Ec as [Ec|Ec]; [|congruence]. destruct (v_ctx s I f ltac:(congruence)) as (h & H). exists h. auto.
  - intros w Hw. rewrite E. auto.
  - intros id st status t H. rewrite E. apply Gl in H. destruct H as [H|H]; [eapply v_resp; eauto|]. apply (Ha _ _ H).
  - intros id H. rewrite E. apply Gl in H. destruct H as [H|H]; [eapply v_back; eauto|]. apply (Ha _ _ H).
  - intros id H. apply Gl in H. destruct H as [H|H]; [apply Hc; eapply v_nobody; eauto|]. apply (Ha _ _ H).
  - eapply Forall_impl; [|exact Fp]. intros p [((h & P1) & P2 & P3)|P]; [|exact P]. split; [exists h; auto|]. split; [auto|exact P3].
  - exact Hd.
Qed.
Lemma h2_request_eos m eos ex h h' e : h2_request m eos ex h = Some (h', e) -> e = negb (beq m (B "CONNECT")) && eos.
Proof. unfold h2_request. intros H. destruct (beq m (B "CONNECT") && _); [discriminate H|]. injection H as _ <-. reflexivity. Qed.
Lemma same_stream s id id' st : Inv s -> In (id, st) (opened (k_log s)) -> In (id', st) (opened (k_log s)) -> id = id'.
Proof.
  intros I. pose proof (v_streams s I) as N0. induction (opened (k_log s)) as [|(i, t) l IH]; intros H1 H2; [destruct H1|]. cbn in N0. inversion N0 as [|? ? N1 N2]; subst.
  assert (forall j, In (j, t) l -> In t (map snd l)) as Q by (intros j Hj; apply (in_map snd) in Hj; exact Hj).
  destruct H1 as [H1|H1], H2 as [H2|H2]; [congruence| | |auto].
  - injection H1 as -> ->. destruct N1. eauto.
  - injection H2 as -> ->. destruct N1. eauto.
Qed.
Lemma pipe_step_ok s start i p : pipe_ok s p -> pipe_ok s (pipe_step start i p).
Proof.
  intros (P1 & P2 & P3). unfold pipe_step. destruct (cp_done p) eqn:Ed; [split; auto|]. unfold pipe_content in P3. rewrite Ed in P3.
  assert (pipe_ok s (let (p', o) := pipe_iter i (cp_pipe p) in mkCp (cp_id p) (cp_stream p) (cp_body p) p' (cp_cancel p) (match o with PoLoop | PoPending => false | _ => true end))) as G.
  { destruct (pipe_iter i (cp_pipe p)) as (p', o) eqn:E. apply iter_todo in E. split; [exact P1|]. split; [exact P2|]. unfold pipe_content. destruct o; cbn [cp_done cp_pipe cp_body cp_cancel].
    - rewrite E. exact P3.
    - rewrite E. exact P3.
    - exists (script (cp_body p)), []. rewrite app_nil_r. split; [reflexivity|]. left. rewrite (proj1 E). exact P3.
    - exists (pp_log (cp_pipe p)), (todo (cp_pipe p)). split; [exact P3|]. left. exact E.
    - exists (script (cp_body p)), []. rewrite app_nil_r. split; [reflexivity|]. left. rewrite (proj1 E). exact P3. }
  destruct start; [|exact G]. destruct (cp_cancel p) eqn:Ec; try exact G. split; [exact P1|]. split; [intros _; now apply P2|]. unfold pipe_content. cbn [cp_done cp_pipe cp_body cp_cancel pp_log].
  exists (pp_log (cp_pipe p)), (todo (cp_pipe p)). split; [exact P3|]. right. auto.
Qed.
Lemma tell_ok s c st p : pipe_ok s p -> (c = PcUsed -> In (cp_id p, cp_stream p) (opened (k_log s)) -> cp_stream p = st -> In (cp_id p) (k_cancelled s)) -> pipe_ok s (tell c st p).
Proof.
  intros (P1 & P2 & P3) H. unfold tell. destruct ((cp_stream p =? st) && _) eqn:E; [|split; auto]. apply andb_prop in E. destruct E as (E1 & E2). apply N.eqb_eq in E1.
  split; [exact P1|]. cbn [cp_cancel cp_id]. split; [intros ->; apply H; auto; apply opened_in; destruct P1 as (h & P1); eauto|].
  unfold pipe_content in *. cbn [cp_done cp_pipe cp_body cp_cancel]. destruct (cp_done p); [|exact P3]. destruct P3 as (a & rest & P3 & [P4|(P4 & P5)]); [exists a, rest; auto|]. rewrite P5 in E2. discriminate E2.
Qed.
Lemma inv_task_end s n w c l : Inv s -> nth_error (k_whens s) n = Some w -> w_done w = false -> (c = PcUsed -> In (w_id w) (k_cancelled s)) ->
  (l = [KAnswer (w_id w) KGone] \/ l = [KAnswer (w_id w) KErr] \/ (exists st t, l = [KAnswer (w_id w) (KResp (w_stream w) st t)]) \/ l = [KReset (w_stream w); KAnswer (w_id w) KErr] \/ (l = [KAnswer (w_id w) KNobody] /\ In (w_id w) (k_cancelled s))) ->
  Inv (kl_log l (kl_tasks (upd n w_finish (k_whens s)) (map (tell c (w_stream w)) (k_pipes s)) s)).
Proof.
  intros I En Ed Hc Hl. assert (In w (k_whens s)) as Hw by (eapply nth_error_In; eauto). pose proof (v_whens s I w Hw) as Ho.
  apply (inv_keep s _ l I); cbn [kl_log kl_tasks k_log k_queue k_ctx k_whens k_pipes k_sent k_next k_cancelled k_pc]; auto.
  - intros i. rewrite (w_finish_places n s w); [apply (v_places s I)|exact En|exact Ed|]. destruct Hl as [-> |[-> |[(st & t & ->)|[-> |(-> & _)]]]]; cbn; unfold one; destruct (w_id w =? i); reflexivity.
  - destruct Hl as [-> |[-> |[(st & t & ->)|[-> |(-> & _)]]]]; reflexivity.
  - exists []. reflexivity.
  - intros x Hx. apply upd_in in Hx. destruct Hx as [Hx|(y & Hy & ->)]; [now apply (v_whens s I)|]. cbn. apply (v_whens s I y). eapply nth_error_In; eauto.
  - apply incl_refl.
  - intros id o H. destruct Hl as [-> |[-> |[(st & t & ->)|[-> |(-> & Q)]]]]; cbn in H.
    1-3: destruct H as [H|[]]; injection H as <- <-; auto.
    + destruct H as [H|[H|[]]]; [discriminate H|]. injection H as <- <-. exact Logic.I.
    + destruct H as [H|[]]. injection H as <- <-. exact Q.
  - rewrite Forall_map. eapply Forall_impl; [|apply (v_pipes s I)]. intros p Hp. left. apply tell_ok; [exact Hp|]. intros -> H1 H2. rewrite (same_stream s (cp_id p) (w_id w) (cp_stream p) I H1); [auto|]. rewrite H2. exact Ho.
  - apply (v_dropped s I).
Qed.
(* A request is given to h2 *)
Lemma inv_open s j q r h eos s1 : Inv s -> k_queue s = (j, q) :: r -> k_pc s = KRun ->
  s1 = kl_next (k_next s + 1) (kl_log [KOpen j (k_next s) h eos] (kl_queue r s)) ->
  forall s2, k_pc s2 = k_pc s1 -> k_open s2 = k_open s1 -> k_sent s2 = k_sent s1 -> k_cancelled s2 = k_cancelled s1 -> k_queue s2 = k_queue s1 -> k_next s2 = k_next s1 -> k_whens s2 = k_whens s1 -> k_pipes s2 = k_pipes s1 ->
  (forall i, places s2 i = if i <? k_sent s2 then 1%nat else O) ->
  (exists l, k_log s2 = k_log s1 ++ l /\ opened l = [] /\ forall id o, In (KAnswer id o) l -> o = KErr) ->
  (forall f, k_ctx s2 = Some f -> f_id f = j /\ f_stream f = k_next s /\ eos = negb (c_connect (f_req f)) && c_eos (f_req f)) -> Inv s2.
Proof.
  intros I Eq Er -> s2 E1 E2 E3 E4 E5 E6 E7 E8 Hp (l & El & Ol & Hl) Hc. cbn [kl_next kl_log kl_queue k_pc k_open k_sent k_cancelled k_queue k_next k_whens k_pipes k_log] in *.
  assert (opened (k_log s2) = opened (k_log s) ++ [(j, k_next s)]) as Eo by (rewrite El, !opened_app, Ol, app_nil_r; reflexivity).
  pose proof (v_sorted s I) as So. rewrite Eq in So. cbn [map fst] in So. pose proof (v_sent s I) as Se. rewrite Eq in Se. cbn [map fst] in Se.
  assert (forall e, In e (k_log s) -> In e (k_log s2)) as Gr by (intros e He; rewrite El; apply in_or_app; left; apply in_or_app; auto).
  assert (forall id o, In (KAnswer id o) (k_log s2) -> In (KAnswer id o) (k_log s) \/ o = KErr) as Gl.
  { intros id o H. rewrite El in H. apply in_app_or in H. destruct H as [H|H]; [|right; eauto]. apply in_app_or in H. destruct H as [H|[H|[]]]; [auto|discriminate H]. }
  split.
  - exact Hp.
  - rewrite Eo, E5, map_app, <- app_assoc. exact So.
  - rewrite Eo, E5, E3, map_app, <- app_assoc. exact Se.
  - rewrite Eo, map_app. cbn [map snd]. rewrite <- (rev_involutive (_ ++ _)), rev_app_distr. apply NoDup_rev. cbn. constructor; [|apply NoDup_rev, (v_streams s I)].
    intros H. apply in_rev in H. pose proof (v_next s I) as F. rewrite Forall_forall in F. specialize (F _ H). lia.
  - rewrite Eo, E6, map_app. apply Forall_app. split; [eapply Forall_impl; [|apply (v_next s I)]; cbn; intros; lia|]. constructor; [cbn; lia|constructor].
  - intros f Hf. destruct (Hc f Hf) as (-> & -> & <-). exists h. rewrite El. apply in_or_app. left. apply in_or_app. right. left. reflexivity.
  - intros w Hw. rewrite E7 in Hw. rewrite Eo. apply in_or_app. left. now apply (v_whens s I).
  - intros id st status t H. apply Gl in H. destruct H as [H|H]; [|discriminate H]. rewrite Eo. apply in_or_app. left. eapply (v_resp s I); eauto.
  - intros id H. apply Gl in H. destruct H as [H|H]; [|discriminate H]. rewrite Eo, map_app. intros Q. apply in_app_or in Q. destruct Q as [Q|[Q|[]]]; [now apply (v_back s I id H)|]. cbn in Q. subst id.
    pose proof (v_places s I j) as P. unfold places in P. rewrite Eq in P. unfold qn in P. cbn [wsum fst] in P. assert (one j j = 1%nat) as O1 by (unfold one; now rewrite N.eqb_refl). rewrite O1 in P.
    apply outcomes_in in H. destruct (outcomes j (k_log s)); [destruct H|]. cbn [length] in P. destruct (j <? k_sent s); lia.
  - intros id H. apply Gl in H. destruct H as [H|H]; [|discriminate H]. rewrite E4. now apply (v_nobody s I).
  - rewrite E8. eapply Forall_impl; [|apply (v_pipes s I)]. intros p ((h0 & P1) & P2 & P3). split; [exists h0; auto|]. split; [rewrite E4; exact P2|exact P3].
  - congruence.
Qed.
Lemma inv_move s m : Inv s -> Inv (kl_move s m).
Proof.
  intros I. assert (forall id, places (kl_move s m) id = if id <? k_sent (kl_move s m) then 1%nat else O) as Hp by (intros id; apply move_places, I).
  pose proof (v_pipes s I) as Fp. assert (Forall (fun p => pipe_ok s p \/ False) (k_pipes s)) as Fp' by (eapply Forall_impl; [|exact Fp]; auto).
  assert (forall s', Forall (fun p => pipe_ok s p \/ pipe_ok s' p) (k_pipes s)) as Fs by (intros s'; eapply Forall_impl; [|exact Fp]; auto).
  destruct m as [q|i| |i| |n r|n|n start i]; cbn [kl_move] in *.
  - unfold kl_send in *. destruct (k_open s); [|exact I]. cbn [k_pc k_queue] in *. set (s1 := mkKl (k_pc s) _ _ _ _ _ _ _ _ _) in *.
    assert (forall s2, k_log s2 = k_log s ++ [KSend (k_sent s)] \/ (k_log s2 = (k_log s ++ [KSend (k_sent s)]) ++ [KAnswer (k_sent s) KBack]) -> k_pc s2 = k_pc s -> k_sent s2 = k_sent s + 1 -> k_next s2 = k_next s ->
       (k_queue s2 = k_queue s /\ True \/ k_queue s2 = k_queue s ++ [(k_sent s, q)] /\ k_pc s <> KDropped) -> k_ctx s2 = k_ctx s -> k_whens s2 = k_whens s -> k_pipes s2 = k_pipes s -> k_cancelled s2 = k_cancelled s ->
       (forall id, places s2 id = if id <? k_sent s2 then 1%nat else O) -> Inv s2) as K.
    { intros s2 El Epc Es En Eq Ec Ew Epi Eca Hp2. assert (opened (k_log s2) = opened (k_log s)) as Eo by (destruct El as [-> | ->]; rewrite !opened_app; cbn; rewrite !app_nil_r; reflexivity).
      assert (forall e, In e (k_log s) -> In e (k_log s2)) as Gr by (intros e He; destruct El as [-> | ->]; repeat (apply in_or_app; left); [exact He|exact He]).
      assert (forall id o, In (KAnswer id o) (k_log s2) -> In (KAnswer id o) (k_log s) \/ (id = k_sent s /\ o = KBack)) as Gl.
      { intros id o H. destruct El as [El|El]; rewrite El in H.
        - apply in_app_or in H. destruct H as [H|[H|[]]]; [auto|discriminate H].
        - apply in_app_or in H. destruct H as [H|[H|[]]]; [|injection H as <- <-; auto]. apply in_app_or in H. destruct H as [H|[H|[]]]; [auto|discriminate H]. }
      assert (Forall (fun i => i < k_sent s) (map fst (opened (k_log s)) ++ map fst (k_queue s))) as Se by apply I.
      assert (Forall (fun i => i < k_sent s + 1) (map fst (opened (k_log s)) ++ map fst (k_queue s))) as Se1 by (eapply Forall_impl; [|exact Se]; cbn; intros; lia).
      split.
      - exact Hp2.
      - rewrite Eo. destruct Eq as [(-> & _)|(-> & _)]; [apply I|]. rewrite map_app, app_assoc. cbn [map fst]. pose proof (v_sorted s I) as So. clear - So Se. induction (map fst (opened (k_log s)) ++ map fst (k_queue s)) as [|x l IH]; cbn [app]; [repeat constructor|].
        inversion So; subst. inversion Se; subst. constructor; [auto|]. apply Forall_app. auto.
      - rewrite Eo, Es. destruct Eq as [(-> & _)|(-> & _)]; [exact Se1|]. rewrite map_app, app_assoc. apply Forall_app. split; [exact Se1|]. constructor; [cbn; lia|constructor].
      - rewrite Eo. apply I.
      - rewrite Eo, En. apply I.
      - intros f Hf. rewrite Ec in Hf. destruct (v_ctx s I f Hf) as (h & H). eauto.
      - intros w Hw. rewrite Ew in Hw. rewrite Eo. now apply (v_whens s I).
      - intros id st status t H. rewrite Eo. apply Gl in H. destruct H as [H|(_ & H)]; [|discriminate H]. eapply (v_resp s I); eauto.
      - intros id H. rewrite Eo. apply Gl in H. destruct H as [H|(-> & _)]; [now apply (v_back s I)|]. intros Q. rewrite Forall_forall in Se. specialize (Se (k_sent s) (in_or_app _ _ _ (or_introl Q))). lia.
      - intros id H. apply Gl in H. destruct H as [H|(_ & H)]; [|discriminate H]. rewrite Eca. now apply (v_nobody s I).
      - rewrite Epi. eapply Forall_impl; [|exact Fp]. intros p ((h0 & P1) & P2 & P3). split; [exists h0; auto|]. split; [rewrite Eca; exact P2|exact P3].
      - rewrite Epc, Ec. intros Q. destruct (v_dropped s I Q) as (Q1 & Q2). destruct Eq as [(-> & _)|(_ & Q3)]; [auto|congruence]. }
    destruct (k_pc s) eqn:Epc; apply K; try reflexivity; auto; try exact Hp; try (right; split; [reflexivity|discriminate]).
  - destruct (i <? k_sent s); [|exact I]. apply (inv_keep s _ [] I Hp); cbn [k_log k_queue k_ctx k_whens k_pipes k_sent k_next k_cancelled k_pc]; auto.
    + symmetry. apply app_nil_r.
    + exists []. reflexivity.
    + apply (v_whens s I).
    + intros x Hx. right. exact Hx.
    + intros id o [].
    + apply (v_dropped s I).
  - apply (inv_keep s _ [] I Hp); cbn [k_log k_queue k_ctx k_whens k_pipes k_sent k_next k_cancelled k_pc]; auto.
    + symmetry. apply app_nil_r.
    + exists []. reflexivity.
    + apply (v_whens s I).
    + apply incl_refl.
    + intros id o [].
    + apply (v_dropped s I).
  - unfold task_step in *. destruct (k_pc s) eqn:Epc; try exact I. destruct (ti_ready i).
    + exact I.
    + destruct (k_ctx s) as [f|] eqn:Ec.
      { assert (exists h, In (KOpen (f_id f) (f_stream f) h (negb (c_connect (f_req f)) && c_eos (f_req f))) (k_log s)) as (h & Ho) by apply (v_ctx s I f Ec).
        apply (inv_keep s _ [] I Hp); cbn [poll_pipe kl_tasks kl_ctx k_log k_queue k_ctx k_whens k_pipes k_sent k_next k_cancelled k_pc]; auto.
        - symmetry. apply app_nil_r.
        - exists []. reflexivity.
        - intros w Hw. apply in_app_or in Hw. destruct Hw as [Hw|[<-|[]]]; [now apply (v_whens s I)|]. apply opened_in. eauto.
        - apply incl_refl.
        - intros id o [].
        - destruct (negb (c_connect (f_req f)) && negb (c_eos (f_req f))) eqn:E; [|apply Fs]. apply andb_prop in E. destruct E as (E1 & E2). apply Forall_app. split; [apply Fs|]. constructor; [|constructor]. left.
          split; [exists h; cbn; rewrite E1 in Ho; destruct (c_eos (f_req f)); [discriminate E2|exact Ho]|]. split; [discriminate|]. reflexivity.
        - congruence. }
      destruct (k_queue s) as [|(j, q) r] eqn:Eq.
      { destruct (negb (k_open s) || ti_eof i); [|exact I]. apply (inv_keep s _ [KReturn true] I Hp); cbn [kl_log kl_pc k_log k_queue k_ctx k_whens k_pipes k_sent k_next k_cancelled k_pc]; auto.
        - exists []. reflexivity.
        - apply (v_whens s I).
        - apply incl_refl.
        - intros id o [H|[]]. discriminate H. }
      assert (forall o, (forall id, places (kl_log [KAnswer j o] (kl_queue r s)) id = if id <? k_sent s then 1%nat else O) -> (o = KNobody -> In j (k_cancelled s)) -> match o with KResp _ _ _ | KBack => False | _ => True end -> Inv (kl_log [KAnswer j o] (kl_queue r s))) as A.
      { intros o Hpo Ho1 Ho2. apply (inv_keep s _ [KAnswer j o] I Hpo); cbn [kl_log kl_queue k_log k_queue k_ctx k_whens k_pipes k_sent k_next k_cancelled k_pc]; auto.
        - exists [(j, q)]. rewrite Eq. reflexivity.
        - apply (v_whens s I).
        - apply incl_refl.
        - intros id o' [H|[]]. injection H as <- <-. destruct o; try contradiction; auto.
        - congruence. }
      destruct (canceled (kl_queue r s) j) eqn:Ej.
      { apply A; [exact Hp| |exact Logic.I]. intros _. unfold canceled in Ej. apply existsb_exists in Ej. destruct Ej as (x & Hx & Ex). apply N.eqb_eq in Ex. subst x. exact Hx. }
      destruct (h2_request _ _ _ _) as [(h, eos)|] eqn:Eh; [|apply A; [exact Hp|discriminate|exact Logic.I]]. destruct (ti_sent i); [|apply A; [exact Hp|discriminate|exact Logic.I]].
      apply h2_request_eos in Eh. cbv zeta in *. cbn [k_next kl_queue] in *.
      destruct (ti_ready2 i).
      * apply (inv_open s j q r h eos _ I Eq Epc eq_refl _); try reflexivity; [exact Hp| |].
        -- exists []. rewrite app_nil_r. split; [reflexivity|]. split; [reflexivity|]. intros id o [].
        -- intros f Hf. cbn [kl_ctx k_ctx] in Hf. injection Hf as <-. cbn. split; [reflexivity|]. split; [reflexivity|exact Eh].
      * set (f := mkF j (k_next s) q) in *. set (s1 := kl_next _ _) in *.
        assert (Inv (kl_ctx (Some f) s1)) as I1.
        { apply (inv_open s j q r h eos _ I Eq Epc eq_refl _); try reflexivity.
          - intros id. cbn [kl_ctx k_sent]. specialize (Hp id). rewrite poll_pipe_places in Hp. cbn [poll_pipe kl_tasks k_sent] in Hp. rewrite <- Hp. unfold places. cbn [kl_ctx k_queue k_ctx k_whens k_log]. change (k_ctx s1) with (k_ctx s). rewrite Ec. cbn. lia.
          - exists []. rewrite app_nil_r. split; [reflexivity|]. split; [reflexivity|]. intros id o [].
          - intros f' Hf. cbn [kl_ctx k_ctx] in Hf. injection Hf as <-. cbn. split; [reflexivity|]. split; [reflexivity|exact Eh]. }
        destruct (v_ctx _ I1 f eq_refl) as (h' & Ho).
        apply (inv_keep _ _ [] I1 Hp); cbn [poll_pipe kl_tasks kl_ctx k_log k_queue k_ctx k_whens k_pipes k_sent k_next k_cancelled k_pc] in *; auto.
        -- symmetry. apply app_nil_r.
        -- exists []. reflexivity.
        -- intros w Hw. apply in_app_or in Hw. destruct Hw as [Hw|[<-|[]]]; [now apply (v_whens _ I1)|]. apply opened_in. eauto.
        -- apply incl_refl.
        -- intros id o [].
        -- assert (Forall (fun p => pipe_ok (kl_ctx (Some f) s1) p \/ pipe_ok (poll_pipe f s1) p) (k_pipes s1)) as F1 by (eapply Forall_impl; [|apply (v_pipes _ I1)]; auto).
           destruct (negb (c_connect (f_req f)) && negb (c_eos (f_req f))) eqn:E; [|exact F1]. apply andb_prop in E. destruct E as (E1 & E2). apply Forall_app. split; [exact F1|]. constructor; [|constructor]. left.
           split; [exists h'; cbn; cbn in Ho, E1, E2; rewrite E1 in Ho; destruct (c_eos q); [discriminate E2|exact Ho]|]. split; [discriminate|]. reflexivity.
        -- change (k_pc s1) with (k_pc s). congruence.
      * apply (inv_open s j q r h eos _ I Eq Epc eq_refl _); try reflexivity; [exact Hp| |].
        -- exists [KAnswer j KErr]. split; [reflexivity|]. split; [reflexivity|]. intros id o [H|[]]. congruence.
        -- intros f Hf. cbn [kl_log kl_next kl_queue k_ctx] in Hf. congruence.
    + apply (inv_keep s _ [KReturn (negb (ti_timed_out i) && no_error)] I Hp); cbn [kl_log kl_pc k_log k_queue k_ctx k_whens k_pipes k_sent k_next k_cancelled k_pc]; auto.
      * exists []. reflexivity.
      * apply (v_whens s I).
      * apply incl_refl.
      * intros id o [H|[]]. discriminate H.
      * discriminate.
  - unfold task_drop in *. set (l := map (fun e : N * creq => KAnswer (fst e) KBack) (k_queue s) ++ match k_ctx s with Some f => [KAnswer (f_id f) KGone] | None => [] end) in *.
    assert (k_pc s <> KDropped -> (forall id, places (kl_log l (kl_pc KDropped (kl_queue [] (kl_ctx None s)))) id = if id <? k_sent s then 1%nat else O) -> Inv (kl_log l (kl_pc KDropped (kl_queue [] (kl_ctx None s))))) as K.
    { intros Nd Hp2. apply (inv_keep s _ l I Hp2); cbn [kl_log kl_pc kl_queue kl_ctx k_log k_queue k_ctx k_whens k_pipes k_sent k_next k_cancelled k_pc]; auto.
      - unfold l. rewrite opened_app. assert (forall q : list (N * creq), opened (map (fun e : N * creq => KAnswer (fst e) KBack) q) = []) as -> by (induction q; [reflexivity|exact IHq]). destruct (k_ctx s); reflexivity.
      - exists (k_queue s). symmetry. apply app_nil_r.
      - apply (v_whens s I).
      - apply incl_refl.
      - intros id o H. unfold l in H. apply in_app_or in H. destruct H as [H|H].
        + apply in_map_iff in H. destruct H as (e & He & Hin). injection He as <- <-. pose proof (v_sorted s I) as So. intros Q. apply (in_map fst) in Hin. clear - So Hin Q. induction (map fst (opened (k_log s))) as [|x l0 IH]; [destruct Q|]. cbn [app] in So. inversion So as [|? ? S1 S2]; subst.
          destruct Q as [-> |Q]; [|auto]. rewrite Forall_forall in S2. specialize (S2 (fst e) (in_or_app _ _ _ (or_intror Hin))). lia.
        + destruct (k_ctx s); [destruct H as [H|[]]; injection H as <- <-; exact Logic.I|destruct H]. }
    destruct (k_pc s) eqn:Epc; [apply K; [discriminate|exact Hp]|apply K; [discriminate|exact Hp]|exact I].
  - unfold when_step in *. destruct (nth_error (k_whens s) n) as [w|] eqn:En; [|exact I]. destruct (w_done w) eqn:Ed; [exact I|].
    assert (canceled s (w_id w) = true -> In (w_id w) (k_cancelled s)) as Hc.
    { unfold canceled. intros H. apply existsb_exists in H. destruct H as (x & Hx & Ex). apply N.eqb_eq in Ex. now subst x. }
    destruct r as [|st nz|]; [destruct (canceled s (w_id w)) eqn:Ec; [|exact I]|destruct (w_connect w && (st =? 200)); [destruct nz|]|]; apply inv_task_end; auto; try discriminate.
    + right. right. right. right. auto.
    + right. right. left. eauto.
    + right. right. left. eauto.
  - unfold when_drop in *. destruct (nth_error (k_whens s) n) as [w|] eqn:En; [|exact I]. destruct (w_done w) eqn:Ed; [exact I|]. apply inv_task_end; auto. discriminate.
  - apply (inv_keep s _ [] I Hp); cbn [kl_tasks k_log k_queue k_ctx k_whens k_pipes k_sent k_next k_cancelled k_pc]; auto.
    + symmetry. apply app_nil_r.
    + exists []. reflexivity.
    + apply (v_whens s I).
    + apply incl_refl.
    + intros id o [].
    + apply Forall_forall. intros p Hpp. apply upd_in in Hpp. rewrite Forall_forall in Fp. left. destruct Hpp as [Hpp|(x & Hx & ->)]; [auto|]. apply pipe_step_ok, Fp. eapply nth_error_In; eauto.
    + apply (v_dropped s I).
Qed.
Lemma inv_new : Inv kl_new.
Proof. split; cbn; try constructor; intros; try contradiction; try discriminate. destruct i; reflexivity. Qed.
Lemma inv_run ms : Inv (kl_run ms kl_new).
Proof.
  assert (forall s, Inv s -> Inv (kl_run ms s)) as H; [|apply H, inv_new]. induction ms as [|m ms IH]; intros s I; [exact I|]. apply (IH (kl_move s m)), inv_move, I.
Qed.

(* The requests that the user sends, in order *)
Fixpoint sends (ms : list kmove) : list creq :=
  match ms with [] => [] | KmSendersGone :: _ => [] | KmSend q :: r => q :: sends r | _ :: r => sends r end.
Definition req_of (l : list creq) (id : N) : option creq := nth_error l (N.to_nat id).
Definition tunnel_of (q : creq) (status : N) : bool := c_connect q && (status =? 200).

(* What is where belongs to the request that was sent *)
Definition ev_ok (l : list creq) (e : kev) : Prop :=
  match e with
  | KOpen id _ h eos => exists q, req_of l id = Some q /\ h2_request (c_method q) (c_eos q) (c_exact q) (c_headers q) = Some (h, eos)
  | KAnswer id (KResp _ status t) => exists q, req_of l id = Some q /\ t = tunnel_of q status
  | KAnswer id KInvalid => exists q, req_of l id = Some q /\ h2_request (c_method q) (c_eos q) (c_exact q) (c_headers q) = None
  | _ => True
  end.
Record Mine (l : list creq) (s : kl) : Prop := mkMine {
  m_sent : k_sent s = N.of_nat (length l);
  m_queue : Forall (fun e => req_of l (fst e) = Some (snd e)) (k_queue s);
  m_ctx : forall f, k_ctx s = Some f -> req_of l (f_id f) = Some (f_req f);
  m_whens : Forall (fun w => exists q, req_of l (w_id w) = Some q /\ w_connect w = c_connect q) (k_whens s);
  m_pipes : Forall (fun p => exists q, req_of l (cp_id p) = Some q /\ cp_body p = c_body q) (k_pipes s);
  m_log : Forall (ev_ok l) (k_log s) }.
Lemma mine_move l s m : Mine l s -> Mine (match m with KmSend q => if k_open s then l ++ [q] else l | _ => l end) (kl_move s m).
Proof.
  intros M. destruct m as [q|i| |i| |n r|n|n start i]; cbn [kl_move].
  - unfold kl_send. destruct (k_open s); [|exact M]. destruct M as [M1 M2 M3 M4 M5 M6]. cbn [k_pc k_queue].
    assert (forall id x, req_of l id = Some x -> req_of (l ++ [q]) id = Some x) as G.
    { intros id x H. unfold req_of in *. rewrite nth_error_app1; [exact H|]. apply nth_error_Some. congruence. }
    assert (req_of (l ++ [q]) (k_sent s) = Some q) as Gn by (unfold req_of; rewrite M1, Nnat.Nat2N.id, nth_error_app2, Nat.sub_diag by lia; reflexivity).
    assert (Forall (ev_ok (l ++ [q])) (k_log s)) as L6.
    { eapply Forall_impl; [|exact M6]. intros e He. destruct e as [id|id st h e|id o|st|ok]; cbn in *; auto; [|destruct o; auto]; destruct He as (x & H1 & H2); exists x; auto. }
    assert (N.of_nat (length (l ++ [q])) = k_sent s + 1) as El by (rewrite app_length, M1; cbn; lia).
    destruct (k_pc s); (split; cbn [kl_log kl_queue k_sent k_queue k_ctx k_whens k_pipes k_log]; rewrite ?El; auto;
      [try (apply Forall_app; split; [|constructor; [exact Gn|constructor]]); eapply Forall_impl; [|exact M2]; auto
      |eapply Forall_impl; [|exact M4]; intros w (x & H1 & H2); exists x; auto
      |eapply Forall_impl; [|exact M5]; intros w (x & H1 & H2); exists x; auto
      |repeat (apply Forall_app; split); auto; repeat constructor]).
  - destruct (i <? k_sent s); [|exact M]. destruct M. split; auto.
  - destruct M. split; auto.
  - unfold task_step, poll_pipe. destruct (k_pc s); try exact M. destruct (ti_ready i).
    + exact M.
    + destruct (k_ctx s) as [f|] eqn:Ec.
      { destruct M as [M1 M2 M3 M4 M5 M6]. split; cbn [kl_tasks kl_ctx k_sent k_queue k_ctx k_whens k_pipes k_log]; auto; [discriminate| |].
        - apply Forall_app. split; [exact M4|]. constructor; [|constructor]. exists (f_req f). split; [exact (M3 f Ec)|reflexivity].
        - destruct (_ && _); [|exact M5]. apply Forall_app. split; [exact M5|]. constructor; [|constructor]. exists (f_req f). split; [exact (M3 f Ec)|reflexivity]. }
      destruct (k_queue s) as [|(j, q) r] eqn:Eq.
      { destruct (_ || _); [|exact M]. destruct M as [M1 M2 M3 M4 M5 M6]. split; cbn; auto. apply Forall_app. split; [exact M6|]. repeat constructor. }
      destruct M as [M1 M2 M3 M4 M5 M6]. rewrite Eq in M2. inversion M2 as [|? ? Hq Hr]; subst. cbn [fst snd] in Hq.
      assert (forall e, ev_ok l e -> Mine l (kl_log [e] (kl_queue r s))) as Ka.
      { intros e He. split; cbn [kl_log kl_queue k_sent k_queue k_ctx k_whens k_pipes k_log]; auto. apply Forall_app. split; [exact M6|]. repeat constructor. exact He. }
      destruct (canceled _ _); [apply Ka; exact Logic.I|]. destruct (h2_request (c_method q) (c_eos q) (c_exact q) (c_headers q)) as [(h, e)|] eqn:Eh; [|apply Ka; exists q; auto].
      destruct (ti_sent i); [|apply Ka; exact Logic.I]. assert (ev_ok l (KOpen j (k_next s) h e)) as Eo by (exists q; auto).
      assert (Forall (ev_ok l) (k_log s ++ [KOpen j (k_next s) h e])) as L1 by (apply Forall_app; split; [exact M6|repeat constructor; exact Eo]).
      destruct (ti_ready2 i); split; cbn [kl_tasks kl_ctx kl_next kl_log kl_queue k_sent k_queue k_ctx k_whens k_pipes k_log k_next]; auto.
      * intros f Hf. injection Hf as <-. exact Hq.
      * apply Forall_app. split; [exact M4|]. constructor; [|constructor]. exists q. auto.
      * cbn [f_req]. destruct (_ && _); [|exact M5]. apply Forall_app. split; [exact M5|]. constructor; [|constructor]. exists q. auto.
      * apply Forall_app. split; [exact L1|]. repeat constructor.
    + destruct M as [M1 M2 M3 M4 M5 M6]. split; cbn; auto. apply Forall_app. split; [exact M6|]. repeat constructor.
  - unfold task_drop. assert (Mine l (kl_log (map (fun e => KAnswer (fst e) KBack) (k_queue s) ++ match k_ctx s with Some f => [KAnswer (f_id f) KGone] | None => [] end) (kl_pc KDropped (kl_queue [] (kl_ctx None s))))) as G.
    { destruct M as [M1 M2 M3 M4 M5 M6]. split; cbn [kl_log kl_pc kl_queue kl_ctx k_sent k_queue k_ctx k_whens k_pipes k_log]; auto; [discriminate|]. apply Forall_app. split; [exact M6|]. apply Forall_app. split.
      - rewrite Forall_map. apply Forall_forall. intros; exact Logic.I.
      - destruct (k_ctx s); repeat constructor. }
    destruct (k_pc s); [exact G|exact G|exact M].
  - unfold when_step. destruct (nth_error (k_whens s) n) as [w|] eqn:En; [|exact M]. destruct (w_done w); [exact M|]. destruct M as [M1 M2 M3 M4 M5 M6].
    assert (exists q, req_of l (w_id w) = Some q /\ w_connect w = c_connect q) as (q & Q1 & Q2) by (rewrite Forall_forall in M4; apply M4; eapply nth_error_In; eauto).
    assert (forall c le, Forall (ev_ok l) le -> Mine l (kl_log le (kl_tasks (upd n w_finish (k_whens s)) (map (tell c (w_stream w)) (k_pipes s)) s))) as G.
    { intros c le Hle. split; cbn [kl_log kl_tasks k_sent k_queue k_ctx k_whens k_pipes k_log]; auto.
      - rewrite Forall_forall in *. intros x Hx. apply upd_in in Hx. destruct Hx as [Hx|(y & Hy & ->)]; [auto|]. apply (M4 y). eapply nth_error_In; eauto.
      - rewrite Forall_map. eapply Forall_impl; [|exact M5]. intros p (x & H1 & H2). exists x. unfold tell. destruct (_ && _); auto.
      - apply Forall_app. auto. }
    destruct r as [|st nz|].
    + destruct (canceled _ _); [|split; auto]. apply G. repeat constructor.
    + destruct (w_connect w && (st =? 200)) eqn:E; [destruct nz|]; apply G; repeat constructor; exists q; (split; [exact Q1|]); unfold tunnel_of; rewrite <- Q2, E; reflexivity.
    + apply G. repeat constructor.
  - unfold when_drop. destruct (nth_error (k_whens s) n) as [w|] eqn:En; [|exact M]. destruct (w_done w); [exact M|]. destruct M as [M1 M2 M3 M4 M5 M6]. split; cbn [kl_log kl_tasks k_sent k_queue k_ctx k_whens k_pipes k_log]; auto.
    + rewrite Forall_forall in *. intros x Hx. apply upd_in in Hx. destruct Hx as [Hx|(y & Hy & ->)]; [auto|]. apply (M4 y). eapply nth_error_In; eauto.
    + rewrite Forall_map. eapply Forall_impl; [|exact M5]. intros p (x & H1 & H2). exists x. unfold tell. destruct (_ && _); auto.
    + apply Forall_app. split; [exact M6|]. repeat constructor.
  - destruct M as [M1 M2 M3 M4 M5 M6]. split; cbn [kl_tasks k_sent k_queue k_ctx k_whens k_pipes k_log]; auto. rewrite Forall_forall in *. intros x Hx. apply upd_in in Hx. destruct Hx as [Hx|(y & Hy & ->)]; [auto|].
    destruct (M5 y (nth_error_In _ _ Hy)) as (q & H1 & H2). exists q. unfold pipe_step. destruct (cp_done y); [auto|]. destruct (pipe_iter i (cp_pipe y)). destruct start; [|auto]. destruct (cp_cancel y); auto.
Qed.
Lemma open_move s m : k_open (kl_move s m) = match m with KmSendersGone => false | _ => k_open s end.
Proof.
  destruct m as [q|i| |i| |n r|n|n start i]; cbn [kl_move]; auto.
  - unfold kl_send. destruct (k_open s) eqn:E; [|exact E]. cbn [k_pc]. destruct (k_pc s); reflexivity.
  - destruct (i <? k_sent s); reflexivity.
  - unfold task_step, poll_pipe. destruct (k_pc s); auto. destruct (ti_ready i); auto. destruct (k_ctx s); auto. destruct (k_queue s) as [|(j, q) r]; [destruct (_ || _); auto|].
    destruct (canceled _ _); auto. destruct (h2_request _ _ _ _) as [(h, e)|]; auto. destruct (ti_sent i); auto. destruct (ti_ready2 i); auto.
  - unfold task_drop. destruct (k_pc s); auto.
  - unfold when_step. destruct (nth_error _ _) as [w|]; [|auto]. destruct (w_done w); [auto|]. destruct r as [|st nz|]; [destruct (canceled _ _)|destruct (_ && _); [destruct nz|]|]; auto.
  - unfold when_drop. destruct (nth_error _ _) as [w|]; [|auto]. destruct (w_done w); auto.
Qed.
Lemma mine_run ms : Mine (sends ms) (kl_run ms kl_new).
Proof.
  assert (forall ms l s, Mine l s -> Mine (if k_open s then l ++ sends ms else l) (kl_run ms s)) as G.
  { clear ms. induction ms as [|m ms IH]; intros l s M; [cbn; destruct (k_open s); rewrite ?app_nil_r; exact M|]. cbn [kl_run fold_left]. fold (kl_run ms (kl_move s m)).
    specialize (IH _ _ (mine_move l s m M)). rewrite open_move in IH. destruct m; cbn [sends]; try exact IH.
    - destruct (k_open s); [rewrite <- app_assoc in IH; exact IH|exact IH].
    - rewrite app_nil_r. destruct (k_open s); exact IH. }
  apply (G ms [] kl_new). split; cbn; auto. discriminate.
Qed.

(* ---- Theorems ---- *)
(* What is given to h2, refused, or taken for a tunnel is the request that the user
   sent, and the body that goes to its stream is the one of this request *)
Theorem C61_right_request : forall ms, let s := kl_run ms kl_new in
  (forall id st h eos, In (KOpen id st h eos) (k_log s) -> exists q, req_of (sends ms) id = Some q /\ h2_request (c_method q) (c_eos q) (c_exact q) (c_headers q) = Some (h, eos)) /\
  (forall id, In (KAnswer id KInvalid) (k_log s) -> exists q, req_of (sends ms) id = Some q /\ h2_request (c_method q) (c_eos q) (c_exact q) (c_headers q) = None) /\
  (forall id st status t, In (KAnswer id (KResp st status t)) (k_log s) -> exists q, req_of (sends ms) id = Some q /\ t = tunnel_of q status) /\
  (forall p, In p (k_pipes s) -> exists q, req_of (sends ms) (cp_id p) = Some q /\ cp_body p = c_body q).
Proof.
  intros ms s. pose proof (mine_run ms) as M. fold s in M. destruct M as [M1 M2 M3 M4 M5 M6]. rewrite Forall_forall in M5, M6. split; [|split; [|split]].
  - intros id st h eos H. exact (M6 _ H).
  - intros id H. exact (M6 _ H).
  - intros id st status t H. exact (M6 _ H).
  - exact M5.
Qed.
(* The connection's future returns: with an error only if h2 is no longer ready, with
   another reason than NO_ERROR or after keep-alive timed out; with success only on
   NO_ERROR, or with nothing waiting, when the senders are gone or the connection
   has ended; and in this case it does return *)
Theorem C61_when_it_ends : forall i s,
  (forall ok, k_log (task_step i s) = k_log s ++ [KReturn ok] -> k_pc (task_step i s) = KStop /\
     (if ok then (exists e, ti_ready i = RdErr e /\ e = true /\ ti_timed_out i = false) \/ (k_queue s = [] /\ k_ctx s = None /\ (k_open s = false \/ ti_eof i = true))
      else exists e, ti_ready i = RdErr e /\ (e = false \/ ti_timed_out i = true))) /\
  (k_pc s = KRun -> ti_ready i = RdOk -> k_queue s = [] -> k_ctx s = None -> k_open s = false \/ ti_eof i = true -> k_log (task_step i s) = k_log s ++ [KReturn true]) /\
  (k_pc s = KRun -> forall e, ti_ready i = RdErr e -> exists ok, k_log (task_step i s) = k_log s ++ [KReturn ok]).
Proof.
  intros i s. assert (forall (a : list kev) b, a = a ++ b -> b = []) as Z by (intros a b H; rewrite <- (app_nil_r a) in H at 1; apply app_inv_head in H; auto).
  repeat split.
  - revert H. unfold task_step, poll_pipe. destruct (k_pc s); cbn [kl_tasks kl_ctx k_log]; try (intros H; apply Z in H; discriminate H). destruct (ti_ready i); [intros H; apply Z in H; discriminate H| |auto].
    destruct (k_ctx s); [cbn; intros H; apply Z in H; discriminate H|]. destruct (k_queue s) as [|(j, q) r]; [destruct (_ || _); [auto|intros H; apply Z in H; discriminate H]|].
    destruct (canceled _ _); [cbn; intros H; apply app_inv_head in H; discriminate H|]. destruct (h2_request _ _ _ _) as [(h, e)|]; [|cbn; intros H; apply app_inv_head in H; discriminate H].
    destruct (ti_sent i); [|cbn; intros H; apply app_inv_head in H; discriminate H]. destruct (ti_ready2 i); cbn; rewrite <- ?app_assoc; intros H; apply app_inv_head in H; discriminate H.
  - revert H. unfold task_step, poll_pipe. destruct (k_pc s); cbn [kl_tasks kl_ctx k_log]; try (intros H; apply Z in H; discriminate H). destruct (ti_ready i) as [| |e]; [intros H; apply Z in H; discriminate H| |].
    2: { cbn. intros H. apply app_inv_head in H. injection H as <-. destruct (ti_timed_out i), e; cbn; eauto 6. }
    destruct (k_ctx s) eqn:Ec; [cbn; intros H; apply Z in H; discriminate H|]. destruct (k_queue s) as [|(j, q) r].
    { destruct (k_open s), (ti_eof i); cbn; intros H; try (apply Z in H; discriminate H); apply app_inv_head in H; injection H as <-; auto. }
    destruct (canceled _ _); [cbn; intros H; apply app_inv_head in H; discriminate H|]. destruct (h2_request _ _ _ _) as [(h, e)|]; [|cbn; intros H; apply app_inv_head in H; discriminate H].
    destruct (ti_sent i); [|cbn; intros H; apply app_inv_head in H; discriminate H]. destruct (ti_ready2 i); cbn; rewrite <- ?app_assoc; intros H; apply app_inv_head in H; discriminate H.
  - intros H1 H2 H3 H4 H5. unfold task_step. rewrite H1, H2, H3, H4. destruct H5 as [-> | ->]; [reflexivity|]. rewrite orb_true_r. reflexivity.
  - intros H1 e H2. unfold task_step. rewrite H1, H2. eexists. reflexivity.
Qed.
(* A tunnel whose response announces a body is not one: the stream is reset *)
Theorem C61_no_body_in_tunnel : forall n w status s, nth_error (k_whens s) n = Some w -> w_done w = false -> w_connect w = true ->
  k_log (when_step n (RfOk status true) s) = k_log s ++ (if status =? 200 then [KReset (w_stream w); KAnswer (w_id w) KErr] else [KAnswer (w_id w) (KResp (w_stream w) status false)]).
Proof. intros n w status s H1 H2 H3. unfold when_step. rewrite H1, H2, H3. cbn [andb]. destruct (status =? 200); reflexivity. Qed.
(* At every moment of every execution a request has at most one outcome, and only
   requests that were sent have one; "nobody is waiting" only if the user dropped
   the future *)
Theorem C61_one_outcome : forall ms id, let s := kl_run ms kl_new in
  (length (outcomes id (k_log s)) <= 1)%nat /\ (outcomes id (k_log s) <> [] -> id < k_sent s) /\
  (outcomes id (k_log s) = [KNobody] -> In id (k_cancelled s)).
Proof.
  intros ms id s. pose proof (inv_run ms) as I. fold s in I. pose proof (v_places s I id) as P. unfold places in P. split; [|split].
  - destruct (id <? k_sent s); lia.
  - intros H. destruct (N.ltb_spec id (k_sent s)); [assumption|]. destruct (outcomes id (k_log s)); [congruence|cbn in P; lia].
  - intros H. apply (v_nobody s I). apply outcomes_in. rewrite H. left. reflexivity.
Qed.
(* When the connection is gone and the tasks have ended, every request that was sent
   has its outcome *)
Theorem C61_all_answered : forall ms, let s := kl_run ms kl_new in
  k_pc s = KDropped -> Forall (fun w => w_done w = true) (k_whens s) -> forall id, id < k_sent s -> exists o, outcomes id (k_log s) = [o].
Proof.
  intros ms s Hd Fw id Hid. pose proof (inv_run ms) as I. fold s in I. pose proof (v_places s I id) as P. unfold places in P. destruct (v_dropped s I Hd) as (D1 & D2). rewrite D1, D2 in P.
  apply N.ltb_lt in Hid. rewrite Hid in P. assert (wn id (k_whens s) = O) as W.
  { unfold wn. clear - Fw. induction Fw as [|w l Hw _ IH]; [reflexivity|]. cbn. rewrite Hw. exact IH. }
  rewrite W in P. cbn in P. destruct (outcomes id (k_log s)) as [|o [|o2 l]]; cbn in P; try lia. exists o. reflexivity.
Qed.
(* A response belongs to the stream that was opened for the request; each request is
   given to h2 at most once, in the order in which they were sent, on a stream of its
   own *)
Theorem C61_own_response : forall ms, let lg := k_log (kl_run ms kl_new) in
  StronglySorted N.lt (map fst (opened lg)) /\ NoDup (map snd (opened lg)) /\
  forall id st status t, In (KAnswer id (KResp st status t)) lg -> In (id, st) (opened lg) /\ forall id', In (id', st) (opened lg) -> id' = id.
Proof.
  intros ms lg. pose proof (inv_run ms) as I. split; [|split; [apply I|]].
  - pose proof (v_sorted _ I) as H. fold lg in H. clear - H. induction (map fst (opened lg)) as [|x l IH]; [constructor|]. cbn [app] in H. inversion H as [|? ? H1 H2]; subst. constructor; [auto|]. apply Forall_app in H2. apply H2.
  - intros id st status t H. assert (In (id, st) (opened lg)) as Q by (eapply (v_resp _ I); eauto). split; [exact Q|]. intros id' Q'. eapply (same_stream _ id' id st I); eauto.
Qed.
(* A request that is handed back was not given to h2, and will not be *)
Theorem C61_handed_back : forall ms ms' id, In (KAnswer id KBack) (k_log (kl_run ms kl_new)) -> ~ In id (map fst (opened (k_log (kl_run (ms ++ ms') kl_new)))).
Proof.
  intros ms ms' id H. apply (v_back _ (inv_run (ms ++ ms'))). unfold kl_run. rewrite fold_left_app. fold (kl_run ms kl_new). revert H. generalize (kl_run ms kl_new) as s. clear ms.
  assert (forall s m, exists l, k_log (kl_move s m) = k_log s ++ l) as G.
  { intros s m. assert (forall s', k_log s' = k_log s -> exists l, k_log s' = k_log s ++ l) as Z by (intros s' ->; exists []; symmetry; apply app_nil_r). destruct m as [q|i| |i| |n r|n|n start i]; cbn [kl_move].
    - unfold kl_send. destruct (k_open s); [|auto]. cbn [k_pc]. destruct (k_pc s); cbn [kl_log kl_queue k_log]; rewrite <- ?app_assoc; eauto.
    - destruct (i <? k_sent s); apply Z; reflexivity.
    - apply Z. reflexivity.
    - unfold task_step, poll_pipe. destruct (k_pc s); auto. destruct (ti_ready i); auto; [|cbn; eauto]. destruct (k_ctx s); [apply Z; reflexivity|]. destruct (k_queue s) as [|(j, q) r]; [destruct (_ || _); [cbn; eauto|auto]|].
      destruct (canceled _ _); [cbn; eauto|]. destruct (h2_request _ _ _ _) as [(h, e)|]; [|cbn; eauto]. destruct (ti_sent i); [|cbn; eauto]. destruct (ti_ready2 i); cbn; rewrite <- ?app_assoc; eauto.
    - unfold task_drop. destruct (k_pc s); [cbn; eauto|cbn; eauto|auto].
    - unfold when_step. destruct (nth_error _ _) as [w|]; [|auto]. destruct (w_done w); [auto|]. destruct r as [|st nz|]; [destruct (canceled _ _)|destruct (_ && _); [destruct nz|]|]; cbn; eauto.
    - unfold when_drop. destruct (nth_error _ _) as [w|]; [|auto]. destruct (w_done w); cbn; eauto.
    - apply Z. reflexivity. }
  induction ms' as [|m ms' IH]; intros s H; [exact H|]. cbn [fold_left]. apply IH. destruct (G s m) as (l & ->). apply in_or_app. auto.
Qed.
(* A request whose future was dropped before it was given to h2 is never given to it *)
Theorem C61_cancelled_unsent : forall ms ms' id, let s := kl_run ms kl_new in
  In id (k_cancelled s) -> ~ In id (map fst (opened (k_log s))) -> ~ In id (map fst (opened (k_log (kl_run ms' s)))).
Proof.
  intros ms ms' id s. generalize s. clear s ms. induction ms' as [|m ms' IH]; intros s Hc Hn; [exact Hn|]. cbn [kl_run fold_left]. fold (kl_run ms' (kl_move s m)). apply IH.
  - destruct m as [q|i| |i| |n r|n|n start i]; cbn [kl_move]; auto.
    + unfold kl_send. destruct (k_open s); [|auto]. cbn [k_pc]. destruct (k_pc s); exact Hc.
    + destruct (i <? k_sent s); [right; exact Hc|exact Hc].
    + unfold task_step, poll_pipe. destruct (k_pc s); auto. destruct (ti_ready i); auto. destruct (k_ctx s); auto. destruct (k_queue s) as [|(j, q) r]; [destruct (_ || _); auto|].
      destruct (canceled _ _); auto. destruct (h2_request _ _ _ _) as [(h, e)|]; auto. destruct (ti_sent i); auto. destruct (ti_ready2 i); auto.
    + unfold task_drop. destruct (k_pc s); auto.
    + unfold when_step. destruct (nth_error _ _) as [w|]; [|auto]. destruct (w_done w); [auto|]. destruct r as [|st nz|]; [destruct (canceled _ _)|destruct (_ && _); [destruct nz|]|]; auto.
    + unfold when_drop. destruct (nth_error _ _) as [w|]; [|auto]. destruct (w_done w); auto.
  - assert (forall l, opened l = [] -> opened (k_log s ++ l) = opened (k_log s)) as Z by (intros l E; rewrite opened_app, E; apply app_nil_r).
    destruct m as [q|i| |i| |n r|n|n start i]; cbn [kl_move]; auto.
    + unfold kl_send. destruct (k_open s); [|auto]. cbn [k_pc]. destruct (k_pc s); cbn [kl_log kl_queue k_log]; rewrite <- ?app_assoc, Z by reflexivity; exact Hn.
    + destruct (i <? k_sent s); exact Hn.
    + unfold task_step, poll_pipe. destruct (k_pc s); auto. destruct (ti_ready i); auto; [|cbn; rewrite Z by reflexivity; exact Hn]. destruct (k_ctx s); auto. destruct (k_queue s) as [|(j, q) r]; [destruct (_ || _); [cbn; rewrite Z by reflexivity|]; exact Hn|].
      destruct (canceled (kl_queue r s) j) eqn:Ej; [cbn; rewrite Z by reflexivity; exact Hn|]. destruct (h2_request _ _ _ _) as [(h, e)|]; [|cbn; rewrite Z by reflexivity; exact Hn]. destruct (ti_sent i); [|cbn; rewrite Z by reflexivity; exact Hn].
      assert (j <> id) as Nj. { intros ->. unfold canceled in Ej. assert (existsb (N.eqb id) (k_cancelled (kl_queue r s)) = true) as Q by (apply existsb_exists; exists id; split; [exact Hc|apply N.eqb_refl]). congruence. }
      assert (~ In id (map fst (opened (k_log s) ++ [(j, k_next s)]))) as G by (rewrite map_app; intros Q; apply in_app_or in Q; destruct Q as [Q|[Q|[]]]; [auto|exact (Nj Q)]).
      destruct (ti_ready2 i); cbn [kl_ctx kl_next kl_tasks kl_log kl_queue k_log k_next]; rewrite ?opened_app; cbn [opened flat_map app]; rewrite ?app_nil_r; exact G.
    + unfold task_drop. assert (forall q : list (N * creq), opened (map (fun e : N * creq => KAnswer (fst e) KBack) q) = []) as Eb by (induction q; [reflexivity|exact IHq]).
      destruct (k_pc s); auto; cbn [kl_log kl_pc kl_queue kl_ctx k_log]; rewrite Z; auto; rewrite opened_app, Eb; destruct (k_ctx s); reflexivity.
    + unfold when_step. destruct (nth_error _ _) as [w|]; [|auto]. destruct (w_done w); [auto|]. destruct r as [|st nz|]; [destruct (canceled _ _)|destruct (_ && _); [destruct nz|]|]; cbn [kl_log kl_tasks k_log]; rewrite ?Z by reflexivity; exact Hn.
    + unfold when_drop. destruct (nth_error _ _) as [w|]; [|auto]. destruct (w_done w); cbn [kl_log kl_tasks k_log]; rewrite ?Z by reflexivity; exact Hn.
Qed.
(* The body of a request: a beginning of what it stands for is sent on the stream of
   the request, whose head did not end it; a reset of its own only if the user
   dropped the future *)
Theorem C61_body : forall ms p, let s := kl_run ms kl_new in In p (k_pipes s) ->
  (exists h, In (KOpen (cp_id p) (cp_stream p) h false) (k_log s)) /\
  exists a rest, a ++ rest = script (cp_body p) /\ (pp_log (cp_pipe p) = a \/ (pp_log (cp_pipe p) = a ++ [M_H2Body.HReset] /\ In (cp_id p) (k_cancelled s))).
Proof.
  intros ms p s Hp. pose proof (inv_run ms) as I. fold s in I. pose proof (v_pipes s I) as F. rewrite Forall_forall in F. destruct (F p Hp) as (P1 & P2 & P3). split; [exact P1|].
  unfold pipe_content in P3. destruct (cp_done p).
  - destruct P3 as (a & rest & E & [Q|(Q1 & Q2)]); exists a, rest; auto.
  - exists (pp_log (cp_pipe p)), (todo (cp_pipe p)). auto.
Qed.
(* When the user has dropped the future and the response has not come, the task of
   the response ends, and the body's next poll resets the stream *)
Theorem C61_cancel_resets : forall ms n w k p i, let s := kl_run ms kl_new in
  nth_error (k_whens s) n = Some w -> w_done w = false -> In (w_id w) (k_cancelled s) -> nth_error (k_pipes s) k = Some p -> cp_stream p = w_stream w -> cp_done p = false -> cp_cancel p = PcOpen ->
  let s' := kl_run [KmWhen n RfPending; KmPipe k true i] s in
  exists p', nth_error (k_pipes s') k = Some p' /\ cp_done p' = true /\ pp_log (cp_pipe p') = pp_log (cp_pipe p) ++ [M_H2Body.HReset].
Proof.
  intros ms n w k p i s Hn Hd Hc Hk Hs Hpd Hpc s'. unfold s'. cbn [kl_run fold_left kl_move]. unfold when_step. rewrite Hn, Hd.
  assert (canceled s (w_id w) = true) as -> by (apply existsb_exists; exists (w_id w); split; [exact Hc|apply N.eqb_refl]). cbn [kl_log kl_tasks k_pipes k_whens].
  assert (forall (l : list cpipe) k f x, nth_error l k = Some x -> nth_error (upd k f l) k = Some (f x)) as U by (induction l as [|y l IH]; intros [|k0] f x E; try discriminate E; cbn in *; [congruence|auto]).
  eexists. split; [apply U, map_nth_error, Hk|]. unfold tell. rewrite Hs, N.eqb_refl, Hpc. unfold pipe_step. cbn [andb cp_done cp_cancel cp_pipe]. rewrite Hpd. cbn. auto.
Qed.
(* While h2 is ready, the next request does not wait *)
Theorem C61_taken : forall s i j q r, k_pc s = KRun -> ti_ready i = RdOk -> k_ctx s = None -> k_queue s = (j, q) :: r ->
  exists e, k_log (task_step i s) = k_log s ++ e /\ k_queue (task_step i s) = r /\ ((exists o, In (KAnswer j o) e) \/ exists h eos, In (KOpen j (k_next s) h eos) e).
Proof.
  intros s i j q r H1 H2 H3 H4. unfold task_step. rewrite H1, H2, H3, H4. destruct (canceled _ _); [cbn; eexists; split; [reflexivity|]; split; [reflexivity|]; left; eexists; left; reflexivity|].
  destruct (h2_request _ _ _ _) as [(h, e)|]; [|cbn; eexists; split; [reflexivity|]; split; [reflexivity|]; left; eexists; left; reflexivity].
  destruct (ti_sent i); [|cbn; eexists; split; [reflexivity|]; split; [reflexivity|]; left; eexists; left; reflexivity].
  destruct (ti_ready2 i); cbn; rewrite <- ?app_assoc; eexists; (split; [reflexivity|]); (split; [reflexivity|]); right; do 2 eexists; left; reflexivity.
Qed.

(* ---- Examples ---- *)
Definition ex_creq (m : bytes) : creq := mkCreq m [] false None [BData [1; 2] false; BPending; BData [3] true].
Definition ex_ok : tin := mkTin RdOk false true RdOk false.
Definition ex_hin : hin := mkHin RNone CapYes true.
(* Two requests; the first is answered, the second dropped by the user *)
Definition ex_run : list kmove := [KmSend (ex_creq (B "POST")); KmSend (ex_creq (B "PUT")); KmTask ex_ok; KmTask ex_ok;
  KmPipe 0 false ex_hin; KmPipe 0 false ex_hin; KmPipe 0 false ex_hin; KmPipe 1 false ex_hin; KmPipe 1 false ex_hin; KmPipe 1 false ex_hin; KmCancel 1].
Example C61_ex : let s := kl_run (ex_run ++ [KmWhen 1 RfPending; KmPipe 1 true ex_hin; KmPipe 0 true ex_hin; KmPipe 0 true ex_hin; KmWhen 0 (RfOk 200 false); KmDrop]) kl_new in
  k_pc s = KDropped /\ Forall (fun w => w_done w = true) (k_whens s) /\ outcomes 0 (k_log s) = [KResp 0 200 false] /\ outcomes 1 (k_log s) = [KNobody] /\
  map (fun p => pp_log (cp_pipe p)) (k_pipes s) = [[HData [1; 2] false; HData [3] true]; [HData [1; 2] false; M_H2Body.HReset]].
Proof. vm_compute. repeat split; repeat constructor. Qed.
Example C61_ex_cancel : let s := kl_run ex_run kl_new in exists w p, nth_error (k_whens s) 1 = Some w /\ w_done w = false /\ In (w_id w) (k_cancelled s) /\ nth_error (k_pipes s) 1 = Some p /\ cp_stream p = w_stream w /\ cp_done p = false /\ cp_cancel p = PcOpen.
Proof. do 2 eexists. vm_compute. repeat split. left. reflexivity. Qed.
Example C61_ex_back : let s := kl_run [KmSend (ex_creq (B "POST")); KmCancel 0; KmDrop; KmSend (ex_creq (B "POST"))] kl_new in
  In (KAnswer 0 KBack) (k_log s) /\ In (KAnswer 1 KBack) (k_log s) /\ In 0 (k_cancelled s) /\ ~ In 0 (map fst (opened (k_log s))).
Proof. vm_compute. intuition. Qed.

Example C61_ex_request : let s := kl_run ex_run kl_new in map c_method (sends ex_run) = [B "POST"; B "PUT"] /\
  (exists h, In (KOpen 1 1 h false) (k_log s)) /\ map cp_id (k_pipes s) = [0; 1] /\
  In (KAnswer 0 KInvalid) (k_log (kl_run [KmSend (mkCreq (B "CONNECT") [] false (Some 3) []); KmTask ex_ok] kl_new)).
Proof. split; [reflexivity|]. split; [eexists; vm_compute; do 3 right; left; reflexivity|]. split; [reflexivity|]. vm_compute. right. left. reflexivity. Qed.
Example C61_ex_ends : let s := kl_run (ex_run ++ [KmSendersGone]) kl_new in k_pc s = KRun /\ k_queue s = [] /\ k_ctx s = None /\ k_open s = false.
Proof. vm_compute. auto. Qed.
Example C61_ex_tunnel : let s := kl_run [KmSend (mkCreq (B "CONNECT") [] true None []); KmTask ex_ok] kl_new in exists w, nth_error (k_whens s) 0 = Some w /\ w_done w = false /\ w_connect w = true.
Proof. eexists. vm_compute. auto. Qed.

(* Finding: a request that waits for its stream when the connection ends is told that
   the dispatch task is gone, not the error of the connection *)
Theorem C61_error_lost_refuted : exists ms, let lg := k_log (kl_run ms kl_new) in
  In (KReturn false) lg /\ outcomes 0 lg = [KGone] /\ opened lg = [(0, 0)] /\ forall n, ~ In (KmWhenDrop n) ms.
Proof.
  exists [KmSend (ex_creq (B "POST")); KmTask (mkTin RdOk false true RdPending false); KmTask (mkTin (RdErr false) false true RdOk false); KmDrop]. vm_compute. intuition discriminate.
Qed.
(* Finding: client and server do not agree on when a CONNECT is a tunnel: with 201 the
   server starts one and the client gives a response with a body *)
Theorem C61_tunnel_refuted : exists ms h, let lg := k_log (kl_run ms kl_new) in
  outcomes 0 lg = [KResp 0 201 false] /\ (exists h', In (KOpen 0 0 h' false) lg) /\ h2_response None true 201 true None h = HTunnel h.
Proof.
  exists [KmSend (mkCreq (B "CONNECT") [] true None []); KmTask ex_ok; KmWhen 0 (RfOk 201 false)], []. cbv zeta. split; [vm_compute; reflexivity|]. split; [|vm_compute; reflexivity]. eexists. vm_compute. right. left. reflexivity.
Qed.
(* Finding: the body of a CONNECT is dropped if its size is not known *)
Theorem C61_connect_body_refuted : exists ms, let s := kl_run ms kl_new in outcomes 0 (k_log s) = [KResp 0 200 true] /\ k_pipes s = [] /\ k_pc s = KDropped /\
  exists q, In (KmSend q) ms /\ data_of_body (c_body q) = [1; 2; 3].
Proof.
  exists [KmSend (ex_creq (B "CONNECT")); KmTask ex_ok; KmWhen 0 (RfOk 200 false); KmDrop]. cbv zeta. split; [vm_compute; reflexivity|]. split; [vm_compute; reflexivity|]. split; [vm_compute; reflexivity|].
  eexists. split; [left; reflexivity|reflexivity].
Qed.

Print Assumptions C61_one_outcome.
Print Assumptions C61_all_answered.
Print Assumptions C61_own_response.
Print Assumptions C61_handed_back.
Print Assumptions C61_cancelled_unsent.
Print Assumptions C61_body.
Print Assumptions C61_cancel_resets.
Print Assumptions C61_taken.
Print Assumptions C61_error_lost_refuted.
Print Assumptions C61_tunnel_refuted.
Print Assumptions C61_connect_body_refuted.
Print Assumptions C61_right_request.
Print Assumptions C61_when_it_ends.
Print Assumptions C61_no_body_in_tunnel.
