(* Lemmas: what the automata of S_Conn say about parts of a log; and induction
   over executions from a new connection. *)
From Verif Require Import Base M_Src M_Decode M_HeaderMap M_Headers M_Encode M_Role M_RoleEncode M_Buf M_WriteBuf M_Read M_Conn M_Dispatch S_Conn L_Conn L_Moves L_ConnS L_ConnC L_Ka.

Lemma count_cons f e l : count f (e :: l) = ((if f e then 1 else 0) + count f l)%nat.
Proof. unfold count. cbn. destruct (f e); reflexivity. Qed.

(* Once over, always over *)
Lemma x_over_step x e y : x_server x e = Some y -> x_over x = true -> x_over y = true.
Proof.
  destruct x as [i o k w ov]. cbn [x_over]. intros H ->.
  destruct e; cbn in H; rewrite ?andb_false_r in H; try discriminate;
    repeat match type of H with
    | context [match ?v with _ => _ end] => destruct v eqn:?; try discriminate
    end; inversion H; reflexivity.
Qed.
Lemma x_over_run l : forall x y, x_run x_server x l = Some y -> x_over x = true -> x_over y = true.
Proof.
  induction l as [|e l IH]; intros x y H Hx; cbn in H; [congruence|].
  destruct (x_server x e) as [z|] eqn:Ez; [|discriminate]. eapply IH; [exact H|]. eapply x_over_step; eassumption.
Qed.

Lemma out_run l : forall x y, x_run x_server x l = Some y -> count is_LIn l = 0%nat -> x_over y = false -> x_out y = ODone ->
  match x_out x with
  | ONone => exists b1 h bs b2 b3, l = b1 ++ LHead false h bs :: b2 ++ LEnd :: b3 /\ count is_LHead l = 1%nat
  | OStarted => exists b2 b3, l = b2 ++ LEnd :: b3 /\ count is_LHead l = 0%nat
  | ODone => count is_LHead l = 0%nat
  | OBroken => False
  end.
Proof.
  induction l as [|e l IH]; intros x y H Hc Hov Hy; cbn in H.
  - inversion H. subst x. rewrite Hy. reflexivity.
  - destruct (x_server x e) as [z|] eqn:Ez; [|discriminate]. rewrite count_cons in Hc.
    assert (is_LIn e = false) as He by (destruct (is_LIn e); [discriminate|reflexivity]). rewrite He in Hc.
    assert (x_over z = false) as Hz by (destruct (x_over z) eqn:Q; [rewrite (x_over_run _ _ _ H Q) in Hov; discriminate|reflexivity]).
    specialize (IH _ _ H Hc Hov Hy).
    assert (is_LHead e = false -> x_out z = x_out x ->
      match x_out x with
      | ONone => exists b1 h bs b2 b3, e :: l = b1 ++ LHead false h bs :: b2 ++ LEnd :: b3 /\ count is_LHead (e :: l) = 1%nat
      | OStarted => exists b2 b3, e :: l = b2 ++ LEnd :: b3 /\ count is_LHead (e :: l) = 0%nat
      | ODone => count is_LHead (e :: l) = 0%nat
      | OBroken => False
      end) as Keep.
    { intros Hh Ho. rewrite count_cons, Hh, <- Ho. destruct (x_out z).
      - destruct IH as (b1 & h & bs & b2 & b3 & -> & Q). exists (e :: b1), h, bs, b2, b3. auto.
      - destruct IH as (b2 & b3 & -> & Q). exists (e :: b2), b3. auto.
      - exact IH.
      - exact IH. }
    destruct x as [i o k w ov]. cbn [x_out] in *.
    destruct e; try discriminate;
      try (apply Keep; [reflexivity|]; cbn in Ez;
           repeat match type of Ez with context [match ?v with _ => _ end] => destruct v eqn:?; try discriminate end;
           inversion Ez; reflexivity).
    + (* LHead *) destruct auto; cbn in Ez.
      * destruct (_ && _) in Ez; [|discriminate]. inversion Ez. subst z. discriminate.
      * destruct i; try discriminate; destruct o; try discriminate; destruct ov; try discriminate; inversion Ez; subst z; cbn in IH;
          destruct IH as (b2 & b3 & -> & Q); exists [], h, bs, b2, b3; (split; [reflexivity|]); rewrite count_cons; cbn [is_LHead]; now rewrite Q.
    + (* LHeadFail *) cbn in Ez. exfalso. destruct (_ && _) in Ez; [inversion Ez; subst z; discriminate|].
      destruct i; try discriminate; destruct o; try discriminate; destruct ov; try discriminate; inversion Ez; subst z; exact IH.
    + (* LEnd *) cbn in Ez. destruct o; try discriminate. inversion Ez. subst z. cbn in IH.
      exists [], l. split; [reflexivity|]. rewrite count_cons. exact IH.
    + (* LAbort *) exfalso. cbn in Ez. destruct o; try discriminate. inversion Ez. subst z. exact IH.
Qed.
Lemma in_run l : forall x y m m', x_run x_server x l = Some y -> count is_LIn l = 0%nat -> x_in x = IOpen m -> x_in y = IDone m' ->
  In LInEnd l.
Proof.
  induction l as [|e l IH]; intros x y m m' H Hc Hx Hy; cbn in H; [congruence|].
  destruct (x_server x e) as [z|] eqn:Ez; [|discriminate]. rewrite count_cons in Hc.
  assert (is_LIn e = false) as He by (destruct (is_LIn e); [discriminate|reflexivity]). rewrite He in Hc.
  assert (forall mm, x_in z = IBroken mm -> False) as Hb.
  { clear - H Hc Hy. intros mm Q. revert z H Q. induction l as [|e' l IH']; intros z H Q; cbn in H; [congruence|].
    rewrite count_cons in Hc. assert (is_LIn e' = false) as He by (destruct (is_LIn e'); [discriminate|reflexivity]). rewrite He in Hc.
    destruct (x_server z e') as [z'|] eqn:Ez; [|discriminate]. apply (IH' Hc z' H).
    destruct z as [i o k w ov]. cbn in Q. subst i. destruct e'; try discriminate; cbn in Ez;
      repeat match type of Ez with context [match ?v with _ => _ end] => destruct v eqn:?; try discriminate end; inversion Ez; reflexivity. }
  assert (x_in z = IOpen m \/ e = LInEnd) as [Hz| ->]; [|right; eapply IH; eauto|left; reflexivity].
  destruct x as [i o k w ov]. cbn in Hx. subst i.
  destruct e; try discriminate; auto; cbn in Ez;
    repeat match type of Ez with context [match ?v with _ => _ end] => destruct v eqn:?; try discriminate end;
    inversion Ez; subst z; cbn in *; auto. exfalso. eapply Hb; reflexivity.
Qed.

(* Executions *)
Definition side (c : cfg) : Prop := c_server c = true \/ client_cfg c.
Definition start (h09 flat : bool) (wmax : N) (evs : list event) : disp := d_new (conn_new h09 flat wmax evs).
Definition moves_ok (V : ohead -> Prop) (ms : list move) : Prop :=
  Forall (fun m => match m with Step i => vmsg V i | Env _ => True end) ms.

Lemma SInv_start h09 flat wmax evs : SInv (start h09 flat wmax evs).
Proof. apply SI_new. Qed.
Lemma CInv_start h09 flat wmax evs : CInv (start h09 flat wmax evs).
Proof. apply CI_new. Qed.

(* A state on one side that satisfies the invariant of that side *)
Definition ok_state (c : cfg) (d : disp) : Prop := if c_server c then SInv d else CInv d.
Lemma ok_start c h09 flat wmax evs : ok_state c (start h09 flat wmax evs).
Proof. unfold ok_state. destruct (c_server c); [apply SInv_start|apply CInv_start]. Qed.
Lemma ok_run c ms d : side c -> ok_state c d -> ok_state c (run c ms d).
Proof.
  unfold ok_state. intros [Hs|Hc] H.
  - rewrite Hs in *. now apply server_inv.
  - pose proof (proj1 Hc) as Hs. rewrite Hs in *. now apply client_inv.
Qed.

Theorem run_P c (V : ohead -> Prop) (P : conn -> Prop) : side c -> (forall h, auto_head h -> V h) ->
  (forall k k', P k -> K0 c k k' -> P k') ->
  (forall auto k h body, P k -> k_writing k = WInit ->
     (if c_server c then k_reading k <> RInit else auto = false /\ k_reading k = RInit /\ k_ka k <> KDisabled) ->
     V h -> (auto = true -> auto_head h /\ body = None /\ k_ka k = KDisabled) -> P (write_head c auto k h body)) ->
  forall ms d, moves_ok V ms -> ok_state c d -> P (d_conn d) -> P (d_conn (run c ms d)).
Proof.
  intros Hs HV H0 Hw ms d Hm Hok HP.
  assert (stable c (vmsg V) (fun _ => True) (fun d => ok_state c d /\ PInv P d)) as S.
  { apply stable_conj.
    - apply stable_weaken with (good := fun _ => True); [auto|]. unfold ok_state. destruct Hs as [Hs|Hc].
      + rewrite Hs. now apply server_stable.
      + rewrite (proj1 Hc). now apply client_stable.
    - apply P_stable; auto.
      + intros d0 Hd Hsv Hf. unfold ok_state in Hd. rewrite Hsv in Hd. destruct Hd as (x & _ & Hr & _). rewrite Hf in Hr.
        intros Q. rewrite Q in Hr. destruct Hr as (_ & F & _). discriminate.
      + intros d0 Hd Hsv Ew. unfold ok_state in Hd. rewrite Hsv in Hd. destruct Hd as (x & _ & _ & Hw' & _ & Hk). rewrite Ew in Hw'. split; [exact Hw'|]. intros F. now apply Hk. }
  exact (proj2 (Inv_run_good c _ _ S ms d Hm (conj Hok HP))).
Qed.
Lemma moves_ok_any ms : moves_ok (fun _ => True) ms.
Proof. apply Forall_forall. intros [i|e] _; [|exact I]. split; [|exact I]. destruct (i_msg i) as [|[[h b]|u]]; exact I. Qed.

Lemma K_write_head c auto k h body : k_writing k = WInit ->
  (if c_server c then k_reading k <> RInit else auto = false /\ k_reading k = RInit /\ k_ka k <> KDisabled) -> K c k (write_head c auto k h body).
Proof.
  intros Hw Hr. destruct (write_head_ka c auto k h body Hw) as (l & H & _); [intros Hs; rewrite Hs in Hr; exact Hr|]. exists l. exact H.
Qed.
(* From any state on, executions follow [K] *)
Theorem run_K c ms d : side c -> ok_state c d -> K c (d_conn d) (d_conn (run c ms d)).
Proof.
  intros Hs Hok. apply (run_P c (fun _ => True) (K c (d_conn d)) Hs (fun _ _ => I)); auto.
  - intros k k' H H0. eapply K_trans; [exact H|now apply K0_K].
  - intros auto k h body H Hw Hr _ _. eapply K_trans; [exact H|now apply K_write_head].
  - apply moves_ok_any.
  - exists []. apply KL_refl.
Qed.

(* What the automata remember about the log *)
Lemma x_run_snoc f x l e y : x_run f x (l ++ [e]) = Some y -> exists z, x_run f x l = Some z /\ f z e = Some y.
Proof.
  rewrite x_run_app. destruct (x_run f x l) as [z|]; [|discriminate]. cbn. destruct (f z e) as [w|] eqn:Q; [|discriminate].
  intros H. exists z. split; [reflexivity|congruence].
Qed.
Lemma count_snoc f l e : count f (l ++ [e]) = (count f l + (if f e then 1 else 0))%nat.
Proof. rewrite count_app, count_cons. unfold count. cbn. lia. Qed.
Lemma in_snoc {T} (x : T) l e : In x l -> In x (l ++ [e]).
Proof. intros H. apply in_or_app. auto. Qed.
Lemma in_last {T} (x : T) l : In x (l ++ [x]).
Proof. apply in_or_app. right. now left. Qed.

(* The part of a server's log that belongs to the request being handled *)
Lemma server_part l : forall x, x_run x_server x_start l = Some x ->
  match x_in x with
  | INone => count is_LIn l = 0%nat
  | IOpen m | IDone m | IBroken m => exists a b, l = a ++ LIn m :: b /\ count is_LIn b = 0%nat /\
      (x_out x = ONone -> count is_LHead b = 0%nat) /\ (x_continue x = false -> ~ In LContinue b) /\ (x_want x = true -> In LWant b)
  end.
Proof.
  induction l as [|e l IH] using rev_ind; intros x H.
  - inversion H. reflexivity.
  - destruct (x_run_snoc _ _ _ _ _ H) as (z & Hz & He). clear H. specialize (IH z Hz).
    destruct z as [i o k w ov]. cbn [x_in x_out x_continue x_want] in IH.
    destruct e as [m| | | | | | |au h bs| | | | | | | | | | |]; [|destruct i..];
      try (cbn in He; repeat match type of He with context [match ?v with _ => _ end] => destruct v eqn:?; try discriminate end;
           inversion He; subst x; cbn [x_in x_out x_continue x_want];
           first [ rewrite count_snoc; cbn [is_LIn]; rewrite IH; reflexivity
                 | destruct IH as (a & b & -> & Hc & Hh & Hk & Hw);
                   match goal with |- context [(a ++ LIn _ :: b) ++ [?e]] => exists a, (b ++ [e]) end;
                   (split; [rewrite <- app_assoc; reflexivity|]);
                   (split; [rewrite count_snoc; cbn [is_LIn]; rewrite Hc; reflexivity|]);
                   (split; [first [discriminate | intros Ho; rewrite count_snoc; cbn [is_LHead]; rewrite (Hh Ho); reflexivity]|]);
                   (split; [first [discriminate | intros Ho X; apply in_app_or in X; destruct X as [X|[X|[]]]; [now apply (Hk Ho)|discriminate]]|]);
                   first [intros _; apply in_last | intros Ho; apply in_snoc; auto ] ]).
    (* LIn *)
    cbn [x_server] in He. destruct (_ && _) in He; [|discriminate]. inversion He. subst x. cbn.
    exists l, []. split; [reflexivity|]. split; [reflexivity|]. split; [reflexivity|]. split; [auto|discriminate].
Qed.

(* The part of a client's log that belongs to the request being handled *)
Lemma client_part l : forall x, x_run x_client x_start l = Some x ->
  match x_out x with
  | ONone => x_in x = INone /\ count is_LHead l = 0%nat
  | _ => exists a e b, l = a ++ e :: b /\ is_LHead e = true /\ count is_LHead b = 0%nat /\
      (x_out x = ODone -> (exists h bs, e = LHead false h bs) /\ In LEnd b) /\
      (x_out x = OStarted -> exists h bs, e = LHead false h bs) /\
      match x_in x with
      | INone => count is_LIn b = 0%nat
      | IOpen m => In (LIn m) b /\ count is_LIn b = 1%nat
      | IDone m => In (LIn m) b /\ count is_LIn b = 1%nat /\ In LInEnd b
      | IBroken m => In (LIn m) b /\ count is_LIn b = 1%nat
      end
  end.
Proof.
  induction l as [|e l IH] using rev_ind; intros x H.
  - inversion H. cbn. auto.
  - destruct (x_run_snoc _ _ _ _ _ H) as (z & Hz & He). clear H. specialize (IH z Hz).
    assert (forall i, match i with
      | INone => count is_LIn (@nil levent) = 0%nat | IOpen m => In (LIn m) [] /\ count is_LIn [] = 1%nat
      | IDone m => In (LIn m) [] /\ count is_LIn [] = 1%nat /\ In LInEnd [] | IBroken m => In (LIn m) [] /\ count is_LIn [] = 1%nat end \/ i <> INone) as Hn.
    { intros [| | |]; [left; reflexivity|right..]; discriminate. }
    destruct z as [i o k w ov].
    destruct e as [m| | | | | | |au h bs|bs| | | | | | | | | |].
    8: { cbn [x_client] in He. destruct au; [discriminate|]. destruct (at_rest _); [|discriminate]. inversion He. subst x. cbn.
         exists l, (LHead false h bs), []. split; [reflexivity|]. split; [reflexivity|]. split; [reflexivity|]. split; [discriminate|]. split; [eauto|reflexivity]. }
    8: { cbn [x_client] in He. destruct (at_rest _); [|discriminate]. inversion He. subst x. cbn.
         exists l, (LHeadFail bs), []. split; [reflexivity|]. split; [reflexivity|]. split; [reflexivity|]. split; [discriminate|]. split; [discriminate|reflexivity]. }
    all: destruct o; cbn [x_in x_out] in IH; cbn in He; repeat match type of He with context [match ?v with _ => _ end] => destruct v eqn:?; try discriminate end;
         inversion He; subst x; cbn [x_in x_out].
    all: try solve [destruct IH as [-> Hc]; split; [reflexivity|]; rewrite count_snoc; cbn [is_LHead]; rewrite Hc; reflexivity].
    all: try solve [destruct IH as [F _]; discriminate].
    all: destruct IH as (a & e0 & b & -> & H1 & H2 & H3 & H4 & H5).
    all: match goal with |- context [(?a ++ ?e0 :: ?b) ++ [?e]] => exists a, e0, (b ++ [e]) end.
    all: split; [rewrite <- app_assoc; reflexivity|].
    all: split; [exact H1|].
    all: split; [rewrite count_snoc; cbn [is_LHead]; rewrite H2; reflexivity|].
    all: split; [try discriminate; intros _; first [split; [apply H4; reflexivity|apply in_last] | destruct (H3 eq_refl) as [? ?]; split; [assumption|apply in_snoc; assumption]]|].
    all: split; [first [discriminate|exact H4]|].
    all: try destruct i.
    all: rewrite ?count_snoc; cbn [is_LIn].
    all: repeat match goal with H : _ /\ _ |- _ => destruct H end.
    all: repeat split; try (apply in_snoc; assumption); try apply in_last; try lia.
Qed.
