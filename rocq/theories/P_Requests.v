(* Theorems about the requests of a client connection: C35, C36, C38. *)
From Verif Require Import Base M_Src M_Decode M_HeaderMap M_Headers M_Encode M_Role M_RoleEncode M_Buf M_WriteBuf M_Read M_Conn M_Dispatch S_Conn S_Client L_Conn L_Moves L_ConnS L_ConnC L_Ext L_Exch L_Outcome P_Conn.

Lemma OI_new : OI [] ch_new None.
Proof.
  constructor; cbn; intros; try contradiction; try discriminate.
  - destruct id; reflexivity.
  - destruct a; discriminate.
  - destruct a; discriminate.
  - destruct a; discriminate.
Qed.
Lemma outcomes_ok c h09 flat wmax evs ms : c_server c = false -> OInv (after c h09 flat wmax evs ms).
Proof.
  intros Hs. unfold after. apply Inv_run with (good := fun _ => True); [now apply outcome_stable|exact (fun _ => I)|]. apply OI_new.
Qed.

(* When the connection's future is gone, nothing is left *)
Definition emptied (d : disp) : Prop := d_pc d = PDead -> ch_queue (d_chan d) = [] /\ d_callback d = None /\ ch_rx (d_chan d) = false.
Lemma emptied_drop d : emptied (d_drop d).
Proof. intros _. rewrite d_drop_eq. cbn. auto. Qed.
Lemma emptied_fail c d e : emptied (d_fail c d e).
Proof. unfold d_fail. destruct (recv_error c _ e). apply emptied_drop. Qed.
Lemma emptied_live d p : p <> PDead -> emptied (dset_pc d p).
Proof. intros H F. destruct (H F). Qed.
Lemma next_round_live n : next_round n <> PDead.
Proof. unfold next_round. destruct n as [|[|n]]; discriminate. Qed.
Lemma recv_error_pc c d e : d_pc (fst (recv_error c d e)) = d_pc d.
Proof.
  unfold recv_error. destruct (c_server c); [reflexivity|]. destruct (d_callback d); [reflexivity|]. destruct (d_rx_closed d); [reflexivity|].
  destruct (ch_try_recv _) as [ch [id|]]; reflexivity.
Qed.
Lemma poll_read_pc c i d : d_pc (fst (poll_read_it c i d)) = d_pc d.
Proof.
  unfold poll_read_it. destruct (d_closing d); [reflexivity|]. destruct (can_read_head c (d_conn d)).
  - unfold d_poll_read_head. destruct (d_poll_ready c i d) as [|[[]|[]]]; try reflexivity.
    destruct (k_poll_read_head c _ _ _) as [k [|[[m|e]|]]]; try reflexivity.
    + match goal with |- context [recv_ok c ?dd m] => assert (d_pc dd = d_pc d) as E; [|remember dd as d1 eqn:E1; clear E1] end.
      { destruct (in_decode m =? DL_ZERO), (in_upgrade m), (d_body_tx (dset_conn d k)); reflexivity. }
      unfold recv_ok. destruct (c_server c); [exact E|]. destruct (d_callback d1); exact E.
    + pose proof (recv_error_pc c (dset_conn d k) e) as E. destruct (recv_error c (dset_conn d k) e) as [d' []]; exact E.
    + cbn [fst]. destruct (is_write_closed _); reflexivity.
  - destruct (d_body_tx d).
    + destruct (can_read_body (d_conn d)); [|reflexivity]. destruct (i_body i); try reflexivity.
      destruct (k_poll_read_body c _ _) as [k [|[[m|e]|]]]; try reflexivity. destruct (i_send i); [reflexivity|].
      cbn [fst]. destruct (can_read_body _); reflexivity.
    + destruct (k_poll_read_keep_alive c (d_conn d)); reflexivity.
Qed.
Lemma end_body_pc c i d : d_pc (fst (end_body_it c i d)) = d_pc d.
Proof. unfold end_body_it. destruct (k_end_body (i_room i) (d_conn d)) as [k [u|e]]; reflexivity. Qed.
Lemma flush_pc c i d : d_pc (fst (d_flush c i d)) = d_pc d.
Proof. unfold d_flush. destruct (k_poll_flush c _ _ _); reflexivity. Qed.
Lemma poll_write_pc c i d : d_pc (fst (poll_write_it c i d)) = d_pc d.
Proof.
  unfold poll_write_it. destruct (d_closing d); [reflexivity|]. destruct (_ && _).
  - assert (d_pc (fst (d_poll_msg c i d)) = d_pc d) as E.
    { unfold d_poll_msg. destruct (c_server c).
      - destruct (i_msg i) as [|[m|u]]; reflexivity.
      - destruct (ch_poll_recv (i_race i) (d_chan d)) as [ch [|[id|]]]; try reflexivity. destruct (i_canceled i); reflexivity. }
    destruct (d_poll_msg c i d) as [d' [|[[[h body]|u]|]]]; exact E.
  - destruct (negb (can_buffer_body c (d_conn d))).
    + pose proof (flush_pc c i d) as E. destruct (d_flush c i d) as [d' [|[u|e]]]; exact E.
    + destruct (d_body_rx d).
      * destruct (negb _); [reflexivity|]. destruct (i_frame i) as [|[[[b|t|]|u]|]]; try reflexivity; try (etransitivity; [apply end_body_pc|reflexivity]).
        destruct (i_eos i); destruct (brem b =? 0); try reflexivity. etransitivity; [apply end_body_pc|reflexivity].
      * destruct (k_can_write_body (d_conn d)); [apply end_body_pc|reflexivity].
Qed.
Lemma emptied_keeps d p : d_pc d = p -> p <> PDead -> emptied d.
Proof. intros E H F. congruence. Qed.
Lemma emptied_dstep c i d : emptied d -> emptied (dstep c i d).
Proof.
  intros H. unfold dstep. destruct (d_pc d) eqn:Ep.
  - now apply emptied_live.
  - pose proof (poll_read_pc c i d) as E. destruct (poll_read_it c i d) as [d' [|[|[u|e]]]]; cbn [fst] in E;
      [apply (emptied_keeps d' (PRead n)); [congruence|discriminate]|now apply emptied_live|now apply emptied_live|apply emptied_fail].
  - pose proof (poll_write_pc c i d) as E. destruct (poll_write_it c i d) as [d' [|[|[u|e]]]]; cbn [fst] in E;
      [apply (emptied_keeps d' (PWrite n)); [congruence|discriminate]|now apply emptied_live|now apply emptied_live|apply emptied_fail].
  - destruct (d_flush c i d) as [d' [|[u|e]]]; [| |apply emptied_fail]; destruct (wants_read_again (d_conn d')) as [k [|]]; apply emptied_live;
      try apply next_round_live; match goal with |- (if ?b then _ else _) <> _ => destruct b end; discriminate.
  - pose proof (poll_write_pc c i d) as E. destruct (poll_write_it c i d) as [d' [|[|[u|e]]]]; cbn [fst] in E;
      [apply (emptied_keeps d' (PWrite2 n)); [congruence|discriminate]| | |apply emptied_fail]; apply emptied_live.
    + destruct (has_buffered_write _); discriminate.
    + apply next_round_live.
  - destruct (d_flush c i d) as [d' [|[u|e]]]; [now apply emptied_live|now apply emptied_live|apply emptied_fail].
  - destruct (d_is_done c d); [|now apply emptied_live]. destruct (pending_upgrade (d_conn d)) as [k [|]].
    + destruct (take_error _) as [k' [u|e]]; [apply emptied_drop|apply emptied_fail].
    + destruct (wb_flush _ _ _ _) as [[[w evs'] sent] [|[u|e]]]; [now apply emptied_live| |apply emptied_fail].
      destruct (i_shutdown i) as [|[u'|e']]; [now apply emptied_live| |apply emptied_fail].
      destruct (take_error _) as [k' [u2|e2]]; [apply emptied_drop|apply emptied_fail].
  - exact H.
Qed.
Lemma emptied_estep c e d : emptied d -> emptied (estep c e d).
Proof.
  intros H. destruct e as [s| | |]; cbn.
  - destruct (c_server c); [exact H|]. intros F. cbn in F. destruct (H F) as (A & B' & C). cbn. rewrite B'.
    destruct s; cbn.
    + destruct (_ && _); [|auto]. unfold ch_give. destruct (_ || _); auto.
    + destruct (_ && _); [|auto]. unfold ch_push. rewrite C. cbn. auto.
    + destruct (ch_given (d_chan d)); auto.
  - destruct (d_pc d) eqn:Ep; try exact H. destruct (c_server c); [|exact H]. unfold d_graceful. destruct (_ || _); apply (emptied_keeps _ PIdle); try discriminate; cbn; auto.
  - destruct (d_pc d); try exact H. apply emptied_drop.
  - destruct (d_pc d) eqn:Ep, (k_log (d_conn d)); try exact H. destruct (c_server c); [|exact H]. apply (emptied_keeps _ PIdle); try discriminate; cbn; auto.
Qed.
Lemma emptied_run c ms : forall d, emptied d -> emptied (run c ms d).
Proof. induction ms as [|[i|e] ms IH]; intros d H; [exact H|..]; cbn; apply IH; [now apply emptied_dstep|now apply emptied_estep]. Qed.

(* ------------------------------------------------------------------ *)
(* C35 *)
(* At any time: each accepted request has been answered once, or it waits in
   the channel, or it is the one being processed *)
Theorem C35_one_outcome : forall c h09 flat wmax evs ms id, c_server c = false ->
  let d := after c h09 flat wmax evs ms in
  let log := history c h09 flat wmax evs ms in
  (outcomes id log <= 1)%nat /\
  (id < ch_next (d_chan d) ->
    (outcomes id log = 1%nat /\ ~ In id (ch_queue (d_chan d)) /\ d_callback d <> Some id) \/
    (outcomes id log = 0%nat /\ (In id (ch_queue (d_chan d)) \/ d_callback d = Some id))) /\
  (ch_next (d_chan d) <= id -> outcomes id log = 0%nat).
Proof.
  intros c h09 flat wmax evs ms id Hs d log. pose proof (oi_tally _ _ _ (outcomes_ok c h09 flat wmax evs ms Hs) id) as T.
  fold d in T. change (k_log (d_conn d)) with log in T. unfold inqueue in T.
  split; [destruct (id <? ch_next (d_chan d)); lia|]. split.
  - intros Hlt. apply N.ltb_lt in Hlt. rewrite Hlt in T.
    destruct (count_occ N.eq_dec (ch_queue (d_chan d)) id) eqn:Eq.
    + apply (count_occ_not_In N.eq_dec) in Eq. unfold here in T. destruct (d_callback d) as [j|] eqn:Ej.
      * destruct (N.eqb_spec j id) as [->|Ne]; [right; split; [lia|auto]|left; split; [lia|split; [exact Eq|congruence]]].
      * left. split; [lia|]. split; [exact Eq|discriminate].
    + right. split; [lia|]. left. apply (count_occ_In N.eq_dec). lia.
  - intros Hge. apply N.ltb_ge in Hge. rewrite Hge in T. lia.
Qed.
(* When the connection is over, for whatever reason, all have been answered *)
Theorem C35_all_answered : forall c h09 flat wmax evs ms id, c_server c = false ->
  d_pc (after c h09 flat wmax evs ms) = PDead -> id < ch_next (d_chan (after c h09 flat wmax evs ms)) ->
  outcomes id (history c h09 flat wmax evs ms) = 1%nat.
Proof.
  intros c h09 flat wmax evs ms id Hs Hp Hlt. destruct (C35_one_outcome c h09 flat wmax evs ms id Hs) as (_ & T & _).
  assert (emptied (after c h09 flat wmax evs ms)) as Em by (apply emptied_run; discriminate).
  destruct (Em Hp) as (A & B' & _). destruct (T Hlt) as [(Q & _)|(_ & [Q|Q])]; [exact Q|rewrite A in Q; destruct Q|congruence].
Qed.
(* The response goes to the request it answers: the head that came in last is
   given to the request that was sent last *)
Theorem C35_right_request : forall c h09 flat wmax evs ms a id m b, c_server c = false ->
  history c h09 flat wmax evs ms = a ++ LOutcome id (OResp m) :: b ->
  last_in None a = Some m /\ last_start None a = Some id.
Proof.
  intros c h09 flat wmax evs ms a id m b Hs E. pose proof (outcomes_ok c h09 flat wmax evs ms Hs) as H. split.
  - exact (oi_resp _ _ _ H id m a b E).
  - exact (oi_answer _ _ _ H id (OResp m) a b E eq_refl).
Qed.

(* ------------------------------------------------------------------ *)
(* C36 *)
Lemma not_started id l : ~ In (LStart id) l -> forall cur, cur <> Some id -> written_for id cur l = [].
Proof.
  induction l as [|e l IH]; intros H cur Hc; [reflexivity|].
  assert (~ In (LStart id) l) as Hl by (intros F; apply H; right; exact F).
  cbn. destruct e; cbn; try (apply IH; assumption).
  5: { apply IH; [exact Hl|]. intros F. inversion F; subst. apply H. left. reflexivity. }
  all: destruct cur as [j|]; [|apply IH; assumption]; destruct (N.eqb_spec j id); [congruence|]; cbn; apply IH; assumption.
Qed.
Theorem C36_returned_unsent : forall c h09 flat wmax evs ms id, c_server c = false ->
  In (LOutcome id OReturned) (history c h09 flat wmax evs ms) ->
  written_for id None (history c h09 flat wmax evs ms) = [] /\ ~ In (LStart id) (history c h09 flat wmax evs ms).
Proof.
  intros c h09 flat wmax evs ms id Hs Hi. pose proof (outcomes_ok c h09 flat wmax evs ms Hs) as H.
  assert (~ In (LStart id) (history c h09 flat wmax evs ms)) as N1.
  { intros F. destruct (oi_start _ _ _ H id F) as (_ & _ & Q). exact (Q Hi). }
  split; [|exact N1]. apply not_started; [exact N1|discriminate].
Qed.
(* All bytes that are written belong to a request that was taken from the
   channel; a head follows at once after its request was taken *)
Lemma out_needs_head l : forall x, x_run x_client x_start l = Some x -> x_out x <> ONone -> exists e, In e l /\ is_LHead e = true.
Proof.
  assert (forall l x y, x_run x_client x l = Some y -> x_out y <> ONone -> x_out x <> ONone \/ exists e, In e l /\ is_LHead e = true) as A.
  { clear l. induction l as [|e l IH]; intros x y E Hy; cbn in E.
    - inversion E; subst. auto.
    - destruct (x_client x e) as [z|] eqn:Ez; [|discriminate]. destruct (IH z y E Hy) as [Hz|(e' & H1 & H2)].
      + destruct (is_LHead e) eqn:Eh; [right; exists e; split; [left; reflexivity|exact Eh]|]. left.
        destruct x as [i o k w ov]. destruct e; try discriminate; cbn in Ez;
          repeat match type of Ez with context [match ?v with _ => _ end] => destruct v eqn:?; try discriminate end; inversion Ez; subst; cbn in *; congruence.
      + right. exists e'. split; [right; exact H1|exact H2]. }
  intros x E Hx. destruct (A l _ _ E Hx) as [F|F]; [destruct (F eq_refl)|exact F].
Qed.
Theorem C36_bytes_have_owner : forall c h09 flat wmax evs ms a e b bs, client_cfg c ->
  history c h09 flat wmax evs ms = a ++ e :: b -> puts e = Some bs ->
  exists id, last_start None a = Some id /\ (is_LHead e = true -> exists a', a = a' ++ [LStart id]).
Proof.
  intros c h09 flat wmax evs ms a e b bs Hcc E Hp. pose proof (outcomes_ok c h09 flat wmax evs ms (proj1 Hcc)) as H.
  assert (forall a e b, history c h09 flat wmax evs ms = a ++ e :: b -> is_LHead e = true -> exists a' id, a = a' ++ [LStart id]) as Hh
    by exact (oi_head _ _ _ H).
  destruct (is_LHead e) eqn:Eh.
  - destruct (Hh a e b E Eh) as (a' & id & ->). exists id. rewrite last_start_app. split; [reflexivity|]. intros _. exists a'. reflexivity.
  - pose proof (C28_client c h09 flat wmax evs ms Hcc) as Ok. unfold client_ok in Ok. rewrite E, x_run_app in Ok.
    destruct (x_run x_client x_start a) as [x|] eqn:Ex; [|congruence]. cbn in Ok.
    assert (x_out x <> ONone) as Hx.
    { destruct x as [i o k w ov]. destruct e; try discriminate; cbn in Ok; [congruence|]. destruct o; cbn; congruence. }
    destruct (out_needs_head a x Ex Hx) as (e' & H1 & H2).
    apply in_split in H1. destruct H1 as (a1 & a2 & ->). rewrite <- app_assoc in E. cbn in E.
    destruct (Hh a1 e' _ E H2) as (a' & id & ->).
    destruct (last_start None ((a' ++ [LStart id]) ++ e' :: a2)) as [j|] eqn:Ej; [exists j; split; [reflexivity|discriminate]|].
    exfalso. rewrite !last_start_app in Ej. cbn in Ej.
    assert (forall l acc, acc <> None -> last_start acc l <> None) as Ls.
    { clear. induction l as [|e l IH]; intros acc Ha; [exact Ha|]. cbn. destruct e; try (apply IH; exact Ha). apply IH. discriminate. }
    destruct e'; revert Ej; apply Ls; discriminate.
Qed.

(* ------------------------------------------------------------------ *)
(* C38: the channel alone.  All that its two ends can do, in any order; the
   numbers of requests accepted and of times the receiver has asked. *)
Inductive cmove := CSender (s : smove) | CRecv (race : list smove) | CTry | CClose | CDropRx.
Definition cmake (ch : chan) (m : cmove) : chan :=
  match m with
  | CSender s => smake ch s
  | CRecv r => fst (ch_poll_recv r ch)
  | CTry => fst (ch_try_recv ch)
  | CClose => ch_close ch
  | CDropRx => fst (ch_drop_rx ch)
  end.
(* A poll that finds the channel empty is a request for more *)
Definition asks (ch : chan) (m : cmove) : nat :=
  match m with
  | CRecv r => match snd (ch_poll_recv r ch) with Pending => 1 | _ => 0 end
  | _ => 0
  end%nat.
Fixpoint crun (ch : chan) (asked : nat) (ms : list cmove) : chan * nat :=
  match ms with
  | [] => (ch, asked)
  | m :: r => crun (cmake ch m) (asked + asks ch m) r
  end.
Definition bit (b : bool) : nat := if b then 1%nat else 0%nat.
Definition accepted (ch : chan) : nat := (N.to_nat (ch_next ch) + bit (ch_given ch))%nat.

Definition chan_ok (asked : nat) (ch : chan) : Prop :=
  (accepted ch + bit (ch_want ch) <= asked + bit (ch_once ch))%nat /\
  (length (ch_queue ch) + bit (ch_given ch) + bit (ch_want ch || negb (ch_once ch)) <= 3)%nat /\
  (ch_given ch = true -> ch_once ch = true).
Lemma smake_queue ch s : (length (ch_queue (smake ch s)) + bit (ch_given (smake ch s)) + bit (ch_want (smake ch s) || negb (ch_once (smake ch s)))
   <= length (ch_queue ch) + bit (ch_given ch) + bit (ch_want ch || negb (ch_once ch)))%nat.
Proof.
  destruct ch as [q w o g t r n]. destruct s; cbn.
  - destruct t, g, w, o; cbn; lia.
  - destruct t, g; cbn; try lia. unfold ch_push. cbn. destruct r; cbn; rewrite ?app_length; cbn; destruct w, o; cbn; lia.
  - destruct g; cbn; lia.
Qed.
Lemma smake_asked asked ch s : (accepted ch + bit (ch_want ch) <= asked + bit (ch_once ch))%nat -> (ch_given ch = true -> ch_once ch = true) ->
  (accepted (smake ch s) + bit (ch_want (smake ch s)) <= asked + bit (ch_once (smake ch s)))%nat /\ (ch_given (smake ch s) = true -> ch_once (smake ch s) = true).
Proof.
  destruct ch as [q w o g t r n]. unfold accepted. cbn. intros H1 H2. destruct s; cbn.
  - destruct t, g, w, o; cbn in *; split; auto; try lia.
  - destruct t, g; cbn in *; try (split; [lia|auto]). unfold ch_push. cbn. destruct r; cbn; (split; [|discriminate]); rewrite (H2 eq_refl) in *; cbn in *; lia.
  - destruct g; cbn in *; split; auto; discriminate.
Qed.
Lemma race_queue r : forall ch, (length (ch_queue (fold_left smake r ch)) + bit (ch_given (fold_left smake r ch)) + bit (ch_want (fold_left smake r ch) || negb (ch_once (fold_left smake r ch)))
   <= length (ch_queue ch) + bit (ch_given ch) + bit (ch_want ch || negb (ch_once ch)))%nat.
Proof. induction r as [|s r IH]; intros ch; [cbn; lia|]. cbn [fold_left]. etransitivity; [apply IH|apply smake_queue]. Qed.
Lemma race_asked asked r : forall ch, (accepted ch + bit (ch_want ch) <= asked + bit (ch_once ch))%nat -> (ch_given ch = true -> ch_once ch = true) ->
  (accepted (fold_left smake r ch) + bit (ch_want (fold_left smake r ch)) <= asked + bit (ch_once (fold_left smake r ch)))%nat /\
  (ch_given (fold_left smake r ch) = true -> ch_once (fold_left smake r ch) = true).
Proof. induction r as [|s r IH]; intros ch H1 H2; [auto|]. cbn [fold_left]. destruct (smake_asked asked ch s H1 H2). now apply IH. Qed.
Lemma chan_ok_step asked ch m : chan_ok asked ch -> chan_ok (asked + asks ch m) (cmake ch m).
Proof.
  intros (H1 & H2 & H3). destruct m as [s|r| | |]; cbn [cmake asks].
  - rewrite Nat.add_0_r. destruct (smake_asked asked ch s H1 H3) as (A & B'). split; [exact A|]. split; [|exact B'].
    pose proof (smake_queue ch s). lia.
  - unfold ch_poll_recv. destruct (ch_queue ch) as [|id q] eqn:Eq.
    + destruct (ch_tx ch && ch_rx ch); cbn [fst snd].
      * destruct (race_asked asked r ch H1 H3) as (A & B'). pose proof (race_queue r ch) as C. rewrite Eq in C. cbn [length] in C.
        unfold chan_ok, accepted, ch_ask. cbn [ch_queue ch_want ch_once ch_given ch_next orb bit].
        unfold accepted in A. split; [lia|]. split; [|exact B'].
        assert (length (ch_queue (fold_left smake r ch)) + bit (ch_given (fold_left smake r ch)) <= 2)%nat; [|lia].
        assert (bit (ch_given ch) + bit (ch_want ch || negb (ch_once ch)) <= 2)%nat by (destruct (ch_given ch), (ch_want ch || negb (ch_once ch)); cbn; lia).
        lia.
      * rewrite Nat.add_0_r. split; [exact H1|]. split; [rewrite Eq; cbn; cbn in H2; lia|exact H3].
    + cbn [fst snd]. rewrite Nat.add_0_r. unfold chan_ok, accepted in *. cbn in *. split; [lia|]. split; [lia|exact H3].
  - rewrite Nat.add_0_r. unfold ch_try_recv. destruct (ch_queue ch) as [|id q] eqn:Eq; cbn [fst].
    + split; [exact H1|]. split; [rewrite Eq; exact H2|exact H3].
    + unfold chan_ok, accepted in *. cbn in *. split; [lia|]. split; [lia|exact H3].
  - rewrite Nat.add_0_r. unfold chan_ok, accepted in *. cbn in *. split; [lia|]. split; [|exact H3]. destruct (ch_want ch), (ch_once ch); cbn in *; lia.
  - rewrite Nat.add_0_r. unfold chan_ok, accepted in *. cbn in *. split; [lia|]. split; [|exact H3]. destruct (ch_given ch), (ch_want ch), (ch_once ch); cbn in *; lia.
Qed.
Lemma chan_ok_run ms : forall ch asked, chan_ok asked ch -> chan_ok (snd (crun ch asked ms)) (fst (crun ch asked ms)).
Proof. induction ms as [|m ms IH]; intros ch asked H; [exact H|]. cbn. apply IH, chan_ok_step, H. Qed.

(* At most one request is accepted that was not asked for, in all of the
   connection's life *)
Theorem C38_asked_for : forall ms, let (ch, asked) := crun ch_new 0 ms in
  (accepted ch <= asked + 1)%nat /\ (length (ch_queue ch) <= 3)%nat.
Proof.
  intros ms. assert (chan_ok 0 ch_new) as H by (unfold chan_ok; cbn; repeat split; auto; lia).
  pose proof (chan_ok_run ms ch_new 0%nat H) as (A & B' & C). destruct (crun ch_new 0 ms) as [ch asked]. cbn in *.
  split; [|lia]. destruct (ch_once ch); cbn in *; lia.
Qed.
(* When sends are not interrupted by polls, at most one request waits *)
Definition atomic (ms : list cmove) : Prop := Forall (fun m => match m with CRecv r => r = [] | _ => True end) ms.
Fixpoint sends (ms : list cmove) : list cmove :=
  match ms with
  | [] => []
  | CSender SGive :: r => CSender SGive :: CSender SPush :: sends r
  | CSender SPush :: r => sends r
  | m :: r => m :: sends r
  end.
Theorem C38_one_waiting : forall ms, atomic ms ->
  (length (ch_queue (fst (crun ch_new 0 (sends ms)))) <= 1)%nat.
Proof.
  assert (forall ms ch asked, atomic ms -> ch_given ch = false ->
    (length (ch_queue ch) + bit (ch_want ch || negb (ch_once ch)) <= 1)%nat -> (length (ch_queue (fst (crun ch asked (sends ms)))) <= 1)%nat) as A.
  { induction ms as [|m ms IH]; intros ch asked Ha Hg Hq; [cbn; lia|]. inversion Ha as [|m' ms' Hm Hms]; subst.
    destruct ch as [q w o g t r n]. cbn in Hg, Hq. subst g.
    destruct m as [[]|rc| | |]; cbn [sends crun].
    - apply IH; [exact Hms|..]; destruct t, w, o, r; cbn; auto; rewrite ?app_length; cbn in *; lia.
    - now apply IH.
    - apply IH; [exact Hms|..]; cbn; auto.
    - subst rc. apply IH; [exact Hms|..]; destruct q, t, r; cbn in *; auto; try lia.
    - apply IH; [exact Hms|..]; destruct q; cbn in *; auto; lia.
    - apply IH; [exact Hms|..]; destruct q, o, w; cbn in *; auto; lia.
    - apply IH; [exact Hms|..]; destruct q, o, w; cbn in *; auto; lia. }
  intros ms Ha. apply A; [exact Ha|reflexivity|cbn; lia].
Qed.
(* Finding: with polls in between, three can wait *)
Theorem C38_one_waiting_refuted : exists ms, length (ch_queue (fst (crun ch_new 0 ms))) = 3%nat.
Proof.
  exists [CSender SGive; CRecv []; CRecv [SPush; SGive; SPush]; CSender SGive; CSender SPush]. reflexivity.
Qed.
(* Once the receiver has closed the channel or is gone, no request is taken any more *)
Theorem C38_closed : forall ms m ms', m = CClose \/ m = CDropRx ->
  ch_next (fst (crun ch_new 0 (ms ++ m :: ms'))) = ch_next (fst (crun ch_new 0 ms)) /\
  (length (ch_queue (fst (crun ch_new 0 (ms ++ m :: ms')))) <= length (ch_queue (fst (crun ch_new 0 ms))))%nat.
Proof.
  assert (forall s ch, ch_rx ch = false -> ch_rx (smake ch s) = false /\ ch_next (smake ch s) = ch_next ch /\ ch_queue (smake ch s) = ch_queue ch) as S1.
  { intros s [q w o g t r n] H. cbn in H. subst r. destruct s; cbn; [destruct t, g, w, o; auto|destruct t, g; auto|destruct g; auto]. }
  assert (forall race ch, ch_rx ch = false -> ch_rx (fold_left smake race ch) = false /\ ch_next (fold_left smake race ch) = ch_next ch /\ ch_queue (fold_left smake race ch) = ch_queue ch) as S2.
  { induction race as [|s race IH]; intros ch H; [auto|]. cbn [fold_left]. destruct (S1 s ch H) as (A & B' & C). destruct (IH _ A) as (D & E & F). rewrite D, E, F. auto. }
  assert (forall m ch, ch_rx ch = false -> ch_rx (cmake ch m) = false /\ ch_next (cmake ch m) = ch_next ch /\ (length (ch_queue (cmake ch m)) <= length (ch_queue ch))%nat) as S3.
  { intros m ch H. destruct m as [s|r| | |]; cbn [cmake].
    - destruct (S1 s ch H) as (A & B' & C). rewrite C. auto.
    - unfold ch_poll_recv. destruct (ch_queue ch) as [|x q] eqn:Eq; [rewrite H, andb_false_r; cbn; rewrite Eq; auto|cbn; auto].
    - unfold ch_try_recv. destruct (ch_queue ch) as [|x q] eqn:Eq; cbn; rewrite ?Eq; cbn; auto.
    - cbn. auto.
    - cbn. repeat split; auto. lia. }
  assert (forall l ch n, ch_rx ch = false -> ch_next (fst (crun ch n l)) = ch_next ch /\ (length (ch_queue (fst (crun ch n l))) <= length (ch_queue ch))%nat) as S4.
  { induction l as [|m l IH]; intros ch n H; [auto|]. cbn [crun]. destruct (S3 m ch H) as (A & B' & C). destruct (IH (cmake ch m) (n + asks ch m)%nat A) as (D & E). split; [congruence|lia]. }
  assert (forall a b ch n, crun ch n (a ++ b) = crun (fst (crun ch n a)) (snd (crun ch n a)) b) as Ap.
  { induction a as [|m a IH]; intros b ch n; [reflexivity|]. cbn [app crun]. apply IH. }
  intros ms m ms' Hm. rewrite Ap. cbn [crun]. set (ch := fst (crun ch_new 0 ms)). set (n := snd (crun ch_new 0 ms)).
  assert (ch_rx (cmake ch m) = false /\ ch_next (cmake ch m) = ch_next ch /\ (length (ch_queue (cmake ch m)) <= length (ch_queue ch))%nat) as (A & B' & C) by (destruct Hm as [->| ->]; cbn; repeat split; auto; lia).
  destruct (S4 ms' (cmake ch m) (n + asks ch m)%nat A) as (D & E). split; [congruence|lia].
Qed.
Print Assumptions C38_closed.
Example C38_closed_ex : ch_next (fst (crun ch_new 0 ([CSender SGive; CSender SPush] ++ CClose :: [CSender SGive; CSender SPush]))) = 1.
Proof. reflexivity. Qed.
(* The bound holds for the channel of a client connection in every execution *)
Theorem C38_connection : forall c h09 flat wmax evs ms, c_server c = false ->
  (length (ch_queue (d_chan (after c h09 flat wmax evs ms))) <= 3)%nat.
Proof.
  intros c h09 flat wmax evs ms Hs.
  assert (stable c (fun _ => True) (fun _ => True) (fun d => exists n, chan_ok n (d_chan d))) as St.
  { assert (forall d e, (exists n, chan_ok n (d_chan d)) -> exists n, chan_ok n (d_chan (fst (recv_error c d e)))) as Re.
    { intros d e (n & H). unfold recv_error. rewrite Hs. destruct (d_callback d); [exists n; exact H|]. destruct (d_rx_closed d); [exists n; exact H|].
      pose proof (chan_ok_step _ _ CTry (chan_ok_step _ _ CClose H)) as Q. cbn [cmake] in Q.
      destruct (ch_try_recv (ch_close (d_chan d))) as [ch [id|]]; cbn [fst] in Q; eexists; exact Q. }
    assert (forall d, (exists n, chan_ok n (d_chan d)) -> exists n, chan_ok n (d_chan (d_drop d))) as Dr.
    { intros d (n & H). rewrite d_drop_eq. cbn [d_chan]. eexists. exact (chan_ok_step _ _ CDropRx H). }
    apply stable_intro; try (intros; assumption).
    - intros d H. repeat split; auto.
    - intros i d H _ _ Hp. unfold d_poll_read_head. rewrite Hp.
      destruct (k_poll_read_head c _ _ _) as [k [|[[m|e]|]]]; try exact H.
      + match goal with |- context [recv_ok c ?dd m] => assert (d_chan dd = d_chan d) as E; [|remember dd as d1 eqn:E1; clear E1] end.
        { destruct (in_decode m =? DL_ZERO), (in_upgrade m), (d_body_tx (dset_conn d k)); reflexivity. }
        unfold recv_ok. rewrite Hs. destruct (d_callback d1); cbn; rewrite E; exact H.
      + pose proof (Re (dset_conn d k) e H) as Q. destruct (recv_error c (dset_conn d k) e) as [d' []]; exact Q.
      + cbn [fst]. destruct (is_write_closed _); exact H.
    - intros i d _ (n & H) _ _ _. unfold d_poll_msg. rewrite Hs. pose proof (chan_ok_step _ _ (CRecv (i_race i)) H) as Q. cbn [cmake] in Q.
      destruct (ch_poll_recv (i_race i) (d_chan d)) as [ch [|[id|]]]; cbn [fst] in Q; try (eexists; exact Q).
      destruct (i_canceled i); [eexists; exact Q|]. destruct (i_req i). eexists; exact Q.
    - exact Re.
    - exact Dr.
    - intros e d H. destruct e as [s| | |]; cbn.
      + rewrite Hs. destruct H as (n & H). eexists. exact (chan_ok_step _ _ (CSender s) H).
      + rewrite Hs. destruct (d_pc d); exact H.
      + destruct (d_pc d); try exact H. now apply Dr.
      + rewrite Hs. destruct (d_pc d), (k_log (d_conn d)); exact H. }
  assert (exists n, chan_ok n (d_chan (after c h09 flat wmax evs ms))) as (n & _ & H & _).
  { unfold after. apply (Inv_run c _ _ St (fun _ => I)). exists 0%nat. unfold chan_ok. cbn. repeat split; auto; lia. }
  lia.
Qed.

(* Two requests: the first gets its response, which says that the connection
   ends; the second waits in the channel and is handed back *)
Definition two_requests : list move :=
  Env (ESender SGive) :: steps 5 (ask get) ++
  Env (ESender SPush) :: Env (ESender SGive) :: Env (ESender SPush) :: steps 60 (ask get).
Definition last_response : list event := EvPending :: EvPending :: EvPending :: EvPending :: EvData (line (B "HTTP/1.1 204 No")) :: repeat EvPending 20.
Example C35_ex : let c := ex_cfg false false None in let d := after c false true 8192 last_response two_requests in
  client_cfg c /\ d_pc d = PDead /\ ch_next (d_chan d) = 2 /\
  (exists a m b, history c false true 8192 last_response two_requests = a ++ LOutcome 0 (OResp m) :: b) /\
  written_for 0 None (history c false true 8192 last_response two_requests) <> [].
Proof.
  cbv zeta. split; [apply ex_client|]. split; [vm_compute; reflexivity|]. split; [vm_compute; reflexivity|]. split.
  - eexists (_ :: _ :: _ :: _ :: _ :: _ :: []), _, _. vm_compute. reflexivity.
  - vm_compute. discriminate.
Qed.
Example C36_ex : let c := ex_cfg false false None in
  In (LOutcome 1 OReturned) (history c false true 8192 last_response two_requests) /\
  exists a e b bs, history c false true 8192 last_response two_requests = a ++ e :: b /\ puts e = Some bs.
Proof.
  split; [vm_compute; repeat (try (left; reflexivity); right)|].
  eexists [_], _, _, _. split; [vm_compute; reflexivity|]. cbn. reflexivity.
Qed.
Example C38_ex : let (ch, asked) := crun ch_new 0 [CSender SGive; CRecv []; CSender SPush; CSender SGive; CSender SPush] in
  accepted ch = (asked + 1)%nat /\ length (ch_queue ch) = 2%nat.
Proof. split; reflexivity. Qed.

Print Assumptions C35_one_outcome.
Print Assumptions C35_all_answered.
Print Assumptions C35_right_request.
Print Assumptions C36_returned_unsent.
Print Assumptions C36_bytes_have_owner.
Print Assumptions C38_asked_for.
Print Assumptions C38_one_waiting.
Print Assumptions C38_one_waiting_refuted.
Print Assumptions C38_connection.
