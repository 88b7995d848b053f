(* C37, C39 on the connection's side: when the body that the application
   receives ends, and how. *)
From Verif Require Import Base M_Src M_Decode M_HeaderMap M_Headers M_Encode M_Role M_RoleEncode M_Buf M_WriteBuf M_Read M_Conn M_Dispatch S_Conn L_Conn L_Moves L_ConnS L_Ka L_Exch P_Conn P_Requests L_BodyTx.

(* ---- Specification ---- *)
(* The last message with a body has been received up to its end *)
Definition received_whole (l : list levent) : Prop :=
  exists a m b c, l = a ++ LIn m :: b ++ LInEnd :: c /\ in_decode m <> 0 /\
    (forall m', ~ In (LIn m') b) /\ (forall m', In (LIn m') c -> in_decode m' = 0).
(* A body begins *)
Definition starts_body (e : levent) : bool := match e with LIn m => negb (in_decode m =? 0) | _ => false end.
Definition ends_body (e : levent) : bool := match e with LBodyEnd | LBodyFail => true | _ => false end.
(* The application keeps the bodies it was given, and takes what is sent *)
Definition bodies_kept (ms : list move) : Prop := Forall stays_move ms.

(* ---- Lemmas ---- *)
Definition open_body (l : list levent) : Prop := exists a m b, l = a ++ LIn m :: b /\ in_decode m <> 0 /\ forall m', ~ In (LIn m') b.
Definition end_ok (a : list levent) : Prop :=
  received_whole a \/ exists a0 m, a = a0 ++ [LIn m] /\ in_decode m <> 0 /\ received_whole a0.
Record BI (s : bst) : Prop := mkBI {
  bi_open : can_read_body (fst (fst s)) = true -> open_body (k_log (fst (fst s)));
  bi_tx : snd (fst s) = true -> snd s = true \/ can_read_body (fst (fst s)) = true \/ received_whole (k_log (fst (fst s)));
  bi_ends : forall a b, k_log (fst (fst s)) = a ++ LBodyEnd :: b -> end_ok a
}.
Lemma tquiet_in l m : forallb tquiet l = true -> ~ In (LIn m) l.
Proof. intros H Hi. rewrite forallb_forall in H. specialize (H _ Hi). discriminate H. Qed.
Lemma open_quiet l q : open_body l -> forallb tquiet q = true -> open_body (l ++ q).
Proof. intros (a & m & b & -> & Hm & Hb) Hq. exists a, m, (b ++ q). rewrite <- app_assoc. split; [reflexivity|]. split; [exact Hm|]. intros m' Hi. apply in_app_or in Hi. destruct Hi as [Hi|Hi]; [now apply (Hb m')|]. exact (tquiet_in _ _ Hq Hi). Qed.
Lemma whole_app l q : received_whole l -> (forall m, In (LIn m) q -> in_decode m = 0) -> received_whole (l ++ q).
Proof.
  intros (a & m & b & c & -> & Hm & Hb & Hc) Hq. exists a, m, b, (c ++ q). split; [rewrite <- app_assoc; cbn; rewrite <- app_assoc; reflexivity|]. split; [exact Hm|]. split; [exact Hb|].
  intros m' Hi. apply in_app_or in Hi. destruct Hi as [Hi|Hi]; auto.
Qed.
Lemma whole_quiet l q : received_whole l -> forallb tquiet q = true -> received_whole (l ++ q).
Proof. intros H Hq. apply whole_app; [exact H|]. intros m Hi. destruct (tquiet_in _ _ Hq Hi). Qed.
Lemma open_whole l q : open_body l -> forallb tquiet q = true -> In LInEnd q -> received_whole (l ++ q).
Proof.
  intros (a & m & b & -> & Hm & Hb) Hq Hi. apply in_split in Hi. destruct Hi as (q1 & q2 & ->). exists a, m, (b ++ q1), q2.
  split; [rewrite <- !app_assoc; cbn [app]; rewrite <- ?app_assoc; reflexivity|]. split; [exact Hm|]. rewrite forallb_app in Hq. apply andb_prop in Hq. destruct Hq as (Q1 & Q2).
  split; [intros m' Hi; apply in_app_or in Hi; destruct Hi as [Hi|Hi]; [now apply (Hb m')|exact (tquiet_in _ _ Q1 Hi)]|]. intros m' Hi. destruct (tquiet_in _ m' Q2). right. exact Hi.
Qed.
(* Ends in a longer log *)
Lemma ends_app l q : (forall a b, l = a ++ LBodyEnd :: b -> end_ok a) -> (forall a b, q = a ++ LBodyEnd :: b -> end_ok (l ++ a)) ->
  forall a b, l ++ q = a ++ LBodyEnd :: b -> end_ok a.
Proof. intros H1 H2 a b E. apply app_cons_split in E. destruct E as [(b' & E & _)|(a' & -> & E)]; eauto. Qed.
Lemma ends_quiet l q : (forall a b, l = a ++ LBodyEnd :: b -> end_ok a) -> forallb tquiet q = true -> forall a b, l ++ q = a ++ LBodyEnd :: b -> end_ok a.
Proof. intros H Hq. apply ends_app; [exact H|]. intros a b ->. rewrite forallb_app in Hq. apply andb_prop in Hq. destruct Hq as (_ & Hq). discriminate Hq. Qed.
Lemma split_one {T} (x e : T) a b : [x] = a ++ e :: b -> a = [] /\ x = e.
Proof. destruct a as [|y a]; cbn; intros E; inversion E; auto. destruct a; discriminate. Qed.
Lemma BI_step st s s' : bm st s s' -> BI s -> BI s'.
Proof.
  intros H [O T E]. destruct H as [k k' tx cl (l & Hl & Hq & Hr)|k k' cl l Hl Hq Hr|k k' tx cl Hl Hr|k k' tx m Hk Hm Hl Hr|k k' tx m Hk Hm Hl Hr|k k' cl l Hk Hl Hq Hr|k k' cl l Hk Hl Hq Hi Hr|k Hk|k k' cl l Hl Hq Hr|k k' cl l Hst Hl Hq Hr];
    cbn [fst snd] in *; constructor; cbn [fst snd].
  - rewrite Hr, Hl. intros Q. apply open_quiet; auto.
  - rewrite Hr, Hl. intros Q. destruct (T Q) as [?|[?|?]]; auto. right. right. now apply whole_quiet.
  - rewrite Hl. now apply ends_quiet.
  - rewrite Hl. intros Q. apply open_quiet; auto.
  - discriminate.
  - rewrite Hl. now apply ends_quiet.
  - rewrite Hr. discriminate.
  - auto.
  - rewrite Hl. exact E.
  - rewrite Hr. discriminate.
  - intros Q. destruct (T Q) as [F|[F|F]]; [discriminate F|congruence|]. right. right. rewrite Hl. apply whole_app; [exact F|]. intros m' [Hi|[Hi|[]]]; [injection Hi as <-; exact Hm|discriminate Hi].
  - rewrite Hl. apply ends_app; [exact E|]. intros a b Q. destruct a as [|x a]; [discriminate Q|]. injection Q as _ Q. apply split_one in Q. destruct Q as (_ & Q). discriminate Q.
  - intros _. rewrite Hl. exists (k_log k), m, (if tx then [LBodyEnd] else []). split; [reflexivity|]. split; [exact Hm|]. intros m'. destruct tx; [intros [F|[]]; discriminate F|intros []].
  - auto.
  - rewrite Hl. apply ends_app; [exact E|]. intros a b Q. destruct tx; [|destruct a as [|x a]; [discriminate Q|injection Q as _ Q; destruct a; discriminate Q]].
    destruct a as [|x a]; [discriminate Q|]. injection Q as <- Q. apply split_one in Q. destruct Q as (-> & _). right. exists (k_log k), m. split; [reflexivity|]. split; [exact Hm|].
    destruct (T eq_refl) as [F|[F|F]]; [discriminate F|congruence|exact F].
  - intros Q. rewrite Hl. apply open_quiet; auto.
  - intros _. right. destruct Hr as [Hr|Hr]; [left; exact Hr|right]. rewrite Hl. apply open_whole; auto.
  - rewrite Hl. now apply ends_quiet.
  - rewrite Hr. discriminate.
  - discriminate.
  - rewrite Hl, app_assoc. apply ends_app; [apply ends_quiet; auto|]. intros a b Q. apply split_one in Q. destruct Q as (-> & _). left. rewrite app_nil_r. apply open_whole; auto.
  - unfold can_read_body in *. cbn in *. rewrite Hk. discriminate.
  - discriminate.
  - cbn. apply ends_app; [exact E|]. intros a b Q. apply split_one in Q. destruct Q as (-> & _). left. rewrite app_nil_r. destruct (T eq_refl) as [F|[F|F]]; [discriminate F|congruence|exact F].
  - rewrite Hl, app_assoc. intros Q. destruct (O (Hr Q)) as (a & m & b & Ea & Hm & Hb). rewrite Ea. exists a, m, (b ++ l ++ [LBodyFail]). rewrite <- !app_assoc. split; [reflexivity|]. split; [exact Hm|].
    intros m' Hi. rewrite !in_app_iff in Hi. destruct Hi as [Hi|[Hi|[Hi|[]]]]; [now apply (Hb m')|exact (tquiet_in _ _ Hq Hi)|discriminate Hi].
  - discriminate.
  - rewrite Hl, app_assoc. apply ends_app; [apply ends_quiet; auto|]. intros a b Q. apply split_one in Q. destruct Q as (_ & Q). discriminate Q.
  - rewrite Hr. discriminate.
  - discriminate.
  - rewrite Hl. now apply ends_quiet.
Qed.
Lemma BI_steps st s s' : bms st s s' -> BI s -> BI s'.
Proof. induction 1; intros HB; [exact HB|]. apply IHbms. eapply BI_step; eassumption. Qed.
Lemma BI_start h09 flat wmax evs : BI (tri (start h09 flat wmax evs)).
Proof. constructor; cbn; try discriminate. intros [|? ?] b E; discriminate E. Qed.

(* C37: a clean end means that the message was received whole (LBodyEnd may come
   together with the next message that has a body) *)
Theorem C37_end_means_complete : forall c h09 flat wmax evs ms a b,
  history c h09 flat wmax evs ms = a ++ LBodyEnd :: b ->
  received_whole a \/ exists a0 m, a = a0 ++ [LIn m] /\ in_decode m <> 0 /\ received_whole a0.
Proof.
  intros c h09 flat wmax evs ms a b E.
  pose proof (BI_steps false _ _ (bms_run false c ms (start h09 flat wmax evs) (fun F => False_rect _ (Bool.diff_false_true F))) (BI_start h09 flat wmax evs)) as B'.
  exact (bi_ends _ B' a b E).
Qed.

(* Every body ends, once *)
Definition starts (l : list levent) : nat := count starts_body l.
Definition ends (l : list levent) : nat := count ends_body l.
Lemma tquiet_starts l : forallb tquiet l = true -> starts l = 0%nat /\ ends l = 0%nat.
Proof.
  induction l as [|e l IH]; cbn [forallb]; [auto|]. intros H. apply andb_prop in H. destruct H as (H1 & H2). destruct (IH H2) as (A & B'). unfold starts, ends in *.
  rewrite !count_cons. destruct e; try discriminate H1; cbn; auto.
Qed.
Definition NI (s : bst) : Prop :=
  starts (k_log (fst (fst s))) = (ends (k_log (fst (fst s))) + (if snd (fst s) then 1 else 0))%nat.
Lemma NI_step s s' : bm true s s' -> NI s -> NI s'.
Proof.
  unfold NI, starts, ends. intros H N. destruct H as [k k' tx cl (l & Hl & Hq & Hr)|k k' cl l Hl Hq Hr|k k' tx cl Hl Hr|k k' tx m Hk Hm Hl Hr|k k' tx m Hk Hm Hl Hr|k k' cl l Hk Hl Hq Hr|k k' cl l Hk Hl Hq Hi Hr|k Hk|k k' cl l Hl Hq Hr|k k' cl l Hst Hl Hq Hr];
    cbn [fst snd] in *; try discriminate Hst; try (destruct (tquiet_starts _ Hq) as (A & B'); unfold starts, ends in A, B'); rewrite ?Hl; cbn [log k_log]; rewrite ?count_app, ?count_cons; try rewrite A; try rewrite B'; cbn [starts_body ends_body].
  all: try (unfold count in *; cbn; lia).
  - rewrite Hm. unfold count in *. cbn. destruct tx; lia.
  - apply N.eqb_neq in Hm. rewrite Hm. destruct tx; unfold count in *; cbn; lia.
Qed.
Lemma NI_steps s s' : bms true s s' -> NI s -> NI s'.
Proof. induction 1; intros N; [exact N|]. apply IHbms. eapply NI_step; eassumption. Qed.
(* A finished connection holds no body *)
Definition let_go (d : disp) : Prop := d_pc d = PDead -> d_body_tx d = false.
Lemma go_drop d : let_go (d_drop d).
Proof. intros _. rewrite d_drop_eq. reflexivity. Qed.
Lemma go_fail c d e : let_go (d_fail c d e).
Proof. unfold d_fail. destruct (recv_error c _ e). apply go_drop. Qed.
Lemma go_live d p : p <> PDead -> let_go (dset_pc d p).
Proof. intros H F. destruct (H F). Qed.
Lemma go_keeps d p : d_pc d = p -> p <> PDead -> let_go d.
Proof. intros E H F. congruence. Qed.
Lemma go_dstep c i d : let_go d -> let_go (dstep c i d).
Proof.
  intros H. unfold dstep. destruct (d_pc d) eqn:Ep.
  - now apply go_live.
  - pose proof (poll_read_pc c i d) as E. destruct (poll_read_it c i d) as [d' [|[|[u|e]]]]; cbn [fst] in E;
      [apply (go_keeps d' (PRead n)); [congruence|discriminate]|now apply go_live|now apply go_live|apply go_fail].
  - pose proof (poll_write_pc c i d) as E. destruct (poll_write_it c i d) as [d' [|[|[u|e]]]]; cbn [fst] in E;
      [apply (go_keeps d' (PWrite n)); [congruence|discriminate]|now apply go_live|now apply go_live|apply go_fail].
  - destruct (d_flush c i d) as [d' [|[u|e]]]; [| |apply go_fail]; destruct (wants_read_again (d_conn d')) as [k [|]]; apply go_live;
      try apply next_round_live; match goal with |- (if ?b then _ else _) <> _ => destruct b end; discriminate.
  - pose proof (poll_write_pc c i d) as E. destruct (poll_write_it c i d) as [d' [|[|[u|e]]]]; cbn [fst] in E;
      [apply (go_keeps d' (PWrite2 n)); [congruence|discriminate]| | |apply go_fail]; apply go_live.
    + destruct (has_buffered_write _); discriminate.
    + apply next_round_live.
  - destruct (d_flush c i d) as [d' [|[u|e]]]; [now apply go_live|now apply go_live|apply go_fail].
  - destruct (d_is_done c d); [|now apply go_live]. destruct (pending_upgrade (d_conn d)) as [k [|]].
    + destruct (take_error _) as [k' [u|e]]; [apply go_drop|apply go_fail].
    + destruct (wb_flush _ _ _ _) as [[[w evs'] sent] [|[u|e]]]; [now apply go_live| |apply go_fail].
      destruct (i_shutdown i) as [|[u'|e']]; [now apply go_live| |apply go_fail].
      destruct (take_error _) as [k' [u2|e2]]; [apply go_drop|apply go_fail].
  - exact H.
Qed.
Lemma go_estep c e d : let_go d -> let_go (estep c e d).
Proof.
  intros H. destruct e as [s| | |]; cbn.
  - destruct (c_server c); exact H.
  - destruct (d_pc d) eqn:Ep; try exact H. destruct (c_server c); [|exact H]. unfold d_graceful. destruct (_ || _); apply (go_keeps _ PIdle); try discriminate; cbn; auto.
  - destruct (d_pc d); try exact H. apply go_drop.
  - destruct (d_pc d) eqn:Ep, (k_log (d_conn d)); try exact H. destruct (c_server c); [|exact H]. apply (go_keeps _ PIdle); try discriminate; cbn; auto.
Qed.
Lemma go_run c ms : forall d, let_go d -> let_go (run c ms d).
Proof. induction ms as [|[i|e] ms IH]; intros d H; [exact H|..]; cbn; apply IH; [now apply go_dstep|now apply go_estep]. Qed.

(* C37: at any time, each body that the application was given has been ended
   once, with a clean end or an error, except the one that is being received; when
   the connection is over there is no exception *)
Theorem C37_every_body_ends : forall c h09 flat wmax evs ms, bodies_kept ms ->
  let l := history c h09 flat wmax evs ms in
  let d := after c h09 flat wmax evs ms in
  (count ends_body l <= count starts_body l <= count ends_body l + 1)%nat /\
  (d_pc d = PDead -> count starts_body l = count ends_body l).
Proof.
  intros c h09 flat wmax evs ms Hk l d.
  assert (NI (tri d)) as N by (apply (NI_steps _ _ (bms_run true c ms (start h09 flat wmax evs) (fun _ => Hk))); reflexivity).
  unfold NI, starts, ends in N. cbn [tri fst snd] in N. fold d in N. change (k_log (d_conn d)) with l in N. split; [destruct (d_body_tx d); lia|].
  intros Hp. assert (d_body_tx d = false) as Q by (apply (go_run c ms (start h09 flat wmax evs)); [intros F; discriminate F|exact Hp]). rewrite Q in N. lia.
Qed.

(* C39: while the application is not ready for more, the connection reads no
   body data *)
Definition reads_data (e : levent) : bool := match e with LInData _ | LInTrailers _ | LWant | LContinue => true | _ => false end.
Definition nd (k k' : conn) : Prop := exists l, k_log k' = k_log k ++ l /\ forallb (fun e => negb (reads_data e)) l = true.
Lemma nd_same k k' : k_log k' = k_log k -> nd k k'.
Proof. intros H. exists []. rewrite app_nil_r. auto. Qed.
Lemma nd_trans k k' k'' : nd k k' -> nd k' k'' -> nd k k''.
Proof. intros (a & A1 & A2) (b & B1 & B2). exists (a ++ b). rewrite B1, A1, app_assoc, forallb_app, A2, B2. auto. Qed.
Lemma nd_log k l : forallb (fun e => negb (reads_data e)) l = true -> nd k (log k l).
Proof. intros H. exists l. auto. Qed.
Ltac nsame := apply nd_same; reflexivity.
Lemma nd_try c blk k : nd k (try_keep_alive c blk k).
Proof.
  unfold try_keep_alive. eapply nd_trans with (k' := st_try_keep_alive c k).
  - unfold st_try_keep_alive, idle. destruct (k_reading k); try nsame; destruct (k_writing k); try nsame. destruct (k_ka k); try nsame. destruct (c_server c), (c_timeout c); nsame.
  - generalize (st_try_keep_alive c k). clear. intros k. unfold maybe_notify. destruct (k_reading k); try nsame. pose proof (read_io_same k) as (H1 & _).
    destruct (k_writing k); try nsame; (destruct blk; [nsame|]; destruct (r_buf (k_rd k)); [|nsame]; destruct (read_io k) as [k' [|[n|e]]]; cbn [fst] in *; [now apply nd_same| |now apply nd_same]; destruct (n =? 0); [destruct (is_idle k')|]; now apply nd_same).
Qed.
Lemma nd_flush c blk wevs k : nd k (fst (k_poll_flush c blk wevs k)).
Proof.
  unfold k_poll_flush. destruct (wb_flush _ _ _ _) as [[[w ev] sent] r].
  assert (nd k (log (set_wb k w) (match sent with [] => [] | _ => [LSent sent] end))) as H1.
  { destruct sent as [|x sent]; (eapply nd_trans; [|apply nd_log; reflexivity]); nsame. }
  destruct r as [|[u|e]]; cbn [fst]; [exact H1|eapply nd_trans; [exact H1|apply nd_try]|exact H1].
Qed.
Lemma nd_effect k k' : body_effect k k' -> nd k k'.
Proof.
  intros [->|(e & l & w' & Ew & Er & El & Ew' & Ek & F)]; [nsame|]. exists l. split; [exact El|].
  destruct F as [(bs & -> & _)|[[Hl _]|[Hl _]]]; [reflexivity|..]; destruct Hl as [->|(bs & ->)]; reflexivity.
Qed.
Lemma nd_write_head c auto k h body : nd k (write_head c auto k h body).
Proof.
  unfold write_head, encode_head. set (k0 := if c_server c then k else _).
  assert (k_log k0 = k_log k) as H0.
  { subst k0. unfold busy. destruct (c_server c); [reflexivity|]. match goal with |- context [if ?b then _ else _] => destruct b end; destruct (k_ka k) eqn:Ek; reflexivity. }
  clearbody k0. pose proof (enforce_frame k0 h) as Q. destruct (enforce_version k0 h) as [k1 h1]. destruct Q as (Q & _).
  destruct (t_encode c k1 h1 body) as [[out m] [e|e]].
  - exists (LHead auto h1 out :: (if enc_is_eof e then [LEnd] else [])). cbn. rewrite Q, H0, <- app_assoc. split; [reflexivity|]. destruct (enc_is_eof e); reflexivity.
  - exists [LHeadFail out]. cbn. rewrite Q, H0. auto.
Qed.
Lemma nd_read_head c now blk k : nd k (fst (k_poll_read_head c now blk k)).
Proof.
  unfold k_poll_read_head.
  assert (k_log (start_timer c now k) = k_log k) as H0 by (unfold start_timer; destruct (k_running k); [reflexivity|]; destruct (c_timeout c); reflexivity).
  remember (start_timer c now k) as k0 eqn:E0. clear E0. apply nd_trans with (k' := k0); [now apply nd_same|].
  destruct (io_parse _ _ (k_rd k0)) as [rd [|[m|e]]].
  - cbn [k_running k_timer set_rd]. destruct (k_running k0); [|nsame]. destruct (k_timer k0) as [t|]; [|nsame]. destruct (t <=? now); nsame.
  - cbn [fst]. unfold got_head. set (k1 := log _ [LIn m]).
    assert (nd k0 k1) as H1.
    { subst k1. exists [LIn m]. unfold busy. destruct (c_server c), (in_keep m), (k_ka k0) eqn:Ek; cbn; rewrite ?Ek; auto. }
    clearbody k1. eapply nd_trans; [exact H1|]. destruct (in_decode m =? DL_ZERO).
    + destruct (c_server c); [exists [LInEnd]; auto|]. eapply nd_trans; [|nsame]. eapply nd_trans; [|apply nd_try]. exists [LInEnd]; auto.
    + destruct (_ && _); nsame.
  - destruct (parse_failure e) as [e' n]. unfold on_read_head_error. destruct (_ || _); [|nsame].
    unfold on_parse_error. destruct (k_writing _); try nsame. destruct (has_h2_prefix _); [nsame|]. destruct (t_on_error c e'); cbn [fst]; [|nsame]. eapply nd_trans; [|nsame]. eapply nd_trans; [|apply nd_write_head]. nsame.
Qed.
Definition ndd (d d' : disp) : Prop := nd (d_conn d) (d_conn d').
Lemma ndd_fail c d e : ndd d (d_fail c d e).
Proof.
  unfold d_fail, ndd. set (d1 := if d_body_tx d then _ else d).
  assert (nd (d_conn d) (d_conn d1)) as H1 by (subst d1; destruct (d_body_tx d); [apply nd_log; reflexivity|nsame]).
  assert (nd (d_conn d1) (d_conn (fst (recv_error c d1 e)))) as H2.
  { unfold recv_error. destruct (c_server c); [nsame|]. destruct (d_callback d1); [apply nd_log; reflexivity|]. destruct (d_rx_closed d1); [nsame|]. destruct (ch_try_recv _) as [ch [id|]]; [apply nd_log; reflexivity|nsame]. }
  clearbody d1. destruct (recv_error c d1 e) as [d2 b]. cbn [fst] in H2. eapply nd_trans; [exact H1|]. eapply nd_trans; [exact H2|].
  unfold d_complete. rewrite d_drop_eq. cbn [d_conn]. eapply nd_trans; [apply (nd_log (d_conn d2) [LReturn (if b then Some e else None)]); reflexivity|]. apply nd_log.
  unfold drop_events. rewrite !forallb_app. assert (forall l, forallb (fun e => negb (reads_data e)) (map (fun id => LOutcome id OReturned) l) = true) as -> by (induction l; auto). destruct (d_body_tx _), (d_callback _); reflexivity.
Qed.
Lemma ndd_complete d r : ndd d (d_complete d r).
Proof.
  unfold d_complete, ndd. rewrite d_drop_eq. cbn [d_conn]. eapply nd_trans; [apply (nd_log (d_conn d) [LReturn r]); reflexivity|]. apply nd_log.
  unfold drop_events. rewrite !forallb_app. assert (forall l, forallb (fun e => negb (reads_data e)) (map (fun id => LOutcome id OReturned) l) = true) as -> by (induction l; auto). destruct (d_body_tx _), (d_callback _); reflexivity.
Qed.
Lemma ndd_flush c i d : ndd d (fst (d_flush c i d)).
Proof. unfold d_flush, ndd. pose proof (nd_flush c (i_blk i) (i_wevs i) (d_conn d)) as H. destruct (k_poll_flush c _ _ _). exact H. Qed.
Lemma ndd_end c i d : ndd d (fst (end_body_it c i d)).
Proof. unfold end_body_it, ndd. pose proof (nd_effect _ _ (end_body_effect (i_room i) (d_conn d))) as H. destruct (k_end_body (i_room i) (d_conn d)) as [k [u|e]]; exact H. Qed.
Lemma ndd_write c i d : ndd d (fst (poll_write_it c i d)).
Proof.
  unfold poll_write_it. destruct (d_closing d); [nsame|]. destruct (negb (d_body_rx d) && _ && _).
  - assert (ndd d (fst (d_poll_msg c i d))) as H1.
    { unfold d_poll_msg. destruct (c_server c); [destruct (i_msg i) as [|[m|u]]; nsame|]. destruct (ch_poll_recv (i_race i) (d_chan d)) as [ch [|[id|]]]; try nsame. destruct (i_canceled i); apply nd_log; reflexivity. }
    destruct (d_poll_msg c i d) as [d' [|[[[h body]|u]|]]]; cbn [fst] in *; try exact H1.
    eapply nd_trans; [exact H1|]. apply nd_write_head.
  - destruct (negb (can_buffer_body c (d_conn d))).
    + pose proof (ndd_flush c i d) as H1. destruct (d_flush c i d) as [d' [|[u|e]]]; exact H1.
    + destruct (d_body_rx d).
      * destruct (negb (k_can_write_body (d_conn d))); [nsame|]. destruct (i_frame i) as [|[[[b|t|]|u]|]]; try nsame.
        -- destruct (i_eos i); destruct (brem b =? 0); try nsame; try apply (ndd_end c i (dset_body_rx d false)).
           ++ apply nd_effect, write_body_and_end_effect.
           ++ apply nd_effect, write_body_effect.
        -- apply nd_effect, write_trailers_effect.
        -- apply (ndd_end c i (dset_body_rx d false)).
      * destruct (k_can_write_body (d_conn d)); [apply ndd_end|nsame].
Qed.
Lemma ndd_read c i d : i_body i = BPending -> ndd d (fst (poll_read_it c i d)).
Proof.
  intros Hi. unfold poll_read_it. destruct (d_closing d); [nsame|]. destruct (can_read_head c (d_conn d)).
  - unfold d_poll_read_head. destruct (d_poll_ready c i d) as [|[u|u]]; [nsame| |nsame].
    pose proof (nd_read_head c (i_now i) (i_blk i) (d_conn d)) as H. destruct (k_poll_read_head c _ _ _) as [k r]. cbn [fst] in H. destruct r as [|[[m|e]|]].
    + exact H.
    + match goal with |- context [recv_ok c ?x m] => set (d1 := x) end.
      assert (nd k (d_conn d1)) as H1. { subst d1. destruct (in_decode m =? DL_ZERO), (in_upgrade m); cbn [d_body_tx dset_conn]; try nsame; destruct (d_body_tx d); try nsame; (eapply nd_trans; [apply (nd_log k [LBodyEnd]); reflexivity|nsame]). }
      assert (nd (d_conn d) (d_conn d1)) as H2 by (eapply nd_trans; eassumption). clearbody d1. unfold recv_ok. destruct (c_server c); [exact H2|]. destruct (d_callback d1); [|exact H2]. eapply nd_trans; [exact H2|apply nd_log; reflexivity].
    + set (d1 := dset_conn d k). assert (nd (d_conn d1) (d_conn (fst (recv_error c d1 e)))) as H2.
      { unfold recv_error. destruct (c_server c); [nsame|]. destruct (d_callback d1); [apply nd_log; reflexivity|]. destruct (d_rx_closed d1); [nsame|]. destruct (ch_try_recv _) as [ch [id|]]; [apply nd_log; reflexivity|nsame]. }
      assert (nd (d_conn d) (d_conn (fst (recv_error c d1 e)))) as H3 by (eapply nd_trans; [exact H|exact H2]). destruct (recv_error c d1 e) as [d2 [|]]; cbn [fst] in *; [exact H3|]. eapply nd_trans; [exact H3|nsame].
    + cbn [fst]. destruct (is_write_closed _); [|exact H]. eapply nd_trans; [exact H|nsame].
  - destruct (d_body_tx d).
    + destruct (can_read_body (d_conn d)); [rewrite Hi; nsame|]. apply nd_log. reflexivity.
    + assert (nd (d_conn d) (fst (k_poll_read_keep_alive c (d_conn d)))) as H.
      { generalize (d_conn d). clear. intros k. unfold k_poll_read_keep_alive, mid_message_detect_eof, require_empty_read, force_io_read. pose proof (read_io_same k) as (H1 & _).
        destruct (is_read_closed k); [nsame|]. destruct (is_mid_message k).
        - destruct (_ || _); [nsame|]. destruct (read_io k) as [k' [|[n|e]]]; cbn [fst] in *; [now apply nd_same| |now apply nd_same]. destruct (n =? 0); now apply nd_same.
        - destruct (r_buf (k_rd k)); [|nsame]. destruct (read_io k) as [k' [|[n|e]]]; cbn [fst] in *; [now apply nd_same| |now apply nd_same]. destruct (n =? 0); now apply nd_same. }
      destruct (k_poll_read_keep_alive c (d_conn d)); exact H.
Qed.
Theorem C39_holds_back : forall c d i, i_body i = BPending ->
  exists l, k_log (d_conn (dstep c i d)) = k_log (d_conn d) ++ l /\ forall e, In e l -> reads_data e = false.
Proof.
  intros c d i Hi. assert (ndd d (dstep c i d)) as (l & A & B').
  2:{ exists l. split; [exact A|]. intros e He. rewrite forallb_forall in B'. specialize (B' e He). now apply negb_true_iff. }
  unfold dstep. destruct (d_pc d) as [|n|n|n wr|n| | |].
  - nsame.
  - pose proof (ndd_read c i d Hi) as H1. destruct (poll_read_it c i d) as [d' [|[|[u|e]]]]; cbn [fst] in H1; try exact H1. eapply nd_trans; [exact H1|apply ndd_fail].
  - pose proof (ndd_write c i d) as H1. destruct (poll_write_it c i d) as [d' [|[|[u|e]]]]; cbn [fst] in H1; try exact H1. eapply nd_trans; [exact H1|apply ndd_fail].
  - pose proof (ndd_flush c i d) as H1. destruct (d_flush c i d) as [d' [|[u|e]]]; cbn [fst] in H1; [| |eapply nd_trans; [exact H1|apply ndd_fail]]; (eapply nd_trans; [exact H1|nsame]).
  - pose proof (ndd_write c i d) as H1. destruct (poll_write_it c i d) as [d' [|[|[u|e]]]]; cbn [fst] in H1; try exact H1. eapply nd_trans; [exact H1|apply ndd_fail].
  - pose proof (ndd_flush c i d) as H1. destruct (d_flush c i d) as [d' [|[u|e]]]; cbn [fst] in H1; try exact H1. eapply nd_trans; [exact H1|apply ndd_fail].
  - destruct (d_is_done c d); [|nsame]. unfold pending_upgrade. set (d1 := dset_conn d (set_upgrade (d_conn d) false)).
    assert (ndd d d1) as H1 by nsame. clearbody d1. unfold ndd in *. apply nd_trans with (k' := d_conn d1); [exact H1|]. clear H1.
    assert (forall d1, nd (d_conn d1) (d_conn (match take_error (d_conn d1) with (k, Ok _) => d_complete (dset_conn d1 k) None | (k, Err e) => d_fail c (dset_conn d1 k) e end))) as T.
    { clear. intros d1. assert (nd (d_conn d1) (fst (take_error (d_conn d1)))) as Q by (unfold take_error; destruct (k_error (d_conn d1)); nsame).
      destruct (take_error (d_conn d1)) as [k [u|e]]; cbn [fst] in Q; (eapply nd_trans; [exact Q|]); [apply (ndd_complete (dset_conn d1 k))|apply (ndd_fail c (dset_conn d1 k))]. }
    destruct (k_upgrade (d_conn d)); [apply T|]. destruct (wb_flush _ _ _ _) as [[[w ev] sent] r].
    set (d2 := dset_conn d1 _). assert (nd (d_conn d1) (d_conn d2)) as H2.
    { destruct sent as [|x sent]; (eapply nd_trans; [|apply nd_log; reflexivity]); nsame. }
    apply nd_trans with (k' := d_conn d2); [exact H2|]. clearbody d2. destruct r as [|[u|e]]; [nsame| |apply ndd_fail].
    destruct (i_shutdown i) as [|[u'|e']]; [nsame| |apply ndd_fail].
    eapply nd_trans; [|apply T]. apply nd_log. reflexivity.
  - nsame.
Qed.

(* ------------------------------------------------------------------ *)
(* C37: the full statement asks that a message that was received whole ends
   cleanly.  It fails when the response was finished before the request body: the
   sender is kept (poll_read goes on to the next head, dispatch.rs 229-231, and does
   not reach 287-289), the application waits for an end that does not come, and it
   gets an error when the peer closes the connection. *)
Definition late_body : list event := [EvData (line (B "PUT / HTTP/1.1")); EvPending; EvPending; EvData (B "abc"); EvPending; EvPending].
Theorem C37_clean_end_refuted : exists ms a, bodies_kept ms /\
  history (ex_cfg true false None) false true 8192 late_body ms = a ++ [LReturn None; LBodyFail] /\
  received_whole a /\ count ends_body a = 0%nat.
Proof.
  exists (steps 60 (answer ok200)). eexists [_; _; _; _; _; _; _; _; _; _; _]. split; [|split; [vm_compute; reflexivity|split; [|reflexivity]]].
  - apply Forall_forall. intros x H. apply repeat_spec in H. subst x. split; [discriminate|reflexivity].
  - eexists [], _, [_; _; _; _; _; _; _; _], _. split; [reflexivity|]. split; [discriminate|]. split; [|intros m H; repeat (destruct H as [H|H]; [discriminate H|]); destruct H].
    intros m H. repeat (destruct H as [H|H]; [discriminate H|]). destruct H.
Qed.
Definition early_body : list event := [EvData (line (B "PUT / HTTP/1.1")); EvPending; EvData (B "abc"); EvPending; EvPending].
Example C37_ex_conn : exists ms a b, bodies_kept ms /\
  history (ex_cfg true false None) false true 8192 early_body ms = a ++ LBodyEnd :: b /\ received_whole a /\
  d_pc (after (ex_cfg true false None) false true 8192 early_body ms) = PDead.
Proof.
  exists (steps 10 (inp_of Pending get Pending) ++ steps 60 (answer ok200)). eexists [_; _; _; _; _; _; _], _.
  split; [|split; [vm_compute; reflexivity|split; [|vm_compute; reflexivity]]].
  - apply Forall_app. split; apply Forall_forall; intros x H; apply repeat_spec in H; subst x; (split; [discriminate|reflexivity]).
  - eexists [], _, [_; _; _; _; _], _. split; [reflexivity|]. split; [discriminate|]. split; [|intros m H; repeat (destruct H as [H|H]; [discriminate H|]); destruct H].
    intros m H. repeat (destruct H as [H|H]; [discriminate H|]). destruct H.
Qed.
(* A body that is cut off ends with an error *)
Example C37_ex_cut : exists ms a b, bodies_kept ms /\
  history (ex_cfg true false None) false true 8192 [EvData (line (B "PUT / HTTP/1.1")); EvPending; EvData (B "ab")] ms = a ++ LBodyFail :: b /\
  count starts_body a = 1%nat /\ count ends_body (a ++ LBodyFail :: b) = 1%nat.
Proof.
  exists (steps 60 (inp_of Pending get Pending)). eexists [_; _; _; _; _; _; _; _], _.
  split; [|split; [vm_compute; reflexivity|split; vm_compute; reflexivity]].
  apply Forall_forall. intros x H. apply repeat_spec in H. subst x. split; [discriminate|reflexivity].
Qed.
(* A request body waits in the transport as long as the application is not ready *)
Example C39_ex_conn : let slow := mkI 0 false true [] false BPending true Pending (get, None) Pending true Pending [] in
  let d := after (ex_cfg true false None) false true 8192 early_body (steps 40 slow) in
  i_body slow = BPending /\ can_read_body (d_conn d) = true /\ d_body_tx d = true /\ k_log (d_conn d) = [LIn (ex_msg HTTP11 0 3 true true)].
Proof. cbv zeta. split; [reflexivity|]. vm_compute. auto. Qed.

Print Assumptions C37_end_means_complete.
Print Assumptions C37_every_body_ends.
Print Assumptions C39_holds_back.
Print Assumptions C37_clean_end_refuted.
