(* C64: when a server's connection is handed over to the application *)
From Verif Require Import Base M_Src M_Decode M_HeaderMap M_Headers M_Encode M_Role M_RoleEncode M_Buf M_WriteBuf M_Read M_Conn M_Dispatch S_Conn S_Buf L_Buf L_WriteBuf S_Head L_Conn L_Moves L_ConnS L_Ka L_Exch L_Stream L_BodyTx L_Done L_Return L_View L_Upgrade L_Handover S_Client P_Conn P_Requests P_Stream P_Graceful P_Report P_View.

(* ---- Specification ---- *)
(* The future of a server's connection returns Ok in two ways: it has shut the
   transport down, or it leaves the transport open for the application that
   asked for it. *)
Definition handed_over (l a : list levent) : Prop := (exists b, l = a ++ LReturn None :: b) /\ ~ In LShutdown a.
(* A response after which the connection speaks another protocol *)
Definition switching (method : option bytes) (st : N) : Prop := st = 101 \/ (method = Some (B "CONNECT") /\ 200 <= st < 300).
(* What such a response must not be followed by *)
Definition http_again (e : levent) : Prop := match e with LIn _ | LHead _ _ _ | LHeadFail _ | LBody _ | LContinue => True | _ => False end.

Lemma switching_eq method st : switching method st -> switches method st = true.
Proof.
  unfold switching, switches, method_is, is_success. intros [-> | (-> & A & A')]; [reflexivity|]. rewrite beq_refl. apply orb_true_iff. right. apply andb_true_iff. split; [reflexivity|]. apply andb_true_iff. split; apply N.leb_le; lia.
Qed.
Section Server.
  Variables (c : cfg) (h09 flat : bool) (wmax : N) (evs : list event).
  Hypothesis Hs : c_server c = true.
  Let st ms := after c h09 flat wmax evs ms.
  Let hist ms := history c h09 flat wmax evs ms.
  Lemma UD_all ms : UD (st ms).
  Proof.
    enough (VD c h09 (st ms) /\ UD (st ms)) as (_ & H) by exact H.
    apply (Inv_run _ _ _ (stable_conj _ _ _ _ (VD_stable c h09) (UD_stable c h09 Hs))); [intros; exact Logic.I|].
    split; [exact (VD_all c h09 flat wmax evs [])|]. constructor; [discriminate|]. intros a; destruct a; discriminate.
  Qed.
  (* ---- The step in which the future returns Ok ---- *)
  Definition returns_at (d : disp) (i : inp) (a : list levent) : Prop :=
    d_pc d = PFinish /\ d_is_done c d = true /\ k_error (d_conn d) = None /\
    ((k_upgrade (d_conn d) = true /\ a = k_log (d_conn d)) \/
     (k_upgrade (d_conn d) = false /\ exists unread w ev sent u, wb_flush (c_pipeline c) unread (k_wb (d_conn d)) (i_wevs i) = (w, ev, sent, Ready (Ok u)) /\ a = k_log (d_conn d) ++ sent_ev sent ++ [LShutdown])).
  Lemma returned_here d i a b : d_pc d <> PDead -> forallb nret (k_log (d_conn d)) = true -> k_log (d_conn (dstep c i d)) = a ++ LReturn None :: b -> returns_at d i a.
  Proof.
    intros Hp Hn E. destruct (step_return c i d Hp) as [(_ & l & L1 & L2)|(r & (_ & x & y & X & X1 & X2) & R)].
    { exfalso. rewrite L1 in E. apply (nret_in (k_log (d_conn d) ++ l) None); [now rewrite forallb_app, Hn, L2|]. rewrite E. apply in_or_app. right. now left. }
    rewrite X, app_assoc in E. destruct (one_return (k_log (d_conn d) ++ x) r y a None b) as (-> & <-); [now rewrite forallb_app, Hn, X1|exact X2|exact E|]. clear E.
    destruct R as [(e & R)|[R|(_ & R1 & R2 & R3 & _)]]; [discriminate R|congruence|]. split; [exact R1|]. split; [exact R2|]. split; [exact R3|].
    assert (forall d1 l, k_log (d_conn d1) = k_log (d_conn d) ++ l -> forallb nret l = true -> k_error (d_conn d1) = None ->
      k_log (d_conn (match take_error (d_conn d1) with (k, Ok _) => d_complete (dset_conn d1 k) None | (k, Err e) => d_fail c (dset_conn d1 k) e end)) = k_log (d_conn d) ++ x ++ LReturn None :: y -> x = l) as T.
    { intros d1 l L1 L2 E1 E. unfold take_error in E. rewrite E1 in E. unfold d_complete in E. destruct (drop_log (dlog (dset_conn d1 (d_conn d1)) [LReturn None])) as (z & Z1 & Z2). rewrite Z1 in E. cbn [k_log log dlog d_conn dset_conn] in E. rewrite L1, <- !app_assoc in E. apply app_inv_head in E. cbn in E.
      destruct (one_return x None y l None z) as (-> & _); auto. }
    unfold dstep in X. rewrite R1, R2 in X. unfold pending_upgrade in X. destruct (k_upgrade (d_conn d)).
    - left. split; [reflexivity|]. rewrite (T (dset_conn d (set_upgrade (d_conn d) false)) []); auto; cbn; now rewrite app_nil_r.
    - right. split; [reflexivity|]. cbn [d_conn dset_conn k_rd set_upgrade k_wb] in X.
      set (unread := negb _) in X. destruct (wb_flush (c_pipeline c) unread (k_wb (d_conn d)) (i_wevs i)) as [[[w ev] sent] [|[u|e]]] eqn:Ef.
      + exfalso. cbn in X. fold (sent_ev sent) in X. apply app_inv_head in X. unfold sent_ev in X. destruct sent; [destruct x; discriminate X|]. destruct x as [|? [|? x]]; discriminate X.
      + exists unread, w, ev, sent, u. split; [exact Ef|]. destruct (i_shutdown i) as [|[u'|e']].
        * exfalso. cbn in X. apply app_inv_head in X. destruct sent; [destruct x; discriminate X|]. destruct x as [|? [|? x]]; discriminate X.
        * match type of X with k_log (d_conn (match take_error (d_conn ?d1) with _ => _ end)) = _ => rewrite (T d1 (sent_ev sent ++ [LShutdown])) end; auto.
          -- cbn. unfold sent_ev. now rewrite <- app_assoc.
          -- rewrite forallb_app. destruct sent; reflexivity.
        * exfalso. match type of X with context [d_fail c ?d2 ?e] => destruct (ends_fail c d2 e) as (r & (_ & x' & y' & F & F1 & F2) & [-> | (R & _)]) end; [|congruence]. rewrite F in X. cbn [d_conn dset_conn k_log log set_wb set_upgrade] in X. rewrite <- app_assoc in X. apply app_inv_head in X. rewrite app_assoc in X.
          destruct (one_return (match sent with [] => [] | _ => [LSent sent] end ++ x') (Some CIo) y' x None y) as (_ & Q); [rewrite forallb_app, F1; destruct sent; reflexivity|exact F2|exact X|discriminate Q].
      + exfalso. match type of X with context [d_fail c ?d2 ?e] => destruct (ends_fail c d2 e) as (r & (_ & x' & y' & F & F1 & F2) & [-> | (R & _)]) end; [|congruence]. rewrite F in X. cbn [d_conn dset_conn k_log log set_wb set_upgrade] in X. rewrite <- app_assoc in X. apply app_inv_head in X. rewrite app_assoc in X.
        destruct (one_return (match sent with [] => [] | _ => [LSent sent] end ++ x') (Some CIo) y' x None y) as (_ & Q); [rewrite forallb_app, F1; destruct sent; reflexivity|exact F2|exact X|discriminate Q].
  Qed.
  Lemma returned_at ms a b : hist ms = a ++ LReturn None :: b -> exists ms1 i ms2, ms = ms1 ++ Step i :: ms2 /\ forallb nret (hist ms1) = true /\ returns_at (st ms1) i a.
  Proof.
    induction ms as [|m ms IH] using rev_ind; intros E; [destruct a; discriminate E|].
    assert (hist (ms ++ [m]) = k_log (d_conn (dmove c m (st ms)))) as Em by (unfold hist, history; rewrite run_app; reflexivity). rewrite Em in E.
    assert (hist ms = a ++ LReturn None :: b -> exists ms1 i ms2, ms ++ [m] = ms1 ++ Step i :: ms2 /\ forallb nret (hist ms1) = true /\ returns_at (st ms1) i a) as Q.
    { intros E'. destruct (IH E') as (ms1 & i & ms2 & -> & R). exists ms1, i, (ms2 ++ [m]). split; [now rewrite <- app_assoc|exact R]. }
    destruct (match d_pc (st ms) with PDead => true | _ => false end) eqn:Ed.
    { assert (d_pc (st ms) = PDead) as Hd by (destruct (d_pc (st ms)); try discriminate Ed; reflexivity). destruct (dead_stays c m (st ms) Hd) as (_ & A'). rewrite A' in E. apply Q, E. }
    assert (d_pc (st ms) <> PDead) as Hp by (intros F; rewrite F in Ed; discriminate Ed). clear Ed.
    destruct (DD_all c h09 flat wmax evs Hs ms) as [Hd|(_ & Hn)]; [contradiction|].
    destruct m as [i|e]; cbn [dmove] in E.
    - exists ms, i, []. split; [reflexivity|]. split; [exact Hn|]. eapply returned_here; [exact Hp|exact Hn|exact E].
    - exfalso. destruct (env_return c e (st ms)) as (l & L1 & L2). rewrite L1 in E. apply (nret_in (k_log (d_conn (st ms)) ++ l) None); [rewrite forallb_app, L2, andb_true_r; exact Hn|]. rewrite E. apply in_or_app. right. now left.
  Qed.
  Lemma handed_at ms a : handed_over (hist ms) a -> exists ms1 i ms2, ms = ms1 ++ Step i :: ms2 /\ d_pc (st ms1) = PFinish /\ d_is_done c (st ms1) = true /\ k_error (d_conn (st ms1)) = None /\ k_upgrade (d_conn (st ms1)) = true /\ a = hist ms1.
  Proof.
    intros ((b & E) & Hn). destruct (returned_at _ _ _ E) as (ms1 & i & ms2 & Em & _ & R1 & R2 & R3 & R4). exists ms1, i, ms2. split; [exact Em|]. split; [exact R1|]. split; [exact R2|]. split; [exact R3|].
    destruct R4 as [(R4 & R5)|(_ & u & w & ev & sent & u' & _ & ->)]; [split; [exact R4|exact R5]|]. destruct Hn. rewrite app_assoc. apply in_or_app. right. now left.
  Qed.

  (* ---- Everything that was queued has been written ---- *)
  Lemma hist_more ms m : exists l, hist (ms ++ [m]) = hist ms ++ l.
  Proof.
    assert (hist (ms ++ [m]) = k_log (d_conn (dmove c m (st ms)))) as -> by (unfold hist, history; rewrite run_app; reflexivity).
    destruct (match d_pc (st ms) with PDead => true | _ => false end) eqn:Ed.
    { assert (d_pc (st ms) = PDead) as Hd by (destruct (d_pc (st ms)); try discriminate Ed; reflexivity). destruct (dead_stays c m (st ms) Hd) as (_ & ->). exists []. now rewrite app_nil_r. }
    assert (d_pc (st ms) <> PDead) as Hp by (intros F; rewrite F in Ed; discriminate Ed). destruct m as [i|e]; cbn [dmove].
    - destruct (step_return c i (st ms) Hp) as [(_ & l & L1 & _)|(r & (_ & x & y & X & _) & _)]; eauto.
    - destruct (env_return c e (st ms)) as (l & L1 & _). eauto.
  Qed.
  Lemma in_order_less l l' : in_order c flat (l ++ l') -> in_order c flat l.
  Proof. intros [H|[H|H]]; [now left|right; now left|right; right]. rewrite forallb_app in H. apply andb_prop in H. apply H. Qed.
  Definition bodiless (l : list levent) : Prop := forall m, In (LIn m) l -> in_decode m = DL_ZERO.
  Lemma FD_all : c_pipeline c = false -> forall ms, good_moves c ms -> ~ In (Env EGraceful) ms -> in_order c flat (hist ms) -> bodiless (hist ms) -> d_pc (st ms) = PDead \/ FD (st ms).
  Proof.
    intros Hp ms. induction ms as [|m ms IH] using rev_ind; intros G Hg O Hb.
    { right. split; [reflexivity|]. split; [discriminate|]. right. constructor; cbn; auto; try discriminate. unfold empty. cbn. auto. }
    assert (st (ms ++ [m]) = dmove c m (st ms)) as Es by (unfold st, after; now rewrite run_app). destruct (hist_more ms m) as (l & El).
    apply Forall_app in G. destruct G as (G & _). pose proof O as O'. rewrite El in O'. pose proof (in_order_less _ _ O') as O1.
    assert (bodiless (hist ms)) as Hb1 by (intros m' Hm; apply Hb; rewrite El; apply in_or_app; now left).
    assert (~ In (Env EGraceful) ms) as Hg1 by (intros F; apply Hg, in_or_app; now left).
    rewrite Es. destruct (IH G Hg1 O1 Hb1) as [Hd|H]; [left; apply dead_stays; exact Hd|].
    destruct (match d_pc (st ms) with PDead => true | _ => false end) eqn:Ed.
    { left. apply dead_stays. destruct (d_pc (st ms)); try discriminate Ed; reflexivity. }
    assert (d_pc (st ms) <> PDead) as Hn by (intros F; rewrite F in Ed; discriminate Ed). destruct m as [i|[s| | |]]; cbn [dmove estep].
    - apply FD_step; auto.
      + destruct (stream_ok c h09 flat wmax evs ms G) as ([T|(W & _)] & _); [destruct (not_wild _ _ _ _ _ _ O1 T)|exact W].
      + change (dstep c i (st ms)) with (dmove c (Step i) (st ms)). rewrite <- Es. exact Hb.
    - right. rewrite Hs. exact H.
    - destruct Hg. apply in_or_app. right. now left.
    - destruct (d_pc (st ms)) eqn:Ep; try (right; exact H). left. now rewrite d_drop_eq.
    - right. rewrite Hs. destruct (d_pc (st ms)), (k_log (d_conn (st ms))); try exact H. destruct H as (H1 & H2 & H3). split; [exact H1|]. split; [exact H2|]. now apply (FE_same _ (d_conn (st ms))).
  Qed.

  (* ---- Theorems ---- *)
  (* A transport is handed over only if a request asked for it. *)
  Theorem C64_only_asked : forall ms a, handed_over (hist ms) a -> exists m, In (LIn m) a /\ in_upgrade m = true.
  Proof. intros ms a H. destruct (handed_at _ _ H) as (ms1 & i & ms2 & _ & _ & _ & _ & U & ->). exact (ui_up _ (UD_all ms1) U). Qed.
  (* A response that switches the protocol is the last thing of HTTP on the
     connection: no further request is read, and nothing is written any more. *)
  Theorem C64_last : forall ms a h bs b code rs, hist ms = a ++ LHead false h bs :: b -> o_subject h = OResponse code rs -> switching (last_in a) code ->
    forall e, In e b -> ~ http_again e.
  Proof.
    intros ms a h bs b code rs E Ho Hw e F. destruct (ui_sw _ (UD_all ms) a h bs b code rs E Ho (switching_eq _ _ Hw)) as (_ & Q). rewrite forallb_forall in Q. specialize (Q e F). destruct e; try discriminate Q; intros [].
  Qed.
  (* When the transport is handed over, it has taken everything that was written;
     as long as the requests have no body and no graceful shutdown is asked for. *)
  Theorem C64_flushed : forall ms a, good_moves c ms -> c_pipeline c = false -> in_order c flat (hist ms) ->
    ~ In (Env EGraceful) ms -> (forall m, In (LIn m) (hist ms) -> in_decode m = DL_ZERO) ->
    handed_over (hist ms) a -> taken a = queued a.
  Proof.
    intros ms a G Hp O Hg Hb H. destruct (handed_at _ _ H) as (ms1 & i & ms2 & -> & R1 & R2 & R3 & R4 & ->).
    assert (exists l, hist (ms1 ++ Step i :: ms2) = hist ms1 ++ l) as (l & El).
    { clear G O Hg Hb H. induction ms2 as [|m ms2 IH] using rev_ind; [apply hist_more|]. destruct IH as (l & IH). destruct (hist_more (ms1 ++ Step i :: ms2) m) as (l' & E'). rewrite <- app_assoc in E'. cbn [app] in E'. rewrite E', IH. exists (l ++ l'). now rewrite app_assoc. }
    rewrite El in O, Hb. apply in_order_less in O. apply Forall_app in G. destruct G as (G & _).
    destruct (FD_all Hp ms1 G) as [F|(_ & F2 & [F3|F3])]; auto; try congruence.
    { intros F. apply Hg, in_or_app. now left. } { intros m Hm. apply Hb, in_or_app. now left. }
    destruct (C58_stream_order c h09 flat wmax evs ms1 G O) as (_ & Q). apply Q. unfold has_buffered_write. 
    assert (k_reading (d_conn (st ms1)) = RClosed) as Rc.
    { unfold d_is_done in R2. destruct (d_closing (st ms1)); [apply F2; reflexivity|]. rewrite Hs in R2. cbn in R2. apply andb_prop in R2. destruct R2 as (R2 & _). unfold is_read_closed in R2. destruct (k_reading (d_conn (st ms1))); try discriminate R2; reflexivity. }
    destruct (fk_rest _ _ F3 (or_intror Rc)) as (E & _). unfold empty in E. unfold st in E. now rewrite E.
  Qed.
End Server.

(* ---- Examples ---- *)
(* Four requests; the first three ask for another protocol, the second of them
   has a body of three bytes *)
Definition up_msg (me : bytes) (len : dlen) : inmsg := mkIn HTTP11 (Some me) 0 [] len false true true.
Definition up_requests : list (bytes * inmsg) :=
  [ (line (B "GET /chat HTTP/1.1"), up_msg (B "GET") 0)
  ; (line (B "PUT /chat HTTP/1.1"), up_msg (B "PUT") 3)
  ; (line (B "CONNECT a:1 HTTP/1.1"), up_msg (B "CONNECT") 0)
  ; (line (B "GET / HTTP/1.1"), ex_msg HTTP11 0 0 false true) ].
Definition up_cfg : cfg :=
  mkCfg true (fun _ _ b => ex_find up_requests b) (fun _ _ => None) (fun _ => Some (B "OK")) (B "now") false false None 8192 false true false None.
Definition ok101 : ohead := mkO HTTP11 (OResponse 101 None) [(B "upgrade", [B "chat"])] None.
(* The transport takes nothing; the request's body is wanted, or dropped *)
Definition stuck (b : bready) : inp := mkI 0 true true [] false b true (Ready (Ok (ok101, None))) (get, None) Pending true (Ready (Ok tt)) [].
Notation up_hist := (history up_cfg false true 8192).

Lemma good_up ms : (forall i, In (Step i) ms -> i_frame i = Pending) -> good_moves up_cfg ms.
Proof. intros H. apply Forall_forall. intros [i|e] Hi; [|exact Logic.I]. unfold good_inp. rewrite (H i Hi). exact Logic.I. Qed.

(* 101, and 200 to a CONNECT: handed over, with everything written *)
Example C64_ex : exists a h bs, let ms := steps 60 (answer ok101) in let evs := open_with (line (B "GET /chat HTTP/1.1") ++ B "hello") in
  good_moves up_cfg ms /\ ~ In (Env EGraceful) ms /\ (forall m, In (LIn m) (up_hist evs ms) -> in_decode m = DL_ZERO) /\
  handed_over (up_hist evs ms) a /\ In (LHead false h bs) a /\ o_subject h = OResponse 101 None /\ taken a = queued a /\ taken a <> [].
Proof.
  eexists [_; _; _; _; _], ok101, _. cbn zeta. set (hh := up_hist _ _). vm_compute in hh. subst hh.
  split. { apply good_up. intros i Hi. apply repeat_spec in Hi. injection Hi as ->. reflexivity. }
  split. { intros F. apply repeat_spec in F. discriminate F. }
  split. { intros m Hm. repeat (destruct Hm as [Hm|Hm]; [try discriminate Hm; injection Hm as <-; reflexivity|]). destruct Hm. }
  split. { split; [eexists; reflexivity|]. intros F. repeat (destruct F as [F|F]; [discriminate F|]). destruct F. }
  split; [do 2 right; left; reflexivity|]. split; [reflexivity|]. split; [reflexivity|discriminate].
Qed.
Example C64_connect_ex : exists a h bs b, let ms := steps 60 (answer ok200) in let evs := open_with (line (B "CONNECT a:1 HTTP/1.1") ++ line (B "GET / HTTP/1.1")) in
  up_hist evs ms = a ++ LHead false h bs :: b /\ o_subject h = OResponse 200 None /\ switching (last_in a) 200 /\ (exists x, handed_over (up_hist evs ms) x) /\ ~ In LShutdown b.
Proof.
  eexists [_; _], ok200, _, _. cbn zeta. set (hh := up_hist _ _). vm_compute in hh. subst hh.
  split; [reflexivity|]. split; [reflexivity|]. split; [right; split; [vm_compute; reflexivity|lia]|]. split.
  - eexists [_; _; _; _; _]. split; [eexists; reflexivity|]. intros F. repeat (destruct F as [F|F]; [discriminate F|]). destruct F.
  - intros F. repeat (destruct F as [F|F]; [discriminate F|]). destruct F.
Qed.

(* ---- Findings ---- *)
(* "A transport is handed over only after a response that switches the
   protocol": false.  A server that answers the upgrade request with 200 keeps the
   pending upgrade for the rest of the connection; when the connection ends, even
   many exchanges later, the transport is left open instead of being shut down. *)
Definition C64_declined : Prop := forall c h09 flat wmax evs ms a, c_server c = true -> handed_over (history c h09 flat wmax evs ms) a ->
  exists x h bs y code rs, a = x ++ LHead false h bs :: y /\ o_subject h = OResponse code rs /\ switching (last_in x) code.
Definition declined_evs : list event := [EvData (line (B "GET /chat HTTP/1.1")); EvPending; EvPending; EvData (line (B "GET / HTTP/1.1")); EvPending; EvPending].
Lemma declined_hist : exists a, handed_over (up_hist declined_evs (steps 60 (answer ok200))) a /\
  forall x h bs y code rs, a = x ++ LHead false h bs :: y -> o_subject h = OResponse code rs -> code = 200 /\ last_in x = Some (B "GET").
Proof.
  set (hh := up_hist _ _). vm_compute in hh. subst hh. eexists. split.
  - split; [exists []; match goal with |- ?l = _ => let r := eval cbv in (rev l) in change l with (rev r) end; cbn [rev]; reflexivity|]. cbn. intros F. repeat (destruct F as [F|F]; [discriminate F|]). destruct F.
  - intros x h bs y code rs E Ho. repeat (destruct x as [|? x]; [try discriminate E; injection E as E; subst; cbn in Ho; injection Ho as <- <-; split; reflexivity|cbn in E; injection E as <- E]). destruct x; discriminate E.
Qed.
Theorem C64_declined_refuted : ~ C64_declined.
Proof.
  intros H. destruct declined_hist as (a & Ha & Q). destruct (H up_cfg false true 8192 declined_evs (steps 60 (answer ok200)) a eq_refl Ha) as (x & h & bs & y & code & rs & E & Ho & Hw). destruct (Q _ _ _ _ _ _ E Ho) as (-> & L). rewrite L in Hw. destruct Hw as [Hw|(Hw & _)]; discriminate Hw.
Qed.
(* Without the restrictions on bodies and graceful shutdown, the transport may be
   handed over before it has taken the 101 response, which is then lost: after a
   graceful shutdown, and when the application drops the body of the request. *)
Definition C64_always_flushed : Prop := forall c h09 flat wmax evs ms a, c_server c = true -> good_moves c ms -> c_pipeline c = false -> in_order c flat (history c h09 flat wmax evs ms) ->
  handed_over (history c h09 flat wmax evs ms) a -> taken a = queued a.
Definition graceful_moves : list move := steps 7 (stuck BReady) ++ [Env EGraceful] ++ steps 20 (stuck BReady).
Lemma graceful_loses : exists a, handed_over (up_hist (open_with (line (B "GET /chat HTTP/1.1"))) graceful_moves) a /\ taken a = [] /\ queued a <> [].
Proof.
  set (hh := up_hist _ _). vm_compute in hh. subst hh. eexists [_; _; _; _]. split; [split; [eexists; reflexivity|]|split; [reflexivity|discriminate]]. intros F. repeat (destruct F as [F|F]; [discriminate F|]). destruct F.
Qed.
Lemma ignored_loses : exists a, handed_over (up_hist (open_with (line (B "PUT /chat HTTP/1.1"))) (steps 60 (stuck BCanceled))) a /\ taken a = [] /\ queued a <> [].
Proof.
  set (hh := up_hist _ _). vm_compute in hh. subst hh. eexists. split; [split; [exists []; match goal with |- ?l = _ => let r := eval cbv in (rev l) in change l with (rev r) end; cbn [rev]; reflexivity|]|split; [reflexivity|discriminate]]. cbn. intros F. repeat (destruct F as [F|F]; [discriminate F|]). destruct F.
Qed.
Theorem C64_always_flushed_refuted : ~ C64_always_flushed.
Proof.
  intros H. destruct graceful_loses as (a & Ha & T & Q). apply Q. rewrite <- T. symmetry. apply (H up_cfg false true 8192 (open_with (line (B "GET /chat HTTP/1.1"))) graceful_moves); auto; [|now left].
  apply good_up. intros i Hi. apply in_app_or in Hi. destruct Hi as [Hi|Hi]; [apply repeat_spec in Hi; injection Hi as ->; reflexivity|]. destruct Hi as [Hi|Hi]; [discriminate Hi|]. apply repeat_spec in Hi. injection Hi as ->. reflexivity.
Qed.
(* Also when no graceful shutdown is asked for *)
Theorem C64_bodies_flushed_refuted : ~ (forall c h09 flat wmax evs ms a, c_server c = true -> good_moves c ms -> c_pipeline c = false -> in_order c flat (history c h09 flat wmax evs ms) ->
  ~ In (Env EGraceful) ms -> handed_over (history c h09 flat wmax evs ms) a -> taken a = queued a).
Proof.
  intros H. destruct ignored_loses as (a & Ha & T & Q). apply Q. rewrite <- T. symmetry. apply (H up_cfg false true 8192 (open_with (line (B "PUT /chat HTTP/1.1"))) (steps 60 (stuck BCanceled))); auto; [|now left|].
  - apply good_up. intros i Hi. apply repeat_spec in Hi. injection Hi as ->. reflexivity.
  - intros F. apply repeat_spec in F. discriminate F.
Qed.

Print Assumptions C64_only_asked.
Print Assumptions C64_last.
Print Assumptions C64_flushed.
Print Assumptions C64_declined_refuted.
Print Assumptions C64_always_flushed_refuted.
Print Assumptions C64_bodies_flushed_refuted.
