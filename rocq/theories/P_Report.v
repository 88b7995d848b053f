(* C62: a failure is never reported as success *)
From Verif Require Import Base M_Src M_Decode M_HeaderMap M_Headers M_Encode M_Role M_RoleEncode M_Buf M_WriteBuf M_Read M_Conn M_Dispatch S_Conn L_Conn L_Moves L_ConnS L_Ka S_Framing L_Framing L_BodyTx P_Conn P_Timer L_Done L_Return P_Graceful L_Report.

(* ---- Specification ---- *)
(* The log of a server in which an answer failed: hyper had to write an error
   response of its own, or could not encode the application's response. *)
Definition answer_failed (e : levent) : Prop := match e with LHead true _ _ | LHeadFail _ => True | _ => False end.
(* The error that belongs to an automatic response with head h (role.rs 484-502) *)
Definition explains (e : cerr) (h : ohead) : Prop :=
  exists p, e = CParse p /\
    match p with
    | PMethod | PTeUnexpected | PTeInvalid | PClInvalid | PHeaderToken | PUri | PVersion => o_subject h = OResponse 400 None
    | PTooLarge => o_subject h = OResponse 431 None
    | PUriTooLong => o_subject h = OResponse 414 None
    | _ => False
    end.
Definition never_announces (m : move) : Prop := match m with Step i => announces_end i = false | Env _ => True end.
Lemma fits_explains h e : fits h e -> explains e h.
Proof. intros (p & st & -> & H & S). exists p. split; [reflexivity|]. destruct p; cbn in H; try discriminate H; injection H as <-; exact S. Qed.

(* ---- Lemmas ---- *)
Lemma one_return z r y a r' b : forallb nret z = true -> forallb nret y = true -> z ++ LReturn r :: y = a ++ LReturn r' :: b -> a = z /\ r' = r.
Proof.
  intros Hz Hy. revert a. induction z as [|e z IH]; intros [|e' a] E; cbn [app forallb] in *.
  - injection E as -> _. auto.
  - injection E as _ E. exfalso. apply (nret_in y r' Hy). rewrite E. apply in_or_app. right. now left.
  - injection E as -> _. discriminate Hz.
  - injection E as -> E. apply andb_prop in Hz. destruct (IH (proj2 Hz) a E). split; congruence.
Qed.
Section Server.
  Variables (c : cfg) (h09 flat : bool) (wmax : N) (evs : list event).
  Hypothesis Hs : c_server c = true.
  Let st ms := after c h09 flat wmax evs ms.
  Let hist ms := history c h09 flat wmax evs ms.
  Lemma BI_graceful s d : BI s d -> BI s (d_graceful d).
  Proof.
    intros H. unfold d_graceful, k_disable_keep_alive.
    set (d1 := dset_conn d _). assert (BI s d1) as H1 by (apply BI_conn; [destruct (is_idle (d_conn d)); apply tame_same; auto|exact H]). clearbody d1.
    destruct (_ || _); [apply BI_close|]; exact H1.
  Qed.
  Lemma BI_all s ms : s = true \/ Forall never_announces ms -> (d_pc (st ms) = PDead \/ BI s (st ms)) /\ forall a r b, hist ms = a ++ LReturn r :: b -> result_ok s a r.
  Proof.
    induction ms as [|m ms IH] using rev_ind; intros Hm.
    { split; [right; constructor; cbn; [contradiction|contradiction|intros _ []|reflexivity|discriminate]|]. intros a r b E. destruct a; discriminate E. }
    assert (s = true \/ (Forall never_announces ms /\ never_announces m)) as Hm' by (destruct Hm as [Hm|Hm]; [auto|]; rewrite Forall_app in Hm; destruct Hm as (A & A'); inversion A'; auto).
    destruct (IH ltac:(tauto)) as (IB & IR). clear IH Hm. unfold hist, history in *. change (run c (ms ++ [m]) _) with (st (ms ++ [m])). change (run c ms _) with (st ms) in IR. assert (st (ms ++ [m]) = dmove c m (st ms)) as -> by (unfold st, after; rewrite run_app; reflexivity).
    destruct (DD_all c h09 flat wmax evs Hs ms) as [Hd|(HD & Hn)].
    - destruct (dead_stays c m (st ms) Hd) as (A & A'). rewrite A'. auto.
    - unfold history in Hn. change (after c h09 flat wmax evs ms) with (st ms) in HD. change (run c ms _) with (st ms) in Hn.
      destruct (match d_pc (st ms) with PDead => true | _ => false end) eqn:Ed.
      { assert (d_pc (st ms) = PDead) as Hd by (destruct (d_pc (st ms)); try discriminate Ed; reflexivity). destruct (dead_stays c m (st ms) Hd) as (A & A'). rewrite A'. auto. }
      assert (d_pc (st ms) <> PDead) as Hp by (intros F; rewrite F in Ed; discriminate Ed). destruct IB as [IB|IB]; [contradiction|]. clear Ed.
      assert (nrd (st ms) (dmove c m (st ms)) -> forall a r b, k_log (d_conn (dmove c m (st ms))) = a ++ LReturn r :: b -> result_ok s a r) as Hno.
      { intros (l & L1 & L2) a r b E. rewrite L1 in E. exfalso. apply (nret_in (k_log (d_conn (st ms)) ++ l) r); [now rewrite forallb_app, Hn, L2|]. rewrite E. apply in_or_app. right. now left. }
      destruct m as [i|e]; cbn [dmove] in *.
      + assert (s = true \/ announces_end i = false) as Hi by (destruct Hm' as [->|(_ & Hm')]; auto).
        destruct (step_return c i (st ms) Hp) as [(R1 & R2)|(r0 & (R1 & x & y & X & X1 & X2) & _)].
        * split; [|exact (Hno R2)]. right. destruct (report_step s c i (st ms) Hs Hi HD IB Hp) as [R|(a & r & b & E & _)]; [exact R|]. destruct R2 as (l & L1 & L2). exfalso. rewrite L1 in E. apply (nret_in (k_log (d_conn (st ms)) ++ l) r); [now rewrite forallb_app, Hn, L2|]. rewrite E. apply in_or_app. right. now left.
        * split; [now left|]. intros a r b E. rewrite app_assoc in X. destruct (one_return (k_log (d_conn (st ms)) ++ x) r0 y a r b) as (-> & ->); [now rewrite forallb_app, Hn, X1|exact X2|congruence|].
          destruct (report_step s c i (st ms) Hs Hi HD IB Hp) as [R|(a' & r' & b' & E' & _ & Q)].
          -- exfalso. apply (nret_in _ r0 (bi_ret _ _ R)). rewrite E. apply in_or_app. right. now left.
          -- destruct (one_return (k_log (d_conn (st ms)) ++ x) r0 y a' r' b') as (-> & ->); [now rewrite forallb_app, Hn, X1|exact X2|congruence|exact Q].
      + split; [|exact (Hno (env_return c e (st ms)))]. destruct e as [sm| | |]; cbn [estep]; rewrite ?Hs; [right; exact IB| | |].
        * destruct (d_pc (st ms)); right; auto using BI_graceful.
        * destruct (d_pc (st ms)); try (right; exact IB). left. now rewrite d_drop_eq.
        * right. destruct (d_pc (st ms)), (k_log (d_conn (st ms))); try exact IB. apply BI_conn; [apply tame_same; auto|exact IB].
  Qed.

  (* ---- Theorems ---- *)
  (* The future of a connection on which an answer failed does not return Ok. *)
  Theorem C62_reported : forall ms a b e, hist ms = a ++ LReturn None :: b -> In e a -> ~ answer_failed e.
  Proof.
    intros ms a b e E F. destruct (BI_all true ms (or_introl eq_refl)) as (_ & R). destruct (R a None b E) as (R1 & R2 & _).
    destruct e as [ | | | | | | |[|] h bs| | | | | | | | | | | ]; cbn; auto; intros _; [exact (R1 _ _ F)|exact (R2 _ F)].
  Qed.
  (* After an automatic error response the future returns the error that this
     response speaks of, or the error of the transport that refused it. *)
  Theorem C62_which : forall ms a b e h bs, hist ms = a ++ LReturn (Some e) :: b -> In (LHead true h bs) a -> e = CIo \/ explains e h.
  Proof.
    intros ms a b e h bs E F. destruct (BI_all true ms (or_introl eq_refl)) as (_ & R). destruct (proj1 (R a (Some e) b E) h bs F) as [->|Q]; [now left|right; now apply fits_explains].
  Qed.
  (* A response body that was given up is reported too, when the user's body does
     not announce its end together with its last buffer. *)
  Theorem C62_aborted : forall ms a b, Forall never_announces ms -> hist ms = a ++ LReturn None :: b -> ~ In LAbort a.
  Proof.
    intros ms a b Hm E. destruct (BI_all false ms (or_intror Hm)) as (_ & R). destruct (R a None b E) as (_ & _ & R3). exact (R3 eq_refl).
  Qed.
End Server.

(* The full statement - no body given up goes unreported - is false: when the
   user's body announces its end together with a last buffer that is too short
   for the declared length, write_body_and_end (conn.rs 764-782) closes the
   connection without an error (F39), where end_body (conn.rs 784-812) returns
   BodyWriteAborted. *)
Definition aborted_always : Prop := forall c h09 flat wmax evs ms a b, c_server c = true ->
  history c h09 flat wmax evs ms = a ++ LReturn None :: b -> ~ In LAbort a.
Definition ten : ohead := mkO HTTP11 (OResponse 200 None) [(B "content-length", [B "10"])] None.
Definition gives (fr : poll (option (result uframe unit))) (eos : bool) : inp :=
  mkI 0 false true [WAccept 65536; WAccept 65536; WAccept 65536] false BReady true (Ready (Ok (ten, Some (Known 10)))) (get, None) fr eos (Ready (Ok tt)) [].
Definition three : poll (option (result uframe unit)) := Ready (Some (Ok (UData (Segs false [B "abc"])))).
Theorem C62_aborted_refuted : exists c h09 flat wmax evs ms a b, c_server c = true /\
  history c h09 flat wmax evs ms = a ++ LReturn None :: b /\ In LAbort a /\ In (LBody (B "abc")) a.
Proof.
  exists (ex_cfg true false None), false, true, 8192, (open_with (line (B "GET / HTTP/1.1"))), (steps 60 (gives three true)).
  eexists [_; _; _; _; _; _; _], _. split; [reflexivity|]. split; [vm_compute; reflexivity|]. split; cbn; auto 10.
Qed.
Corollary C62_aborted_always_refuted : ~ aborted_always.
Proof. intros H. destruct C62_aborted_refuted as (c & h09 & flat & wmax & evs & ms & a & b & Hs & E & F & _). exact (H _ _ _ _ _ _ _ _ Hs E F). Qed.

(* ---- Examples ---- *)
(* The same short body whose end comes by itself: an error *)
Example C62_ex_aborted : exists a, Forall never_announces (steps 60 (gives (Ready None) false)) /\
  history (ex_cfg true false None) false true 8192 (open_with (line (B "GET / HTTP/1.1"))) (steps 60 (gives (Ready None) false))
  = a ++ [LReturn (Some CBodyWriteAborted)] /\ In LAbort a.
Proof. eexists [_; _; _; _]. split; [apply Forall_forall; intros x F; apply repeat_spec in F; subst x; reflexivity|]. split; [vm_compute; reflexivity|cbn; auto 10]. Qed.
(* A connection that ends well *)
Example C62_ex_well : exists a, Forall never_announces (steps 60 (answer ok200)) /\
  history (ex_cfg true false None) false true 8192 (open_with (line (B "GET /last HTTP/1.1"))) (steps 60 (answer ok200))
  = a ++ [LReturn None] /\ length a = 6%nat.
Proof. eexists [_; _; _; _; _; _]. split; [apply Forall_forall; intros x F; apply repeat_spec in F; subst x; reflexivity|]. split; [vm_compute; reflexivity|reflexivity]. Qed.
(* A request that cannot be parsed *)
Example C62_ex_bad : exists h bs a, history (ex_cfg true false None) false true 8192 (open_with (line (B "BAD BAD BAD BAD BAD BAD"))) (steps 60 (answer ok200))
  = (LHead true h bs :: a) ++ [LReturn (Some (CParse PMethod))] /\ explains (CParse PMethod) h.
Proof. eexists _, _, [_; _; _]. split; [vm_compute; reflexivity|]. exists PMethod. split; reflexivity. Qed.
(* ... and a transport that refuses the response *)
Definition refused : inp := mkI 0 false true [WFail] false BReady true (Ready (Ok (ok200, None))) (get, None) Pending true (Ready (Ok tt)) [].
Example C62_ex_io : exists h bs a, history (ex_cfg true false None) false true 8192 (open_with (line (B "BAD BAD BAD BAD BAD BAD"))) (steps 60 refused)
  = (LHead true h bs :: a) ++ [LReturn (Some CIo)].
Proof. eexists _, _, [_]. vm_compute; reflexivity. Qed.
Print Assumptions C62_reported.
Print Assumptions C62_which.
Print Assumptions C62_aborted.
Print Assumptions C62_aborted_refuted.
