(* C82: what can be learned from an error.  The reason of an HTTP/2 reset travels
   through a proxy; timeouts are recognised through wrappers; the questions about an
   error exclude each other; the codes of the C interface. *)
From Verif Require Import Base M_HeaderMap M_Headers M_Role M_Error.

(* ---- specification ---- *)
(* Going from [e] to its source, from there to its source and so on, one comes to [x]
   after having passed the errors [xs] *)
Inductive path : err -> list err -> err -> Prop :=
| path_one e x : source e = Some x -> path e [] x
| path_more e y xs x : source e = Some y -> path y xs x -> path e (y :: xs) x.
(* [e] is wrapped in other errors, each of which returns the one inside as its source
   and none of which is an h2::Error *)
Inductive within (x : err) : err -> Prop :=
| within_self : within x x
| within_hyper k e : within x e -> within x (EHyper k (Some e))
| within_other e : within x e -> within x (EOther (Some e)).
(* RST_STREAM with reason [r], as a client of hyper sees it: instead of the response
   (client.rs 662), or while it reads the data (incoming.rs 254) or the trailers of the body
   (incoming.rs 277) *)
Definition reset_seen (r : N) (e : err) : Prop := e = new_h2 (EH2 (Some r)) \/ e = new_body (EH2 (Some r)).

(* ---- the loop ---- *)
Lemma source_depth e : forall x, source e = Some x -> (edepth x < edepth e)%nat.
Proof.
  induction e as [k c| | | | |i IH|s] using (fix F (e : err) : forall (P : err -> Prop)
      (f1 : forall k c, P (EHyper k c)) (f2 : forall r, P (EH2 r)) (f3 : forall i, P (EH2Io i)) (f4 : P ETimedOut) (f5 : P EKeepAlive)
      (f6 : forall i, match i with Some x => P x | None => True end -> P (EIo i)) (f7 : forall s, P (EOther s)), P e :=
    fun P f1 f2 f3 f4 f5 f6 f7 => match e with
      | EHyper k c => f1 k c | EH2 r => f2 r | EH2Io i => f3 i | ETimedOut => f4 | EKeepAlive => f5
      | EIo i => f6 i (match i with Some x => F x P f1 f2 f3 f4 f5 f6 f7 | None => Logic.I end) | EOther s => f7 s end); cbn [source edepth]; intros x E; try discriminate E.
  - subst c. lia.
  - injection E as <-. cbn. lia.
  - destruct i as [y|]; [|discriminate E]. specialize (IH x E). lia.
  - subst s. lia.
Qed.
Lemma find_loop_spec {A} (down : err -> option A) : forall n e, (edepth e <= n)%nat -> forall t,
  find_loop down n (source e) = Some t <-> exists xs x, path e xs x /\ down x = Some t /\ Forall (fun y => down y = None) xs.
Proof.
  induction n as [|n IH]; intros e Hd t.
  - destruct e as [? [|]| | [|] | | |[|]|[|]]; cbn in Hd; lia.
  - destruct (source e) as [x|] eqn:Es; cbn [find_loop].
    + pose proof (source_depth e x Es) as Hx. destruct (down x) as [t'|] eqn:Dx.
      * split.
        -- intros E. injection E as ->. exists [], x. repeat split; auto. now constructor.
        -- intros (xs & y & P & D & F). inversion P; subst; rewrite Es in H; injection H as <-; [congruence|]. inversion F; subst. congruence.
      * rewrite (IH x ltac:(lia) t). split.
        -- intros (xs & y & P & D & F). exists (x :: xs), y. repeat split; auto. now apply path_more.
        -- intros (xs & y & P & D & F). inversion P; subst; rewrite Es in H; injection H as <-; [congruence|]. inversion F; subst. eauto.
    + split; [discriminate|]. intros (xs & y & P & _). inversion P; congruence.
Qed.
(* find_source finds the first error of the type on the way, and whenever there is one *)
Theorem C82_find : forall A (down : err -> option A) e t,
  find_source down e = Some t <-> exists xs x, path e xs x /\ down x = Some t /\ Forall (fun y => down y = None) xs.
Proof. intros A down e t. apply find_loop_spec. lia. Qed.
Lemma path_snoc : forall e xs x y, path e xs x -> source x = Some y -> path e (xs ++ [x]) y.
Proof. intros e xs x y P S. induction P; cbn; [eapply path_more; eauto; now constructor|]. eapply path_more; eauto. Qed.
Lemma find_reached {A} (down : err -> option A) e xs x : path e xs x -> down x <> None -> find_source down e <> None.
Proof.
  intros P D E. enough (exists t, find_source down e = Some t) as [t T] by congruence.
  enough (exists xs x t, path e xs x /\ down x = Some t /\ Forall (fun y => down y = None) xs) as (xs' & x' & t & H) by (exists t; apply C82_find; eauto).
  clear E. induction P as [e x S|e y xs x S P IH].
  - destruct (down x) as [t|] eqn:Dx; [|congruence]. exists [], x, t. repeat split; auto. now constructor.
  - destruct (down y) as [t|] eqn:Dy; [exists [], y, t; repeat split; auto; now constructor|].
    destruct (IH D) as (xs' & x' & t & P' & D' & F'). exists (y :: xs'), x', t. repeat split; auto. now apply path_more.
Qed.

(* ---- the reason of a reset ---- *)
(* An error itself, or else what is behind it *)
Definition look {A} (down : err -> option A) (e : err) : option A := match down e with Some t => Some t | None => find_source down e end.
Lemma find_step {A} (down : err -> option A) w : find_source down w = match source w with Some x => look down x | None => None end.
Proof.
  destruct (source w) as [x|] eqn:S.
  - unfold look, find_source at 1. pose proof (source_depth w x S) as L. destruct (edepth w) as [|n]; [lia|]. rewrite S. cbn [find_loop]. destruct (down x) as [t|]; [reflexivity|].
    pose proof (find_loop_spec down n x ltac:(lia)) as H1. pose proof (C82_find A down x) as H2.
    destruct (find_loop down n (source x)) as [t|] eqn:E1; destruct (find_source down x) as [t'|] eqn:E2; auto.
    + pose proof (proj1 (H1 t) eq_refl) as G. apply (proj2 (H2 t)) in G. exact (eq_sym G).
    + pose proof (proj1 (H1 t) eq_refl) as G. apply (proj2 (H2 t)) in G. discriminate G.
    + pose proof (proj1 (H2 t') eq_refl) as G. apply (proj2 (H1 t')) in G. discriminate G.
  - unfold find_source. rewrite S. destruct (edepth w); reflexivity.
Qed.
Lemma look_within {A} (down : err -> option A) x e : (forall k c, down (EHyper k c) = None) -> (forall s, down (EOther s) = None) ->
  within x e -> look down e = look down x.
Proof.
  intros Hk Ho W. induction W as [|k e W IH|e W IH]; [reflexivity| |]; unfold look at 1; [rewrite Hk|rewrite Ho]; rewrite find_step; exact IH.
Qed.
(* A proxy: the reset it received from upstream, in whatever wrapping its service or
   its body returns it, is the reset it sends downstream *)
Theorem C82_reason_forwarded : forall r x e, reset_seen r x -> within x e -> h2_reason (new_user_service e) = r /\ h2_reason (new_user_body e) = r.
Proof.
  intros r x e Hx W. assert (look down_h2 e = Some (Some r)) as L by (rewrite (look_within down_h2 x e); [destruct Hx as [-> | ->]; reflexivity|reflexivity|reflexivity|exact W]).
  unfold h2_reason. rewrite !find_step. cbn [source new_user_service new_user_body]. now rewrite L.
Qed.
(* Any other reason than INTERNAL_ERROR (2, RFC 9113 section 7) comes from an h2::Error on the way, the first *)
Theorem C82_reason_from_h2 : forall e, h2_reason e <> 2 -> exists xs, path e xs (EH2 (Some (h2_reason e))) /\ Forall (fun y => forall r, y <> EH2 r) xs.
Proof. change 2 with INTERNAL_ERROR.
  intros e H. unfold h2_reason in *. destruct (find_source down_h2 e) as [[r|]|] eqn:E; [|congruence|congruence].
  apply C82_find in E as (xs & x & P & D & F). destruct x; try discriminate D. cbn in D. injection D as ->. exists xs. split; [exact P|].
  eapply Forall_impl; [|exact F]. intros y Hy r' ->. discriminate Hy.
Qed.
(* The reason is lost when the error was inside a std::io::Error, as what an HTTP/2
   tunnel's poll_read returns is *)
Theorem C82_reason_tunnel_refuted : forall r, r <> 2 -> h2_reason (new_user_service (h2_to_io_error (EH2 (Some r)))) = 2 /\ h2_reason (new_user_body (h2_to_io_error (EH2 (Some r)))) <> r.
Proof. change 2 with INTERNAL_ERROR. intros r H. split; [reflexivity|]. cbn. congruence. Qed.
(* Behind the error with which a tunnel's read or write fails is what is behind the
   error of the transport, or else what is behind h2's error: nothing is put between *)
Theorem C82_tunnel_transparent : forall A (down : err -> option A) e,
  find_source down (h2_to_io_error e) = find_source down (match e with EH2Io io => EIo io | _ => e end).
Proof. intros A down e. rewrite !find_step. now destruct e. Qed.
(* A keep-alive that timed out below h2 is still found *)
Example C82_tunnel_ex : find_source down_timed_out (h2_to_io_error (EH2Io (Some keep_alive_error))) = Some tt /\ is_timeout (new_user_body (h2_to_io_error (EH2Io (Some EKeepAlive)))) = true.
Proof. split; reflexivity. Qed.
(* An error of the transport below h2 is forwarded as INTERNAL_ERROR *)
Theorem C82_reason_transport : forall io e, within (new_h2 (EH2Io io)) e -> source (EIo io) = None -> h2_reason (new_user_service e) = 2.
Proof. change 2 with INTERNAL_ERROR.
  intros io e W S. unfold h2_reason. rewrite find_step. cbn [source new_user_service].
  rewrite (look_within down_h2 _ e (fun _ _ => eq_refl) (fun _ => eq_refl) W). unfold look. cbn [down_h2 new_h2]. rewrite find_step. cbn [source new_h2]. unfold look. cbn [down_h2]. rewrite find_step, S. reflexivity.
Qed.

(* ---- timeouts ---- *)
Theorem C82_timeout : forall e, is_timeout e = true <-> kind_of e = Some KHeaderTimeout \/ exists xs, path e xs ETimedOut.
Proof.
  intros e. split.
  - intros H. assert (kind_of e = Some KHeaderTimeout \/ find_source down_timed_out e <> None) as [K|K].
    { unfold is_timeout in H. destruct (kind_of e) as [[]|]; auto; right; destruct (find_source _ _); congruence. }
    + now left.
    + right. destruct (find_source down_timed_out e) as [[]|] eqn:E; [|congruence]. apply C82_find in E as (xs & x & P & D & _). destruct x; try discriminate D. eauto.
  - intros [K|(xs & P)]; unfold is_timeout; [now rewrite K|]. pose proof (find_reached down_timed_out e xs ETimedOut P ltac:(discriminate)) as F. destruct (find_source _ e); [|congruence]. destruct (kind_of e) as [[]|]; reflexivity.
Qed.
(* The error of a keep-alive that timed out is a timeout in whatever wrapping *)
Theorem C82_keep_alive_timeout : forall e, within keep_alive_error e -> is_timeout e = true /\ is_timeout (new_user_service e) = true /\ is_timeout (new_user_body e) = true.
Proof.
  intros e W. assert (look down_timed_out e = Some tt) as L by (rewrite (look_within down_timed_out _ e (fun _ _ => eq_refl) (fun _ => eq_refl) W); reflexivity).
  assert (forall w, source w = Some e -> is_timeout w = true) as G by (intros w S; unfold is_timeout; rewrite find_step, S, L; destruct (kind_of w) as [[]|]; reflexivity).
  split; [|split; apply G; reflexivity].
  unfold look in L. unfold is_timeout. destruct (down_timed_out e) eqn:D; [|rewrite L; destruct (kind_of e) as [[]|]; reflexivity].
  destruct e; try discriminate D. inversion W.
Qed.
(* A header read timeout is one only as long as it is not wrapped *)
Theorem C82_header_timeout_refuted : is_timeout (EHyper KHeaderTimeout None) = true /\ is_timeout (EOther (Some (EHyper KHeaderTimeout None))) = false /\ is_timeout (new_user_service (EHyper KHeaderTimeout None)) = false.
Proof. repeat split. Qed.

(* ---- the questions ---- *)
Definition classes : list (err -> bool) := [is_parse; is_user; is_canceled; is_closed; is_incomplete_message; is_shutdown].
(* At most one of them is answered with yes; the finer ones belong to the coarser ones
   and exclude each other *)
Theorem C82_classes : forall e,
  (forall i j p q, nth_error classes i = Some p -> nth_error classes j = Some q -> p e = true -> q e = true -> i = j) /\
  (is_parse_too_large e = true -> is_parse e = true /\ is_parse_status e = false /\ is_parse_version_h2 e = false) /\
  (is_parse_status e = true -> is_parse e = true /\ is_parse_version_h2 e = false) /\
  (is_parse_version_h2 e = true -> is_parse e = true) /\ (is_body_write_aborted e = true -> is_user e = true).
Proof.
  intros e. unfold classes, is_parse, is_user, is_canceled, is_closed, is_incomplete_message, is_shutdown, is_parse_too_large, is_parse_status, is_parse_version_h2, is_body_write_aborted. split.
  - intros i j p q Hi Hj Hp Hq. do 6 (destruct i as [|i]; [cbn in Hi; injection Hi as <-; do 6 (destruct j as [|j]; [cbn in Hj; injection Hj as <-; destruct (kind_of e) as [[]|]; reflexivity || discriminate Hp || discriminate Hq|]); destruct j; discriminate Hj|]). destruct i; discriminate Hi.
  - destruct (kind_of e) as [[p|u| | | | | | | | | |]|]; repeat split; try discriminate; try (destruct p; discriminate || reflexivity); auto.
Qed.
(* Each question is about one kind of error *)
Theorem C82_answers : forall k c,
  (is_body_write_aborted (EHyper k c) = true <-> k = KUser UBodyWriteAborted) /\ (is_canceled (EHyper k c) = true <-> k = KCanceled) /\
  (is_closed (EHyper k c) = true <-> k = KClosed) /\ (is_incomplete_message (EHyper k c) = true <-> k = KIncomplete) /\ (is_shutdown (EHyper k c) = true <-> k = KShutdown) /\
  (is_user (EHyper k c) = true <-> exists u, k = KUser u) /\ (is_parse (EHyper k c) = true <-> exists q, k = KParse q) /\
  (is_parse_status (EHyper k c) = true <-> k = KParse PStatus) /\ (is_parse_version_h2 (EHyper k c) = true <-> k = KParse PVersionH2).
Proof. intros k c. destruct k as [q|u| | | | | | | | | |]; [destruct q|destruct u|..]; cbn; repeat split; intros H; eauto; try discriminate H; try (destruct H as (? & H); discriminate H). Qed.
(* A head that is too large is what the server answers with 431 or 414 *)
Theorem C82_too_large : forall p c, is_parse_too_large (EHyper (KParse p) c) = true <-> server_on_error p = Some 431 \/ server_on_error p = Some 414.
Proof. intros p c. destruct p; cbn; split; auto; try discriminate; intros [H|H]; discriminate H. Qed.
(* The C interface: an error is never HYPERE_OK; the codes mean what they say *)
Theorem C82_code : forall e, code e <> HOk /\ (code e = HInvalidPeer <-> is_parse e = true) /\ (code e = HUnexpectedEof <-> is_incomplete_message e = true) /\
  (code e = HAborted <-> kind_of e = Some (KUser UAborted)).
Proof. intros e. unfold code, is_parse, is_incomplete_message. destruct (kind_of e) as [[p|u| | | | | | | | | |]|]; try destruct u; repeat split; try discriminate; auto. Qed.

(* ---- Examples ---- *)
(* HTTP_1_1_REQUIRED from upstream, wrapped twice *)
Example C82_ex : let e := EOther (Some (EHyper KBody (Some (new_h2 (EH2 (Some 13)))))) in within (new_h2 (EH2 (Some 13))) e /\ h2_reason (new_user_service e) = 13.
Proof. split; [apply within_other, within_hyper, within_self|reflexivity]. Qed.
Example C82_timeout_ex : within keep_alive_error (new_body keep_alive_error) /\ path (new_body keep_alive_error) [keep_alive_error; EKeepAlive] ETimedOut.
Proof. split; [apply within_hyper, within_self|]. repeat (eapply path_more; [reflexivity|]). now constructor. Qed.
Print Assumptions C82_find.
Print Assumptions C82_reason_forwarded.
Print Assumptions C82_reason_from_h2.
Print Assumptions C82_reason_tunnel_refuted.
Print Assumptions C82_reason_transport.
Print Assumptions C82_timeout.
Print Assumptions C82_keep_alive_timeout.
Print Assumptions C82_header_timeout_refuted.
Print Assumptions C82_classes.
Print Assumptions C82_too_large.
Print Assumptions C82_code.
Print Assumptions C82_answers.
Print Assumptions C82_tunnel_transparent.
