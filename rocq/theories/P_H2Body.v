(* C42: a body is sent over HTTP/2 frame by frame, in order, with one end. *)
From Verif Require Import Base M_HeaderMap M_H2Body.

(* ---- Specification ---- *)
(* The frames that a body stands for: its data frames up to and including the one
   after which it says it has ended, its trailers, an empty frame if it just ends,
   a reset if it fails. *)
Fixpoint script (l : list bev) : list hev :=
  match l with
  | [] => [HData [] true]
  | BData d true :: _ => [HData d true]
  | BData d false :: r => HData d false :: script r
  | BTrailers h :: _ => [HTrailers h]
  | BErr :: _ => [HReset]
  | BOther :: r | BPending :: r => script r
  end.
(* A frame that ends the stream *)
Definition ends (e : hev) : bool := match e with HData _ eos => eos | HTrailers _ => true | HReset => false end.
Definition is_data (e : hev) : Prop := exists d, e = HData d false.
Definition data_of_body (l : list bev) : bytes := flat_map (fun e => match e with BData d _ => d | _ => [] end) l.
Definition data_sent (l : list hev) : bytes := flat_map (fun e => match e with HData d _ => d | _ => [] end) l.
(* is_end_stream only says so when no data, trailers or error follow *)
Fixpoint honest (l : list bev) : Prop :=
  match l with
  | [] => True
  | BData _ true :: r => Forall (fun e => e = BPending \/ e = BOther) r
  | BTrailers _ :: r => Forall (fun e => e = BPending \/ e = BOther) r
  | _ :: r => honest r
  end.

(* ---- Lemmas ---- *)
Definition todo (p : pipe) : list hev :=
  match pp_buffered p with
  | None => script (pp_body p)
  | Some (d, true) => [HData d true]
  | Some (d, false) => HData d false :: script (pp_body p)
  end.
Lemma script_shape l : exists a e, script l = a ++ [e] /\ Forall is_data a /\ (ends e = true \/ e = HReset).
Proof.
  induction l as [|b l (a & e & E & F & H)].
  - exists [], (HData [] true). cbn. auto.
  - destruct b as [d [|]|h| | |]; cbn [script].
    + exists [], (HData d true). cbn. auto.
    + exists (HData d false :: a), e. rewrite E. split; [reflexivity|]. split; [constructor; [now exists d|exact F]|exact H].
    + exists [], (HTrailers h). cbn. auto.
    + exists a, e. auto.
    + exists [], HReset. cbn. auto.
    + exists a, e. auto.
Qed.
Lemma todo_cons p : exists e r, todo p = e :: r.
Proof.
  unfold todo. destruct (pp_buffered p) as [(d, [|])|]; eauto. destruct (script_shape (pp_body p)) as ([|x a] & e & -> & _); cbn; eauto.
Qed.
(* One iteration *)
Lemma iter_todo i p p' o : pipe_iter i p = (p', o) ->
  match o with
  | PoLoop | PoPending => pp_log p' ++ todo p' = pp_log p ++ todo p
  | PoOk => pp_log p' = pp_log p ++ todo p /\ exists e, ends e = true /\ todo p = [e]
  | PoUser => pp_log p' = pp_log p ++ todo p /\ todo p = [HReset]
  | PoErr => pp_log p' = pp_log p
  end.
Proof.
  unfold pipe_iter. destruct (hi_reset i); [|intros E; inversion E; reflexivity|intros E; inversion E; reflexivity].
  destruct p as [buf body log]. unfold todo, pp_send. cbn [pp_buffered pp_body pp_log]. destruct buf as [(d, eos)|].
  - destruct (hi_cap i); try (intros E; inversion E; subst; reflexivity). destruct (hi_sent i), eos; intros E; inversion E; subst; cbn [pp_log pp_buffered pp_body]; try reflexivity.
    + split; [reflexivity|]. exists (HData d true). auto.
    + rewrite <- app_assoc. reflexivity.
  - destruct body as [|[d eos|h| | |] r].
    + destruct (hi_sent i); intros E; inversion E; subst; cbn [pp_log]; [|reflexivity]. split; [reflexivity|]. exists (HData [] true). auto.
    + destruct (lenN d =? 0) eqn:Ed.
      * destruct (hi_sent i), eos; intros E; inversion E; subst; cbn [pp_log pp_buffered pp_body script]; try reflexivity.
        -- split; [reflexivity|]. exists (HData d true). auto.
        -- rewrite <- app_assoc. reflexivity.
      * intros E; inversion E; subst; cbn [pp_log pp_buffered pp_body script]. destruct eos; reflexivity.
    + destruct (hi_sent i); intros E; inversion E; subst; cbn [pp_log]; [|reflexivity]. split; [reflexivity|]. exists (HTrailers h). auto.
    + intros E; inversion E; subst; reflexivity.
    + intros E; inversion E; subst. cbn. auto.
    + intros E; inversion E; subst; reflexivity.
Qed.
Lemma run_todo l : forall start p p' o, pipe_run start p l = (p', o) ->
  match o with
  | None => pp_log p' ++ todo p' = pp_log p ++ todo p
  | Some PoOk => pp_log p' = pp_log p ++ todo p /\ exists a e, ends e = true /\ pp_log p' = a ++ [e]
  | Some PoUser => pp_log p' = pp_log p ++ todo p /\ exists a, pp_log p' = a ++ [HReset]
  | Some PoErr => exists a e r, (pp_log p' = a \/ pp_log p' = a ++ [HReset]) /\ a ++ e :: r = pp_log p ++ todo p
  | Some _ => False
  end.
Proof.
  induction l as [|(c, i) l IH]; intros start p p' o; cbn [pipe_run]; [intros E; inversion E; reflexivity|].
  destruct (start && c).
  { intros E; inversion E; subst. destruct (todo_cons p) as (e & r & Et). exists (pp_log p), e, r. cbn. rewrite Et. auto. }
  destruct (pipe_iter i p) as (q, x) eqn:Ei. apply iter_todo in Ei. destruct x.
  1,2: intros E; apply IH in E; rewrite <- Ei; exact E.
  - intros E; inversion E; subst. destruct Ei as (Ei & e & He & Et). split; [exact Ei|]. exists (pp_log p), e. split; [exact He|]. now rewrite Ei, Et.
  - intros E; inversion E; subst. destruct (todo_cons p) as (e & r & Et). exists (pp_log p), e, r. rewrite Et. auto.
  - intros E; inversion E; subst. destruct Ei as (Ei & Et). split; [exact Ei|]. exists (pp_log p). now rewrite Ei, Et.
Qed.

(* ---- Theorems ---- *)
(* What is sent, for every way in which h2 behaves and at every moment: a proper
   beginning of the script while unfinished; the script, with its one end, if
   sending reports success; the script, ending in a reset, if the body failed; a
   proper beginning, possibly followed by a reset, if the stream failed or the
   response was cancelled. *)
Theorem C42_sent : forall body start l p o, pipe_run start (pipe_new body) l = (p, o) ->
  exists rest, match o with
  | None => pp_log p ++ rest = script body /\ rest <> []
  | Some PoOk => pp_log p = script body /\ exists a e, pp_log p = a ++ [e] /\ ends e = true /\ Forall is_data a
  | Some PoUser => pp_log p = script body /\ exists a, pp_log p = a ++ [HReset] /\ Forall is_data a
  | Some PoErr => exists a, (pp_log p = a \/ pp_log p = a ++ [HReset]) /\ a ++ rest = script body /\ rest <> [] /\ Forall is_data a
  | Some _ => False
  end.
Proof.
  intros body start l p o E. apply run_todo in E. cbn [pipe_new pp_log pp_buffered pp_body todo app] in E. unfold todo in E. cbn [pipe_new pp_buffered pp_body] in E. fold (todo p) in E.
  destruct (script_shape body) as (a & e & Es & Fa & He).
  assert (forall x y, x ++ y = script body -> y <> [] -> Forall is_data x) as Pre.
  { intros x y Exy Hy. rewrite Es in Exy. destruct (exists_last Hy) as (y' & z & ->). rewrite app_assoc in Exy. apply app_inj_tail in Exy. destruct Exy as (<- & _). apply Forall_app in Fa. apply Fa. }
  destruct o as [[| | | |]|].
  - exists []. exact E.
  - exists []. exact E.
  - exists []. destruct E as (E1 & a' & e' & H1 & H2). split; [exact E1|]. exists a', e'. split; [exact H2|]. split; [exact H1|]. apply (Pre a' [e']); [congruence|discriminate].
  - destruct E as (a' & e' & r & H1 & H2). exists (e' :: r). exists a'. split; [exact H1|]. split; [exact H2|]. split; [discriminate|]. apply (Pre a' (e' :: r)); [exact H2|discriminate].
  - exists []. destruct E as (E1 & a' & H). split; [exact E1|]. exists a'. split; [exact H|]. apply (Pre a' [HReset]); [congruence|discriminate].
  - exists (todo p). split; [exact E|]. destruct (todo_cons p) as (x & y & ->). discriminate.
Qed.
(* With an honest is_end_stream the script carries all of the body's data *)
Theorem C42_whole : forall body start l p, honest body -> pipe_run start (pipe_new body) l = (p, Some PoOk) ->
  data_sent (pp_log p) = data_of_body body /\ ~ In HReset (pp_log p) /\
  (forall h, In (BTrailers h) body -> exists a, pp_log p = a ++ [HTrailers h]).
Proof.
  intros body start l p Hh Hr. destruct (C42_sent _ _ _ _ _ Hr) as (_ & E & a & e & Ea & He & Fa).
  assert (forall r, Forall (fun e => e = BPending \/ e = BOther) r -> data_of_body r = [] /\ forall h, ~ In (BTrailers h) r) as T.
  { intros r F. induction F as [|x r [-> | ->] F (IH1 & IH2)]; [split; [reflexivity|auto]| |]; (split; [exact IH1|]); intros h [Q|Q]; try discriminate Q; exact (IH2 h Q). }
  split; [|split].
  - rewrite E in *. clear Hr p E. revert a Ea Fa. induction body as [|b body IH]; intros a Ea Fa; [reflexivity|]. destruct b as [d [|]|h| | |]; cbn [script honest] in *.
    + cbn. destruct (T _ Hh) as (Q & _). unfold data_of_body in Q. now rewrite Q.
    + destruct a as [|x a]; [cbn in Ea; inversion Ea; subst; discriminate He|]. inversion Ea; subst. inversion Fa; subst. cbn. f_equal. apply (IH Hh a); assumption.
    + cbn. destruct (T _ Hh) as (Q & _). symmetry. exact Q.
    + apply (IH Hh a); assumption.
    + destruct a as [|x a]; [|destruct a; discriminate Ea]. inversion Ea; subst. discriminate He.
    + apply (IH Hh a); assumption.
  - rewrite Ea. intros F. apply in_app_or in F. destruct F as [F|[F|[]]]; [|subst e; discriminate He]. rewrite Forall_forall in Fa. destruct (Fa _ F) as (d & Q). discriminate Q.
  - intros h Hin. rewrite E in *. clear Hr p E Fa. revert a Ea. induction body as [|b body IH]; intros a Ea; [destruct Hin|]. destruct b as [d [|]|h'| | |]; cbn [script honest] in *.
    + destruct Hin as [Q|Q]; [discriminate Q|]. destruct (T _ Hh) as (_ & Q2). destruct (Q2 h Q).
    + destruct Hin as [Q|Q]; [discriminate Q|]. destruct a as [|x a]; [cbn in Ea; inversion Ea; subst; discriminate He|]. inversion Ea; subst. destruct (IH Hh Q a ltac:(assumption)) as (y & Ey). exists (HData d false :: y). cbn. now rewrite <- Ey.
    + destruct Hin as [Q|Q]; [inversion Q; subst; now exists []|]. destruct (T _ Hh) as (_ & Q2). destruct (Q2 h Q).
    + destruct Hin as [Q|Q]; [discriminate Q|]. apply (IH Hh Q a); assumption.
    + destruct a as [|x a]; [|destruct a; discriminate Ea]. inversion Ea; subst. discriminate He.
    + destruct Hin as [Q|Q]; [discriminate Q|]. apply (IH Hh Q a); assumption.
Qed.
(* When h2 grants capacity and reports no reset, sending finishes *)
Definition willing (x : bool * hin) : Prop := x = (false, mkHin RNone CapYes true).
Theorem C42_finishes : forall body start l, Forall willing l -> (2 * length body < length l)%nat ->
  exists p o, pipe_run start (pipe_new body) l = (p, Some o) /\ pp_log p = script body.
Proof.
  intros body start l Fl Hl.
  assert (forall l start p, Forall willing l -> (2 * length (pp_body p) + (if pp_buffered p then 1 else 0) < length l)%nat -> exists p' o, pipe_run start p l = (p', Some o) /\ (o = PoOk \/ o = PoUser)) as Q.
  { clear. induction l as [|x l IH]; intros start p Fl Hl; [cbn in Hl; lia|]. inversion Fl; subst. rewrite H1 in *. cbn [pipe_run]. rewrite andb_false_r. destruct p as [buf body log]. unfold pipe_iter, pp_send. cbn [hi_reset hi_cap hi_sent pp_buffered pp_body pp_log length] in *.
    destruct buf as [(d, [|])|]; [eauto|apply IH; [assumption|cbn; lia]|]. destruct body as [|[d eos|h| | |] r]; cbn [length] in Hl; [eauto| |eauto| |eauto|].
    - destruct (lenN d =? 0); [destruct eos; [eauto|]|]; apply IH; try assumption; cbn; lia.
    - apply IH; [assumption|cbn; lia].
    - apply IH; [assumption|cbn; lia]. }
  destruct (Q l start (pipe_new body) Fl) as (p & o & E & Ho); [cbn; lia|]. exists p, o. split; [exact E|]. destruct (C42_sent _ _ _ _ _ E) as (rest & H). destruct Ho as [-> | ->]; apply H.
Qed.
Example C42_ex : honest [BData [1] false; BPending; BData [2; 3] false; BTrailers []; BOther] /\
  (let r := pipe_run true (pipe_new [BData [1] false; BPending; BData [2; 3] false; BTrailers []; BOther])
              (let ok := (false, mkHin RNone CapYes true) in [ok; (false, mkHin RNone CapPending true); ok; ok; (true, mkHin RNone CapYes true); ok; ok]) in
   snd r = Some PoErr /\ pp_log (fst r) = [HData [1] false; HReset]) /\
  (let r := pipe_run true (pipe_new [BData [1] false; BPending; BData [2; 3] false; BTrailers []; BOther]) (repeat (false, mkHin RNone CapYes true) 8) in
   snd r = Some PoOk /\ pp_log (fst r) = [HData [1] false; HData [2; 3] false; HTrailers []]).
Proof. split; [cbn; repeat constructor; right; reflexivity|]. repeat split. Qed.

Print Assumptions C42_sent.
Print Assumptions C42_whole.
Print Assumptions C42_finishes.
