(* C67: a request head that cannot be accepted is refused with the status that it
   calls for; no other head is refused. *)
From Verif Require Import M_Httparse.
From Verif Require Import Base M_Src M_Decode S_Buf L_Buf S_Transport S_Chunked S_Read L_Decode L_Chunked L_Body L_Read M_HeaderMap M_Headers M_Encode M_Role M_RoleEncode M_Buf M_WriteBuf M_Read M_Conn M_Dispatch S_Conn S_Framing L_Headers L_Framing L_Fold P_Framing S_Inbound S_Head L_Conn L_Moves L_ConnS L_Ka L_Exch L_BodyTx L_Done L_View L_Upgrade L_Inbound P_Conn P_Requests L_Return P_Graceful L_Report P_Report P_View P_Upgrade P_Inbound M_Parse S_Parse P_Parse S_Refuse.

(* ---- The parser ---- *)
Lemma names_short lines : names_fit lines = true <-> Forall (fun l => lenN (fst l) < 65536) lines.
Proof. unfold names_fit. rewrite forallb_forall, Forall_forall. split; intros H l F; specialize (H l F); now apply N.ltb_lt in H || apply N.ltb_lt. Qed.
(* Which lines are at fault, if the lines of a head are refused *)
Definition lines_at_fault (lines : list S_Framing.line) (e : parse_error) : Prop :=
  (e = PTooLarge /\ over_long lines) \/ ((e = PTeUnexpected \/ e = PTeInvalid \/ e = PClInvalid) /\ ~ over_long lines).
Lemma fv_In n k v b lines : lines = k ++ (n, v) :: b -> In v (field_values (lower n) lines).
Proof. intros ->. rewrite fv_app, fv_cons. cbn [fst snd]. rewrite beq_refl. apply in_or_app. right. now left. Qed.
Lemma not_both : CL = TE -> False. Proof. discriminate. Qed.
(* The lines so far were accepted, so none of them is over-long *)
Lemma accepted_not_over v11 p l : Inv v11 p l -> ~ over_long p.
Proof.
  intros [I1 I2 I3 I4 I5 I6 I7 I8] (b & n & v & a & m & -> & En & Hb & Hc & Hv & Hm & _). apply beq_eq in En. change (B "content-length") with CL in En. apply beq_eq in En.
  assert (X : forall k, cls_agree (cl_lines (before_te (b ++ (n, v) :: a))) k -> False).
  { intros k [K1 K2]. rewrite before_te_app, Hb in K2. cbn [before_te fst] in K2. rewrite En in K2. change (beq CL (B "transfer-encoding")) with false in K2. cbv iota in K2.
    rewrite Forall_forall in K2. specialize (K2 v). assert (F : In v (cl_lines (b ++ (n, v) :: before_te a))).
    { unfold cl_lines. change (B "content-length") with CL. rewrite <- En. eapply fv_In. reflexivity. }
    pose proof (cl_means_fun _ _ _ Hv (K2 F)). subst. unfold supported_length in K1. lia. }
  destruct (te_values (b ++ (n, v) :: a)) eqn:Et.
  - assert (F : In v (cl_lines (b ++ (n, v) :: a))). { unfold cl_lines. change (B "content-length") with CL. rewrite <- En. eapply fv_In. reflexivity. }
    destruct I5 as (k & _ & _ & K1 & K2); [auto|intros E; rewrite E in F; destruct F|]. rewrite Forall_forall in K2.
    pose proof (cl_means_fun _ _ _ Hv (K2 _ F)). subst. unfold supported_length in K1. lia.
  - destruct I4 as (_ & _ & (k & K) & _); [congruence|]. eauto.
Qed.
(* ... and a line that speaks of the body hides what comes after it *)
Lemma hidden p x r : ~ over_long p -> te_values (p ++ [x]) <> [] \/ cl_lines (p ++ [x]) <> [] -> ~ over_long (p ++ [x]) -> ~ over_long (p ++ x :: r).
Proof.
  intros H1 Hs H2 (b & n & v & a & m & E & En & Hb & Hc & Hv & Hm). replace (p ++ x :: r) with ((p ++ [x]) ++ r) in E by (rewrite <- app_assoc; reflexivity).
  apply app_eq_app in E as (l & [[E1 E2]|[E1 E2]]).
  - destruct l as [|y l].
    + rewrite app_nil_r in E1. rewrite E1 in Hs. destruct Hs as [Hs|Hs]; congruence.
    + injection E2 as <- ->. apply H2. exists b, n, v, l, m. repeat (split; [assumption|]). exact Hm.
  - subst b. unfold te_values in Hb. unfold cl_lines in Hc. rewrite fv_app in Hb, Hc. apply app_eq_nil in Hb as [Hb _]. apply app_eq_nil in Hc as [Hc _]. destruct Hs as [Hs|Hs]; [exact (Hs Hb)|exact (Hs Hc)].
Qed.
Lemma line_at_fault v11 p l x r e : Inv v11 p l -> server_line v11 l x = Err e -> lines_at_fault (p ++ x :: r) e.
Proof.
  intros I H. pose proof (accepted_not_over _ _ _ I) as Hn. destruct I as [I1 I2 I3 I4 I5 I6 I7 I8]. destruct x as [raw value]. unfold server_line in H. change (B "transfer-encoding") with TE in H. change (B "content-length") with CL in H.
  destruct (beq (lower raw) TE) eqn:Ht.
  { apply beq_eq in Ht. destruct v11; [discriminate|]. injection H as <-. right. split; [auto|]. apply hidden; auto.
    - left. unfold te_values. rewrite fv_app, fv_cons. cbn [fst snd]. rewrite Ht. cbn. intros E. apply app_eq_nil in E as [_ E]. discriminate.
    - intros (b & n & v & a & m & E & En & Hb & Hc & Hv & Hm). destruct a as [|y a] using rev_ind.
      + apply app_inj_tail in E as [_ E]. injection E as -> _. rewrite Ht in En. discriminate.
      + clear IHa. rewrite app_comm_cons, app_assoc in E. apply app_inj_tail in E as [E _]. apply Hn. exists b, n, v, a, m. repeat (split; [assumption|]). exact Hm. }
  destruct (beq (lower raw) CL) eqn:Hc; [|repeat match type of H with context[if ?b then _ else _] => destruct b end; discriminate].
  apply beq_eq in Hc. cbn [l_is_te l_con_len] in H. destruct (l_is_te l) eqn:Ei; [discriminate|]. symmetry in I1. rewrite nonempty_false in I1.
  assert (K : (forall m, cl_lines p = [] -> cl_means value m -> ~ 2 ^ 64 - 2 <= m < 2 ^ 64) -> ~ over_long (p ++ (raw, value) :: r)).
  { intros K. apply hidden; auto.
    - right. unfold cl_lines. rewrite fv_app, fv_cons. cbn [fst snd]. rewrite Hc. cbn. intros E. apply app_eq_nil in E as [_ E]. discriminate.
    - intros (b & n & v & a & m & E & En & Hb & Hc' & Hv & Hm). destruct a as [|y a] using rev_ind.
      + apply app_inj_tail in E as [-> E]. injection E as -> ->. exact (K m Hc' Hv Hm).
      + clear IHa. rewrite app_comm_cons, app_assoc in E. apply app_inj_tail in E as [E _]. apply Hn. exists b, n, v, a, m. repeat (split; [assumption|]). exact Hm. }
  unfold content_length_parse in H. destruct (from_digits value) as [len|] eqn:Ef.
  - apply from_digits_spec in Ef as [Em Hle]. destruct (l_con_len l) as [prev|] eqn:Ec.
    + destruct (prev =? len) eqn:Ep; [discriminate|]. injection H as <-. right. split; [auto|]. apply K. intros m E0. destruct (I6 I1 E0); congruence.
    + assert (Hcl : cl_lines p = []). { destruct (cl_lines p) eqn:E0; auto. destruct I5 as (n & En & _); [auto|congruence|congruence]. }
      unfold dl_checked_new in H. destruct (N.leb_spec len MAX_LEN) as [Hm|Hm]; [discriminate|]. injection H as <-. left. split; [reflexivity|].
      exists p, raw, value, r, len. split; [reflexivity|]. split; [exact Hc|]. split; [exact I1|]. split; [exact Hcl|]. split; [exact Em|]. unfold MAX_LEN, u64_max in *. split; lia.
  - injection H as <-. right. split; [auto|]. apply K. intros m _ Hv [_ Hlt]. assert (from_digits value = Some m); [|congruence]. apply from_digits_spec. split; [exact Hv|]. unfold u64_max. lia.
Qed.
Lemma lines_fault v11 lines : forall p l e, Inv v11 p l -> server_lines v11 l lines = Err e -> lines_at_fault (p ++ lines) e.
Proof.
  induction lines as [|x r IH]; intros p l e I H; cbn [server_lines] in H; [discriminate|].
  pose proof (server_line_inv v11 p l x I) as J. destruct (server_line v11 l x) as [l'|e'] eqn:E.
  - specialize (IH _ _ _ J H). rewrite <- app_assoc in IH. exact IH.
  - injection H as <-. eapply line_at_fault; eauto.
Qed.
Lemma server_errors v11 method lines e : server_parse v11 method lines = Err e -> lines_at_fault lines e.
Proof.
  unfold server_parse. destruct (server_lines _ _ lines) as [l|e'] eqn:E; intros H.
  - pose proof (server_lines_inv v11 lines [] _ (inv_start v11 method)) as I. rewrite E in I. destruct (_ && _)%bool; [|discriminate]. injection H as <-.
    right. split; [auto|]. eapply accepted_not_over. exact I.
  - injection H as <-. exact (lines_fault _ _ [] _ _ (inv_start v11 method) E).
Qed.

(* Everything that the server's parser can say *)
Theorem C67_verdict : forall o max x, hp_room o max -> max <= 24576 -> hp_no_status o ->
  match parse_request o x with
  | PRet (PMore k) => k = 0 /\ h_request o x = HPartial
  | PRet (PDone n m) => exists q, h_request o x = HComplete n q /\ acceptable o q
  | PRet (PFail (p, _)) => exists st, reply_to p = Some st /\ refused o x st
  | _ => False
  end.
Proof.
  intros o max x (Hq & _) Hm Hn. unfold parse_request. destruct (h_request o x) as [n q| |e s] eqn:E.
  - unfold MAX_URI_LEN. destruct (N.ltb_spec 65534 (lenN (q_path q))) as [L|L]; [eexists; split; [reflexivity|eapply ref_long; eauto]|].
    destruct (h_method o (q_method q)) eqn:Em; cbn [negb]; [|eexists; split; [reflexivity|eapply ref_method; eauto]].
    destruct (names_fit (q_lines q)) eqn:En; cbn [negb]; [|eexists; split; [reflexivity|eapply ref_name; eauto; now apply names_long]]. apply names_short in En.
    destruct (h_uri o (q_path q)) eqn:Eu; cbn [negb]; [|eexists; split; [reflexivity|eapply ref_target; eauto]].
    specialize (Hq _ _ _ E). rewrite (proj2 (reserves_iff _)) by lia. cbn [negb].
    pose proof (C12_request_framing (q_minor1 q) (q_method q) (q_lines q)) as F. destruct (server_parse _ _ _) as [p|e] eqn:Es.
    + exists q. split; [reflexivity|]. constructor; auto. exists (framing_of (pm_decode p)). apply F.
    + destruct (server_errors _ _ _ _ Es) as [[-> O]|[O1 O2]]; [exists 431; split; [reflexivity|eapply ref_length; eauto]|].
      exists 400. split; [destruct O1 as [->|[-> | ->]]; reflexivity|eapply ref_body; eauto].
  - auto.
  - destruct e; try (eexists; split; [reflexivity|]; eapply ref_syntax; [exact E|discriminate]).
    + destruct (Hn _ _ E).
    + destruct s; (eexists; split; [reflexivity|]; eapply ref_syntax; [exact E|discriminate]).
    + eexists; split; [reflexivity|]. eapply ref_many; eauto.
Qed.
(* At most one status is called for, and none if the head is accepted *)
Lemma refused_one o x st st' : refused o x st -> refused o x st' -> st = st'.
Proof.
  intros H H'. destruct H as [s E|e s E Ne|n q E A|n q E A C|n q E A C D|n q E A C D F|n q E A C D F G I|n q E A C D F G];
    destruct H' as [s' E'|e' s' E' Ne'|n' q' E' A'|n' q' E' A' C'|n' q' E' A' C' D'|n' q' E' A' C' D' F'|n' q' E' A' C' D' F' G' I'|n' q' E' A' C' D' F' G']; try reflexivity; rewrite E in E'; try discriminate E'.
  all: try (injection E' as <- <-). all: try congruence. all: try lia. all: try (exfalso; clear - D D'; apply Exists_exists in D + apply Exists_exists in D'; rewrite Forall_forall in *; firstorder; lia). all: try (now exfalso).
  all: exfalso; repeat match goal with H : Exists _ _ |- _ => apply Exists_exists in H; destruct H as (? & ? & ?) end; rewrite ?Forall_forall in *; match goal with H : In ?l _, F : forall x, In x _ -> _ |- _ => specialize (F l H) end; lia.
Qed.
Lemma over_no_framing v11 lines f : over_long lines -> ~ request_framing v11 lines f.
Proof.
  intros O F. pose proof (request_framing_ok v11 [] lines) as R. unfold server_parse in R. pose proof (server_lines_inv v11 lines [] _ (inv_start v11 [])) as I.
  destruct (server_lines _ _ lines) as [l|e]; [exact (accepted_not_over _ _ _ I O)|exact (I f F)].
Qed.
Lemma refused_not o x st n q : refused o x st -> h_request o x = HComplete n q -> ~ acceptable o q.
Proof.
  intros H E' [A1 A2 A3 A4 (f & A5)]. destruct H as [s E|e s E Ne|m p E A|m p E A C|m p E A C D|m p E A C D F|m p E A C D F G I|m p E A C D F G]; rewrite E in E'; try discriminate E'; injection E' as <- <-; try congruence; try lia.
  - apply Exists_exists in D. destruct D as (l & D1 & D2). rewrite Forall_forall in A3. specialize (A3 l D1). lia.
  - exact (G f A5).
  - exact (over_no_framing _ _ f G A5).
Qed.
(* ... so the parser fails exactly on the heads that are to be refused *)
Theorem C67_refuses : forall o max x st, hp_room o max -> max <= 24576 -> hp_no_status o ->
  (refused o x st <-> exists p n, parse_request o x = PRet (PFail (p, n)) /\ reply_to p = Some st).
Proof.
  intros o max x st Hr Hm Hn. pose proof (C67_verdict o max x Hr Hm Hn) as V. destruct (parse_request o x) as [[k|n m|[p k]]| |] eqn:E.
  - destruct V as (_ & V). split; [intros R; destruct R; congruence|intros (p & n & F & _); discriminate].
  - destruct V as (q & V1 & V2). split; [intros R; destruct (refused_not _ _ _ _ _ R V1 V2)|intros (p & j & F & _); discriminate].
  - destruct V as (st' & V1 & V2). split.
    + intros R. rewrite (refused_one _ _ _ _ R V2). eauto.
    + intros (p' & n & F & R). injection F as <- <-. congruence.
  - destruct V.
  - destruct V.
Qed.

(* ---- The connection ---- *)
(* Where the parser stopped *)
Lemma parse_stop c me h09 max : parser_bounded c -> forall evs b partial s e, parse_loop (c_parse c me h09) max b partial evs = (s, Ready (Err e)) ->
  exists sk x z, b ++ data_of evs = sk ++ x ++ z /\ skipped c sk /\ match e with EParse e => c_parse c me h09 x = PFail e | ETooLarge => max <= lenN x | _ => True end.
Proof.
  intros Hb. assert (forall b partial n, parse_headers (c_parse c me h09) b partial = PMore n -> skipped c (takeN n b)) as Sk.
  { intros b partial n. unfold parse_headers. destruct b as [|x b]; [intros E; injection E as <-; constructor|].
    assert (forall n, c_parse c me h09 (x :: b) = PMore n -> skipped c (takeN n (x :: b))) as Q.
    { intros n0 E. change (skipped c ([] ++ takeN n0 (x :: b))). pose proof (Hb me h09 (x :: b)) as L. rewrite E in L. econstructor; eauto using sk_nil. }
    destruct partial as [k|]; [destruct (is_complete_fast _ _)|]; auto. intros E. injection E as <-. constructor. }
  assert (forall b partial e, parse_headers (c_parse c me h09) b partial = PFail e -> c_parse c me h09 b = PFail e) as Pf.
  { intros b partial e. unfold parse_headers. destruct b as [|x b]; [discriminate|]. destruct partial as [k|]; [destruct (is_complete_fast _ _)|]; auto. discriminate. }
  induction evs as [|ev evs IH]; intros b partial s e; cbn [parse_loop]; destruct (parse_headers _ b partial) as [n|n m|e'] eqn:Ep; try discriminate.
  2,4: intros E; injection E as <- <-; exists [], b; eexists; split; [reflexivity|]; split; [constructor|eauto].
  - specialize (Sk _ _ _ Ep). cbv zeta. destruct (N.leb_spec max (lenN (dropN n b))); intros E; injection E as <- <-; exists (takeN n b), (dropN n b), []; (split; [cbn [data_of]; now rewrite !app_nil_r, takeN_dropN|auto]).
  - specialize (Sk _ _ _ Ep). cbv zeta. assert (forall x, b ++ x = takeN n b ++ dropN n b ++ x) as S by (intros x; now rewrite app_assoc, takeN_dropN).
    destruct (N.leb_spec max (lenN (dropN n b))); [intros E; injection E as <- <-; exists (takeN n b), (dropN n b); eexists; rewrite S; auto|].
    destruct ev as [|d|]; [discriminate| |intros E; injection E as <- <-; exists (takeN n b), (dropN n b); eexists; rewrite S; auto].
    destruct (N.eqb_spec (lenN d) 0) as [Z|Z]; [intros E; injection E as <- <-; exists (takeN n b), (dropN n b); eexists; rewrite S; auto|].
    intros E. apply IH in E. destruct E as (sk & x & z & E1 & E2 & E3). exists (takeN n b ++ sk), x, z. split; [|split; [now apply skipped_app|exact E3]].
    cbn [data_of]. rewrite S, <- !app_assoc. f_equal. rewrite <- E1. now rewrite <- app_assoc.
Qed.
Definition nauto (e : levent) : bool := match e with LHead true _ _ => false | _ => true end.
Definition grows (k k' : conn) : Prop := exists l, k_log k' = k_log k ++ l /\ forallb nauto l = true.
Lemma grows_tame s k k' : tame s k k' -> grows k k'.
Proof.
  intros ((l & E & H) & _). exists l. split; [exact E|]. clear E. induction l as [|e l IH]; [reflexivity|]. cbn [forallb] in *. apply andb_prop in H. destruct H as (H1 & H2). rewrite (IH H2). destruct e as [ | | | | | | |[|] | | | | | | | | | | | ]; try discriminate H1; reflexivity.
Qed.
Lemma grows_same k k' : k_log k' = k_log k -> grows k k'.
Proof. intros E. exists []. now rewrite app_nil_r. Qed.
Lemma grows_trans k k' k'' : grows k k' -> grows k' k'' -> grows k k''.
Proof. intros (a & A1 & A2) (b & B1 & B2). exists (a ++ b). rewrite B1, A1, app_assoc, forallb_app, A2, B2. auto. Qed.
Lemma grows_log k l : forallb nauto l = true -> grows k (log k l).
Proof. intros H. exists l. auto. Qed.
(* [Q]: what is known of the bytes that have filled the buffer *)
Definition refusal (c : cfg) (Q : bytes -> Prop) (input : bytes) (a : list levent) (h : ohead) : Prop := exists wires sk x z st,
  input = concat wires ++ sk ++ x ++ z /\ Forall2 (message_wire c) wires (received a) /\ receiving a = None /\ skipped c sk /\ o_subject h = OResponse st None /\
  ((exists me h09 p n, c_parse c me h09 x = PFail (p, n) /\ server_on_error p = Some st) \/ st = 431 /\ c_max c <= lenN x /\ Q x).
Definition full_with (c : cfg) (Q : bytes -> Prop) (k : conn) : Prop := k_reading k = RInit -> forall me h09 s, io_parse (c_parse c me h09) (c_max c) (k_rd k) = (s, Ready (Err ETooLarge)) ->
  exists sk x z, stream (k_rd k) = sk ++ x ++ z /\ skipped c sk /\ c_max c <= lenN x /\ Q x.
Definition RF (c : cfg) (Q : bytes -> Prop) (input : bytes) (d : disp) : Prop := forall a h bs b, k_log (d_conn d) = a ++ LHead true h bs :: b -> refusal c Q input a h.
Lemma RF_grows c Q input d d' : grows (d_conn d) (d_conn d') -> RF c Q input d -> RF c Q input d'.
Proof.
  intros (l & E & G) H a h bs b F. rewrite E in F. destruct (app_cons_split _ _ _ _ _ F) as [(b' & E1 & ->)|(a' & -> & E2)]; [eapply H, E1|].
  rewrite E2, forallb_app in G. apply andb_prop in G. destruct G as (_ & G). discriminate G.
Qed.
Lemma refuse_head c Q input now blk k : c_server c = true -> parser_bounded c -> full_with c Q k -> k_reading k = RInit -> RI (fun _ => True) c input k ->
  let k' := fst (k_poll_read_head c now blk k) in grows k k' \/ exists h bs, k_log k' = k_log k ++ [LHead true h bs; LEnd] /\ refusal c Q input (k_log k) h.
Proof.
  intros Hs Hb HQ Er H. cbn zeta. unfold k_poll_read_head.
  assert (k_rd (start_timer c now k) = k_rd k /\ k_log (start_timer c now k) = k_log k) as (D0 & L0).
  { unfold start_timer. destruct (k_running k); [auto|]. destruct (c_timeout c); auto. }
  remember (start_timer c now k) as k0 eqn:Ek. clear Ek.
  destruct (io_parse _ _ (k_rd k0)) as [rd r] eqn:Ep. destruct r as [|[m|e]].
  - left. apply grows_same. cbn [k_running k_timer set_rd]. destruct (k_running k0), (k_timer k0) as [t|]; try exact L0. destruct (t <=? now); exact L0.
  - left. cbn [fst]. unfold got_head. rewrite Hs. set (k1 := if in_keep m then _ else _).
    assert (k_log k1 = k_log k) as L1. { subst k1. unfold busy, st_disable_keep_alive. destruct (k_ka (set_h09 (set_timer (set_method (set_rd k0 rd) (in_method m)) None false) false)), (in_keep m); exact L0. }
    clearbody k1. destruct (in_decode m =? DL_ZERO); [exists ([LIn m; LInEnd]); cbn; rewrite L1, <- app_assoc; auto|destruct (_ && _); exists [LIn m]; cbn; rewrite L1; auto].
  - destruct (parse_failure e) as [e' n] eqn:Ef. unfold on_read_head_error. set (k1 := set_rd (close_read (set_rd (set_rd k0 rd) _)) _).
    assert (k_log k1 = k_log k /\ k_ka k1 = KDisabled) as (L1 & K1) by (split; [exact L0|reflexivity]). clearbody k1.
    destruct (_ || _); [|left; now apply grows_same]. unfold on_parse_error. destruct (k_writing k1); try (left; now apply grows_same). destruct (has_h2_prefix k1); [left; now apply grows_same|].
    destruct (t_on_error c e') as [st|] eqn:Et; [|left; now apply grows_same]. cbn [fst]. right. unfold t_on_error in Et. rewrite Hs in Et. destruct e' as [p| | | | | | |]; try discriminate Et.
    destruct (write_auto c k1 (mkO HTTP11 (OResponse st None) [] None) Hs) as (W2 & h' & out & L2 & S2); [exists st, p; auto|exact K1|].
    exists h', out. split; [cbn [k_log set_error]; now rewrite L2, L1|].
    destruct H as (wires & tail & E1 & E2 & E3). unfold inpos in E3. destruct (receiving (k_log k)) as [g|] eqn:Eg.
    { rewrite Er in E3. destruct E3 as (? & ? & ? & ? & ? & _ & _ & _ & _ & _ & F). destruct F. }
    rewrite Er in E3. destruct E3 as (sk0 & A1 & A2). rewrite D0 in Ep.
    assert (exists sk x z, stream (k_rd k) = sk ++ x ++ z /\ skipped c sk /\ match e with EParse e => c_parse c (k_method k0) (k_h09 k0) x = PFail e | ETooLarge => c_max c <= lenN x /\ Q x | _ => True end) as (sk & x & z & P1 & P2 & P3).
    { destruct e; [unfold io_parse in Ep; apply (parse_stop c _ _ _ Hb) in Ep; exact Ep|exact (HQ Er _ _ _ Ep)|unfold io_parse in Ep; apply (parse_stop c _ _ _ Hb) in Ep; exact Ep..]. }
    exists wires, (sk0 ++ sk), x, z, st. rewrite E1, A2, P1, <- !app_assoc. do 3 (split; [auto|]). split; [now apply skipped_app|]. split; [exact S2|].
    destruct e as [[p' n']| | |]; cbn in Ef; try discriminate Ef; injection Ef as <- <-; [left; eauto 6|right]. split; [now injection Et as <-|exact P3].
Qed.

Lemma RF_stable c Q input (K : disp -> Prop) : c_server c = true -> parser_bounded c -> (forall d, K d -> full_with c Q (d_conn d)) -> stable c (fun _ => True) (fun d => RD (fun _ => True) c input d /\ K d) (RF c Q input).
Proof.
  intros Hs Hb HQ. assert (forall d k, grows (d_conn d) k -> RF c Q input d -> RF c Q input (dset_conn d k)) as RC by (intros d k; exact (RF_grows c Q input d (dset_conn d k))).
  assert (forall d l, forallb nauto l = true -> RF c Q input d -> RF c Q input (dlog d l)) as RL by (intros d l F; apply RC, grows_log, F).
  assert (forall d, RF c Q input d -> RF c Q input (d_close d)) as Cl by (intros d; apply RF_grows; now apply grows_same).
  apply stable_introJ.
  - intros d tx rx p _ H. exact H.
  - intros d e He _ H. apply RL; [|exact H]. destruct e; try discriminate He; reflexivity.
  - intros d _ H. split; [|split; [|split]]; intros; (apply RC; [|exact H]); unfold wants_read_again, pending_upgrade, take_error; cbn [fst]; [now apply grows_same|now apply grows_same| |].
    + destruct (k_error (d_conn d)); now apply grows_same.
    + eapply grows_trans; [|apply grows_log; destruct sent; reflexivity]. now apply grows_same.
  - intros d _ H _. now apply Cl.
  - intros i d (Hj & Hk) H _ Hc Hp. unfold d_poll_read_head. rewrite Hp.
    assert (k_reading (d_conn d) = RInit) as Er by (unfold can_read_head in Hc; destruct (k_reading (d_conn d)); try discriminate Hc; reflexivity).
    pose proof (refuse_head c Q input (i_now i) (i_blk i) (d_conn d) Hs Hb (HQ d Hk) Er Hj) as R. cbn zeta in R. destruct (k_poll_read_head c _ _ _) as [k r]. cbn [fst] in R.
    assert (RF c Q input (dset_conn d k)) as R0.
    { destruct R as [R|(h & bs & R & R')]; [now apply RC|]. intros a h' bs' b F. cbn [d_conn dset_conn] in F. rewrite R in F. destruct (app_cons_split _ _ _ _ _ F) as [(b' & E1 & ->)|(a' & -> & E2)]; [eapply H, E1|].
      destruct a' as [|e1 [|e2 [|e3 a']]]; cbn in E2; try discriminate E2. injection E2 as <- <- <-. now rewrite app_nil_r. }
    destruct r as [|[[m|e]|]].
    + exact R0.
    + set (d1 := if in_decode m =? DL_ZERO then _ else _). assert (RF c Q input d1) as R1.
      { subst d1. destruct (in_decode m =? DL_ZERO); [exact R0|]. cbn [d_body_tx dset_conn]. destruct (d_body_tx d); [|exact R0]. apply (RL (dset_conn d k)); [reflexivity|exact R0]. }
      clearbody d1. set (d2 := if in_upgrade m then _ else _). assert (RF c Q input d2) as R2 by (subst d2; destruct (in_upgrade m); [apply RC; [now apply grows_same|exact R1]|exact R1]). clearbody d2.
      unfold recv_ok. rewrite Hs. exact R2.
    + unfold recv_error. rewrite Hs. exact R0.
    + cbn [fst d_conn dset_conn]. destruct (is_write_closed k); [now apply Cl|exact R0].
  - intros i d _ H _ _. apply RC; [eapply grows_tame, (tame_drain true)|exact H].
  - intros i d _ H _ _. apply RC; [|exact H]. eapply grows_trans; [apply (grows_log (d_conn d) [LWant]); reflexivity|eapply grows_tame, (tame_read_body true)].
  - intros d _ H _. apply RC; [eapply grows_tame, (tame_close_read true)|exact H].
  - intros d _ H _ _ _. apply RC; [eapply grows_tame, (tame_keep_alive true)|exact H].
  - intros i d _ H. apply RC; [eapply grows_tame, (tame_flush true)|exact H].
  - intros i d _ _ H _ Hc Hp. unfold d_poll_msg. rewrite Hs. destruct (i_msg i) as [|[[h body]|e]]; [exact H| |exact H]. apply (RC (dset_in_flight d false)); [|exact H].
    destruct (write_head_report c (d_conn d) h body) as (l & L1 & [(L2 & _)|((out & ->) & _)]); [|eexists; split; [exact L1|reflexivity]].
    exists l. split; [exact L1|]. clear - L2. induction l as [|e l IH]; [reflexivity|]. cbn [forallb] in *. apply andb_prop in L2. destruct L2 as (H1 & H2). rewrite (IH H2). destruct e as [ | | | | | | |[|] | | | | | | | | | | | ]; try discriminate H1; reflexivity.
  - intros i d _ H _. apply RC; [eapply grows_tame, (tame_end true); now right|exact H].
  - intros i d b _ H _ _. apply RC; [eapply grows_tame, tame_body|exact H].
  - intros i d b _ H _ _. apply RC; [eapply (grows_tame true), tame_effect; [apply write_body_and_end_effect|apply body_and_end_error|now right]|exact H].
  - intros i d t _ H _ _. apply RC; [eapply grows_tame, tame_trailers|exact H].
  - intros d e _ H. unfold recv_error. rewrite Hs. exact H.
  - intros d _ H. rewrite d_drop_eq. apply (RF_grows c Q input d); [|exact H]. apply grows_log. unfold drop_events. rewrite !forallb_app.
    destruct (d_body_tx d), (d_callback d); cbn [forallb nauto andb]; induction (ch_queue (d_chan d)); auto.
  - intros e d _ H. destruct e as [s| | |]; cbn [estep].
    + destruct (c_server c); exact H.
    + destruct (d_pc d); try exact H. destruct (c_server c); [|exact H]. unfold d_graceful, k_disable_keep_alive.
      set (d1 := dset_conn d _). assert (RF c Q input d1) as H1 by (apply RC; [destruct (is_idle (d_conn d)); now apply grows_same|exact H]). clearbody d1.
      destruct (_ || _); [|exact H1]. now apply Cl.
    + destruct (d_pc d); try exact H. rewrite d_drop_eq. apply (RF_grows c Q input d); [|exact H]. apply grows_log. unfold drop_events. rewrite !forallb_app.
      destruct (d_body_tx d), (d_callback d); cbn [forallb nauto andb]; induction (ch_queue (d_chan d)); auto.
    + destruct (d_pc d), (k_log (d_conn d)); try exact H. destruct (c_server c); [|exact H]. apply RC; [now apply grows_same|exact H].
Qed.
Lemma reply_status p : reply_to p = server_on_error p.
Proof. destruct p; reflexivity. Qed.
Lemma server_says c o max me h09 x p n : c_server c = true -> parses_with c o -> hp_room o max -> max <= 24576 -> hp_no_status o ->
  c_parse c me h09 x = PFail (p, n) -> parse_request o x = PRet (PFail (p, n)).
Proof.
  intros Hs U Hr Hm Hn E. rewrite U, Hs in E. unfold role_parse, settle in E. pose proof (C67_verdict o max x Hr Hm Hn) as V. destruct (parse_request o x) as [r| |]; [now subst r|destruct V|destruct V].
Qed.

Lemma stable_true c good J : stable c good J (fun _ => True).
Proof. constructor; intros; auto; try (repeat split; auto). destruct (d_poll_msg c i d) as [d' [|[[[h body]|e]|]]]; exact Logic.I. Qed.
Lemma refused_run c Q K h09 flat wmax evs ms : c_server c = true -> parser_bounded c -> stable c (fun _ => True) (fun _ => True) K -> K (start h09 flat wmax evs) -> (forall d, K d -> full_with c Q (d_conn d)) ->
  forall a h bs b, history c h09 flat wmax evs ms = a ++ LHead true h bs :: b -> refusal c Q (data_of evs) a h.
Proof.
  intros Hs Hb SK K0 HQ.
  assert ((RD (fun _ => True) c (data_of evs) (after c h09 flat wmax evs ms) /\ K (after c h09 flat wmax evs ms)) /\ RF c Q (data_of evs) (after c h09 flat wmax evs ms)) as (_ & H); [|exact H].
  assert (stable c (fun _ => True) (RD (fun _ => True) c (data_of evs)) K) as SK'.
  { destruct SK. constructor; intros; try solve [eauto]; try match goal with H : forall i d, _ -> _ -> _ -> _ -> _ -> should_poll c d = true -> _ |- _ => apply H; auto end. }
  apply (Inv_run _ _ _ (stable_conj _ _ _ _ (stable_conj _ _ _ _ (RD_stable (fun _ => True) (fun _ _ _ H => H) c (data_of evs) (fun _ => True) Hb (fun _ _ _ => Logic.I)) SK') (RF_stable c Q (data_of evs) K Hs Hb HQ))); [intros; exact Logic.I|].
  split; [|intros a0 h0 bs0 b0 F; destruct a0; discriminate F]. split; [|exact K0]. exists [], (data_of evs). split; [reflexivity|]. split; [constructor|]. cbn. exists []. split; [constructor|reflexivity].
Qed.

Lemma refusal_means c o max Q input a h : c_server c = true -> parses_with c o -> hp_ok o -> hp_room o max -> max <= 24576 -> hp_no_status o -> refusal c Q input a h ->
  exists wires x z st, input = concat wires ++ x ++ z /\ Forall2 (request_wire c o) wires (received a) /\ receiving a = None /\
    o_subject h = OResponse st None /\ (refused o x st \/ st = 431 /\ c_max c <= lenN x /\ Q x).
Proof.
  intros Hs U Ho Hr Hm Hn (wires & sk & x & z & st & E1 & E2 & E3 & E4 & E5 & E6). pose proof (C66_request_parser c o Hs U Ho) as R. pose proof (request_bounded c R) as Hb.
  rewrite (never_skipped c sk R E4) in E1. exists wires, x, z, st. split; [exact E1|]. split.
  - revert E2. generalize (received a). clear - Hs U Ho R. intros gs F. induction F as [|w g ws gs M F IH]; constructor; [|exact IH].
    destruct M as (sk & head & body & -> & K & H & Hb). rewrite (never_skipped c sk R K). destruct (head_request c o head _ Hs U Ho H) as (q & p & Iq & _ & Es & Em).
    pose proof (C12_request_framing (q_minor1 q) (q_method q) (q_lines q)) as Hf. rewrite Es in Hf. destruct Hf as (Hf & _).
    exists head, body, q, (framing_of (pm_decode p)). rewrite Em. cbn [in_version in_method in_headers]. split; [reflexivity|]. split; [exact Iq|]. split; [reflexivity|]. split; [reflexivity|]. split; [|split; [exact Hf|]].
    + intros n Hn. destruct (server_parse_view _ _ _ _ Es) as (V & _). rewrite V. destruct (beq n CL) eqn:En; [|reflexivity]. apply beq_eq in En. contradiction.
    + apply body_framed in Hb. rewrite Em in Hb. exact Hb.
  - split; [exact E3|]. split; [exact E5|]. destruct E6 as [(me & h9 & p & n & P1 & P2)|E6]; [left|now right].
    apply (C67_refuses o max x st Hr Hm Hn). exists p, n. split; [eapply server_says; eauto|now rewrite reply_status].
Qed.

(* Every response that a server makes up by itself: the requests that came before
   it are complete; what follows them is a head that calls for that status, or it
   has filled the buffer. *)
Theorem C67_refused : forall c o max h09 flat wmax evs ms a h bs b, c_server c = true -> parses_with c o -> hp_ok o -> hp_room o max -> max <= 24576 -> hp_no_status o ->
  history c h09 flat wmax evs ms = a ++ LHead true h bs :: b ->
  exists wires x z st, data_of evs = concat wires ++ x ++ z /\ Forall2 (request_wire c o) wires (received a) /\ receiving a = None /\
    o_subject h = OResponse st None /\ (refused o x st \/ st = 431 /\ c_max c <= lenN x).
Proof.
  intros c o max h09 flat wmax evs ms a h bs b Hs U Ho Hr Hm Hn E. pose proof (C66_request_parser c o Hs U Ho) as R. pose proof (request_bounded c R) as Hb.
  destruct (refused_run c (fun _ => True) (fun _ => True) h09 flat wmax evs ms Hs Hb) with (a := a) (h := h) (bs := bs) (b := b) as (wires & sk & x & z & st & E1 & E2 & E3 & E4 & E5 & E6).
  { apply stable_true. }
  { exact Logic.I. }
  { intros d _ Er me h9 s Ep. unfold io_parse in Ep. apply (parse_stop c _ _ _ Hb) in Ep. destruct Ep as (sk & x & z & P1 & P2 & P3). exists sk, x, z. auto. }
  { exact E. }
  destruct (refusal_means c o max (fun _ => True) (data_of evs) a h Hs U Ho Hr Hm Hn) as (wires' & x' & z' & st' & Q1 & Q2 & Q3 & Q4 & Q5); [now exists wires, sk, x, z, st|].
  exists wires', x', z', st'. do 4 (split; [assumption|]). destruct Q5 as [Q5|(Q5 & Q6 & _)]; auto.
Qed.

(* A connection that fails because of a head has answered it, if there is an answer. *)
Theorem C67_answered : forall c h09 flat wmax evs ms a p b st, c_server c = true -> reply_to p = Some st ->
  history c h09 flat wmax evs ms = a ++ LReturn (Some (CParse p)) :: b -> exists h bs, In (LHead true h bs) a /\ o_subject h = OResponse st None.
Proof.
  intros c h09 flat wmax evs ms a p b st Hs Hp E. destruct (BI_all c h09 flat wmax evs Hs true ms (or_introl eq_refl)) as (_ & R). destruct (R _ _ _ E) as (_ & A). rewrite reply_status in Hp. exact (A p st eq_refl Hp).
Qed.

(* A server that is reading a head answers it as soon as it has come in. *)
Lemma dropN_app n (x : bytes) : exists y, x = y ++ dropN n x.
Proof. exists (takeN n x). now rewrite takeN_dropN. Qed.
Theorem C67_at_once : forall c o max h09 flat wmax evs ms i n x st rest, c_server c = true -> parses_with c o -> hp_room o max -> max <= 24576 -> hp_no_status o ->
  let d := after c h09 flat wmax evs ms in let rd := k_rd (d_conn d) in
  d_pc d = PRead n -> d_closing d = false -> k_reading (d_conn d) = RInit -> 0 < c_max c ->
  (r_buf rd = x /\ r_partial rd = None \/ r_buf rd = [] /\ r_evs rd = EvData x :: rest) -> x <> [] ->
  refused o x st -> (forall y z, x = y ++ z -> takeN 24 z <> preface) ->
  exists h bs, history c h09 flat wmax evs (ms ++ [Step i]) = history c h09 flat wmax evs ms ++ [LHead true h bs; LEnd] /\ o_subject h = OResponse st None.
Proof.
  intros c o max h09 flat wmax evs ms i n x st rest Hs U Hr Hm Hn d rd Hp Hc Er H0 Hx Nx Rx Px.
  apply (C67_refuses o max x st Hr Hm Hn) in Rx. destruct Rx as (p & k & Ep & Hst).
  unfold history. change (run c (ms ++ [Step i]) _) with (after c h09 flat wmax evs (ms ++ [Step i])). change (run c ms _) with d.
  assert (after c h09 flat wmax evs (ms ++ [Step i]) = dstep c i d) as -> by (unfold d, after; rewrite run_app; reflexivity).
  destruct (DD_all c h09 flat wmax evs Hs ms) as [F|((D & _) & _)]; [change (d_pc d = PDead) in F; congruence|]. change (after c h09 flat wmax evs ms) with d in D.
  pose proof (DI_init_false _ _ D Er) as Hf. destruct (di_init _ _ D Er) as (_ & Ew). clearbody d. subst rd.
  unfold dstep. rewrite Hp. unfold poll_read_it. rewrite Hc. unfold can_read_head. rewrite Er, Hs. unfold d_poll_read_head, d_poll_ready. rewrite Hs, Hf.
  unfold k_poll_read_head. set (k0 := start_timer c (i_now i) (d_conn d)).
  assert (k_rd k0 = k_rd (d_conn d) /\ k_log k0 = k_log (d_conn d) /\ k_writing k0 = WInit) as (D0 & L0 & W0).
  { subst k0. unfold start_timer. destruct (k_running (d_conn d)); [auto|]. destruct (c_timeout c); auto. }
  assert (forall me h9, c_parse c me h9 x = PFail (p, k)) as Pf. { intros me h9. rewrite U, Hs. unfold role_parse. now rewrite Ep. }
  assert (exists rd', io_parse (c_parse c (k_method k0) (k_h09 k0)) (c_max c) (k_rd k0) = (rd', Ready (Err (EParse (p, k)))) /\ r_buf rd' = x) as (rd' & Eio & Ebuf).
  { rewrite D0. unfold io_parse. assert (forall l, parse_loop (c_parse c (k_method k0) (k_h09 k0)) (c_max c) x None l = (mkR x None l, Ready (Err (EParse (p, k))))) as Q.
    { intros l. destruct l; cbn [parse_loop]; unfold parse_headers; (destruct x; [congruence|]); rewrite Pf; reflexivity. }
    destruct Hx as [(-> & ->)|(-> & ->)]; [rewrite Q; eauto|]. cbn [parse_loop parse_headers]. change (dropN 0 []) with (@nil N). change (lenN (@nil N)) with 0.
    destruct (N.leb_spec (c_max c) 0); [lia|]. destruct (N.eqb_spec (lenN x) 0) as [Z|Z]; [apply lenN_0 in Z; congruence|]. change (0 <? 0) with false. cbv iota. cbn [app]. rewrite Q. eauto. }
  rewrite Eio. cbn [parse_failure k_rd set_rd]. unfold on_read_head_error. cbn [is_parse orb]. set (k1 := set_rd (close_read (set_rd (set_rd k0 rd') _)) _).
  assert (k_log k1 = k_log (d_conn d) /\ k_ka k1 = KDisabled /\ k_writing k1 = WInit) as (L1 & K1 & W1) by (repeat split; assumption).
  assert (has_h2_prefix k1 = false) as Hh.
  { unfold has_h2_prefix. destruct (beq _ _) eqn:Eb; [|reflexivity]. apply beq_eq in Eb. exfalso. revert Eb. subst k1. cbn [k_rd set_rd close_read set_ka set_reading consume_leading_lines r_buf]. rewrite Ebuf.
    destruct (dropN_app k x) as (y & Ey). destruct (skip_lines_spec (dropN k x)) as (v & V & _). apply (Px (y ++ v)). rewrite Ey at 1. rewrite V at 1. now rewrite app_assoc. }
  clearbody k1. unfold on_parse_error. rewrite W1, Hh. unfold t_on_error. rewrite Hs, <- reply_status, Hst.
  destruct (write_auto c k1 (mkO HTTP11 (OResponse st None) [] None) Hs) as (W2 & h' & out & L2 & S2); [exists st, p; split; [reflexivity|]; now rewrite <- reply_status|exact K1|].
  exists h', out. cbn [d_conn dset_pc dset_conn k_log set_error]. rewrite L2, L1. split; [reflexivity|exact S2].
Qed.

(* ---- Examples ---- *)
Lemma ref_no_status max fold : hp_no_status (ref_hp max fold).
Proof.
  intros x seen. cbn [ref_hp h_request]. unfold ref_request. destruct (P_Read.find_end x); [|discriminate]. destruct (take_line _) as [(l & r)|]; [|discriminate].
  destruct (split1 (strip_cr l)) as (me & s). destruct (split1 s) as (path & v). destruct (is_v11 v); [destruct (parse_block r max)|]; discriminate.
Qed.
Definition verdict_on (l : list bytes) : pret (option N) :=
  match parse_request (ref_hp 100 true) (text_lines l) with
  | PRet (PFail (p, _)) => PRet (reply_to p)
  | PRet _ => PRet None
  | PPanic => PPanic
  | PFuel => PFuel
  end.
Example C67_verdict_ex : (hp_room (ref_hp 100 true) 100 /\ hp_no_status (ref_hp 100 true)) /\
  verdict_on [B "PUT / HTTP/1.1"; B "Content-Length: 3"; []] = PRet None /\
  verdict_on [B "PUT / HTTP/1.1"; B "Content-Length: 3"; B "Content-Length: 4"; []] = PRet (Some 400) /\
  verdict_on [B "PUT / HTTP/1.0"; B "Transfer-Encoding: chunked"; []] = PRet (Some 400) /\
  verdict_on [B "P(T / HTTP/1.1"; []] = PRet (Some 400) /\ verdict_on [B "PUT / HTTP/2.1"; []] = PRet (Some 400) /\
  verdict_on ([B "PUT / HTTP/1.1"] ++ repeat (B "a: b") 101 ++ [[]]) = PRet (Some 431).
Proof. split; [split; [apply ref_room|apply ref_no_status]|]. repeat split; vm_compute; reflexivity. Qed.
(* Three lengths that are not supported: too large, too large, no number *)
Example C67_refuses_ex : refused (ref_hp 100 true) (text_lines [B "PUT / HTTP/1.1"; B "Content-Length: 18446744073709551614"; []]) 431 /\
  refused (ref_hp 100 true) (text_lines [B "PUT / HTTP/1.1"; B "Content-Length: 18446744073709551615"; []]) 431 /\
  refused (ref_hp 100 true) (text_lines [B "PUT / HTTP/1.1"; B "Content-Length: 18446744073709551616"; []]) 400.
Proof. split; [|split]; (eapply C67_refuses; [apply (ref_room 100 true)|lia|apply ref_no_status|]); eexists _, _; split; vm_compute; reflexivity. Qed.

Definition bad_second : bytes := text_lines [B "PUT /a HTTP/1.1"; B "Host: h"; B "Content-Length: 3"; []] ++ B "abc" ++ text_lines [B "POST /b HTTP/1.0"; B "Transfer-Encoding: chunked"; []; B "2"].
Example C67_refused_ex : exists a h bs b, history (ref_cfg true) false true 8192 (cut 100 31 bad_second) (steps 60 (answer ok200)) = a ++ LHead true h bs :: b /\
  o_subject h = OResponse 400 None /\ map msg_data (received a) = [B "abc"] /\ exists b', b = LEnd :: b'.
Proof.
  assert (exists l, history (ref_cfg true) false true 8192 (cut 100 31 bad_second) (steps 60 (answer ok200)) = l /\ l <> []) as (l & E & _) by (eexists; split; [reflexivity|vm_compute; discriminate]).
  rewrite E. vm_compute in E. subst l.
  match goal with |- exists a h bs b, ?l = _ /\ _ => let rec go p l := match l with LHead true ?h ?bs :: ?b => exists (rev p), h, bs, b | ?e :: ?r => go (e :: p) r end in go (@nil levent) l end.
  split; [vm_compute; reflexivity|]. split; [reflexivity|]. split; [vm_compute; reflexivity|eauto].
Qed.
Example C67_answered_ex : exists a b, history (ref_cfg true) false true 8192 (cut 100 31 bad_second) (steps 60 (answer ok200)) = a ++ LReturn (Some (CParse PTeUnexpected)) :: b /\ reply_to PTeUnexpected = Some 400.
Proof.
  assert (exists l, history (ref_cfg true) false true 8192 (cut 100 31 bad_second) (steps 60 (answer ok200)) = l /\ l <> []) as (l & E & _) by (eexists; split; [reflexivity|vm_compute; discriminate]).
  rewrite E. vm_compute in E. subst l.
  match goal with |- exists a b, ?l = _ /\ _ => let rec go p l := match l with LReturn _ :: ?b => exists (rev p), b | ?e :: ?r => go (e :: p) r end in go (@nil levent) l end.
  split; vm_compute; reflexivity.
Qed.
Definition bad_head : bytes := text_lines [B "PUT / HTTP/1.1"; B "Content-Length: x"; []].
Lemma bad_no_preface : forall y z, bad_head = y ++ z -> takeN 24 z <> preface.
Proof.
  intros y z E F. assert (In 80 bad_head -> forall n, (n <= length bad_head)%nat -> takeN 24 (skipn n bad_head) <> preface) as Q.
  { intros _ n Hn. change (length bad_head) with 37%nat in Hn. do 38 (destruct n as [|n]; [vm_compute; discriminate|]). lia. }
  apply (Q ltac:(vm_compute; auto) (length y)); [rewrite E, app_length; lia|]. rewrite E, skipn_app, skipn_all, Nat.sub_diag. exact F.
Qed.
Example C67_at_once_ex : let d := after (ref_cfg true) false true 8192 [EvData bad_head] (steps 1 (answer ok200)) in
  d_pc d = PRead 16 /\ d_closing d = false /\ k_reading (d_conn d) = RInit /\ 0 < c_max (ref_cfg true) /\ r_buf (k_rd (d_conn d)) = [] /\ r_evs (k_rd (d_conn d)) = EvData bad_head :: [] /\
  refused (ref_hp 100 true) bad_head 400 /\ (forall y z, bad_head = y ++ z -> takeN 24 z <> preface).
Proof.
  cbn zeta. do 3 (split; [vm_compute; reflexivity|]). split; [cbn; lia|]. do 2 (split; [vm_compute; reflexivity|]). split; [|apply bad_no_preface].
  eapply C67_refuses; [apply (ref_room 100 true)|lia|apply ref_no_status|]. eexists _, _. split; vm_compute; reflexivity.
Qed.

(* Without the condition about the HTTP/2 preface: false.  The preface is looked
   for in what is left of the buffer when the bad head has been taken off it. *)
Definition C67_at_once_always : Prop := forall c o max h09 flat wmax evs ms i n x st rest, c_server c = true -> parses_with c o -> hp_room o max -> max <= 24576 -> hp_no_status o ->
  let d := after c h09 flat wmax evs ms in let rd := k_rd (d_conn d) in
  d_pc d = PRead n -> d_closing d = false -> k_reading (d_conn d) = RInit -> 0 < c_max c ->
  (r_buf rd = x /\ r_partial rd = None \/ r_buf rd = [] /\ r_evs rd = EvData x :: rest) -> x <> [] -> refused o x st ->
  exists h bs, history c h09 flat wmax evs (ms ++ [Step i]) = history c h09 flat wmax evs ms ++ [LHead true h bs; LEnd] /\ o_subject h = OResponse st None.
Lemma preface_hist : history (ref_cfg true) false true 8192 [EvData (bad_head ++ preface)] (steps 1 (answer ok200) ++ [Step (answer ok200)]) = [LReturn (Some (CParse PVersionH2))].
Proof. vm_compute. reflexivity. Qed.
Theorem C67_at_once_always_refuted : ~ C67_at_once_always.
Proof.
  intros H. destruct (H (ref_cfg true) (ref_hp 100 true) 100 false true 8192 [EvData (bad_head ++ preface)] (steps 1 (answer ok200)) (answer ok200) 16%nat (bad_head ++ preface) 400 [] eq_refl (ref_parses true) (ref_room _ _) ltac:(lia) (ref_no_status _ _)) as (h & bs & E & _);
    try (vm_compute; reflexivity); try (right; split; vm_compute; reflexivity); try (vm_compute; discriminate).
  eapply C67_refuses; [apply (ref_room 100 true)|lia|apply ref_no_status|]. eexists _, _. split; vm_compute; reflexivity.
Qed.

Print Assumptions C67_verdict.
Print Assumptions C67_refuses.
Print Assumptions C67_refused.
Print Assumptions C67_answered.
Print Assumptions C67_at_once.
Print Assumptions C67_at_once_always_refuted.
