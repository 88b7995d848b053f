(* For C65: what the read side of a connection has handed out is what the bytes
   that came in stand for. *)
From Verif Require Import Base M_Src M_Decode M_HeaderMap M_Headers M_Encode M_Role M_RoleEncode M_Buf M_WriteBuf M_Read M_Conn M_Dispatch S_Conn S_Inbound L_Conn L_Moves L_ConnS L_BodyTx S_Transport S_Chunked S_Read L_Decode L_Chunked L_Body L_Read.

(* ---- The decoders take bytes off the stream ---- *)
Definition sstr (s : src) : bytes := rbuf s ++ data_of (M_Src.evs s).
Lemma read_mem_str s len s' r : read_mem s len = (s', r) ->
  sstr s = match r with Ready (Ok d) => d | _ => [] end ++ sstr s' /\ match r with Ready (Ok d) => lenN d <= len | _ => True end.
Proof.
  intros E. split.
  - pose proof (read_mem_takes (rbuf s) (M_Src.evs s) len) as H. destruct s as [b ev]. cbn [rbuf M_Src.evs] in H. rewrite E in H. exact H.
  - unfold read_mem in E. destruct (rbuf s) as [|x b] eqn:Eb.
    + destruct (poll_read_from_io s) as [s1 [|[n|e]]]; injection E as _ <-; auto. rewrite takeN_len. lia.
    + apply pair_equal_spec in E. destruct E as (_ & <-). rewrite takeN_len. lia.
Qed.
Lemma with_byte_part c s c' s' r : inv c -> cs c <> CEnd -> cs c <> CBody -> with_byte c s (byte_fun (cs c)) = (c', s', r) ->
  exists p, sstr s = p ++ sstr s' /\
    match r with
    | Pending => c' = c /\ p = []
    | Ready (Ok buf) => buf = None /\ inv c' /\ forall l, run c (p ++ l) = run c' l
    | Ready (Err _) => True
    end.
Proof.
  intros Hi He Hb. unfold with_byte. destruct (read_mem s 1) as [s1 r1] eqn:Er. apply read_mem_str in Er. destruct Er as (E1 & E2).
  destruct r1 as [|[[|x d]|e]]; try (intros E; injection E as <- <- <-; exists []; auto; fail).
  assert (d = []) as -> by (rewrite lenN_cons in E2; apply lenN_0; lia).
  destruct (byte_fun (cs c) c x) as [c1 [e|]] eqn:Eb; intros E; injection E as <- <- <-; exists [x]; split; auto.
  split; [reflexivity|]. split; [eapply inv_byte; eauto|]. intros l. cbn [app]. rewrite run_cons, Eb by auto.
  destruct (cs c); cbn [is_body]; try congruence; apply add_data_nil.
Qed.
Lemma cstep_part c s c' s' r : inv c -> cs c <> CEnd -> cstep c s = (c', s', r) ->
  exists p, sstr s = p ++ sstr s' /\
    match r with
    | Pending => c' = c /\ p = []
    | Ready (Ok buf) => inv c' /\ (forall l, run c (p ++ l) = add_data (match buf with Some d => d | None => [] end) (run c' l)) /\ (buf <> None -> cs c' <> CEnd)
    | Ready (Err _) => True
    end.
Proof.
  intros Hi He Hst. destruct (is_body (cs c)) eqn:Eb.
  - assert (cs c = CBody) as Ec by (destruct (cs c); try discriminate Eb; reflexivity). unfold cstep, read_body in Hst. rewrite Ec in Hst.
    destruct (read_mem s (chunk_len c)) as [s1 r1] eqn:Er. apply read_mem_str in Er. destruct Er as (E1 & E2).
    destruct r1 as [|[[|x d]|e]]; injection Hst as <- <- <-; try (exists []; auto; fail). exists (x :: d). split; [exact E1|]. split.
    + split.
      * destruct (0 <? _) eqn:El; cbn [cs set_cs chunk_len set_len]; [|discriminate]. intros _. apply N.ltb_lt in El. exact El.
      * destruct (0 <? _); cbn; intros [|]; discriminate.
    + split; [intros l; now rewrite run_body by (auto; congruence)|]. intros _. destruct (0 <? _); cbn; discriminate.
  - assert (cs c <> CBody) as Hb by (intros F; rewrite F in Eb; discriminate Eb).
    assert (with_byte c s (byte_fun (cs c)) = (c', s', r)) as Hst' by (unfold cstep in Hst; destruct (cs c) eqn:Ec; try exact Hst; congruence).
    apply with_byte_part in Hst'; auto. destruct Hst' as (p & E1 & E2). exists p. split; [exact E1|]. destruct r as [|[buf|e]]; auto.
    destruct E2 as (-> & E2 & E3). split; [exact E2|]. split; [|congruence]. intros l. now rewrite E3, add_data_nil.
Qed.
Lemma cdecode_part {H} (dt : bytes -> N -> option H) fuel : forall c s c' s' r, inv c -> cs c <> CEnd -> cdecode dt fuel c s = (c', s', r) ->
  exists p, sstr s = p ++ sstr s' /\
    match r with
    | Pending => inv c' /\ cs c' <> CEnd /\ forall l, run c (p ++ l) = run c' l
    | Ready (Ok (FData d)) => (inv c' /\ cs c' <> CEnd /\ forall l, run c (p ++ l) = add_data d (run c' l))
        \/ (d = [] /\ cs c' = CEnd /\ tbuf c' = None /\ forall l, run c (p ++ l) = ([], ODone c' l))
    | Ready (Ok (FTrailers h)) => exists c0 t, cs c0 = CEnd /\ tbuf c0 = Some t /\ dt t (tcnt c0) = Some h /\ forall l, run c (p ++ l) = ([], ODone c0 l)
    | Ready (Err _) => True
    end.
Proof.
  induction fuel as [|fuel IH]; intros c s c' s' r Hi He Hd; cbn [cdecode] in Hd.
  { injection Hd as <- <- <-. exists []. auto. }
  destruct (cstep c s) as [[c1 s1] r1] eqn:Est. destruct (cstep_part _ _ _ _ _ Hi He Est) as (p & E1 & E2).
  destruct r1 as [|[buf|e]].
  - injection Hd as <- <- <-. destruct E2 as (-> & ->). exists []. cbn [app]. auto.
  - destruct E2 as (I1 & R1 & N1). destruct (is_end (cs c1)) eqn:Hend.
    + assert (cs c1 = CEnd) as Ce by (destruct (cs c1); congruence || discriminate). rewrite Ce in Hd.
      destruct buf as [d|]; [destruct N1; congruence|]. assert (forall l, run c (p ++ l) = ([], ODone c1 l)) as R2 by (intros l; rewrite R1, add_data_nil; now apply run_end).
      exists p. destruct (tbuf c1) as [t|] eqn:Et; [destruct (dt t (tcnt c1)) as [h|] eqn:Ed|]; injection Hd as <- <- <-; split; auto.
      exists c1, t. auto.
    + assert (cs c1 <> CEnd) as Ce by (intros Hx; rewrite Hx in Hend; discriminate). destruct buf as [d|].
      * assert ((c', s', r) = (c1, s1, Ready (Ok (FData d)))) as F by (destruct (cs c1); congruence). injection F as -> -> ->. exists p. auto.
      * assert (cdecode dt fuel c1 s1 = (c', s', r)) as F by (destruct (cs c1); congruence).
        destruct (IH _ _ _ _ _ I1 Ce F) as (p' & E1' & E2'). exists (p ++ p'). split; [now rewrite E1, E1', app_assoc|].
        assert (forall l, run c ((p ++ p') ++ l) = run c1 (p' ++ l)) as R3 by (intros l; now rewrite <- app_assoc, R1, add_data_nil).
        destruct r as [|[[d|h]|e]]; auto.
        -- destruct E2' as (A & B' & C). split; [exact A|]. split; [exact B'|]. intros l. now rewrite R3.
        -- destruct E2' as [(A & B' & C)|(A & B' & C & D)]; [left|right]; repeat split; auto; try apply A; intros l; now rewrite R3.
        -- destruct E2' as (c0 & t & A & B' & C & D). exists c0, t. repeat split; auto. intros l. now rewrite R3.
  - injection Hd as <- <- <-. exists p. auto.
Qed.

(* ---- The state of a body ---- *)
Definition bstate (c : cfg) (len : dlen) (part data : bytes) (d : decoder) : Prop :=
  match d with
  | DLength r => len <> DL_CHUNKED /\ part = data /\ lenN data + r = len
  | DChunked cd => len = DL_CHUNKED /\ inv cd /\ cs cd <> CEnd /\
      forall l, run (init_c (max_lines c) 16384) (part ++ l) = add_data data (run cd l)
  | DEof e => e = false /\ len = DL_CLOSE_DELIMITED /\ part = data
  end.
Lemma bstate_new c len : len <> DL_ZERO -> bstate c len [] [] (dec_new len (c_max_headers c) None).
Proof.
  intros Hz. unfold dec_new. destruct (N.eqb_spec len DL_CHUNKED) as [->|Hc].
  - cbn [bstate dec_chunked]. split; [reflexivity|]. split; [apply init_inv|]. split; [discriminate|]. intros l. cbn [app]. rewrite add_data_nil. reflexivity.
  - destruct (N.eqb_spec len DL_CLOSE_DELIMITED) as [->|Hd]; cbn; auto.
Qed.
Lemma decode_part c len part data d s d' s' r : bstate c len part data d -> decode (c_dt c) d s = (d', s', r) ->
  exists p, sstr s = p ++ sstr s' /\
    match r with
    | Pending => bstate c len (part ++ p) data d'
    | Ready (Ok (FData x)) => if is_eof d' then body_wire c len (part ++ p) (data ++ x) None else bstate c len (part ++ p) (data ++ x) d'
    | Ready (Ok (FTrailers t)) => body_wire c len (part ++ p) data (Some t)
    | Ready (Err _) => True
    end.
Proof.
  intros Hb. destruct d as [rem|cd|e]; cbn [bstate] in Hb; unfold decode.
  - destruct Hb as (Hc & -> & Hl). assert ((len =? DL_CHUNKED) = false) as Ec by now apply N.eqb_neq.
    destruct (N.eqb_spec rem 0) as [->|Hr].
    { intros E. injection E as <- <- <-. exists []. split; [reflexivity|]. cbn [is_eof]. unfold body_wire. rewrite Ec, !app_nil_r. repeat split. right. lia. }
    destruct (read_mem s rem) as [s1 r1] eqn:Er. apply read_mem_str in Er. destruct Er as (E1 & E2). destruct r1 as [|[x|e]].
    + intros E. injection E as <- <- <-. exists []. rewrite app_nil_r. cbn. auto.
    + destruct (N.ltb_spec rem (lenN x)) as [F|F]; [lia|]. destruct (N.eqb_spec (lenN x) 0) as [Z|Z].
      * intros E. injection E as <- <- <-. exists x. auto.
      * intros E. injection E as <- <- <-. exists x. split; [exact E1|]. destruct (is_eof (DLength (rem - lenN x))) eqn:Ef.
        -- assert (rem - lenN x = 0) as Q by (cbn in Ef; destruct (rem - lenN x); [reflexivity|discriminate Ef]). unfold body_wire. rewrite Ec. repeat split. right. rewrite lenN_app. lia.
        -- cbn. rewrite lenN_app. split; [exact Hc|]. split; [reflexivity|]. lia.
    + intros E. injection E as <- <- <-. exists []. auto.
  - destruct Hb as (-> & Hi & He & Hrun). destruct (cdecode (c_dt c) (S (src_size s)) cd s) as [[c1 s1] r1] eqn:Ed. intros E. injection E as <- <- <-.
    destruct (cdecode_part _ _ _ _ _ _ _ Hi He Ed) as (p & E1 & E2). exists p. split; [exact E1|].
    assert (forall l, run (init_c (max_lines c) 16384) ((part ++ p) ++ l) = add_data data (run cd (p ++ l))) as R by (intros l; now rewrite <- app_assoc, Hrun).
    assert (forall c0, (forall l, run cd (p ++ l) = ([], ODone c0 l)) -> exists b, part ++ p = render b /\ valid b /\ within_limits 16384 (max_lines c) 16384 b /\ data = body_data b /\ c0 = done_c (max_lines c) 16384 b) as Q.
    { intros c0 H0. specialize (R []). rewrite H0 in R. unfold add_data in R. cbn [fst snd] in R. rewrite !app_nil_r in R. apply run_sound in R. destruct R as (b & Rb & R). rewrite app_nil_r in Rb. exists b. auto. }
    destruct r1 as [|[[x|t]|e]]; auto.
    + destruct E2 as (A & B' & C). cbn. split; [reflexivity|]. split; [exact A|]. split; [exact B'|]. intros l. now rewrite R, C.
    + destruct E2 as [(A & B' & C)|(-> & A & B' & C)].
      * assert (is_eof (DChunked c1) = false) as -> by (cbn; destruct (cs c1); try reflexivity; congruence). cbn. split; [reflexivity|]. split; [exact A|]. split; [exact B'|]. intros l. now rewrite R, C, add_data_app.
      * assert (is_eof (DChunked c1) = true) as -> by (cbn; now rewrite A). destruct (Q c1 C) as (b & P1 & P2 & P3 & P4 & P5). unfold body_wire. rewrite N.eqb_refl, app_nil_r. exists b. rewrite P5 in B'. cbn in B'. rewrite B'. auto.
    + destruct E2 as (c0 & tb & A & B' & C & D). destruct (Q c0 D) as (b & P1 & P2 & P3 & P4 & P5). unfold body_wire. rewrite N.eqb_refl. exists b. rewrite P5 in B', C. cbn in B', C. rewrite B', C. repeat split; auto; try apply P2; try apply P3. discriminate.
  - destruct Hb as (-> & -> & ->). destruct (read_mem s 8192) as [s1 r1] eqn:Er. apply read_mem_str in Er. destruct Er as (E1 & E2).
    destruct r1 as [|[x|e]]; intros E; injection E as <- <- <-.
    + exists []. split; [exact E1|]. cbn. now rewrite app_nil_r.
    + exists x. split; [exact E1|]. destruct x as [|y x]; cbn [is_eof bstate]; auto. unfold body_wire. change (DL_CLOSE_DELIMITED =? DL_CHUNKED) with false. cbn iota. auto.
    + exists []. auto.
Qed.

(* ---- The parser ---- *)
Lemma skipped_app c a b : skipped c a -> skipped c b -> skipped c (a ++ b).
Proof. intros Ha Hb. induction Hb as [|me h9 x n b Hb IH P L]; [now rewrite app_nil_r|]. rewrite app_assoc. econstructor; eauto. Qed.
Lemma parse_part c me h09 max : parser_bounded c -> forall evs b partial s r, parse_loop (c_parse c me h09) max b partial evs = (s, r) ->
  exists sk u, b ++ data_of evs = sk ++ u ++ stream s /\ skipped c sk /\
    match r with Ready (Ok m) => head_wire c u m | _ => u = [] end.
Proof.
  intros Hb. assert (forall b partial n, parse_headers (c_parse c me h09) b partial = PMore n -> skipped c (takeN n b)) as Sk.
  { intros b partial n. unfold parse_headers. destruct b as [|x b]; [intros E; injection E as <-; constructor|].
    assert (forall n, c_parse c me h09 (x :: b) = PMore n -> skipped c (takeN n (x :: b))) as Q.
    { intros n0 E. change (skipped c ([] ++ takeN n0 (x :: b))). pose proof (Hb me h09 (x :: b)) as L. rewrite E in L. econstructor; eauto using sk_nil. }
    destruct partial as [k|]; [destruct (is_complete_fast _ _)|]; auto. intros E. injection E as <-. constructor. }
  assert (forall b partial n m, parse_headers (c_parse c me h09) b partial = PDone n m -> head_wire c (takeN n b) m) as Hd.
  { intros b partial n m E. assert (c_parse c me h09 b = PDone n m) as E'. { revert E. unfold parse_headers. destruct b as [|x b]; [discriminate|]. destruct partial as [k|]; [destruct (is_complete_fast _ _)|]; auto; discriminate. }
    exists me, h09, (dropN n b). rewrite takeN_dropN. pose proof (Hb me h09 b) as L. rewrite E' in *. rewrite takeN_len. f_equal. lia. }
  induction evs as [|e evs IH]; intros b partial s r; cbn [parse_loop]; destruct (parse_headers _ b partial) as [n|n m|e'] eqn:Ep.
  2,5: intros E; injection E as <- <-; exists [], (takeN n b); unfold stream; cbn [r_buf r_evs app]; (split; [now rewrite app_assoc, takeN_dropN|]); (split; [constructor|eauto]).
  2,4: intros E; injection E as <- <-; exists [], []; unfold stream; cbn [r_buf r_evs app]; (split; [reflexivity|]); (split; [constructor|reflexivity]).
  - specialize (Sk _ _ _ Ep). cbv zeta. assert (forall x, b ++ x = takeN n b ++ dropN n b ++ x) as S by (intros x; now rewrite app_assoc, takeN_dropN).
    destruct (max <=? _); intros E; injection E as <- <-; exists (takeN n b), []; unfold stream; cbn [r_buf r_evs data_of app]; auto.
  - specialize (Sk _ _ _ Ep). cbv zeta. assert (forall x, b ++ x = takeN n b ++ dropN n b ++ x) as S by (intros x; now rewrite app_assoc, takeN_dropN).
    destruct (max <=? _); [intros E; injection E as <- <-; exists (takeN n b), []; unfold stream; cbn [r_buf r_evs data_of app]; auto|].
    destruct e as [|d|]; [intros E; injection E as <- <-; exists (takeN n b), []; unfold stream; cbn [r_buf r_evs data_of app]; auto| |intros E; injection E as <- <-; exists (takeN n b), []; unfold stream; cbn [r_buf r_evs data_of app]; auto].
    destruct (N.eqb_spec (lenN d) 0) as [Z|Z].
    + apply lenN_0 in Z. subst d. intros E; injection E as <- <-; exists (takeN n b), []; unfold stream; cbn [r_buf r_evs data_of app]; auto.
    + intros E. apply IH in E. destruct E as (sk & u & E1 & E2 & E3). exists (takeN n b ++ sk), u. split; [|split; [now apply skipped_app|exact E3]].
      cbn [data_of]. rewrite S, <- !app_assoc. f_equal. rewrite <- E1. now rewrite <- app_assoc.
Qed.

(* ---- The invariant ---- *)
(* Events that are not about an incoming message *)
Definition outer (e : levent) : bool := match e with LIn _ | LInData _ | LInTrailers _ | LInEnd => false | _ => true end.
Section Inbound.
(* When a failed attempt to read a head may have taken bytes off the stream *)
Variable L : list levent -> Prop.
Hypothesis Lm : forall l l', forallb outer l' = true -> L l -> L (l ++ l').
Definition inpos (c : cfg) (tail : bytes) (o : option message) (k : conn) : Prop :=
  match o with
  | None => match k_reading k with
            | RInit | RKeepAlive => exists sk, skipped c sk /\ tail = sk ++ stream (k_rd k)
            | RClosed => exists sk u, skipped c sk /\ tail = sk ++ u ++ stream (k_rd k) /\ (u = [] \/ L (k_log k))
            | _ => False
            end
  | Some g => exists sk head part u d, tail = sk ++ head ++ part ++ u ++ stream (k_rd k) /\ skipped c sk /\ head_wire c head (msg_head g) /\ msg_trailers g = None /\
            bstate c (in_decode (msg_head g)) part (msg_data g) d /\
            match k_reading k with
            | RContinue d' | RBody d' => u = [] /\ d = d'
            | RClosed => True
            | _ => False
            end
  end.
Definition RI (c : cfg) (input : bytes) (k : conn) : Prop := exists wires tail,
  input = concat wires ++ tail /\ Forall2 (message_wire c) wires (received (k_log k)) /\ inpos c tail (receiving (k_log k)) k.

Record rk (k k' : conn) : Prop := mkRk {
  rk_log : exists l, k_log k' = k_log k ++ l /\ forallb outer l = true;
  rk_str : stream (k_rd k') = stream (k_rd k);
  rk_rd : k_reading k' = k_reading k \/ k_reading k' = RClosed \/ (k_reading k = RKeepAlive /\ k_reading k' = RInit) \/ (exists d, k_reading k = RContinue d /\ k_reading k' = RBody d)
}.
Lemma inbound_app a b : inbound (a ++ b) = fold_left inbound_step b (inbound a).
Proof. apply fold_left_app. Qed.
Lemma outer_inbound l : forallb outer l = true -> forall s, fold_left inbound_step l s = s.
Proof. induction l as [|e l IH]; intros H s; [reflexivity|]. cbn [forallb] in H. apply andb_prop in H. destruct H as (H1 & H2). cbn [fold_left]. rewrite (IH H2). destruct e, s as [dn [g|]]; try discriminate H1; reflexivity. Qed.
Lemma RI_rk c input k k' : rk k k' -> RI c input k -> RI c input k'.
Proof.
  intros [(l & L1 & L2) S1 R] (wires & tail & E1 & E2 & E3). exists wires, tail. split; [exact E1|].
  assert (inbound (k_log k') = inbound (k_log k)) as Ei by (rewrite L1, inbound_app; now apply outer_inbound).
  unfold received, receiving in *. rewrite Ei. split; [exact E2|]. destruct (snd (inbound (k_log k))) as [g|]; cbn [inpos] in *; rewrite S1.
  - destruct E3 as (sk & head & part & v & d & T & A1 & A2 & A3 & A4 & A5). exists sk, head, part, v, d.
    do 5 (split; [assumption|]). destruct R as [R|[R|[(R & R')|(d0 & R & R')]]].
    + now rewrite R.
    + rewrite R. exact Logic.I.
    + rewrite R in A5. contradiction.
    + now rewrite R, R' in *.
  - assert (forall u : bytes, u = [] \/ L (k_log k) -> u = [] \/ L (k_log k')) as M by (intros u [F|F]; [now left|right; rewrite L1; now apply Lm]).
    destruct R as [R|[R|[(R & R')|(d0 & R & R')]]].
    + rewrite R in *. destruct (k_reading k); auto. destruct E3 as (sk & u & A1 & A2 & A3). exists sk, u. eauto.
    + rewrite R. destruct (k_reading k); try contradiction; [destruct E3 as (sk & A1 & A2); exists sk, []; auto|destruct E3 as (sk & A1 & A2); exists sk, []; auto|destruct E3 as (sk & u & A1 & A2 & A3); exists sk, u; eauto].
    + rewrite R, R' in *. exact E3.
    + rewrite R in E3. contradiction.
Qed.
Lemma rk_same k k' l : k_log k' = k_log k ++ l -> forallb outer l = true -> k_rd k' = k_rd k -> k_reading k' = k_reading k -> rk k k'.
Proof. intros A B' C D. constructor; eauto. now rewrite C. Qed.
Lemma rk_refl k : rk k k.
Proof. apply (rk_same k k []); auto. now rewrite app_nil_r. Qed.
Lemma rk_trans k k' k'' : rk k k' -> rk k' k'' -> rk k k''.
Proof.
  intros [(a & A1 & A2) A3 A5] [(b & B1 & B2) B3 B5]. constructor.
  - exists (a ++ b). rewrite B1, A1, app_assoc, forallb_app, A2, B2. auto.
  - congruence.
  - destruct B5 as [B5|[B5|[(B5 & B6)|(d & B5 & B6)]]]; [rewrite B5; exact A5|auto| |].
    + destruct A5 as [A5|[A5|[(A5 & A6)|(d & A5 & A6)]]]; try congruence. rewrite A5 in B5. auto.
    + destruct A5 as [A5|[A5|[(A5 & A6)|(d0 & A5 & A6)]]]; try congruence. rewrite A5 in B5. right. right. right. eauto.
Qed.
Lemma rk_logged k l : forallb outer l = true -> rk k (log k l).
Proof. intros H. now apply (rk_same _ _ l). Qed.
Lemma rk_closed k k' : k_log k' = k_log k -> k_rd k' = k_rd k -> k_reading k' = RClosed -> rk k k'.
Proof. intros A B' C. constructor; auto; [exists []; now rewrite app_nil_r|]. now rewrite B'. Qed.
Ltac rsame := apply (rk_same _ _ []); [cbn; now rewrite ?app_nil_r|reflexivity|reflexivity|reflexivity].
Lemma rk_st_try c k : rk k (st_try_keep_alive c k).
Proof.
  unfold st_try_keep_alive. destruct (k_reading k) eqn:Er; try apply rk_refl; destruct (k_writing k); try apply rk_refl; try (now apply rk_closed).
  destruct (k_ka k); try (now apply rk_closed). assert (forall k', k_log k' = k_log k -> k_rd k' = k_rd k -> k_reading k' = RInit -> rk k k') as T.
  { intros k' A B' C. constructor; [exists []; now rewrite app_nil_r|now rewrite B'|auto 6]. }
  unfold idle. destruct (c_server c), (c_timeout c); apply T; reflexivity.
Qed.
Lemma rk_io k : rk k (fst (read_io k)).
Proof.
  unfold read_io, r_read_io, poll_read_from_io. cbn [rbuf M_Src.evs]. constructor; [exists []; cbn; destruct (r_evs (k_rd k)) as [|[|d|] r]; cbn; now rewrite app_nil_r| |left; destruct (r_evs (k_rd k)) as [|[|d|] r]; reflexivity].
  unfold stream. destruct (r_evs (k_rd k)) as [|[|d|] r]; cbn; auto. now rewrite <- app_assoc.
Qed.
Lemma rk_notify blk k : rk k (maybe_notify blk k).
Proof.
  unfold maybe_notify. destruct (k_reading k) eqn:Er; try apply rk_refl.
  destruct (k_writing k) eqn:Ew; try apply rk_refl; (destruct blk; [apply rk_refl|]); (destruct (r_buf (k_rd k)); [|rsame]);
  pose proof (rk_io k) as H; (destruct (read_io k) as [k' [|[n|e]]]; cbn [fst] in H; [exact H| |]).
  all: try (destruct (n =? 0); [|eapply rk_trans; [exact H|rsame]]; destruct (is_idle k'); eapply rk_trans; [exact H|now apply rk_closed|exact H|now apply rk_closed]).
  all: eapply rk_trans; [exact H|]; now apply rk_closed.
Qed.
Lemma rk_try c blk k : rk k (try_keep_alive c blk k).
Proof. eapply rk_trans; [apply rk_st_try|apply rk_notify]. Qed.
Lemma rk_flush c blk wevs k : rk k (fst (k_poll_flush c blk wevs k)).
Proof.
  unfold k_poll_flush. destruct (wb_flush _ _ _ _) as [[[w ev] sent] r].
  assert (rk k (log (set_wb k w) (match sent with [] => [] | _ => [LSent sent] end))) as H1 by (eapply rk_trans; [|apply rk_logged; destruct sent; reflexivity]; rsame).
  destruct r as [|[u|e]]; cbn [fst]; [exact H1|eapply rk_trans; [exact H1|apply rk_try]|exact H1].
Qed.
Lemma rk_close_read k : rk k (close_read k).
Proof. now apply rk_closed. Qed.
Lemma rk_keep_alive c k : rk k (fst (k_poll_read_keep_alive c k)).
Proof.
  unfold k_poll_read_keep_alive, mid_message_detect_eof, require_empty_read, force_io_read. pose proof (rk_io k) as H1.
  assert (forall k', rk k k' -> rk k (close_read k')) as C by (intros k' H; eapply rk_trans; [exact H|apply rk_close_read]).
  assert (forall k', rk k k' -> rk k (st_close k')) as C2 by (intros k' H; eapply rk_trans; [exact H|now apply rk_closed]).
  destruct (is_read_closed k); [apply rk_refl|]. destruct (is_mid_message k).
  - destruct (_ || _); [apply rk_refl|]. destruct (read_io k) as [k' [|[n|e]]]; cbn [fst snd] in *; auto. destruct (n =? 0); cbn; auto.
  - destruct (r_buf (k_rd k)); [|apply rk_refl]. destruct (read_io k) as [k' [|[n|e]]]; cbn [fst snd] in *; auto. destruct (n =? 0); cbn; auto.
Qed.
(* Writing leaves the read side alone *)
Lemma rk_effect k k' : body_effect k k' -> k_rd k' = k_rd k -> rk k k'.
Proof.
  intros [-> |(e & l & w' & Ew & Er & El & Ew' & Ek & F)] M; [apply rk_refl|]. apply (rk_same k k' l); auto.
  destruct F as [(bs & -> & _)|[[[-> |(bs & ->)] _]|[[-> |(bs & ->)] _]]]; reflexivity.
Qed.
Lemma rd_buffer room k b : k_rd (k_buffer room k b) = k_rd k.
Proof. unfold k_buffer. destruct (wb_buffer _ _ _); reflexivity. Qed.
Lemma rd_body c room k b : k_rd (k_write_body c room k b) = k_rd k.
Proof. unfold k_write_body. destruct (k_writing k); try reflexivity. destruct (encode_buf _ _ _). destruct (negb _); apply rd_buffer. Qed.
Lemma rd_body_and_end c room k b : k_rd (k_write_body_and_end c room k b) = k_rd k.
Proof. unfold k_write_body_and_end. destruct (k_writing k); try reflexivity. apply rd_buffer. Qed.
Lemma rd_trailers c room k t : k_rd (k_write_trailers c room k t) = k_rd k.
Proof. unfold k_write_trailers. destruct (_ && _); [reflexivity|]. destruct (k_writing k); try reflexivity. destruct (encode_trailers _ _ _); [apply rd_buffer|reflexivity]. Qed.
Lemma rd_end room k : k_rd (fst (k_end_body room k)) = k_rd k.
Proof. unfold k_end_body. destruct (k_writing k); try reflexivity. destruct (enc_end e) as [[|o out]|err]; cbn [fst]; try reflexivity. apply rd_buffer. Qed.
Lemma rd_write_head c auto k h body : k_rd (write_head c auto k h body) = k_rd k.
Proof.
  unfold write_head, encode_head. set (x := if c_server c then k else _). assert (k_rd x = k_rd k) as <- by (subst x; destruct (c_server c); [reflexivity|]; unfold busy, st_disable_keep_alive; destruct (connection_any_close _), (k_ka k); reflexivity).
  clearbody x. pose proof (enforce_frame x h) as Q. destruct (enforce_version x h) as [k2 h2]. destruct Q as (_ & _ & _ & _ & <- & _).
  destruct (t_encode _ _ _ _) as [[out me] [en|en]]; reflexivity.
Qed.
Lemma rk_write_head c auto k h body : rk k (write_head c auto k h body).
Proof.
  destruct (write_head_cases c auto k h body) as (A & _ & B'). pose proof (rd_write_head c auto k h body) as C.
  destruct B' as [(h' & out & e & _ & Lg & _)|[(h' & out & Lg & _)|(out & Lg & _)]]; eapply rk_same; eauto; reflexivity.
Qed.

(* ---- Reading a body ---- *)
Lemma RI_body_state c input blk k d : k_reading k = RBody d -> RI c input k -> RI c input (fst (read_body_state c blk k d)).
Proof.
  intros Er (wires & tail & E1 & E2 & E3). unfold receiving in E3.
  destruct (inbound (k_log k)) as [dn [g|]] eqn:Ei; unfold received in E2; rewrite Ei in E2; cbn [fst snd] in *; cbn [inpos] in E3; rewrite Er in E3; [|contradiction].
  destruct E3 as (sk & head & part & v & d0 & T & A1 & A2 & A3 & A4 & -> & ->).
  unfold read_body_state, k_decode. destruct (decode (c_dt c) d _) as [[d' s'] r] eqn:Ed. destruct (decode_part _ _ _ _ _ _ _ _ _ A4 Ed) as (p & S1 & S2).
  change (sstr _) with (stream (k_rd k)) in S1 at 1. set (rd := mkR (rbuf s') (r_partial (k_rd k)) (M_Src.evs s')). change (sstr s') with (stream rd) in S1. cbn [app] in T.
  assert (tail = sk ++ head ++ (part ++ p) ++ [] ++ stream rd) as T' by (rewrite T, S1, <- !app_assoc; reflexivity).
  (* the three ways to go on *)
  assert (forall l data d1, fold_left inbound_step l (inbound (k_log k)) = (dn, Some (mkMsg (msg_head g) data None)) -> bstate c (in_decode (msg_head g)) (part ++ p) data d1 ->
    RI c input (log (set_reading (set_rd k rd) (RBody d1)) l)) as Go.
  { intros l data d1 Hl Hb. exists wires, tail. split; [exact E1|]. unfold received, receiving. cbn [k_log log set_reading set_rd]. rewrite inbound_app, Hl. cbn [fst snd]. split; [exact E2|].
    cbn [inpos k_reading k_rd log set_reading set_rd msg_head msg_data msg_trailers]. exists sk, head, (part ++ p), [], d1. auto 10. }
  assert (forall l data t, fold_left inbound_step l (inbound (k_log k)) = (dn ++ [mkMsg (msg_head g) data t], None) -> body_wire c (in_decode (msg_head g)) (part ++ p) data t ->
    RI c input (log (set_reading (set_rd k rd) RKeepAlive) l)) as Fin.
  { intros l data t Hl Hb. exists (wires ++ [sk ++ head ++ part ++ p]), (stream rd). split; [|split].
    - rewrite E1, T', concat_app, <- !app_assoc. cbn [concat app]. rewrite app_nil_r, <- !app_assoc. reflexivity.
    - unfold received. cbn [k_log log set_reading set_rd]. rewrite inbound_app, Hl. cbn [fst]. apply Forall2_app; [exact E2|]. constructor; [|constructor]. exists sk, head, (part ++ p). auto.
    - unfold receiving. cbn [k_log log set_reading set_rd]. rewrite inbound_app, Hl. cbn. exists []. split; [constructor|reflexivity]. }
  assert (forall l, forallb outer l = true -> RI c input (log (set_reading (set_rd k rd) RClosed) l)) as Lost.
  { intros l Hl. exists wires, tail. split; [exact E1|]. unfold received, receiving. cbn [k_log log set_reading set_rd]. rewrite inbound_app, (outer_inbound l Hl), Ei. cbn [fst snd]. split; [exact E2|].
    cbn [inpos k_reading k_rd log set_reading set_rd]. exists sk, head, part, p, d. split; [now rewrite T', <- !app_assoc|]. auto. }
  destruct g as [gm gd gt]. cbn [msg_head msg_data msg_trailers] in *. subst gt.
  assert (forall k1 r, log (set_reading k1 r) [] = set_reading k1 r) as Ln by (intros k1 r0; unfold log; destruct k1; cbn; now rewrite app_nil_r).
  destruct r as [|[[x|t]|e]]; cbn [fst].
  - rewrite <- (Ln (set_rd k rd)). apply (Go [] gd); [exact Ei|exact S2].
  - destruct (is_eof d').
    + destruct x as [|y x]; cbn [fst]; (eapply RI_rk; [apply rk_try|]); [apply (Fin ([] ++ [LInEnd]) gd None); [rewrite Ei; reflexivity|now rewrite app_nil_r in S2]|].
      apply (Fin ([LInData (y :: x)] ++ [LInEnd]) (gd ++ y :: x) None); [rewrite Ei; reflexivity|exact S2].
    + destruct x as [|y x]; cbn [fst].
      * eapply RI_rk; [apply rk_try|]. rewrite <- (Ln (set_rd k rd)). now apply Lost.
      * apply (Go [LInData (y :: x)] (gd ++ y :: x)); [rewrite Ei; reflexivity|exact S2].
  - eapply RI_rk; [apply rk_try|]. apply (Fin [LInTrailers t; LInEnd] gd (Some t)); [rewrite Ei; reflexivity|exact S2].
  - eapply RI_rk; [apply rk_try|]. now apply Lost.
Qed.
Lemma RI_read_body c input blk k : RI c input k -> RI c input (fst (k_poll_read_body c blk k)).
Proof.
  intros H. unfold k_poll_read_body. destruct (k_reading k) eqn:Er; try exact H; [|now apply RI_body_state].
  set (k1 := match k_writing k with WInit => _ | _ => k end). assert (rk k k1 /\ k_reading k1 = k_reading k) as (H1 & H2).
  { subst k1. destruct (k_writing k); try (split; [apply rk_refl|reflexivity]). split; [|reflexivity]. eapply rk_trans; [|apply rk_logged; reflexivity]. rsame. }
  clearbody k1. apply RI_body_state; [reflexivity|]. apply (RI_rk c input k1); [|now apply (RI_rk c input k)]. constructor.
  - exists []. cbn. now rewrite app_nil_r.
  - reflexivity.
  - right. right. right. exists d. split; [congruence|reflexivity].
Qed.
Lemma RI_drain c input blk k : RI c input k -> RI c input (drain_or_close_read c blk k).
Proof.
  intros H. unfold drain_or_close_read. set (k1 := match k_reading k with RContinue d => _ | _ => k end).
  assert (RI c input k1) as H1.
  { subst k1. destruct (k_reading k) eqn:Er; try exact H. apply (RI_rk c input k); [|exact H]. constructor.
    - exists []. cbn. now rewrite app_nil_r.
    - reflexivity.
    - right. right. right. exists d. auto. }
  clearbody k1. pose proof (RI_read_body c input blk k1 H1) as H2. destruct (k_reading (fst _)); try exact H2; (eapply RI_rk; [apply rk_close_read|exact H2]).
Qed.

(* ---- Reading a head ---- *)
Lemma RI_got_head c input blk k m wires sk head : input = concat wires ++ sk ++ head ++ stream (k_rd k) -> Forall2 (message_wire c) wires (received (k_log k)) ->
  skipped c sk -> head_wire c head m -> RI c input (got_head c blk k m).
Proof.
  intros E1 E2 Hs Hh. unfold got_head. set (k1 := log _ [LIn m]).
  assert (k_log k1 = k_log k ++ [LIn m] /\ k_rd k1 = k_rd k) as (L1 & D1).
  { subst k1. unfold busy, st_disable_keep_alive. destruct (c_server c), (in_keep m), (k_ka k) eqn:Ek; cbn; rewrite ?Ek; repeat split; reflexivity. }
  clearbody k1. assert (inbound (k_log k1) = (received (k_log k), Some (mkMsg m [] None))) as Ei.
  { rewrite L1, inbound_app. unfold received. destruct (inbound (k_log k)) as [dn o]. reflexivity. }
  match goal with |- context [set_trailers ?x _] => set (k2 := x) end. assert (RI c input k2) as H2; [|eapply RI_rk; [|exact H2]; rsame].
  subst k2. destruct (N.eqb_spec (in_decode m) DL_ZERO) as [Z|Z].
  - assert (RI c input (log (set_reading k1 RKeepAlive) [LInEnd])) as H3; [|destruct (c_server c); [exact H3|eapply RI_rk; [apply rk_try|exact H3]]].
    exists (wires ++ [sk ++ head]), (stream (k_rd k)). split; [|split].
    + rewrite E1, concat_app. cbn [concat]. rewrite app_nil_r, <- !app_assoc. reflexivity.
    + unfold received at 1. cbn [k_log log set_reading]. rewrite inbound_app, Ei. cbn [fold_left inbound_step fst]. apply Forall2_app; [exact E2|]. constructor; [|constructor].
      exists sk, head, []. rewrite app_nil_r. do 2 (split; [auto|]). split; [exact Hh|]. cbn [msg_head msg_data msg_trailers]. unfold body_wire. rewrite Z. cbn. auto.
    + unfold receiving. cbn [k_log log set_reading]. rewrite inbound_app, Ei. cbn. rewrite D1. exists []. split; [constructor|reflexivity].
  - assert (forall r, r = RContinue (dec_new (in_decode m) (c_max_headers c) None) \/ r = RBody (dec_new (in_decode m) (c_max_headers c) None) -> RI c input (set_reading k1 r)) as Q; [|destruct (_ && _); apply Q; auto].
    intros r Hr. exists wires, (sk ++ head ++ stream (k_rd k)). split; [exact E1|]. unfold received, receiving. cbn [k_log set_reading]. rewrite Ei. cbn [fst snd]. split; [exact E2|].
    cbn [inpos msg_head msg_data msg_trailers k_reading k_rd set_reading]. exists sk, head, [], [], (dec_new (in_decode m) (c_max_headers c) None). rewrite D1. cbn [app]. do 4 (split; [auto|]). split; [now apply bstate_new|]. destruct Hr as [-> | ->]; auto.
Qed.
Lemma RI_read_head c input now blk k : parser_bounded c -> k_reading k = RInit -> L (k_log k) -> RI c input k -> RI c input (fst (k_poll_read_head c now blk k)).
Proof.
  intros Hb Er HL H. unfold k_poll_read_head.
  assert (rk k (start_timer c now k) /\ k_reading (start_timer c now k) = RInit /\ k_log (start_timer c now k) = k_log k) as (F0 & R0 & L0).
  { unfold start_timer. destruct (k_running k); [split; [apply rk_refl|auto]|]. destruct (c_timeout c); [|split; [apply rk_refl|auto]]. split; [rsame|auto]. }
  rewrite <- L0 in HL. clear L0.
  remember (start_timer c now k) as k0 eqn:Ek. clear Ek. assert (RI c input k0) as H0 by exact (RI_rk _ _ _ _ F0 H). clear F0 H Er k.
  destruct (io_parse _ _ (k_rd k0)) as [rd r] eqn:Ep. unfold io_parse in Ep. apply (parse_part c _ _ _ Hb) in Ep. destruct Ep as (sk & u & P1 & P2 & P3). change (r_buf (k_rd k0) ++ data_of (r_evs (k_rd k0))) with (stream (k_rd k0)) in P1.
  destruct H0 as (wires & tail & E1 & E2 & E3). unfold inpos in E3. destruct (receiving (k_log k0)) as [g|] eqn:Eg.
  { rewrite R0 in E3. destruct E3 as (? & ? & ? & ? & ? & _ & _ & _ & _ & _ & F). destruct F. }
  rewrite R0 in E3. destruct E3 as (sk0 & A1 & A2). rewrite P1 in A2.
  assert (u = [] -> forall k', k_log k' = k_log k0 -> k_rd k' = rd -> k_reading k' = RInit -> RI c input k') as Stay.
  { intros -> k' B1 B2 B3. exists wires, tail. split; [exact E1|]. rewrite B1, Eg. split; [exact E2|]. cbn [inpos]. rewrite B3, B2. exists (sk0 ++ sk). split; [now apply skipped_app|]. now rewrite A2, <- app_assoc. }
  destruct r as [|[m|e]].
  - cbn [k_running k_timer set_rd]. destruct (k_running k0), (k_timer k0) as [t|]; try (apply Stay; auto; fail). destruct (t <=? now); apply Stay; auto.
  - cbn [fst]. apply (RI_got_head c input blk (set_rd k0 rd) m wires (sk0 ++ sk) u); auto; [|now apply skipped_app]. cbn [k_rd set_rd]. rewrite E1, A2, <- !app_assoc. reflexivity.
  - destruct (parse_failure e) as [e' n]. unfold on_read_head_error.
    set (k1 := set_rd (close_read (set_rd (set_rd k0 rd) _)) _). assert (RI c input k1) as H1.
    { subst k1 u. exists wires, tail. split; [exact E1|]. cbn [k_log set_rd close_read set_ka set_reading]. rewrite Eg. split; [exact E2|].
      cbn [inpos k_reading k_rd k_log set_rd close_read set_ka set_reading]. unfold stream, consume_leading_lines. cbn [r_buf r_evs]. destruct (skip_lines_spec (dropN n (r_buf rd))) as (v & V & _).
      exists (sk0 ++ sk), (takeN n (r_buf rd) ++ v). split; [now apply skipped_app|]. split; [|now right]. rewrite A2. unfold stream. cbn [app]. rewrite <- (takeN_dropN n (r_buf rd)) at 1. rewrite V at 1. now rewrite <- !app_assoc. }
    clearbody k1. assert (RI c input (close_write k1)) as H2 by (eapply RI_rk; [|exact H1]; rsame).
    destruct (_ || _); [|exact H2]. unfold on_parse_error. destruct (k_writing k1); try exact H1. destruct (has_h2_prefix k1); [exact H1|]. destruct (t_on_error c e'); [|exact H1]. cbn [fst].
    eapply RI_rk; [|exact H1]. eapply rk_trans; [apply rk_write_head|]. rsame.
Qed.

(* ---- The dispatcher ---- *)
Definition RD (c : cfg) (input : bytes) (d : disp) : Prop := RI c input (d_conn d).
Lemma RD_conn c input d k : rk (d_conn d) k -> RD c input d -> RD c input (dset_conn d k).
Proof. intros F H. exact (RI_rk _ _ _ _ F H). Qed.
Lemma RD_log c input d l : forallb outer l = true -> RD c input d -> RD c input (dlog d l).
Proof. intros F H. apply (RD_conn c input d (log (d_conn d) l)); [now apply rk_logged|exact H]. Qed.
Lemma RD_recv c input d e : RD c input d -> RD c input (fst (recv_error c d e)).
Proof.
  intros H. unfold recv_error. destruct (c_server c); [exact H|]. destruct (d_callback d); [apply (RD_log c input (dset_client d _ _ _)); [reflexivity|exact H]|]. destruct (d_rx_closed d); [exact H|].
  destruct (ch_try_recv _) as [ch [id|]]; [apply (RD_log c input (dset_client d _ _ _)); [reflexivity|exact H]|exact H].
Qed.
Lemma RD_close c input d : RD c input d -> RD c input (d_close d).
Proof. intros H. apply (RI_rk c input (d_conn d)); [now apply rk_closed|exact H]. Qed.
Lemma RD_drop c input d : RD c input d -> RD c input (d_drop d).
Proof.
  intros H. rewrite d_drop_eq. apply (RI_rk c input (d_conn d)); [|exact H]. apply rk_logged. unfold drop_events. rewrite !forallb_app.
  destruct (d_body_tx d), (d_callback d); cbn [forallb outer andb]; induction (ch_queue (d_chan d)); auto.
Qed.
Lemma RD_stable c input (J : disp -> Prop) : parser_bounded c -> (forall d, J d -> k_reading (d_conn d) = RInit -> L (k_log (d_conn d))) ->
  stable c (fun _ => True) J (RD c input).
Proof.
  intros Hb HJ. apply stable_introJ.
  - intros d tx rx p _ H. exact H.
  - intros d e He _ H. apply RD_log; [|exact H]. destruct e; try discriminate He; reflexivity.
  - intros d _ H. split; [|split; [|split]]; intros; (apply RD_conn; [|exact H]); unfold wants_read_again, pending_upgrade, take_error; cbn [fst]; [rsame|rsame| |].
    + destruct (k_error (d_conn d)); cbn [fst]; [rsame|apply rk_refl].
    + eapply rk_trans; [|apply rk_logged; destruct sent; reflexivity]. rsame.
  - intros d _ H _. now apply RD_close.
  - intros i d Hj H _ Hc Hp. unfold d_poll_read_head. rewrite Hp.
    assert (k_reading (d_conn d) = RInit) as Er by (unfold can_read_head in Hc; destruct (k_reading (d_conn d)); try discriminate Hc; reflexivity).
    pose proof (RI_read_head c input (i_now i) (i_blk i) (d_conn d) Hb Er (HJ d Hj Er) H) as R. destruct (k_poll_read_head c _ _ _) as [k r]. cbn [fst] in R.
    assert (RD c input (dset_conn d k)) as R0 by exact R.
    destruct r as [|[[m|e]|]].
    + exact R0.
    + set (d1 := if in_decode m =? DL_ZERO then _ else _). assert (RD c input d1) as R1.
      { subst d1. destruct (in_decode m =? DL_ZERO); [exact R0|]. cbn [d_body_tx dset_conn]. destruct (d_body_tx d); [|exact R0]. apply (RD_log c input (dset_conn d k)); [reflexivity|exact R0]. }
      clearbody d1. set (d2 := if in_upgrade m then _ else _). assert (RD c input d2) as R2 by (subst d2; destruct (in_upgrade m); [apply RD_conn; [rsame|exact R1]|exact R1]). clearbody d2.
      unfold recv_ok. destruct (c_server c); [exact R2|]. destruct (d_callback d2); cbn [fst]; [apply (RD_log c input (dset_client d2 _ _ _)); [reflexivity|exact R2]|exact R2].
    + pose proof (RD_recv c input _ e R0) as Z. destruct (recv_error c (dset_conn d k) e) as [d' [|]]; cbn [fst] in *; [exact Z|now apply RD_close].
    + cbn [fst d_conn dset_conn]. destruct (is_write_closed k); [now apply RD_close|exact R0].
  - intros i d _ H _ _. now apply RI_drain.
  - intros i d _ H _ _. apply RI_read_body. eapply RI_rk; [|exact H]. apply rk_logged. reflexivity.
  - intros d _ H _. apply RD_conn; [apply rk_close_read|exact H].
  - intros d _ H _ _ _. apply RD_conn; [apply rk_keep_alive|exact H].
  - intros i d _ H. apply RD_conn; [apply rk_flush|exact H].
  - intros i d _ _ H _ Hc Hp. unfold d_poll_msg. destruct (c_server c).
    + destruct (i_msg i) as [|[[h body]|e]]; [exact H| |exact H]. apply (RD_conn c input (dset_in_flight d false)); [apply rk_write_head|exact H].
    + destruct (ch_poll_recv _ _) as [ch [|[id|]]]; [exact H| |exact H].
      destruct (i_canceled i); [apply (RD_log c input (dset_client d (d_callback d) (d_rx_closed d) ch)); [reflexivity|exact H]|]. destruct (i_req i) as [h body].
      set (d1 := dlog _ _). assert (RD c input d1) as H1 by (eapply RI_rk; [|exact H]; apply rk_logged; reflexivity). clearbody d1. apply RD_conn; [apply rk_write_head|exact H1].
  - intros i d _ H _. apply RD_conn; [|exact H]. apply rk_effect; [apply end_body_effect|apply rd_end].
  - intros i d b _ H _ _. apply RD_conn; [|exact H]. apply rk_effect; [apply write_body_effect|apply rd_body].
  - intros i d b _ H _ _. apply RD_conn; [|exact H]. apply rk_effect; [apply write_body_and_end_effect|apply rd_body_and_end].
  - intros i d t _ H _ _. apply RD_conn; [|exact H]. apply rk_effect; [apply write_trailers_effect|apply rd_trailers].
  - intros d e _ H. now apply RD_recv.
  - intros d _ H. now apply RD_drop.
  - intros e d _ H. destruct e as [s| | |]; cbn [estep].
    + destruct (c_server c); exact H.
    + destruct (d_pc d); try exact H. destruct (c_server c); [|exact H]. unfold d_graceful, k_disable_keep_alive.
      set (d1 := dset_conn d _). assert (RD c input d1) as H1 by (apply RD_conn; [destruct (is_idle (d_conn d)); [now apply rk_closed|rsame]|exact H]). clearbody d1.
      destruct (_ || _); [|exact H1]. now apply RD_close.
    + destruct (d_pc d); try exact H. now apply RD_drop.
    + destruct (d_pc d), (k_log (d_conn d)); try exact H. destruct (c_server c); [|exact H]. apply RD_conn; [rsame|exact H].
Qed.
End Inbound.
