(* Lemmas about the body decoders: a byte-at-a-time semantics on the flat
   stream, and the proof that decoding any fragmentation of the stream agrees
   with it. *)
From Verif Require Import Base M_Src M_Decode S_Transport.

Lemma wf_src_cons b e l : wf_src (mkSrc b (e :: l)) -> wf_event e /\ forall b', wf_src (mkSrc b' l).
Proof. unfold wf_src; cbn. intros H; inversion H; subst; auto. Qed.

(* What read_mem does, on the flat view. *)
Lemma read_mem_spec s n s' r :
  wf_src s -> 0 < n -> read_mem s n = (s', r) ->
  match r with
  | Pending => flat s' = flat s /\ has_err s' = has_err s /\ wf_src s' /\ (src_size s' < src_size s)%nat
  | Ready (Err e) => e = ETransport /\ flat s = [] /\ has_err s = true /\ (src_size s' < src_size s)%nat /\ wf_src s'
  | Ready (Ok []) => flat s = [] /\ has_err s = false /\ s' = s
  | Ready (Ok d) => flat s = d ++ flat s' /\ has_err s' = has_err s /\ lenN d <= n /\ wf_src s'
                    /\ (src_size s' < src_size s)%nat
  end.
Proof.
  destruct s as [b ev]. unfold read_mem, flat, has_err, src_size; cbn [rbuf evs].
  intros Hwf Hn. destruct b as [|x b].
  - unfold poll_read_from_io; cbn [evs rbuf]. destruct ev as [|[|d|] ev]; intros E; inversion E; subst; clear E.
    + destruct (N.min n 0); cbn; auto.
    + apply wf_src_cons in Hwf as [_ Hwf]. cbn. auto with arith.
    + apply wf_src_cons in Hwf as [Hd Hwf]. cbn in Hd. cbn [app rbuf evs].
      pose proof (lenN_pos d Hd) as Hp.
      pose proof (takeN_dropN (N.min n (lenN d)) d) as Htd.
      pose proof (takeN_len (N.min n (lenN d)) d) as Hl.
      destruct (takeN (N.min n (lenN d)) d) as [|y t] eqn:Et.
      * rewrite lenN_nil in Hl. lia.
      * cbn [flat_evs evs_err events_size app].
        repeat split; auto; [| lia |].
        -- rewrite <- Htd at 1. cbn [app]. now rewrite app_assoc.
        -- assert (length d = length ((y :: t) ++ dropN (N.min n (lenN d)) d)) by now rewrite Htd.
           rewrite app_length in *. cbn [length] in *. lia.
    + apply wf_src_cons in Hwf as [_ Hwf]. cbn. auto with arith.
  - intros E; apply pair_equal_spec in E as [<- <-].
    pose proof (takeN_dropN (N.min n (lenN (x :: b))) (x :: b)) as Htd.
    pose proof (takeN_len (N.min n (lenN (x :: b))) (x :: b)) as Hl.
    rewrite lenN_cons in *.
    destruct (takeN (N.min n (1 + lenN b)) (x :: b)) as [|y t] eqn:Et.
    + rewrite lenN_nil in Hl. lia.
    + cbn [rbuf evs]. repeat split; auto; [|lia|].
      * rewrite <- Htd at 1. now rewrite app_assoc.
      * assert (length (x :: b) = length ((y :: t) ++ dropN (N.min n (1 + lenN b)) (x :: b))) by now rewrite Htd.
        rewrite app_length in *. cbn [length] in *. lia.
Qed.

(* ------------------------------------------------------------------ *)
(* Byte-at-a-time semantics of the chunked decoder. *)
Definition byte_fun (s : chunked_state) : cdec -> N -> bres :=
  match s with
  | CStart => read_start
  | CSize => read_size
  | CSizeLws => read_size_lws
  | CExtension => read_extension
  | CSizeLf => read_size_lf
  | CBody => fun c _ =>
      let c := set_len c (chunk_len c - 1) in
      (if 0 <? chunk_len c then set_cs c CBody else set_cs c CBodyCr, None)
  | CBodyCr => read_body_cr
  | CBodyLf => read_body_lf
  | CTrailer => read_trailer
  | CTrailerLf => read_trailer_lf
  | CEndCr => read_end_cr
  | CEndLf => read_end_lf
  | CEnd => fun c _ => (c, None)
  end.

Definition is_body (s : chunked_state) : bool := match s with CBody => true | _ => false end.
Definition is_end (s : chunked_state) : bool := match s with CEnd => true | _ => false end.

Inductive outcome :=
| ODone (c : cdec) (rest : bytes)
| OErr (e : ioerr)
| OMore (c : cdec).

Definition add_data (d : bytes) (r : bytes * outcome) : bytes * outcome :=
  (d ++ fst r, snd r).

Fixpoint run (c : cdec) (l : bytes) : bytes * outcome :=
  if is_end (cs c) then ([], ODone c l)
  else
    match l with
    | [] => ([], OMore c)
    | b :: l' =>
        match byte_fun (cs c) c b with
        | (c', None) => add_data (if is_body (cs c) then [b] else []) (run c' l')
        | (_, Some e) => ([], OErr e)
        end
    end.

Lemma run_end c l : cs c = CEnd -> run c l = ([], ODone c l).
Proof. intros H. destruct l; cbn [run]; now rewrite H. Qed.
Lemma run_nil c : cs c <> CEnd -> run c [] = ([], OMore c).
Proof. intros H. cbn. destruct (cs c); try reflexivity; congruence. Qed.
Lemma run_cons c b l : cs c <> CEnd ->
  run c (b :: l) = match byte_fun (cs c) c b with
        | (c', None) => add_data (if is_body (cs c) then [b] else []) (run c' l)
        | (_, Some e) => ([], OErr e)
        end.
Proof. intros H. cbn [run]. destruct (cs c); cbn [is_end]; try reflexivity; congruence. Qed.

Lemma add_data_nil r : add_data [] r = r.
Proof. destruct r; reflexivity. Qed.
Lemma add_data_app a b r : add_data a (add_data b r) = add_data (a ++ b) r.
Proof. unfold add_data; cbn. now rewrite app_assoc. Qed.

(* Reading part of a chunk body. *)
Definition after_body (c : cdec) (n : N) : cdec :=
  let c := set_len c (chunk_len c - n) in
  if 0 <? chunk_len c then set_cs c CBody else set_cs c CBodyCr.

Lemma run_body c d l :
  cs c = CBody -> d <> [] -> lenN d <= chunk_len c ->
  run c (d ++ l) = add_data d (run (after_body c (lenN d)) l).
Proof.
  revert c. induction d as [|x d IH]; intros c Hc Hd Hl; [congruence|].
  cbn [app]. rewrite run_cons by congruence. rewrite Hc. cbn [byte_fun is_body].
  rewrite lenN_cons in *. cbn [chunk_len set_len].
  destruct d as [|y d].
  - change (1 + lenN (@nil N)) with 1. cbn [app]. reflexivity.
  - destruct (N.ltb_spec 0 (chunk_len c - 1)) as [Hlt|Hge].
    + rewrite IH; cbn [cs set_cs chunk_len set_len]; auto; [|congruence|lia].
      rewrite add_data_app. cbn [app]. do 2 f_equal.
      unfold after_body. cbn [cs set_cs chunk_len set_len ext_cnt tbuf tcnt max_hdrs max_hdr_size].
      replace (chunk_len c - 1 - lenN (y :: d)) with (chunk_len c - (1 + lenN (y :: d))) by lia.
      reflexivity.
    + rewrite lenN_cons in Hl. lia.
Qed.

(* Invariant of reachable chunked decoders. *)
Definition inv (c : cdec) : Prop :=
  (cs c = CBody -> 0 < chunk_len c) /\
  (cs c = CTrailer \/ cs c = CTrailerLf -> tbuf c <> None).

Lemma put_u8_inv c buf b k c' : put_u8 c buf b k = (c', None) ->
  k (set_tbuf c (Some (buf ++ [b]))) = (c', None) /\ lenN buf + 1 < max_hdr_size c.
Proof.
  unfold put_u8. cbn [max_hdr_size set_tbuf]. rewrite lenN_app, lenN_cons, lenN_nil.
  destruct (N.leb_spec (max_hdr_size c) (lenN buf + (1 + 0))); intros H'; [congruence|]. split; [exact H'|lia].
Qed.

Ltac brk :=
  repeat match goal with
  | H : (if ?b then _ else _) = _ |- _ => destruct b eqn:?
  | H : match ?b with _ => _ end = _ |- _ => destruct b eqn:?
  | H : (_, _) = (_, _) |- _ => inversion H; subst; clear H
  | H : put_u8 _ _ _ _ = (_, None) |- _ => apply put_u8_inv in H as [H ?]
  end.

Lemma inv_byte c b c' : inv c -> cs c <> CEnd -> byte_fun (cs c) c b = (c', None) -> inv c'.
Proof.
  intros [I1 I2] He Hb. unfold inv.
  destruct (cs c) eqn:Ec; cbn [byte_fun] in Hb; try congruence;
  unfold read_start, read_size, read_size_lws, read_extension, read_size_lf, read_body_cr, read_body_lf,
    read_trailer, read_trailer_lf, read_end_cr, read_end_lf, push_digit in Hb;
  brk; cbn in *; repeat split; intros; try congruence; try discriminate;
  try (destruct H; discriminate); try (destruct H as [H|H]; discriminate H); try lia.
  all: try (match goal with H : (_ =? 0) = false |- _ => apply N.eqb_neq in H; lia end).
  - destruct (N.ltb_spec 0 (chunk_len c - 1)); cbn in *; [assumption|discriminate].
  - destruct (0 <? chunk_len c - 1); cbn in H; destruct H; discriminate.
Qed.

(* The error seen when the stream ends in state [c]. *)
Definition eof_error (c : cdec) : ioerr := if is_body (cs c) then EIncompleteBody else EUnexpectedEof.

Section Sim.
  Variable H : Type.
  Variable dt : bytes -> N -> option H.

  Lemma with_byte_sim c s c' s' r :
    wf_src s -> cs c <> CEnd -> cs c <> CBody ->
    with_byte c s (byte_fun (cs c)) = (c', s', r) ->
    match r with
    | Pending => c' = c /\ flat s' = flat s /\ has_err s' = has_err s /\ wf_src s' /\ (src_size s' < src_size s)%nat
    | Ready (Ok buf) => buf = None /\ run c (flat s) = run c' (flat s') /\ wf_src s' /\ has_err s' = has_err s
                        /\ (src_size s' < src_size s)%nat /\ (inv c -> inv c')
    | Ready (Err e) => run c (flat s) = ([], OErr e)
        \/ (run c (flat s) = ([], OMore c) /\ e = (if has_err s then ETransport else eof_error c))
    end.
  Proof.
    intros Hwf He Hb. unfold with_byte.
    destruct (read_mem s 1) as [s1 r1] eqn:Er. apply read_mem_spec in Er; auto; [|lia].
    assert (Heof : eof_error c = EUnexpectedEof) by (unfold eof_error; destruct (cs c); try reflexivity; congruence).
    destruct r1 as [|[[|x d]|e]].
    - intros E; inversion E; subst. intuition.
    - destruct Er as (Hf & Hh & ->). intros E; inversion E; subst.
      right. rewrite Hf, Hh, run_nil by auto. auto.
    - destruct Er as (Hf & Hh & Hl & Hw & Hs).
      assert (d = []) by (rewrite lenN_cons in Hl; apply lenN_0; lia). subst d.
      destruct (byte_fun (cs c) c x) as [c1 [e|]] eqn:Eb; intros E; inversion E; subst.
      + left. rewrite Hf. cbn [app]. rewrite run_cons, Eb by auto. reflexivity.
      + repeat split; auto; rewrite ?Hf.
        * cbn [app]. rewrite run_cons, Eb by auto. destruct (cs c); cbn [is_body]; try congruence; now rewrite add_data_nil.
        * eapply inv_byte; eauto.
        * eapply inv_byte; eauto.
    - destruct Er as (-> & Hf & Hh & Hs & Hw). intros E; inversion E; subst.
      right. rewrite Hf, Hh, run_nil by auto. auto.
  Qed.

  Lemma cstep_sim c s c' s' r :
    wf_src s -> inv c -> cs c <> CEnd ->
    cstep c s = (c', s', r) ->
    match r with
    | Pending => c' = c /\ flat s' = flat s /\ has_err s' = has_err s /\ wf_src s' /\ (src_size s' < src_size s)%nat
    | Ready (Ok buf) =>
        run c (flat s) = add_data (match buf with Some d => d | None => [] end) (run c' (flat s'))
        /\ match buf with Some d => d <> [] /\ cs c' <> CEnd | None => True end
        /\ wf_src s' /\ has_err s' = has_err s /\ (src_size s' < src_size s)%nat /\ inv c'
    | Ready (Err e) => run c (flat s) = ([], OErr e)
        \/ (exists c0, run c (flat s) = ([], OMore c0) /\ e = (if has_err s then ETransport else eof_error c0))
    end.
  Proof.
    intros Hwf Hi He Hst.
    destruct (cs c) eqn:Ec; try congruence.
    6: { (* body *)
      unfold cstep in Hst. rewrite Ec in Hst. unfold read_body in Hst.
      destruct Hi as [Hi1 Hi2]. pose proof (Hi1 Ec) as Hpos.
      destruct (read_mem s (chunk_len c)) as [s1 r1] eqn:Er. apply read_mem_spec in Er; auto.
      assert (Heof : eof_error c = EIncompleteBody) by (unfold eof_error; now rewrite Ec).
      destruct r1 as [|[[|x d]|e]]; inversion Hst; subst; clear Hst.
      - intuition.
      - destruct Er as (Hf & Hh & ->). right. exists c. rewrite Hf, Hh, run_nil by congruence. auto.
      - destruct Er as (Hf & Hh & Hl & Hw & Hs).
        repeat split; auto; try congruence.
        + rewrite Hf. now rewrite run_body by (auto; congruence).
        + destruct (0 <? chunk_len c - lenN (x :: d)); cbn; discriminate.
        + destruct (0 <? chunk_len c - lenN (x :: d)) eqn:El; cbn [cs set_cs chunk_len set_len].
          * intros _. apply N.ltb_lt in El. exact El.
          * congruence.
        + destruct (0 <? chunk_len c - lenN (x :: d)); cbn; intros [|]; discriminate.
      - destruct Er as (-> & Hf & Hh & Hs & Hw). right. eexists. rewrite Hf, Hh, run_nil by congruence. auto. }
    all: assert (Hst' : with_byte c s (byte_fun (cs c)) = (c', s', r)) by
           (unfold cstep in Hst; rewrite Ec in *; exact Hst);
      apply with_byte_sim in Hst'; auto; try congruence;
      destruct r as [|[buf|e]]; auto;
      [ destruct Hst' as (-> & ? & ? & ? & ? & ?); rewrite add_data_nil; auto 10
      | destruct Hst' as [?|[? ?]]; [left|right]; eauto ].
  Qed.

  Lemma cdecode_sim fuel : forall c s c' s' r,
    wf_src s -> inv c -> cs c <> CEnd -> (src_size s < fuel)%nat ->
    cdecode dt fuel c s = (c', s', r) ->
    match r with
    | Pending => inv c' /\ cs c' <> CEnd /\ run c (flat s) = run c' (flat s') /\ has_err s' = has_err s /\ wf_src s'
         /\ (src_size s' < src_size s)%nat
    | Ready (Ok (FData [])) => run c (flat s) = ([], ODone c' (flat s')) /\ tbuf c' = None /\ cs c' = CEnd
    | Ready (Ok (FData d)) => inv c' /\ cs c' <> CEnd
         /\ run c (flat s) = add_data d (run c' (flat s')) /\ has_err s' = has_err s /\ wf_src s'
         /\ (src_size s' < src_size s)%nat
    | Ready (Ok (FTrailers h)) => exists c0 t, run c (flat s) = ([], ODone c0 (flat s')) /\ tbuf c0 = Some t
         /\ dt t (tcnt c0) = Some h /\ c' = set_tbuf c0 None /\ cs c0 = CEnd
    | Ready (Err e) =>
        run c (flat s) = ([], OErr e)
        \/ (exists c0, run c (flat s) = ([], OMore c0) /\ e = (if has_err s then ETransport else eof_error c0))
        \/ (exists c0 t, run c (flat s) = ([], ODone c0 (flat s')) /\ tbuf c0 = Some t /\ dt t (tcnt c0) = None
              /\ e = ETrailerParse)
    end.
  Proof.
    induction fuel as [|fuel IH]; intros c s c' s' r Hwf Hi He Hfu Hd; [lia|].
    cbn [cdecode] in Hd. destruct (cstep c s) as [[c1 s1] r1] eqn:Est.
    pose proof (cstep_sim _ _ _ _ _ Hwf Hi He Est) as Hsim.
    destruct r1 as [|[buf|e]].
    - inversion Hd; subst. destruct Hsim as (-> & Hf & Hh & Hw & Hs). rewrite Hf. auto 8.
    - destruct Hsim as (Hrun & Hbuf & Hw & Hh & Hs & Hi1).
      destruct (is_end (cs c1)) eqn:Hend.
      + assert (Hce : cs c1 = CEnd) by (destruct (cs c1); congruence || discriminate).
        rewrite Hce in Hd.
        destruct buf as [d|]; [destruct Hbuf; congruence|]. rewrite add_data_nil in Hrun.
        rewrite (run_end c1) in Hrun by auto.
        destruct (tbuf c1) as [t|] eqn:Et.
        * destruct (dt t (tcnt c1)) as [h|] eqn:Edt; inversion Hd; subst.
          -- exists c1, t. auto.
          -- right; right. exists c1, t. auto.
        * inversion Hd; subst. auto.
      + assert (Hce : cs c1 <> CEnd) by (intros Hx; rewrite Hx in Hend; discriminate).
        destruct buf as [d|].
        * assert (Hd' : (c', s', r) = (c1, s1, Ready (Ok (FData d)))) by (destruct (cs c1); congruence).
          inversion Hd'; subst. destruct Hbuf as [Hdn _]. destruct d; [congruence|]. auto 8.
        * assert (Hd' : cdecode dt fuel c1 s1 = (c', s', r)) by (destruct (cs c1); congruence).
          rewrite add_data_nil in Hrun.
          apply IH in Hd'; auto; [|lia].
          rewrite Hrun, <- Hh.
          destruct r as [|[[[|x d]|h]|e]]; intuition lia.
    - inversion Hd; subst. destruct Hsim as [?|(c0 & ? & ?)]; [left; auto|right; left; eauto].
  Qed.

  (* What the application sees of the stream, by the flat semantics. *)
  Definition expected_end (s : src) (o : outcome) : body_end H :=
    match o with
    | ODone c0 _ =>
        match tbuf c0 with
        | None => BEnd
        | Some t => match dt t (tcnt c0) with Some h => BTrailers h | None => BError ETrailerParse end
        end
    | OErr e => BError e
    | OMore c0 => BError (if has_err s then ETransport else eof_error c0)
    end.

  Lemma read_all_sim fuel : forall c s fs e d' s',
    wf_src s -> inv c -> cs c <> CEnd -> (src_size s < fuel)%nat ->
    read_body_all dt fuel (DChunked c) s = (fs, e, d', s') ->
    exists o, run c (flat s) = (concat fs, o)
      /\ e = expected_end s o
      /\ Forall (fun d => d <> []) fs
      /\ match o with ODone _ rest => flat s' = rest | _ => True end.
  Proof.
    induction fuel as [|fuel IH]; intros c s fs e d' s' Hwf Hi He Hfu Hd; [lia|].
    cbn [read_body_all] in Hd. unfold decode in Hd.
    destruct (cdecode dt (S (src_size s)) c s) as [[c1 s1] r1] eqn:Ecd.
    pose proof (cdecode_sim _ _ _ _ _ _ Hwf Hi He (Nat.lt_succ_diag_r _) Ecd) as Hsim.
    destruct r1 as [|[[[|x d]|h]|er]].
    - destruct Hsim as (Hi1 & He1 & Hrun & Hh & Hw & Hs).
      apply IH in Hd; auto; [|lia]. destruct Hd as (o & Hr & Hex & Hfs & Hrest).
      exists o. rewrite Hrun. repeat split; auto. rewrite Hex. unfold expected_end. now rewrite Hh.
    - destruct Hsim as (Hrun & Ht & Hend). cbn [is_eof] in Hd. rewrite Hend in Hd. inversion Hd; subst.
      exists (ODone c1 (flat s')). cbn [concat expected_end]. rewrite Ht. auto.
    - destruct Hsim as (Hi1 & He1 & Hrun & Hh & Hw & Hs).
      cbn [is_eof] in Hd. assert (Hne : match cs c1 with CEnd => true | _ => false end = false) by (destruct (cs c1); congruence).
      rewrite Hne in Hd. destruct (read_body_all dt fuel (DChunked c1) s1) as [[[fs1 e1] d1] s2] eqn:Erec.
      inversion Hd; subst. apply IH in Erec; auto; [|lia]. destruct Erec as (o & Hr & Hex & Hfs & Hrest).
      exists o. rewrite Hrun, Hr. repeat split; auto.
      + rewrite Hex. unfold expected_end. now rewrite Hh.
      + constructor; auto. congruence.
    - destruct Hsim as (c0 & t & Hrun & Ht & Hdt & -> & Hce). inversion Hd; subst.
      exists (ODone c0 (flat s')). cbn [concat expected_end]. rewrite Ht, Hdt. auto.
    - inversion Hd; subst. destruct Hsim as [Hr|[(c0 & Hr & Hee)|(c0 & t & Hr & Ht & Hdt & ->)]].
      + exists (OErr er). auto.
      + exists (OMore c0). cbn [expected_end]. subst er. auto.
      + exists (ODone c0 (flat s')). cbn [expected_end]. rewrite Ht, Hdt. auto.
  Qed.

  (* Content-Length bodies. *)
  Lemma read_all_length fuel : forall n s fs e d' s',
    wf_src s -> (src_size s < fuel)%nat ->
    read_body_all dt fuel (DLength n) s = (fs, e, d', s') ->
    Forall (fun d => d <> []) fs /\
    if n <=? lenN (flat s) then
      concat fs = takeN n (flat s) /\ e = BEnd /\ flat s' = dropN n (flat s)
    else
      concat fs = flat s /\ e = BError (if has_err s then ETransport else EIncompleteBody).
  Proof.
    induction fuel as [|fuel IH]; intros n s fs e d' s' Hwf Hfu Hd; [lia|].
    cbn [read_body_all] in Hd. unfold decode in Hd.
    destruct (N.eqb_spec n 0) as [->|Hn].
    { cbn [is_eof] in Hd. inversion Hd; subst. cbn [concat]. rewrite takeN_0, dropN_0.
      destruct (N.leb_spec 0 (lenN (flat s'))); [auto|lia]. }
    destruct (read_mem s n) as [s1 r1] eqn:Er. apply read_mem_spec in Er; auto; [|lia].
    destruct r1 as [|[[|x d]|er]].
    - destruct Er as (Hf & Hh & Hw & Hs). apply IH in Hd; auto; [|lia]. rewrite Hf, Hh in Hd. exact Hd.
    - destruct Er as (Hf & Hh & ->). rewrite lenN_nil in Hd. destruct (N.ltb_spec n 0); [lia|].
      cbn [N.eqb] in Hd. inversion Hd; subst. rewrite Hf, Hh, lenN_nil. destruct (N.leb_spec n 0); [lia|]. cbn. auto.
    - destruct Er as (Hf & Hh & Hl & Hw & Hs).
      destruct (N.ltb_spec n (lenN (x :: d))); [lia|].
      destruct (N.eqb_spec (lenN (x :: d)) 0) as [Hz0|Hz0]; [rewrite lenN_cons in Hz0; lia|].
      rewrite Hf, lenN_app.
      destruct (N.eqb_spec (n - lenN (x :: d)) 0) as [Hz|Hz].
      + rewrite Hz in Hd. cbn [is_eof] in Hd. inversion Hd; subst.
        destruct (N.leb_spec n (lenN (x :: d) + lenN (flat s'))); [|lia].
        split; [constructor; [congruence|constructor]|].
        assert (n = lenN (x :: d)) by lia. subst n.
        rewrite takeN_app_le, dropN_app_ge, N.sub_diag, dropN_0, takeN_all by lia.
        cbn [concat]. rewrite app_nil_r. auto.
      + assert (Hne : is_eof (DLength (n - lenN (x :: d))) = false)
          by (cbn [is_eof]; destruct (n - lenN (x :: d)); congruence).
        rewrite Hne in Hd.
        destruct (read_body_all dt fuel (DLength (n - lenN (x :: d))) s1) as [[[fs1 e1] d1] s2] eqn:Erec.
        inversion Hd; subst. apply IH in Erec; auto; [|lia]. destruct Erec as [Hfs Hc].
        split; [constructor; [congruence|auto]|]. rewrite Hh in Hc.
        destruct (N.leb_spec (n - lenN (x :: d)) (lenN (flat s1))), (N.leb_spec n (lenN (x :: d) + lenN (flat s1))); try lia.
        * destruct Hc as (Hc1 & Hc2 & Hc3). cbn [concat]. rewrite Hc1, Hc3, takeN_app_ge, dropN_app_ge by lia. auto.
        * destruct Hc as (Hc1 & Hc2). cbn [concat]. rewrite Hc1. auto.
    - destruct Er as (-> & Hf & Hh & Hs & Hw). inversion Hd; subst. rewrite Hf, Hh, lenN_nil.
      destruct (N.leb_spec n 0); [lia|]. cbn. auto.
  Qed.

  (* Close-delimited bodies. *)
  Lemma read_all_eof fuel : forall s fs e d' s',
    wf_src s -> (src_size s < fuel)%nat ->
    read_body_all dt fuel dec_eof s = (fs, e, d', s') ->
    Forall (fun d => d <> []) fs /\
    concat fs = flat s /\ e = (if has_err s then BError ETransport else BEnd).
  Proof.
    unfold dec_eof.
    induction fuel as [|fuel IH]; intros s fs e d' s' Hwf Hfu Hd; [lia|].
    cbn [read_body_all] in Hd. unfold decode in Hd.
    destruct (read_mem s 8192) as [s1 r1] eqn:Er. apply read_mem_spec in Er; auto; [|lia].
    destruct r1 as [|[[|x d]|er]].
    - destruct Er as (Hf & Hh & Hw & Hs). apply IH in Hd; auto; [|lia]. rewrite Hf, Hh in Hd. exact Hd.
    - destruct Er as (Hf & Hh & ->). cbn [is_eof] in Hd. inversion Hd; subst. rewrite Hf, Hh. auto.
    - destruct Er as (Hf & Hh & Hl & Hw & Hs). cbn [is_eof] in Hd.
      destruct (read_body_all dt fuel (DEof false) s1) as [[[fs1 e1] d1] s2] eqn:Erec.
      inversion Hd; subst. apply IH in Erec; auto; [|lia]. destruct Erec as (Hfs & Hc & He).
      rewrite Hf. cbn [concat]. rewrite Hc, He, Hh. split; [constructor; [congruence|auto]|auto].
    - destruct Er as (-> & Hf & Hh & Hs & Hw). inversion Hd; subst. rewrite Hf, Hh. auto.
  Qed.
End Sim.
