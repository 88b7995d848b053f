(* Server::parse and Client::decoder compute the framing S_Framing specifies. *)
From Verif Require Import Base M_HeaderMap M_Httparse M_Headers M_Role S_Framing L_Headers.

(* How a DecodedLength delimits a body (body/length.rs 18-23, conn.rs 303-326). *)
Definition framing_of (d : dlen) : framing :=
  if d =? DL_CHUNKED then FChunked else if d =? DL_CLOSE_DELIMITED then FClose else FLength d.
Lemma framing_of_len n : n <= MAX_LEN -> framing_of n = FLength n.
Proof.
  unfold framing_of, MAX_LEN, DL_CHUNKED, DL_CLOSE_DELIMITED, u64_max. intros H.
  destruct (N.eqb_spec n (18446744073709551615 - 1)); [lia|]. destruct (N.eqb_spec n 18446744073709551615); [lia|reflexivity].
Qed.

Definition TE := B "transfer-encoding".
Definition CL := B "content-length".
Definition CO := B "connection".

Lemma fv_app n a b : field_values n (a ++ b) = field_values n a ++ field_values n b.
Proof. unfold field_values. now rewrite filter_app, map_app. Qed.
Lemma fv_cons n x r : field_values n (x :: r) = (if beq (lower (fst x)) n then [snd x] else []) ++ field_values n r.
Proof. unfold field_values. cbn [filter]. destruct (beq _ n); reflexivity. Qed.
Lemma fv_snoc n p x : field_values n (p ++ [x]) = field_values n p ++ (if beq (lower (fst x)) n then [snd x] else []).
Proof. rewrite fv_app, fv_cons. now rewrite app_nil_r. Qed.

Lemma before_te_app p r : before_te (p ++ r) = if (match te_values p with [] => true | _ => false end) then p ++ before_te r else before_te p.
Proof.
  unfold te_values. induction p as [|x p IH]; cbn [app before_te]; auto.
  rewrite fv_cons. destruct (beq _ _); cbn [app]; auto. rewrite IH.
  destruct (field_values _ p); reflexivity.
Qed.
Lemma before_te_none p : te_values p = [] -> before_te p = p.
Proof. intros H. rewrite <- (app_nil_r p) at 1. rewrite before_te_app, H. cbn. apply app_nil_r. Qed.

Definition nonempty {A} (l : list A) : bool := match l with [] => false | _ => true end.
Lemma nonempty_app {A} (a b : list A) : nonempty (a ++ b) = nonempty a || nonempty b.
Proof. destruct a; reflexivity. Qed.
Lemma nonempty_false {A} (l : list A) : nonempty l = false <-> l = [].
Proof. destruct l; cbn; split; congruence. Qed.
Lemma nonempty_true {A} (l : list A) : nonempty l = true <-> l <> [].
Proof. destruct l; cbn; split; congruence. Qed.

(* the keep-alive flag after the Connection values [vs] *)
Definition keep_fold (k : bool) (vs : list bytes) : bool :=
  fold_left (fun (k : bool) v => if k then negb (connection_close v) else connection_keep_alive v) vs k.

Record Inv (v11 : bool) (p : list line) (l : ploop) : Prop := {
  i_te : l_is_te l = nonempty (te_values p);
  i_cl : l_is_cl l = nonempty (cl_lines p);
  i_chunked : l_te_chunked l = is_chunked (te_values p);
  i_te_case : te_values p <> [] -> v11 = true /\ l_con_len l = None /\
      (exists n, cls_agree (cl_lines (before_te p)) n) /\ (is_chunked (te_values p) = true -> l_decoder l = DL_CHUNKED);
  i_cl_case : te_values p = [] -> cl_lines p <> [] ->
      exists n, l_con_len l = Some n /\ l_decoder l = n /\ cls_agree (cl_lines p) n;
  i_none : te_values p = [] -> cl_lines p = [] -> l_con_len l = None /\ l_decoder l = 0;
  i_hdr : forall n, hm_get_all (l_headers l) n =
      if beq n CL then (if nonempty (te_values p) then [] else firstn 1 (cl_lines p)) else field_values n p;
  i_keep : l_keep l = keep_fold v11 (field_values CO p)
}.

Lemma inv_start v11 m : Inv v11 [] (loop_start v11 m).
Proof.
  constructor; cbn; auto; try congruence. intros n. now destruct (beq _ _).
Qed.

Lemma is_chunked_snoc vs v : is_chunked (vs ++ [v]) = is_chunked_ v.
Proof. unfold is_chunked. rewrite last_last. destruct (vs ++ [v]) eqn:E; [destruct vs; discriminate|reflexivity]. Qed.
Lemma keep_fold_snoc k vs v : keep_fold k (vs ++ [v]) = if keep_fold k vs then negb (connection_close v) else connection_keep_alive v.
Proof. unfold keep_fold. now rewrite fold_left_app. Qed.

Lemma cls_agree_app a b n : cls_agree (a ++ b) n <-> cls_agree a n /\ cls_agree b n.
Proof. unfold cls_agree. rewrite Forall_app. intuition. Qed.

Lemma firstn_1_app {A} (a b : list A) : a <> [] -> firstn 1 (a ++ b) = firstn 1 a.
Proof. destruct a; [congruence|reflexivity]. Qed.

(* a plain line: not TE, not CL; headers get the line, keep per [CO] *)
Lemma inv_plain v11 p l raw value l' :
  Inv v11 p l -> beq (lower raw) TE = false -> beq (lower raw) CL = false ->
  l_is_te l' = l_is_te l -> l_is_cl l' = l_is_cl l -> l_te_chunked l' = l_te_chunked l ->
  l_con_len l' = l_con_len l -> l_decoder l' = l_decoder l ->
  l_headers l' = hm_append (l_headers l) (lower raw) value ->
  l_keep l' = (if beq (lower raw) CO then if l_keep l then negb (connection_close value) else connection_keep_alive value else l_keep l) ->
  Inv v11 (p ++ [(raw, value)]) l'.
Proof.
  intros [I1 I2 I3 I4 I5 I6 I7 I8] Ht Hc E1 E2 E3 E4 E5 E6 E7.
  assert (Te : te_values (p ++ [(raw, value)]) = te_values p).
  { unfold te_values. rewrite fv_snoc. cbn [fst snd]. change (B "transfer-encoding") with TE. now rewrite Ht, app_nil_r. }
  assert (Ce : cl_lines (p ++ [(raw, value)]) = cl_lines p).
  { unfold cl_lines. rewrite fv_snoc. cbn [fst snd]. change (B "content-length") with CL. now rewrite Hc, app_nil_r. }
  constructor; rewrite ?Te, ?Ce, ?E1, ?E2, ?E3, ?E4, ?E5; auto.
  - intros H. destruct (I4 H) as (A1 & A2 & A3 & A4). repeat split; auto.
    rewrite before_te_app. destruct (te_values p) eqn:Et; [congruence|auto].
  - intros n. rewrite E6, hm_get_all_append, I7, fv_snoc. cbn [fst snd].
    destruct (beq n CL) eqn:En.
    + apply beq_eq in En. subst n. now rewrite Hc.
    + destruct (beq (lower raw) n); auto. now rewrite app_nil_r.
  - rewrite E7, fv_snoc. cbn [fst snd]. destruct (beq (lower raw) CO).
    + now rewrite keep_fold_snoc, <- I8.
    + now rewrite app_nil_r.
Qed.

(* what a rejected line rules out, whatever follows *)
Lemma no_framing_cl v11 p value raw rest f :
  te_values p = [] -> beq (lower raw) CL = true ->
  (forall n, cls_agree (cl_lines p ++ [value]) n -> False) ->
  ~ request_framing v11 (p ++ (raw, value) :: rest) f.
Proof.
  intros Hte Hc Hno.
  assert (Ht : beq (lower raw) TE = false).
  { destruct (beq (lower raw) TE) eqn:E; auto. apply beq_eq in E, Hc. rewrite E in Hc. discriminate. }
  assert (Hcl : cl_lines (p ++ (raw, value) :: rest) = (cl_lines p ++ [value]) ++ cl_lines rest).
  { unfold cl_lines. rewrite fv_app, fv_cons. cbn [fst snd]. change (B "content-length") with CL. rewrite Hc.
    cbn [app]. rewrite <- app_assoc. reflexivity. }
  intros [(_ & _ & _ & (n & Hn) & _)|[(_ & _ & n & Hn & _)|(_ & H0 & _)]].
  - apply (Hno n). rewrite before_te_app, Hte in Hn. cbn [before_te] in Hn.
    change (B "transfer-encoding") with TE in Hn. cbn [fst] in Hn. rewrite Ht in Hn.
    change (p ++ (raw, value) :: before_te rest) with (p ++ [(raw, value)] ++ before_te rest) in Hn.
    unfold cl_lines in *. rewrite fv_app, fv_app in Hn.
    change (B "content-length") with CL in *. rewrite (fv_cons CL (raw, value)) in Hn. cbn [fst snd] in Hn. rewrite Hc in Hn.
    rewrite app_assoc in Hn. apply cls_agree_app in Hn as [Hn _]. exact Hn.
  - rewrite Hcl in Hn. apply cls_agree_app in Hn as [Hn _]. exact (Hno n Hn).
  - rewrite Hcl in H0. destruct (cl_lines p); discriminate.
Qed.

Lemma cls_agree_supported cls n : cls_agree cls n -> n <= MAX_LEN.
Proof. intros [H _]. now apply supported_max. Qed.

Lemma server_line_inv v11 p l x : Inv v11 p l ->
  match server_line v11 l x with
  | Ok l' => Inv v11 (p ++ [x]) l'
  | Err _ => forall rest f, ~ request_framing v11 (p ++ x :: rest) f
  end.
Proof.
  intros I. pose proof I as [I1 I2 I3 I4 I5 I6 I7 I8]. destruct x as [raw value].
  unfold server_line. change (B "transfer-encoding") with TE. change (B "content-length") with CL.
  change (B "connection") with CO.
  destruct (beq (lower raw) TE) eqn:Ht.
  { (* Transfer-Encoding *)
    assert (Hc : beq (lower raw) CL = false).
    { destruct (beq (lower raw) CL) eqn:E; auto. apply beq_eq in E, Ht. rewrite E in Ht. discriminate. }
    assert (Hk : beq (lower raw) CO = false).
    { destruct (beq (lower raw) CO) eqn:E; auto. apply beq_eq in E, Ht. rewrite E in Ht. discriminate. }
    assert (Te : te_values (p ++ [(raw, value)]) = te_values p ++ [value]).
    { unfold te_values. rewrite fv_snoc. cbn [fst snd]. change (B "transfer-encoding") with TE. now rewrite Ht. }
    assert (Ce : cl_lines (p ++ [(raw, value)]) = cl_lines p).
    { unfold cl_lines. rewrite fv_snoc. cbn [fst snd]. change (B "content-length") with CL. now rewrite Hc, app_nil_r. }
    destruct v11; cbn [negb].
    - constructor; cbn [l_append l_is_te l_is_cl l_te_chunked l_con_len l_decoder l_headers l_keep]; rewrite ?Te, ?Ce.
      + rewrite nonempty_app. cbn. now rewrite orb_true_r.
      + exact I2.
      + now rewrite is_chunked_snoc.
      + intros _. rewrite is_chunked_snoc. split; [reflexivity|]. split; [|split].
        * destruct (l_is_cl l) eqn:Ei; auto. assert (En : nonempty (cl_lines p) = false) by congruence. apply nonempty_false in En.
          destruct (te_values p) eqn:Et; [apply I6; auto|apply I4; congruence].
        * rewrite before_te_app. destruct (te_values p) eqn:Et.
          -- cbn [before_te fst]. change (B "transfer-encoding") with TE. rewrite Ht, app_nil_r.
             destruct (cl_lines p) eqn:Ec; [exists 0; split; [reflexivity|constructor]|].
             destruct I5 as (n & _ & _ & Hn); [auto|congruence|]. exists n. exact Hn.
          -- apply I4. congruence.
        * intros ->. reflexivity.
      + intros H. destruct (te_values p); discriminate.
      + intros H. destruct (te_values p); discriminate.
      + intros n. rewrite hm_get_all_append, fv_snoc. cbn [fst snd]. rewrite nonempty_app. cbn [nonempty]. rewrite orb_true_r.
        assert (Hh : forall h, hm_get_all (if (l_is_cl l && match l_con_len l with Some _ => true | None => false end)%bool
                     then hm_remove (l_headers l) CL else l_headers l) h = if beq h CL then [] else field_values h p).
        { intros h. destruct (l_is_cl l && _)%bool eqn:Ed.
          - rewrite hm_get_all_remove, I7, beq_sym. destruct (beq h CL); reflexivity.
          - rewrite I7. destruct (beq h CL); auto. destruct (te_values p) eqn:Et; auto. cbn [nonempty].
            destruct (cl_lines p) eqn:Ec; auto. exfalso.
            destruct I5 as (n' & En & _); [auto|congruence|]. rewrite I2, En in Ed. discriminate. }
        rewrite Hh. destruct (beq n CL) eqn:En.
        * apply beq_eq in En. subst n. now rewrite Hc.
        * destruct (beq (lower raw) n); auto. now rewrite app_nil_r.
      + rewrite I8, fv_snoc. cbn [fst snd]. now rewrite Hk, app_nil_r.
    - intros rest f [(_ & H & _)|[(H & _)|(H & _)]]; [discriminate| |].
      all: change (raw, value) with (@pair bytes bytes raw value) in H; unfold te_values in H; rewrite fv_app, fv_cons in H; cbn [fst snd] in H;
        change (B "transfer-encoding") with TE in H; rewrite Ht in H; destruct (field_values TE p); discriminate. }
  destruct (beq (lower raw) CL) eqn:Hc.
  { assert (Hk : beq (lower raw) CO = false).
    { destruct (beq (lower raw) CO) eqn:E; auto. apply beq_eq in E, Hc. rewrite E in Hc. discriminate. }
    assert (Te : te_values (p ++ [(raw, value)]) = te_values p).
    { unfold te_values. rewrite fv_snoc. cbn [fst snd]. change (B "transfer-encoding") with TE. now rewrite Ht, app_nil_r. }
    assert (Ce : cl_lines (p ++ [(raw, value)]) = cl_lines p ++ [value]).
    { unfold cl_lines. rewrite fv_snoc. cbn [fst snd]. change (B "content-length") with CL. now rewrite Hc. }
    assert (Ke : field_values CO (p ++ [(raw, value)]) = field_values CO p).
    { rewrite fv_snoc. cbn [fst snd]. now rewrite Hk, app_nil_r. }
    assert (Ne : nonempty (cl_lines p ++ [value]) = true) by (rewrite nonempty_app; cbn; now rewrite orb_true_r).
    assert (He : forall n, beq n CL = false -> field_values n (p ++ [(raw, value)]) = field_values n p).
    { intros n En. rewrite fv_snoc. cbn [fst snd]. apply beq_eq in Hc. rewrite Hc, beq_sym, En. now rewrite app_nil_r. }
    cbn [l_is_te l_con_len]. destruct (l_is_te l) eqn:Eit.
    - symmetry in I1. pose proof I1 as I1'. rewrite nonempty_true in I1.
      constructor; cbn [l_is_te l_is_cl l_te_chunked l_con_len l_decoder l_headers l_keep]; rewrite ?Te, ?Ce, ?Ke; auto.
      + intros _. rewrite before_te_app. destruct (te_values p); [congruence|]. apply I4. congruence.
      + congruence.
      + intros _ H. destruct (cl_lines p); discriminate.
      + intros n. rewrite I7. destruct (beq n CL) eqn:En; [now rewrite I1'|]. now rewrite He.
    - symmetry in I1. rewrite nonempty_false in I1. unfold content_length_parse.
      destruct (from_digits value) as [len|] eqn:Ef.
      + apply from_digits_spec in Ef as [Em Hle]. destruct (l_con_len l) as [prev|] eqn:Econ.
        * assert (Hcl : cl_lines p <> []) by (intros E0; destruct (I6 I1 E0); congruence).
          destruct (I5 I1 Hcl) as (n & En & Ed & Ha). injection En as <-. rename Ed into Ed0. assert (Ed : l_decoder l = prev) by exact Ed0. clear Ed0.
          destruct (N.eqb_spec prev len) as [Epl|Hne]; cbn [negb].
          -- rewrite Epl in *; constructor; cbn [l_is_te l_is_cl l_te_chunked l_con_len l_decoder l_headers l_keep]; rewrite ?Te, ?Ce, ?Ke; auto.
             ++ rewrite I1. reflexivity.
             ++ congruence.
             ++ intros _ _. exists len. repeat split; auto; [apply Ha|]. apply Forall_app. split; [apply Ha|auto].
             ++ intros _ H. destruct (cl_lines p); discriminate.
             ++ intros m. rewrite I7. destruct (beq m CL) eqn:Em'; [|now rewrite He].
                destruct (nonempty (te_values p)); auto. now rewrite firstn_1_app.
          -- intros rest f. apply no_framing_cl; auto. intros n [_ Hn]. apply Forall_app in Hn as [Hn1 Hn2].
             inversion Hn2; subst. assert (n = len) by (eapply cl_means_fun; eauto). subst.
             destruct Ha as [_ Ha]. destruct (cl_lines p); [congruence|]. inversion Ha; subst. inversion Hn1; subst.
             apply Hne. eapply cl_means_fun; eauto.
        * assert (Hcl : cl_lines p = []).
          { destruct (cl_lines p) eqn:E0; auto. destruct I5 as (n & En & _); [auto|congruence|congruence]. }
          unfold dl_checked_new. destruct (N.leb_spec len MAX_LEN) as [Hm|Hm].
          -- constructor; cbn [l_append l_is_te l_is_cl l_te_chunked l_con_len l_decoder l_headers l_keep]; rewrite ?Te, ?Ce, ?Ke; auto.
             ++ rewrite I1. reflexivity.
             ++ congruence.
             ++ intros _ _. exists len. repeat split; auto; [now apply supported_max|]. rewrite Hcl. cbn. auto.
             ++ intros _ H. destruct (cl_lines p); discriminate.
             ++ intros m. rewrite hm_get_all_append, I7. apply beq_eq in Hc. rewrite Hc, (beq_sym CL m).
                destruct (beq m CL) eqn:Em'; [|now rewrite He].
                rewrite I1, Hcl. reflexivity.
          -- intros rest f. apply no_framing_cl; auto. intros n Hn. pose proof (cls_agree_supported _ _ Hn).
             destruct Hn as [_ Hn]. rewrite Hcl in Hn. inversion Hn; subst.
             assert (n = len) by (eapply cl_means_fun; eauto). lia.
      + intros rest f. apply no_framing_cl; auto. intros n Hn. pose proof (cls_agree_supported _ _ Hn) as Hle.
        destruct Hn as [_ Hn]. apply Forall_app in Hn as [_ Hn]. inversion Hn; subst.
        assert (from_digits value = Some n); [|congruence]. apply from_digits_spec. split; [assumption|now apply le_MAX_u64]. }
  destruct (beq (lower raw) CO) eqn:Hk.
  { eapply inv_plain; try exact I; try assumption; try reflexivity. rewrite Hk. reflexivity. }
  destruct (beq (lower raw) (B "expect")).
  { eapply inv_plain; try exact I; try assumption; try reflexivity. rewrite Hk. reflexivity. }
  destruct (beq (lower raw) (B "upgrade")).
  { eapply inv_plain; try exact I; try assumption; try reflexivity. rewrite Hk. reflexivity. }
  eapply inv_plain; try exact I; try assumption; try reflexivity. rewrite Hk. reflexivity.
Qed.

Lemma server_lines_inv v11 lines : forall p l, Inv v11 p l ->
  match server_lines v11 l lines with
  | Ok l' => Inv v11 (p ++ lines) l'
  | Err _ => forall f, ~ request_framing v11 (p ++ lines) f
  end.
Proof.
  induction lines as [|x r IH]; intros p l I; cbn [server_lines]; [now rewrite app_nil_r|].
  pose proof (server_line_inv v11 p l x I) as H. destruct (server_line v11 l x) as [l'|e].
  - specialize (IH _ _ H). rewrite <- app_assoc in IH. exact IH.
  - auto.
Qed.

Lemma request_framing_ok v11 method lines :
  match server_parse v11 method lines with
  | Ok m => request_framing v11 lines (framing_of (pm_decode m))
  | Err _ => forall f, ~ request_framing v11 lines f
  end.
Proof.
  unfold server_parse. pose proof (server_lines_inv v11 lines [] _ (inv_start v11 method)) as H.
  destruct (server_lines _ _ lines) as [l|e]; [|exact H]. cbn [app] in H. destruct H as [I1 I2 I3 I4 I5 I6 I7 I8].
  destruct (te_values lines) eqn:Et.
  - rewrite I1. cbn [nonempty andb pm_decode]. destruct (cl_lines lines) eqn:Ec.
    + destruct (I6 eq_refl eq_refl) as [_ ->]. right. right. auto.
    + destruct I5 as (n & _ & -> & Ha); [auto|congruence|]. right. left. split; auto. split; [congruence|].
      exists n. split; [now rewrite Ec|]. apply framing_of_len. eapply cls_agree_supported; eauto.
  - rewrite <- Et in *. assert (Hne : te_values lines <> []) by congruence. destruct (I4 Hne) as (A1 & A2 & A3 & A4).
    rewrite I1, I3. replace (nonempty (te_values lines)) with true by (symmetry; now apply nonempty_true).
    destruct (is_chunked (te_values lines)) eqn:Ek; cbn [andb negb pm_decode].
    + left. split; auto. split; auto. split; [now apply is_chunked_spec|]. split; auto. rewrite (A4 eq_refl). reflexivity.
    + intros f [(_ & _ & Hf & _)|[(H & _)|(H & _)]]; try congruence. apply is_chunked_spec in Hf. congruence.
Qed.

Lemma request_framing_fun v11 lines f g : request_framing v11 lines f -> request_framing v11 lines g -> f = g.
Proof.
  unfold request_framing.
  intros [(A1 & A2 & A3 & A4 & ->)|[(A1 & A2 & n & A3 & ->)|(A1 & A2 & ->)]]
    [(B1 & B2 & B3 & B4 & ->)|[(B1 & B2 & m & B3 & ->)|(B1 & B2 & ->)]]; try congruence.
  destruct A3 as [_ A3], B3 as [_ B3]. destruct (cl_lines lines); [congruence|].
  inversion A3; subst. inversion B3; subst. f_equal. eapply cl_means_fun; eauto.
Qed.

(* what else an accepted head looks like *)
Lemma server_parse_view v11 method lines m : server_parse v11 method lines = Ok m ->
  (forall n, hm_get_all (pm_headers m) n =
     if beq n CL then (if nonempty (te_values lines) then [] else firstn 1 (cl_lines lines)) else field_values n lines) /\
  pm_keep m = (if nonempty (te_values lines) && nonempty (cl_lines lines) then false else keep_fold v11 (field_values CO lines)).
Proof.
  unfold server_parse. pose proof (server_lines_inv v11 lines [] _ (inv_start v11 method)) as H.
  destruct (server_lines _ _ lines) as [l|e]; [|discriminate]. cbn [app] in H. destruct H as [I1 I2 I3 I4 I5 I6 I7 I8].
  destruct (l_is_te l && negb (l_te_chunked l))%bool; [discriminate|]. intros E. inversion E; subst. cbn [pm_headers pm_keep].
  rewrite I1, I2, I8. auto.
Qed.

(* ---- Connection ---- *)
Lemma no_edge_close : no_edge_blank (B "close").
Proof.
  split; intros b r E.
  - inversion E; reflexivity.
  - change (B "close") with (B "clos" ++ [101]) in E. apply app_inj_tail in E as [_ <-]. reflexivity.
Qed.
Lemma no_edge_keep : no_edge_blank (B "keep-alive").
Proof.
  split; intros b r E.
  - inversion E; reflexivity.
  - change (B "keep-alive") with (B "keep-aliv" ++ [101]) in E. apply app_inj_tail in E as [_ <-]. reflexivity.
Qed.
Lemma no_comma_close : ~ In 44 (B "close").
Proof. cbn. intuition discriminate. Qed.
Lemma no_comma_keep : ~ In 44 (B "keep-alive").
Proof. cbn. intuition discriminate. Qed.
Lemma connection_close_spec v : connection_close v = true <-> text v /\ list_member v (B "close").
Proof. apply connection_has_spec; [apply no_edge_close|reflexivity|apply no_comma_close]. Qed.
Lemma connection_keep_spec v : connection_keep_alive v = true <-> text v /\ list_member v (B "keep-alive").
Proof. apply connection_has_spec; [apply no_edge_keep|reflexivity|apply no_comma_keep]. Qed.

(* close in some value, keep-alive in no later one *)
Lemma keep_fold_false k vs : Forall (fun v => connection_keep_alive v = false) vs -> keep_fold k vs = true -> 
  k = true /\ Forall (fun v => connection_close v = false) vs.
Proof.
  revert k. induction vs as [|v vs IH]; intros k H E; cbn [keep_fold fold_left] in *; auto.
  inversion H; subst. apply IH in E as [E1 E2]; auto. destruct k; [|congruence].
  split; auto. constructor; auto. now destruct (connection_close v).
Qed.
Lemma keep_fold_app k a b : keep_fold k (a ++ b) = keep_fold (keep_fold k a) b.
Proof. unfold keep_fold. apply fold_left_app. Qed.
Lemma keep_fold_close k a v b : connection_close v = true ->
  Forall (fun v => connection_keep_alive v = false) b ->
  (keep_fold k a = true \/ connection_keep_alive v = false) -> keep_fold k (a ++ v :: b) = false.
Proof.
  intros Hc Hb Hk. rewrite keep_fold_app. cbn [keep_fold fold_left]. fold (keep_fold k a).
  set (k' := if keep_fold k a then negb (connection_close v) else connection_keep_alive v).
  assert (k' = false) as ->. { unfold k'. rewrite Hc. destruct (keep_fold k a); auto. destruct Hk; congruence. }
  change (keep_fold false b = false). destruct (keep_fold false b) eqn:E; auto.
  apply keep_fold_false in E as [E _]; auto.
Qed.
Lemma keep_fold_10 vs : keep_fold false vs = true -> exists v, In v vs /\ connection_keep_alive v = true.
Proof.
  intros E. destruct (Forall_dec (fun v => connection_keep_alive v = false)
     (fun v => Bool.bool_dec (connection_keep_alive v) false) vs) as [H|H].
  - apply keep_fold_false in E as [E _]; auto. discriminate.
  - apply neg_Forall_Exists_neg in H; [|intros v; apply Bool.bool_dec].
    apply Exists_exists in H as (v & Hin & Hv). exists v. split; auto. now destruct (connection_keep_alive v).
Qed.

(* ---- Client ---- *)
Lemma client_lines_spec ver lines :
  (forall n, hm_get_all (fst (fst (client_lines ver lines))) n = field_values n lines) /\
  hm_wf (fst (fst (client_lines ver lines))) /\
  snd (client_lines ver lines) = keep_fold (ver_eqb ver HTTP11) (field_values CO lines).
Proof.
  unfold client_lines.
  assert (H : forall r p acc, (forall n, hm_get_all (fst (fst acc)) n = field_values n p) -> hm_wf (fst (fst acc)) ->
    snd acc = keep_fold (ver_eqb ver HTTP11) (field_values CO p) ->
    let a := fold_left client_line r acc in
    (forall n, hm_get_all (fst (fst a)) n = field_values n (p ++ r)) /\ hm_wf (fst (fst a)) /\
    snd a = keep_fold (ver_eqb ver HTTP11) (field_values CO (p ++ r))).
  { induction r as [|[raw value] r IH]; intros p [[h c] k] H1 H2 H3; cbn [fold_left].
    - rewrite app_nil_r. auto.
    - cbn [fst snd] in *. change (p ++ (raw, value) :: r) with (p ++ [(raw, value)] ++ r). rewrite (app_assoc p).
      apply IH; cbn [client_line fst snd].
      + intros n. rewrite hm_get_all_append, fv_snoc, H1. cbn [fst snd].
        destruct (beq (lower raw) n); auto. now rewrite app_nil_r.
      + now apply hm_append_wf.
      + rewrite fv_snoc, H3. cbn [fst snd]. change (B "connection") with CO. destruct (beq (lower raw) CO).
        * now rewrite keep_fold_snoc.
        * now rewrite app_nil_r. }
  apply (H lines [] ([], [], ver_eqb ver HTTP11)); cbn; auto. split; [constructor|constructor].
Qed.

(* a list of elements of content-length lines *)
Definition elements (vs : list bytes) : list bytes := flat_map split_comma vs.
Lemma cl_tokens_spec ts : forall cur r, cl_tokens ts cur = Some r <->
  exists o, r = o /\ (ts = [] -> o = cur) /\
    (ts <> [] -> exists n, o = Some n /\ (cur = None \/ cur = Some n) /\ Forall (fun t => from_digits (trim t) = Some n) ts).
Proof.
  induction ts as [|t ts IH]; intros cur r; cbn [cl_tokens].
  - split; [intros E; inversion E; subst; exists r; repeat split; congruence|intros (o & -> & H & _); now rewrite H].
  - destruct (from_digits (trim t)) as [n|] eqn:Ef.
    + destruct cur as [c|].
      * destruct (N.eqb_spec c n) as [->|Hn].
        -- rewrite IH. split; intros (o & -> & H1 & H2).
           ++ exists o. split; auto. split; [discriminate|]. intros _. destruct ts as [|t2 ts].
              ** rewrite H1 by auto. exists n. auto.
              ** destruct H2 as (m & -> & Hc & Hf); [discriminate|]. assert (m = n) by intuition congruence. subst.
                 exists n. auto.
           ++ destruct H2 as (m & -> & Hc & Hf); [discriminate|]. assert (m = n) by intuition congruence. subst.
              exists (Some n). split; auto. split; auto. intros _. exists n. inversion Hf; auto.
        -- split; [discriminate|]. intros (o & -> & _ & H2). destruct H2 as (m & -> & Hc & Hf); [discriminate|].
           inversion Hf; subst. intuition congruence.
      * rewrite IH. split; intros (o & -> & H1 & H2).
        -- exists o. split; auto. split; [discriminate|]. intros _. destruct ts as [|t2 ts].
           ++ rewrite H1 by auto. exists n. auto.
           ++ destruct H2 as (m & -> & Hc & Hf); [discriminate|]. assert (m = n) by intuition congruence. subst.
              exists n. auto.
        -- destruct H2 as (m & -> & Hc & Hf); [discriminate|]. inversion Hf; subst. assert (m = n) by congruence. subst.
           exists (Some n). split; auto. split; auto. intros _. exists n. inversion Hf; auto.
    + split; [discriminate|]. intros (o & -> & _ & H2). destruct H2 as (m & _ & _ & Hf); [discriminate|].
      inversion Hf; subst. congruence.
Qed.

Lemma cl_values_spec vs : forall cur r, vs <> [] -> cl_values vs cur = Some r <->
  (cur = None \/ cur = Some r) /\ Forall text vs /\ Forall (fun v => Forall (fun t => from_digits (trim t) = Some r) (split_comma v)) vs.
Proof.
  induction vs as [|v vs IH]; intros cur r Hne; [congruence|]. cbn [cl_values].
  destruct (to_str_spec v) as [[Ht ->]|[Ht ->]].
  2:{ split; [discriminate|]. intros (_ & H & _). inversion H; subst. contradiction. }
  pose proof (split_comma_ne v) as Hs.
  destruct (cl_tokens (split_comma v) cur) as [cur'|] eqn:E.
  - apply cl_tokens_spec in E as (o & -> & _ & H2). destruct (H2 Hs) as (n & -> & Hc & Hf).
    destruct vs as [|v2 vs].
    + cbn [cl_values]. split.
      * intros E. inversion E; subst. auto.
      * intros (_ & _ & H). inversion H as [|? ? H1 _]; subst. destruct (split_comma v); [congruence|].
        inversion Hf; subst. inversion H1; subst. congruence.
    + rewrite IH by discriminate. split.
      * intros (Hc2 & Hx & Hy). assert (n = r) by intuition congruence. subst. split; auto.
      * intros (Hc2 & Hx & Hy). inversion Hx; subst. inversion Hy as [|? ? H5 H6]; subst.
        assert (n = r). { destruct (split_comma v); [congruence|]. inversion Hf; subst. inversion H5; subst. congruence. }
        subst. auto.
  - split; [discriminate|]. intros (Hc & _ & H). inversion H as [|? ? H1 _]; subst. exfalso.
    assert (cl_tokens (split_comma v) cur = Some (Some r)); [|congruence].
    apply cl_tokens_spec. exists (Some r). split; auto. split; [congruence|]. intros _. exists r. auto.
Qed.

Lemma trim_cl_means t n : from_digits (trim t) = Some n <->
  (exists w1 d w2, t = w1 ++ d ++ w2 /\ blanks w1 /\ blanks w2 /\ cl_means d n) /\ n <= u64_max.
Proof.
  rewrite from_digits_spec. split; intros [H Hn]; split; auto.
  - destruct (trim_split t) as (w1 & w2 & E & H1 & H2). exists w1, (trim t), w2. auto.
  - destruct H as (w1 & d & w2 & -> & H1 & H2 & Hd). rewrite trim_unique; auto.
    destruct Hd as (_ & Hd & _). rewrite Forall_forall in Hd.
    split; intros b r ->; unfold digit in Hd.
    + specialize (Hd b (or_introl eq_refl)). unfold is_blank. lia.
    + assert (Hb : In b (r ++ [b])) by (apply in_or_app; right; now left). specialize (Hd b Hb). unfold is_blank. lia.
Qed.

Lemma cl_all_spec vs n : content_length_parse_all_values vs = Some n <-> cl_list_means vs n /\ n <= u64_max.
Proof.
  unfold content_length_parse_all_values, cl_list_means. destruct vs as [|v0 vs0].
  - cbn. split; [discriminate|]. intros ((H & _) & _). congruence.
  - rewrite cl_values_spec by discriminate. remember (v0 :: vs0) as vs eqn:Ev. assert (Hne : vs <> []) by (subst; discriminate).
    split.
    + intros (_ & Ht & Hf). split.
      * split; auto. split; auto. intros v p t q Hin -> Hc Hp Hq.
        rewrite Forall_forall in Hf. specialize (Hf _ Hin). rewrite Forall_forall in Hf.
        assert (Hi : In t (split_comma (p ++ t ++ q))) by (apply split_In; split; auto; exists p, q; auto).
        apply Hf in Hi. apply trim_cl_means in Hi as [Hi _]. exact Hi.
      * rewrite Forall_forall in Hf. destruct vs as [|v vs]; [congruence|]. specialize (Hf v (or_introl eq_refl)).
        pose proof (split_comma_ne v). destruct (split_comma v); [congruence|]. inversion Hf; subst.
        apply trim_cl_means in H2. tauto.
    + intros ((_ & Ht & Hf) & Hn). split; auto. split; auto. apply Forall_forall. intros v Hin. apply Forall_forall.
      intros t Hi. apply split_In in Hi as (Hc & p & q & E & Hp & Hq). apply trim_cl_means. split; auto.
      eapply Hf; eauto.
Qed.

Lemma hm_contains_fv h n vs : hm_wf h -> hm_get_all h n = vs -> hm_contains h n = nonempty vs.
Proof. intros [_ H] <-. rewrite hm_contains_get_all by auto. reflexivity. Qed.

(* The client's decision, against the RFC. *)
Definition client_outcome (r : result (option (dlen * bool)) parse_error) : response_outcome :=
  match r with
  | Err _ => RBad
  | Ok None => RSkip
  | Ok (Some (d, up)) => RBody (framing_of d) up
  end.

Lemma client_decoder_spec ver status headers method : hm_wf headers ->
  response_framing (ver_eqb ver HTTP10) status method (hm_get_all headers TE) (hm_get_all headers CL)
    (client_outcome (client_decoder ver status headers method)).
Proof.
  intros Hw. unfold client_decoder.
  destruct (N.eqb_spec status 101) as [->|Hn101]; [now apply rf_switch|].
  destruct ((status =? 100) || ((102 <=? status) && (status <=? 199)))%bool eqn:E1; [apply rf_interim; lia|].
  destruct ((status =? 204) || (status =? 304))%bool eqn:E2; [apply rf_nobody; lia|].
  destruct (match method with Some x => beq x (B "HEAD") | None => false end) eqn:E3.
  { apply rf_head; [lia|]. destruct method; [|discriminate]. apply beq_eq in E3. now subst. }
  destruct (match method with Some x => beq x (B "CONNECT") | None => false end && ((200 <=? status) && (status <=? 299)))%bool eqn:E4.
  { apply rf_connect; [lia|lia|]. destruct method as [x|]; [|discriminate]. destruct (beq x (B "CONNECT")) eqn:E5; [|discriminate].
    apply beq_eq in E5. now subst. }
  apply rf_body; try lia.
  { intros ->. rewrite beq_refl in E3. discriminate. }
  { intros [-> H]. rewrite beq_refl in E4. lia. }
  unfold transfer_encoding_is_chunked, content_length_parse_all.
  change (B "transfer-encoding") with TE. change (B "content-length") with CL.
  rewrite (hm_contains_fv headers TE _ Hw eq_refl), (hm_contains_fv headers CL _ Hw eq_refl).
  destruct (hm_get_all headers TE) as [|te tes] eqn:Ete.
  - cbn [nonempty].
    destruct (content_length_parse_all_values (hm_get_all headers CL)) as [len|] eqn:Ec.
    + apply cl_all_spec in Ec as [Ec Hle]. unfold dl_checked_new. destruct (N.leb_spec len MAX_LEN).
      * cbn [client_outcome]. rewrite framing_of_len by auto. apply bf_length; auto. now apply supported_max.
      * apply bf_bad; auto.
        -- destruct Ec; auto.
        -- intros n Hn Hc. apply supported_max in Hn.
           assert (content_length_parse_all_values (hm_get_all headers CL) = Some n) by (apply cl_all_spec; split; [assumption|now apply le_MAX_u64]).
           assert (content_length_parse_all_values (hm_get_all headers CL) = Some len) by (apply cl_all_spec; auto). assert (n = len) by congruence. lia.
    + destruct (hm_get_all headers CL) eqn:Ecl; cbn [nonempty client_outcome].
      * apply bf_close; auto.
      * apply bf_bad; [auto|discriminate|]. intros n Hn Hc. apply supported_max in Hn.
        assert (content_length_parse_all_values (l :: l0) = Some n) by (apply cl_all_spec; split; [assumption|now apply le_MAX_u64]). congruence.
  - rewrite <- Ete. assert (Hne : hm_get_all headers TE <> []) by congruence.
    replace (nonempty (hm_get_all headers TE)) with true by (symmetry; now apply nonempty_true).
    destruct (ver_eqb ver HTTP10); [now apply bf_te10|].
    destruct (is_chunked (hm_get_all headers TE)) eqn:Ek; cbn [client_outcome].
    + apply bf_chunked; auto. now apply is_chunked_spec.
    + apply bf_other; auto. intros H. apply is_chunked_spec in H. congruence.
Qed.

Lemma response_framing_fun h10 st m tes cls a b :
  response_framing h10 st m tes cls a -> response_framing h10 st m tes cls b -> a = b.
Proof.
  assert (Hfun : forall a b, body_framing h10 tes cls a -> body_framing h10 tes cls b -> a = b).
  { intros x y Hx Hy. destruct Hx, Hy; try congruence; try contradiction.
    - subst. assert (n = n0); [|congruence].
      apply supported_max in H0, H3.
      assert (content_length_parse_all_values cls = Some n) by (apply cl_all_spec; split; [assumption|now apply le_MAX_u64]).
      assert (content_length_parse_all_values cls = Some n0) by (apply cl_all_spec; split; [assumption|now apply le_MAX_u64]). congruence.
    - exfalso. eapply H4; eauto.
    - subst. destruct H1. congruence.
    - exfalso. eapply H1; eauto.
    - subst. match goal with H : cl_list_means [] _ |- _ => destruct H; congruence end. }
  intros Hx Hy. destruct Hx, Hy; subst; try reflexivity; try (exfalso; lia); try congruence; try (exfalso; intuition (congruence || lia)).
  all: try (eapply Hfun; eassumption); discriminate.
Qed.

(* ---- DecodedLength ---- *)
(* a run of sub_if calls; None is the overflow panic *)
Fixpoint consume (d : dlen) (amts : list N) : option dlen :=
  match amts with
  | [] => Some d
  | a :: r => match dl_sub_if d a with Some d' => consume d' r | None => None end
  end.
Lemma checked_new_class len d : dl_checked_new len = Some d -> framing_of d = FLength len /\ dl_into_opt d = Some len.
Proof.
  unfold dl_checked_new. destruct (N.leb_spec len MAX_LEN) as [H|H]; [|discriminate]. intros E. inversion E; subst.
  split; [now apply framing_of_len|]. unfold dl_into_opt, MAX_LEN, DL_CHUNKED, DL_CLOSE_DELIMITED, u64_max in *.
  destruct ((d =? 18446744073709551615 - 1) || (d =? 18446744073709551615))%bool eqn:E2; [lia|reflexivity].
Qed.
Lemma checked_new_reserved len : 2 ^ 64 - 2 <= len -> dl_checked_new len = None.
Proof.
  intros H. unfold dl_checked_new. destruct (N.leb_spec len MAX_LEN) as [H'|H']; auto.
  apply supported_max in H'. unfold supported_length in H'. apply N.lt_nge in H'. contradiction.
Qed.
Lemma dl_cases d : d <= u64_max -> d = DL_CHUNKED \/ d = DL_CLOSE_DELIMITED \/ (d <= MAX_LEN /\ framing_of d = FLength d).
Proof.
  intros H. destruct (N.leb_spec d MAX_LEN) as [H'|H'].
  - right. right. split; auto. now apply framing_of_len.
  - unfold MAX_LEN, DL_CHUNKED, DL_CLOSE_DELIMITED, u64_max in *. lia.
Qed.
Lemma dl_sub_if_len d a : d <= MAX_LEN -> dl_sub_if d a = if a <=? d then Some (d - a) else None.
Proof.
  intros H. unfold dl_sub_if, MAX_LEN, DL_CHUNKED, DL_CLOSE_DELIMITED, u64_max in *.
  destruct ((d =? 18446744073709551615 - 1) || (d =? 18446744073709551615))%bool eqn:E2; [lia|reflexivity].
Qed.
Lemma consume_reserved d amts : d = DL_CHUNKED \/ d = DL_CLOSE_DELIMITED -> consume d amts = Some d.
Proof. intros H. induction amts as [|a amts IH]; cbn [consume]; auto. destruct H as [-> | ->]; exact IH. Qed.
Lemma consume_class amts d d' : d <= u64_max -> consume d amts = Some d' ->
  match framing_of d with
  | FLength n => framing_of d' = FLength (n - fold_right N.add 0 amts) /\ fold_right N.add 0 amts <= n
  | _ => d' = d
  end.
Proof.
  intros Hd E. destruct (dl_cases d Hd) as [-> | [-> | [Hm ->]]].
  - rewrite consume_reserved in E by auto. inversion E; reflexivity.
  - rewrite consume_reserved in E by auto. inversion E; reflexivity.
  - clear Hd. revert d Hm E. induction amts as [|a amts IH]; intros d Hm E; cbn [consume fold_right] in *.
    + inversion E; subst. rewrite N.sub_0_r. split; [now apply framing_of_len|apply N.le_0_l].
    + rewrite dl_sub_if_len in E by auto. destruct (N.leb_spec a d) as [Ha|Ha]; [|discriminate].
      destruct (IH (d - a)) as [I1 I2]; [|exact E|].
      * eapply N.le_trans; [apply N.le_sub_l|exact Hm].
      * rewrite I1. split; [f_equal; lia|lia].
Qed.
