(* Length-framed sending, trailers, and reading trailers back. *)
From Verif Require Import Base M_Src M_Decode M_HeaderMap M_Encode M_Httparse S_Transport S_Chunked S_Send
  L_Decode L_Chunked L_Encode.

(* ---------------- C09 ---------------- *)
Lemma send_length fs : forall e n al ti w out r,
  ekind e = KLength n ->
  send_body al ti (WBody e) fs = (w, out, r) ->
  out = takeN n (user_data fs) /\
  (lenN (user_data fs) < n -> w <> WKeepAlive) /\
  (n <= lenN (user_data fs) -> n <> 0 -> w = after_end e /\ r = SDone).
Proof.
  induction fs as [|f fs IH]; intros e n al ti w out r Hk Hs; cbn [send_body user_data] in *.
  - unfold end_body, enc_end, is_close_delimited in Hs. rewrite Hk in Hs. rewrite lenN_nil.
    destruct n as [|p]; inversion Hs; subst; cbn [takeN]; repeat split; try discriminate; try lia.
  - destruct f as [d eos|t|].
    + destruct eos.
      * rewrite app_nil_r. destruct d as [|x d].
        -- unfold end_body, enc_end, is_close_delimited in Hs. rewrite Hk in Hs. rewrite lenN_nil.
           destruct n as [|p]; inversion Hs; subst; cbn [takeN]; repeat split; try discriminate; try lia.
        -- unfold write_body_and_end, encode_and_end in Hs. rewrite Hk in Hs.
           destruct (N.compare_spec (lenN (x :: d)) n) as [E|E|E]; cbn [negb is_last] in Hs;
             apply pair_equal_spec in Hs as [Hs <-]; apply pair_equal_spec in Hs as [<- <-].
           ++ rewrite takeN_all by lia. split; [reflexivity|]. split; [lia|]. intros _ _. unfold after_end. destruct (is_last e); auto.
           ++ rewrite takeN_all by lia. split; [reflexivity|]. split; [discriminate|lia].
           ++ split; [reflexivity|]. split; [lia|]. intros _ _. unfold after_end. destruct (is_last e); auto.
      * destruct d as [|x d].
        -- cbn [app]. eapply IH; eauto.
        -- unfold write_body, encode in Hs. rewrite Hk in Hs. rewrite lenN_app.
           destruct (N.ltb_spec n (lenN (x :: d))) as [Hlt|Hge].
           ++ unfold enc_is_eof in Hs. cbn [ekind negb is_last] in Hs.
              assert (Hw : (w, out, r) = (after_end e, takeN n (x :: d), SDone)).
              { rewrite <- Hs. unfold after_end. destruct (is_last e); destruct fs as [|[]]; cbn [send_body]; now rewrite app_nil_r. }
              inversion Hw; subst. rewrite takeN_app_le by lia. repeat split; lia.
           ++ unfold enc_is_eof in Hs. cbn [ekind negb is_last] in Hs.
              destruct (N.eq_dec (n - lenN (x :: d)) 0) as [Hz|Hz].
              ** rewrite Hz in Hs. cbn [negb] in Hs.
                 assert (Hw : (w, out, r) = (after_end e, x :: d, SDone)).
                 { rewrite <- Hs. unfold after_end. destruct (is_last e); destruct fs as [|[]]; cbn [send_body]; now rewrite app_nil_r. }
                 assert (n = lenN (x :: d)) by lia. subst n.
                 inversion Hw; subst. rewrite takeN_app_le, takeN_all by lia. repeat split; lia.
              ** replace (match n - lenN (x :: d) with 0 => true | _ => false end) with false in Hs
                   by (destruct (n - lenN (x :: d)); congruence).
                 cbn [negb] in Hs.
                 destruct (send_body al ti (WBody (mkEnc (KLength (n - lenN (x :: d))) (is_last e))) fs) as [[w1 o1] r1] eqn:Er.
                 inversion Hs; subst. apply IH with (n := n - lenN (x :: d)) in Er; [|reflexivity].
                 destruct Er as (-> & H1 & H2). rewrite takeN_app_ge by lia. repeat split.
                 --- intros. apply H1. lia.
                 --- apply H2; lia.
                 --- apply H2; lia.
    + unfold write_trailers, encode_trailers in Hs. rewrite Hk in Hs. rewrite lenN_nil.
      assert (Hs' : match end_body e with
                    | (w', out', None) => (w', [] ++ out', SDone)
                    | (w', out', Some n) => (w', [] ++ out', SAborted n) end = (w, out, r)) by (destruct al; exact Hs).
      unfold end_body, enc_end, is_close_delimited in Hs'. rewrite Hk in Hs'.
      destruct n as [|p]; inversion Hs'; subst; cbn [takeN]; repeat split; try discriminate; try lia.
    + inversion Hs; subst. rewrite lenN_nil. cbn [takeN]. repeat split; try discriminate; lia.
Qed.

(* ---------------- C10 ---------------- *)
Lemma one_step_two_steps e d : d <> [] ->
  let (w1, o1) := write_body_and_end e d in
  let (w2, o2) := write_body e d in
  match w2 with
  | WBody e' => match end_body e' with (w3, o3, _) => o1 = o2 ++ o3 /\ w1 = w3 end
  | _ => o1 = o2 /\ w1 = w2
  end.
Proof.
  intros Hd. unfold write_body_and_end, encode_and_end, write_body, encode, end_body, enc_end, enc_is_eof, is_close_delimited.
  destruct e as [[a|n|] l]; cbn [ekind is_last negb].
  - rewrite orb_false_r. split; [|destruct l; reflexivity]. rewrite <- !app_assoc. reflexivity.
  - pose proof (lenN_pos d Hd) as Hp.
    destruct (N.compare_spec (lenN d) n) as [E|E|E]; destruct (N.ltb_spec n (lenN d)); try lia; cbn [ekind is_last].
    + rewrite E, N.sub_diag. cbn [negb]. destruct l; auto.
    + destruct (n - lenN d) eqn:Es; [lia|]. cbn [negb ekind]. rewrite app_nil_r. auto.
    + cbn [negb]. destruct l; auto.
  - rewrite orb_true_r, app_nil_r. auto.
Qed.

(* ---------------- C11 ---------------- *)
Lemma existsb_beq_In n l : existsb (beq n) l = true <-> In n l.
Proof.
  rewrite existsb_exists. split.
  - intros (x & Hx & E). apply beq_eq in E. subst. auto.
  - intros H. exists n. split; auto. apply beq_refl.
Qed.
Lemma valid_trailer_spec n : is_valid_trailer_field n = true <-> ~ forbidden_in_trailers n.
Proof.
  unfold is_valid_trailer_field, forbidden_in_trailers. rewrite negb_true_iff.
  assert (Hi : In n forbidden_trailers <-> In n forbidden_names).
  { unfold forbidden_trailers, forbidden_names. cbn [map In]. intuition. }
  rewrite <- Hi, <- existsb_beq_In. destruct (existsb (beq n) forbidden_trailers); intuition congruence.
Qed.

Definition keep (names : list bytes) (nv : bytes * bytes) : bool :=
  existsb (beq (fst nv)) names && is_valid_trailer_field (fst nv).
Lemma keep_sendable names nv : keep names nv = true <-> sendable names nv.
Proof.
  unfold keep, sendable. rewrite andb_true_iff, existsb_beq_In, valid_trailer_spec. reflexivity.
Qed.

Lemma sendable_keep names l : sendable_fields names l = filter (keep names) l.
Proof.
  unfold sendable_fields. apply filter_ext. intros f. unfold keep. f_equal.
  pose proof (valid_trailer_spec (fst f)) as H. unfold forbidden_in_trailers in H. rewrite <- existsb_beq_In in H.
  destruct (is_valid_trailer_field (fst f)), (existsb (beq (fst f)) forbidden_names); cbn; auto; [|symmetry]; tauto || (exfalso; intuition congruence).
Qed.

Lemma hm_append_snoc m k v : ~ In k (map fst m) -> hm_append m k v = m ++ [(k, [v])].
Proof.
  induction m as [|[k' vs] m IH]; cbn [hm_append map fst In app]; intros H; auto.
  destruct (beq k' k) eqn:E; [apply beq_eq in E; intuition|]. rewrite IH by tauto. reflexivity.
Qed.
Lemma hm_append_last m k vs v : ~ In k (map fst m) -> hm_append (m ++ [(k, vs)]) k v = m ++ [(k, vs ++ [v])].
Proof.
  induction m as [|[k' vs'] m IH]; cbn [hm_append map fst In app]; intros H.
  - now rewrite beq_refl.
  - destruct (beq k' k) eqn:E; [apply beq_eq in E; intuition|]. rewrite IH by tauto. reflexivity.
Qed.

Lemma fold_append_last k vs : forall m ws, ~ In k (map fst m) ->
  fold_left (fun acc nv => hm_append acc (fst nv) (snd nv)) (map (fun v => (k, v)) vs) (m ++ [(k, ws)]) = m ++ [(k, ws ++ vs)].
Proof.
  induction vs as [|v vs IH]; intros m ws H; cbn [map fold_left fst snd].
  - now rewrite app_nil_r.
  - rewrite hm_append_last by auto. rewrite IH by auto. now rewrite <- app_assoc.
Qed.
Lemma fold_append_group k vs m : vs <> [] -> ~ In k (map fst m) ->
  fold_left (fun acc nv => hm_append acc (fst nv) (snd nv)) (map (fun v => (k, v)) vs) m = m ++ [(k, vs)].
Proof.
  intros Hv Hk. destruct vs as [|v vs]; [congruence|]. cbn [map fold_left fst snd].
  rewrite hm_append_snoc by auto. now rewrite fold_append_last.
Qed.

Lemma filter_trailers_groups names t : hm_wf t ->
  filter_trailers names t = filter (fun g => existsb (beq (fst g)) names && is_valid_trailer_field (fst g)) t.
Proof.
  intros [Hnd Hne]. unfold filter_trailers, hm_iter.
  enough (forall acc, (forall k, In k (map fst acc) -> ~ In k (map fst t)) ->
    fold_left (fun acc nv =>
      if existsb (beq (fst nv)) names then
        if is_valid_trailer_field (fst nv) then hm_append acc (fst nv) (snd nv) else acc
      else acc) (flat_map (fun g => map (fun v => (fst g, v)) (snd g)) t) acc
    = acc ++ filter (fun g => existsb (beq (fst g)) names && is_valid_trailer_field (fst g)) t) as H
    by (rewrite H; [reflexivity|intros k []]).
  induction t as [|[k vs] t IH]; intros acc Hdisj; cbn [flat_map filter fst snd].
  - cbn [fold_left]. now rewrite app_nil_r.
  - inversion Hnd; subst. inversion Hne as [|? ? Hv Hne']; subst. cbn [snd] in Hv. cbn [map fst] in *.
    rewrite fold_left_app.
    destruct (existsb (beq k) names && is_valid_trailer_field k) eqn:Ek.
    + assert (Hf : forall a, fold_left (fun acc nv =>
        if existsb (beq (fst nv)) names then
          if is_valid_trailer_field (fst nv) then hm_append acc (fst nv) (snd nv) else acc
        else acc) (map (fun v => (k, v)) vs) a =
        fold_left (fun acc nv => hm_append acc (fst nv) (snd nv)) (map (fun v => (k, v)) vs) a).
      { clear -Ek. apply andb_true_iff in Ek as [E1 E2]. induction vs as [|v vs IHv]; intros a; cbn [map fold_left fst snd]; auto.
        rewrite E1, E2. apply IHv. }
      rewrite Hf, fold_append_group; auto.
      * rewrite IH; auto; [now rewrite <- app_assoc|].
        intros k' Hin Ht. rewrite map_app, in_app_iff in Hin. cbn [map fst In] in Hin.
        destruct Hin as [Hin|[->|[]]]; [|auto]. apply (Hdisj k'); auto. now right.
      * intros Hin. apply (Hdisj k); auto. now left.
    + assert (Hf : forall a, fold_left (fun acc nv =>
        if existsb (beq (fst nv)) names then
          if is_valid_trailer_field (fst nv) then hm_append acc (fst nv) (snd nv) else acc
        else acc) (map (fun v => (k, v)) vs) a = a).
      { clear -Ek. induction vs as [|v vs IHv]; intros a; cbn [map fold_left fst snd]; auto.
        rewrite andb_false_iff in Ek. destruct (existsb (beq k) names); [destruct (is_valid_trailer_field k)|]; auto.
        destruct Ek; discriminate. }
      rewrite Hf. apply IH; auto. intros k' Hin Ht. apply (Hdisj k'); auto. now right.
Qed.

Lemma filter_trailers_iter names t : hm_wf t -> hm_iter (filter_trailers names t) = filter (keep names) (hm_iter t).
Proof.
  intros H. rewrite filter_trailers_groups by auto. clear H. unfold hm_iter.
  induction t as [|[k vs] t IH]; cbn [filter flat_map fst snd]; auto.
  assert (Hg : filter (keep names) (map (fun v => (k, v)) vs) =
    if existsb (beq k) names && is_valid_trailer_field k then map (fun v => (k, v)) vs else []).
  { clear. unfold keep. induction vs as [|v vs IHv]; cbn [map filter fst]; [destruct (_ && _); auto|].
    rewrite IHv. destruct (existsb (beq k) names && is_valid_trailer_field k); reflexivity. }
  rewrite filter_app, Hg. destruct (existsb (beq k) names && is_valid_trailer_field k); cbn [flat_map fst snd app].
  - now rewrite IH.
  - auto.
Qed.

(* ---------------- httparse reads a written block back ---------------- *)
Lemma token_tchar b : token_char b = true -> is_tchar b = true /\ is_tchar (to_upper b) = true /\ to_lower b = b
   /\ to_lower (to_upper b) = b /\ b <> 13 /\ b <> 10 /\ b <> 58 /\ to_upper b <> 13 /\ to_upper b <> 10 /\ to_upper b <> 58.
Proof.
  unfold token_char. rewrite !orb_true_iff.
  intros [[H|H]|H].
  - assert (48 <= b <= 57) by lia. unfold is_tchar, to_upper, to_lower.
    destruct (N.leb_spec 97 b), (N.leb_spec b 122); try lia; cbn [andb].
    all: destruct (N.leb_spec 65 b), (N.leb_spec b 90); try lia; cbn [andb].
    all: destruct (N.leb_spec 48 b), (N.leb_spec b 57); try lia; cbn [andb orb]. all: repeat split; try lia.
  - assert (97 <= b <= 122) by lia. unfold is_tchar, to_upper, to_lower.
    destruct (N.leb_spec 97 b), (N.leb_spec b 122); try lia; cbn [andb].
    destruct (N.leb_spec 65 b), (N.leb_spec b 90); try lia; cbn [andb].
    destruct (N.leb_spec 65 (b - 32)), (N.leb_spec (b - 32) 90); try lia; cbn [andb].
    destruct (N.leb_spec 48 (b-32)), (N.leb_spec (b-32) 57); try lia; cbn [andb orb].
    all: rewrite ?orb_true_r; cbn [orb].
    all: repeat split; try lia; rewrite ?orb_true_r; try reflexivity.
  - apply existsb_exists in H as (x & Hx & E). apply N.eqb_eq in E. subst x.
    cbn in Hx. repeat (destruct Hx as [<-|Hx]; [repeat split; try reflexivity; discriminate|]). destruct Hx.
Qed.

Lemma title_case_from_spec s : forall u, Forall (fun b => token_char b = true) s ->
  lower (title_case_from u s) = s /\ Forall (fun b => is_tchar b = true /\ b <> 13 /\ b <> 10) (title_case_from u s).
Proof.
  unfold lower. induction s as [|c s IH]; intros u H; cbn [title_case_from map]; [auto|].
  inversion H as [|? ? Hc Hs]; subst. destruct (IH (c =? 45) Hs) as [H1 H2].
  pose proof (token_tchar c Hc) as (T1 & T2 & T3 & T4 & T5 & T6 & T7 & T8 & T9 & T10).
  destruct u; (split; [f_equal; auto|constructor; auto]).
Qed.
Lemma plain_name_spec s : Forall (fun b => token_char b = true) s ->
  lower s = s /\ Forall (fun b => is_tchar b = true /\ b <> 13 /\ b <> 10) s.
Proof.
  unfold lower. induction s as [|c s IH]; intros H; cbn [map]; [auto|].
  inversion H as [|? ? Hc Hs]; subst. destruct (IH Hs) as [H1 H2].
  pose proof (token_tchar c Hc) as (T1 & T2 & T3 & T4 & T5 & T6 & T7 & T8 & T9 & T10).
  split; [f_equal; auto|constructor; auto].
Qed.

Lemma take_while_all f a b r : Forall (fun x => f x = true) a -> f b = false ->
  take_while f (a ++ b :: r) = a /\ drop_while f (a ++ b :: r) = b :: r.
Proof.
  intros Ha Hb. induction Ha as [|x a Hx Ha [IH1 IH2]]; cbn [app take_while drop_while].
  - now rewrite Hb.
  - now rewrite Hx, IH1, IH2.
Qed.

Lemma is_blank_spec b : is_blank b = true <-> blank b.
Proof. unfold is_blank, blank. rewrite orb_true_iff, !N.eqb_eq. reflexivity. Qed.
Lemma drop_blank_id v : (forall b r, v = b :: r -> ~ blank b) -> drop_while is_blank v = v.
Proof.
  destruct v as [|x v]; intros H; auto. cbn [drop_while].
  destruct (is_blank x) eqn:E; auto. apply is_blank_spec in E. exfalso. eapply H; eauto.
Qed.

Lemma parse_header_line ti nv : wf_field nv -> parse_line (header_line ti nv) = Some nv.
Proof.
  destruct nv as [n v]. unfold wf_field, wf_name, wf_value. cbn [fst snd]. intros ((Hne & Hn) & Hv & Hb1 & Hb2).
  unfold parse_line, header_line. cbn [fst snd].
  set (n' := if ti then title_case n else n).
  assert (Hn' : lower n' = n /\ Forall (fun b => is_tchar b = true /\ b <> 13 /\ b <> 10) n' /\ n' <> []).
  { unfold n'. destruct ti.
    - destruct (title_case_from_spec n true Hn) as [H1 H2]. repeat split; auto. unfold title_case. destruct n; [congruence|discriminate].
    - destruct (plain_name_spec n Hn) as [H1 H2]. auto. }
  destruct Hn' as (Hl & Hf & Hnn).
  change (B ": ") with [58; 32]. cbn [app].
  destruct (take_while_all is_tchar n' 58 (32 :: v)) as [T D].
  { eapply Forall_impl; [|exact Hf]. cbn. tauto. }
  { reflexivity. }
  rewrite T, D. destruct n' as [|x n']; [congruence|].
  assert (Hd : trim_end is_blank (drop_while is_blank (32 :: v)) = v).
  { cbn [drop_while]. change (is_blank 32) with true. cbv iota. rewrite drop_blank_id by auto.
    unfold trim_end. rewrite drop_blank_id; [apply rev_involutive|].
    intros b r E. eapply Hb2. rewrite <- (rev_involutive v), E. reflexivity. }
  rewrite Hd.
  assert (Hva : forallb is_vchar v = true).
  { apply forallb_forall. rewrite Forall_forall in Hv. intros b Hin. specialize (Hv b Hin). unfold is_vchar.
    destruct Hv as [->|[H1 H2]]; [reflexivity|]. rewrite orb_true_iff, andb_true_iff, negb_true_iff, N.leb_le, N.eqb_neq. auto. }
  rewrite Hva, Hl. reflexivity.
Qed.

Lemma header_line_no_crlf ti nv : wf_field nv -> header_line ti nv <> [] /\ ~ In 13 (header_line ti nv) /\ ~ In 10 (header_line ti nv).
Proof.
  destruct nv as [n v]. unfold wf_field, wf_name, wf_value. cbn [fst snd]. intros ((Hne & Hn) & Hv & _).
  unfold header_line. cbn [fst snd]. set (n' := if ti then title_case n else n).
  assert (Hf : Forall (fun b => is_tchar b = true /\ b <> 13 /\ b <> 10) n').
  { unfold n'. destruct ti; [apply title_case_from_spec|apply plain_name_spec]; auto. }
  rewrite Forall_forall in Hf, Hv. change (B ": ") with [58; 32].
  split; [destruct n'; discriminate|].
  rewrite !in_app_iff. cbn [In].
  split; intros [H|[H|H]].
  1,4: apply Hf in H; tauto.
  1,3: destruct H as [H|[H|[]]]; discriminate.
  all: apply Hv in H; lia.
Qed.

Lemma take_line_spec l r : ~ In 10 l -> take_line (l ++ CRLF ++ r) = Some (l ++ [13], r).
Proof.
  induction l as [|x l IH]; intros H; cbn [app]; [reflexivity|]. cbn [In] in H.
  cbn [take_line]. destruct (N.eqb_spec x 10); [tauto|]. rewrite IH by tauto. reflexivity.
Qed.
Lemma strip_cr_spec l : strip_cr (l ++ [13]) = l.
Proof. unfold strip_cr. rewrite rev_app_distr. cbn [rev app]. apply rev_involutive. Qed.

Lemma parse_written ti l : Forall wf_field l ->
  parse_block (trailer_lines (map (header_line ti) l) ++ CRLF) (lenN l) = Some l.
Proof.
  intros H. unfold parse_block.
  enough (forall fuel, (length l < fuel)%nat ->
    parse_block_f fuel (trailer_lines (map (header_line ti) l) ++ CRLF) (lenN l) = Some l) as He.
  { apply He. apply Nat.lt_succ_r. rewrite app_length.
    enough (length l <= length (trailer_lines (map (header_line ti) l)))%nat by lia.
    unfold trailer_lines. clear. induction l; cbn [map concat length]; auto.
    rewrite !app_length. cbn [length CRLF]. lia. }
  induction H as [|nv l Hnv Hl IH]; intros fuel Hf; (destruct fuel as [|fuel]; [lia|]); cbn [parse_block_f].
  - reflexivity.
  - unfold trailer_lines. cbn [map concat]. fold (trailer_lines (map (header_line ti) l)).
    destruct (header_line_no_crlf ti nv Hnv) as (N1 & N2 & N3).
    rewrite <- !app_assoc. rewrite take_line_spec, strip_cr_spec by auto.
    rewrite lenN_cons. destruct (N.eqb_spec (1 + lenN l) 0); [lia|].
    replace (1 + lenN l - 1) with (lenN l) by lia.
    cbn [length] in Hf. pose proof (parse_header_line ti nv Hnv) as Hp.
    destruct (header_line ti nv) as [|x hl]; [congruence|]. rewrite Hp, IH by lia. reflexivity.
Qed.

(* ---------------- prefixes and bounds of the chunked automaton ---------------- *)
Lemma run_app p : forall c q,
  run c (p ++ q) = match run c p with
    | (d, ODone c' rest) => (d, ODone c' (rest ++ q))
    | (d, OErr e) => (d, OErr e)
    | (d, OMore c') => add_data d (run c' q)
    end.
Proof.
  induction p as [|x p IH]; intros c q; cbn [app].
  - destruct (is_end (cs c)) eqn:E.
    + assert (Hc : cs c = CEnd) by (destruct (cs c); cbn in E; congruence).
      rewrite !run_end by auto. reflexivity.
    + assert (Hc : cs c <> CEnd) by (intros Hx; rewrite Hx in E; discriminate).
      rewrite (run_nil c) by auto. now rewrite add_data_nil.
  - destruct (is_end (cs c)) eqn:E.
    + assert (Hc : cs c = CEnd) by (destruct (cs c); cbn in E; congruence).
      rewrite !run_end by auto. reflexivity.
    + assert (Hc : cs c <> CEnd) by (intros Hx; rewrite Hx in E; discriminate).
      rewrite !run_cons by auto. destruct (byte_fun (cs c) c x) as [c' [e|]]; [reflexivity|].
      rewrite IH. destruct (run c' p) as [d [c1 rest|e1|c1]]; unfold add_data; cbn [fst snd]; auto.
      now rewrite app_assoc.
Qed.

Lemma run_proper_prefix mh ms b p q : valid b -> within_limits CHUNKED_EXTENSIONS_LIMIT mh ms b ->
  render b = p ++ q -> q <> [] -> exists d c, run (init_c mh ms) p = (d, OMore c).
Proof.
  intros Hv Hl E Hq. pose proof (run_complete mh ms b [] Hv Hl) as Hr. rewrite app_nil_r, E, run_app in Hr.
  destruct (run (init_c mh ms) p) as [d [c1 rest|e1|c1]].
  - inversion Hr as [[H1 H2 H3]]. apply app_eq_nil in H3 as [_ H3]. congruence.
  - discriminate.
  - eauto.
Qed.

(* Bounded memory: what the decoder retains at any point of any stream. *)
Definition bounded (c : cdec) : Prop :=
  ext_cnt c < CHUNKED_EXTENSIONS_LIMIT /\ tcnt c <= max_hdrs c /\
  (match tbuf c with None => True | Some t => lenN t <= 1 \/ lenN t < max_hdr_size c end).
Lemma bounded_step c b c' : bounded c -> cs c <> CEnd -> byte_fun (cs c) c b = (c', None) ->
  bounded c' /\ max_hdrs c' = max_hdrs c /\ max_hdr_size c' = max_hdr_size c.
Proof.
  intros (B1 & B2 & B3) He Hb. unfold bounded.
  destruct (cs c) eqn:Ec; cbn [byte_fun] in Hb; try congruence;
  unfold read_start, read_size, read_size_lws, read_extension, read_size_lf, read_body_cr, read_body_lf,
    read_trailer, read_trailer_lf, read_end_cr, read_end_lf, push_digit in Hb.
  6: { inversion Hb; subst. destruct (0 <? _); cn; auto. }
  all: brk; cn; eqbs; rewrite ?lenN_app, ?lenN_cons, ?lenN_nil in *;
    repeat match goal with H : _ = Some _ |- _ => rewrite H in * end; repeat split; auto; try lia.
  all: match goal with H : tbuf _ = None |- _ => rewrite H; exact I end.
Qed.
Lemma run_bounded l : forall c d c', bounded c -> run c l = (d, OMore c') ->
  bounded c' /\ max_hdrs c' = max_hdrs c /\ max_hdr_size c' = max_hdr_size c.
Proof.
  induction l as [|x l IH]; intros c d c' Hb Hr; destruct (is_end (cs c)) eqn:E;
  try (assert (Hc : cs c = CEnd) by (destruct (cs c); cbn in E; congruence); rewrite run_end in Hr by auto; discriminate);
  assert (Hc : cs c <> CEnd) by (intros Hx; rewrite Hx in E; discriminate).
  - rewrite run_nil in Hr by auto. inversion Hr; subst. auto.
  - rewrite run_cons in Hr by auto. destruct (byte_fun (cs c) c x) as [c1 [e|]] eqn:Eb; [discriminate|].
    pose proof (bounded_step _ _ _ Hb Hc Eb) as (Hb1 & Hm1 & Hm2).
    destruct (run c1 l) as [d1 o1] eqn:Er. unfold add_data in Hr; cbn [fst snd] in Hr. inversion Hr; subst.
    apply IH in Er as (? & ? & ?); auto. repeat split; try congruence; apply H.
Qed.

(* Chunk sizes: too large a number is refused at the digit that overflows. *)
Lemma run_digits_overflow ds : forall c l, cs c = CSize -> chunk_len c <= u64_max ->
  Forall (fun b => is_hex b = true) ds -> u64_max < hex_acc (chunk_len c) ds ->
  run c (ds ++ l) = ([], OErr EOverflow).
Proof.
  induction ds as [|x ds IH]; intros c l Hc Hle Hd Hov; cbn [hex_acc fold_left] in Hov; [lia|].
  inversion Hd as [|? ? Hx Hd']; subst. cbn [app]. rewrite run_cons by congruence. rewrite Hc. cn. unfold read_size.
  rewrite hex_digit_spec, Hx. pose proof (hex_val_lt _ Hx) as Hv.
  unfold push_digit. destruct (checked_mul (chunk_len c) 16) as [m|] eqn:Em; [|reflexivity].
  apply checked_mul_some in Em as [-> Hm]. cn.
  destruct (checked_add (chunk_len c * 16) (hex_val x)) as [m'|] eqn:Ea; [|reflexivity].
  apply checked_add_some in Ea as [-> Ha]. rewrite add_data_nil. apply IH; cn; auto.
  rewrite (N.mul_comm _ 16). exact Hov.
Qed.
