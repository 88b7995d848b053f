(* C79: the responses a server connection was given, and what hyper's client
   hands out for them. *)
From Verif Require Import M_Httparse.
From Verif Require Import Base M_Src M_Decode S_Buf L_Buf S_Transport S_Chunked S_Read S_Send L_Decode L_Chunked L_Body L_Read M_HeaderMap M_Headers M_Encode M_Role M_RoleEncode M_Buf M_WriteBuf M_Read M_Conn M_Dispatch S_Conn S_Client S_Framing L_Headers L_Framing L_Fold P_Framing S_Inbound S_Head L_Encode L_Conn L_Moves L_ConnC L_ConnS L_Exch L_Inbound L_Stream P_Stream P_Conn P_View P_Inbound M_Parse S_Parse P_Parse S_Outbound L_Outbound P_Outbound S_Reply L_Reply P_Reply S_Answers.

(* ---- Which request a response belongs to ---- *)
Lemma asked_app a b : asked (a ++ b) = asked a ++ asked b.
Proof. apply flat_map_app. Qed.
Lemma last_out_snoc l e : last_out (l ++ [e]) = match e with LHead _ h _ => match o_subject h with ORequest me _ => Some me | OResponse _ _ => None end | _ => last_out l end.
Proof. unfold last_out. rewrite fold_left_app. cbn [fold_left]. destruct e; try reflexivity. destruct h as [v [|] hs cm]; reflexivity. Qed.
Lemma inbound_snoc l e : inbound (l ++ [e]) = inbound_step (inbound l) e.
Proof. apply inbound_app. Qed.
Definition counted (l : list levent) (x : exch) : Prop :=
  match x_in x, x_out x with
  | INone, ONone => asked l = [] /\ received l = []
  | IDone _, _ => length (asked l) = length (received l)
  | IOpen _, _ => length (asked l) = S (length (received l)) /\ receiving l <> None
  | _, _ => length (asked l) = S (length (received l))
  end.
Lemma asked_counts l : forall x, x_run x_client x_start l = Some x -> ~ head_failed l -> counted l x /\ (asked l <> [] -> exists p, asked l = p ++ [last_out l]).
Proof.
  induction l as [|e l IH] using rev_ind; intros x Hx Hf; [injection Hx as <-; split; [split; reflexivity|intros H; destruct H; reflexivity]|].
  rewrite x_run_app in Hx. destruct (x_run x_client x_start l) as [x0|]; [|discriminate Hx]. cbn [x_run] in Hx. destruct (x_client x0 e) as [x1|] eqn:E1; [|discriminate Hx]. injection Hx as <-.
  destruct (IH x0 eq_refl) as (C & P). { intros (b & Hb). apply Hf. exists b. apply in_or_app. now left. }
  assert (forall b, e <> LHeadFail b) as He by (intros b ->; apply Hf; exists b; apply in_or_app; right; now left).
  rewrite last_out_snoc, asked_app. unfold counted in *. unfold received, receiving in *. rewrite inbound_snoc. rewrite asked_app.
  destruct x0 as [i o k w ov]. destruct (inbound l) as [done cur]. cbn [fst snd x_in x_out] in *.
  destruct e as [ | | | | | | |auto h bs| | | | | | | | | | | ]; try (destruct auto); cbn in E1; unfold at_rest in E1; cbn in E1; try discriminate E1; try (destruct (He _ eq_refl));
    try (injection E1 as <-; cbn; rewrite ?app_nil_r; auto; fail);
    try (destruct i, o; try discriminate E1; injection E1 as <-; cbn in *; rewrite ?app_nil_r, ?app_length; cbn [length];
         repeat match goal with H : _ /\ _ |- _ => destruct H end; destruct cur; cbn; rewrite ?app_length; cbn [length]; try contradiction; try (split; [repeat split; auto; try discriminate; try congruence; try lia|auto]; fail)).
  all: split; [subst; repeat match goal with H : asked _ = [] |- _ => rewrite H end; cbn [length]; lia|intros _; eexists; reflexivity].
Qed.
Lemma client_response c h09 flat wmax evs ms a m b : client_cfg c -> let l := history c h09 flat wmax evs ms in ~ head_failed l -> l = a ++ LIn m :: b ->
  nth_error (asked l) (length (received a)) = Some (last_out a).
Proof.
  intros H l Hf E. pose proof (client_inv c H ms _ (CInv_start h09 flat wmax evs)) as (x & Hx & _).
  change (k_log (d_conn (run c ms (start h09 flat wmax evs)))) with l in Hx. rewrite E in Hx. rewrite x_run_app in Hx. destruct (x_run x_client x_start a) as [x0|] eqn:Ex; [|discriminate Hx].
  destruct (asked_counts a x0 Ex) as (C & P). { intros (v & Hv). apply Hf. exists v. rewrite E. apply in_or_app. now left. }
  assert (length (asked a) = S (length (received a))) as L.
  { cbn [x_run] in Hx. destruct x0 as [i o k w ov]. unfold counted in C. cbn in Hx, C. destruct i, o; try discriminate Hx; tauto. }
  rewrite E, asked_app. assert (asked a <> []) as Na by (intros F; rewrite F in L; discriminate L). destruct (P Na) as (p & Ep). rewrite Ep in L |- *. rewrite app_length in L. cbn [length] in L.
  rewrite nth_error_app1 by (rewrite app_length; cbn [length]; lia). rewrite nth_error_app2 by lia. replace (length (received a) - length p)%nat with 0%nat by lia. reflexivity.
Qed.

(* ---- Heads of responses on the wire ---- *)
Lemma app_eq_len {A} (a b a' b' : list A) : a ++ b = a' ++ b' -> length a = length a' -> a = a' /\ b = b'.
Proof. intros E L. now apply app_length_inj. Qed.
Lemma response_unique o w a w' a' x x' : is_response o w a -> is_response o w' a' -> w ++ x = w' ++ x' -> w = w' /\ a = a' /\ x = x'.
Proof.
  intros H H' E. specialize (H x). specialize (H' x'). rewrite E, H' in H. injection H as Hl ->.
  apply app_eq_len in E; [|unfold lenN in Hl; lia]. tauto.
Qed.
Lemma final_code o me w r f : final_head o me w r f -> exists a, is_response o w a /\ ~ (100 <= a_code a < 200 /\ a_code a <> 101).
Proof.
  intros (a & lines & Ha & _ & _ & _ & _ & _ & R). exists a. split; [exact Ha|]. intros (H1 & H2). clear Ha. inversion R; subst; lia.
Qed.

Section Answers.
Variables (c : cfg) (l : list levent) (s : cfg) (o : hparse) (me : list (option bytes)).
Hypothesis Hhp : hp_ok o.
Hypothesis Honly : only_replies l.
Hypothesis Hcont : exists a, is_response o (wire_of PContinue) a /\ a_code a = 100.
Hypothesis Hme : forall n m x, nth_error (requests l) n = Some m -> nth_error me n = Some x -> in_method m = x.

Lemma no_rebuff w : rebuff c l w -> False.
Proof. intros (p & st & mt & h' & keep & r & _ & _ & _ & H). destruct r; exact (Honly _ H). Qed.
(* Interim heads, then the head of a response: this is how far the bytes agree *)
Lemma next_reply w A : forall ps n, pieces c l n ps A -> (forall g, In g (replies ps) -> reads_reply s c l o g) -> forall heads is_ mt head r f x,
  Forall2 (interim_head o) heads is_ -> final_head o mt head r f -> concat heads ++ head ++ x = flat_map wire_of ps ++ w ->
  (exists g wr ps', replies ps = g :: replies ps' /\ head ++ x = wr ++ flat_map wire_of ps' ++ w /\ replied c l n wr g (ps' = [] /\ A) /\ pieces c l (S n) ps' A) \/
  (replies ps = [] /\ exists heads' is', Forall2 (interim_head o) heads' is' /\ concat heads' ++ head ++ x = w).
Proof.
  induction ps as [|[g wr| |wr] ps IH]; intros n P U heads is_ mt head r f x FH Hh E.
  - right. split; [reflexivity|]. exists heads, is_. auto.
  - left. destruct P as (R & P). exists g, wr, ps. split; [reflexivity|]. split; [|auto]. cbn [flat_map wire_of] in E. rewrite <- app_assoc in E.
    destruct FH as [|h i heads is_ Hi FH]; [exact E|]. exfalso. destruct R as (m & bs & e & body & -> & Rh & _). destruct (U g (or_introl eq_refl) n m bs e Rh) as ((a & Ha & Hna) & _).
    destruct Hi as (a' & lines & Ha' & H1 & H2 & _). cbn [concat] in E. rewrite <- !app_assoc in E. destruct (response_unique _ _ _ _ _ _ _ Ha' Ha E) as (_ & -> & _). auto.
  - destruct Hcont as (ac & Hac & Hc). cbn [flat_map] in E. rewrite <- app_assoc in E. destruct FH as [|h i heads is_ Hi FH].
    + exfalso. destruct (final_code _ _ _ _ _ Hh) as (a & Ha & Hn). cbn [concat app] in E. destruct (response_unique _ _ _ _ _ _ _ Ha Hac E) as (_ & -> & _). apply Hn. rewrite Hc. lia.
    + destruct Hi as (a' & lines & Ha' & _). cbn [concat] in E. rewrite <- !app_assoc in E. destruct (response_unique _ _ _ _ _ _ _ Ha' Hac E) as (_ & _ & E'). exact (IH n P U _ _ _ _ _ _ _ FH Hh E').
  - destruct P as (R & _). destruct (no_rebuff _ R).
Qed.
(* What is left begins with a response that is not complete *)
Lemma next_part w n g heads is_ mt head r f x : replying c l n w g -> reads_reply s c l o g -> Forall2 (interim_head o) heads is_ -> final_head o mt head r f ->
  concat heads ++ head ++ x = w -> head ++ x = w.
Proof.
  intros (m & bs & e & body & -> & Rh & _) U FH Hh E. destruct FH as [|h i heads is_ Hi FH]; [exact E|]. exfalso. destruct (U n m bs e Rh) as ((a & Ha & Hna) & _).
  destruct Hi as (a' & lines & Ha' & H1 & H2 & _). cbn [concat] in E. rewrite <- !app_assoc in E. destruct (response_unique _ _ _ _ _ _ _ Ha' Ha E) as (_ & -> & _). auto.
Qed.
Lemma final_same mt head r f x bs a y n m g e : final_head o mt head r f -> reads_reply s c l o g -> reply_head c l n m g bs e -> nth_error me n = Some mt ->
  is_response o bs a -> head ++ x = bs ++ y -> head = bs /\ x = y /\ mt = in_method m /\ f = kind_framing (ekind e).
Proof.
  intros Hh U Rh Hn Ha E. destruct (final_code _ _ _ _ _ Hh) as (a' & Ha' & _). destruct (response_unique _ _ _ _ _ _ _ Ha' Ha E) as (-> & _ & ->).
  assert (in_method m = mt) as <-. { destruct Rh as (h' & keep & R1 & _). exact (Hme _ _ _ R1 Hn). }
  repeat split; auto. destruct (U n m bs e Rh) as (_ & Q & _). exact (Q _ _ Hh).
Qed.
Lemma fits_body b ls : lines_fit s ls -> cb_trailers b = ls -> Forall valid_chunk (cb_chunks b) -> valid_line (cb_last b) -> hex_num (sl_digits (cb_last b)) = 0 -> ext_total b = 0 ->
  valid b /\ within_limits 16384 (max_lines s) 16384 b.
Proof.
  intros (F1 & F2 & F3) <- V V1 V2 X. split; [split; auto|]. split; [rewrite X; reflexivity|]. split; [exact F2|]. destruct (trailer_block _); tauto.
Qed.
(* A complete response *)
Lemma whole_came n g wr tail A head x body rest mt r : reads_reply s c l o g -> replied c l n wr g A -> (A -> tail = []) -> nth_error me n = Some mt ->
  forall f, final_head o mt head (msg_head r) f -> framed s f body (msg_data r) (msg_trailers r) -> x = body ++ rest -> head ++ x = wr ++ tail ->
  came c l s o n g r /\ (f <> FClose -> rest = tail).
Proof.
  intros U (m & bs & e & wb & -> & Rh & Rb & Ra) HA Hn f Hh Hb -> E. rewrite <- app_assoc in E. destruct (U n m bs e Rh) as ((a & Ha & _) & _ & Ht).
  destruct (final_same _ _ _ _ _ _ _ _ _ _ _ _ Hh U Rh Hn Ha E) as (-> & E' & -> & ->). clear E Ha.
  unfold came, reply_body in *. destruct (ekind e) as [names|k|] eqn:Ek; cbn [kind_framing framed] in *.
  - destruct Hb as (b & -> & V & _ & Hd & Htr). destruct Rb as (Ho & b' & -> & X & D & V0 & V1 & V2 & T).
    assert (cb_trailers b' = trailers_to_send (c_title c) names (g_trailers (to_request m g))) as T' by exact T.
    destruct (fits_body b' _ (Ht names eq_refl) T' V0 V1 V2 X) as (V' & _).
    destruct (render_unique _ _ _ _ V V' E') as (-> & ->). split; [|reflexivity]. exists m, bs, e. rewrite Ek. split; [exact Rh|]. split; [exact Hh|]. cbn [body_complete body_sent trailers_read].
    rewrite <- T'. split; [unfold to_request in *; destruct (te_is_trailers (in_headers m)); exact Ho|]. split; [rewrite Hd, D; destruct (te_is_trailers (in_headers m)); reflexivity|].
    destruct (trailer_block (cb_trailers b')); [apply Htr|exact Htr].
  - destruct Hb as (Hd & Htr & Hl). assert (wb = takeN k (g_data g) /\ k <= lenN (g_data g)) as (-> & Hk) by (destruct (te_is_trailers (in_headers m)); exact Rb).
    assert (lenN (takeN k (g_data g)) = k) as Lk by (rewrite takeN_len; lia).
    apply app_eq_len in E' as (-> & ->); [|unfold lenN in *; lia]. split; [|reflexivity]. exists m, bs, e. rewrite Ek. cbn [body_complete body_sent trailers_read]. rewrite Hd. auto.
  - destruct Hb as (Hd & Htr). destruct Rb as (-> & Ho). rewrite (HA (Ra eq_refl)), app_nil_r in E'. split; [|intros F; now destruct F]. exists m, bs, e. rewrite Ek. split; [exact Rh|]. split; [exact Hh|]. split; [exact Htr|]. exists rest. now rewrite Hd.
Qed.
(* A response that is not complete is not taken for a complete one, unless it
   goes on to the end *)
Lemma part_came n g w head x body rest mt r : reads_reply s c l o g -> replying c l n w g -> nth_error me n = Some mt ->
  forall f, final_head o mt head (msg_head r) f -> framed s f body (msg_data r) (msg_trailers r) -> x = body ++ rest -> head ++ x = w ->
  came c l s o n g r /\ f = FClose.
Proof.
  intros U (m & bs & e & wb & -> & Rh & Rb) Hn f Hh Hb -> E. destruct (U n m bs e Rh) as ((a & Ha & _) & _ & _).
  destruct (final_same _ _ _ _ _ _ _ _ _ _ _ _ Hh U Rh Hn Ha E) as (-> & E' & -> & ->). clear E Ha.
  unfold came, reply_begun in *. destruct (ekind e) as [names|k|] eqn:Ek; cbn [kind_framing framed begun_body] in *.
  - exfalso. destruct Hb as (b & -> & V & _ & Hd & Htr). destruct Rb as (cs & -> & V0 & X & D).
    set (b' := mkBody cs (plain_line 0) []). assert (concat (map render_chunk cs) ++ B "0" ++ CRLF ++ CRLF = render b') as Er by (unfold render, b'; cbn [cb_chunks cb_last cb_trailers]; rewrite <- last_bytes; reflexivity).
    assert (valid b') as Vb by (split; [exact V0|]; split; [apply zero_line|]; split; [apply zero_line|constructor]).
    rewrite <- E', <- app_assoc in Er. rewrite <- (app_nil_r (render b')) in Er. destruct (render_unique _ _ _ _ V Vb Er) as (_ & F). apply app_eq_nil in F as [_ F]. discriminate F.
  - exfalso. destruct Hb as (Hd & Htr & Hl). destruct Rb as (-> & Hk). rewrite <- E', lenN_app in Hk. lia.
  - destruct Hb as (Hd & Htr). split; [|reflexivity]. exists m, bs, e. rewrite Ek. split; [exact Rh|]. split; [exact Hh|]. split; [exact Htr|]. exists rest. now rewrite Hd, E', Rb.
Qed.

(* The messages that a client has read, with the numbers of the requests *)
Fixpoint wires_from (n : nat) (wires : list bytes) (rs : list message) : Prop :=
  match wires, rs with
  | [], [] => True
  | w :: ws, r :: rs => (exists mt, nth_error me n = Some mt /\ response_wire s o false mt w r) /\ wires_from (S n) ws rs
  | _, _ => False
  end.
Lemma said_close r f : said_as (in_decode (msg_head r)) f -> goes_on r -> f <> FClose.
Proof. intros S G ->. exact (G S). Qed.
Lemma app_single {A} (a : list A) x y : a ++ [x] = y :: nil -> a = [].
Proof. destruct a as [|z [|]]; [reflexivity|discriminate|discriminate]. Qed.

Lemma walk w last : (match last with [] => w = [] | _ => True end) -> forall wires rs ps n rest, wires_from n wires rs -> pieces c l n ps (last = []) ->
  match last with [] => True | [g] => replying c l (n + length (replies ps)) w g | _ => False end ->
  (forall g, In g (replies ps ++ last) -> reads_reply s c l o g) -> concat wires ++ rest = flat_map wire_of ps ++ w ->
  (forall k r, nth_error rs k = Some r -> Forall goes_on (firstn k rs) -> exists g, nth_error (replies ps ++ last) k = Some g /\ came c l s o (n + k) g r) /\
  (Forall goes_on rs -> exists done ps', replies ps ++ last = done ++ replies ps' ++ last /\ length done = length rs /\ pieces c l (n + length rs) ps' (last = []) /\ rest = flat_map wire_of ps' ++ w /\
     match last with [] => True | [g] => replying c l (n + length rs + length (replies ps')) w g | _ => False end).
Proof.
  intros Hw wires. induction wires as [|wire wires IH]; intros [|r rs] ps n rest F P R U E; try (destruct F; fail).
  - split; [intros [|k] r H; discriminate H|]. intros _. exists [], ps. cbn [length]. rewrite Nat.add_0_r. auto.
  - destruct F as ((mt & Hn & heads & is_ & head & body & f & -> & FH & Hf & Sa & Fr) & F). destruct Hf as [Hf|(Hf & _)]; [|discriminate Hf]. cbn [concat] in E. rewrite <- !app_assoc in E.
    destruct (next_reply w (last = []) ps n P (fun g Hg => U g (in_or_app _ _ _ (or_introl Hg))) heads is_ mt head _ f _ FH Hf E) as [(g & wr & ps' & Eg & E1 & Rp & P')|(Eg & heads' & is' & FH' & E1)].
    + assert (reads_reply s c l o g) as Ug by (apply U; rewrite Eg; now left).
      destruct (whole_came n g wr (flat_map wire_of ps' ++ w) _ head (body ++ concat wires ++ rest) body (concat wires ++ rest) mt r Ug Rp) with (f := f) as (Cm & Eq); auto.
      { intros (-> & Hl). rewrite Hl in Hw. now rewrite Hw. }
      assert (match last with [] => True | [g] => replying c l (S n + length (replies ps')) w g | _ => False end) as R'.
      { rewrite Eg in R. cbn [length] in R. destruct last as [|g' [|]]; auto. now replace (S n + length (replies ps'))%nat with (n + S (length (replies ps')))%nat by lia. }
      assert (forall g', In g' (replies ps' ++ last) -> reads_reply s c l o g') as U' by (intros g' Hg'; apply U; rewrite Eg; now right).
      pose proof (fun G : goes_on r => IH rs ps' (S n) rest F P' R' U' (Eq (said_close r f Sa G))) as Nx.
      split.
      * intros [|k] r' Hr Hall; cbn [nth_error firstn] in *.
        -- injection Hr as <-. exists g. rewrite Eg, Nat.add_0_r. split; [reflexivity|exact Cm].
        -- inversion Hall as [|? ? G Hall']; subst. destruct (proj1 (Nx G) k r' Hr Hall') as (g' & Hg' & Cg). exists g'. rewrite Eg. split; [exact Hg'|]. now replace (n + S k)%nat with (S n + k)%nat by lia.
      * intros Hall. inversion Hall as [|? ? G Hall']; subst. destruct (proj2 (Nx G) Hall') as (done & ps2 & D1 & D2 & D3 & D4 & D5). exists (g :: done), ps2. rewrite Eg. cbn [app length]. rewrite D1, D2.
        replace (n + S (length rs))%nat with (S n + length rs)%nat by lia. auto.
    + rewrite Eg in R, U |- *. cbn [app length] in R, U |- *. rewrite Nat.add_0_r in R. destruct last as [|g [|]]; [|specialize (U g (or_introl eq_refl))|destruct R].
      { exfalso. rewrite Hw in E1. destruct (final_code _ _ _ _ _ Hf) as (a & Ha & _). apply app_eq_nil in E1 as [_ E1]. apply app_eq_nil in E1 as [-> _]. specialize (Ha []). cbn [app] in Ha. apply (proj2 Hhp) in Ha as (Ha & _). cbn in Ha. lia. }
      pose proof (next_part w n g _ _ _ _ _ _ _ R U FH' Hf E1) as E2.
      destruct (part_came n g w head _ body _ mt r U R Hn f Hf Fr eq_refl E2) as (Cm & ->).
      split.
      * intros [|k] r' Hr Hall; cbn [nth_error firstn] in *; [injection Hr as <-; exists g; rewrite Nat.add_0_r; auto|]. inversion Hall as [|? ? G _]; subst. now destruct (G Sa).
      * intros Hall. inversion Hall as [|? ? G _]; subst. now destruct (G Sa).
Qed.
(* The response that has begun *)
Lemma begun_part m bs e g k part data body more rest' : kind_framing (ekind e) = framing_of k -> body_begun s k part data ->
  reads_reply s c l o g -> (exists n, reply_head c l n m g bs e) ->
  (reply_body (c_title c) (te_is_trailers (in_headers m)) (ekind e) g body /\ part ++ more = body ++ rest' /\ (ekind e = KCloseDelimited -> rest' = []) \/
   reply_begun (ekind e) g body /\ part ++ more = body) -> exists z, body_sent (ekind e) g = data ++ z.
Proof.
  intros Hk Hb U (n & Rh) D. destruct (U n m bs e Rh) as (_ & _ & Ht). unfold body_begun in Hb. unfold reply_body, reply_begun, body_sent in *. destruct (ekind e) as [names|len|]; cbn [kind_framing begun_body] in *; symmetry in Hk.
  - apply framing_chunked in Hk. rewrite Hk, N.eqb_refl in Hb. destruct D as [(Rb & E & _)|(Rb & E)].
    + destruct Rb as (Ho & b & -> & X & Db & V0 & V1 & V2 & T).
      destruct (fits_body b _ (Ht names eq_refl) T V0 V1 V2 X) as (V & Lm). assert (body_data b = g_data g) as <- by (rewrite Db; destruct (te_is_trailers (in_headers m)); reflexivity). exact (Hb more b rest' E V Lm).
    + destruct Rb as (cs & -> & V0 & X & D). set (b := mkBody cs (plain_line 0) []). assert (concat (map render_chunk cs) ++ B "0" ++ CRLF ++ CRLF = render b) as Er by (unfold render, b; cbn [cb_chunks cb_last cb_trailers]; rewrite <- last_bytes; reflexivity).
      assert (valid b) as Vb by (split; [exact V0|]; split; [apply zero_line|]; split; [apply zero_line|constructor]). assert (ext_total b = 0) as Et by now apply no_ext_total.
      rewrite <- D. apply (Hb (more ++ B "0" ++ CRLF ++ CRLF) b []); auto; [rewrite app_nil_r, <- Er, <- E, <- app_assoc; reflexivity|]. split; [rewrite Et; reflexivity|split; [apply N.le_0_l|exact Logic.I]].
  - destruct (framing_len _ _ Hk) as (En & N1 & N2). apply N.eqb_neq in N1. rewrite N1 in Hb. destruct Hb as (-> & Hb). destruct Hb as [Hb|Hb]; [contradiction|]. destruct D as [(Rb & E & _)|(Rb & E)].
    + assert (body = takeN len (g_data g) /\ len <= lenN (g_data g)) as (-> & Hl) by (destruct (te_is_trailers (in_headers m)); exact Rb). eapply prefix_len; [exact E|]. rewrite takeN_len. lia.
    + destruct Rb as (-> & Hl). exists more. rewrite takeN_all by lia. auto.
  - assert (k = DL_CLOSE_DELIMITED) as ->. { unfold framing_of in Hk. destruct (k =? DL_CHUNKED); [discriminate|]. destruct (N.eqb_spec k DL_CLOSE_DELIMITED); [auto|discriminate]. }
    destruct Hb as (-> & _). exists more. destruct D as [((-> & _) & E & Z)|(-> & E)]; [rewrite (Z eq_refl), app_nil_r in E|]; auto.
Qed.
Lemma walk_on w last ps n r rest mt heads is_ head part more : (match last with [] => w = [] | [g] => replying c l (n + length (replies ps)) w g | _ => False end) -> pieces c l n ps (last = []) ->
  (forall g, In g (replies ps ++ last) -> reads_reply s c l o g) -> nth_error me n = Some mt ->
  rest = concat heads ++ head ++ part ++ more -> Forall2 (interim_head o) heads is_ -> final_head o mt head (msg_head r) (framing_of (in_decode (msg_head r))) -> body_begun s (in_decode (msg_head r)) part (msg_data r) ->
  rest = flat_map wire_of ps ++ w -> exists g tail, replies ps ++ last = g :: tail /\ coming c l o n g r.
Proof.
  intros Hw P U Hn E0 FH Hf Hb E. rewrite E0 in E. clear E0 rest.
  destruct (next_reply w (last = []) ps n P (fun g Hg => U g (in_or_app _ _ _ (or_introl Hg))) heads is_ mt head _ _ _ FH Hf E) as [(g & wr & ps' & Eg & E1 & Rp & P')|(Eg & heads' & is' & FH' & E1)].
  - assert (reads_reply s c l o g) as Ug by (apply U; rewrite Eg; now left). exists g, (replies ps' ++ last). rewrite Eg. split; [reflexivity|].
    destruct Rp as (m & bs & e & wb & -> & Rh & Rb & Ra). rewrite <- app_assoc in E1. destruct (Ug n m bs e Rh) as ((a & Ha & _) & _ & _).
    destruct (final_same _ _ _ _ _ _ _ _ _ _ _ _ Hf Ug Rh Hn Ha E1) as (-> & E' & -> & Ek).
    destruct (begun_part m bs e g _ part (msg_data r) wb more (flat_map wire_of ps' ++ w) (eq_sym Ek) Hb Ug (ex_intro _ n Rh)) as (z & Z).
    { left. split; [exact Rb|]. split; [exact E'|]. intros K. destruct (Ra K) as (-> & ->). exact Hw. }
    exists m, bs, e, z. rewrite <- Ek. auto.
  - rewrite Eg in Hw, U |- *. cbn [app length] in Hw, U |- *. rewrite Nat.add_0_r in Hw. destruct last as [|g [|]]; [|specialize (U g (or_introl eq_refl))|destruct Hw].
    { exfalso. rewrite Hw in E1. destruct (final_code _ _ _ _ _ Hf) as (a & Ha & _). apply app_eq_nil in E1 as [_ E1]. apply app_eq_nil in E1 as [-> _]. specialize (Ha []). cbn [app] in Ha. apply (proj2 Hhp) in Ha as (Ha & _). cbn in Ha. lia. }
    pose proof (next_part w n g _ _ _ _ _ _ _ Hw U FH' Hf E1) as E2. exists g, []. split; [reflexivity|].
    destruct Hw as (m & bs & e & wb & -> & Rh & Rb). destruct (U n m bs e Rh) as ((a & Ha & _) & _ & _).
    destruct (final_same _ _ _ _ _ _ _ _ _ _ _ _ Hf U Rh Hn Ha E2) as (-> & E' & -> & Ek).
    destruct (begun_part m bs e g _ part (msg_data r) wb more [] (eq_sym Ek) Hb U (ex_intro _ n Rh)) as (z & Z); [right; auto|].
    exists m, bs, e, z. rewrite <- Ek. auto.
Qed.
End Answers.

(* What the client hands out are the responses the server was given, in that
   order, each for its own request, up to the first one that goes on to the end
   of the connection. *)
Theorem C79_delivered : forall c h09 flat wmax evs ms s o flat' wmax' evs' ms' more,
  c_server c = true -> service_moves c ms -> client_cfg s -> parses_with s o -> hp_ok o ->
  let l := history c h09 flat wmax evs ms in let l' := history s false flat' wmax' evs' ms' in
  in_order c flat l -> only_replies l -> ~ head_failed l' ->
  (exists a, is_response o (wire_of PContinue) a /\ a_code a = 100) ->
  (forall n m me, nth_error (requests l) n = Some m -> nth_error (asked l') n = Some me -> in_method m = me) ->
  Forall (reads_reply s c l o) (handed c h09 flat wmax evs ms) -> data_of evs' ++ more = taken l ->
  (forall n r, nth_error (received l') n = Some r -> Forall goes_on (firstn n (received l')) ->
     exists g, nth_error (handed c h09 flat wmax evs ms) n = Some g /\ came c l s o n g r) /\
  (forall r, receiving l' = Some r -> Forall goes_on (received l') ->
     exists g, nth_error (handed c h09 flat wmax evs ms) (length (received l')) = Some g /\ coming c l o (length (received l')) g r).
Proof.
  intros c h09 flat wmax evs ms s o flat' wmax' evs' ms' more Hs Ha Hc Ho Hhp l l' Hord Honly Hnf Hcont Hme U E.
  destruct (C78_taken c h09 flat wmax evs ms Hs Ha Hord) as (ps & w & last & more' & Et & P & Eh & Hl). fold l in Et, P, Hl.
  destruct (C66_responses s o false flat' wmax' evs' ms' (proj1 Hc) Ho Hhp Hnf) as (wires & rest & Er & El & Fr & Hr). fold l' in El, Fr, Hr.
  assert (match last with [] => w = [] | [g] => replying c l (length (replies ps)) w g | _ => False end) as Hl'.
  { destruct last as [|g [|]]; auto. destruct Hl as [Hl|(m & h' & keep & err & _ & _ & _ & Hi)]; [exact Hl|]. destruct (Honly _ Hi). }
  rewrite <- E, Er, <- !app_assoc in Et. set (tail := more ++ more') in Et. rewrite Eh in *.
  assert (forall a m b, l' = a ++ LIn m :: b -> nth_error (asked l') (length (received a)) = Some (last_out a)) as Q.
  { intros a m b El'. exact (client_response s false flat' wmax' evs' ms' a m b Hc Hnf El'). }
  assert (forall n ws rs, (forall k w0 r, nth_error ws k = Some w0 -> nth_error rs k = Some r -> exists mt, nth_error (asked l') (n + k) = Some mt /\ response_wire s o false mt w0 r) -> length ws = length rs -> wires_from s o (asked l') n ws rs) as W.
  { clear. intros n ws. revert n. induction ws as [|w0 ws IH]; intros n [|r rs] H Hlen; try discriminate Hlen; cbn [wires_from]; [exact Logic.I|]. split.
    - specialize (H O w0 r eq_refl eq_refl). now rewrite Nat.add_0_r in H.
    - apply IH; [|now injection Hlen]. intros k w1 r1 H1 H2. specialize (H (S k) w1 r1 H1 H2). now replace (S n + k)%nat with (n + S k)%nat by lia. }
  assert (wires_from s o (asked l') 0 wires (received l')) as WF.
  { apply W; [|exact El]. intros k w0 r H1 H2. destruct (Fr k w0 r H1 H2) as (a & b & E1 & <- & H3). exists (last_out a). split; [exact (Q _ _ _ E1)|exact H3]. }
  assert (forall g, In g (replies ps ++ last) -> reads_reply s c l o g) as U' by now apply Forall_forall.
  destruct (walk c l s o (asked l') Hhp Honly Hcont Hme w last) with (wires := wires) (rs := received l') (ps := ps) (n := O) (rest := rest ++ tail) as (W1 & W2); auto.
  { destruct last; auto. } { destruct last as [|g [|]]; auto. }
  split; [exact W1|]. intros r Hrec Hgo. rewrite Hrec in Hr. destruct Hr as (a & b & heads & is_ & head & f & part & mo & E1 & E2 & E3 & FH & Hf & -> & Hb).
  destruct Hf as [Hf|(Hf & _)]; [|discriminate Hf]. destruct (W2 Hgo) as (done & ps' & D1 & D2 & D3 & D4 & D5). cbn [Nat.add] in D3, D5.
  destruct (walk_on c l s o (asked l') Hhp Honly Hcont Hme w last ps' (length (received l')) r (rest ++ tail) (last_out a) heads is_ head part (mo ++ tail)) as (g & tl & Eg & Cg); auto.
  - destruct last as [|g [|]]; auto.
  - intros g Hg. apply U'. rewrite D1. apply in_or_app. now right.
  - rewrite <- El, <- E2. exact (Q _ _ _ E1).
  - rewrite E3, <- !app_assoc. reflexivity.
  - exists g. split; [|exact Cg]. rewrite D1, nth_error_app2 by lia. rewrite D2, Nat.sub_diag, Eg. reflexivity.
Qed.
Print Assumptions C79_delivered.
