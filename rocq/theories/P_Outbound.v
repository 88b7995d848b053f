(* C75: the requests a client connection was given, the bytes it wrote, and what
   hyper's server hands out for them. *)
From Verif Require Import M_Httparse.
From Verif Require Import Base M_Src M_Decode S_Buf L_Buf S_Transport S_Chunked S_Read S_Send L_Decode L_Chunked L_Body L_Read M_HeaderMap M_Headers M_Encode M_Role M_RoleEncode M_Buf M_WriteBuf M_Read M_Conn M_Dispatch S_Conn S_Client S_Framing L_Headers L_Framing L_Fold P_Framing S_Inbound S_Head L_Encode L_Conn L_Moves L_ConnC L_ConnS L_Exch L_Inbound L_Stream P_Stream P_Conn P_Inbound M_Parse S_Parse P_Parse S_Outbound L_Outbound.

(* ---- What the client wrote ---- *)
Lemma queued_wbytes l : existsb unasked l = false -> queued l = wbytes l.
Proof.
  induction l as [|e l IH]; intros H; [reflexivity|]. cbn [existsb] in H. apply orb_false_elim in H as [H1 H2]. cbn [queued]. rewrite (IH H2). unfold wbytes. cbn [flat_map]. destruct e; try reflexivity; discriminate.
Qed.
Lemma client_asked c h09 flat wmax evs ms : client_cfg c -> existsb unasked (history c h09 flat wmax evs ms) = false.
Proof.
  intros H. destruct (existsb unasked (history c h09 flat wmax evs ms)) eqn:E; [|reflexivity]. exfalso.
  pose proof (client_inv c H ms _ (CInv_start h09 flat wmax evs)) as (x & Hx & _).
  change (k_log (d_conn (run c ms (start h09 flat wmax evs)))) with (history c h09 flat wmax evs ms) in Hx.
  apply existsb_exists in E. destruct E as (e & Hi & He). apply in_split in Hi. destruct Hi as (a & b & E). rewrite E in Hx. clear - Hx He.
  assert (forall a x0, x_run x_client x0 (a ++ e :: b) = Some x -> False) as Q; [|exact (Q _ _ Hx)].
  clear a Hx. induction a as [|y a IH]; intros [i o k w ov] H; cbn in H.
  - destruct e as [| | | | | | |[]| | | | | | | | | | |]; discriminate.
  - destruct (x_client (mkX i o k w ov) y) as [x1|] eqn:E1; cbn in E1; rewrite E1 in H; [exact (IH _ H)|discriminate].
Qed.
Lemma app_good c ms : app_moves c ms -> good_moves c ms.
Proof. intros H. eapply Forall_impl; [|exact H]. intros [i|e]; [|auto]. now intros (_ & G & _). Qed.

(* The requests that the application handed over, in order *)
Definition handed (c : cfg) (h09 flat : bool) (wmax : N) (evs : list event) (ms : list move) : list gmsg := given (told_in c ms (start h09 flat wmax evs)).

Theorem C75_sent : forall c h09 flat wmax evs ms, client_cfg c -> app_moves c ms ->
  let l := history c h09 flat wmax evs ms in
  exists ws w gs last, queued l = concat ws ++ w /\ handed c h09 flat wmax evs ms = gs ++ last /\ Forall2 (sent c l) ws gs /\
    match last with [] => w = [] | [g] => w = [] \/ sent_part c l w g | _ => False end.
Proof.
  intros c h09 flat wmax evs ms Hc Ha l. unfold handed, given.
  assert (OD c (start h09 flat wmax evs) []) as H0 by (apply (ok_done _ _ _ _ _ []); [reflexivity|constructor|cbn; discriminate]).
  pose proof (OD_run c ms (proj1 Hc) _ _ Ha H0) as H. unfold OD in H. change (k_log _) with l in H.
  rewrite (queued_wbytes l (client_asked c h09 flat wmax evs ms Hc)).
  set (gs := fold_left give (told_in c ms (start h09 flat wmax evs)) []) in *.
  destruct H as [ws E F W|g gd ws bs e body e' E1 E2 F Hh Hb' W G T X|g gd ws w E1 E2 F S W]; change (k_log _) with l in *.
  - exists ws, [], (rev gs), []. rewrite !app_nil_r. auto.
  - exists ws, (bs ++ body), (rev gd), [g]. rewrite E1. split; [exact E2|]. split; [reflexivity|]. split; [exact F|]. right. exists bs, e, body. auto.
  - exists ws, w, (rev gd), [g]. rewrite E1. auto.
Qed.

(* ---- What a server makes of it ---- *)
(* The trailer lines are within the limits of the server, which can parse them *)
Definition fits (s : cfg) (ls : list bytes) : Prop :=
  Forall valid_trailer ls /\ lenN ls <= max_lines s /\
  match trailer_block ls with None => True | Some t => lenN t < 16384 /\ c_dt s t (lenN ls) <> None end.
(* The server takes the head of this request for a head, and for one that
   announces the body that is sent *)
Definition understood (s c : cfg) (l : list levent) (g : gmsg) : Prop := forall bs e, head_written c l g bs e ->
  (exists m, head_wire s bs m /\ framing_of (in_decode m) = kind_framing (ekind e)) /\
  (forall names, ekind e = KChunked names -> fits s (trailers_to_send (c_title c) names (g_trailers g))).
Definition body_of (k : enc_kind) (g : gmsg) : bytes := match k with KLength n => takeN n (g_data g) | _ => g_data g end.
Definition all_there (k : enc_kind) (g : gmsg) : Prop := match k with KLength n => n <= lenN (g_data g) | KChunked _ => g_over g = true | KCloseDelimited => False end.
Definition trailers_of (s : cfg) (title : bool) (k : enc_kind) (g : gmsg) : option hmap :=
  match k with
  | KChunked names => let ls := trailers_to_send title names (g_trailers g) in match trailer_block ls with None => None | Some t => c_dt s t (lenN ls) end
  | _ => None
  end.
(* The message [r] is the request [g], all of it; or the beginning of it *)
Definition arrived (s c : cfg) (l : list levent) (g : gmsg) (r : message) : Prop :=
  exists bs e, head_written c l g bs e /\ head_wire s bs (msg_head r) /\ all_there (ekind e) g /\
    msg_data r = body_of (ekind e) g /\ msg_trailers r = trailers_of s (c_title c) (ekind e) g.
Definition arriving (s c : cfg) (l : list levent) (g : gmsg) (r : message) : Prop :=
  exists bs e more, head_written c l g bs e /\ head_wire s bs (msg_head r) /\ body_of (ekind e) g = msg_data r ++ more /\ msg_trailers r = None.
(* No head is empty *)
Definition some_head (s : cfg) : Prop := forall me h09 x m, c_parse s me h09 x <> PDone 0 m.

Lemma framing_len d n : framing_of d = FLength n -> d = n /\ d <> DL_CHUNKED /\ d <> DL_CLOSE_DELIMITED.
Proof. unfold framing_of. destruct (N.eqb_spec d DL_CHUNKED); [discriminate|]. destruct (N.eqb_spec d DL_CLOSE_DELIMITED); [discriminate|]. intros H. injection H as <-. auto. Qed.
Lemma framing_chunked d : framing_of d = FChunked -> d = DL_CHUNKED.
Proof. unfold framing_of. destruct (N.eqb_spec d DL_CHUNKED); [auto|]. destruct (d =? DL_CLOSE_DELIMITED); discriminate. Qed.

Section Server.
Variables (s c : cfg) (l : list levent).
Hypothesis Hs : request_parser s.
Hypothesis Hn : some_head s.
Hypothesis Ha : read_alike s s.

Lemma head_some bs m : head_wire s bs m -> bs <> [].
Proof. intros (me & h09 & z & E) ->. exact (Hn _ _ _ _ E). Qed.
Lemma wire_some w r : message_wire s w r -> w <> [].
Proof. intros (sk & head & body & -> & _ & H & _) E. apply app_eq_nil in E as [_ E]. apply app_eq_nil in E as [E _]. exact (head_some _ _ H E). Qed.
Lemma wire_chunked bs m b : head_wire s bs m -> in_decode m = DL_CHUNKED -> valid b -> ext_total b = 0 -> fits s (cb_trailers b) ->
  message_wire s (bs ++ render b) (mkMsg m (body_data b) (match trailer_block (cb_trailers b) with None => None | Some t => c_dt s t (lenN (cb_trailers b)) end)).
Proof.
  intros Hm Hd V X (F1 & F2 & F3). exists [], bs, (render b). split; [reflexivity|]. split; [constructor|]. split; [exact Hm|]. unfold body_wire. cbn [msg_head msg_data msg_trailers]. rewrite Hd, N.eqb_refl.
  exists b. split; [reflexivity|]. split; [exact V|]. split; [split; [rewrite X; reflexivity|]; split; [exact F2|]; destruct (trailer_block _); tauto|]. split; [reflexivity|]. destruct (trailer_block _); [|reflexivity]. tauto.
Qed.
Lemma wire_length bs m n w : head_wire s bs m -> framing_of (in_decode m) = FLength n -> lenN w = n -> message_wire s (bs ++ w) (mkMsg m w None).
Proof.
  intros Hm Hd Hl. destruct (framing_len _ _ Hd) as (E & N1 & N2). exists [], bs, w. split; [reflexivity|]. split; [constructor|]. split; [exact Hm|]. unfold body_wire. cbn [msg_head msg_data msg_trailers].
  apply N.eqb_neq in N1. rewrite N1. split; [reflexivity|]. split; [reflexivity|]. right. congruence.
Qed.
Lemma sent_wire w g : understood s c l g -> sent c l w g -> exists r, message_wire s w r /\ arrived s c l g r.
Proof.
  intros U (bs & e & body & -> & Hh & Hb). destruct (U bs e Hh) as ((m & Hm & Hf) & Ht). unfold whole_body in Hb. destruct (ekind e) as [names|n|] eqn:Ek; cbn [kind_framing] in Hf; [| |destruct Hb].
  - destruct Hb as (Ho & b & -> & X & D & V & V1 & V2 & T). apply framing_chunked in Hf. specialize (Ht names eq_refl). rewrite <- T in Ht.
    eexists. split; [apply (wire_chunked bs m b); auto|]. { split; [exact V|]. split; [exact V1|]. split; [exact V2|]. apply Ht. }
    exists bs, e. rewrite Ek. cbn [msg_head msg_data msg_trailers all_there body_of trailers_of]. rewrite <- T. auto 10.
  - destruct Hb as (-> & Hl). eexists. split; [apply (wire_length bs m n); auto; rewrite takeN_len; lia|]. exists bs, e. rewrite Ek. cbn [msg_head msg_data msg_trailers all_there body_of trailers_of]. auto 10.
Qed.
(* A beginning can be completed *)
Lemma part_wire w g : understood s c l g -> sent_part c l w g -> exists bs e body m fill, w = bs ++ body /\ head_written c l g bs e /\ head_wire s bs m /\
  framing_of (in_decode m) = kind_framing (ekind e) /\ fill <> [] /\ (exists r, message_wire s (w ++ fill) r) /\
  match ekind e with
  | KLength n => body = g_data g /\ lenN (g_data g) < n
  | KChunked _ => exists b, body ++ fill = render b /\ valid b /\ within_limits 16384 (max_lines s) 16384 b /\ body_data b = g_data g
  | KCloseDelimited => False
  end.
Proof.
  intros U (bs & e & body & -> & Hh & Hb). destruct (U bs e Hh) as ((m & Hm & Hf) & _). exists bs, e, body, m. unfold begun_body in Hb. destruct (ekind e) as [names|n|] eqn:Ek; cbn [kind_framing] in Hf; [| |destruct Hb].
  - destruct Hb as (cs & -> & V & X & D). exists (B "0" ++ CRLF ++ CRLF). do 4 (split; [assumption || reflexivity|]). split; [discriminate|].
    set (b := mkBody cs (plain_line 0) []). assert (concat (map render_chunk cs) ++ B "0" ++ CRLF ++ CRLF = render b) as Er by (unfold render, b; cbn [cb_chunks cb_last cb_trailers]; rewrite <- last_bytes; reflexivity).
    assert (ext_total b = 0) as Et by now apply no_ext_total. assert (valid b) as Vb by (split; [exact V|]; split; [apply zero_line|]; split; [apply zero_line|constructor]).
    split.
    + eexists. rewrite <- app_assoc, Er. apply (wire_chunked bs m b); auto; [now apply framing_chunked|]. split; [constructor|]. split; [apply N.le_0_l|exact Logic.I].
    + exists b. split; [exact Er|]. split; [exact Vb|]. split; [split; [rewrite Et; reflexivity|split; [apply N.le_0_l|exact Logic.I]]|exact D].
  - destruct Hb as (-> & Hl). set (fill := repeat 0 (N.to_nat (n - lenN (g_data g)))). assert (lenN fill = n - lenN (g_data g)) as Lf by (unfold fill, lenN; rewrite repeat_length; lia).
    exists fill. do 4 (split; [assumption || reflexivity|]). split; [intros F; rewrite F in Lf; change (lenN (@nil N)) with 0 in Lf; lia|]. split; [|auto].
    eexists. rewrite <- app_assoc. apply (wire_length bs m n); auto. rewrite lenN_app, Lf. lia.
Qed.

Lemma walk last w : match last with [] => w = [] | [g] => w = [] \/ sent_part c l w g | _ => False end -> Forall (understood s c l) last ->
  forall wires rs, Forall2 (message_wire s) wires rs -> forall ws gs rest, Forall2 (sent c l) ws gs -> Forall (understood s c l) gs -> concat wires ++ rest = concat ws ++ w ->
  exists done ws' gs', gs = done ++ gs' /\ Forall2 (arrived s c l) done rs /\ Forall2 (sent c l) ws' gs' /\ rest = concat ws' ++ w.
Proof.
  intros Hw Ul wires rs F. induction F as [|wire r wires rs M F IH]; intros ws gs rest S U E.
  - exists [], ws, gs. auto.
  - destruct S as [|w0 g0 ws gs S0 S].
    + exfalso. cbn [concat app] in E. rewrite <- app_assoc in E. assert (w <> []) as Nw. { intros ->. apply app_eq_nil in E as [E _]. exact (wire_some _ _ M E). }
      destruct last as [|g [|g' last]]; [contradiction| |destruct Hw]. destruct Hw as [Hw|Hw]; [contradiction|]. inversion Ul as [|? ? U1 _]; subst.
      destruct (part_wire _ _ U1 Hw) as (bs & e & body & m & fill & _ & _ & _ & _ & Nf & (r' & M') & _).
      assert (wire ++ (concat wires ++ rest) ++ fill = ((wire ++ concat wires ++ rest) ++ fill) ++ []) as Q by (rewrite app_nil_r, <- !app_assoc; reflexivity).
      destruct (message_unique s s _ _ _ _ _ _ Hs Hs Ha M M' Q) as (_ & _ & Z).
      apply app_eq_nil in Z as [_ Z]. contradiction.
    + inversion U as [|? ? U0 U']; subst. destruct (sent_wire _ _ U0 S0) as (r0 & M0 & A0). cbn [concat] in E. rewrite <- !app_assoc in E.
      destruct (message_unique s s _ _ _ _ _ _ Hs Hs Ha M M0 E) as (-> & -> & E').
      destruct (IH ws gs rest S U' E') as (done & ws' & gs' & -> & D & S' & ->). exists (g0 :: done), ws', gs'. auto.
Qed.

Lemma prefix_len {A} (a b x y : list A) : a ++ x = b ++ y -> lenN a <= lenN b -> exists z, b = a ++ z.
Proof.
  intros E L. destruct (app_compare a b x y E) as (z & [-> | ->]); [|eauto]. exists []. rewrite lenN_app in L. assert (z = []) as -> by (apply lenN_0; lia). now rewrite !app_nil_r.
Qed.
(* The request that has begun *)
Lemma walk_on last w ws gs r rest : match last with [] => w = [] | [g] => w = [] \/ sent_part c l w g | _ => False end -> Forall (understood s c l) (gs ++ last) ->
  Forall2 (sent c l) ws gs -> (exists sk head part more, rest = sk ++ head ++ part ++ more /\ skipped s sk /\ head_wire s head (msg_head r) /\
        msg_trailers r = None /\ body_begun s (in_decode (msg_head r)) part (msg_data r)) -> rest = concat ws ++ w ->
  exists g tail, gs ++ last = g :: tail /\ arriving s c l g r.
Proof.
  intros Hw U S (sk & head & part & more & -> & K & Hh & Ht & Hb) E. rewrite (never_skipped s sk Hs K) in E. cbn [app] in E. clear sk K.
  destruct S as [|w0 g0 ws gs S0 S].
  - cbn [concat app] in E. assert (w <> []) as Nw. { intros ->. apply app_eq_nil in E as [E _]. exact (head_some _ _ Hh E). }
    destruct last as [|g [|g' last]]; [contradiction| |destruct Hw]. destruct Hw as [Hw|Hw]; [contradiction|]. inversion U as [|? ? U1 _]; subst.
    destruct (part_wire _ _ U1 Hw) as (bs & e & body & m & fill & Ew & Hg & Hm & Hf & _ & _ & Hk). exists g, []. split; [reflexivity|].
    destruct (head_unique s s _ _ _ _ _ _ (proj1 Hs) (proj1 Hs) Ha Hh Hm Ew) as (-> & Em & Eb). rewrite Em in *. exists bs, e.
    assert (exists z, body_of (ekind e) g = msg_data r ++ z) as (z & Z); [|exists z; rewrite Em; auto].
    unfold body_begun in Hb. destruct (ekind e) as [names|n|]; [| |destruct Hk]; cbn [body_of kind_framing] in *.
    + apply framing_chunked in Hf. rewrite Hf, N.eqb_refl in Hb. destruct Hk as (b & Er & V & L & <-). apply (Hb (more ++ fill) b []); auto. rewrite app_nil_r, <- Er, <- Eb, <- app_assoc. reflexivity.
    + destruct (framing_len _ _ Hf) as (_ & N1 & _). apply N.eqb_neq in N1. rewrite N1 in Hb. destruct Hb as (-> & _). destruct Hk as (-> & Hl). exists more. rewrite takeN_all by lia. auto.
  - inversion U as [|? ? U0 U']; subst. exists g0, (gs ++ last). split; [reflexivity|]. destruct S0 as (bs & e & body & -> & Hg & Hk). destruct (U0 bs e Hg) as ((m & Hm & Hf) & Tr).
    cbn [concat] in E. rewrite <- !app_assoc in E. destruct (head_unique s s _ _ _ _ _ _ (proj1 Hs) (proj1 Hs) Ha Hh Hm E) as (-> & Em & Eb). rewrite Em in *. exists bs, e.
    assert (exists z, body_of (ekind e) g0 = msg_data r ++ z) as (z & Z); [|exists z; rewrite Em; auto].
    unfold body_begun in Hb. unfold whole_body in Hk. destruct (ekind e) as [names|n|]; [| |destruct Hk]; cbn [body_of kind_framing] in *.
    + apply framing_chunked in Hf. rewrite Hf, N.eqb_refl in Hb. destruct Hk as (Ho & b & -> & X & <- & V & V1 & V2 & T). specialize (Tr names eq_refl). rewrite <- T in Tr. destruct Tr as (F1 & F2 & F3).
      apply (Hb more b (concat ws ++ w)); auto; [split; auto|]. split; [rewrite X; reflexivity|]. split; [exact F2|]. destruct (trailer_block _); tauto.
    + destruct (framing_len _ _ Hf) as (En & N1 & N2). apply N.eqb_neq in N1. rewrite N1 in Hb. destruct Hb as (-> & Hb). destruct Hb as [Hb|Hb]; [contradiction|]. destruct Hk as (-> & Hl).
      eapply prefix_len; [exact Eb|]. rewrite takeN_len. lia.
Qed.
End Server.

(* What the server hands out are the requests the client was given, in that
   order, none left out, none changed; and what has come of a request that is
   not complete is a beginning of it. *)
Theorem C75_delivered : forall c h09 flat wmax evs ms s h09' flat' wmax' evs' ms' more,
  client_cfg c -> app_moves c ms -> request_parser s -> some_head s -> read_alike s s ->
  let l := history c h09 flat wmax evs ms in let l' := history s h09' flat' wmax' evs' ms' in
  Forall (understood s c l) (handed c h09 flat wmax evs ms) -> data_of evs' ++ more = taken l ->
  exists done rest, handed c h09 flat wmax evs ms = done ++ rest /\ Forall2 (arrived s c l) done (received l') /\
    match receiving l' with None => True | Some r => exists g tail, rest = g :: tail /\ arriving s c l g r end.
Proof.
  intros c h09 flat wmax evs ms s h09' flat' wmax' evs' ms' more Hc Happ Hs Hn Ha l l' U E.
  destruct (C75_sent c h09 flat wmax evs ms Hc Happ) as (ws & w & gs & last & Eq & Eg & F & Hl). fold l in Eq, F, Hl. rewrite Eg in *. apply Forall_app in U as [U1 U2].
  destruct (C58_stream_order c h09 flat wmax evs ms (app_good c ms Happ) (or_intror (or_introl Hc))) as (Q & _). fold l in Q. rewrite <- E, Eq in Q. clear E Eq.
  destruct (C65_received s h09' flat' wmax' evs' ms' (request_bounded s Hs)) as (wires & rest & Er & Fr & Hr). fold l' in Fr, Hr. rewrite Er, <- !app_assoc in Q.
  set (tail := more ++ _) in Q. destruct (walk s c l Hs Hn Ha last w Hl U2 wires _ Fr ws gs _ F U1 Q) as (done & ws' & gs' & -> & D & S' & E').
  exists done, (gs' ++ last). split; [now rewrite app_assoc|]. split; [exact D|]. destruct (receiving l') as [r|]; [|exact Logic.I].
  apply Forall_app in U1 as [_ U1]. apply (walk_on s c l Hs Hn Ha last w ws' gs' r (rest ++ tail)); auto; [now apply Forall_app|].
  destruct Hr as (sk & head & part & mo & -> & R). exists sk, head, part, (mo ++ tail). rewrite <- !app_assoc. auto.
Qed.
Print Assumptions C75_delivered.
