(* C80: a client and a server connection that talk to each other. *)
From Verif Require L_Reply.
From Verif Require Import M_Httparse.
From Verif Require Import Base M_Src M_Decode S_Buf L_Buf S_Transport S_Chunked S_Read S_Send L_Decode L_Chunked L_Body L_Read M_HeaderMap M_Headers M_Encode M_Role M_RoleEncode M_Buf M_WriteBuf M_Read M_Conn M_Dispatch S_Conn S_Client S_Framing L_Headers L_Framing L_Fold P_Framing S_Inbound S_Head L_Encode L_Encode2 L_RoleEncode L_RoleEncode2 L_Wire L_Server L_Client P_Client L_Conn L_Moves L_ConnC L_ConnS L_Exch L_Inbound L_Stream P_Stream P_Conn P_Inbound M_Parse S_Parse P_Parse S_Outbound L_Outbound P_Outbound P_EndToEnd P_View S_Reply P_Reply S_Answers P_Answers P_RoundTrip.

(* ---- Which request the n-th head of a client is ---- *)
Definition req_method (g : gmsg) : option bytes := match o_subject (g_head g) with ORequest me _ => Some me | OResponse _ _ => None end.
Definition no_head (k k' : conn) : Prop := exists l, k_log k' = k_log k ++ l /\ asked l = [].
Lemma no_head_refl k : no_head k k.
Proof. exists []. now rewrite app_nil_r. Qed.
Lemma no_head_oq k k' : oq k k' -> no_head k k'.
Proof.
  intros (l & E & Q & _). exists l. split; [exact E|]. clear E. induction l as [|e l IH]; [reflexivity|]. cbn in Q. apply andb_prop in Q as [Q1 Q2]. cbn [asked flat_map]. unfold asked in IH. rewrite (IH Q2). destruct e; try discriminate; reflexivity.
Qed.
Lemma no_head_body c room k b : no_head k (k_write_body c room k b).
Proof.
  unfold k_write_body. destruct (k_writing k); try apply no_head_refl. destruct (encode_buf _ _ _) as [e' eb]. destruct (negb _).
  - exists [LBody (buf_bytes eb)]. cbn. now rewrite buffer_log'.
  - exists [LBody (buf_bytes eb); LEnd]. cbn. rewrite buffer_log', <- app_assoc. auto.
Qed.
Lemma no_head_trailers c room k t : no_head k (k_write_trailers c room k t).
Proof.
  unfold k_write_trailers. destruct (c_server c && _); [apply no_head_refl|]. destruct (k_writing k); try apply no_head_refl. destruct (encode_trailers _ _ _) as [out|]; [|apply no_head_refl].
  exists [LBody out; LEnd]. cbn. now rewrite buffer_log'.
Qed.
Lemma no_head_body_end c room k b : no_head k (k_write_body_and_end c room k b).
Proof.
  unfold k_write_body_and_end. destruct (k_writing k); try apply no_head_refl.
  eexists. cbn. rewrite buffer_log'. split; [reflexivity|]. destruct (match ekind _ with KLength _ => _ | _ => _ end); reflexivity.
Qed.
Lemma no_head_end room k : no_head k (fst (k_end_body room k)).
Proof.
  unfold k_end_body. destruct (k_writing k); try apply no_head_refl. destruct (enc_end _) as [[|x out]|u].
  - exists [LEnd]. cbn. auto.
  - exists [LBody (x :: out); LEnd]. cbn. rewrite buffer_log', <- app_assoc. auto.
  - exists [LAbort]. cbn. auto.
Qed.
(* The heads of a client are those of the requests it was handed, in that order,
   as long as none of them is refused. *)
Definition AK (k : conn) (gs : list gmsg) : Prop := head_failed (k_log k) \/ asked (k_log k) = map req_method (rev gs).
Lemma asked_app l l' : asked (l ++ l') = asked l ++ asked l'.
Proof. unfold asked. apply flat_map_app. Qed.
Lemma failed_on l l' : head_failed l -> head_failed (l ++ l').
Proof. intros (b & H). exists b. apply in_or_app. auto. Qed.
Lemma AK_no_head k k' gs : AK k gs -> no_head k k' -> AK k' gs.
Proof.
  intros H (l & E & Q). unfold AK. rewrite E. destruct H as [H|H]; [left; now apply failed_on|]. right. now rewrite asked_app, Q, app_nil_r.
Qed.
Lemma AK_upd k gs t : match t with TMsg _ _ => False | _ => True end -> AK k gs -> AK k (give gs t).
Proof.
  intros Ht [H|H]; [left; exact H|]. right. rewrite H. destruct t; [destruct Ht| | |]; (destruct gs as [|g gs]; [reflexivity|]; cbn [give rev]; rewrite !map_app; reflexivity).
Qed.
Lemma AK_head c k h b gs : AK k gs -> AK (write_head c false k h b) (give gs (TMsg h b)).
Proof.
  intros H. unfold AK, write_head, encode_head.
  set (k1 := if c_server c then k else _). assert (k_log k1 = k_log k) as E1 by (subst k1; destruct (c_server c); [reflexivity|]; destruct (connection_any_close _); unfold busy, st_disable_keep_alive, k_disable_keep_alive, set_ka; repeat (cbn; match goal with |- context [match ?x with _ => _ end] => destruct x end); reflexivity). clearbody k1.
  pose proof (enforce_frame k1 h) as F. pose proof (enforce_for k1 h) as G. destruct (enforce_version k1 h) as [k2 h2]. destruct F as (F & _). cbn [snd] in G. destruct G as (G & _).
  destruct (t_encode c k2 h2 b) as [[out m] [e|e]]; cbn [k_log log set_writing set_error set_method set_wb].
  - rewrite F, E1. destruct H as [H|H]; [left; rewrite <- app_assoc; now apply failed_on|right]. rewrite !asked_app, H. cbn [give rev]. rewrite map_app. cbn [map]. unfold req_method at 2. cbn [g_head]. rewrite <- app_assoc. f_equal.
    cbn [asked flat_map app]. rewrite G. destruct (enc_is_eof e); reflexivity.
  - left. exists out. apply in_or_app. right. left. reflexivity.
Qed.
Lemma AK_write_it c i d gs : c_server c = false -> AK (d_conn d) gs ->
  AK (d_conn (fst (poll_write_it c i d))) (fold_left give (offers c i d) gs).
Proof.
  intros Hs H. unfold poll_write_it, offers. destruct (d_closing d); [exact H|].
  destruct (negb (d_body_rx d) && can_write_head c (d_conn d) && should_poll c d) eqn:Eh.
  - unfold d_poll_msg. rewrite Hs. destruct (ch_poll_recv (i_race i) (d_chan d)) as [ch [|[id|]]]; cbn [snd].
    + exact H.
    + destruct (i_canceled i); cbn [snd].
      * eapply AK_no_head; [exact H|]. apply no_head_oq. eapply oq_trans; [apply (oq_log _ [LOutcome id OGone]); reflexivity|]. apply oqd_close.
      * destruct (i_req i) as [h b]. cbn [fold_left fst d_conn dset_conn]. apply AK_head. eapply AK_no_head; [exact H|]. exists [LStart id]. auto.
    + eapply AK_no_head; [exact H|]. apply no_head_oq. apply (oqd_close (dset_client d (d_callback d) true ch)).
  - destruct (can_buffer_body c (d_conn d)) eqn:Ecb; cbn [negb andb].
    2:{ pose proof (oqd_flush c i d) as (Q1 & Q2). destruct (d_flush c i d) as [d' [|[u|e]]]; cbn [fst fold_left] in *; (eapply AK_no_head; [exact H|now apply no_head_oq]). }
    assert (forall dd, d_conn dd = d_conn d -> forall gs', AK (d_conn d) gs' -> AK (d_conn (fst (end_body_it c i dd))) gs') as En.
    { intros dd E gs' H'. unfold end_body_it. rewrite E. pose proof (no_head_end (i_room i) (d_conn d)) as Q. destruct (k_end_body _ _) as [k' [u|e]]; cbn [fst d_conn dset_conn] in *; eapply AK_no_head; eassumption. }
    destruct (d_body_rx d) eqn:Erx; cbn [andb].
    + destruct (k_can_write_body (d_conn d)) eqn:Ec; cbn [negb]; [|exact H].
      destruct (i_frame i) as [|[[[b|t|]|u]|]] eqn:Ei; cbn [fold_left].
      * exact H.
      * assert (AK (d_conn d) (give gs (TData (den b)))) as H1 by (apply AK_upd; auto). destruct (i_eos i); cbn [fold_left].
        -- assert (AK (d_conn d) (give (give gs (TData (den b))) TOver)) as H2 by (apply AK_upd; auto). destruct (brem b =? 0); [apply En; auto|]. eapply AK_no_head; [exact H2|apply no_head_body_end].
        -- destruct (brem b =? 0); [exact H1|]. eapply AK_no_head; [exact H1|apply no_head_body].
      * eapply AK_no_head; [do 2 (apply AK_upd; [exact Logic.I|]); exact H|apply no_head_trailers].
      * exact H.
      * exact H.
      * apply En; [reflexivity|]. apply AK_upd; auto.
    + cbn [fold_left]. destruct (k_can_write_body (d_conn d)) eqn:Ec; [|exact H]. apply En; auto.
Qed.
Lemma AK_move c m d gs : c_server c = false -> AK (d_conn d) gs -> AK (d_conn (dmove c m d)) (fold_left give (tells c m d) gs).
Proof.
  intros Hs H.
  assert (tells c m d = [] -> oqd d (dmove c m d) -> AK (d_conn (dmove c m d)) (fold_left give (tells c m d) gs)) as Quiet.
  { intros -> (Q1 & Q2). eapply AK_no_head; [exact H|now apply no_head_oq]. }
  destruct m as [i|e]; [|apply Quiet; [reflexivity|apply oqd_move; [exact Hs|discriminate]]].
  assert (forall n, d_pc d = PWrite n \/ d_pc d = PWrite2 n -> AK (d_conn (dmove c (Step i) d)) (fold_left give (tells c (Step i) d) gs)) as Wr.
  { intros n Hp. assert (tells c (Step i) d = offers c i d) as -> by (cbn; destruct Hp as [-> | ->]; reflexivity).
    pose proof (AK_write_it c i d gs Hs H) as W. cbn [dmove]. unfold dstep.
    destruct Hp as [-> | ->]; destruct (poll_write_it c i d) as [d' [|[|[u|e]]]]; cbn [fst] in W;
      try exact W; (destruct (oqd_fail c d' e) as (Q1 & Q2); eapply AK_no_head; [exact W|now apply no_head_oq]). }
  destruct (d_pc d) eqn:Ep; try (apply Quiet; [cbn; rewrite Ep; reflexivity|apply oqd_move; [exact Hs|intros; rewrite Ep; split; discriminate]]); apply (Wr n); auto.
Qed.
Lemma AK_run c ms : c_server c = false -> forall d gs, AK (d_conn d) gs -> AK (d_conn (run c ms d)) (fold_left give (told_in c ms d) gs).
Proof.
  intros Hs. induction ms as [|m ms IH]; intros d gs H; [exact H|]. cbn [told_in run]. rewrite fold_left_app. apply (IH (dmove c m d)). now apply AK_move.
Qed.
Lemma asked_handed c h09 flat wmax evs ms : c_server c = false -> let l := history c h09 flat wmax evs ms in
  ~ head_failed l -> asked l = map req_method (handed c h09 flat wmax evs ms).
Proof.
  intros Hs l Hf. assert (AK (d_conn (start h09 flat wmax evs)) []) as H0 by (right; reflexivity).
  destruct (AK_run c ms Hs _ _ H0) as [H|H]; [destruct (Hf H)|exact H].
Qed.

(* ---- The requests a server was handed are those it received ---- *)
Definition begun (o : option message) : list message := match o with Some r => [r] | None => [] end.
Lemma requests_received c h09 flat wmax evs ms : c_server c = true -> let l := history c h09 flat wmax evs ms in
  requests l = map msg_head (received l ++ begun (receiving l)).
Proof.
  intros Hs l. destruct (server_inv c Hs ms _ (SInv_start h09 flat wmax evs)) as (x & Hx & _). change (k_log _) with l in Hx. clearbody l. revert x Hx.
  assert (forall x, x_run x_server x_start l = Some x -> requests l = map msg_head (received l ++ begun (receiving l)) /\ match x_in x with INone | IDone _ => receiving l = None | _ => receiving l <> None end) as Q; [|intros x Hx; now apply (Q x)].
  induction l as [|e l IH] using rev_ind; intros x Hx.
  - cbn in Hx. injection Hx as <-. cbn. auto.
  - rewrite x_run_app in Hx. destruct (x_run x_server x_start l) as [x0|]; [|discriminate Hx]. cbn [x_run] in Hx. destruct (x_server x0 e) as [x1|] eqn:E1; [|discriminate Hx]. injection Hx as <-.
    destruct (IH x0 eq_refl) as (R & P). unfold requests. rewrite flat_map_app. fold (requests l). unfold received, receiving in *. rewrite inbound_snoc. rewrite R.
    destruct x0 as [i o k w ov]. destruct (inbound l) as [done cur]. cbn [fst snd x_in x_out] in *.
    destruct e as [ | | | | | | |auto h bs| | | | | | | | | | | ]; try (destruct auto); cbn in E1; unfold at_rest in E1; cbn in E1; try discriminate E1;
    try (injection E1 as <-; cbn; rewrite ?app_nil_r; auto; fail);
    try (destruct i, o; try discriminate E1; try (destruct ov; try discriminate E1); cbn in E1; try (destruct (_ && _) in E1; try discriminate E1); injection E1 as <-; cbn in *; destruct cur; cbn; try contradiction; try discriminate P; rewrite ?app_nil_r, ?map_app; cbn; rewrite ?app_nil_r; repeat split; auto; try discriminate; fail).
Qed.

(* ---- C80 ---- *)
(* [m] is the head of the request [q] as the server [s] was handed it *)
Definition asked_as (c : cfg) (o : hparse) (l : list levent) (q : gmsg) (m : inmsg) : Prop := exists bs e, head_written c l q bs e /\ same_head o q bs m.

Section Conversation.
Variables (c : cfg) (flat : bool) (wmax : N) (evs : list event) (ms : list move) (o : hparse) (room : N).
Variables (s : cfg) (h09 flat' : bool) (wmax' : N) (evs' : list event) (ms' : list move) (o' : hparse) (room' : N).
Let l := history c false flat wmax evs ms.
Let l' := history s h09 flat' wmax' evs' ms'.
Let qs := handed c false flat wmax evs ms.
Let gs := handed s h09 flat' wmax' evs' ms'.
Hypothesis Hc : c_server c = false.
Hypothesis Uc : parses_with c o.
Hypothesis Ha : app_moves c ms.
Hypothesis Hs : c_server s = true.
Hypothesis Us : parses_with s o'.
Hypothesis Oo : hp_ok o'.
Hypothesis Rr : reads_requests o' room'.
Hypothesis Hroom : room' <= 24576.
Hypothesis Ts : reads_trailers s.
Hypothesis Hok : Forall (acceptable s c o' room' l) qs.
Variable more' : bytes.
Hypothesis Hin : data_of evs' ++ more' = taken l.
(* The n-th request that the server is handed is the n-th that the client was
   given *)
Lemma nth_request n m : nth_error (requests l') n = Some m -> exists q, nth_error qs n = Some q /\ asked_as c o' l q m.
Proof.
  intros H. unfold l' in H. rewrite (requests_received s h09 flat' wmax' evs' ms' Hs) in H. fold l' in H.
  destruct (C75_end_to_end c false flat wmax evs ms s o' room' h09 flat' wmax' evs' ms' more' (parsing_client c o Hc Uc) Ha Hs Us Oo Rr Hroom Ts Hok Hin) as (done & rest & E & F & G). fold l' in F, G. fold qs in E. fold l in F, G.
  rewrite nth_error_map in H. destruct (nth_error _ n) as [r|] eqn:Hr; [|discriminate H]. cbn in H. injection H as <-.
  assert (length done = length (received l')) as Ld by (eapply Forall2_length; exact F).
  destruct (Nat.lt_ge_cases n (length (received l'))) as [L|L].
  - rewrite nth_error_app1 in Hr by exact L. destruct (nth_error done n) as [q|] eqn:Hq; [|apply nth_error_None in Hq; lia]. destruct (Forall2_nth _ _ _ F n q r Hq Hr) as (bs & e & W & S & _). exists q. split; [rewrite E, nth_error_app1 by lia; exact Hq|]. exists bs, e. auto.
  - rewrite nth_error_app2 in Hr by exact L. destruct (receiving l') as [r0|]; cbn [begun] in Hr; [|destruct (n - _)%nat; discriminate Hr].
    destruct G as (g & tail & -> & bs & e & mo & W & S & _). destruct (n - length (received l'))%nat as [|j] eqn:En; [|destruct j; discriminate Hr]. injection Hr as <-.
    exists g. split; [rewrite E, nth_error_app2 by lia; replace (n - length done)%nat with 0%nat by lia; reflexivity|]. exists bs, e. auto.
Qed.
Hypothesis Hnf : ~ head_failed l.
Lemma methods_agree n m me : nth_error (requests l') n = Some m -> nth_error (asked l) n = Some me -> in_method m = me.
Proof.
  intros H1 H2. destruct (nth_request n m H1) as (q & Hq & bs & e & _ & me0 & ta & y & Hsu & _ & _ & _ & Hm & _).
  unfold l in H2. rewrite (asked_handed c false flat wmax evs ms Hc Hnf) in H2. fold qs in H2. rewrite (map_nth_error req_method n _ Hq) in H2. injection H2 as <-. unfold req_method. now rewrite Hsu.
Qed.
End Conversation.

(* A client and a server that read what the other's transport took: what the
   client hands out as the response to its n-th request is the n-th response of
   the server's application, which was given for that request. *)
Theorem C80_conversation : forall c flat wmax evs ms o room s h09 flat' wmax' evs' ms' o' room' more more',
  c_server c = false -> parses_with c o -> hp_ok o -> reads_responses o room -> reads_trailers c -> app_moves c ms ->
  c_server s = true -> parses_with s o' -> hp_ok o' -> reads_requests o' room' -> room' <= 24576 -> reads_trailers s -> value_chars (c_date s) -> L_Reply.service_moves s ms' ->
  let l := history c false flat wmax evs ms in let l' := history s h09 flat' wmax' evs' ms' in
  let qs := handed c false flat wmax evs ms in let gs := handed s h09 flat' wmax' evs' ms' in
  ~ head_failed l -> in_order s flat' l' -> only_replies l' ->
  Forall (acceptable s c o' room' l) qs -> Forall (readable c s room l') gs ->
  data_of evs' ++ more' = taken l -> data_of evs ++ more = taken l' ->
  (forall n r, nth_error (received l) n = Some r -> Forall goes_on (firstn n (received l)) ->
     exists q m g, nth_error qs n = Some q /\ nth_error (requests l') n = Some m /\ asked_as c o' l q m /\ nth_error gs n = Some g /\ same_reply s l' n g r) /\
  (forall r, receiving l = Some r -> Forall goes_on (received l) -> let n := length (received l) in
     exists q m g, nth_error qs n = Some q /\ nth_error (requests l') n = Some m /\ asked_as c o' l q m /\ nth_error gs n = Some g /\ begun_reply s l' n g r).
Proof.
  intros c flat wmax evs ms o room s h09 flat' wmax' evs' ms' o' room' more more' Hc Uc Oc Rc Tc Ha Hs Us Os Rs Hroom Ts Hd Hsm l l' qs gs Hnf Hord Honly Hok Hrd Hin Hback.
  assert (forall n m, nth_error (requests l') n = Some m -> exists q, nth_error qs n = Some q /\ asked_as c o' l q m) as Q.
  { intros n m. exact (nth_request c flat wmax evs ms o s h09 flat' wmax' evs' ms' o' room' Hc Uc Ha Hs Us Os Rs Hroom Ts Hok more' Hin n m). }
  destruct (C79_end_to_end s h09 flat' wmax' evs' ms' c o room flat wmax evs ms more Hs Hsm Hc Uc Oc Rc Tc Hd Hord Honly Hnf) as (D1 & D2).
  - intros n m me. exact (methods_agree c flat wmax evs ms o s h09 flat' wmax' evs' ms' o' room' Hc Uc Ha Hs Us Os Rs Hroom Ts Hok more' Hin Hnf n m me).
  - exact Hrd.
  - exact Hback.
  - fold l l' in D1, D2. split.
    + intros n r Hn Hg. destruct (D1 n r Hn Hg) as (g & G1 & G2). pose proof G2 as (m & bs & e & (h' & kp & Hm & _) & _). destruct (Q n m Hm) as (q & Hq & A). exists q, m, g. auto 10.
    + intros r Hn Hg n. destruct (D2 r Hn Hg) as (g & G1 & G2). pose proof G2 as (m & bs & e & mo & (h' & kp & Hm & _) & _). destruct (Q n m Hm) as (q & Hq & A). exists q, m, g. auto 10.
Qed.
Print Assumptions C80_conversation.

(* ---- Example ---- *)
Definition rt_asks : list move := rt_ask 80 (rt_get, None) ++ rt_ask 600 (rt_put, Some (Known 3)).
Definition rt_asked : list gmsg := handed (ref_cfg false) false true 8192 rt_back rt_asks.
Lemma rt_app : app_moves (ref_cfg false) rt_asks.
Proof.
  assert (forall n i, good_app (ref_cfg false) i -> app_moves (ref_cfg false) (steps n i)) as Q by (intros n i H; induction n; constructor; auto).
  assert (forall x, lenN x <= u64_max -> x <> [] -> forall req, (exists me ta, o_subject (fst req) = ORequest me ta) -> good_app (ref_cfg false) (e2e_inp req (e2e_data x))) as D.
  { intros x Hx Hne req Hreq. split; [exact Hreq|]. split.
    - unfold good_inp, good_data. cbn. split; [now repeat constructor|]. split; [right; apply le_n|]. left. apply le_n.
    - cbn. rewrite app_nil_r. exact Hx. }
  assert (app_moves (ref_cfg false) e2e_ask) as K by (constructor; [exact Logic.I|constructor; [exact Logic.I|constructor]]).
  assert (forall a b, app_moves (ref_cfg false) a -> app_moves (ref_cfg false) b -> app_moves (ref_cfg false) (a ++ b)) as J by (intros a b Ha Hb; apply Forall_app; auto).
  unfold rt_asks, rt_ask. apply J; (apply J; [exact K|apply Q, D; [vm_compute; discriminate|discriminate|eexists _, _; reflexivity]]).
Qed.
Lemma rt_accept : Forall (acceptable (ref_cfg true) (ref_cfg false) (ref_hp 100 true) 100 rt_log') rt_asked.
Proof.
  assert (forall h bs, In (LHead false h bs) rt_log' -> h = rt_get \/ h = rt_put) as Q.
  { intros h bs. assert (forall x, In x rt_log' -> match x with LHead _ h _ => h = rt_get \/ h = rt_put | _ => True end) as P; [|intros H; exact (P _ H)].
    apply Forall_forall. vm_compute. repeat (apply Forall_cons; [first [exact Logic.I|left; reflexivity|right; reflexivity]|]). apply Forall_nil. }
  assert (forall g n, hm_get_all (o_headers (g_head g)) n <> [] -> forallb (fun x => lenN (fst x) <? 65536) (o_headers (g_head g)) = true -> lenN n < 65536) as Nm.
  { intros g n. generalize (o_headers (g_head g)). induction h as [|(k & vs) h IH]; [contradiction|]. cbn [hm_get_all forallb fst]. destruct (beq k n) eqn:E; intros H F; apply andb_prop in F as [F1 F2]; [apply beq_eq in E; subst k; now apply N.ltb_lt|auto]. }
  unfold rt_asked. set (gs := handed _ _ _ _ _ _). assert (exists g1 g2, gs = [g1; g2] /\ g_head g1 = rt_get /\ g_len g1 = None /\ g_trailers g1 = None /\ g_head g2 = rt_put /\ g_len g2 = Some (Known 3) /\ g_trailers g2 = None) as (g1 & g2 & -> & A1 & A2 & A3 & B1 & B2 & B3).
  { eexists _, _. split; [vm_compute; reflexivity|]. repeat split; reflexivity. }
  constructor; [|constructor; [|constructor]].
  - unfold acceptable. rewrite A1, A2, A3. split; [exists (B "GET"), (B "/a"); split; [reflexivity|]; split; [apply token_b; [discriminate|reflexivity]|]; split; [apply target_b; [discriminate|reflexivity]|]; split; [vm_compute; discriminate|split; reflexivity]|]. split; [now apply headers_okb_ok|]. split; [discriminate|].
    split; [intros n H; apply (Nm g1 n); [rewrite A1; exact H|rewrite A1; reflexivity]|]. split; [constructor|]. split; [intros v []|]. split; [now left|]. split; [discriminate|].
    intros bs e (h' & me & ta & (Hf & _) & Hs & Hi & E). rewrite A1 in Hf. rewrite A2 in E. assert (h' = rt_get) as -> by (destruct (Q _ _ Hi) as [->| ->]; [reflexivity|discriminate Hf]).
    injection Hs as <- <-. assert (line_feeds bs <= 102 /\ ekind e = KLength 0) as (L0 & ->). { assert (match client_encode (mkCmsg HTTP11 (B "GET") (B "/a") None (o_headers rt_get) false None) with Some (x, y) => line_feeds x <= 102 /\ ekind y = KLength 0 | None => False end) as Z by (vm_compute; split; [discriminate|reflexivity]). change (client_encode (mkCmsg HTTP11 (B "GET") (B "/a") None (o_headers rt_get) false None) = Some (bs, e)) in E. rewrite E in Z. exact Z. }
    split; [exact L0|]. split; [intros n En; injection En as <-; reflexivity|discriminate].
  - unfold acceptable. rewrite B1, B2, B3. split; [exists (B "PUT"), (B "/b"); split; [reflexivity|]; split; [apply token_b; [discriminate|reflexivity]|]; split; [apply target_b; [discriminate|reflexivity]|]; split; [vm_compute; discriminate|split; reflexivity]|]. split; [now apply headers_okb_ok|]. split; [discriminate|].
    split; [intros n H; apply (Nm g2 n); [rewrite B1; exact H|rewrite B1; reflexivity]|]. split; [constructor|]. split; [intros v []|]. split; [now left|]. split; [discriminate|].
    intros bs e (h' & me & ta & (Hf & _) & Hs & Hi & E). rewrite B1 in Hf. rewrite B2 in E. assert (h' = rt_put) as -> by (destruct (Q _ _ Hi) as [->| ->]; [discriminate Hf|reflexivity]).
    injection Hs as <- <-. assert (line_feeds bs <= 102 /\ ekind e = KLength 3) as (L0 & ->). { assert (match client_encode (mkCmsg HTTP11 (B "PUT") (B "/b") (Some (Known 3)) (o_headers rt_put) false None) with Some (x, y) => line_feeds x <= 102 /\ ekind y = KLength 3 | None => False end) as Z by (vm_compute; split; [discriminate|reflexivity]). change (client_encode (mkCmsg HTTP11 (B "PUT") (B "/b") (Some (Known 3)) (o_headers rt_put) false None) = Some (bs, e)) in E. rewrite E in Z. exact Z. }
    split; [exact L0|]. split; [intros n En; injection En as <-; reflexivity|discriminate].
Qed.
(* The two connections of C79_ex talk to each other; with what is said there, all
   of the hypotheses hold *)
Example C80_ex : app_moves (ref_cfg false) rt_asks /\ reads_requests (ref_hp 100 true) 100 /\ reads_trailers (ref_cfg true) /\
  rt_log' = history (ref_cfg false) false true 8192 rt_back rt_asks /\ Forall (acceptable (ref_cfg true) (ref_cfg false) (ref_hp 100 true) 100 rt_log') rt_asked /\
  data_of (open_with rt_wire) ++ [] = taken rt_log' /\ data_of rt_back ++ [] = taken rt_log /\
  map req_method rt_asked = [Some (B "GET"); Some (B "PUT")] /\ map in_method (requests rt_log) = [Some (B "GET"); Some (B "PUT")] /\ length (received rt_log') = 2%nat.
Proof.
  split; [exact rt_app|]. split; [apply ref_reads|]. split; [apply ref_trailers|]. split; [reflexivity|]. split; [exact rt_accept|]. repeat split; vm_compute; reflexivity.
Qed.
