(* C83: a server does not refuse what it has no reason to refuse. *)
From Verif Require L_Reply S_Refuse P_Refuse L_Accept P_Read.
From Verif Require Import M_Httparse.
From Verif Require Import Base M_Src M_Decode S_Buf L_Buf S_Transport S_Chunked S_Read S_Send L_Decode L_Chunked L_Body L_Read M_HeaderMap M_Headers M_Encode M_Role M_RoleEncode M_Buf M_WriteBuf M_Read M_Conn M_Dispatch S_Conn S_Client S_Framing L_Headers L_Framing L_Fold P_Framing S_Inbound S_Head L_Encode L_Encode2 L_RoleEncode L_RoleEncode2 L_Wire L_Server L_Client P_Client L_Conn L_Moves L_ConnC L_ConnS L_Exch L_Inbound L_Stream P_Stream P_Conn P_Inbound M_Parse S_Parse P_Parse S_Outbound L_Outbound P_Outbound P_EndToEnd P_View S_Reply P_Reply S_Answers P_Answers P_RoundTrip P_Conversation S_Accept.

Lemma knowing c o h09 flat wmax evs ms : c_server c = true -> parses_with c o -> hp_ok o -> waits_for_rest o ->
  forall a h bs b, history c h09 flat wmax evs ms = a ++ LHead true h bs :: b -> P_Refuse.refusal c (incomplete o) (data_of evs) a h.
Proof.
  intros Hs U Ho Hw. apply (P_Refuse.refused_run c (incomplete o) (fun d => L_Accept.PT o (d_conn d)) h09 flat wmax evs ms Hs (request_bounded c (C66_request_parser c o Hs U Ho))).
  - exact (L_Accept.PT_stable c o Hs U Ho Hw).
  - right. exact Logic.I.
  - intros d H. exact (L_Accept.PT_full c o Hs U Ho Hw _ H).
Qed.

(* What C67 says about the responses that a server makes up, and more: one that
   says that the head is too large is given only if there is no head in what has
   filled the buffer, however it was cut into pieces. *)
Theorem C83_too_large : forall c o max h09 flat wmax evs ms a h bs b, c_server c = true -> parses_with c o -> hp_ok o -> hp_room o max -> max <= 24576 -> S_Refuse.hp_no_status o -> waits_for_rest o ->
  history c h09 flat wmax evs ms = a ++ LHead true h bs :: b ->
  exists wires x z st, data_of evs = concat wires ++ x ++ z /\ Forall2 (request_wire c o) wires (received a) /\ receiving a = None /\
    o_subject h = OResponse st None /\ (S_Refuse.refused o x st \/ st = 431 /\ c_max c <= lenN x /\ forall n q, h_request o x <> HComplete n q).
Proof.
  intros c o max h09 flat wmax evs ms a h bs b Hs U Ho Hr Hm Hn Hw E. exact (P_Refuse.refusal_means c o max (incomplete o) _ a h Hs U Ho Hr Hm Hn (knowing c o h09 flat wmax evs ms Hs U Ho Hw a h bs b E)).
Qed.

Print Assumptions C83_too_large.

(* ---- Nothing to refuse ---- *)
Section Accept.
Variables (s c : cfg) (o : hparse) (room : N) (l : list levent).
Hypothesis Hsv : c_server s = true.
Hypothesis U : parses_with s o.
Hypothesis Ho : hp_ok o.
Hypothesis Hw : waits_for_rest o.
Lemma head_complete bs m : head_wire s bs m -> exists q, forall z, h_request o (bs ++ z) = HComplete (lenN bs) q.
Proof. intros H. destruct (head_request s o bs m Hsv U Ho H) as (q & p & Q & _). exists q. exact Q. Qed.
(* The bytes that come before the end of a head are no head and no error *)
Lemma not_at_fault bs m x y z : head_wire s bs m -> x ++ y = bs ++ z -> 0 < c_max s -> lenN bs <= c_max s ->
  (forall me h09 e, c_parse s me h09 x <> PFail e) /\ (c_max s <= lenN x -> ~ incomplete o x).
Proof.
  intros H E H0 Hm. destruct (head_complete bs m H) as (q & Q). destruct (app_compare x bs y z E) as (t & [-> | ->]).
  - split.
    + intros me h9 e F. destruct (head_whole s bs m (proj1 (C66_request_parser s o Hsv U Ho)) H) as (me' & h9' & W). specialize (W t). rewrite U, Hsv in F, W. unfold role_parse in *. rewrite W in F. discriminate.
    + intros _ I. exact (I _ _ (Q t)).
  - destruct t as [|b t].
    + rewrite app_nil_r in *. split.
      * intros me h9 e F. destruct (head_whole s x m (proj1 (C66_request_parser s o Hsv U Ho)) H) as (me' & h9' & W). specialize (W []). rewrite app_nil_r in W. rewrite U, Hsv in F, W. unfold role_parse in *. rewrite W in F. discriminate.
      * intros _ I. specialize (Q []). rewrite app_nil_r in Q. exact (I _ _ Q).
    + assert (lenN x < lenN (x ++ b :: t)) as L by (rewrite lenN_app, lenN_cons; lia). split; [|intros F; lia].
      intros me h9 e F. specialize (Q []). rewrite app_nil_r in Q. destruct (proj2 Hw _ _ _ Q) as (_ & P). specialize (P (lenN x) L). rewrite takeN_app_le, takeN_all in P by lia.
      rewrite U, Hsv in F. unfold role_parse, parse_request in F. rewrite P in F. discriminate.
Qed.
Lemma nothing_at_fault : 0 < c_max s -> (forall me h09 e, c_parse s me h09 [] <> PFail e) /\ (c_max s <= lenN (@nil N) -> ~ incomplete o []).
Proof. intros H0. split; [|cbn; lia]. intros me h9 e F. rewrite U, Hsv in F. unfold role_parse, parse_request in F. rewrite (proj1 Hw) in F. discriminate. Qed.
End Accept.

(* The heads fit into the server's buffer *)
Definition heads_fit (s c : cfg) (l : list levent) (g : gmsg) : Prop := forall bs e, head_written c l g bs e -> lenN bs <= c_max s.

(* A server that is sent requests of such a client, which it can accept, never
   makes up a response. *)
Theorem C83_accepted : forall c h09 flat wmax evs ms s o room h09' flat' wmax' evs' ms' more,
  client_cfg c -> app_moves c ms -> c_server s = true -> parses_with s o -> hp_ok o -> waits_for_rest o -> reads_requests o room -> room <= 24576 -> reads_trailers s -> 0 < c_max s ->
  let l := history c h09 flat wmax evs ms in let l' := history s h09' flat' wmax' evs' ms' in
  Forall (acceptable s c o room l) (handed c h09 flat wmax evs ms) -> Forall (heads_fit s c l) (handed c h09 flat wmax evs ms) -> data_of evs' ++ more = taken l ->
  no_refusal l'.
Proof.
  intros c h09 flat wmax evs ms s o room h09' flat' wmax' evs' ms' more Hc Happ Hsv U Ho Hw Hr Hroom Htr Hmax l l' A Hf E h bs Hin.
  apply in_split in Hin as (a & b & El). pose proof (knowing s o h09' flat' wmax' evs' ms' Hsv U Ho Hw a h bs b El) as (wires & sk & x & z & st & E1 & E2 & _ & E4 & _ & E6).
  pose proof (C66_request_parser s o Hsv U Ho) as R. rewrite (never_skipped s sk R E4) in E1. cbn [app] in E1.
  assert ((forall me h09 e, c_parse s me h09 x <> PFail e) /\ (c_max s <= lenN x -> ~ incomplete o x)) as (F1 & F2).
  2: { destruct E6 as [(me & h9 & p & n & P & _)|(_ & L & I)]; [exact (F1 _ _ _ P)|exact (F2 L I)]. }
  assert (Forall (understood s c l) (handed c h09 flat wmax evs ms)) as Un. { eapply Forall_impl; [|exact A]. intros g. now apply acceptable_understood. }
  destruct (C75_sent c h09 flat wmax evs ms Hc Happ) as (ws & w & gs & last & Eq & Eg & F & Hl). fold l in Eq, F, Hl. rewrite Eg in *. apply Forall_app in Un as [U1 U2]. clear A.
  destruct (C58_stream_order c h09 flat wmax evs ms (app_good c ms Happ) (or_intror (or_introl Hc))) as (Q & _). fold l in Q. rewrite <- E, Eq, E1 in Q. rewrite <- !app_assoc in Q.
  destruct (P_Outbound.walk s c l R (heads_some s o Hsv U Ho) (self_alike s o Hsv U) last w Hl U2 wires _ E2 ws gs _ F U1 Q) as (done & ws' & gs' & -> & _ & S' & E').
  apply Forall_app in U1 as [_ U1]. rewrite <- app_assoc in Hf. apply Forall_app in Hf as [_ Hf]. apply Forall_app in Hf as [Hf1 Hf2].
  assert (forall g bs e y t, understood s c l g -> heads_fit s c l g -> head_written c l g bs e -> x ++ y = bs ++ t -> (forall me h09 e, c_parse s me h09 x <> PFail e) /\ (c_max s <= lenN x -> ~ incomplete o x)) as Z.
  { intros g bs0 e y t Hu Hh Hwr Ey. destruct (Hu bs0 e Hwr) as ((m & Hm & _) & _). exact (not_at_fault s o Hsv U Ho Hw bs0 m x y t Hm Ey Hmax (Hh bs0 e Hwr)). }
  destruct S' as [|w0 g0 ws' gs' S0 S'].
  - cbn [concat app] in E'. destruct w as [|w1 w].
    + apply app_eq_nil in E' as [-> _]. now apply nothing_at_fault.
    + destruct last as [|g [|g' last]]; [discriminate| |destruct Hl]. destruct Hl as [Hl|(bs0 & e & body & Ew & Hg & _)]; [discriminate|]. rewrite Ew in E'. inversion U2; subst. inversion Hf2; subst. eapply (Z g bs0 e); eauto.
  - destruct S0 as (bs0 & e & body & -> & Hg & _). cbn [concat] in E'. rewrite <- !app_assoc in E'. inversion U1; subst. inversion Hf1; subst. eapply (Z g0 bs0 e); eauto.
Qed.
Print Assumptions C83_accepted.

(* ... and never gives up because of a head. *)
Theorem C83_no_failure : forall c h09 flat wmax evs ms s o room h09' flat' wmax' evs' ms' more p st,
  client_cfg c -> app_moves c ms -> c_server s = true -> parses_with s o -> hp_ok o -> waits_for_rest o -> reads_requests o room -> room <= 24576 -> reads_trailers s -> 0 < c_max s ->
  let l := history c h09 flat wmax evs ms in let l' := history s h09' flat' wmax' evs' ms' in
  Forall (acceptable s c o room l) (handed c h09 flat wmax evs ms) -> Forall (heads_fit s c l) (handed c h09 flat wmax evs ms) -> data_of evs' ++ more = taken l ->
  S_Refuse.reply_to p = Some st -> ~ In (LReturn (Some (CParse p))) l'.
Proof.
  intros c h09 flat wmax evs ms s o room h09' flat' wmax' evs' ms' more p st Hc Happ Hsv U Ho Hw Hr Hroom Htr Hmax l l' A Hf E Hp Hin. apply in_split in Hin as (a & b & El).
  destruct (P_Refuse.C67_answered s h09' flat' wmax' evs' ms' a p b st Hsv Hp El) as (h & bs & I & _).
  apply (C83_accepted c h09 flat wmax evs ms s o room h09' flat' wmax' evs' ms' more Hc Happ Hsv U Ho Hw Hr Hroom Htr Hmax A Hf E h bs). fold l'. rewrite El. apply in_or_app. now left.
Qed.
Print Assumptions C83_no_failure.

(* C80 without the assumption that the server refuses nothing *)
Theorem C83_conversation : forall c flat wmax evs ms o room s h09 flat' wmax' evs' ms' o' room' more more',
  c_server c = false -> parses_with c o -> hp_ok o -> reads_responses o room -> reads_trailers c -> app_moves c ms ->
  c_server s = true -> parses_with s o' -> hp_ok o' -> waits_for_rest o' -> reads_requests o' room' -> room' <= 24576 -> reads_trailers s -> 0 < c_max s -> value_chars (c_date s) -> L_Reply.service_moves s ms' ->
  let l := history c false flat wmax evs ms in let l' := history s h09 flat' wmax' evs' ms' in
  let qs := handed c false flat wmax evs ms in let gs := handed s h09 flat' wmax' evs' ms' in
  ~ head_failed l -> in_order s flat' l' -> no_failed_head l' ->
  Forall (acceptable s c o' room' l) qs -> Forall (heads_fit s c l) qs -> Forall (readable c s room l') gs ->
  data_of evs' ++ more' = taken l -> data_of evs ++ more = taken l' ->
  (forall n r, nth_error (received l) n = Some r -> Forall goes_on (firstn n (received l)) ->
     exists q m g, nth_error qs n = Some q /\ nth_error (requests l') n = Some m /\ asked_as c o' l q m /\ nth_error gs n = Some g /\ same_reply s l' n g r) /\
  (forall r, receiving l = Some r -> Forall goes_on (received l) -> let n := length (received l) in
     exists q m g, nth_error qs n = Some q /\ nth_error (requests l') n = Some m /\ asked_as c o' l q m /\ nth_error gs n = Some g /\ begun_reply s l' n g r).
Proof.
  intros c flat wmax evs ms o room s h09 flat' wmax' evs' ms' o' room' more more' Hc Uc Oc Rc Tc Ha Hs Us Os Ws Rs Hroom Ts Hmax Hd Hsm l l' qs gs Hnf Hord Hfail Hok Hfit Hrd Hin Hback.
  apply (C80_conversation c flat wmax evs ms o room s h09 flat' wmax' evs' ms' o' room' more more'); auto.
  intros e Hi. destruct e as [ | | | | | | |[|] h bs| | | | | | | | | | | ]; try exact Logic.I.
  all: try (exact (Hfail _ Hi)).
  exact (C83_accepted c false flat wmax evs ms s o' room' h09 flat' wmax' evs' ms' more' (parsing_client c o Hc Uc) Ha Hs Us Os Ws Rs Hroom Ts Hmax Hok Hfit Hin h bs Hi).
Qed.
Print Assumptions C83_conversation.

(* ---- Example ---- *)
Lemma ref_waits max fold : waits_for_rest (ref_hp max fold).
Proof.
  split; [reflexivity|]. intros x n q E. cbn [ref_hp h_request] in *. unfold ref_request in *. destruct (P_Read.find_end x) as [c|] eqn:Ef; [|discriminate].
  assert (n = c) as ->. { destruct (take_line _) as [(l & r)|]; [|discriminate]. destruct (split1 _) as [me r']. destruct (split1 r') as [path v]. destruct (is_v11 v); [destruct (parse_block r max)|]; try discriminate. now injection E as <- _. }
  split; [exact (proj2 (P_Read.find_end_blank x c Ef))|]. intros k Hk. destruct (P_Read.find_end (takeN k x)) as [c'|] eqn:Ek; [exfalso|reflexivity].
  destruct (find_end_own _ _ Ek) as (L & Z). rewrite takeN_len in L. destruct (find_end_own _ _ Ef) as (L' & _). specialize (Z (dropN c' x)).
  rewrite takeN_takeN in Z. replace (N.min c' k) with c' in Z by lia. rewrite takeN_dropN, Ef in Z. injection Z as ->. lia.
Qed.
(* With what is said in C80_ex, all of the hypotheses hold *)
Example C83_ex : waits_for_rest (ref_hp 100 true) /\ 0 < c_max (ref_cfg true) /\ Forall (heads_fit (ref_cfg true) (ref_cfg false) rt_log') rt_asked /\ no_failed_head rt_log /\
  data_of (open_with rt_wire) ++ [] = taken rt_log' /\ length rt_asked = 2%nat /\ length (requests rt_log) = 2%nat.
Proof.
  split; [apply ref_waits|]. split; [reflexivity|]. split; [|split; [|split; [|split]]; try (vm_compute; reflexivity)].
  - apply Forall_forall. intros g _ bs e (h' & me & ta & _ & _ & Hi & _).
    assert (forall x, In x rt_log' -> match x with LHead _ _ bs => lenN bs <= c_max (ref_cfg true) | _ => True end) as P; [|exact (P _ Hi)].
    apply Forall_forall. vm_compute. repeat (apply Forall_cons; [first [exact Logic.I|discriminate]|]). apply Forall_nil.
  - intros bs H. assert (forall x, In x rt_log -> match x with LHeadFail _ => False | _ => True end) as P; [|exact (P _ H)].
    apply Forall_forall. vm_compute. repeat (apply Forall_cons; [exact Logic.I|]). apply Forall_nil.
Qed.
(* The end of the head comes with more bytes of the body than the buffer should
   hold: accepted.  As many bytes without an empty line: refused. *)
Definition large_body : bytes := text_lines [B "PUT /a HTTP/1.1"; B "Content-Length: 9000"; []] ++ repeat 97 (90 * 100).
Definition auto_statuses (l : list levent) : list N := flat_map (fun e => match e with LHead true h _ => match o_subject h with OResponse st _ => [st] | _ => [] end | _ => [] end) l.
Definition starting_with (x : bytes) (n : N) : list levent := history (ref_cfg true) false true 8192 [EvData (takeN n x); EvPending; EvData (dropN n x)] (steps 40 (answer ok200)).
Example C83_too_large_ex : (auto_statuses (starting_with large_body 20) = [] /\ length (requests (starting_with large_body 20)) = 1%nat) /\ auto_statuses (starting_with (takeN 20 large_body ++ repeat 97 (90 * 100)) 20) = [431].
Proof. repeat split; vm_compute; reflexivity. Qed.
