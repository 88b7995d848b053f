(* C78: the responses a server connection was given and the bytes it wrote. *)
From Verif Require Import Base M_Src M_Decode M_HeaderMap M_Headers M_Encode M_Role M_RoleEncode M_Buf M_WriteBuf M_Read M_Conn M_Dispatch S_Buf S_Conn S_Client S_Send S_Outbound S_Reply L_Conn L_Moves L_ConnC L_ConnS L_Exch L_Stream L_Outbound L_Reply P_Conn P_Stream P_Outbound.

(* What is queued is, piece by piece: the whole responses that were handed over,
   in order, the one with number n being written for the request with number n;
   interim responses; error responses of the connection itself; and then possibly
   the beginning of the last response, or what Server::encode left of a head that
   it refused.  A response that goes on to the end of the connection is the last
   of it all. *)
Theorem C78_sent : forall c h09 flat wmax evs ms, c_server c = true -> service_moves c ms ->
  let l := history c h09 flat wmax evs ms in
  exists ps w last, queued l = flat_map wire_of ps ++ w /\ pieces c l 0 ps (last = []) /\ handed c h09 flat wmax evs ms = replies ps ++ last /\
    match last with
    | [] => w = []
    | [g] => replying c l (length (replies ps)) w g \/ refused c l (length (replies ps)) w g
    | _ => False
    end.
Proof.
  intros c h09 flat wmax evs ms Hs Ha l. unfold handed, given.
  assert (RD c (start h09 flat wmax evs) []) as H0.
  { split; [apply SInv_start|]. split; [split; [discriminate|reflexivity]|]. apply (rk_done _ _ _ _ _ []); [reflexivity|reflexivity|exact Logic.I|reflexivity|discriminate]. }
  destruct (RD_run c ms Hs _ _ Ha H0) as (_ & _ & H).
  set (gs := fold_left give (told_in c ms (start h09 flat wmax evs)) []) in *.
  destruct H as [ps E P F L W|g gd ps m bs e body e' E1 E2 P F L Hh Hb' W G K T X|g gd ps w E1 E2 P F S W]; change (k_log _) with l in *.
  - exists ps, [], []. rewrite !app_nil_r, P. split; [exact E|]. split; [eapply pieces_weak; [|exact F]; auto|auto].
  - exists ps, (bs ++ body), [g]. rewrite E1, P, rev_length. split; [exact E2|]. split; [eapply pieces_weak; [|exact F]; contradiction|]. split; [reflexivity|]. left. exists m, bs, e, body. auto.
  - exists ps, w, [g]. rewrite E1, P, rev_length. split; [exact E2|]. split; [eapply pieces_weak; [|exact F]; contradiction|auto].
Qed.

(* Where the order of the stream is kept (C58), what the transport took is a
   beginning of that *)
Lemma service_good c ms : service_moves c ms -> good_moves c ms.
Proof. intros H. eapply Forall_impl; [|exact H]. intros [i|e]; [|auto]. now intros (_ & G & _). Qed.
Theorem C78_taken : forall c h09 flat wmax evs ms, c_server c = true -> service_moves c ms ->
  let l := history c h09 flat wmax evs ms in in_order c flat l ->
  exists ps w last more, taken l ++ more = flat_map wire_of ps ++ w /\ pieces c l 0 ps (last = []) /\ handed c h09 flat wmax evs ms = replies ps ++ last /\
    match last with
    | [] => w = []
    | [g] => replying c l (length (replies ps)) w g \/ refused c l (length (replies ps)) w g
    | _ => False
    end.
Proof.
  intros c h09 flat wmax evs ms Hs Ha l O. destruct (C58_stream_order c h09 flat wmax evs ms (service_good c ms Ha) O) as (Q & _). fold l in Q.
  destruct (C78_sent c h09 flat wmax evs ms Hs Ha) as (ps & w & last & E & R). exists ps, w, last. eexists. split; [|exact R]. fold l in E. rewrite <- E. exact Q.
Qed.

(* Never more responses than requests *)
Theorem C78_answers_requests : forall c h09 flat wmax evs ms, c_server c = true -> service_moves c ms ->
  let l := history c h09 flat wmax evs ms in
  (length (handed c h09 flat wmax evs ms) <= length (requests l))%nat.
Proof.
  intros c h09 flat wmax evs ms Hs Ha l. destruct (C78_sent c h09 flat wmax evs ms Hs Ha) as (ps & w & last & _ & P & -> & R). fold l in P, R.
  assert (forall n, (n <= length (requests l))%nat -> pieces c l n ps (last = []) -> (n + length (replies ps) <= length (requests l))%nat) as Q.
  { clear. generalize (last = []). intros A0. induction ps as [|[g w| |w] ps IH]; intros n Hn H; cbn [replies flat_map length app] in *.
    - lia.
    - destruct H as [(m & bs & e & body & _ & (h' & keep & A & _) & _) H]. assert (n < length (requests l))%nat as Hl by (apply nth_error_Some; congruence). specialize (IH (S n) Hl H). change (flat_map _ ps) with (replies ps). lia.
    - apply IH; auto.
    - apply IH; [exact Hn|]. apply H. }
  specialize (Q O (Nat.le_0_l _) P). cbn [Nat.add] in Q. rewrite app_length. destruct last as [|g [|]]; [cbn; lia| |contradiction].
  assert (exists m, nth_error (requests l) (length (replies ps)) = Some m) as (m & Hm).
  { destruct R as [(m & bs & e & body & _ & (h' & keep & A & _) & _)|(m & h' & keep & err & A & _)]; eauto. }
  assert (length (replies ps) < length (requests l))%nat by (apply nth_error_Some; congruence). cbn [length]. lia.
Qed.

(* ---- Example ---- *)
(* Two requests, the second with Expect: 100-continue, then bytes that are none;
   both are answered with a body of five bytes. *)
Definition ex_in : list event := open_with (line (B "GET / HTTP/1.1") ++ line (B "PUT / HTTP/1.1") ++ B "abc" ++ B "some bytes that are not a request").
Definition ex_ms : list move := steps 30 (say_hello BReady [WAccept 65536; WAccept 65536; WAccept 65536]).
Definition ex_reply : bytes := B "HTTP/1.1 200 OK" ++ CRLF ++ line (B "content-length: 5") ++ B "hello".
Example C78_ex : service_moves (ex_cfg true false None) ex_ms /\
  handed (ex_cfg true false None) false true 8192 ex_in ex_ms = repeat (mkG ok200 (Some (Known 5)) (B "hello") None true) 2 /\
  taken (history (ex_cfg true false None) false true 8192 ex_in ex_ms) =
    flat_map wire_of [PReply (mkG ok200 (Some (Known 5)) (B "hello") None true) ex_reply; PContinue;
      PReply (mkG ok200 (Some (Known 5)) (B "hello") None true) ex_reply;
      PRebuff (B "HTTP/1.1 400 OK" ++ CRLF ++ B "connection: close" ++ CRLF ++ line (B "content-length: 0"))].
Proof.
  split; [|split; vm_compute; reflexivity].
  apply Forall_forall. intros m Hm. apply repeat_spec in Hm. subst m. split; [exists 200, None; reflexivity|]. split; [apply good_hello|]. vm_compute. discriminate.
Qed.

Print Assumptions C78_sent.
Print Assumptions C78_taken.
Print Assumptions C78_answers_requests.
