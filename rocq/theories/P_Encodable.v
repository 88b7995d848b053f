(* C84, the exact condition: which heads Server::encode and Client::encode write. *)
From Verif Require Import Base M_HeaderMap M_Headers M_Encode M_Role M_RoleEncode S_Framing S_Head S_Writable L_Encodable.

Theorem C84_exact reason date m : hm_wf (m_headers m) ->
  ((exists out e, server_encode reason date m = (out, Ok e)) <-> encodable m).
Proof. apply encode_exact. Qed.
Print Assumptions C84_exact.

Theorem C84_exact_client m : (exists out e, client_encode m = Some (out, e)) <-> told_version (c_version m).
Proof.
  unfold client_encode, told_version. destruct (set_length _ _ _ _) as [hs e].
  destruct (c_version m); (split; [intros (out & e' & H); try discriminate H; auto|intros H; try (repeat destruct H as [H|H]; discriminate H); eauto]).
Qed.
Print Assumptions C84_exact_client.

(* A response whose two fields are in the order that is accepted, to an HTTP/1.0
   peer; the same in the other order; and the same to an HTTP/1.1 peer *)
Definition two_fields (v : version) (h : hmap) : smsg := mkSmsg v 200 (Some (B "GET")) (Some (Known 3)) h true false false None None.
Definition te_then_cl : hmap := [(B "transfer-encoding", [B "chunked"]); (B "content-length", [B "3"])].
Definition cl_then_te : hmap := [(B "content-length", [B "3"]); (B "transfer-encoding", [B "chunked"])].
Lemma two_wf : hm_wf te_then_cl /\ hm_wf cl_then_te.
Proof. split; split; repeat constructor; cbn; try discriminate; intros F; repeat destruct F as [F|F]; try discriminate F; exact F. Qed.
Example C84_exact_ex : encodable (two_fields HTTP10 te_then_cl) /\ ~ encodable (two_fields HTTP10 cl_then_te) /\ ~ encodable (two_fields HTTP11 te_then_cl).
Proof.
  split; [|split].
  - constructor; cbn [two_fields m_version m_status m_method m_body m_headers]; try discriminate; [now left|right; lia| |intros (F & _); now destruct F].
    intros _ F. unfold te_then_cl in F. apply precedes_next in F; [|discriminate]. apply (precedes_In (B "content-length") (B "transfer-encoding")) in F. destruct F as (_ & [F|F]); [discriminate F|exact F].
  - intros [_ _ _ F _ _ _]. apply F; [left; discriminate|]. exists [], [B "3"], [], [B "chunked"], []. reflexivity.
  - intros [_ _ _ _ F _ _]. apply F; [split; [discriminate|]; unfold body_forbidden; cbn [two_fields m_method m_status]; intros [G|[(G & _)|[G|[G|G]]]]; try discriminate G; lia|]. exists [], [B "chunked"], [], [B "3"], []. reflexivity.
Qed.
