(* Spec vocabulary for C83: requests that a server has no reason to refuse. *)
From Verif Require Import Base M_HeaderMap M_Headers M_Encode M_Role M_RoleEncode M_Read M_Conn M_Parse S_Read S_Head.

(* What httparse promises about the bytes of a head: a head ends with an empty
   line, and a beginning of it is not yet a head and not an error. *)
Definition waits_for_rest (o : hparse) : Prop :=
  h_request o [] = HPartial /\
  forall x n q, h_request o x = HComplete n q -> ends_blank (takeN n x) /\ forall k, k < n -> h_request o (takeN k x) = HPartial.

(* No head can be taken off the front of these bytes *)
Definition incomplete (o : hparse) (x : bytes) : Prop := forall n q, h_request o x <> HComplete n q.

(* The connection made up no response by itself / has failed with no head *)
Definition no_refusal (l : list levent) : Prop := forall h bs, ~ In (LHead true h bs) l.
Definition no_failed_head (l : list levent) : Prop := forall bs, ~ In (LHeadFail bs) l.
