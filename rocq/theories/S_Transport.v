(* Spec vocabulary for transports: which bytes a transport delivers. *)
From Verif Require Import Base M_Src.

(* The bytes a source will deliver before EOF or an IO error: what is already
   buffered, followed by every data event, however the stream is cut up and
   wherever the transport is not ready. *)
Fixpoint flat_evs (l : list event) : bytes :=
  match l with
  | [] => []
  | EvPending :: r => flat_evs r
  | EvData d :: r => d ++ flat_evs r
  | EvErr :: _ => []
  end.
Definition flat (s : src) : bytes := rbuf s ++ flat_evs (evs s).

(* Does the stream end with an IO error (instead of EOF)? *)
Fixpoint evs_err (l : list event) : bool :=
  match l with
  | [] => false
  | EvErr :: _ => true
  | _ :: r => evs_err r
  end.
Definition has_err (s : src) : bool := evs_err (evs s).

(* A successful read of a live transport is not empty. *)
Definition wf_event (e : event) : Prop :=
  match e with EvData d => d <> [] | _ => True end.
Definition wf_src (s : src) : Prop := Forall wf_event (evs s).
