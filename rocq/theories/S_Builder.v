(* Spec vocabulary for C85: what a list of calls says about one setting. *)
From Verif Require Import Base M_Read M_Conn M_Builder.

(* [f c = Some x]: the call [c] asks for [x].  The last call that asks decides. *)
Definition asked_last {C A} (f : C -> option A) (cs : list C) (x : A) : Prop :=
  exists a c b, cs = a ++ c :: b /\ f c = Some x /\ Forall (fun c' => f c' = None) b.
Definition never_asked {C A} (f : C -> option A) (cs : list C) : Prop := Forall (fun c => f c = None) cs.
(* The setting [x] is the one asked for last, or the default [d] *)
Definition set_to {C A} (f : C -> option A) (d : A) (cs : list C) (x : A) : Prop :=
  asked_last f cs x \/ (never_asked f cs /\ x = d).

(* What each call asks for: HTTP/1 server *)
Definition s_half c := match c with SHalfClose b => Some b | _ => None end.
Definition s_keep c := match c with SKeepAlive b => Some b | _ => None end.
Definition s_title c := match c with STitleCase b => Some b | _ => None end.
Definition s_spaces c := match c with SMultipleSpaces b => Some b | _ => None end.
Definition s_ignore c := match c with SIgnoreInvalid b => Some b | _ => None end.
Definition s_case c := match c with SPreserveCase b => Some b | _ => None end.
Definition s_headers c := match c with SMaxHeaders n => Some (Some n) | _ => None end.
Definition s_wait c := match c with SReadTimeout d => Some (Some d) | _ => None end.
Definition s_writev c := match c with SWritev b => Some (Some b) | _ => None end.
Definition s_max c := match c with SMaxBuf n => Some n | _ => None end.
Definition s_date c := match c with SDateHeader b => Some b | _ => None end.
Definition s_flush c := match c with SPipelineFlush b => Some b | _ => None end.
Definition s_timer c := match c with STimer t => Some (TTimer t) | _ => None end.

(* HTTP/1 client *)
Definition c_h09 c := match c with CHttp09 b => Some b | _ => None end.
Definition c_after c := match c with CSpacesAfterName b => Some b | _ => None end.
Definition c_multi c := match c with CMultiline b => Some b | _ => None end.
Definition c_ignore c := match c with CIgnoreInvalid b => Some b | _ => None end.
Definition c_writev c := match c with CWritev b => Some (Some b) | _ => None end.
Definition c_titled c := match c with CTitleCase b => Some b | _ => None end.
Definition c_cased c := match c with CPreserveCase b => Some b | _ => None end.
Definition c_headers c := match c with CMaxHeaders n => Some (Some n) | _ => None end.
(* An exact size and a limit exclude each other *)
Definition c_size c := match c with CExactSize (Some n) => Some (Some (true, n)) | CExactSize None => Some None | CMaxBuf n => Some (Some (false, n)) | _ => None end.

(* HTTP/2: asking for windows of a certain size is asking for no adaptive
   window, and the other way round *)
Definition h_adapt c := match c with HAdaptive b => Some b | HStreamWindow (Some _) | HConnWindow (Some _) => Some false | _ => None end.
Definition h_streams c := match c with HStreamWindow (Some n) => Some n | HAdaptive true => Some 65535 | _ => None end.
Definition h_conns c := match c with HConnWindow (Some n) => Some n | HAdaptive true => Some 65535 | _ => None end.
Definition h_every c := match c with HInterval d => Some d | _ => None end.
Definition h_within c := match c with HTimeout d => Some d | _ => None end.
Definition h_idled c := match c with HIdle b => Some b | _ => None end.
Definition h_buffer c := match c with HSendBuf n => Some n | _ => None end.
Definition h_dated c := match c with HDate b => Some b | _ => None end.
Definition h_timed c := match c with HTimer t => Some (TTimer t) | _ => None end.
