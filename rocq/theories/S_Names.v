(* Spec vocabulary for C76: how the names of header lines are spelt. *)
From Verif Require Import Base M_HeaderMap M_Encode S_Framing.

(* The lines of the field called [n] (lower case), in order *)
Definition lines_of (n : bytes) (lines : list line) : list line := filter (fun l => beq (lower (fst l)) n) lines.
(* [ls] are the values [vs] of the field [n], each on its line: the i-th line is
   spelt as the i-th of [names], and when there are no more as [dflt]. *)
Definition spelt (names : list bytes) (dflt : bytes) (vs : list bytes) (ls : list line) : Prop :=
  length ls = length vs /\
  forall i v, nth_error vs i = Some v -> nth_error ls i = Some (match nth_error names i with Some o => o | None => dflt end, v).
(* The usual spelling *)
Definition usual (title : bool) (n : bytes) : bytes := if title then title_case n else n.
