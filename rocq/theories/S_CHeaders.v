(* What a list of header lines is after sets and adds (for C74). *)
From Coq Require Export Permutation.
From Verif Require Import Base M_Httparse.

(* A line is a name as it was spelt, and a value *)
Notation hline := (list N * list N)%type (only parsing).
Definition same (k : bytes) (l : hline) : bool := beq (lower (fst l)) k.
(* Names are tokens of at most 65535 bytes; values have no control character but the tab *)
Definition good (l : hline) : bool :=
  negb (beq (fst l) []) && forallb is_tchar (fst l) && (lenN (fst l) <=? 65535) &&
  forallb (fun b => (b =? 9) || (31 <? b)) (snd l) && negb (existsb (N.eqb 127) (snd l)).
(* add puts a line at the end; set puts it where the first line of that name is and
   takes the others away, or at the end if there is none; a bad line changes nothing *)
Inductive hop := HSet (n v : bytes) | HAdd (n v : bytes).
Definition op_line (o : hop) : hline := match o with HSet n v | HAdd n v => (n, v) end.
Fixpoint put (x : hline) (l : list hline) : list hline :=
  match l with
  | [] => [x]
  | y :: r => if same (lower (fst x)) y then x :: filter (fun z => negb (same (lower (fst x)) z)) r else y :: put x r
  end.
Definition expect1 (l : list hline) (o : hop) : list hline :=
  if good (op_line o) then match o with HSet n v => put (n, v) l | HAdd n v => l ++ [(n, v)] end else l.
Definition expected (os : list hop) : list hline := fold_left expect1 os [].
(* No set meets a name that has several lines *)
Definition several (l : list hline) (o : hop) : bool :=
  match o with HSet n v => good (n, v) && (1 <? length (filter (same (lower n)) l))%nat | HAdd _ _ => false end.
Fixpoint tame (l : list hline) (os : list hop) : bool :=
  match os with
  | [] => true
  | o :: r => negb (several l o) && tame (expect1 l o) r
  end.
(* The same lines, those with one name in the same order *)
Definition regrouped (l l' : list hline) : Prop := Permutation l l' /\ forall k, filter (same k) l = filter (same k) l'.
(* A line on the wire *)
Definition wire_line (l : hline) : bytes := fst l ++ (match snd l with [] => B ":" ++ CRLF | v => B ": " ++ v ++ CRLF end).
(* A callback is called with the pairs one after the other, until it says that it has enough *)
Definition shown (go : list hline -> bool) (all calls : list hline) : Prop :=
  exists rest, all = calls ++ rest /\
    (forall a b, calls = a ++ b -> a <> [] -> b <> [] -> go a = true) /\
    (rest <> [] -> calls <> [] /\ go calls = false).
(* The spelling of a received name is kept with preserve_header_case only *)
Definition respelt (pc : bool) (x : hline) : hline := (if pc then fst x else lower (fst x), snd x).
