(* Model of the cached Date header: src/common/date.rs. *)
From Verif Require Import Base.

(* common/date.rs 11 *)
Definition DATE_VALUE_LENGTH : N := 29.
(* common/date.rs 36-42, CachedDate.  A SystemTime is the number of nanoseconds
   since the epoch; times before the epoch, for which HttpDate::from panics, are
   not modelled.  header_value is a copy of the bytes (lines 84-88). *)
Record cached := mkCD { cd_bytes : bytes; cd_pos : N; cd_next : N }.
(* common/date.rs 94-101, write_str; None: the slice operation panics *)
Definition cd_write_str (s : bytes) (c : cached) : option cached :=
  let e := cd_pos c + lenN s in
  if e <=? lenN (cd_bytes c)
  then Some (mkCD (takeN (cd_pos c) (cd_bytes c) ++ s ++ dropN e (cd_bytes c)) e (cd_next c)) else None.
(* common/date.rs 77-82, render: [fmt secs]: the pieces in which HttpDate (external)
   writes the date of second [secs] *)
Definition cd_render (fmt : N -> list bytes) (now : N) (c : cached) : option cached :=
  fold_left (fun o s => match o with Some c => cd_write_str s c | None => None end)
    (fmt (now / 1000000000)) (Some (mkCD (cd_bytes c) 0 (cd_next c))).
(* common/date.rs 67-75, update *)
Definition cd_update (fmt : N -> list bytes) (now : N) (c : cached) : option cached :=
  let nanos := now mod 1000000000 in
  match cd_render fmt now c with
  | Some c => Some (mkCD (cd_bytes c) (cd_pos c) (now + 1000000000 - nanos))
  | None => None
  end.
(* common/date.rs 47-56, new: [now]: the clock *)
Definition cd_new (fmt : N -> list bytes) (now : N) : option cached :=
  cd_update fmt now (mkCD (repeat 0 (N.to_nat DATE_VALUE_LENGTH)) 0 now).
(* common/date.rs 63-68, check *)
Definition cd_check (fmt : N -> list bytes) (now : N) (c : cached) : option cached :=
  if cd_next c <? now then cd_update fmt now c else Some c.
(* The calls of one thread: src/common/date.rs 13-34; each reading of the clock is
   a call of update() or update_and_header_value() *)
Fixpoint cd_run (fmt : N -> list bytes) (c : cached) (readings : list N) : option cached :=
  match readings with
  | [] => Some c
  | t :: r => match cd_check fmt t c with Some c' => cd_run fmt c' r | None => None end
  end.
