(* Model of the header maps of the C interface: src/ffi/http_types.rs 66-70 and
   445-578, with OriginalHeaderOrder of src/ext/mod.rs 201-298, and of how a received
   head gets there (proto/h1/role.rs 1100-1157, ffi/http_types.rs 391-408).

   Pointers and lengths are byte strings; NULL arguments are left out.  An index (usize)
   is a natural number. *)
From Verif Require Import Base M_HeaderMap M_Headers M_Encode.

(* ext/mod.rs 204-214: how many entries a name has (the HashMap), and the order *)
Record horder := mkHO { ho_count : list (bytes * nat); ho_order : list (bytes * nat) }.
(* HashMap::get (external, used at ext/mod.rs 226 and 241) *)
Fixpoint hc_get (m : list (bytes * nat)) (n : bytes) : option nat :=
  match m with
  | [] => None
  | (k, c) :: r => if beq k n then Some c else hc_get r n
  end.
(* HashMap::insert and Entry (external, ext/mod.rs 228, 241-250) *)
Fixpoint hc_put (m : list (bytes * nat)) (n : bytes) (c : nat) : list (bytes * nat) :=
  match m with
  | [] => [(n, c)]
  | (k, c') :: r => if beq k n then (k, c) :: r else (k, c') :: hc_put r n c
  end.
(* ext/mod.rs 218-223, default *)
Definition ho_new : horder := mkHO [] [].
(* ext/mod.rs 225-234, insert *)
Definition ho_insert (h : horder) (n : bytes) : horder :=
  match hc_get (ho_count h) n with
  | None => mkHO (hc_put (ho_count h) n 1%nat) (ho_order h ++ [(n, 0%nat)])
  | Some _ => h
  end.
(* ext/mod.rs 236-253, append *)
Definition ho_append (h : horder) (n : bytes) : horder :=
  match hc_get (ho_count h) n with
  | Some i => mkHO (hc_put (ho_count h) n (S i)) (ho_order h ++ [(n, i)])
  | None => mkHO (hc_put (ho_count h) n 1%nat) (ho_order h ++ [(n, 0%nat)])
  end.

(* ffi/http_types.rs 66-70, hyper_headers; default: 549-557 *)
Record cheaders := mkCH { hh_map : hmap; hh_case : hmap; hh_order : horder }.
(* ffi/http_types.rs 549-557, default *)
Definition hh_new : cheaders := mkCH [] [] ho_new.

(* http::HeaderValue::from_bytes (external, ffi/http_types.rs 572): visible characters,
   blanks, tabs and bytes above 127 *)
Definition value_byte (b : N) : bool := (32 <=? b) && negb (b =? 127) || (b =? 9).
(* ffi/http_types.rs 559-578, raw_name_value.  None: HYPERE_INVALID_ARG. *)
Definition raw_name_value (name value : bytes) : option (bytes * bytes * bytes) :=
  match header_name name with
  | None => None
  | Some n => if forallb value_byte value then Some (n, value, name) else None
  end.
(* ffi/http_types.rs 515-526, hyper_headers_set, and the code: true is HYPERE_OK *)
Definition hh_set (h : cheaders) (name value : bytes) : cheaders * bool :=
  match raw_name_value name value with
  | Some (n, v, orig) => (mkCH (hm_insert (hh_map h) n v) (hm_insert (hh_case h) n orig) (ho_insert (hh_order h) n), true)
  | None => (h, false)
  end.
(* ffi/http_types.rs 534-546, hyper_headers_add *)
Definition hh_add (h : cheaders) (name value : bytes) : cheaders * bool :=
  match raw_name_value name value with
  | Some (n, v, orig) => (mkCH (hm_append (hh_map h) n v) (hm_append (hh_case h) n orig) (ho_append (hh_order h) n), true)
  | None => (h, false)
  end.

(* ffi/http_types.rs 460-484: with an order.  A missing value ends it (line 478). *)
Fixpoint visit_ordered (h : cheaders) (order : list (bytes * nat)) : list (bytes * bytes) :=
  match order with
  | [] => []
  | (n, i) :: r =>
      let name := match nth_error (hm_get_all (hh_case h) n) i with Some o => o | None => n end in
      match nth_error (hm_get_all (hh_map h) n) i with
      | Some v => (name, v) :: visit_ordered h r
      | None => []
      end
  end.
(* ffi/http_types.rs 485-507: without one; the spellings of a name go with its values
   as long as there are any *)
Fixpoint pair_up (n : bytes) (names vs : list bytes) : list (bytes * bytes) :=
  match vs with
  | [] => []
  | v :: r => (match names with o :: _ => o | [] => n end, v) :: pair_up n (match names with _ :: t => t | [] => [] end) r
  end.
(* ffi/http_types.rs 485-507 *)
Definition visit_grouped (h : cheaders) : list (bytes * bytes) :=
  flat_map (fun g => pair_up (fst g) (hm_get_all (hh_case h) (fst g)) (snd g)) (hh_map h).
(* the pairs that are there to be handed out (ffi/http_types.rs 459-507) *)
Definition hh_pairs (h : cheaders) : list (bytes * bytes) :=
  match ho_order (hh_order h) with
  | [] => visit_grouped h
  | order => visit_ordered h order
  end.
(* ffi/http_types.rs 452-508, hyper_headers_foreach: the calls of the callback.  [go]: the
   callback returns HYPER_ITER_CONTINUE after these calls. *)
Fixpoint hand_out (go : list (bytes * bytes) -> bool) (done l : list (bytes * bytes)) : list (bytes * bytes) :=
  match l with
  | [] => done
  | x :: r => if go (done ++ [x]) then hand_out go (done ++ [x]) r else done ++ [x]
  end.
(* ffi/http_types.rs 452-508, hyper_headers_foreach *)
Definition hh_foreach (go : list (bytes * bytes) -> bool) (h : cheaders) : list (bytes * bytes) := hand_out go [] (hh_pairs h).

(* One received line (proto/h1/role.rs 1119-1146): [pc], [po]: the options
   preserve_header_case and preserve_header_order.  Names and values are valid there. *)
Definition hh_line (pc po : bool) (h : cheaders) (l : bytes * bytes) : cheaders :=
  mkCH (hm_append (hh_map h) (lower (fst l)) (snd l)) (if pc then hm_append (hh_case h) (lower (fst l)) (fst l) else hh_case h)
    (if po then ho_append (hh_order h) (lower (fst l)) else hh_order h).
(* hyper_response::wrap of a received head (ffi/http_types.rs 391-408) *)
Definition hh_received (pc po : bool) (lines : list (bytes * bytes)) : cheaders := fold_left (hh_line pc po) lines hh_new.
