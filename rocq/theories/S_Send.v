(* Spec vocabulary for sending bodies. *)
From Verif Require Import Base M_HeaderMap M_Encode.

(* The bytes the application's body stands for: its data frames in order, up
   to the frame at which it says it is over. *)
Fixpoint user_data (fs : list user_frame) : bytes :=
  match fs with
  | UData d eos :: r => d ++ (if eos then [] else user_data r)
  | _ => []
  end.

(* Only data frames, each of a length a usize can hold. *)
Definition is_data_frame (f : user_frame) : Prop :=
  match f with UData d _ => lenN d <= u64_max | _ => False end.
(* ... none of which announces the end of the body. *)
Definition is_mid_frame (f : user_frame) : Prop :=
  match f with UData d eos => lenN d <= u64_max /\ eos = false | _ => False end.

(* The fields that must never appear in a trailer section. *)
Definition forbidden_names : list bytes :=
  map B ["transfer-encoding"; "content-length"; "host"; "trailer"; "te"; "authorization"; "set-cookie";
    "content-encoding"; "content-type"; "content-range"; "cache-control"; "max-forwards"]%string.
Definition forbidden_in_trailers (n : bytes) : Prop := In n forbidden_names.

(* A well-formed field: a lower-case token as name, and a value of visible
   characters, spaces and tabs that does not begin or end with a blank. *)
Definition token_char (b : N) : bool :=
  ((48 <=? b) && (b <=? 57)) || ((97 <=? b) && (b <=? 122)) || existsb (N.eqb b) (B "!#$%&'*+-.^_`|~").
Definition blank (b : N) : Prop := b = 32 \/ b = 9.
Definition wf_name (n : bytes) : Prop := n <> [] /\ Forall (fun b => token_char b = true) n.
Definition wf_value (v : bytes) : Prop :=
  Forall (fun b => b = 9 \/ (32 <= b /\ b <> 127)) v /\
  (forall b r, v = b :: r -> ~ blank b) /\ (forall b r, v = r ++ [b] -> ~ blank b).
Definition wf_field (f : bytes * bytes) : Prop := wf_name (fst f) /\ wf_value (snd f).

(* The trailer fields of [t] the sender may write: announced and not forbidden. *)
Definition sendable (names : list bytes) (f : bytes * bytes) : Prop :=
  In (fst f) names /\ ~ forbidden_in_trailers (fst f).

(* ... computed, in the order of the map. *)
Definition sendable_fields (names : list bytes) (fields : list (bytes * bytes)) : list (bytes * bytes) :=
  filter (fun f => existsb (beq (fst f)) names && negb (existsb (beq (fst f)) forbidden_names)) fields.
