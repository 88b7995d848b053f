(* Spec vocabulary for the read side: where a head ends, what a head parser
   promises, which bytes a transport has delivered. *)
From Verif Require Import Base M_Src M_Read.

(* The end of a head: an empty line after a line. *)
Definition blank (t : bytes) : Prop := t = [LF; LF] \/ t = [LF; CR; LF].
Definition ends_blank (x : bytes) : Prop := exists pre t, blank t /\ x = pre ++ t.

(* What httparse promises about the heads it recognizes: what it consumes ends
   with an empty line, and it does not ask for more input when a head is already
   complete in what it was given. *)
Record head_parser {M E} (P : bytes -> presult M E) : Prop := {
  hp_done : forall x c m, P x = PDone c m -> c <= lenN x /\ ends_blank (takeN c x);
  hp_more : forall x c, P x = PMore c -> 0 < c -> c <= lenN x /\ ends_blank (takeN c x);
  hp_wait_done : forall x c d c' m, P x = PMore c -> P (dropN c x ++ d) = PDone c' m ->
                 lenN (dropN c x) < c';
  hp_wait_more : forall x c d c', P x = PMore c -> P (dropN c x ++ d) = PMore c' -> 0 < c' ->
                 lenN (dropN c x) < c'
}.

(* Calling a pending parse again until it finishes, at most n times. *)
Fixpoint drive {M E} (n : nat) (P : bytes -> presult M E) (max : N) (s : rstate) :
  rstate * poll (result M (perr E)) :=
  match io_parse P max s with
  | (s', Pending) => match n with O => (s', Pending) | S n => drive n P max s' end
  | x => x
  end.

(* The pieces a transport delivers, ignoring when it is not ready.  None: it
   fails at some point. *)
Fixpoint deliveries (l : list event) : option (list bytes) :=
  match l with
  | [] => Some []
  | EvPending :: r => deliveries r
  | EvData d :: r => option_map (cons d) (deliveries r)
  | EvErr :: _ => None
  end.

(* All bytes in the events of a transport. *)
Fixpoint data_of (l : list event) : bytes :=
  match l with
  | [] => []
  | EvData d :: r => d ++ data_of r
  | _ :: r => data_of r
  end.

(* Histories of the read side: what the connection does with its read buffer. *)
Inductive rop (M E : Type) :=
| RParse (P : bytes -> presult M E) (max : N)   (* parse a head *)
| RLead                                         (* skip empty lines before a head *)
| RMem (len : N)                                (* a body reader takes up to len bytes *)
| RRead.                                        (* read without consuming *)
Arguments RParse {M E} P max.
Arguments RLead {M E}.
Arguments RMem {M E} len.
Arguments RRead {M E}.

(* Bytes that left the buffer in one operation: those in front of what is left. *)
Definition r_step {M E} (s : rstate) (o : rop M E) : rstate :=
  match o with
  | RParse P max => fst (io_parse P max s)
  | RLead => consume_leading_lines s
  | RMem len => fst (r_read_mem s len)
  | RRead => fst (r_read_io s)
  end.

(* All bytes still to come: buffered, then from the transport. *)
Definition stream (s : rstate) : bytes := r_buf s ++ data_of (r_evs s).

(* [u] are the bytes that operation [o] took from the stream in state [s], and
   what became of them. *)
Definition takes {M E} (s : rstate) (o : rop M E) (u : bytes) : Prop :=
  match o with
  | RParse P max =>
      (* heads the parser consumed; the last one is the message returned; without
         a message only heads that the parser skips (1xx) *)
      match snd (io_parse P max s) with
      | Ready (Ok m) =>
          exists x c skipped, P x = PDone c m /\ u = skipped ++ takeN c x /\
                              x = takeN c x ++ r_buf (r_step s o)
      | _ => (forall x c, P x = PMore c -> c = 0) -> u = []
      end
  | RLead => Forall (fun b => b = CR \/ b = LF) u
  | RMem len =>
      match snd (r_read_mem s len) with
      | Ready (Ok d) => u = d
      | _ => u = []
      end
  | RRead => u = []
  end.
Fixpoint accounts {M E} (s : rstate) (ops : list (rop M E)) (used : bytes) : Prop :=
  match ops with
  | [] => used = []
  | o :: r => exists u v, used = u ++ v /\ takes s o u /\ accounts (r_step s o) r v
  end.

(* The parser consumes no more than it is given. *)
Definition in_bounds {M E} (P : bytes -> presult M E) : Prop :=
  forall x, match P x with PMore c | PDone c _ => c <= lenN x | PFail _ => True end.
Definition op_in_bounds {M E} (o : rop M E) : Prop :=
  match o with RParse P _ => in_bounds P | _ => True end.

(* ------------------------------------------------------------------ *)
(* Upgraded connections: a sequence of reads with the given buffer sizes;
   result: the bytes read, in order. *)
Fixpoint app_reads (caps : list N) (s : rewind) : rewind * bytes :=
  match caps with
  | [] => (s, [])
  | c :: r =>
      let (s1, o) := rw_read c s in
      let (s2, bs) := app_reads r s1 in
      (s2, match o with Ready (Ok d) => d | _ => [] end ++ bs)
  end.
Definition rw_stream (s : rewind) : bytes :=
  match rw_pre s with Some p => p | None => [] end ++ data_of (rw_evs s).

(* What should become of a head that arrives in these events, if the parser
   looked at the buffer after every delivery: a message and the bytes after it,
   refused for size, the stream ends first, the transport fails, or the parser
   refuses it. *)
Inductive outcome (M E : Type) :=
| HMessage (m : M) (rest : bytes) (left : list event)
| HTooLarge
| HIncomplete
| HIoError
| HRefused (e : E).
Arguments HMessage {M E} m rest left.
Arguments HTooLarge {M E}.
Arguments HIncomplete {M E}.
Arguments HIoError {M E}.
Arguments HRefused {M E} e.

Fixpoint head_outcome {M E} (P : bytes -> presult M E) (max : N) (b : bytes) (evs : list event) :
  outcome M E :=
  match (match b with [] => PMore 0 | _ => P b end) with
  | PFail e => HRefused e
  | PDone c m => HMessage m (dropN c b) evs
  | PMore c =>
      let b := dropN c b in
      if max <=? lenN b then HTooLarge
      else match evs with
           | [] => HIncomplete
           | EvPending :: r => head_outcome P max b r
           | EvErr :: r => HIoError
           | EvData d :: r => if lenN d =? 0 then HIncomplete else head_outcome P max (b ++ d) r
           end
  end.
Definition agrees {M E} (o : outcome M E) (x : rstate * poll (result M (perr E))) : Prop :=
  match o with
  | HMessage m rest evs => x = (mkR rest None evs, Ready (Ok m))
  | HTooLarge => snd x = Ready (Err ETooLarge)
  | HIncomplete => snd x = Ready (Err EIncomplete)
  | HIoError => snd x = Ready (Err EIo)
  | HRefused _ => True
  end.
