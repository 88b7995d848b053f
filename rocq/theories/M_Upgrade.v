(* Model of the hand-over of a connection's transport: src/upgrade.rs (Pending,
   OnUpgrade and its future), Conn::on_upgrade of src/proto/h1/conn.rs, and the
   ends of the connection futures of src/server/conn/http1.rs and
   src/client/conn/http1.rs.
   tokio's oneshot channel (external) is taken by its contract: a value is kept
   until the receiver takes it; a receiver that finds nothing leaves its task's
   waker, in place of the one before; sending and dropping the sender wake the
   waker that is there; a receiver that took the value panics when it is polled
   again, one that found the sender dropped does not; a value for a receiver that is gone
   is dropped.  A panic while the mutex is held poisons it (std). *)
From Verif Require Import Base.

(* upgrade.rs 75 and 115: crate::Result<Upgraded> as it is sent, 263 and 272 *)
Inductive uval := VUpgraded | VManual.
(* upgrade.rs 227-246: what a poll of an OnUpgrade gives *)
Inductive upoll := UPending | UOk | UManualErr | UCanceled | UNoUpgrade | UPanic.
(* upgrade.rs 74-76 and 114-116: a channel with the Arc<Mutex<Receiver>>.
   [u_sent]: the sender has sent or is dropped; [u_val]: the value that waits;
   [u_waker]; [u_inner]: the receiver has not yet taken a value; [u_poison]: the mutex;
   [u_refs]: the clones of the OnUpgrade *)
Record uchan := mkU { u_sent : bool; u_val : option uval; u_waker : option N; u_inner : bool; u_poison : bool; u_refs : nat }.
(* upgrade.rs 122-130, pending *)
Definition u_new : uchan := mkU false None None true false 1.
(* upgrade.rs 227-246, OnUpgrade::poll with Some(rx); common/lock.rs 9-14 *)
Definition u_poll (w : N) (u : uchan) : uchan * upoll :=
  if u_poison u then (u, UPanic)
  else if negb (u_inner u) then (mkU (u_sent u) (u_val u) (u_waker u) false true (u_refs u), UPanic)
  else if u_sent u then
    match u_val u with
    | Some v => (mkU true None (u_waker u) false false (u_refs u), match v with VUpgraded => UOk | VManual => UManualErr end)
    | None => (u, UCanceled)
    end
  else (mkU false (u_val u) (Some w) true false (u_refs u), UPending).
(* upgrade.rs 261-273, fulfill and manual; None: the sender is dropped.  The waker
   that is woken *)
Definition u_send (v : option uval) (u : uchan) : uchan * option N :=
  match u_refs u with
  | O => (mkU true None None (u_inner u) (u_poison u) O, None)
  | _ => (mkU true v None (u_inner u) (u_poison u) (u_refs u), u_waker u)
  end.
(* upgrade.rs 73, derive(Clone) *)
Definition u_clone (u : uchan) : uchan := mkU (u_sent u) (u_val u) (u_waker u) (u_inner u) (u_poison u) (S (u_refs u)).
(* upgrade.rs 74-76: an OnUpgrade is dropped; with the last one the receiver goes *)
Definition u_drop (u : uchan) : uchan :=
  match u_refs u with
  | O | S O => mkU (u_sent u) None None (u_inner u) (u_poison u) O
  | S n => mkU (u_sent u) (u_val u) (u_waker u) (u_inner u) (u_poison u) n
  end.

(* upgrade.rs 74-76: an OnUpgrade that was dropped; that has no receiver; that has one *)
Inductive hold := HGone | HNone | HOn (n : nat).
(* Where the transport is: with the connection (upgrade.rs 261); in a channel; with the
   application, that got it from an OnUpgrade; dropped *)
Inductive place := PConn | PChan (n : nat) | PApp (h : nat) | PGone.
(* The channels in the order in which they were made, conn.rs 966 (State.upgrade), whether
   the connection is there, the OnUpgrades, what their polls gave (with the channel), and the wakers woken *)
Record uworld := mkX { x_chans : list uchan; x_tx : option nat; x_live : bool; x_holders : list hold; x_io : place;
                       x_seen : list (nat * option nat * upoll); x_woken : list N }.
(* conn.rs 56-100, State: no upgrade is prepared *)
Definition x_new : uworld := mkX [] None true [] PConn [] [].
(* What happens.  MAsk: a message that may become an upgrade is taken in (dispatch.rs
   322-330, conn.rs 904-907); MAbsent: upgrade::on for a message without one (upgrade.rs
   339-369); MClone, MDrop and MPoll of an OnUpgrade, MPoll by the task with that waker; MFulfil: the
   connection future ends with Dispatched::Upgrade (server/conn/http1.rs
   553-564, client/conn/http1.rs 652-660); MManual: the same without with_upgrades
   (server/conn/http1.rs 222-228, client/conn/http1.rs 328-335) or by
   poll_without_shutdown (dispatch.rs 112-121); MEnd: it ends otherwise, or is dropped. *)
Inductive umove := MAsk | MAbsent | MClone (h : nat) | MDrop (h : nat) | MPoll (h : nat) (w : N) | MFulfil | MManual | MEnd.
(* upgrade.rs 73-76: the n-th of the channels and holders changes *)
Definition upd {A : Type} (n : nat) (f : A -> A) (l : list A) : list A :=
  match nth_error l n with Some a => firstn n l ++ f a :: skipn (S n) l | None => l end.
(* conn.rs 966: a wake-up that may be *)
Definition woke (o : option N) : list N := match o with Some w => [w] | None => [] end.
(* conn.rs 966: the sender in State.upgrade is used or dropped *)
Definition x_send (v : option uval) (x : uworld) : uworld :=
  match x_tx x with
  | None => x
  | Some n =>
      match nth_error (x_chans x) n with
      | None => x
      | Some u =>
          let (u', o) := u_send v u in
          mkX (upd n (fun _ => u') (x_chans x)) None (x_live x) (x_holders x)
            (match v with
             | Some VUpgraded => match u_refs u with O => PGone | _ => PChan n end
             | _ => x_io x
             end) (x_seen x) (x_woken x ++ woke o)
      end
  end.
(* upgrade.rs 73-76: one more holder *)
Definition x_hold (h : hold) (x : uworld) : uworld :=
  mkX (x_chans x) (x_tx x) (x_live x) (x_holders x ++ [h]) (x_io x) (x_seen x) (x_woken x).
(* server/conn/http1.rs 548-571: the connection future is over *)
Definition x_over (x : uworld) : uworld :=
  mkX (x_chans x) (x_tx x) false (x_holders x) (x_io x) (x_seen x) (x_woken x).
(* conn.rs 904-907 and 1158-1162; upgrade.rs 122-130, 227-246, 261-273 *)
Definition ustep (x : uworld) (m : umove) : uworld :=
  match m with
  | MAsk => if x_live x then
              let n := length (x_chans x) in
              let x := x_send None x in
              mkX (x_chans x ++ [u_new]) (Some n) true (x_holders x ++ [HOn n]) (x_io x) (x_seen x) (x_woken x)
            else x
  | MAbsent => x_hold HNone x
  | MClone h => match nth_error (x_holders x) h with
                | Some (HOn n) => x_hold (HOn n) (mkX (upd n u_clone (x_chans x)) (x_tx x) (x_live x) (x_holders x) (x_io x) (x_seen x) (x_woken x))
                | Some HNone => x_hold HNone x
                | _ => x
                end
  | MDrop h => match nth_error (x_holders x) h with
               | Some (HOn n) =>
                   let u := nth n (x_chans x) u_new in
                   mkX (upd n u_drop (x_chans x)) (x_tx x) (x_live x) (upd h (fun _ => HGone) (x_holders x))
                     (match u_refs u, u_val u with S O, Some VUpgraded => PGone | _, _ => x_io x end) (x_seen x) (x_woken x)
               | Some HNone => mkX (x_chans x) (x_tx x) (x_live x) (upd h (fun _ => HGone) (x_holders x)) (x_io x) (x_seen x) (x_woken x)
               | _ => x
               end
  | MPoll h w => match nth_error (x_holders x) h with
                 | Some (HOn n) =>
                     let (u, r) := u_poll w (nth n (x_chans x) u_new) in
                     mkX (upd n (fun _ => u) (x_chans x)) (x_tx x) (x_live x) (x_holders x)
                       (match r with UOk => PApp h | _ => x_io x end) (x_seen x ++ [(h, Some n, r)]) (x_woken x)
                 | Some HNone => mkX (x_chans x) (x_tx x) (x_live x) (x_holders x) (x_io x) (x_seen x ++ [(h, None, UNoUpgrade)]) (x_woken x)
                 | _ => x
                 end
  | MFulfil => match x_tx x with Some _ => x_over (x_send (Some VUpgraded) x) | None => x end
  | MManual => match x_tx x with Some _ => x_over (x_send (Some VManual) x) | None => x end
  | MEnd => x_over (x_send None x)
  end.
(* Everything that can happen to one connection and its OnUpgrades (upgrade.rs 66-76) *)
Definition urun (ms : list umove) : uworld := fold_left ustep ms x_new.
