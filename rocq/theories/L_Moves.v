(* An induction principle for the dispatcher: an invariant kept by each of its
   actions is kept by every execution. *)
From Verif Require Import Base M_Src M_Decode M_HeaderMap M_Headers M_Encode M_Role M_RoleEncode M_Buf M_WriteBuf M_Read M_Conn M_Dispatch.

(* Events that the rules of an exchange do not care about *)
Definition neutral (e : levent) : bool :=
  match e with LSent _ | LBodyEnd | LBodyFail | LShutdown | LReturn _ => true | _ => false end.

(* The same without the bytes that the transport took and its end *)
Definition plain (e : levent) : bool := match e with LSent _ | LShutdown => false | _ => neutral e end.
(* What is logged when the transport has taken [sent] *)
Definition sent_ev (sent : bytes) : list levent := match sent with [] => [] | _ => [LSent sent] end.

(* [Inv] is kept by each of the dispatcher's actions, if [J] holds before it *)
Record stable (c : cfg) (good : inp -> Prop) (J Inv : disp -> Prop) : Prop := {
  sb_book : forall d tx rx p, J d -> Inv d ->
    Inv (mkD (d_conn d) tx rx (d_closing d) (d_in_flight d) (d_callback d) (d_rx_closed d) (d_chan d) p);
  sb_log : forall d e, plain e = true -> J d -> Inv d -> Inv (dlog d [e]);
  sb_misc : forall d, J d -> Inv d ->
    Inv (dset_conn d (fst (wants_read_again (d_conn d)))) /\
    Inv (dset_conn d (fst (pending_upgrade (d_conn d)))) /\
    Inv (dset_conn d (fst (take_error (d_conn d))));
  sb_fin : forall i d unread w evs sent r, good i -> J d -> Inv d ->
    wb_flush (c_pipeline c) unread (k_wb (d_conn d)) (i_wevs i) = (w, evs, sent, r) ->
    Inv (dset_conn d (log (set_wb (d_conn d) w) (sent_ev sent)));
  sb_shut : forall i d unread w evs sent d2, good i -> J d -> Inv d ->
    wb_flush (c_pipeline c) unread (k_wb (d_conn d)) (i_wevs i) = (w, evs, sent, Ready (Ok tt)) ->
    d2 = dset_conn d (log (set_wb (d_conn d) w) (sent_ev sent)) -> J d2 -> Inv d2 -> Inv (dlog d2 [LShutdown]);
  sb_close : forall d, J d -> Inv d -> d_closing d = false -> Inv (d_close d);
  sb_head : forall i d, J d -> Inv d -> d_closing d = false -> can_read_head c (d_conn d) = true ->
    d_poll_ready c i d = Ready (Ok tt) -> Inv (fst (d_poll_read_head c i d));
  sb_drain : forall i d, J d -> Inv d -> d_closing d = false -> can_read_body (d_conn d) = true ->
    Inv (dset_conn d (drain_or_close_read c (i_blk i) (d_conn d)));
  sb_body : forall i d, J d -> Inv d -> d_closing d = false -> can_read_body (d_conn d) = true ->
    Inv (dset_conn d (fst (k_poll_read_body c (i_blk i) (log (d_conn d) [LWant]))));
  sb_closeread : forall d, J d -> Inv d -> can_read_body (d_conn d) = true -> Inv (dset_conn d (close_read (d_conn d)));
  sb_keep : forall d, J d -> Inv d -> d_closing d = false -> can_read_head c (d_conn d) = false ->
    d_body_tx d = false ->
    Inv (dset_conn d (fst (k_poll_read_keep_alive c (d_conn d))));
  sb_flush : forall i d, J d -> Inv d -> Inv (dset_conn d (fst (k_poll_flush c (i_blk i) (i_wevs i) (d_conn d))));
  sb_msg : forall i d, good i -> J d -> Inv d -> d_closing d = false -> can_write_head c (d_conn d) = true -> should_poll c d = true ->
    match d_poll_msg c i d with
    | (d', Ready (Some (Ok (h, body)))) => Inv (dset_conn d' (write_head c false (d_conn d') h body))
    | (d', _) => Inv d'
    end;
  sb_end : forall i d, J d -> Inv d -> d_closing d = false -> Inv (dset_conn d (fst (k_end_body (i_room i) (d_conn d))));
  sb_wbody : forall i d b, good i -> i_frame i = Ready (Some (Ok (UData b))) -> (brem b =? 0)%N = false -> J d -> Inv d -> d_closing d = false -> can_buffer_body c (d_conn d) = true ->
    Inv (dset_conn d (k_write_body c (i_room i) (d_conn d) b));
  sb_wbodyend : forall i d b, good i -> i_frame i = Ready (Some (Ok (UData b))) -> (brem b =? 0)%N = false -> J d -> Inv d -> d_closing d = false -> can_buffer_body c (d_conn d) = true ->
    Inv (dset_conn d (k_write_body_and_end c (i_room i) (d_conn d) b));
  sb_wtrailers : forall i d t, good i -> i_frame i = Ready (Some (Ok (UTrailers t))) -> J d -> Inv d -> d_closing d = false -> can_buffer_body c (d_conn d) = true ->
    Inv (dset_conn d (k_write_trailers c (i_room i) (d_conn d) t));
  sb_recverr : forall d e, J d -> Inv d -> Inv (fst (recv_error c d e));
  sb_drop : forall d, J d -> Inv d -> Inv (d_drop d);
  sb_env : forall e d, J d -> Inv d -> Inv (estep c e d)
}.

(* From simpler conditions *)
Lemma stable_introJ (c : cfg) (good : inp -> Prop) (J Inv : disp -> Prop) :
  (forall d tx rx p, J d -> Inv d ->
    Inv (mkD (d_conn d) tx rx (d_closing d) (d_in_flight d) (d_callback d) (d_rx_closed d) (d_chan d) p)) ->
  (forall d e, neutral e = true -> J d -> Inv d -> Inv (dlog d [e])) ->
  (forall d, J d -> Inv d ->
    Inv (dset_conn d (fst (wants_read_again (d_conn d)))) /\
    Inv (dset_conn d (fst (pending_upgrade (d_conn d)))) /\
    Inv (dset_conn d (fst (take_error (d_conn d)))) /\
    forall w sent, Inv (dset_conn d (log (set_wb (d_conn d) w) (sent_ev sent)))) ->
  (forall d, J d -> Inv d -> d_closing d = false -> Inv (d_close d)) ->
  (forall i d, J d -> Inv d -> d_closing d = false -> can_read_head c (d_conn d) = true ->
    d_poll_ready c i d = Ready (Ok tt) -> Inv (fst (d_poll_read_head c i d))) ->
  (forall i d, J d -> Inv d -> d_closing d = false -> can_read_body (d_conn d) = true ->
    Inv (dset_conn d (drain_or_close_read c (i_blk i) (d_conn d)))) ->
  (forall i d, J d -> Inv d -> d_closing d = false -> can_read_body (d_conn d) = true ->
    Inv (dset_conn d (fst (k_poll_read_body c (i_blk i) (log (d_conn d) [LWant]))))) ->
  (forall d, J d -> Inv d -> can_read_body (d_conn d) = true -> Inv (dset_conn d (close_read (d_conn d)))) ->
  (forall d, J d -> Inv d -> d_closing d = false -> can_read_head c (d_conn d) = false ->
    d_body_tx d = false ->
    Inv (dset_conn d (fst (k_poll_read_keep_alive c (d_conn d))))) ->
  (forall i d, J d -> Inv d -> Inv (dset_conn d (fst (k_poll_flush c (i_blk i) (i_wevs i) (d_conn d))))) ->
  (forall i d, good i -> J d -> Inv d -> d_closing d = false -> can_write_head c (d_conn d) = true -> should_poll c d = true ->
    match d_poll_msg c i d with
    | (d', Ready (Some (Ok (h, body)))) => Inv (dset_conn d' (write_head c false (d_conn d') h body))
    | (d', _) => Inv d'
    end) ->
  (forall i d, J d -> Inv d -> d_closing d = false -> Inv (dset_conn d (fst (k_end_body (i_room i) (d_conn d))))) ->
  (forall i d b, J d -> Inv d -> d_closing d = false -> can_buffer_body c (d_conn d) = true ->
    Inv (dset_conn d (k_write_body c (i_room i) (d_conn d) b))) ->
  (forall i d b, J d -> Inv d -> d_closing d = false -> can_buffer_body c (d_conn d) = true ->
    Inv (dset_conn d (k_write_body_and_end c (i_room i) (d_conn d) b))) ->
  (forall i d t, J d -> Inv d -> d_closing d = false -> can_buffer_body c (d_conn d) = true ->
    Inv (dset_conn d (k_write_trailers c (i_room i) (d_conn d) t))) ->
  (forall d e, J d -> Inv d -> Inv (fst (recv_error c d e))) ->
  (forall d, J d -> Inv d -> Inv (d_drop d)) ->
  (forall e d, J d -> Inv d -> Inv (estep c e d)) ->
  stable c good J Inv.
Proof.
  intros Hbook Hlog Hmisc. intros. constructor; try assumption; intros; eauto.
  - apply Hlog; auto. destruct e; try discriminate; reflexivity.
  - destruct (Hmisc d) as (A & B' & C & D); auto.
  - destruct (Hmisc d) as (A & B' & C & D); auto.
Qed.



Lemma stable_intro (c : cfg) (good : inp -> Prop) (Inv : disp -> Prop) :
  (forall d tx rx p, Inv d ->
    Inv (mkD (d_conn d) tx rx (d_closing d) (d_in_flight d) (d_callback d) (d_rx_closed d) (d_chan d) p)) ->
  (forall d e, neutral e = true -> Inv d -> Inv (dlog d [e])) ->
  (forall d, Inv d ->
    Inv (dset_conn d (fst (wants_read_again (d_conn d)))) /\
    Inv (dset_conn d (fst (pending_upgrade (d_conn d)))) /\
    Inv (dset_conn d (fst (take_error (d_conn d)))) /\
    forall w, Inv (dset_conn d (set_wb (d_conn d) w))) ->
  (forall d, Inv d -> d_closing d = false -> Inv (d_close d)) ->
  (forall i d, Inv d -> d_closing d = false -> can_read_head c (d_conn d) = true ->
    d_poll_ready c i d = Ready (Ok tt) -> Inv (fst (d_poll_read_head c i d))) ->
  (forall i d, Inv d -> d_closing d = false -> can_read_body (d_conn d) = true ->
    Inv (dset_conn d (drain_or_close_read c (i_blk i) (d_conn d)))) ->
  (forall i d, Inv d -> d_closing d = false -> can_read_body (d_conn d) = true ->
    Inv (dset_conn d (fst (k_poll_read_body c (i_blk i) (log (d_conn d) [LWant]))))) ->
  (forall d, Inv d -> can_read_body (d_conn d) = true -> Inv (dset_conn d (close_read (d_conn d)))) ->
  (forall d, Inv d -> d_closing d = false -> can_read_head c (d_conn d) = false ->
    d_body_tx d = false ->
    Inv (dset_conn d (fst (k_poll_read_keep_alive c (d_conn d))))) ->
  (forall i d, Inv d -> Inv (dset_conn d (fst (k_poll_flush c (i_blk i) (i_wevs i) (d_conn d))))) ->
  (forall i d, good i -> Inv d -> d_closing d = false -> can_write_head c (d_conn d) = true -> should_poll c d = true ->
    match d_poll_msg c i d with
    | (d', Ready (Some (Ok (h, body)))) => Inv (dset_conn d' (write_head c false (d_conn d') h body))
    | (d', _) => Inv d'
    end) ->
  (forall i d, Inv d -> d_closing d = false -> Inv (dset_conn d (fst (k_end_body (i_room i) (d_conn d))))) ->
  (forall i d b, Inv d -> d_closing d = false -> can_buffer_body c (d_conn d) = true ->
    Inv (dset_conn d (k_write_body c (i_room i) (d_conn d) b))) ->
  (forall i d b, Inv d -> d_closing d = false -> can_buffer_body c (d_conn d) = true ->
    Inv (dset_conn d (k_write_body_and_end c (i_room i) (d_conn d) b))) ->
  (forall i d t, Inv d -> d_closing d = false -> can_buffer_body c (d_conn d) = true ->
    Inv (dset_conn d (k_write_trailers c (i_room i) (d_conn d) t))) ->
  (forall d e, Inv d -> Inv (fst (recv_error c d e))) ->
  (forall d, Inv d -> Inv (d_drop d)) ->
  (forall e d, Inv d -> Inv (estep c e d)) ->
  stable c good (fun _ => True) Inv.
Proof.
  intros Hbook Hlog Hmisc. intros. apply stable_introJ; intros; eauto.
  - destruct (Hmisc d) as (A & B' & C & D); auto. repeat split; auto. intros w sent. unfold sent_ev. destruct sent as [|s0 s].
    + assert (log (set_wb (d_conn d) w) [] = set_wb (d_conn d) w) as ->; [|apply D].
      unfold log. rewrite app_nil_r. reflexivity.
    + apply (Hlog (dset_conn d (set_wb (d_conn d) w)) (LSent (s0 :: s)) eq_refl). apply D.
  - match goal with H : forall i d, good i -> _, G : good _ |- _ => apply H; assumption end.
Qed.

Lemma stable_conj c good J Inv : stable c good (fun _ => True) J -> stable c good J Inv ->
  stable c good (fun _ => True) (fun d => J d /\ Inv d).
Proof.
  intros S1 S2. constructor.
  - intros d tx rx p _ [A B'] . split; [exact (sb_book _ _ _ _ S1 d tx rx p I A )|exact (sb_book _ _ _ _ S2 d tx rx p A B' )].
  - intros d e e0 _ [A B'] . split; [exact (sb_log _ _ _ _ S1 d e e0 I A )|exact (sb_log _ _ _ _ S2 d e e0 A B' )].
  - intros d _ [A B'] . destruct (sb_misc _ _ _ _ S1 d I A ) as (P1 & P2 & P3). destruct (sb_misc _ _ _ _ S2 d A B' ) as (Q1 & Q2 & Q3).
    repeat split; auto.
  - intros i d u w ev s r g _ [A B'] E. split; [exact (sb_fin _ _ _ _ S1 i d u w ev s r g I A E)|exact (sb_fin _ _ _ _ S2 i d u w ev s r g A B' E)].
  - intros i d u w ev s d2 g _ [A B'] E E2 _ [A2 B2]. split; [exact (sb_shut _ _ _ _ S1 i d u w ev s d2 g I A E E2 I A2)|exact (sb_shut _ _ _ _ S2 i d u w ev s d2 g A B' E E2 A2 B2)].
  - intros d _ [A B'] h0. split; [exact (sb_close _ _ _ _ S1 d I A h0)|exact (sb_close _ _ _ _ S2 d A B' h0)].
  - intros i d _ [A B'] h0 h1 h2. split; [exact (sb_head _ _ _ _ S1 i d I A h0 h1 h2)|exact (sb_head _ _ _ _ S2 i d A B' h0 h1 h2)].
  - intros i d _ [A B'] h0 h1. split; [exact (sb_drain _ _ _ _ S1 i d I A h0 h1)|exact (sb_drain _ _ _ _ S2 i d A B' h0 h1)].
  - intros i d _ [A B'] h0 h1. split; [exact (sb_body _ _ _ _ S1 i d I A h0 h1)|exact (sb_body _ _ _ _ S2 i d A B' h0 h1)].
  - intros d _ [A B'] h0. split; [exact (sb_closeread _ _ _ _ S1 d I A h0)|exact (sb_closeread _ _ _ _ S2 d A B' h0)].
  - intros d _ [A B'] h0 h1 h2. split; [exact (sb_keep _ _ _ _ S1 d I A h0 h1 h2)|exact (sb_keep _ _ _ _ S2 d A B' h0 h1 h2)].
  - intros i d _ [A B'] . split; [exact (sb_flush _ _ _ _ S1 i d I A )|exact (sb_flush _ _ _ _ S2 i d A B' )].
  - intros i d g _ [A B'] h0 h1 h2. pose proof (sb_msg _ _ _ _ S1 i d g I A h0 h1 h2) as Q1. pose proof (sb_msg _ _ _ _ S2 i d g A B' h0 h1 h2) as Q2.
    destruct (d_poll_msg c i d) as [d' [|[[[h body]|u]|]]]; split; assumption.
  - intros i d _ [A B'] h0. split; [exact (sb_end _ _ _ _ S1 i d I A h0)|exact (sb_end _ _ _ _ S2 i d A B' h0)].
  - intros i d b g f z _ [A B'] h0 h1. split; [exact (sb_wbody _ _ _ _ S1 i d b g f z I A h0 h1)|exact (sb_wbody _ _ _ _ S2 i d b g f z A B' h0 h1)].
  - intros i d b g f z _ [A B'] h0 h1. split; [exact (sb_wbodyend _ _ _ _ S1 i d b g f z I A h0 h1)|exact (sb_wbodyend _ _ _ _ S2 i d b g f z A B' h0 h1)].
  - intros i d t g f _ [A B'] h0 h1. split; [exact (sb_wtrailers _ _ _ _ S1 i d t g f I A h0 h1)|exact (sb_wtrailers _ _ _ _ S2 i d t g f A B' h0 h1)].
  - intros d e _ [A B'] . split; [exact (sb_recverr _ _ _ _ S1 d e I A )|exact (sb_recverr _ _ _ _ S2 d e A B' )].
  - intros d _ [A B'] . split; [exact (sb_drop _ _ _ _ S1 d I A )|exact (sb_drop _ _ _ _ S2 d A B' )].
  - intros e d _ [A B'] . split; [exact (sb_env _ _ _ _ S1 e d I A )|exact (sb_env _ _ _ _ S2 e d A B' )].
Qed.
Lemma stable_weaken c (good good' : inp -> Prop) J Inv : (forall i, good' i -> good i) -> stable c good J Inv -> stable c good' J Inv.
Proof.
  intros W S. destruct S as [? ? ? Hf Hsh ? ? ? ? ? ? ? Hm ? Hb He Ht ? ? ?]. constructor; try assumption; intros; eauto. apply Hm; auto.
Qed.

Section Moves.
  Variable c : cfg.
  Variable Inv : disp -> Prop.
  (* What is asked of the inputs *)
  Variable good : inp -> Prop.
  Hypothesis St : stable c good (fun _ => True) Inv.
  Let Hbook : forall d tx rx p, Inv d ->
    Inv (mkD (d_conn d) tx rx (d_closing d) (d_in_flight d) (d_callback d) (d_rx_closed d) (d_chan d) p)
    := fun d tx rx p => sb_book _ _ _ _ St d tx rx p I.
  Let Hlog : forall d e, plain e = true -> Inv d -> Inv (dlog d [e])
    := fun d e e0 => sb_log _ _ _ _ St d e e0 I.
  Let Hmisc : forall d, Inv d ->
    Inv (dset_conn d (fst (wants_read_again (d_conn d)))) /\
    Inv (dset_conn d (fst (pending_upgrade (d_conn d)))) /\
    Inv (dset_conn d (fst (take_error (d_conn d))))
    := fun d => sb_misc _ _ _ _ St d I.
  Let Hfin : forall i d unread w evs sent r, good i -> Inv d ->
    wb_flush (c_pipeline c) unread (k_wb (d_conn d)) (i_wevs i) = (w, evs, sent, r) ->
    Inv (dset_conn d (log (set_wb (d_conn d) w) (sent_ev sent)))
    := fun i d u w ev s r g => sb_fin _ _ _ _ St i d u w ev s r g I.
  Let Hshut : forall i d unread w evs sent d2, good i -> Inv d ->
    wb_flush (c_pipeline c) unread (k_wb (d_conn d)) (i_wevs i) = (w, evs, sent, Ready (Ok tt)) ->
    d2 = dset_conn d (log (set_wb (d_conn d) w) (sent_ev sent)) -> Inv d2 -> Inv (dlog d2 [LShutdown])
    := fun i d u w ev s d2 g H E E2 => sb_shut _ _ _ _ St i d u w ev s d2 g I H E E2 I.
  Let Hclose : forall d, Inv d -> d_closing d = false -> Inv (d_close d)
    := fun d => sb_close _ _ _ _ St d I.
  Let Hhead : forall i d, Inv d -> d_closing d = false -> can_read_head c (d_conn d) = true ->
    d_poll_ready c i d = Ready (Ok tt) -> Inv (fst (d_poll_read_head c i d))
    := fun i d => sb_head _ _ _ _ St i d I.
  Let Hdrain : forall i d, Inv d -> d_closing d = false -> can_read_body (d_conn d) = true ->
    Inv (dset_conn d (drain_or_close_read c (i_blk i) (d_conn d)))
    := fun i d => sb_drain _ _ _ _ St i d I.
  Let Hbody : forall i d, Inv d -> d_closing d = false -> can_read_body (d_conn d) = true ->
    Inv (dset_conn d (fst (k_poll_read_body c (i_blk i) (log (d_conn d) [LWant]))))
    := fun i d => sb_body _ _ _ _ St i d I.
  Let Hcloseread : forall d, Inv d -> can_read_body (d_conn d) = true -> Inv (dset_conn d (close_read (d_conn d)))
    := fun d => sb_closeread _ _ _ _ St d I.
  Let Hkeep : forall d, Inv d -> d_closing d = false -> can_read_head c (d_conn d) = false ->
    d_body_tx d = false ->
    Inv (dset_conn d (fst (k_poll_read_keep_alive c (d_conn d))))
    := fun d => sb_keep _ _ _ _ St d I.
  Let Hflush : forall i d, Inv d -> Inv (dset_conn d (fst (k_poll_flush c (i_blk i) (i_wevs i) (d_conn d))))
    := fun i d => sb_flush _ _ _ _ St i d I.
  Let Hmsg : forall i d, good i -> Inv d -> d_closing d = false -> can_write_head c (d_conn d) = true -> should_poll c d = true ->
    match d_poll_msg c i d with
    | (d', Ready (Some (Ok (h, body)))) => Inv (dset_conn d' (write_head c false (d_conn d') h body))
    | (d', _) => Inv d'
    end
    := fun i d g => sb_msg _ _ _ _ St i d g I.
  Let Hend : forall i d, Inv d -> d_closing d = false -> Inv (dset_conn d (fst (k_end_body (i_room i) (d_conn d))))
    := fun i d => sb_end _ _ _ _ St i d I.
  Let Hwbody : forall i d b, good i -> i_frame i = Ready (Some (Ok (UData b))) -> (brem b =? 0)%N = false -> Inv d -> d_closing d = false -> can_buffer_body c (d_conn d) = true ->
    Inv (dset_conn d (k_write_body c (i_room i) (d_conn d) b))
    := fun i d b g f z => sb_wbody _ _ _ _ St i d b g f z I.
  Let Hwbodyend : forall i d b, good i -> i_frame i = Ready (Some (Ok (UData b))) -> (brem b =? 0)%N = false -> Inv d -> d_closing d = false -> can_buffer_body c (d_conn d) = true ->
    Inv (dset_conn d (k_write_body_and_end c (i_room i) (d_conn d) b))
    := fun i d b g f z => sb_wbodyend _ _ _ _ St i d b g f z I.
  Let Hwtrailers : forall i d t, good i -> i_frame i = Ready (Some (Ok (UTrailers t))) -> Inv d -> d_closing d = false -> can_buffer_body c (d_conn d) = true ->
    Inv (dset_conn d (k_write_trailers c (i_room i) (d_conn d) t))
    := fun i d t g f => sb_wtrailers _ _ _ _ St i d t g f I.
  Let Hrecverr : forall d e, Inv d -> Inv (fst (recv_error c d e))
    := fun d e => sb_recverr _ _ _ _ St d e I.
  Let Hdrop : forall d, Inv d -> Inv (d_drop d)
    := fun d => sb_drop _ _ _ _ St d I.
  Let Henv : forall e d, Inv d -> Inv (estep c e d)
    := fun e d => sb_env _ _ _ _ St e d I.

  Lemma Inv_pc d p : Inv d -> Inv (dset_pc d p).
  Proof. intros H. apply (Hbook d (d_body_tx d) (d_body_rx d) p H). Qed.
  Lemma Inv_tx d b : Inv d -> Inv (dset_body_tx d b).
  Proof. intros H. apply (Hbook d b (d_body_rx d) (d_pc d) H). Qed.
  Lemma Inv_rx d b : Inv d -> Inv (dset_body_rx d b).
  Proof. intros H. apply (Hbook d (d_body_tx d) b (d_pc d) H). Qed.

  Lemma Inv_head i d : Inv d -> d_closing d = false -> can_read_head c (d_conn d) = true -> Inv (fst (d_poll_read_head c i d)).
  Proof.
    intros H Hc Hr. destruct (d_poll_ready c i d) as [|[[]|[]]] eqn:E.
    - unfold d_poll_read_head. rewrite E. exact H.
    - now apply Hhead.
    - unfold d_poll_read_head. rewrite E. cbn [fst]. now apply Hclose.
  Qed.

  Lemma Inv_read i d : Inv d -> Inv (fst (poll_read_it c i d)).
  Proof.
    intros H. unfold poll_read_it. destruct (d_closing d) eqn:Hc; [exact H|].
    destruct (can_read_head c (d_conn d)) eqn:Hr; [now apply Inv_head|].
    destruct (d_body_tx d) eqn:Htx.
    - destruct (can_read_body (d_conn d)) eqn:Hb.
      + destruct (i_body i).
        * pose proof (Hbody i d H Hc Hb) as H1.
          destruct (k_poll_read_body c (i_blk i) (log (d_conn d) [LWant])) as [k r]. cbn [fst] in H1.
          destruct r as [|[[f|e]|]]; cbn [fst].
          -- exact H1.
          -- destruct (i_send i); [exact H1|]. cbn [fst].
             destruct (can_read_body (d_conn (dset_body_tx (dset_conn d k) false))) eqn:Hb2.
             ++ apply Hcloseread; [apply Inv_tx, H1|exact Hb2].
             ++ apply Inv_tx, H1.
          -- apply Hlog; [reflexivity|apply Inv_tx, H1].
          -- apply Hlog; [reflexivity|apply Inv_tx, H1].
        * exact H.
        * cbn [fst]. apply (Hdrain i (dset_body_tx d false)); [apply Inv_tx, H|exact Hc|exact Hb].
      + cbn [fst]. apply Hlog; [reflexivity|apply Inv_tx, H].
    - pose proof (Hkeep d H Hc Hr Htx) as H1. destruct (k_poll_read_keep_alive c (d_conn d)) as [k r]. exact H1.
  Qed.

  Lemma Inv_flush i d : Inv d -> Inv (fst (d_flush c i d)).
  Proof.
    intros H. unfold d_flush. pose proof (Hflush i d H) as H1. destruct (k_poll_flush c (i_blk i) (i_wevs i) (d_conn d)). exact H1.
  Qed.

  Lemma Inv_end i d : Inv d -> d_closing d = false -> Inv (fst (end_body_it c i d)).
  Proof.
    intros H Hc. unfold end_body_it. pose proof (Hend i d H Hc) as H1. destruct (k_end_body (i_room i) (d_conn d)) as [k [u|e]]; exact H1.
  Qed.

  Lemma Inv_write i d : good i -> Inv d -> Inv (fst (poll_write_it c i d)).
  Proof.
    intros Hg H. unfold poll_write_it. destruct (d_closing d) eqn:Hc; [exact H|].
    destruct (negb (d_body_rx d) && can_write_head c (d_conn d) && should_poll c d) eqn:Hw.
    - apply andb_prop in Hw. destruct Hw as [Hw Hs]. apply andb_prop in Hw. destruct Hw as [_ Hw].
      pose proof (Hmsg i d Hg H Hc Hw Hs) as H1.
      assert (d_closing (fst (d_poll_msg c i d)) = false) as Hc1.
      { unfold d_poll_msg. destruct (c_server c).
        - destruct (i_msg i) as [|[m|u]]; exact Hc.
        - destruct (ch_poll_recv (i_race i) (d_chan d)) as [ch [|[id|]]]; [exact Hc| |exact Hc]. destruct (i_canceled i); exact Hc. }
      destruct (d_poll_msg c i d) as [d' [|[[[h body]|u]|]]]; cbn [fst] in Hc1 |- *.
      + exact H1.
      + apply (Hbook _ (d_body_tx d') (match body with None => false | _ => true end) (d_pc d') H1).
      + exact H1.
      + now apply Hclose.
    - destruct (can_buffer_body c (d_conn d)) eqn:Hcb; cbn [negb].
      + destruct (d_body_rx d) eqn:Hrx.
        * destruct (k_can_write_body (d_conn d)); cbn [negb]; [|cbn [fst]; apply Inv_rx, H].
          destruct (i_frame i) as [|[[f|u]|]] eqn:Ef.
          -- exact H.
          -- destruct f as [b|t|].
             ++ destruct (i_eos i).
                ** destruct (brem b =? 0) eqn:Eb; [apply Inv_end; [apply Inv_rx, H|exact Hc]|].
                   cbn [fst]. apply (Hwbodyend i (dset_body_rx d false) b); [exact Hg|exact Ef|exact Eb|apply Inv_rx, H|exact Hc|exact Hcb].
                ** destruct (brem b =? 0) eqn:Eb; [exact H|]. cbn [fst]. now apply Hwbody.
             ++ cbn [fst]. apply (Hwtrailers i (dset_body_rx d false) t); [exact Hg|exact Ef|apply Inv_rx, H|exact Hc|exact Hcb].
             ++ exact H.
          -- cbn [fst]. apply Inv_rx, H.
          -- apply Inv_end; [apply Inv_rx, H|exact Hc].
        * destruct (k_can_write_body (d_conn d)); [now apply Inv_end|exact H].
      + pose proof (Inv_flush i d H) as H1. destruct (d_flush c i d) as [d' [|[u|e]]]; exact H1.
  Qed.

  Lemma Inv_complete d r : Inv d -> Inv (d_complete d r).
  Proof. intros H. apply Hdrop, Hlog; [reflexivity|exact H]. Qed.
  Lemma Inv_fail d e : Inv d -> Inv (d_fail c d e).
  Proof.
    intros H. unfold d_fail.
    assert (Inv (if d_body_tx d then dlog (dset_body_tx d false) [LBodyFail] else d)) as H1.
    { destruct (d_body_tx d); [apply Hlog; [reflexivity|apply Inv_tx, H]|exact H]. }
    pose proof (Hrecverr _ e H1) as H2.
    destruct (recv_error c _ e) as [d' b]. cbn [fst] in H2. now apply Inv_complete.
  Qed.

  Lemma Inv_dstep i d : good i -> Inv d -> Inv (dstep c i d).
  Proof.
    intros Hg H. unfold dstep. destruct (d_pc d).
    - now apply Inv_pc.
    - pose proof (Inv_read i d H) as H1. destruct (poll_read_it c i d) as [d' [|[|[u|e]]]]; cbn [fst] in H1;
        [exact H1|now apply Inv_pc|now apply Inv_pc|now apply Inv_fail].
    - pose proof (Inv_write i d Hg H) as H1. destruct (poll_write_it c i d) as [d' [|[|[u|e]]]]; cbn [fst] in H1;
        [exact H1|now apply Inv_pc|now apply Inv_pc|now apply Inv_fail].
    - pose proof (Inv_flush i d H) as H1. destruct (d_flush c i d) as [d' [|[u|e]]]; cbn [fst] in H1.
      + pose proof (proj1 (Hmisc d' H1)) as H2. destruct (wants_read_again (d_conn d')) as [k ra]. cbn [fst] in H2. apply Inv_pc, H2.
      + pose proof (proj1 (Hmisc d' H1)) as H2. destruct (wants_read_again (d_conn d')) as [k ra]. cbn [fst] in H2. apply Inv_pc, H2.
      + now apply Inv_fail.
    - pose proof (Inv_write i d Hg H) as H1. destruct (poll_write_it c i d) as [d' [|[|[u|e]]]]; cbn [fst] in H1;
        [exact H1|now apply Inv_pc|now apply Inv_pc|now apply Inv_fail].
    - pose proof (Inv_flush i d H) as H1. destruct (d_flush c i d) as [d' [|[u|e]]]; cbn [fst] in H1;
        [now apply Inv_pc|now apply Inv_pc|now apply Inv_fail].
    - destruct (d_is_done c d); [|now apply Inv_pc].
      pose proof (proj1 (proj2 (Hmisc d H))) as H1. destruct (pending_upgrade (d_conn d)) as [k up]. cbn [fst] in H1.
      destruct up.
      + pose proof (proj2 (proj2 (Hmisc _ H1))) as H2. destruct (take_error (d_conn (dset_conn d k))) as [k' [u|e]]; cbn [fst] in H2;
          [now apply Inv_complete|now apply Inv_fail].
      + destruct (wb_flush _ _ _ _) as [[[w evs'] sent] r] eqn:Ew.
        pose proof (Hfin i (dset_conn d k) _ w evs' sent r Hg H1 Ew) as H2. unfold sent_ev in H2.
        remember (dset_conn (dset_conn d k) _) as d2 eqn:E2.
        destruct r as [|[u|e]]; [now apply Inv_pc| |now apply Inv_fail].
        destruct (i_shutdown i) as [|[u'|e']]; [now apply Inv_pc| |now apply Inv_fail].
        assert (Inv (dlog d2 [LShutdown])) as H3 by (destruct u; exact (Hshut i (dset_conn d k) _ w evs' sent d2 Hg H1 Ew E2 H2)).
        clear E2.
        pose proof (proj2 (proj2 (Hmisc _ H3))) as H4. destruct (take_error (d_conn (dlog d2 [LShutdown]))) as [k' [u2|e2]]; cbn [fst] in H4;
          [now apply Inv_complete|now apply Inv_fail].
    - exact H.
  Qed.

  Lemma Inv_run_good : forall ms d, Forall (fun m => match m with Step i => good i | Env _ => True end) ms ->
    Inv d -> Inv (run c ms d).
  Proof.
    induction ms as [|m ms IH]; intros d Hf H; [exact H|]. inversion Hf as [|m' ms' Hm Hms]; subst. cbn. apply IH; [exact Hms|].
    destruct m; [now apply Inv_dstep|now apply Henv].
  Qed.
  Hypothesis Hgood : forall i, good i.
  Lemma Inv_run : forall ms d, Inv d -> Inv (run c ms d).
  Proof.
    intros ms d. apply Inv_run_good. apply Forall_forall. intros [i|e] _; [apply Hgood|exact I].
  Qed.
End Moves.
