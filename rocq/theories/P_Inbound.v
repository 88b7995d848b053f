(* C65: the messages that a connection hands out are the messages that the bytes
   stand for - however the bytes were cut, whatever the application did. *)
From Verif Require Import Base M_Src M_Decode S_Buf L_Buf S_Transport S_Chunked S_Read L_Decode L_Chunked L_Body L_Read M_HeaderMap M_Headers M_Encode M_Role M_RoleEncode M_Buf M_WriteBuf M_Read M_Conn M_Dispatch S_Conn S_Inbound S_Head L_Conn L_Moves L_ConnS L_Exch L_BodyTx L_View L_Upgrade L_Inbound P_Conn P_Requests P_View P_Upgrade.

(* ---- Every execution ---- *)
Lemma RD_all (L : list levent -> Prop) (J : disp -> Prop) c h09 flat wmax evs ms :
  (forall l l', forallb outer l' = true -> L l -> L (l ++ l')) -> parser_bounded c ->
  stable c (fun _ => True) (fun _ => True) J -> J (start h09 flat wmax evs) ->
  (forall d, J d -> k_reading (d_conn d) = RInit -> L (k_log (d_conn d))) ->
  RD L c (data_of evs) (after c h09 flat wmax evs ms).
Proof.
  intros Lm Hb HJ J0 HL. enough (J (after c h09 flat wmax evs ms) /\ RD L c (data_of evs) (after c h09 flat wmax evs ms)) as (_ & H) by exact H.
  apply (Inv_run _ _ _ (stable_conj _ _ _ _ HJ (RD_stable L Lm c (data_of evs) J Hb HL))); [intros; exact Logic.I|].
  split; [exact J0|]. exists [], (data_of evs). split; [reflexivity|]. split; [constructor|]. cbn. exists []. split; [constructor|reflexivity].
Qed.
Lemma true_stable c : stable c (fun _ => True) (fun _ => True) (fun _ => True).
Proof. apply stable_intro; intros; repeat split; try exact Logic.I. destruct (d_poll_msg c i d) as [d' [|[[[h body]|u]|]]]; exact Logic.I. Qed.
Lemma begun c len part data d : bstate c len part data d -> body_begun c len part data.
Proof.
  destruct d as [r|cd|e]; cbn [bstate]; unfold body_begun.
  - intros (Hc & -> & Hl). apply N.eqb_neq in Hc. rewrite Hc. split; [reflexivity|]. right. lia.
  - intros (-> & _ & _ & Hr). rewrite N.eqb_refl. intros rest b rest' E Hv Hw. specialize (Hr rest). rewrite E, run_complete in Hr by assumption.
    exists (fst (L_Decode.run cd rest)). apply (f_equal fst) in Hr. exact Hr.
  - intros (-> & -> & ->). change (DL_CLOSE_DELIMITED =? DL_CHUNKED) with false. cbn iota. auto.
Qed.

(* What came in is: the bytes of the complete messages, in order, each standing
   for exactly the message that was handed out; then the beginning of the message
   that is being read; then what is still to be read. *)
Theorem C65_received : forall c h09 flat wmax evs ms, parser_bounded c -> let l := history c h09 flat wmax evs ms in
  exists wires rest, data_of evs = concat wires ++ rest /\ Forall2 (message_wire c) wires (received l) /\
    match receiving l with
    | None => True
    | Some g => exists sk head part more, rest = sk ++ head ++ part ++ more /\ skipped c sk /\ head_wire c head (msg_head g) /\
        msg_trailers g = None /\ body_begun c (in_decode (msg_head g)) part (msg_data g)
    end.
Proof.
  intros c h09 flat wmax evs ms Hb l. destruct (RD_all (fun _ => True) (fun _ => True) c h09 flat wmax evs ms (fun _ _ _ H => H) Hb (true_stable c) Logic.I (fun _ _ _ => Logic.I)) as (wires & tail & E1 & E2 & E3).
  exists wires, tail. split; [exact E1|]. split; [exact E2|]. change (k_log _) with l in E3. destruct (receiving l) as [g|]; [|exact Logic.I]. cbn [inpos] in E3.
  destruct E3 as (sk & head & part & u & d & T & A1 & A2 & A3 & A4 & _). exists sk, head, part, (u ++ stream (k_rd (d_conn (after c h09 flat wmax evs ms)))). do 4 (split; [assumption|]). eapply begun, A4.
Qed.

(* ---- The bytes determine the messages ---- *)
(* Two servers that read alike: the same parser (which does not look at anything
   but the bytes), the same decoder for trailers, the same limit on them. *)
Definition read_alike (c c' : cfg) : Prop :=
  (forall me h09 me' h09' x, c_parse c me h09 x = c_parse c' me' h09' x) /\
  (forall b n, c_dt c b n = c_dt c' b n) /\ c_max_headers c = c_max_headers c'.
(* The parser of a server: takes nothing without a message, and no request runs
   to the end of the connection. *)
Definition request_parser (c : cfg) : Prop :=
  own_bytes c /\ (forall me h09 x n, c_parse c me h09 x = PMore n -> n = 0) /\
  (forall me h09 x n m, c_parse c me h09 x = PDone n m -> in_decode m <> DL_CLOSE_DELIMITED).
Lemma request_bounded c : request_parser c -> parser_bounded c.
Proof.
  intros (H1 & H2 & _) me h09 x. destruct (c_parse c me h09 x) as [n|n m|e] eqn:E; [rewrite (H2 _ _ _ _ E); apply N.le_0_l| |exact Logic.I]. apply (H1 _ _ _ _ _ E).
Qed.
Lemma never_skipped c sk : request_parser c -> skipped c sk -> sk = [].
Proof.
  intros (_ & H & _) Hk. induction Hk as [|me h9 x n a Ha IH E L]; [reflexivity|]. rewrite (H _ _ _ _ E), IH. apply takeN_0.
Qed.
Lemma head_whole c head m : own_bytes c -> head_wire c head m -> exists me h09, forall z, c_parse c me h09 (head ++ z) = PDone (lenN head) m.
Proof.
  intros H (me & h9 & z & E). exists me, h9. intros z'. destruct (H _ _ _ _ _ E) as (_ & Q). rewrite takeN_app_le, takeN_all in Q by lia. apply Q.
Qed.
Lemma head_unique c c' h m h' m' r r' : own_bytes c -> own_bytes c' -> read_alike c c' -> head_wire c h m -> head_wire c' h' m' -> h ++ r = h' ++ r' -> h = h' /\ m = m' /\ r = r'.
Proof.
  intros O O' (A & _) H H' E. destruct (head_whole c h m O H) as (me & h9 & P). destruct (head_whole c' h' m' O' H') as (me' & h9' & P').
  specialize (P r). specialize (P' r'). rewrite E, (A me h9 me' h9'), P' in P. injection P as Pl <-. apply app_length_inj in E; [|unfold lenN in Pl; lia]. destruct E as (-> & ->). auto.
Qed.
Lemma message_unique c c' w g w' g' r r' : request_parser c -> request_parser c' -> read_alike c c' -> message_wire c w g -> message_wire c' w' g' -> w ++ r = w' ++ r' -> w = w' /\ g = g' /\ r = r'.
Proof.
  intros R R' A (sk & head & body & -> & S1 & H1 & B1) (sk' & head' & body' & -> & S2 & H2 & B2) E.
  rewrite (never_skipped c sk R S1), (never_skipped c' sk' R' S2) in *. cbn [app] in *. rewrite <- !app_assoc in E.
  destruct (head_unique c c' _ _ _ _ _ _ (proj1 R) (proj1 R') A H1 H2 E) as (-> & Em & Eb). destruct g as [m data t], g' as [m' data' t']. cbn [msg_head msg_data msg_trailers] in *. subst m'.
  assert (body = body' /\ data = data' /\ t = t' /\ r = r') as (-> & -> & -> & ->); [|auto]. clear E S1 S2 H2.
  unfold body_wire in *. destruct A as (_ & A2 & A3). assert (max_lines c' = max_lines c) as Hm by (unfold max_lines; now rewrite A3). destruct (N.eqb_spec (in_decode m) DL_CHUNKED) as [Hc|Hc].
  - destruct B1 as (b & -> & V & W & -> & T). destruct B2 as (b' & -> & V' & W' & -> & T'). destruct (render_unique b b' r r' V V' Eb) as (<- & <-). do 2 (split; [reflexivity|]). split; [|reflexivity].
    destruct (trailer_block (cb_trailers b)) as [blk|]; [|congruence]. destruct T as (-> & _), T' as (-> & _). apply A2.
  - destruct B1 as (-> & -> & L1), B2 as (-> & -> & L2). assert (in_decode m <> DL_CLOSE_DELIMITED) as Nd. { destruct H1 as (me & h9 & z & P). apply (proj2 (proj2 R) _ _ _ _ _ P). }
    destruct L1 as [L1|L1]; [contradiction|]. destruct L2 as [L2|L2]; [contradiction|]. apply app_length_inj in Eb; [|unfold lenN in *; lia]. destruct Eb as (-> & ->). auto.
Qed.
Lemma messages_unique c c' : request_parser c -> request_parser c' -> read_alike c c' -> forall ws gs ws' gs' r r', Forall2 (message_wire c) ws gs -> Forall2 (message_wire c') ws' gs' -> concat ws ++ r = concat ws' ++ r' ->
  forall n, (n <= length gs)%nat -> (n <= length gs')%nat -> firstn n ws = firstn n ws' /\ firstn n gs = firstn n gs'.
Proof.
  intros R R' A ws. induction ws as [|w ws IH]; intros gs ws' gs' r r' F F' E n Hn Hn'.
  - inversion F. subst gs. cbn in Hn. assert (n = 0%nat) as -> by lia. auto.
  - inversion F as [|? g ? gs0 M F0]. subst. destruct F' as [|w' g' ws' gs' M' F']; [cbn in Hn'; assert (n = 0%nat) as -> by lia; auto|]. cbn [concat] in E. rewrite <- !app_assoc in E.
    destruct (message_unique c c' _ _ _ _ _ _ R R' A M M' E) as (-> & -> & E'). destruct n as [|n]; [auto|]. cbn [length] in Hn, Hn'. destruct (IH _ _ _ _ _ F0 F' E' n) as (Q1 & Q2); [lia|lia|]. cbn [firstn]. now rewrite Q1, Q2.
Qed.

(* Two connections that receive the same bytes - cut in any way, with any
   applications, buffer strategies, write sides, clocks - hand out the same
   messages: those that one of them has completed begin those of the other. *)
Theorem C65_deterministic : forall c c' h09 flat wmax evs ms h09' flat' wmax' evs' ms',
  request_parser c -> request_parser c' -> read_alike c c' -> data_of evs = data_of evs' ->
  let gs := received (history c h09 flat wmax evs ms) in let gs' := received (history c' h09' flat' wmax' evs' ms') in
  exists more, gs = gs' ++ more \/ gs' = gs ++ more.
Proof.
  intros c c' h09 flat wmax evs ms h09' flat' wmax' evs' ms' R R' A E gs gs'.
  destruct (C65_received c h09 flat wmax evs ms (request_bounded c R)) as (ws & r & E1 & F & _). destruct (C65_received c' h09' flat' wmax' evs' ms' (request_bounded c' R')) as (ws' & r' & E1' & F' & _). rewrite E, E1' in E1. symmetry in E1.
  pose proof (messages_unique c c' R R' A _ _ _ _ _ _ F F' E1) as Q. fold gs in Q. fold gs' in Q.
  destruct (Nat.le_ge_cases (length gs) (length gs')) as [Hl|Hl].
  - destruct (Q (length gs) (le_n _) Hl) as (_ & Q2). rewrite firstn_all in Q2. exists (skipn (length gs) gs'). right. rewrite <- (firstn_skipn (length gs) gs') at 1. now rewrite <- Q2.
  - destruct (Q (length gs') Hl (le_n _)) as (_ & Q2). rewrite firstn_all in Q2. exists (skipn (length gs') gs). left. rewrite <- (firstn_skipn (length gs') gs) at 1. now rewrite Q2.
Qed.

(* Also within a message that is not complete yet *)
Definition delivered (l : list levent) : list message := received l ++ match receiving l with Some g => [g] | None => [] end.
Definition content (c : cfg) (len : dlen) (x : bytes) : bytes := if len =? DL_CHUNKED then fst (L_Decode.run (init_c (max_lines c) 16384) x) else x.
Definition reads (c : cfg) (x : bytes) (g : message) : Prop :=
  exists head rest more, x = head ++ rest /\ head_wire c head (msg_head g) /\ content c (in_decode (msg_head g)) rest = msg_data g ++ more.
Lemma Forall2_length {A C} (P : A -> C -> Prop) l l' : Forall2 P l l' -> length l = length l'.
Proof. induction 1; cbn; congruence. Qed.
Lemma wire_reads c w g z : request_parser c -> message_wire c w g -> reads c (w ++ z) g.
Proof.
  intros R (sk & head & body & -> & S & H & Hb). rewrite (never_skipped c sk R S). cbn [app]. rewrite <- app_assoc. exists head, (body ++ z). unfold content, body_wire in *. destruct (_ =? DL_CHUNKED).
  - destruct Hb as (b & -> & V & W & -> & _). exists []. split; [reflexivity|]. split; [exact H|]. rewrite run_complete by assumption. cbn [fst]. now rewrite app_nil_r.
  - destruct Hb as (-> & _). exists z. auto.
Qed.
Lemma nth_reads c h09 flat wmax evs ms n g : request_parser c -> nth_error (delivered (history c h09 flat wmax evs ms)) n = Some g ->
  exists ws r x, data_of evs = concat ws ++ r /\ Forall2 (message_wire c) ws (received (history c h09 flat wmax evs ms)) /\ (n <= length ws)%nat /\ data_of evs = concat (firstn n ws) ++ x /\ reads c x g.
Proof.
  intros R Hn. destruct (RD_all (fun _ => True) (fun _ => True) c h09 flat wmax evs ms (fun _ _ _ H => H) (request_bounded c R) (true_stable c) Logic.I (fun _ _ _ => Logic.I)) as (ws & r & E1 & E2 & E3).
  exists ws, r. change (k_log _) with (history c h09 flat wmax evs ms) in *. set (l := history c h09 flat wmax evs ms) in *. unfold delivered in Hn.
  destruct (Nat.lt_ge_cases n (length (received l))) as [Hl|Hl].
  - rewrite nth_error_app1 in Hn by exact Hl. assert (exists w, nth_error ws n = Some w /\ message_wire c w g) as (w & Hw & M).
    { clear - Hn E2. revert n Hn. induction E2 as [|w g' ws gs M F IH]; intros [|n] Hn; try discriminate Hn; [injection Hn as ->; exists w; auto|]. apply IH, Hn. }
    exists (w ++ concat (skipn (S n) ws) ++ r). split; [exact E1|]. split; [exact E2|]. split; [apply Forall2_length in E2; lia|]. split; [|now apply wire_reads].
    rewrite E1. clear - Hw. revert n Hw. induction ws as [|w0 ws IH]; intros [|n] Hw; try discriminate Hw; [injection Hw as ->; cbn; now rewrite <- app_assoc|]. cbn [concat firstn skipn]. rewrite <- !app_assoc. f_equal. apply IH, Hw.
  - rewrite nth_error_app2 in Hn by exact Hl. destruct (receiving l) as [g'|]; [|destruct (n - _)%nat; discriminate Hn]. destruct (n - length (received l))%nat as [|k] eqn:Ek; [|destruct k; discriminate Hn]. injection Hn as ->.
    assert (n = length ws) as -> by (pose proof (Forall2_length _ _ _ E2); lia). exists r. split; [exact E1|]. split; [exact E2|]. split; [auto|]. rewrite firstn_all. split; [exact E1|].
    cbn [inpos] in E3. destruct E3 as (sk & head & part & u & d & -> & S & H & _ & Hb & _). rewrite (never_skipped c sk R S). set (z := u ++ stream _). cbn [app]. exists head, (part ++ z). unfold content. destruct d as [q|cd|e]; cbn [bstate] in Hb.
    + destruct Hb as (Hc & -> & _). apply N.eqb_neq in Hc. rewrite Hc. eauto.
    + destruct Hb as (Hc & _ & _ & Hr). rewrite Hc, N.eqb_refl, Hr. exists (fst (L_Decode.run cd z)). auto.
    + destruct Hb as (_ & Hc & ->). rewrite Hc. change (DL_CLOSE_DELIMITED =? DL_CHUNKED) with false. cbn iota. eauto.
Qed.
Lemma app_compare {A} (a b x y : list A) : a ++ x = b ++ y -> exists z, a = b ++ z \/ b = a ++ z.
Proof.
  revert b. induction a as [|e a IH]; intros b E; [exists b; now right|]. destruct b as [|e' b]; [exists (e :: a); now left|]. injection E as <- E. destruct (IH b E) as (z & [-> | ->]); exists z; auto.
Qed.
(* The n-th messages have the same head, and the data of one begins the data of
   the other. *)
Theorem C65_same_data : forall c c' h09 flat wmax evs ms h09' flat' wmax' evs' ms' n g g',
  request_parser c -> request_parser c' -> read_alike c c' -> data_of evs = data_of evs' ->
  nth_error (delivered (history c h09 flat wmax evs ms)) n = Some g -> nth_error (delivered (history c' h09' flat' wmax' evs' ms')) n = Some g' ->
  msg_head g = msg_head g' /\ exists more, msg_data g = msg_data g' ++ more \/ msg_data g' = msg_data g ++ more.
Proof.
  intros c c' h09 flat wmax evs ms h09' flat' wmax' evs' ms' n g g' R R' A E H H'.
  destruct (nth_reads _ _ _ _ _ _ _ _ R H) as (ws & r & x & E1 & F & Hl & Ex & Q). destruct (nth_reads _ _ _ _ _ _ _ _ R' H') as (ws' & r' & x' & E1' & F' & Hl' & Ex' & Q').
  rewrite E, E1' in E1. symmetry in E1. pose proof (Forall2_length _ _ _ F) as Lf. pose proof (Forall2_length _ _ _ F') as Lf'. destruct (messages_unique c c' R R' A _ _ _ _ _ _ F F' E1 n) as (W & _); [lia|lia|].
  rewrite E, Ex', W in Ex. apply app_inv_head in Ex. subst x'. destruct Q as (h & rest & more & -> & P1 & P2), Q' as (h' & rest' & more' & P0 & P1' & P2').
  destruct (head_unique c c' _ _ _ _ _ _ (proj1 R) (proj1 R') A P1 P1' P0) as (<- & Em & <-). split; [exact Em|]. rewrite <- Em in P2'.
  assert (content c' (in_decode (msg_head g)) rest = content c (in_decode (msg_head g)) rest) as Ec by (unfold content, max_lines; destruct A as (_ & _ & ->); reflexivity). rewrite Ec, P2 in P2'. apply app_compare in P2'. exact P2'.
Qed.

(* ---- Handing the transport over ---- *)
(* A response (or the failure of one) that lets HTTP go on *)
Definition lets_go_on (me : option bytes) (e : levent) : bool :=
  match e with
  | LHead true _ _ | LHeadFail _ => true
  | LHead false h _ => match o_subject h with OResponse st _ => negb (switches me st) | ORequest _ _ => true end
  | _ => false
  end.
Definition is_head (e : levent) : bool := match e with LHead _ _ _ | LHeadFail _ => true | _ => false end.
Definition no_in (e : levent) : bool := match e with LIn _ => false | _ => true end.
(* The last request has been answered, without switching the protocol *)
Definition settled (l : list levent) : Prop := forall a m b, l = a ++ LIn m :: b -> forallb no_in b = true ->
  exists e, In e b /\ lets_go_on (in_method m) e = true.
Lemma settled_more l l' : forallb outer l' = true -> settled l -> settled (l ++ l').
Proof.
  intros Ho H a m b E Hb. apply app_eq_app in E. destruct E as (z & [(-> & E)|(-> & E)]).
  - destruct z as [|e z]; [cbn in E; subst l'; discriminate Ho|]. cbn in E. injection E as <- ->. rewrite forallb_app in Hb. apply andb_prop in Hb. destruct (H a m z eq_refl) as (e & He & Q); [apply Hb|]. exists e. split; [apply in_or_app; now left|exact Q].
  - subst l'. rewrite forallb_app in Ho. apply andb_prop in Ho. destruct Ho as (_ & Ho). discriminate Ho.
Qed.
Lemma min_no_in b : forallb no_in b = true -> forall o, fold_left mstep b o = o.
Proof. induction b as [|e b IH]; intros H o; [reflexivity|]. cbn in H. apply andb_prop in H. destruct H as (H1 & H2). cbn [fold_left]. rewrite (IH H2). destruct e; try reflexivity. discriminate H1. Qed.
Lemma min_in a m b : forallb no_in b = true -> min (a ++ LIn m :: b) = in_method m.
Proof. intros H. rewrite min_app. cbn [fold_left mstep]. now apply min_no_in. Qed.
Lemma x_waits b : forall x y, x_run x_server x b = Some y -> x_in x <> INone -> x_out x = ONone -> forallb no_in b = true ->
  (exists e, In e b /\ is_head e = true) \/ (x_out y = ONone /\ x_in y <> INone).
Proof.
  induction b as [|e b IH]; intros x y Hx Hi Ho Hb; [injection Hx as <-; auto|]. cbn [x_run] in Hx. destruct (x_server x e) as [x1|] eqn:E1; [|discriminate Hx]. cbn in Hb. apply andb_prop in Hb. destruct Hb as (H1 & H2).
  destruct (is_head e) eqn:Eh; [left; exists e; split; [now left|exact Eh]|].
  assert (x_in x1 <> INone /\ x_out x1 = ONone) as (Hi1 & Ho1).
  { destruct x as [i o k w ov]. cbn in Hi, Ho. subst o. destruct e; try discriminate H1; try discriminate Eh; cbn in E1; destruct i; try discriminate E1; try congruence; try (injection E1 as <-; cbn; split; congruence).
    destruct (_ && _); [|discriminate E1]. injection E1 as <-. cbn. split; congruence. }
  destruct (IH x1 y Hx Hi1 Ho1 H2) as [(e' & F & Q)|Q]; [left; exists e'; split; [now right|exact Q]|now right].
Qed.
Lemma x_open l : forall x, x_run x_server x_start l = Some x -> x_in x <> INone -> x_out x = ONone ->
  exists a m b, l = a ++ LIn m :: b /\ forallb no_in b = true /\ forallb (fun e => negb (is_head e)) b = true.
Proof.
  induction l as [|e l IH] using rev_ind; intros x Hx Hi Ho; [injection Hx as <-; destruct Hi; reflexivity|].
  rewrite x_run_app in Hx. destruct (x_run x_server x_start l) as [x0|]; [|discriminate Hx]. cbn [x_run] in Hx. destruct (x_server x0 e) as [x1|] eqn:E1; [|discriminate Hx]. injection Hx as ->.
  destruct (no_in e) eqn:En; [|destruct e; try discriminate En; exists l, m, []; auto].
  assert (x_in x0 <> INone /\ x_out x0 = ONone /\ is_head e = false) as (Hi0 & Ho0 & Hh).
  { destruct x0 as [i o k w ov]. destruct e; try discriminate En; try destruct auto; cbn in E1; unfold at_rest in E1; cbn in E1; destruct i, o, ov; cbn in E1; try discriminate E1; try (injection E1 as <-; cbn in *; repeat split; congruence).
    all: destruct (_ && _); [|discriminate E1]; injection E1 as <-; cbn in *; repeat split; congruence. }
  destruct (IH x0 eq_refl Hi0 Ho0) as (a & m & b & -> & B1 & B2). exists a, m, (b ++ [e]). split; [now rewrite <- app_assoc|]. rewrite !forallb_app, B1, B2. cbn. now rewrite En, Hh.
Qed.
Definition SVU (c : cfg) (h09 : bool) (d : disp) : Prop := SInv d /\ VD c h09 d /\ UD d.
Lemma stable_less c good (J J' Inv : disp -> Prop) : (forall d, J' d -> J d) -> stable c good J Inv -> stable c good J' Inv.
Proof. intros W S. destruct S. constructor; intros; eauto. specialize (sb_msg i d H (W _ H0) H1 H2 H3 H4). exact sb_msg. Qed.
Lemma SVU_stable c h09 : c_server c = true -> stable c (fun _ => True) (fun _ => True) (SVU c h09).
Proof.
  intros Hs. apply stable_conj; [now apply server_stable|]. apply (stable_less _ _ (fun _ => True)); [auto|]. apply stable_conj; [apply VD_stable|now apply UD_stable].
Qed.
Lemma SVU_settled c h09 d : SVU c h09 d -> k_reading (d_conn d) = RInit -> settled (k_log (d_conn d)).
Proof.
  intros ((x & Hx & Hr & _) & _ & U) Er a m b E Hb. rewrite Er in Hr. destruct Hr as (_ & _ & Hat & _). rewrite E, x_run_app in Hx.
  destruct (x_run x_server x_start a) as [xa|]; [|discriminate Hx]. cbn [x_run] in Hx. destruct (x_server xa (LIn m)) as [x1|] eqn:E1; [|discriminate Hx].
  assert (x1 = mkX (IOpen m) ONone false false false) as -> by (destruct xa; cbn in E1; destruct (_ && _); [injection E1 as <-; reflexivity|discriminate E1]).
  destruct (x_waits b _ _ Hx ltac:(discriminate) eq_refl Hb) as [(e & F & Q)|(Q1 & Q2)]; [|unfold at_rest in Hat; rewrite Q1 in Hat; destruct (x_in x); try discriminate Hat; congruence].
  exists e. split; [exact F|]. destruct e; try discriminate Q; [|reflexivity]. destruct auto; [reflexivity|]. cbn. destruct (o_subject h) as [st rs|] eqn:Eo; [|reflexivity].
  destruct (switches (in_method m) st) eqn:Ew; [|reflexivity]. exfalso. apply in_split in F. destruct F as (b1 & b2 & ->). rewrite forallb_app in Hb. apply andb_prop in Hb. destruct Hb as (Hb & _).
  rewrite <- (min_in a m b1 Hb) in Ew. destruct (ui_sw _ U (a ++ LIn m :: b1) h bs b2 st rs) as ((_ & S) & _); [rewrite E, <- app_assoc; reflexivity|exact Eo|exact Ew|contradiction].
Qed.

(* Once a server has answered a complete request with a response that switches the
   protocol, its buffer and its transport together hold exactly the bytes behind
   that request: all of them are for the application. *)
Theorem C65_handover : forall c h09 flat wmax evs ms a h bs b code rs, c_server c = true -> request_parser c ->
  let l := history c h09 flat wmax evs ms in l = a ++ LHead false h bs :: b -> o_subject h = OResponse code rs -> switching (last_in a) code ->
  receiving l = None ->
  exists wires, Forall2 (message_wire c) wires (received l) /\ data_of evs = concat wires ++ stream (k_rd (d_conn (after c h09 flat wmax evs ms))).
Proof.
  intros c h09 flat wmax evs ms a h bs b code rs Hs R l E Ho Hw Hc. apply switching_eq in Hw. change (last_in a) with (min a) in Hw.
  assert (SVU c h09 (start h09 flat wmax evs)) as S0. { split; [apply SInv_start|]. split; [exact (VD_all c h09 flat wmax evs [])|exact (UD_all c h09 flat wmax evs Hs [])]. }
  assert (SVU c h09 (after c h09 flat wmax evs ms)) as (S & _ & U) by (apply (Inv_run _ _ _ (SVU_stable c h09 Hs)); [intros; exact Logic.I|exact S0]).
  destruct (RD_all settled (SVU c h09) c h09 flat wmax evs ms settled_more (request_bounded c R) (SVU_stable c h09 Hs) S0 (SVU_settled c h09)) as (wires & tail & E1 & E2 & E3).
  change (k_log _) with l in E3. change (k_log _) with l in E2. rewrite Hc in E3. exists wires. split; [exact E2|]. rewrite E1. f_equal. cbn [inpos] in E3.
  destruct (ui_sw _ U a h bs b code rs E Ho Hw) as ((_ & Nr) & Hq). destruct (k_reading _); try contradiction.
  - destruct E3 as (sk & K & ->). now rewrite (never_skipped c sk R K).
  - destruct E3 as (sk & u & K & -> & [-> |F]); [now rewrite (never_skipped c sk R K)|]. exfalso. change (k_log _) with l in F.
    destruct S as (x & Hx & _). change (k_log _) with l in Hx. rewrite E, x_run_app in Hx. destruct (x_run x_server x_start a) as [xa|] eqn:Ea; [|discriminate Hx]. cbn [x_run] in Hx. destruct (x_server xa (LHead false h bs)) as [xb|] eqn:Eb; [|discriminate Hx].
    destruct (x_open a xa Ea) as (a1 & m & b1 & -> & B1 & B2); [destruct xa as [i o kk w ov]; cbn in *; destruct i; congruence|destruct xa as [i o kk w ov]; cbn in *; destruct i, o; congruence|].
    rewrite (min_in _ _ _ B1) in Hw. destruct (F a1 m (b1 ++ LHead false h bs :: b)) as (e & Fe & Q).
    + rewrite E, <- app_assoc. reflexivity.
    + rewrite forallb_app, B1. cbn. apply forallb_forall. intros e Fe. rewrite forallb_forall in Hq. specialize (Hq e Fe). destruct e; try reflexivity. discriminate Hq.
    + apply in_app_or in Fe. destruct Fe as [Fe|[<- |Fe]].
      * rewrite forallb_forall in B2. specialize (B2 e Fe). destruct e; try discriminate Q; discriminate B2.
      * cbn in Q. rewrite Ho, Hw in Q. discriminate Q.
      * rewrite forallb_forall in Hq. specialize (Hq e Fe). destruct e; try discriminate Q; discriminate Hq.
Qed.
(* The application reads them from the upgraded connection: first what is left in
   the buffer, then what the transport delivers. *)
Theorem C65_upgraded : forall c h09 flat wmax evs ms a h bs b code rs caps, c_server c = true -> request_parser c ->
  let l := history c h09 flat wmax evs ms in l = a ++ LHead false h bs :: b -> o_subject h = OResponse code rs -> switching (last_in a) code ->
  receiving l = None ->
  exists wires, Forall2 (message_wire c) wires (received l) /\
  let (s', read) := app_reads caps (new_buffered (into_inner (k_rd (d_conn (after c h09 flat wmax evs ms))))) in
  data_of evs = concat wires ++ read ++ snd (rw_into_inner s') ++ data_of (fst (rw_into_inner s')).
Proof.
  intros c h09 flat wmax evs ms a h bs b code rs caps Hs R l E Ho Hw Hc. destruct (C65_handover c h09 flat wmax evs ms a h bs b code rs Hs R E Ho Hw Hc) as (wires & F & D). exists wires. split; [exact F|].
  set (r := k_rd _) in *. pose proof (app_reads_stream caps (new_buffered (into_inner r))) as H. destruct (app_reads caps _) as [s' read]. rewrite D. f_equal. exact H.
Qed.

(* ---- Examples ---- *)
(* A list of requests none of which begins an earlier one *)
Fixpoint ex_free (l : list (bytes * inmsg)) : bool :=
  match l with
  | [] => true
  | (x, _) :: r => forallb (fun y => (lenN x <=? lenN (fst y)) || negb (beq (takeN (lenN (fst y)) x) (fst y))) r && ex_free r
  end.
Lemma ex_find_own l : ex_free l = true -> forall x n m, ex_find l x = PDone n m -> n <= lenN x /\ (exists e, In e l /\ n = lenN (fst e) /\ takeN n x = fst e /\ m = snd e) /\ forall z, ex_find l (takeN n x ++ z) = PDone n m.
Proof.
  induction l as [|[y my] l IH]; intros Hf x n m; cbn [ex_find]; [destruct (20 <? _); discriminate|]. cbn [ex_free] in Hf. apply andb_prop in Hf. destruct Hf as (Hf & Hr).
  destruct (beq (takeN (lenN y) x) y) eqn:Eb.
  - intros E. injection E as <- <-. apply beq_eq in Eb. pose proof (takeN_len (lenN y) x) as Hl. rewrite Eb in Hl. split; [lia|]. split; [exists (y, my); repeat split; auto; now left|]. intros z. rewrite Eb, takeN_app_le, takeN_all, beq_refl by lia. reflexivity.
  - intros E. destruct (IH Hr _ _ _ E) as (A & (e & E1 & E2 & E3 & E4) & C). split; [exact A|]. split; [exists e; repeat split; auto; now right|]. intros z. rewrite C.
    assert (beq (takeN (lenN y) (takeN n x ++ z)) y = false) as ->; [|reflexivity]. destruct (beq (takeN (lenN y) (takeN n x ++ z)) y) eqn:F; [|reflexivity]. exfalso. apply beq_eq in F. rewrite forallb_forall in Hf. specialize (Hf e E1). apply orb_prop in Hf. destruct Hf as [Hf|Hf].
    + apply N.leb_le in Hf. rewrite <- E2 in Hf. rewrite takeN_app_le in F by (rewrite takeN_len; lia). rewrite takeN_takeN in F. replace (N.min (lenN y) n) with (lenN y) in F by lia. rewrite F, beq_refl in Eb. discriminate Eb.
    + apply negb_true_iff in Hf. destruct (N.le_gt_cases (lenN y) (lenN (fst e))) as [Hl|Hl].
      * rewrite <- E2 in Hl. rewrite takeN_app_le in F by (rewrite takeN_len; lia). rewrite takeN_takeN in F. replace (N.min (lenN y) n) with (lenN y) in F by lia. rewrite F, beq_refl in Eb. discriminate Eb.
      * rewrite E3 in F. rewrite <- F, takeN_takeN in Hf. replace (N.min _ _) with (lenN (fst e)) in Hf by lia. rewrite takeN_app_le, takeN_all, beq_refl in Hf by lia. discriminate Hf.
Qed.
Lemma ex_find_request l c : ex_free l = true -> forallb (fun e => negb (in_decode (snd e) =? DL_CLOSE_DELIMITED)) l = true -> c_parse c = (fun _ _ b => ex_find l b) -> request_parser c.
Proof.
  intros Hf Hd Hc. unfold request_parser, own_bytes. rewrite Hc. split; [|split].
  - intros _ _ x n m E. destruct (ex_find_own l Hf x n m E) as (A & _ & C). auto.
  - intros _ _ x n E. clear - E. induction l as [|[y my] l IH]; cbn [ex_find] in E; [destruct (20 <? _); congruence|]. destruct (beq _ _); [discriminate E|auto].
  - intros _ _ x n m E. destruct (ex_find_own l Hf x n m E) as (_ & (e & E1 & _ & _ & ->) & _). rewrite forallb_forall in Hd. specialize (Hd e E1). apply negb_true_iff in Hd. now apply N.eqb_neq in Hd.
Qed.
(* Three requests: one with three bytes, one chunked, one without a body *)
Definition in_requests : list (bytes * inmsg) :=
  [ (line (B "PUT / HTTP/1.1"), ex_msg HTTP11 0 3 false true)
  ; (line (B "POST / HTTP/1.1"), ex_msg HTTP11 0 DL_CHUNKED false true)
  ; (line (B "GET / HTTP/1.1"), ex_msg HTTP11 0 0 false true) ].
Definition in_cfg (wait : option N) : cfg :=
  mkCfg true (fun _ _ b => ex_find in_requests b) (fun b _ => Some [(B "t", [b])]) (fun _ => Some (B "OK")) (B "now") false false None 8192 false true false wait.
Definition in_wire : bytes := line (B "PUT / HTTP/1.1") ++ B "abc" ++ line (B "POST / HTTP/1.1") ++ B "2" ++ CRLF ++ B "de" ++ CRLF ++ B "0" ++ CRLF ++ B "t: 1" ++ CRLF ++ CRLF ++
  line (B "GET / HTTP/1.1") ++ line (B "POST / HTTP/1.1") ++ B "3" ++ CRLF ++ B "fgh".
Lemma in_parser wait : request_parser (in_cfg wait).
Proof. apply (ex_find_request in_requests); reflexivity. Qed.
Lemma up_parser : request_parser up_cfg.
Proof. apply (ex_find_request up_requests); reflexivity. Qed.
(* Cut into pieces *)
Fixpoint cut (f : nat) (n : N) (x : bytes) : list event :=
  match f with O => [EvData x] | S f => match x with [] => repeat EvPending 100 | _ => EvData (takeN n x) :: EvPending :: cut f n (dropN n x) end end.
Example C65_ex : let l := history (in_cfg None) false true 8192 (open_with in_wire) (steps 200 (answer ok200)) in
  map msg_data (received l) = [B "abc"; B "de"; []] /\ map msg_trailers (received l) = [None; Some [(B "t", [B "t: 1" ++ CRLF ++ CRLF])]; None] /\
  option_map msg_data (receiving l) = Some (B "fgh").
Proof. vm_compute. auto. Qed.
(* The same bytes in pieces of five, another application, another clock *)
Example C65_cut_ex : let l := history (in_cfg (Some 10)) true false 8192 (cut 100 5 in_wire) (steps 110 (answer ok200_close) ++ steps 30 (ask get)) in
  data_of (cut 100 5 in_wire) = data_of (open_with in_wire) /\ read_alike (in_cfg None) (in_cfg (Some 10)) /\ received l <> [].
Proof. split; [vm_compute; reflexivity|]. split; [repeat split|]. set (r := received _). vm_compute in r. subst r. discriminate. Qed.
(* Behind an upgrade request *)
Example C65_handover_ex : exists a h bs b, let ms := steps 60 (answer ok101) in let evs := [EvData (line (B "GET /chat HTTP/1.1") ++ B "hel"); EvPending; EvData (B "lo")] in
  up_hist evs ms = a ++ LHead false h bs :: b /\ o_subject h = OResponse 101 None /\ switching (last_in a) 101 /\ receiving (up_hist evs ms) = None /\
  into_inner (k_rd (d_conn (after up_cfg false true 8192 evs ms))) = ([EvPending; EvData (B "lo")], B "hel").
Proof.
  eexists [_; _], ok101, _, _. cbn zeta. set (hh := up_hist _ _). vm_compute in hh. subst hh.
  split; [reflexivity|]. split; [reflexivity|]. split; [now left|]. split; [reflexivity|vm_compute; reflexivity].
Qed.

(* ---- Findings ---- *)
(* "Whenever the transport is handed over after a response that switches the
   protocol, the application gets the bytes behind complete requests": false.  If
   the application drops the request's body and not all of it has arrived, the
   rest of the body is handed over as if it belonged to the other protocol. *)
Definition C65_handover_always : Prop := forall c h09 flat wmax evs ms a h bs b code rs, c_server c = true -> request_parser c ->
  let l := history c h09 flat wmax evs ms in l = a ++ LHead false h bs :: b -> o_subject h = OResponse code rs -> switching (last_in a) code ->
  (exists x, handed_over l x) ->
  exists wires gs, Forall2 (message_wire c) wires gs /\ data_of evs = concat wires ++ stream (k_rd (d_conn (after c h09 flat wmax evs ms))).
Definition in_part : list event := [EvData (line (B "PUT /chat HTTP/1.1") ++ B "ab"); EvPending; EvPending; EvData (B "chello")].
Definition dropper : inp := mkI 0 false true [WAccept 65536; WAccept 65536; WAccept 65536] false BCanceled true (Ready (Ok (ok101, None))) (get, None) Pending true (Ready (Ok tt)) [].
Lemma part_hist : exists a h bs b, up_hist in_part (steps 30 dropper) = a ++ LHead false h bs :: b /\ o_subject h = OResponse 101 None /\ (exists x, handed_over (up_hist in_part (steps 30 dropper)) x) /\
  stream (k_rd (d_conn (after up_cfg false true 8192 in_part (steps 30 dropper)))) = B "chello".
Proof.
  eexists [_; _], _, _, _. set (hh := up_hist _ _). vm_compute in hh. subst hh. split; [reflexivity|]. split; [reflexivity|]. split; [|vm_compute; reflexivity].
  eexists [_; _; _; _; _]. split; [eexists; reflexivity|]. intros F. repeat (destruct F as [F|F]; [discriminate F|]). destruct F.
Qed.
Theorem C65_handover_always_refuted : ~ C65_handover_always.
Proof.
  intros H. destruct part_hist as (a & h & bs & b & E & Ho & Hh & Es). destruct (H up_cfg false true 8192 in_part (steps 30 dropper) a h bs b 101 None eq_refl up_parser E Ho (or_introl eq_refl) Hh) as (wires & gs & F & D). rewrite Es in D.
  assert (data_of in_part = (line (B "PUT /chat HTTP/1.1") ++ B "ab") ++ B "chello") as E0 by reflexivity. rewrite E0 in D. apply app_inv_tail in D. clear - D F.
  destruct F as [|w g ws gs M F]; [discriminate D|]. destruct M as (sk & head & body & -> & S & Hh & Hb). rewrite (never_skipped _ _ up_parser S) in D. cbn [app concat] in D. rewrite <- app_assoc in D.
  assert (head_wire up_cfg (line (B "PUT /chat HTTP/1.1")) (up_msg (B "PUT") 3)) as Hh' by (exists None, false, []; reflexivity).
  destruct (head_unique up_cfg up_cfg _ _ _ _ _ _ (proj1 up_parser) (proj1 up_parser) ltac:(repeat split) Hh' Hh D) as (_ & Em & Er). rewrite <- Em in Hb. unfold body_wire in Hb. change (in_decode _ =? DL_CHUNKED) with false in Hb. cbn iota in Hb.
  destruct Hb as (_ & _ & [Hb|Hb]); [discriminate Hb|]. apply (f_equal lenN) in Er. rewrite lenN_app, Hb in Er. change (lenN (B "ab")) with 2 in Er. change (in_decode _) with 3 in Er. lia.
Qed.

Print Assumptions C65_received.
Print Assumptions C65_deterministic.
Print Assumptions C65_same_data.
Print Assumptions C65_handover.
Print Assumptions C65_upgraded.
Print Assumptions C65_handover_always_refuted.
