(* Bytes, ASCII, lengths and other basics shared by all models. *)
From Coq Require Export String Ascii.
From Coq Require Export NArith Bool Lia Arith ZifyBool ZifyN ZifyNat List.
Export ListNotations.
#[global] Open Scope N_scope.
#[global] Open Scope list_scope.

(* A byte is modelled as a natural number; bytes >= 256 are a harmless superset. *)
Notation byte := N (only parsing).
Notation bytes := (list N) (only parsing).

(* String literals as bytes: [B "chunked"]. *)
Definition B (s : string) : list N := List.map N_of_ascii (list_ascii_of_string s).
Arguments B s%string.

Definition CR : N := 13.
Definition LF : N := 10.
Definition SP : N := 32.
Definition TAB : N := 9.
Definition CRLF : list N := [CR; LF].

(* u64::MAX = usize::MAX on the 64-bit targets modelled here. *)
Definition u64_max : N := 18446744073709551615.

(* Rust's u64::checked_mul / checked_add. *)
Definition checked_mul (a b : N) : option N :=
  if a * b <=? u64_max then Some (a * b) else None.
Definition checked_add (a b : N) : option N :=
  if a + b <=? u64_max then Some (a + b) else None.

(* Length and splitting with binary counters (so that huge counts compute). *)
Definition lenN {A} (l : list A) : N := N.of_nat (length l).

Fixpoint takeN {A} (n : N) (l : list A) : list A :=
  match l with
  | [] => []
  | x :: r => if n =? 0 then [] else x :: takeN (n - 1) r
  end.

Fixpoint dropN {A} (n : N) (l : list A) : list A :=
  match l with
  | [] => []
  | x :: r => if n =? 0 then l else dropN (n - 1) r
  end.

Fixpoint beq (a b : list N) : bool :=
  match a, b with
  | [], [] => true
  | x :: a', y :: b' => (x =? y) && beq a' b'
  | _, _ => false
  end.

(* ASCII letter case. *)
Definition to_lower (b : N) : N := if (65 <=? b) && (b <=? 90) then b + 32 else b.
Definition to_upper (b : N) : N := if (97 <=? b) && (b <=? 122) then b - 32 else b.
Definition lower (s : list N) : list N := map to_lower s.
(* str::eq_ignore_ascii_case *)
Definition eq_ic (a b : list N) : bool := beq (lower a) (lower b).

(* Results of polling. *)
Inductive poll (A : Type) : Type := Pending | Ready (a : A).
Arguments Pending {A}.
Arguments Ready {A} a.

Inductive result (A E : Type) : Type := Ok (a : A) | Err (e : E).
Arguments Ok {A E} a.
Arguments Err {A E} e.

(* ------------------------------------------------------------------ *)
(* Facts *)

Lemma lenN_nil {A} : lenN (@nil A) = 0.
Proof. reflexivity. Qed.
Lemma lenN_cons {A} (x : A) l : lenN (x :: l) = 1 + lenN l.
Proof. unfold lenN. cbn [length]. lia. Qed.
Lemma lenN_app {A} (a b : list A) : lenN (a ++ b) = lenN a + lenN b.
Proof. unfold lenN. rewrite app_length. lia. Qed.
Lemma lenN_0 {A} (l : list A) : lenN l = 0 -> l = [].
Proof. destruct l; auto. rewrite lenN_cons. lia. Qed.
Lemma lenN_pos {A} (l : list A) : l <> [] -> 0 < lenN l.
Proof. destruct l; [congruence|]. rewrite lenN_cons. lia. Qed.

Lemma takeN_dropN {A} n (l : list A) : takeN n l ++ dropN n l = l.
Proof.
  revert n. induction l as [|x l IH]; intros n; cbn [takeN dropN]; auto.
  destruct (n =? 0); cbn [app]; auto. now rewrite IH.
Qed.
Lemma takeN_len {A} n (l : list A) : lenN (takeN n l) = N.min n (lenN l).
Proof.
  revert n. induction l as [|x l IH]; intros n; cbn [takeN].
  - rewrite lenN_nil. lia.
  - destruct (N.eqb_spec n 0); rewrite !lenN_cons, ?lenN_nil, ?IH; lia.
Qed.
Lemma dropN_len {A} n (l : list A) : lenN (dropN n l) = lenN l - n.
Proof.
  revert n. induction l as [|x l IH]; intros n; cbn [dropN].
  - rewrite lenN_nil. lia.
  - destruct (N.eqb_spec n 0); rewrite ?IH, !lenN_cons; lia.
Qed.
Lemma takeN_0 {A} (l : list A) : takeN 0 l = [].
Proof. destruct l; reflexivity. Qed.
Lemma dropN_0 {A} (l : list A) : dropN 0 l = l.
Proof. destruct l; reflexivity. Qed.
Lemma takeN_all {A} n (l : list A) : lenN l <= n -> takeN n l = l.
Proof.
  revert n. induction l as [|x l IH]; intros n H; cbn [takeN]; auto.
  rewrite lenN_cons in H. destruct (N.eqb_spec n 0); [lia|]. rewrite IH by lia. reflexivity.
Qed.
Lemma dropN_all {A} n (l : list A) : lenN l <= n -> dropN n l = [].
Proof. intros H. apply lenN_0. rewrite dropN_len. lia. Qed.
Lemma takeN_app_le {A} n (a b : list A) : n <= lenN a -> takeN n (a ++ b) = takeN n a.
Proof.
  revert n. induction a as [|x a IH]; intros n H.
  - rewrite lenN_nil in H. assert (n = 0) by lia. subst. now rewrite !takeN_0.
  - rewrite lenN_cons in H. cbn [takeN app]. destruct (N.eqb_spec n 0); auto.
    rewrite IH by lia. reflexivity.
Qed.
Lemma takeN_app_ge {A} n (a b : list A) : lenN a <= n -> takeN n (a ++ b) = a ++ takeN (n - lenN a) b.
Proof.
  revert n. induction a as [|x a IH]; intros n H.
  - cbn [app]. rewrite lenN_nil. f_equal. lia.
  - rewrite lenN_cons in *. cbn [takeN app]. destruct (N.eqb_spec n 0); [lia|].
    rewrite IH by lia. do 3 f_equal. lia.
Qed.
Lemma dropN_app_ge {A} n (a b : list A) : lenN a <= n -> dropN n (a ++ b) = dropN (n - lenN a) b.
Proof.
  revert n. induction a as [|x a IH]; intros n H.
  - cbn [app]. rewrite lenN_nil. f_equal. lia.
  - rewrite lenN_cons in *. cbn [dropN app]. destruct (N.eqb_spec n 0); [lia|].
    rewrite IH by lia. f_equal. lia.
Qed.
Lemma dropN_app_le {A} n (a b : list A) : n <= lenN a -> dropN n (a ++ b) = dropN n a ++ b.
Proof.
  revert n. induction a as [|x a IH]; intros n H.
  - rewrite lenN_nil in H. assert (n = 0) by lia. subst. now rewrite !dropN_0.
  - rewrite lenN_cons in *. cbn [dropN app]. destruct (N.eqb_spec n 0); auto.
    rewrite IH by lia. reflexivity.
Qed.
Lemma dropN_dropN {A} n m (l : list A) : dropN n (dropN m l) = dropN (n + m) l.
Proof.
  revert m. induction l as [|x l IH]; intros m; cbn [dropN]; auto.
  destruct (N.eqb_spec m 0).
  - subst. now rewrite N.add_0_r.
  - destruct (N.eqb_spec (n + m) 0); [lia|]. rewrite IH. f_equal. lia.
Qed.

Lemma beq_eq a b : beq a b = true <-> a = b.
Proof.
  revert b. induction a as [|x a IH]; intros [|y b]; cbn [beq]; split; intros H; try congruence; auto.
  - apply andb_true_iff in H as [H1 H2]. apply N.eqb_eq in H1. apply IH in H2. congruence.
  - inversion H; subst. rewrite N.eqb_refl. now apply IH.
Qed.
Lemma beq_refl a : beq a a = true.
Proof. now apply beq_eq. Qed.
Lemma beq_neq a b : beq a b = false <-> a <> b.
Proof.
  split; intros H.
  - intros E. apply beq_eq in E. congruence.
  - destruct (beq a b) eqn:E; auto. apply beq_eq in E. congruence.
Qed.
Lemma beq_sym a b : beq a b = beq b a.
Proof.
  destruct (beq a b) eqn:E; symmetry.
  - apply beq_eq in E. subst. apply beq_refl.
  - apply beq_neq in E. apply beq_neq. congruence.
Qed.
Lemma to_lower_idem b : to_lower (to_lower b) = to_lower b.
Proof.
  unfold to_lower. destruct (N.leb_spec 65 b), (N.leb_spec b 90); cbn [andb]; auto;
  try (destruct (N.leb_spec 65 b), (N.leb_spec b 90); cbn [andb]; auto; lia).
  destruct (N.leb_spec 65 (b + 32)), (N.leb_spec (b+32) 90); cbn [andb]; auto; lia.
Qed.
Lemma lower_idem s : lower (lower s) = lower s.
Proof. unfold lower. rewrite map_map. apply map_ext. apply to_lower_idem. Qed.
Lemma eq_ic_refl a : eq_ic a a = true.
Proof. apply beq_refl. Qed.
Lemma eq_ic_eq a b : eq_ic a b = true <-> lower a = lower b.
Proof. apply beq_eq. Qed.

Lemma checked_mul_some a b c : checked_mul a b = Some c <-> c = a * b /\ a * b <= u64_max.
Proof. unfold checked_mul. destruct (N.leb_spec (a * b) u64_max); split; intros H'; try congruence.
  - inversion H'; auto.
  - destruct H' as [-> _]; auto.
  - destruct H'; lia.
Qed.
Lemma checked_add_some a b c : checked_add a b = Some c <-> c = a + b /\ a + b <= u64_max.
Proof. unfold checked_add. destruct (N.leb_spec (a + b) u64_max); split; intros H'; try congruence.
  - inversion H'; auto.
  - destruct H' as [-> _]; auto.
  - destruct H'; lia.
Qed.
