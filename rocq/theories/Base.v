(* Shared helpers.  Nothing here models code by itself. *)
From Coq Require Export List Arith ZArith NArith Lia Bool Permutation Sorted.
From Coq Require Export ZifyBool ZifyNat ZifyN.
Export ListNotations.
Ltac Zify.zify_post_hook ::= Z.div_mod_to_equations.

(* Outcome of running a piece of C code.
   UB   : undefined behaviour (out of bounds, use after free, overflow, ...).
   Exn  : the code raised one of the library's exceptions (throw / panic).
   Fuel : the model ran out of fuel (the C loop may not have ended). *)
Inductive outcome (A : Type) : Type :=
| Ok   : A -> outcome A
| UB   : outcome A
| Exn  : outcome A
| Fuel : outcome A.
Arguments Ok {A} _.
Arguments UB {A}.
Arguments Exn {A}.
Arguments Fuel {A}.

Definition bind {A B} (o : outcome A) (f : A -> outcome B) : outcome B :=
  match o with Ok a => f a | UB => UB | Exn => Exn | Fuel => Fuel end.

Notation "'do' x <- e ; f" := (bind e (fun x => f))
  (at level 200, x name, e at level 100, f at level 200, right associativity).
Notation "'do' ' p <- e ; f" := (bind e (fun x => match x with p => f end))
  (at level 200, p pattern, e at level 100, f at level 200, right associativity).

(* List update at an index; unchanged when the index is out of range. *)
Fixpoint set_nth {A} (n : nat) (v : A) (l : list A) : list A :=
  match l, n with
  | [], _ => []
  | _ :: t, O => v :: t
  | h :: t, S k => h :: set_nth k v t
  end.

(* Checked read and write: UB outside the list. *)
Definition rd {A} (l : list A) (n : nat) : outcome A :=
  match nth_error l n with Some v => Ok v | None => UB end.

Definition wr {A} (l : list A) (n : nat) (v : A) : outcome (list A) :=
  if Nat.ltb n (length l) then Ok (set_nth n v l) else UB.

Lemma set_nth_length {A} n (v : A) l : length (set_nth n v l) = length l.
Proof. revert n; induction l as [|h t IH]; intros [|n]; simpl; auto. Qed.

Lemma set_nth_same {A} n (v : A) l : n < length l -> nth_error (set_nth n v l) n = Some v.
Proof.
  revert n; induction l as [|h t IH]; intros [|n] H; simpl in *; try lia; auto.
  apply IH; lia.
Qed.

Lemma set_nth_other {A} n m (v : A) l : n <> m -> nth_error (set_nth n v l) m = nth_error l m.
Proof.
  revert n m; induction l as [|h t IH]; intros [|n] [|m] H; simpl; auto; try lia.
Qed.

Lemma nth_error_ext {A} (l1 l2 : list A) :
  (forall i, nth_error l1 i = nth_error l2 i) -> l1 = l2.
Proof.
  revert l2; induction l1 as [|h t IH]; intros [|h2 t2] H; auto.
  - specialize (H 0); discriminate.
  - specialize (H 0); discriminate.
  - pose proof (H 0) as H0; simpl in H0; injection H0 as ->.
    f_equal; apply IH; intros i; exact (H (S i)).
Qed.

Lemma nth_error_firstn {A} (l : list A) n i :
  nth_error (firstn n l) i = if Nat.ltb i n then nth_error l i else None.
Proof.
  revert l i; induction n as [|n IH]; intros [|h t] [|i]; simpl; auto.
  - destruct (Nat.ltb (S i) (S n)); auto.
  - rewrite IH. reflexivity.
Qed.

Lemma nth_error_skipn {A} (l : list A) n i :
  nth_error (skipn n l) i = nth_error l (n + i).
Proof.
  revert l; induction n as [|n IH]; intros [|h t]; simpl; auto.
  destruct i; reflexivity.
Qed.

Lemma skipn_skipn {A} (a b : nat) (l : list A) : skipn a (skipn b l) = skipn (a + b) l.
Proof.
  apply nth_error_ext; intros i. rewrite !nth_error_skipn. f_equal; lia.
Qed.

Lemma set_nth_app_l {A} n (v : A) l1 l2 :
  n < length l1 -> set_nth n v (l1 ++ l2) = set_nth n v l1 ++ l2.
Proof.
  revert n; induction l1 as [|h t IH]; intros [|n] H; simpl in *; try lia; auto.
  f_equal; apply IH; lia.
Qed.

Lemma set_nth_app_r {A} n (v : A) l1 l2 :
  length l1 <= n -> set_nth n v (l1 ++ l2) = l1 ++ set_nth (n - length l1) v l2.
Proof.
  revert n; induction l1 as [|h t IH]; intros n H; simpl in *.
  - now rewrite Nat.sub_0_r.
  - destruct n as [|n]; [lia|]. simpl. f_equal. apply IH; lia.
Qed.

Lemma set_nth_firstn_skipn {A} n (v : A) l :
  n < length l -> set_nth n v l = firstn n l ++ v :: skipn (S n) l.
Proof.
  revert n; induction l as [|h t IH]; intros [|n] H; simpl in *; try lia; auto.
  f_equal. apply IH; lia.
Qed.

Lemma set_nth_id {A} n (v : A) l : nth_error l n = Some v -> set_nth n v l = l.
Proof.
  revert n; induction l as [|h t IH]; intros [|n] H; simpl in *; try discriminate; auto.
  - congruence.
  - f_equal; auto.
Qed.

Lemma rd_ok {A} (l : list A) n v : nth_error l n = Some v -> rd l n = Ok v.
Proof. unfold rd; now intros ->. Qed.

Lemma rd_inv {A} (l : list A) n v : rd l n = Ok v -> nth_error l n = Some v.
Proof. unfold rd; destruct (nth_error l n); congruence. Qed.

Lemma wr_ok {A} (l : list A) n v : n < length l -> wr l n v = Ok (set_nth n v l).
Proof. unfold wr; intros H; now apply Nat.ltb_lt in H as ->. Qed.

Lemma wr_inv {A} (l l' : list A) n v :
  wr l n v = Ok l' -> n < length l /\ l' = set_nth n v l.
Proof.
  unfold wr; destruct (Nat.ltb_spec n (length l)); [|discriminate].
  intros [= <-]; auto.
Qed.

(* Machine integers. *)
Definition wrapu (bits : Z) (x : Z) : Z := (x mod 2 ^ bits)%Z.
Definition wraps (bits : Z) (x : Z) : Z :=
  ((x + 2 ^ (bits - 1)) mod 2 ^ bits - 2 ^ (bits - 1))%Z.
