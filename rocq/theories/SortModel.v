(* arrays.c 858-891 memsort (Shell sort).  Elements are opaque values moved whole by memcpy;
   the comparison is an oracle function [cmp] (deterministic in its two arguments). *)
From Verif Require Import Base.

Section Memsort.
Context {A : Type}.
Variable cmp : A -> A -> Z.

(* arrays.c 875-885: for (k = j; k >= gap; k -= gap) *)
Fixpoint shift_loop (fuel : nat) (data : list A) (gap : nat) (tmp : A) (k : nat)
  : outcome (list A * nat) :=
  if Nat.leb gap k then
    match fuel with
    | O => Fuel
    | S f =>
      do c <- rd data (k - gap);
      if (cmp c tmp >? 0)%Z then
        do data' <- wr data k c;
        shift_loop f data' gap tmp (k - gap)
      else Ok (data, k)
    end
  else Ok (data, k).

(* arrays.c 873-886: body of the j loop *)
Definition insert_at (data : list A) (gap j : nat) : outcome (list A) :=
  do tmp <- rd data j;
  do '(data', k) <- shift_loop (S j) data gap tmp j;
  wr data' k tmp.

(* arrays.c 872: for (j = i; j < elemcount; j += gap) *)
Fixpoint j_loop (fuel : nat) (data : list A) (gap j : nat) : outcome (list A) :=
  if Nat.ltb j (length data) then
    match fuel with
    | O => Fuel
    | S f => do d <- insert_at data gap j; j_loop f d gap (j + gap)
    end
  else Ok data.

(* arrays.c 871: for (i = 0; i < gap; i++); m counts the remaining iterations *)
Fixpoint i_loop (m : nat) (data : list A) (gap i : nat) : outcome (list A) :=
  match m with
  | O => Ok data
  | S m' => do d <- j_loop (S (length data)) data gap i; i_loop m' d gap (S i)
  end.

(* arrays.c 867-870 *)
Fixpoint gap_loop (gaps : list nat) (data : list A) : outcome (list A) :=
  match gaps with
  | [] => Ok data
  | g :: r =>
    if Nat.ltb (Nat.div (length data) 2) g then gap_loop r data
    else do d <- i_loop g data g 0; gap_loop r d
  end.

(* arrays.c 862, walked from index 8 down to 0 *)
Definition gaps : list nat := [1750; 701; 301; 132; 57; 23; 10; 4; 1].

Definition memsort (data : list A) : outcome (list A) := gap_loop gaps data.
End Memsort.
