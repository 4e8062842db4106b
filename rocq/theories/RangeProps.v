(* Property C81: integer and character ranges. *)
From Verif Require Import Base ArrayModel ArrayProofs RangeModel RangeProofs.

(* range(start, stop) holds start, start+1, ..., stop-1, whatever the allocator does. *)
Theorem C81_range_partial : forall moved q start stop,
  is_int start -> is_int stop -> (start - 1 <= stop)%Z -> (stop - start + 1 < 2 ^ 31)%Z ->
  exists b, range moved q start stop = Ok (Whole b) /\
    holds b (count_up start 1 (Z.to_nat (stop - start))) /\ b_type b = T_RANGE /\
    cap b = Z.to_nat (stop - start + 1).
Proof. exact range_spec. Qed.
Print Assumptions C81_range_partial.

Example C81_ex_range :
  is_int (-2) /\ is_int 3 /\
  match range true 64 (-2) 3 with Ok (Whole b) => elements b = Ok [-2; -1; 0; 1; 2]%Z | _ => False end.
Proof. unfold is_int. split; [lia|]. split; [lia|]. vm_compute. reflexivity. Qed.

(* A range that runs backwards by two or more: up to nine below, the block is cut below the size
   of its own header while claiming more than 2^63 slots, and any append writes outside it; from
   ten on the header itself is written outside the block (or through NULL). *)
Theorem C81_backwards_refuted : forall moved q start stop,
  is_int start -> is_int stop -> (stop < start - 1)%Z -> (- 2 ^ 31 <= stop - start)%Z ->
  if (start - stop <=? 10)%Z
  then exists bytes claimed, range moved q start stop = Ok (Cut bytes claimed) /\
       (0 < bytes < meta)%Z /\ (2 ^ 63 < claimed)%Z /\
       forall moved' v, append_ranged moved' (Cut bytes claimed) v = UB
  else range moved q start stop = UB.
Proof. exact range_backwards. Qed.
Print Assumptions C81_backwards_refuted.

Theorem C81_wide_range_overflows_refuted : forall moved q start stop,
  (stop - start + 1 < - 2 ^ 31 + 1 \/ 2 ^ 31 <= stop - start + 1)%Z -> range moved q start stop = UB.
Proof. exact range_wide. Qed.
Print Assumptions C81_wide_range_overflows_refuted.

(* range_char: one slot per byte; bytes from 128 on are sign-extended. *)
Theorem C81_characters : forall moved q text,
  Forall (fun c => 0 <= c < 256)%Z text ->
  exists b, range_char moved q text = Ok b /\ holds b (map word_of_byte text) /\
    b_type b = T_RANGE /\ cap b = length text + 1.
Proof. exact range_char_spec. Qed.
Print Assumptions C81_characters.

Example C81_ex_char :
  match range_char true 4 [65; 200]%Z with
  | Ok b => elements b = Ok [65; 18446744073709551560]%Z | _ => False end.
Proof. reflexivity. Qed.

(* rangeing(start, stop, steps): the values below stop, in steps. *)
Theorem C81_steps_count : forall start stop steps j, (0 < steps)%Z ->
  (Z.of_nat j < Z.of_nat (how_many start stop steps))%Z <-> (start + steps * Z.of_nat j < stop)%Z.
Proof. exact how_many_below. Qed.
Print Assumptions C81_steps_count.

Theorem C81_steps_partial : forall n q moves start stop steps,
  is_int start -> is_int stop -> is_int (stop - start) -> (0 < steps)%Z ->
  (stop + steps <= 2 ^ 31)%Z -> 0 < q -> how_many start stop steps <= n ->
  how_many start stop steps <= q \/ (forall k, moves k = false) ->
  exists b, rangeing n q moves start stop steps = Ok b /\
    holds b (count_up start steps (how_many start stop steps)) /\ b_type b = T_RANGE /\
    cap b = how_many start stop steps.
Proof. exact rangeing_spec. Qed.
Print Assumptions C81_steps_partial.

Example C81_ex_steps :
  how_many 1 12 3 = 4 /\
  match rangeing 9 4 (fun _ => true) 1 12 3 with Ok b => elements b = Ok [1; 4; 7; 10]%Z | _ => False end.
Proof. split; reflexivity. Qed.

(* More values than a new array has room for, and the first growth moves the block: the handle
   refers to freed memory. *)
Theorem C81_long_steps_refuted : forall q moves start stop steps,
  is_int start -> is_int stop -> is_int (stop - start) -> (0 < steps)%Z ->
  (stop + steps <= 2 ^ 31)%Z -> 0 < q -> q < how_many start stop steps -> moves q = true ->
  forall n, how_many start stop steps <= n -> rangeing n q moves start stop steps = UB.
Proof. exact rangeing_moved_refuted. Qed.
Print Assumptions C81_long_steps_refuted.

Example C81_ex_long : 4 < how_many 0 9 1 /\ rangeing 9 4 (fun _ => true) 0 9 1 = UB.
Proof. split; vm_compute; [repeat constructor|reflexivity]. Qed.

(* A step of zero never ends, and a step that is not positive never gives a result. *)
Theorem C81_zero_step_refuted : forall n q moves start stop,
  is_int start -> is_int (stop - start) -> (start < stop)%Z -> 0 < q -> (forall k, moves k = false) ->
  rangeing n q moves start stop 0 = Fuel.
Proof. exact rangeing_zero_step. Qed.
Print Assumptions C81_zero_step_refuted.

Theorem C81_downward_step_refuted : forall n q moves start stop steps b,
  (start < stop)%Z -> (steps <= 0)%Z -> rangeing n q moves start stop steps <> Ok b.
Proof. exact rangeing_not_up. Qed.
Print Assumptions C81_downward_step_refuted.

(* The addition after the last value may leave the int range although every value is in it. *)
Theorem C81_last_step_overflows_refuted : forall q moves start stop steps n,
  is_int start -> is_int stop -> is_int (stop - start) -> (0 < steps)%Z -> 0 < q ->
  how_many start stop steps <= q -> 0 < how_many start stop steps <= n ->
  (2 ^ 31 <= start + steps * Z.of_nat (how_many start stop steps))%Z ->
  rangeing n q moves start stop steps = UB.
Proof. exact rangeing_overflow. Qed.
Print Assumptions C81_last_step_overflows_refuted.

Example C81_ex_overflow :
  let start := (2 ^ 31 - 3)%Z in let stop := (2 ^ 31 - 1)%Z in
  how_many start stop 3 = 1 /\ rangeing 5 4 (fun _ => false) start stop 3 = UB.
Proof. split; vm_compute; reflexivity. Qed.

(* Appending to a range: any number of values while the block grows in place; the second one is undefined if it moves. *)
Theorem C81_append_partial : forall q start stop vs, is_int start -> is_int stop -> (start <= stop)%Z -> (stop - start + 1 < 2 ^ 31)%Z ->
  exists b b', range false q start stop = Ok (Whole b) /\ append_each false (Whole b) vs = Ok (Whole b') /\
    holds b' (count_up start 1 (Z.to_nat (stop - start)) ++ vs).
Proof. exact range_then_append. Qed.
Print Assumptions C81_append_partial.
Theorem C81_append_moved_refuted : forall q start stop v w vs, is_int start -> is_int stop -> (start <= stop)%Z -> (stop - start + 1 < 2 ^ 31)%Z ->
  exists b, range true q start stop = Ok (Whole b) /\ append_each true (Whole b) (v :: w :: vs) = UB.
Proof. exact range_append_moved. Qed.
Print Assumptions C81_append_moved_refuted.
Example C81_ex_append : match range false 4 3 6 with Ok r => match append_each false r [10; 11; 12]%Z with
  | Ok (Whole b) => b_size b = 6 /\ firstn 6 (b_cells b) = map Some [3; 4; 5; 10; 11; 12]%Z | _ => False end | _ => False end.
Proof. vm_compute. auto. Qed.
