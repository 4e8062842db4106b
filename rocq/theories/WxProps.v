(* Claims C122 and C123. *)
From Verif Require Import Base WxModel WxProofs.

Theorem C122_read_at a1 a2 a3 r f n off f' bs : pread a1 a2 a3 r f n off = (f', Some bs) ->
  got_spec f n off bs /\ f' = f /\ (0 <= off)%Z.
Proof. exact (pread_got a1 a2 a3 r f n off f' bs). Qed.
Theorem C122_read_works f n off k : small (pos f) -> (0 <= off)%Z -> exists bs, pread true true true (Some k) f n off = (f, Some bs).
Proof. exact (pread_works f n off k). Qed.
Theorem C122_read_changes_nothing a1 a2 a3 r f n off f' res : pread a1 a2 a3 r f n off = (f', res) -> dat f' = dat f.
Proof. exact (pread_keeps_bytes a1 a2 a3 r f n off f' res). Qed.
Theorem C122_write_at a1 a2 a3 w f bs off f' k : pwrite a1 a2 a3 w f bs off = (f', Some k) ->
  k <= length bs /\ (0 <= off)%Z /\ put_at (dat f) (Z.to_nat off) (firstn k bs) (dat f') /\ pos f' = pos f.
Proof. exact (pwrite_did a1 a2 a3 w f bs off f' k). Qed.
Theorem C122_write_works f bs off k : small (pos f) -> (0 <= off)%Z ->
  exists f', pwrite true true true (Some k) f bs off = (f', Some (Nat.min k (length bs))).
Proof. exact (pwrite_works f bs off k). Qed.
Theorem C122_failed_read_moves_refuted a3 f n off : small (pos f) -> (0 <= off)%Z ->
  pread true true a3 None f n off = ({| dat := dat f; pos := off |}, None).
Proof. exact (pread_moves a3 f n off). Qed.
Theorem C122_failed_write_moves_refuted a3 f bs off : small (pos f) -> (0 <= off)%Z ->
  pwrite true true a3 None f bs off = ({| dat := dat f; pos := off |}, None).
Proof. exact (pwrite_moves a3 f bs off). Qed.
Theorem C122_failed_write_wrote_refuted f bs off k : small (pos f) -> (0 <= off)%Z ->
  exists f', pwrite true true false (Some k) f bs off = (f', None) /\ put_at (dat f) (Z.to_nat off) (firstn k bs) (dat f').
Proof. exact (pwrite_lies f bs off k). Qed.
Theorem C122_far_descriptor_refuted a1 a2 a3 r f n off : (LONG_MAX < pos f)%Z -> pread a1 a2 a3 r f n off = (f, None).
Proof. exact (pread_far a1 a2 a3 r f n off). Qed.

Theorem C123_sent fuel rr ww fo fi o len fo' fi' off' res :
  (0 <= pos fi)%Z -> (0 <= pos fo)%Z -> (-1 <= o)%Z -> no_fail rr -> takes_all ww ->
  sendfile fuel true true rr ww fo fi (Some o) len = Ok (fo', fi', off', res) ->
  exists bs, has_at (dat fi) (Z.to_nat (begins fi o)) bs /\
    length bs = Nat.min len (length (dat fi) - Z.to_nat (begins fi o)) /\
    put_at (dat fo) (Z.to_nat (pos fo)) bs (dat fo') /\
    res = Z.of_nat (length bs) /\ dat fi' = dat fi /\ pos fi' = (begins fi o + Z.of_nat (length bs))%Z /\
    pos fo' = (pos fo + Z.of_nat (length bs))%Z.
Proof. exact (send_all fuel rr ww fo fi o len fo' fi' off' res). Qed.
Theorem C123_any_answers fuel sk rr ww fo fi o len fo' fi' off' res :
  (0 <= pos fi)%Z -> (0 <= pos fo)%Z -> (-1 <= o)%Z ->
  sendfile fuel true sk rr ww fo fi (Some o) len = Ok (fo', fi', off', res) ->
  exists cs, has_at (dat fi) (Z.to_nat (begins fi o)) (read_all cs) /\ length (read_all cs) <= len /\
    Forall (fun c => length (fst c) <= MAX_BUF /\ fst c <> [] /\ exists j k, ww j = Some k /\ snd c = Nat.min k (length (fst c))) cs /\
    put_at (dat fo) (Z.to_nat (pos fo)) (taken cs) (dat fo') /\
    pos fo' = (pos fo + Z.of_nat (length (taken cs)))%Z /\
    dat fi' = dat fi /\
    ((res = Z.of_nat (length (taken cs)) /\ pos fi' = (begins fi o + Z.of_nat (length (read_all cs)))%Z /\
      (length (read_all cs) = len \/ length (dat fi) <= Z.to_nat (begins fi o) + length (read_all cs))) \/
     (res = (-1)%Z /\ ((sk = false /\ o <> (-1)%Z) \/ exists j, rr j = None \/ ww j = None))).
Proof. exact (send_spec fuel sk rr ww fo fi o len fo' fi' off' res). Qed.
Theorem C123_returns fuel sk rr ww fo fi o len : len <= fuel -> exists x, sendfile fuel true sk rr ww fo fi (Some o) len = Ok x.
Proof. exact (send_returns fuel sk rr ww fo fi o len). Qed.
Theorem C123_offset_not_moved_refuted fuel sk rr ww fo fi o len fo' fi' off' res : (-1 <= o)%Z ->
  sendfile fuel true sk rr ww fo fi (Some o) len = Ok (fo', fi', off', res) ->
  off' = (if (o =? -1)%Z then 0 else if sk then o else -1)%Z.
Proof. exact (send_offset fuel sk rr ww fo fi o len fo' fi' off' res). Qed.
Theorem C123_short_write_loses_refuted a b c fo : pos fo = 0%Z -> dat fo = [] ->
  exists fi', sendfile 3 true true (fun i => match i with 0 => Some 2 | _ => Some 1 end) (fun _ => Some 1) fo
    {| dat := [a; b; c]; pos := 0%Z |} (Some 0%Z) 3 = Ok ({| dat := [a; c]; pos := 2%Z |}, fi', 0%Z, 2%Z).
Proof. exact (send_short a b c fo). Qed.
Theorem C123_late_failure_refuted a b fo : pos fo = 0%Z -> dat fo = [] ->
  exists fi', sendfile 2 true true (fun i => match i with 0 => Some 1 | _ => None end) (fun _ => Some 1) fo
    {| dat := [a; b]; pos := 0%Z |} (Some 0%Z) 2 = Ok ({| dat := [a]; pos := 1%Z |}, fi', 0%Z, (-1)%Z).
Proof. exact (send_fails_late a b fo). Qed.
Theorem C123_null_offset_refuted fuel sk rr ww fo fi len : sendfile fuel true sk rr ww fo fi None len = UB.
Proof. exact (send_null fuel sk rr ww fo fi len). Qed.

Example C122_ex : pread true true true (Some 9) {| dat := [1; 2; 3; 4; 5]%Z; pos := 1%Z |} 2 3%Z = ({| dat := [1; 2; 3; 4; 5]%Z; pos := 1%Z |}, Some [4; 5]%Z) /\
  pwrite true true true (Some 9) {| dat := [1; 2]%Z; pos := 1%Z |} [8; 9]%Z 3%Z = ({| dat := [1; 2; 0; 8; 9]%Z; pos := 1%Z |}, Some 2).
Proof. split; reflexivity. Qed.
(* the answers of the theorem exist, and two chunks are sent whole *)
Example C123_ex : takes_all (fun _ => Some MAX_BUF) /\ no_fail (fun _ => Some 2) /\
  send_loop 9 (fun _ => Some 2) (fun _ => Some 9) 9 0 {| dat := []; pos := 0%Z |} {| dat := [1; 2; 3; 4; 5]%Z; pos := 1%Z |} 9 0%Z
  = Ok ({| dat := [2; 3; 4; 5]%Z; pos := 4%Z |}, {| dat := [1; 2; 3; 4; 5]%Z; pos := 5%Z |}, 4%Z).
Proof. split; [intros i; exists MAX_BUF; auto|]. split; [discriminate|]. vm_compute. reflexivity. Qed.

Print Assumptions C122_read_at.
Print Assumptions C122_read_works.
Print Assumptions C122_read_changes_nothing.
Print Assumptions C122_write_at.
Print Assumptions C122_write_works.
Print Assumptions C122_failed_read_moves_refuted.
Print Assumptions C122_failed_write_moves_refuted.
Print Assumptions C122_failed_write_wrote_refuted.
Print Assumptions C122_far_descriptor_refuted.
Print Assumptions C123_sent.
Print Assumptions C123_any_answers.
Print Assumptions C123_returns.
Print Assumptions C123_offset_not_moved_refuted.
Print Assumptions C123_short_write_loses_refuted.
Print Assumptions C123_late_failure_refuted.
Print Assumptions C123_null_offset_refuted.
