From Verif Require Import Base ErModel ErProofs.
Local Open Scope Z_scope.

(* Calls that fail with the errors es, then reports until none is left (the library keeps the last cap errors): what is
   reported is every second error, the first, third, ... being dropped, and 0 in place of the last if their number is odd *)
Theorem C180_what_is_reported_partial : forall cap size len es n, (0 < cap)%nat -> (255 < size)%nat -> Forall (fun e => e <> 0) es -> (length es <= 2 * n)%nat ->
  run cap size len (Fail es :: repeat Report n) [] [] = Ok ([], seconds (kept cap es)).
Proof. exact reported. Qed.
Print Assumptions C180_what_is_reported_partial.

(* calls that fail without a report in between: their errors are kept together *)
Theorem C180_failures_add_up : forall cap size len a b l q out, run cap size len (Fail a :: Fail b :: l) q out = run cap size len (Fail (a ++ b) :: l) q out.
Proof. exact fails_app. Qed.
Print Assumptions C180_failures_add_up.

Theorem C180_first_error_refuted : forall cap size len e es, (0 < cap)%nat -> (255 < size)%nat -> (length (e :: es) <= cap)%nat -> Forall (fun e => e <> 0) (e :: es) ->
  exists q, run cap size len [Fail (e :: es); Report] [] [] = Ok (q, [match es with [] => 0 | e2 :: _ => e2 end]) /\ (~ In e es -> ~ In e q).
Proof. exact first_dropped. Qed.
Print Assumptions C180_first_error_refuted.

Theorem C180_text_too_long_refuted : forall size len e1 e2 q, e1 <> 0 -> (size <= 255)%nat -> (size <= len e2)%nat -> ssl_error size len (e1 :: e2 :: q) = UB.
Proof. exact too_long. Qed.
Print Assumptions C180_text_too_long_refuted.

Example C180_applies : run 15 256 (fun _ => 84%nat) [Fail [5; 6; 7]; Report; Report; Report] [] [] = Ok ([], [6; 0]) /\
  run 15 64 (fun _ => 84%nat) [Fail [5; 6; 7]; Report] [] [] = UB.
Proof. split; vm_compute; reflexivity. Qed.

(* the text of a certificate, if a zero byte follows by chance *)
Theorem C181_text_partial : forall fill details text r, Forall (fun c => c <> 0) (text_of details text) ->
  block (written fill (details ++ text)) = text_of details text ++ 0 :: r ->
  x509_str fill true true true details text = Ok (Some (text_of details text)).
Proof. exact str_right. Qed.
Print Assumptions C181_text_partial.

(* in any case the result begins with the text *)
Theorem C181_begins_with_the_text_partial : forall fill details text s, Forall (fun c => c <> 0) (text_of details text) ->
  x509_str fill true true true details text = Ok (Some s) -> exists more, s = text_of details text ++ more.
Proof. exact str_begins. Qed.
Print Assumptions C181_begins_with_the_text_partial.

Theorem C181_null_if_a_call_fails : forall fill cert bio_new pem details text, cert && bio_new && pem = false ->
  x509_str fill cert bio_new pem details text = Ok None.
Proof. exact str_null. Qed.
Print Assumptions C181_null_if_a_call_fails.

(* the block has no byte left behind the text: memory behind it is read, whatever it holds *)
Theorem C181_block_full_refuted : forall fill details text, Forall (fun c => c <> 0) (text_of details text) ->
  sizes 0 0 (map (@length Z) (details ++ text)) = length (text_of details text) -> x509_str fill true true true details text = UB.
Proof. exact str_full. Qed.
Print Assumptions C181_block_full_refuted.

Theorem C181_two_pieces_refuted : forall fill a b, Forall (fun c => c <> 0) (a ++ b) -> a <> [] -> length b = (room (length a) - length a)%nat ->
  x509_str fill true true true [] [a; b] = UB.
Proof. exact str_full_two. Qed.
Print Assumptions C181_two_pieces_refuted.

Theorem C181_longer_refuted : forall fill details text x s, Forall (fun c => c <> 0) (text_of details text) ->
  (exists r, block (written fill (details ++ text)) = text_of details text ++ x :: r) -> x <> 0 ->
  x509_str fill true true true details text = Ok (Some s) -> s <> text_of details text.
Proof. exact str_longer. Qed.
Print Assumptions C181_longer_refuted.

Example C181_applies : x509_str (fun _ _ => 0) true true true [[1; 2]] [[3]] = Ok (Some [1; 2; 3]) /\
  x509_str (fun _ i => if Nat.eqb i 2 then 9 else 0) true true true [[1]] [[2]; []] = Ok (Some [1; 2; 9]) /\
  x509_str (fun _ _ => 0) true true true [] [[1; 2; 3]; [4; 5; 6; 7; 8]] = UB.
Proof. repeat split. Qed.
