From Verif Require Import Base StrModel UriModel UriProofs UfModel UfProofs.

(* [parse_uri] says whether and how the text is accepted (C55).  Memory is there: [allowed] *)
Theorem C160_accepted_uri_is_freed_whole : forall ans hostname str m u t, Wf m -> allowed ans m ->
  parse_uri hostname str = Ok (Some (u, t)) -> t <> TNone ->
  exists r m1 m2, parse_uri_ex ans hostname str m = Ok (Some r, m1) /\ uri_free r m1 = Ok m2 /\
    (forall b, In b (live m2) <-> In b (live m)) /\ length (live m2) = length (live m) /\
    length (live m1) = S (parts u) + length (live m) /\ uri_free r m2 = UB.
Proof. exact accepted_freed. Qed.
Print Assumptions C160_accepted_uri_is_freed_whole.

Theorem C160_parts_in_blocks_of_their_own : forall ans hostname str m u t, Wf m -> allowed ans m ->
  parse_uri hostname str = Ok (Some (u, t)) ->
  exists r m1, parse_uri_ex ans hostname str m = Ok (Some r, m1) /\ NoDup (blocks r) /\ length (blocks r) = S (parts u) /\
    (forall b, In b (blocks r) -> ~ In b (live m)) /\ (forall b, In b (live m1) <-> In b (blocks r) \/ In b (live m)) /\
    Wf m1 /\ r_type r = Some t /\ r_rej r = false.
Proof. exact accepted_ok. Qed.
Print Assumptions C160_parts_in_blocks_of_their_own.

(* a scheme that is none of the known ones: uri_free does nothing *)
Theorem C161_unknown_scheme_is_never_freed_refuted : forall ans hostname str m u, Wf m -> allowed ans m ->
  parse_uri hostname str = Ok (Some (u, TNone)) ->
  exists r m1, parse_uri_ex ans hostname str m = Ok (Some r, m1) /\ uri_free r m1 = Ok m1 /\ length (blocks r) = S (parts u) /\
    forall b, In b (blocks r) -> In b (live m1) /\ ~ In b (live m).
Proof. exact unknown_scheme_kept. Qed.
Print Assumptions C161_unknown_scheme_is_never_freed_refuted.

(* a refused text: the caller gets nothing, the record and its parts stay *)
Theorem C161_refused_uri_is_lost_refuted : forall ans hostname str m, Wf m -> allowed ans m -> str <> [] ->
  parse_uri hostname str = Ok None ->
  exists u m1, parse str = Ok u /\ parse_uri_ex ans hostname str m = Ok (None, m1) /\
    length (live m1) = S (parts u) + length (live m) /\ forall b, In b (live m) -> In b (live m1).
Proof. exact refused_kept. Qed.
Print Assumptions C161_refused_uri_is_lost_refuted.

(* whichever of the requests for memory is the first to fail *)
Theorem C161_no_memory_is_undefined_refuted : forall ans hostname str m u k, str <> [] -> parse str = Ok u -> k <= parts u ->
  (forall n, asked m <= n < asked m + k -> ans n = true) -> ans (asked m + k) = false -> parse_uri_ex ans hostname str m = UB.
Proof. exact no_memory_ub. Qed.
Print Assumptions C161_no_memory_is_undefined_refuted.

(* "ws://a.b/c": four parts; "zz://a.b": accepted, unknown; "ws://ab": refused *)
Definition ws_ : bytes := [119;115;58;47;47;97;46;98;47;99]%Z.
Definition zz_ : bytes := [122;122;58;47;47;97;46;98]%Z.
Definition no_ : bytes := [119;115;58;47;47;97;98]%Z.
Example C160_applies :
  (match parse_uri_ex (fun _ => true) [] ws_ (mkMem [] 0) with
   | Ok (Some r, m) => length (live m) = 4 /\ (match uri_free r m with Ok m2 => live m2 = [] | _ => False end)
   | _ => False end) /\
  (match parse_uri_ex (fun _ => true) [] zz_ (mkMem [] 0) with
   | Ok (Some r, m) => length (live m) = 3 /\ uri_free r m = Ok m
   | _ => False end) /\
  (match parse_uri_ex (fun _ => true) [] no_ (mkMem [] 0) with
   | Ok (None, m) => length (live m) = 3
   | _ => False end).
Proof. vm_compute. auto. Qed.
