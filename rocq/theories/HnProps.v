From Verif Require Import Base HnModel HnProofs.
Local Open Scope Z_scope.

(* A task reads the address of the name it asked for if, from the moment its request is served (by any thread w, in any
   state), no other request is served until it calls gethostbyname_ip, and nobody calls gethostbyname_ip until it has read *)
Theorem C178_address_of_the_name_asked_for_partial : forall dns s w t n r a mid1 mid2 s', queue s w = (t, n) :: r -> dns n = Some a ->
  ~ In t (map fst r) -> (forall w', w' <> w -> ~ In t (map fst (queue s w'))) ->
  Forall no_lookup mid1 -> Forall (fun o => ~ acts t o) mid1 -> Forall no_ip mid2 -> Forall (fun o => ~ acts t o) mid2 ->
  run dns (Work w :: mid1 ++ Ip t :: mid2 ++ [Use t]) s = Ok s' -> exists h, used s' = h ++ [(t, Some a)].
Proof. exact right. Qed.
Print Assumptions C178_address_of_the_name_asked_for_partial.

(* a request is served once, and answered as the name is known or not; nothing else changes *)
Theorem C178_served_once : forall dns s w t n r, queue s w = (t, n) :: r ->
  exists s', run dns [Work w] s = Ok s' /\ queue s' w = r /\ (forall w', w' <> w -> queue s' w' = queue s w') /\
    got s' t = Some (match dns n with Some _ => true | None => false end) /\ (forall u, u <> t -> got s' u = got s u) /\
    used s' = used s /\ (dns n = None -> static_ s' = static_ s).
Proof. exact served. Qed.
Print Assumptions C178_served_once.

(* a task that has asked goes on only when its request was served, whatever others do and however often it asked before *)
Theorem C178_waits : forall dns t n w l s s', Forall (fun o => match o with Work _ => False | _ => True end) l ->
  run dns (Ask t n w :: l) s = Ok s' -> got s' t = None /\ filter (fun x => Nat.eqb (fst x) t) (used s') = filter (fun x => Nat.eqb (fst x) t) (used s).
Proof. exact waits. Qed.
Print Assumptions C178_waits.

Theorem C178_address_of_another_name_refuted : forall dns t u n m v w a b, t <> u -> dns n = Some a -> dns m = Some b ->
  exists s', run dns [Ask t n v; Work v; Ask u m w; Work w; Ip t; Use t] init = Ok s' /\ used s' = [(t, Some b)].
Proof. exact others_address. Qed.
Print Assumptions C178_address_of_another_name_refuted.

Theorem C178_text_of_another_task_refuted : forall dns t u n m v w a b, t <> u -> dns n = Some a -> dns m = Some b ->
  exists s', run dns [Ask t n v; Work v; Ip t; Ask u m w; Work w; Ip u; Use t] init = Ok s' /\ used s' = [(t, Some b)].
Proof. exact others_text. Qed.
Print Assumptions C178_text_of_another_task_refuted.

Theorem C178_unknown_name_refuted : forall dns t n w, dns n = None -> run dns [Ask t n w; Work w; Ip t] init = UB.
Proof. exact unknown. Qed.
Print Assumptions C178_unknown_name_refuted.

Definition dns_ (n : nat) : option Z := match n with 0%nat => Some 127 | 1%nat => Some 10 | _ => None end.
Example C178_applies : exists s1 s', run dns_ [Ask 5 1 2; Ask 6 0 3] init = Ok s1 /\ queue s1 2%nat = [(5%nat, 1%nat)] /\
  run dns_ ([Work 2] ++ [Ask 7 0 2] ++ [Ip 5] ++ [Work 3; Work 2; Use 7] ++ [Use 5])%nat s1 = Ok s' /\ used s' = [(7%nat, Some 10); (5%nat, Some 10)].
Proof. do 2 eexists. split; [cbv; reflexivity|]. split; [reflexivity|]. split; [cbv; reflexivity|]. reflexivity. Qed.

(* What async_inet_pton returns and leaves in memory (the addresses of a family all have one length n); a name that is no
   number is asked for whether resolve_src is set or not.  fits: the addresses of the family af that have room *)
Theorem C179_result_partial : forall all_ r af name dst dstlen src n, (all_ = 16 \/ all_ = 256) -> dstlen <= Z.of_nat (length dst) ->
  (forall l a, known r name = Some l -> In a l -> family a = af -> length (bytes_ a) = n) ->
  inet_pton all_ r af name dst dstlen src =
    Ok (match known r name with Some l => match fits af dstlen l with [] => 0 | _ => 1 end | None => 0 end,
        match known r name with Some l => match fits af dstlen l with [] => dst | f => last f [] ++ skipn n dst end | None => dst end,
        match numeric r name with Some _ => false | None => true end).
Proof. exact pton_result. Qed.
Print Assumptions C179_result_partial.

Theorem C179_nothing_behind_the_destination_is_written : forall all_ r af name dst dstlen src, 0 <= dstlen <= Z.of_nat (length dst) ->
  exists ret dst' q, inet_pton all_ r af name dst dstlen src = Ok (ret, dst', q) /\ length dst' = length dst /\
    skipn (Z.to_nat dstlen) dst' = skipn (Z.to_nat dstlen) dst.
Proof. exact pton_within. Qed.
Print Assumptions C179_nothing_behind_the_destination_is_written.

(* not the first address *)
Theorem C179_last_address_refuted : forall all_ r af name dst dstlen src a b, (all_ = 16 \/ all_ = 256) -> family a = af -> family b = af ->
  length (bytes_ a) = length (bytes_ b) -> dstlen = Z.of_nat (length (bytes_ a)) -> length dst = length (bytes_ a) -> numeric r name = None -> names r name = Some [a; b] ->
  inet_pton all_ r af name dst dstlen src = Ok (1, bytes_ b, true).
Proof. exact pton_last. Qed.
Print Assumptions C179_last_address_refuted.

(* resolve_src 0 does not keep names from being asked for *)
Theorem C179_name_asked_for_refuted : forall all_ r af name dst dstlen, (all_ = 16 \/ all_ = 256) -> dstlen <= Z.of_nat (length dst) -> numeric r name = None ->
  exists ret dst', inet_pton all_ r af name dst dstlen false = Ok (ret, dst', true).
Proof. exact (fun all_ r af name dst dstlen => pton_asks all_ r af name dst dstlen false). Qed.
Print Assumptions C179_name_asked_for_refuted.

(* the length that is given is believed *)
Theorem C179_wrong_length_refuted : forall all_ r af name dst dstlen src a l, (all_ = 16 \/ all_ = 256) -> known r name = Some (a :: l) -> family a = af ->
  Z.of_nat (length (bytes_ a)) <= dstlen -> (length dst < length (bytes_ a))%nat -> inet_pton all_ r af name dst dstlen src = UB.
Proof. exact believed. Qed.
Print Assumptions C179_wrong_length_refuted.

Example C179_applies : let r := mkResolver (fun n => if n =? 7 then Some [mkAddr 2 [2; 9]; mkAddr 10 [10; 8; 8; 8]] else None)
    (fun n => if n =? 5 then Some [mkAddr 2 [2; 1]; mkAddr 10 [10; 1; 1; 1]; mkAddr 2 [2; 3]] else None) in
  inet_pton 16 r 2 5 [0; 0; 0; 4] 3 true = Ok (1, [2; 3; 0; 4], true) /\
  inet_pton 16 r 10 5 [0; 0; 0; 4] 3 true = Ok (0, [0; 0; 0; 4], true) /\
  inet_pton 16 r 10 7 [0; 0; 0; 4] 4 false = Ok (1, [10; 8; 8; 8], false) /\
  inet_pton 16 r 2 6 [0; 0; 0; 4] 4 false = Ok (0, [0; 0; 0; 4], true).
Proof. repeat split. Qed.
