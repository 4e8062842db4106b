(* Host texts that are refused, and ports with a sign. *)
From Verif Require Import Base StrModel StrProofs AddrModel AddrProofs TextModel TextProofs2.
Local Open Scope Z_scope.

(* ---- Specification ---- *)
(* a part that stands for no number below 256: too large (in its low 32 bits), negative, or a sign without digits *)
Inductive bad_part : bytes -> Prop :=
| BHigh t v : literal t v -> v < 2 ^ 64 -> 256 <= v mod 2 ^ 32 -> bad_part t
| BNeg t v : literal t v -> v < 2 ^ 64 - 1 -> 256 <= (- v) mod 2 ^ 32 -> bad_part (45 :: t)
| BSign c : c = 43 \/ c = 45 -> bad_part [c].

(* ---- Lemmas ---- *)
Lemma wraps_bad v : 256 <= v mod 2 ^ 32 -> wraps 32 v < 0 \/ 256 <= wraps 32 v.
Proof. unfold wraps. change (2 ^ (32 - 1)) with 2147483648. change (2 ^ 32) with 4294967296. lia. Qed.

Lemma strtoul_minus c s : dig c -> exists v r, strtoul (c :: s) = (clip false v, r) /\ strtoul (45 :: c :: s) = (clip true v, r).
Proof.
  intros D. assert (W : isspace c = false).
  { unfold isspace, dig in *. destruct (Z.eqb_spec c 32), (Z.leb_spec 9 c), (Z.leb_spec c 13); try reflexivity; lia. }
  unfold strtoul. cbn [skip_ws]. rewrite W. change (isspace 45) with false. cbv iota.
  assert (S0 : sign (c :: s) = (false, c :: s)).
  { unfold dig in D. cbn [sign]. destruct (Z.eqb_spec c 43); [lia|]. destruct (Z.eqb_spec c 45); [lia|]. reflexivity. }
  rewrite S0. change (sign (45 :: c :: s)) with (true, c :: s). cbv iota beta zeta.
  assert (B : digitb c = true) by (unfold digitb, dig in *; lia).
  destruct (Z.eq_dec c 48) as [->|N].
  - destruct s as [|x [|h s]].
    + cbn [AddrModel.run]. change (octb 48) with true. cbv iota beta. eauto.
    + destruct (AddrModel.run octb (48 :: [x])) as [ds r]. eauto.
    + destruct (((x =? 120) || (x =? 88)) && hexb h); [destruct (AddrModel.run hexb (h :: s)) as [ds r]; eauto|].
      destruct (AddrModel.run octb (48 :: x :: h :: s)) as [ds r]. eauto.
  - assert (R : exists ds r, AddrModel.run digitb (c :: s) = (c :: ds, r)).
    { cbn [AddrModel.run]. rewrite B. destruct (AddrModel.run digitb s) as [ds r]. eauto. }
    destruct R as (ds & r & ->). exists (based 10 (c :: ds)), r.
    unfold dig in D. destruct c as [|q|q]; try lia. do 7 (destruct q as [q|q|]; try (split; reflexivity); try lia).
Qed.

Lemma literal_head t v : literal t v -> exists c s, t = c :: s /\ dig c.
Proof. destruct 1 as [c ds H F|ds F|x ds H N F]; eexists; eexists; (split; [reflexivity|]); unfold dig; lia. Qed.

Lemma octets_bad_step n t r acc : bad_part t -> dot_next r -> octets (S n) (t ++ r) acc = None.
Proof.
  intros H D. destruct H as [t v L B E|t v L B E|c E].
  - cbn [octets]. pose proof (literal_nonempty _ _ L) as N. pose proof (strtoul_literal t v r L B D) as X.
    destruct (t ++ r) as [|c k] eqn:Et; [destruct t; [congruence|discriminate]|]. rewrite X.
    destruct (wraps_bad _ E); [destruct (Z.ltb_spec (wraps 32 v) 0); [reflexivity|lia]|].
    destruct (Z.ltb_spec (wraps 32 v) 0); [reflexivity|]. destruct (Z.leb_spec 256 (wraps 32 v)); [reflexivity|lia].
  - destruct (literal_head _ _ L) as (c & s & -> & Dc).
    pose proof (strtoul_literal (c :: s) v r L ltac:(lia) D) as X. cbn [app] in *.
    destruct (strtoul_minus c (s ++ r) Dc) as (w & r' & E1 & E2). rewrite E1 in X.
    assert (Ew : w = v /\ r' = r).
    { injection X as X ->. split; [|reflexivity]. unfold clip in X. destruct (Z.leb_spec (2 ^ 64) w); [lia|exact X]. }
    destruct Ew as [-> ->]. cbn [octets]. rewrite E2.
    pose proof (literal_nonneg _ _ L) as P. unfold clip. destruct (Z.leb_spec (2 ^ 64) v); [lia|].
    assert (M : (wrapu 64 (- v)) mod 2 ^ 32 = (- v) mod 2 ^ 32).
    { unfold wrapu. change (2 ^ 64) with (2 ^ 32 * 2 ^ 32). rewrite Z.rem_mul_r by lia.
      rewrite Z.mul_comm, Z.mod_add by lia. apply Z.mod_mod. lia. }
    rewrite <- M in E. destruct (wraps_bad _ E); [destruct (Z.ltb_spec (wraps 32 (wrapu 64 (- v))) 0); [reflexivity|lia]|].
    destruct (Z.ltb_spec (wraps 32 (wrapu 64 (- v))) 0); [reflexivity|].
    destruct (Z.leb_spec 256 (wraps 32 (wrapu 64 (- v)))); [reflexivity|lia].
  - assert (X : strtoul (c :: r) = (0, c :: r)).
    { unfold strtoul. assert (W : isspace c = false) by (destruct E as [-> | ->]; reflexivity). cbn [skip_ws]. rewrite W.
      assert (Sg : exists b, sign (c :: r) = (b, r)) by (destruct E as [-> | ->]; cbn; eauto). destruct Sg as [b ->].
      destruct D as [-> | [k ->]]; reflexivity. }
    cbn [app octets]. rewrite X. change (wraps 32 0) with 0. cbn [Z.ltb Z.leb orb Z.compare].
    destruct E as [-> | ->]; reflexivity.
Qed.

Lemma octets_bad ts vs b r : Forall2 octet ts vs -> bad_part b -> dot_next r -> forall n acc, (length ts < n)%nat ->
  octets n (dotted (ts ++ [b]) ++ r) acc = None.
Proof.
  intros F Hb Hr. induction F as [|t a ts vs O F IH]; intros n acc L.
  - destruct n as [|n]; [lia|]. cbn [app]. unfold dotted. cbn [join]. now apply octets_bad_step.
  - destruct n as [|n]; [cbn in L; lia|]. unfold dotted in *.
    assert (E : join [46] ((t :: ts) ++ [b]) = t ++ 46 :: join [46] (ts ++ [b])) by (destruct ts; reflexivity).
    rewrite E, <- app_assoc. cbn [app]. rewrite (octets_step n t a _ acc O) by (right; eauto).
    cbn in L. apply IH. lia.
Qed.

(* good parts, at most three, then one that is no number below 256: no address, whatever follows *)
Lemma parse_bad_part af ts vs b r : Forall2 octet ts vs -> (length ts <= 3)%nat -> bad_part b -> dot_next r ->
  ~ In 47 (dotted (ts ++ [b]) ++ r) -> ~ In 93 (dotted (ts ++ [b]) ++ r) -> ~ In 58 (dotted (ts ++ [b]) ++ r) ->
  short_text (dotted (ts ++ [b]) ++ r) ->
  str_parseip af (dotted (ts ++ [b]) ++ r) = Ok (mkp (if af then Own else Null) None None (dotted (ts ++ [b]) ++ r)).
Proof.
  intros F L Hb Hr N1 N2 N3 B. rewrite parse_bare_body; [|exact B|].
  2:{ intros i [O _]. exfalso. eapply (no_occ _ slashes 47); [left; reflexivity|exact N1|exact O]. }
  rewrite body_noport by auto. cbn [andb]. cbv zeta. unfold scan_ip. rewrite (octets_bad ts vs b r) by (auto; lia). reflexivity.
Qed.

(* a port with a minus sign is taken as a negative number *)
Lemma atoi_minus t p : port_text t p -> atoi (45 :: t) = Ok (- p).
Proof.
  intros (ds & r & -> & Nu & B & St). pose proof (number_nonneg _ _ Nu) as P. destruct Nu as (N & F & V).
  unfold atoi. cbn [skip_ws]. change (isspace 45) with false. cbv iota. change (sign (45 :: ds ++ r)) with (true, ds ++ r). cbv iota beta zeta.
  rewrite (run_all _ _ _ (digs_b _ F) St). cbn [fst]. change (dval ds) with (value ds). rewrite V.
  destruct (Z.leb_spec (- 2 ^ 31) (- p)); [|lia]. destruct (Z.ltb_spec (- p) (2 ^ 31)); [reflexivity|lia].
Qed.

Lemma parse_minus_port host port p : no_number host -> ~ In 58 host -> (7 <= length host)%nat -> port_text port p ->
  ~ In 47 (host ++ 58 :: 45 :: port) -> ~ In 93 (host ++ 58 :: 45 :: port) -> short_text (host ++ 58 :: 45 :: port) ->
  str_parseip true (host ++ 58 :: 45 :: port) = Ok (mkp (Copied true host) None (Some (- p)) (host ++ 58 :: 45 :: port)).
Proof.
  intros NN N L P N1 N2 B. rewrite parse_bare_body; [|exact B|].
  2:{ intros i [O _]. exfalso. eapply (no_occ _ slashes 47); [left; reflexivity| |exact O]. exact N1. }
  unfold body_of. rewrite (pos_none _ close_colon B) by (apply (no_occ _ _ 93); [left; reflexivity|exact N2]). cbn [bind].
  change (3 <? -1) with false. cbv iota.
  rewrite (pos_some _ [58] (length host) B (first_at host 58 [] (45 :: port) N)). cbn [bind].
  destruct (Z.ltb_spec 6 (Z.of_nat (length host))); [|lia].
  rewrite Nat2Z.id. rewrite firstn_app, firstn_all, Nat.sub_diag, firstn_O, app_nil_r.
  assert (E : skipn (length host + 1) (host ++ 58 :: 45 :: port) = 45 :: port).
  { rewrite skipn_app, skipn_all2 by lia. replace (length host + 1 - length host)%nat with 1%nat by lia. reflexivity. }
  rewrite E. cbv zeta. cbn [cut_colon]. change (45 =? 58) with false. cbv iota.
  pose proof (port_cut port p P) as Q. destruct (cut_colon port) as [[a b]|]; rewrite (atoi_minus _ _ Q); cbn [bind];
    unfold scan_ip; now rewrite octets_name.
Qed.
