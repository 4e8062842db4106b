(* Specification and proofs for AddrModel. *)
From Verif Require Import Base StrModel AddrModel.
Local Open Scope Z_scope.

(* ---- specification: a number written in decimal digits ---- *)
Definition dig (c : Z) : Prop := 48 <= c <= 57.
Definition value (ds : bytes) : Z := fold_left (fun v c => 10 * v + (c - 48)) ds 0.
Definition number (ds : bytes) (v : Z) : Prop := ds <> [] /\ Forall dig ds /\ value ds = v.
(* first octet in the top byte *)
Definition ip4 (a b c d : Z) : Z := a * 2 ^ 24 + b * 2 ^ 16 + c * 2 ^ 8 + d.

(* ---- scanning ---- *)
Definition stops (p : Z -> bool) (s : bytes) : Prop := match s with [] => True | c :: _ => p c = false end.
Lemma run_all p ds r : Forall (fun c => p c = true) ds -> stops p r -> run p (ds ++ r) = (ds, r).
Proof.
  induction ds as [|c ds IH]; intros F S; cbn [app run].
  - destruct r as [|c r]; [reflexivity|]. cbn in *. now rewrite S.
  - inversion F; subst. now rewrite H1, IH.
Qed.
Lemma dig_b c : dig c -> digitb c = true.
Proof. unfold dig, digitb. intros H. apply andb_true_intro. split; apply Z.leb_le; lia. Qed.
Lemma digs_b ds : Forall dig ds -> Forall (fun c => digitb c = true) ds.
Proof. apply Forall_impl. exact dig_b. Qed.
Lemma dig_not_ws c : dig c -> isspace c = false.
Proof.
  unfold dig, isspace. intros H. destruct (Z.eqb_spec c 32); [lia|]. destruct (Z.leb_spec 9 c), (Z.leb_spec c 13); cbn; try reflexivity; lia.
Qed.
Lemma head_num ds r : Forall dig ds -> ds <> [] -> skip_ws (ds ++ r) = ds ++ r /\ sign (ds ++ r) = (false, ds ++ r).
Proof.
  intros F N. destruct ds as [|c ds]; [now destruct N|]. inversion F as [|? ? H _]; subst. cbn [app skip_ws sign].
  rewrite dig_not_ws by assumption. split; [reflexivity|]. unfold dig in H.
  destruct (Z.eqb_spec c 43); [lia|]. destruct (Z.eqb_spec c 45); [lia|]. reflexivity.
Qed.
Lemma scan_num ds v r : number ds v -> v < 2 ^ 32 -> stops digitb r -> scan_u (ds ++ r) = Ok (Some (v, r)).
Proof.
  intros (N & F & V) B S. unfold scan_u. destruct (head_num ds r F N) as [-> ->]. rewrite (run_all _ _ _ (digs_b _ F) S).
  destruct ds as [|c ds]; [now destruct N|]. change (dval (c :: ds)) with (value (c :: ds)). rewrite V.
  apply Z.ltb_lt in B. now rewrite B.
Qed.
Lemma scan_num_lit ds v c r : number ds v -> v < 2 ^ 32 -> digitb c = false -> scan_lit c (ds ++ c :: r) = Ok (Some (v, r)).
Proof. intros N B S. unfold scan_lit. rewrite (scan_num ds v (c :: r)) by auto. cbn. now rewrite Z.eqb_refl. Qed.

Definition quad (da db dc dd dp : bytes) : bytes := da ++ 46 :: db ++ 46 :: dc ++ 46 :: dd ++ 58 :: dp.
Lemma scan_quad_ok da db dc dd dp a b c d p r : number da a -> number db b -> number dc c -> number dd d -> number dp p ->
  a < 2 ^ 32 -> b < 2 ^ 32 -> c < 2 ^ 32 -> d < 2 ^ 32 -> p < 2 ^ 32 -> stops digitb r ->
  scan_quad (quad da db dc dd dp ++ r) = Ok (Some (a, b, c, d, p)).
Proof.
  intros. unfold scan_quad, quad.
  repeat (rewrite <- app_assoc; cbn [app]).
  rewrite (scan_num_lit da a) by auto. cbn [bind]. rewrite (scan_num_lit db b) by auto. cbn [bind].
  rewrite (scan_num_lit dc c) by auto. cbn [bind]. rewrite (scan_num_lit dd d) by auto. cbn [bind].
  rewrite (scan_num dp p r) by auto. reflexivity.
Qed.

Lemma value_nonneg ds : Forall dig ds -> 0 <= value ds.
Proof.
  intros F. unfold value. assert (G : forall l v, Forall dig l -> 0 <= v -> 0 <= fold_left (fun v c => 10 * v + (c - 48)) l v).
  { induction l as [|c l IH]; intros v FL V; [exact V|]. inversion FL; subst. cbn [fold_left]. apply IH; [assumption|]. unfold dig in *. lia. }
  apply G; [exact F|lia].
Qed.
Lemma number_nonneg ds v : number ds v -> 0 <= v.
Proof. intros (_ & F & <-). now apply value_nonneg. Qed.

Lemma lor_add x y n : 0 < n -> 0 <= y < 2 ^ n -> Z.lor (x * 2 ^ n) y = x * 2 ^ n + y.
Proof.
  intros N H. rewrite Z.add_nocarry_lxor, Z.lxor_lor; [reflexivity| |].
  all: apply Z.bits_inj'; intros k K; rewrite Z.land_spec, Z.bits_0;
    destruct (Z.ltb_spec k n); [rewrite Z.mul_pow2_bits_low by lia; reflexivity|];
    rewrite (Z.bits_above_log2 y k), andb_false_r; [reflexivity|lia|];
    destruct (Z.eq_dec y 0) as [->|]; [cbn; lia|]; apply Z.log2_lt_pow2; [lia|]; apply Z.lt_le_trans with (2 ^ n); [lia|apply Z.pow_le_mono_r; lia].
Qed.
Lemma pack a b c d : 0 <= a < 256 -> 0 <= b < 256 -> 0 <= c < 256 -> 0 <= d < 256 ->
  Z.lor (Z.lor (Z.lor (u32 (Z.shiftl a 24)) (u32 (Z.shiftl b 16))) (u32 (Z.shiftl c 8))) d = ip4 a b c d.
Proof.
  intros. unfold u32, wrapu, ip4. rewrite !Z.shiftl_mul_pow2 by lia. rewrite !Z.mod_small by lia.
  rewrite (lor_add a (b * 2 ^ 16) 24) by lia.
  replace (a * 2 ^ 24 + b * 2 ^ 16) with ((a * 2 ^ 8 + b) * 2 ^ 16) by lia. rewrite lor_add by lia.
  replace ((a * 2 ^ 8 + b) * 2 ^ 16 + c * 2 ^ 8) with (((a * 2 ^ 8 + b) * 2 ^ 8 + c) * 2 ^ 8) by lia. rewrite lor_add by lia. lia.
Qed.

(* dotted quad with port: address and port are exactly those in the text, whatever follows *)
Lemma parse_quad res4 res6 da db dc dd dp a b c d p r : number da a -> number db b -> number dc c -> number dd d -> number dp p ->
  a < 256 -> b < 256 -> c < 256 -> d < 256 -> p < 65536 -> stops digitb r ->
  parse_addr res4 res6 (quad da db dc dd dp ++ r) = Ok (V4 (ip4 a b c d) p).
Proof.
  intros A B C D P. intros.
  pose proof (number_nonneg _ _ A). pose proof (number_nonneg _ _ B). pose proof (number_nonneg _ _ C).
  pose proof (number_nonneg _ _ D). pose proof (number_nonneg _ _ P).
  unfold parse_addr. rewrite (scan_quad_ok da db dc dd dp a b c d p r) by (assumption || lia). cbn [bind].
  rewrite pack by lia. unfold u16, wrapu. now rewrite Z.mod_small by lia.
Qed.
(* a port above 65535 is accepted and reduced *)
Lemma parse_port_wraps res4 res6 da db dc dd dp a b c d p : number da a -> number db b -> number dc c -> number dd d -> number dp p ->
  a < 256 -> b < 256 -> c < 256 -> d < 256 -> 65536 <= p < 2 ^ 32 ->
  exists q, parse_addr res4 res6 (quad da db dc dd dp) = Ok (V4 (ip4 a b c d) q) /\ q = p mod 65536 /\ q <> p.
Proof.
  intros A B C D P. intros.
  pose proof (number_nonneg _ _ A). pose proof (number_nonneg _ _ B). pose proof (number_nonneg _ _ C).
  pose proof (number_nonneg _ _ D).
  exists (p mod 65536). split; [|split; [reflexivity|pose proof (Z.mod_pos_bound p 65536 ltac:(lia)); lia]].
  rewrite <- (app_nil_r (quad da db dc dd dp)).
  unfold parse_addr. rewrite (scan_quad_ok da db dc dd dp a b c d p []) by (assumption || lia || exact I). cbn [bind].
  rewrite pack by lia. reflexivity.
Qed.
(* an octet of 256 is accepted and spills into its neighbour *)
Lemma parse_octet_spills res4 res6 da db dc dd dp a b c p : number da a -> number db b -> number dc c -> number dd 256 -> number dp p ->
  a < 256 -> b < 256 -> c < 256 -> p < 65536 ->
  parse_addr res4 res6 (quad da db dc dd dp) = Ok (V4 (ip4 a b (Z.lor c 1) 0) p).
Proof.
  intros A B C D P. intros.
  pose proof (number_nonneg _ _ A). pose proof (number_nonneg _ _ B). pose proof (number_nonneg _ _ C). pose proof (number_nonneg _ _ P).
  rewrite <- (app_nil_r (quad da db dc dd dp)).
  unfold parse_addr. rewrite (scan_quad_ok da db dc dd dp a b c 256 p []) by (assumption || lia || exact I). cbn [bind].
  assert (L : 0 <= Z.lor c 1 < 256).
  { split; [apply Z.lor_nonneg; lia|]. destruct (Z.eq_dec (Z.lor c 1) 0) as [->|N]; [lia|].
    change 256 with (2 ^ 8). apply Z.log2_lt_pow2; [pose proof (proj2 (Z.lor_nonneg c 1)); lia|]. rewrite Z.log2_lor by lia.
    apply Z.max_lub_lt; [destruct (Z.eq_dec c 0) as [->|]; [cbn; lia|apply Z.log2_lt_pow2; lia]|cbn; lia]. }
  rewrite <- (pack a b (Z.lor c 1) 0) by lia. unfold u16, wrapu. rewrite (Z.mod_small p) by (change (2 ^ 16) with 65536; lia).
  do 2 f_equal. unfold u32, wrapu. rewrite !Z.shiftl_mul_pow2 by lia. rewrite !Z.mod_small by lia. rewrite Z.lor_0_r.
  rewrite <- Z.lor_assoc. f_equal. rewrite <- !Z.shiftl_mul_pow2 by lia. rewrite Z.shiftl_lor. reflexivity.
Qed.

(* any text that starts with a number other than zero and is not a complete quad:port is taken for a
   port number, and the port becomes 1 on the wildcard address *)
Lemma nonzero_lead c ds r : 49 <= c <= 57 -> Forall dig ds -> stops digitb r -> strtoul_nonzero (c :: ds ++ r) = true.
Proof.
  intros H F S. unfold strtoul_nonzero. assert (D : dig c) by (unfold dig; lia).
  destruct (head_num [c] (ds ++ r)) as [E1 E2]; [auto|discriminate|]. cbn [app] in E1, E2. rewrite E1, E2.
  change (c :: ds ++ r) with ((c :: ds) ++ r).
  assert (R : fst (run digitb ((c :: ds) ++ r)) = c :: ds) by (rewrite run_all; [reflexivity|apply digs_b; auto|exact S]).
  assert (X : existsb (fun c : Z => negb (c =? 48)) (fst (run digitb ((c :: ds) ++ r))) = true).
  { rewrite R. cbn. destruct (Z.eqb_spec c 48); [lia|reflexivity]. }
  cbn [app]. cbn [app] in X. assert (c <> 48) by lia.
  destruct c as [|q|q]; try exact X. do 6 (destruct q as [q|q|]; try exact X). lia.
Qed.
Lemma scan_v6_digit c s : 49 <= c <= 57 -> scan_v6 (c :: s) = Ok None.
Proof. intros H. unfold scan_v6, lit. destruct (Z.eqb_spec c 91); [lia|reflexivity]. Qed.
Lemma parse_number_first res4 res6 c ds r : 49 <= c <= 57 -> Forall dig ds -> stops digitb r -> scan_quad (c :: ds ++ r) = Ok None ->
  parse_addr res4 res6 (c :: ds ++ r) = Ok (V4 0 1).
Proof.
  intros H F S Q. unfold parse_addr. rewrite Q. cbn [bind]. rewrite scan_v6_digit by assumption. cbn [bind].
  now rewrite nonzero_lead.
Qed.
(* a bare port number *)
Lemma parse_bare_port res4 res6 c ds p : 49 <= c <= 57 -> number (c :: ds) p -> p < 2 ^ 32 ->
  parse_addr res4 res6 (c :: ds) = Ok (V4 0 1).
Proof.
  intros H N B. destruct N as (NE & F & V). pose proof (Forall_inv_tail F) as F'. rewrite <- (app_nil_r (c :: ds)). cbn [app].
  apply parse_number_first; [exact H|exact F'|exact I|].
  unfold scan_quad, scan_lit. change (c :: ds ++ []) with ((c :: ds) ++ []). rewrite (scan_num (c :: ds) p []); [reflexivity|repeat split; auto|exact B|exact I].
Qed.
(* a dotted quad without a port: the address is lost *)
Lemma parse_no_port res4 res6 c ds db dc dd a b cc d : 49 <= c <= 57 -> number (c :: ds) a -> number db b -> number dc cc -> number dd d ->
  a < 2 ^ 32 -> b < 2 ^ 32 -> cc < 2 ^ 32 -> d < 2 ^ 32 ->
  parse_addr res4 res6 ((c :: ds) ++ 46 :: db ++ 46 :: dc ++ 46 :: dd) = Ok (V4 0 1).
Proof.
  intros H A B C D La Lb Lc Ld. pose proof A as (_ & F & _). pose proof (Forall_inv_tail F) as F'. cbn [app].
  apply parse_number_first; [exact H|exact F'|reflexivity|].
  unfold scan_quad. change (c :: ds ++ 46 :: db ++ 46 :: dc ++ 46 :: dd) with ((c :: ds) ++ 46 :: db ++ 46 :: dc ++ 46 :: dd).
  rewrite (scan_num_lit (c :: ds) a) by auto. cbn [bind]. rewrite (scan_num_lit db b) by auto. cbn [bind].
  rewrite (scan_num_lit dc cc) by auto. cbn [bind]. unfold scan_lit. rewrite <- (app_nil_r dd). rewrite (scan_num dd d []) by (auto; exact I). reflexivity.
Qed.

(* host name and port: port kept (names not starting like a number or a bracket) *)
Lemma cut_colon_app name rest : ~ In 58 name -> cut_colon (name ++ 58 :: rest) = Some (name, rest).
Proof.
  induction name as [|c n IH]; intros N; cbn [app cut_colon]; [reflexivity|].
  destruct (Z.eqb_spec c 58); [exfalso; apply N; now left|]. rewrite IH; [reflexivity|]. intros K; apply N; now right.
Qed.
Definition letter (c : Z) : Prop := 65 <= c <= 90 \/ 97 <= c <= 122.
Lemma letter_facts c s : letter c -> scan_quad (c :: s) = Ok None /\ scan_v6 (c :: s) = Ok None /\ strtoul_nonzero (c :: s) = false.
Proof.
  intros L. assert (W : isspace c = false).
  { unfold isspace, letter in *. destruct (Z.eqb_spec c 32); [lia|]. destruct (Z.leb_spec 9 c), (Z.leb_spec c 13); cbn; try reflexivity; lia. }
  assert (SG : sign (c :: s) = (false, c :: s)).
  { unfold sign, letter in *. destruct (Z.eqb_spec c 43); [lia|]. destruct (Z.eqb_spec c 45); [lia|]. reflexivity. }
  assert (DB : digitb c = false).
  { unfold digitb, letter in *. destruct (Z.leb_spec 48 c), (Z.leb_spec c 57); cbn; try reflexivity; lia. }
  split; [|split].
  - unfold scan_quad, scan_lit, scan_u. cbn [skip_ws]. rewrite W, SG. cbn [run]. now rewrite DB.
  - unfold scan_v6, lit. unfold letter in L. destruct (Z.eqb_spec c 91); [lia|reflexivity].
  - unfold strtoul_nonzero. cbn [skip_ws]. rewrite W, SG. unfold letter in L.
    assert (N : c <> 48) by lia.
    assert (X : existsb (fun c : Z => negb (c =? 48)) (fst (run digitb (c :: s))) = false) by (cbn [run]; now rewrite DB).
    destruct c as [|q|q]; try exact X. do 6 (destruct q as [q|q|]; try exact X). lia.
Qed.
Lemma parse_name_port res4 res6 c name dp p ip : letter c -> ~ In 58 (c :: name) -> (length (c :: name) < 260)%nat ->
  number dp p -> p < 65536 -> res4 (c :: name) = Some ip ->
  parse_addr res4 res6 ((c :: name) ++ 58 :: dp) = Ok (V4 ip p).
Proof.
  intros L NC LN P B R. pose proof (number_nonneg _ _ P). cbn [app]. destruct (letter_facts c (name ++ 58 :: dp) L) as (Q & V & T).
  unfold parse_addr. rewrite Q. cbn [bind]. rewrite V. cbn [bind]. rewrite T.
  change (c :: name ++ 58 :: dp) with ((c :: name) ++ 58 :: dp). rewrite cut_colon_app by assumption.
  destruct (Z.leb_spec 260 (Z.of_nat (length (c :: name)))); [lia|]. rewrite R.
  rewrite <- (app_nil_r dp). rewrite (scan_num dp p []) by (auto; exact I || lia). cbn [bind]. unfold u16, wrapu. now rewrite Z.mod_small by lia.
Qed.

(* ---- numbers as the C library reads them: white space, a sign, digits ---- *)
Definition blanks (ws : bytes) : Prop := Forall (fun c => c = 32 \/ 9 <= c <= 13) ws.
Inductive csign : bytes -> bool -> Prop := NoSign : csign [] false | Plus : csign [43] false | Minus : csign [45] true.
Definition numeral (ws sg ds : bytes) (neg : bool) (v : Z) : Prop := blanks ws /\ csign sg neg /\ number ds v.
Definition signed (neg : bool) (v : Z) : Z := if neg then - v else v.

Lemma skip_blanks ws r : blanks ws -> skip_ws (ws ++ r) = skip_ws r.
Proof.
  induction 1 as [|c ws H F IH]; [reflexivity|]. cbn [app skip_ws]. unfold isspace.
  assert (E : ((c =? 32) || ((9 <=? c) && (c <=? 13)))%bool = true).
  { destruct H as [-> | H]; [reflexivity|]. apply orb_true_iff. right. apply andb_true_iff. split; apply Z.leb_le; lia. }
  now rewrite E.
Qed.
Lemma skip_sign sg neg ds r v : csign sg neg -> number ds v -> skip_ws (sg ++ ds ++ r) = sg ++ ds ++ r /\ sign (sg ++ ds ++ r) = (neg, ds ++ r).
Proof.
  intros S (N & F & _). destruct S; cbn [app].
  - now apply head_num.
  - split; reflexivity.
  - split; reflexivity.
Qed.
Lemma scan_numeral ws sg ds neg v r : numeral ws sg ds neg v -> v < 2 ^ 32 -> stops digitb r ->
  scan_u (ws ++ sg ++ ds ++ r) = Ok (Some (signed neg v mod 2 ^ 32, r)).
Proof.
  intros (W & S & N) B ST. unfold scan_u. rewrite skip_blanks by exact W.
  destruct (skip_sign sg neg ds r v S N) as [-> ->]. pose proof (number_nonneg _ _ N). destruct N as (NE & F & V).
  rewrite (run_all _ _ _ (digs_b _ F) ST). destruct ds as [|c ds]; [now destruct NE|]. change (dval (c :: ds)) with (value (c :: ds)).
  rewrite V. apply Z.ltb_lt in B as B'. rewrite B'. unfold signed, wrapu. destruct neg; [reflexivity|]. now rewrite Z.mod_small by lia.
Qed.
Lemma u16_signed neg v : u16 (signed neg v mod 2 ^ 32) = signed neg v mod 65536.
Proof.
  unfold u16, wrapu.
  change (2 ^ 32) with (65536 * 65536). change (2 ^ 16) with 65536.
  rewrite Z.rem_mul_r by lia. rewrite (Z.mul_comm 65536 ((_ / _) mod _)), Z.mod_add by lia. now rewrite Z.mod_mod by lia.
Qed.

(* ---- first bytes that no number starts with ---- *)
Definition plain (c : Z) : Prop := ~ (c = 32 \/ 9 <= c <= 13) /\ c <> 43 /\ c <> 45 /\ ~ dig c.
Lemma plain_facts c s : plain c -> scan_u (c :: s) = Ok None /\ scan_quad (c :: s) = Ok None /\ strtoul_nonzero (c :: s) = false.
Proof.
  intros (W & P & M & D). assert (WB : isspace c = false).
  { unfold isspace. destruct (Z.eqb_spec c 32); [lia|]. destruct (Z.leb_spec 9 c), (Z.leb_spec c 13); cbn; try reflexivity; lia. }
  assert (SG : sign (c :: s) = (false, c :: s)).
  { unfold sign. destruct (Z.eqb_spec c 43); [lia|]. destruct (Z.eqb_spec c 45); [lia|]. reflexivity. }
  assert (DB : digitb c = false).
  { unfold digitb, dig in *. destruct (Z.leb_spec 48 c), (Z.leb_spec c 57); cbn; try reflexivity; lia. }
  assert (U : scan_u (c :: s) = Ok None).
  { unfold scan_u. cbn [skip_ws]. rewrite WB, SG. cbn [run]. now rewrite DB. }
  split; [exact U|]. split.
  - unfold scan_quad, scan_lit. rewrite U. reflexivity.
  - unfold strtoul_nonzero. cbn [skip_ws]. rewrite WB, SG. assert (N : c <> 48) by (unfold dig in D; lia).
    assert (X : existsb (fun c : Z => negb (c =? 48)) (fst (run digitb (c :: s))) = false) by (cbn [run]; now rewrite DB).
    destruct c as [|q|q]; try exact X. do 6 (destruct q as [q|q|]; try exact X). lia.
Qed.
Lemma scan_v6_not c s : c <> 91 -> scan_v6 (c :: s) = Ok None.
Proof. intros H. unfold scan_v6, lit. destruct (Z.eqb_spec c 91); [lia|reflexivity]. Qed.

(* ---- [address]:port ---- *)
Lemma run_name name r : ~ In 93 name -> run (fun c => negb (c =? 93)) (name ++ 93 :: r) = (name, 93 :: r).
Proof.
  intros N. apply run_all; [|reflexivity]. apply Forall_forall. intros x X. destruct (Z.eqb_spec x 93); [subst; now destruct N|reflexivity].
Qed.
Lemma plain_91 : plain 91.
Proof. unfold plain, dig. lia. Qed.
Lemma parse_v6 res4 res6 name ws sg dp neg p ip r : name <> [] -> (length name <= 49)%nat -> ~ In 93 name ->
  numeral ws sg dp neg p -> p < 2 ^ 32 -> stops digitb r -> res6 name = Some ip ->
  parse_addr res4 res6 (91 :: name ++ 93 :: 58 :: ws ++ sg ++ dp ++ r) = Ok (V6 ip (signed neg p mod 65536)).
Proof.
  intros NE LN NI N B ST R. destruct (plain_facts 91 (name ++ 93 :: 58 :: ws ++ sg ++ dp ++ r) plain_91) as (_ & Q & _).
  unfold parse_addr. rewrite Q. cbn [bind]. unfold scan_v6. unfold lit at 1. rewrite Z.eqb_refl. rewrite run_name by exact NI.
  rewrite firstn_all2, skipn_all2 by lia. destruct name as [|n0 name]; [now destruct NE|]. cbn [app]. unfold lit at 1. rewrite Z.eqb_refl.
  unfold lit. rewrite Z.eqb_refl. rewrite (scan_numeral ws sg dp neg p r N B ST). cbn [bind]. rewrite R. now rewrite u16_signed.
Qed.
(* a longer name is not shortened to 49 bytes: the bracket form is refused *)
Lemma long_v6 name r : (49 < length name)%nat -> ~ In 93 name -> scan_v6 (91 :: name ++ 93 :: r) = Ok None.
Proof.
  intros LN NI. unfold scan_v6. unfold lit at 1. rewrite Z.eqb_refl. rewrite run_name by exact NI.
  destruct (firstn 49 name) as [|f0 f] eqn:E; [reflexivity|].
  destruct (skipn 49 name) as [|s0 s] eqn:E2.
  { pose proof (skipn_length 49 name) as L. rewrite E2 in L. cbn in L. lia. }
  cbn [app]. unfold lit. destruct (Z.eqb_spec s0 93); [|reflexivity]. subst. exfalso. apply NI.
  rewrite <- (firstn_skipn 49 name), E2. apply in_or_app. right. now left.
Qed.
Lemma cut_name s : match cut_colon s with Some (a, b) => s = a ++ 58 :: b /\ ~ In 58 a | None => ~ In 58 s end.
Proof.
  induction s as [|c r IH]; cbn [cut_colon]; [now intros []|]. destruct (Z.eqb_spec c 58) as [-> | N]; [now split; [reflexivity|intros []]|].
  destruct (cut_colon r) as [[a b]|]; [|intros [H|H]; auto]. destruct IH as [-> I]. split; [reflexivity|]. intros [H|H]; auto.
Qed.
Definition unknown (res4 : bytes -> option Z) (res6 : bytes -> option nat) (name : bytes) : Prop := res4 name = None /\ res6 name = None.
Lemma parse_v6_long res4 res6 name r : (49 < length name)%nat -> ~ In 93 name -> (forall n, unknown res4 res6 (91 :: n)) ->
  parse_addr res4 res6 (91 :: name ++ 93 :: r) = Ok Fail.
Proof.
  intros LN NI U. destruct (plain_facts 91 (name ++ 93 :: r) plain_91) as (_ & Q & T).
  unfold parse_addr. rewrite Q. cbn [bind]. rewrite long_v6 by assumption. cbn [bind]. rewrite T.
  pose proof (cut_name (91 :: name ++ 93 :: r)) as C. destruct (cut_colon (91 :: name ++ 93 :: r)) as [[a b]|]; [|reflexivity].
  destruct C as [C _]. destruct a as [|a0 a]; [discriminate|]. injection C as C0 C1. subst a0. destruct (U a) as [-> ->].
  now destruct (260 <=? Z.of_nat (length (91 :: a))).
Qed.

(* ---- name:port ---- *)
Definition lookup (res4 : bytes -> option Z) (res6 : bytes -> option nat) (name : bytes) (port : Z) : addr :=
  match res4 name, res6 name with Some ip, _ => V4 ip port | None, Some ip => V6 ip port | None, None => Fail end.
Lemma parse_name res4 res6 c name ws sg dp neg p r : plain c -> c <> 91 -> ~ In 58 (c :: name) ->
  numeral ws sg dp neg p -> p < 2 ^ 32 -> stops digitb r ->
  parse_addr res4 res6 ((c :: name) ++ 58 :: ws ++ sg ++ dp ++ r) =
    Ok (if (length (c :: name) <? 260)%nat then lookup res4 res6 (c :: name) (signed neg p mod 65536) else Fail).
Proof.
  intros P NB NC N B ST. cbn [app]. destruct (plain_facts c (name ++ 58 :: ws ++ sg ++ dp ++ r) P) as (_ & Q & T).
  unfold parse_addr. rewrite Q. cbn [bind]. rewrite scan_v6_not by exact NB. cbn [bind]. rewrite T.
  change (c :: name ++ 58 :: ws ++ sg ++ dp ++ r) with ((c :: name) ++ 58 :: ws ++ sg ++ dp ++ r). rewrite cut_colon_app by exact NC.
  unfold lookup. destruct (Z.leb_spec 260 (Z.of_nat (length (c :: name)))), (Nat.ltb_spec (length (c :: name)) 260); try lia; [reflexivity|].
  rewrite (scan_numeral ws sg dp neg p r N B ST). cbn [bind]. rewrite u16_signed. destruct (res4 (c :: name)); [reflexivity|].
  now destruct (res6 (c :: name)).
Qed.
(* no number behind the colon *)
Lemma parse_name_junk res4 res6 c name k r : plain c -> c <> 91 -> ~ In 58 (c :: name) -> plain k ->
  parse_addr res4 res6 ((c :: name) ++ 58 :: k :: r) = Ok Fail.
Proof.
  intros P NB NC K. cbn [app]. destruct (plain_facts c (name ++ 58 :: k :: r) P) as (_ & Q & T).
  unfold parse_addr. rewrite Q. cbn [bind]. rewrite scan_v6_not by exact NB. cbn [bind]. rewrite T.
  change (c :: name ++ 58 :: k :: r) with ((c :: name) ++ 58 :: k :: r). rewrite cut_colon_app by exact NC.
  destruct (plain_facts k r K) as (U & _). rewrite U. cbn [bind]. destruct (260 <=? Z.of_nat (length (c :: name))); [reflexivity|].
  destruct (res4 (c :: name)); [reflexivity|]. now destruct (res6 (c :: name)).
Qed.
Lemma parse_name_empty_port res4 res6 c name : plain c -> c <> 91 -> ~ In 58 (c :: name) -> parse_addr res4 res6 ((c :: name) ++ [58]) = Ok Fail.
Proof.
  intros P NB NC. cbn [app]. destruct (plain_facts c (name ++ [58]) P) as (_ & Q & T).
  unfold parse_addr. rewrite Q. cbn [bind]. rewrite scan_v6_not by exact NB. cbn [bind]. rewrite T.
  change (c :: name ++ [58]) with ((c :: name) ++ 58 :: []). rewrite cut_colon_app by exact NC. change (scan_u []) with (Ok (@None (Z * bytes))). cbn [bind].
  destruct (260 <=? Z.of_nat (length (c :: name))); [reflexivity|]. destruct (res4 (c :: name)); [reflexivity|]. now destruct (res6 (c :: name)).
Qed.

(* ---- no colon ---- *)
Lemma cut_none s : ~ In 58 s -> cut_colon s = None.
Proof.
  intros N. pose proof (cut_name s) as C. destruct (cut_colon s) as [[a b]|]; [|reflexivity]. destruct C as [-> _]. exfalso. apply N.
  apply in_or_app. right. now left.
Qed.
Lemma v6_needs_colon s : ~ In 58 s -> scan_v6 s = Ok None.
Proof.
  intros N. unfold scan_v6. destruct s as [|c s]; [reflexivity|]. unfold lit at 1. destruct (c =? 91); [|reflexivity].
  assert (R : forall l a b, run (fun c => negb (c =? 93)) l = (a, b) -> l = a ++ b).
  { induction l as [|x l IH]; intros a b E; cbn [run] in E; [now injection E as <- <-|].
    destruct (negb (x =? 93)); [|now injection E as <- <-]. destruct (run _ l) as [a' b'] eqn:E2. injection E as <- <-. cbn. f_equal. now apply IH. }
  destruct (run (fun c0 : Z => negb (c0 =? 93)) s) as [a b] eqn:E. apply R in E. subst s.
  destruct (firstn 49 a) eqn:F; [reflexivity|].
  assert (K : ~ In 58 (skipn 49 a ++ b)).
  { intros H. apply N. right. apply in_app_or in H. apply in_or_app. destruct H as [H|H]; [left|now right].
    rewrite <- (firstn_skipn 49 a). apply in_or_app. now right. }
  unfold lit. destruct (skipn 49 a ++ b) as [|x l']; [reflexivity|]. destruct (x =? 93); [|reflexivity].
  destruct l' as [|y l']; [reflexivity|]. destruct (Z.eqb_spec y 58); [|reflexivity]. subst. exfalso. apply K. right. now left.
Qed.
Lemma parse_unix res4 res6 path : ~ In 58 path ->
  parse_addr res4 res6 (120 :: path) = Ok (if (length path <? 107)%nat then Unix path else Fail).
Proof.
  intros N. assert (P : plain 120) by (unfold plain, dig; lia). destruct (plain_facts 120 path P) as (_ & Q & T).
  unfold parse_addr. rewrite Q. cbn [bind]. rewrite scan_v6_not by discriminate. cbn [bind]. rewrite T.
  rewrite cut_none by (intros [H|H]; [discriminate|auto]).
  destruct (Z.ltb_spec (Z.of_nat (length (120 :: path))) 108), (Nat.ltb_spec (length path) 107); cbn [length] in *; try lia; reflexivity.
Qed.
Lemma parse_bare res4 res6 c s : plain c -> c <> 120 -> ~ In 58 (c :: s) -> parse_addr res4 res6 (c :: s) = Ok Fail.
Proof.
  intros P X N. destruct (plain_facts c s P) as (_ & Q & T). unfold parse_addr. rewrite Q. cbn [bind]. rewrite v6_needs_colon by exact N. cbn [bind]. rewrite T.
  rewrite cut_none by exact N. destruct c as [|q|q]; try reflexivity. do 7 (destruct q as [q|q|]; try reflexivity). now destruct X.
Qed.
Lemma parse_empty res4 res6 : parse_addr res4 res6 [] = Ok Fail.
Proof. reflexivity. Qed.

(* ---- texts that start with the digit 0 and are no quad: octal and hexadecimal ---- *)
Definition octal (c : Z) : Prop := 48 <= c <= 55.
Definition hexdigit (c : Z) : Prop := 48 <= c <= 57 \/ 65 <= c <= 70 \/ 97 <= c <= 102.
Lemma oct_b c : octal c <-> octb c = true.
Proof. unfold octal, octb. rewrite andb_true_iff, !Z.leb_le. reflexivity. Qed.
Lemma hex_b c : hexdigit c <-> hexb c = true.
Proof. unfold hexdigit, hexb, digitb. rewrite !orb_true_iff, !andb_true_iff, !Z.leb_le. lia. Qed.
Lemma some_nonzero l : existsb (fun c : Z => negb (c =? 48)) l = true <-> ~ Forall (fun c => c = 48) l.
Proof.
  induction l as [|c l IH]; cbn [existsb]; [split; [discriminate|intros H; now destruct H]|].
  rewrite orb_true_iff, IH. destruct (Z.eqb_spec c 48) as [-> | N]; cbn.
  - split; [intros [H|H] F; [discriminate|apply H; now inversion F]|intros H; right; intros F; apply H; now constructor].
  - split; [intros _ F; inversion F; contradiction|now left].
Qed.
(* nz: the number is not zero *)
Inductive leading : bytes -> bool -> Prop :=
| Decimal c ds r : 49 <= c <= 57 -> Forall dig ds -> stops digitb r -> leading (c :: ds ++ r) true
| Octal ds r nz : Forall octal ds -> stops octb r -> (ds = [] -> forall x h k, r = x :: h :: k -> x = 120 \/ x = 88 -> ~ hexdigit h) ->
    (nz = true <-> ~ Forall (fun c => c = 48) ds) -> leading (48 :: ds ++ r) nz
| Hex x ds r nz : x = 120 \/ x = 88 -> ds <> [] -> Forall hexdigit ds -> stops hexb r -> (nz = true <-> ~ Forall (fun c => c = 48) ds) ->
    leading (48 :: x :: ds ++ r) nz.
Lemma bool_iff (a b : bool) (P : Prop) : (a = true <-> P) -> (b = true <-> P) -> a = b.
Proof. destruct a, b; intros H K; try reflexivity; exfalso; [assert (X : false = true) by tauto|assert (X : false = true) by tauto]; discriminate. Qed.
Lemma octs_b ds : Forall octal ds -> Forall (fun c => octb c = true) ds.
Proof. apply Forall_impl. intros c H. now apply oct_b. Qed.
Lemma hexs_b ds : Forall hexdigit ds -> Forall (fun c => hexb c = true) ds.
Proof. apply Forall_impl. intros c H. now apply hex_b. Qed.
Lemma leading_head t nz : leading t nz -> exists c k, t = c :: k /\ dig c.
Proof. unfold dig. destruct 1; do 2 eexists; split; try reflexivity; lia. Qed.
Lemma head_lead ws sg neg t nz : blanks ws -> csign sg neg -> leading t nz -> sign (skip_ws (ws ++ sg ++ t)) = (neg, t).
Proof.
  intros W S L. rewrite skip_blanks by exact W. destruct (leading_head t nz L) as (c & k & -> & D). destruct S; cbn [app]; try reflexivity.
  destruct (head_num [c] k) as [E1 E2]; [auto|discriminate|]. cbn [app] in E1, E2. now rewrite E1, E2.
Qed.
Lemma strtoul_leading ws sg neg t nz : blanks ws -> csign sg neg -> leading t nz -> strtoul_nonzero (ws ++ sg ++ t) = nz.
Proof.
  intros W S L. unfold strtoul_nonzero. rewrite (head_lead ws sg neg t nz W S L). destruct L as [c ds r H F ST | ds r nz F ST X N | x ds r nz X NE F ST N].
  - assert (R : fst (run digitb (c :: ds ++ r)) = c :: ds).
    { change (c :: ds ++ r) with ((c :: ds) ++ r). rewrite run_all; [reflexivity|apply digs_b; constructor; [unfold dig; lia|exact F]|exact ST]. }
    assert (E : existsb (fun c0 : Z => negb (c0 =? 48)) (fst (run digitb (c :: ds ++ r))) = true).
    { rewrite R. cbn. destruct (Z.eqb_spec c 48); [lia|reflexivity]. }
    assert (c <> 48) by lia. destruct c as [|q|q]; try exact E. do 6 (destruct q as [q|q|]; try exact E). lia.
  - assert (R : fst (run octb (48 :: ds ++ r)) = 48 :: ds).
    { change (48 :: ds ++ r) with ((48 :: ds) ++ r). rewrite run_all; [reflexivity|apply octs_b; constructor; [unfold octal; lia|exact F]|exact ST]. }
    assert (E : existsb (fun c0 : Z => negb (c0 =? 48)) (fst (run octb (48 :: ds ++ r))) = nz).
    { rewrite R. cbn. apply bool_iff with (P := ~ Forall (fun c => c = 48) ds); [apply some_nonzero|exact N]. }
    destruct ds as [|d ds]; cbn [app] in *.
    + destruct r as [|x [|h k]]; try exact E.
      destruct (((x =? 120) || (x =? 88)) && hexb h) eqn:G; [|exact E]. exfalso. apply andb_prop in G as [G1 G2].
      apply (X eq_refl x h k eq_refl); [|now apply hex_b]. apply orb_prop in G1. destruct G1 as [G1|G1]; apply Z.eqb_eq in G1; auto.
    + assert (O : ((d =? 120) || (d =? 88)) = false).
      { inversion F as [|? ? O _]; subst. unfold octal in O. destruct (Z.eqb_spec d 120), (Z.eqb_spec d 88); try lia; reflexivity. }
      destruct (ds ++ r) as [|h k]; [exact E|]. rewrite O. exact E.
  - destruct ds as [|h ds]; [now destruct NE|]. cbn [app]. assert (O : ((x =? 120) || (x =? 88)) = true) by (destruct X as [-> | ->]; reflexivity).
    rewrite O. cbn [andb]. inversion F as [|? ? Hh _]; subst. apply hex_b in Hh. rewrite Hh.
    change (h :: ds ++ r) with ((h :: ds) ++ r). rewrite run_all; [|now apply hexs_b|exact ST]. cbn [fst].
    apply bool_iff with (P := ~ Forall (fun c => c = 48) (h :: ds)); [apply some_nonzero|exact N].
Qed.
Definition starts_bracket (s : bytes) : Prop := exists r, s = 91 :: r.
Lemma scan_v6_start s : ~ starts_bracket s -> scan_v6 s = Ok None.
Proof. intros N. unfold scan_v6, lit. destruct s as [|c s]; [reflexivity|]. destruct (Z.eqb_spec c 91); [|reflexivity]. subst. exfalso. apply N. now exists s. Qed.
Lemma lead_no_bracket ws sg neg t nz : blanks ws -> csign sg neg -> leading t nz -> ~ starts_bracket (ws ++ sg ++ t).
Proof.
  intros W S L [r E]. destruct W as [|c ws C W]; cbn in E; [|injection E as E0 _; lia].
  destruct S; cbn in E; try discriminate. destruct (leading_head t nz L) as (c & k & -> & D). injection E as E0 _. unfold dig in D. lia.
Qed.
(* any text that starts with a number and is not a complete quad:port *)
Lemma parse_leading res4 res6 ws sg neg t nz : blanks ws -> csign sg neg -> leading t nz -> scan_quad (ws ++ sg ++ t) = Ok None ->
  nz = true -> parse_addr res4 res6 (ws ++ sg ++ t) = Ok (V4 0 1).
Proof.
  intros W S L Q E. unfold parse_addr. rewrite Q. cbn [bind]. rewrite scan_v6_start by (now apply (lead_no_bracket ws sg neg t nz)). cbn [bind].
  rewrite (strtoul_leading ws sg neg t nz W S L). now rewrite E.
Qed.
(* a number that is zero counts as a host name *)
Lemma parse_leading_zero res4 res6 ws sg neg t name ws' sg' dp neg' p r : blanks ws -> csign sg neg -> leading t false ->
  scan_quad (ws ++ sg ++ t) = Ok None -> ws ++ sg ++ t = name ++ 58 :: ws' ++ sg' ++ dp ++ r -> ~ In 58 name ->
  numeral ws' sg' dp neg' p -> p < 2 ^ 32 -> stops digitb r ->
  parse_addr res4 res6 (ws ++ sg ++ t) = Ok (if (length name <? 260)%nat then lookup res4 res6 name (signed neg' p mod 65536) else Fail).
Proof.
  intros W S L Q E NC N B ST. unfold parse_addr. rewrite Q. cbn [bind]. rewrite scan_v6_start by (now apply (lead_no_bracket ws sg neg t false)). cbn [bind].
  rewrite (strtoul_leading ws sg neg t false W S L). rewrite E. rewrite cut_colon_app by exact NC.
  unfold lookup. destruct (Z.leb_spec 260 (Z.of_nat (length name))), (Nat.ltb_spec (length name) 260); try lia; [reflexivity|].
  rewrite (scan_numeral ws' sg' dp neg' p r N B ST). cbn [bind]. rewrite u16_signed. destruct (res4 name); [reflexivity|]. now destruct (res6 name).
Qed.

(* ---- the dotted quad with signs and blanks, and out-of-range parts, in full ---- *)
Lemma quad_complete s a b c d p : scan_quad s = Ok (Some (a, b, c, d, p)) ->
  forall res4 res6, parse_addr res4 res6 s = Ok (V4 (Z.lor (Z.lor (Z.lor ((a * 2 ^ 24) mod 2 ^ 32) ((b * 2 ^ 16) mod 2 ^ 32)) ((c * 2 ^ 8) mod 2 ^ 32)) d) (p mod 65536)).
Proof. intros Q res4 res6. unfold parse_addr. rewrite Q. cbn [bind]. rewrite !Z.shiftl_mul_pow2 by lia. reflexivity. Qed.
Lemma scan_numeral_lit ws sg ds neg v c r : numeral ws sg ds neg v -> v < 2 ^ 32 -> digitb c = false ->
  scan_lit c (ws ++ sg ++ ds ++ c :: r) = Ok (Some (signed neg v mod 2 ^ 32, r)).
Proof. intros N B S. unfold scan_lit. rewrite (scan_numeral ws sg ds neg v (c :: r)) by auto. cbn. now rewrite Z.eqb_refl. Qed.
Record part := { pws : bytes; psg : bytes; pds : bytes; pneg : bool; pv : Z }.
Definition part_ok (x : part) : Prop := numeral (pws x) (psg x) (pds x) (pneg x) (pv x) /\ pv x < 2 ^ 32.
Definition ptext (x : part) : bytes := pws x ++ psg x ++ pds x.
Definition pval (x : part) : Z := signed (pneg x) (pv x) mod 2 ^ 32.
Lemma quad_general a b c d p r : part_ok a -> part_ok b -> part_ok c -> part_ok d -> part_ok p -> stops digitb r ->
  scan_quad (ptext a ++ 46 :: ptext b ++ 46 :: ptext c ++ 46 :: ptext d ++ 58 :: ptext p ++ r) = Ok (Some (pval a, pval b, pval c, pval d, pval p)).
Proof.
  intros (A & La) (B & Lb) (C & Lc) (D & Ld) (P & Lp) ST. unfold ptext. repeat rewrite <- app_assoc. unfold scan_quad.
  rewrite (scan_numeral_lit _ _ _ _ _ 46 _ A La eq_refl). cbn [bind]. rewrite (scan_numeral_lit _ _ _ _ _ 46 _ B Lb eq_refl). cbn [bind].
  rewrite (scan_numeral_lit _ _ _ _ _ 46 _ C Lc eq_refl). cbn [bind]. rewrite (scan_numeral_lit _ _ _ _ _ 58 _ D Ld eq_refl). cbn [bind].
  rewrite (scan_numeral _ _ _ _ _ r P Lp ST). reflexivity.
Qed.
(* what is not undefined: the first number too large for an unsigned int is *)
Lemma first_number_too_large ds v r res4 res6 : number ds v -> 2 ^ 32 <= v -> stops digitb r -> parse_addr res4 res6 (ds ++ r) = UB.
Proof.
  intros (N & F & V) B ST. unfold parse_addr, scan_quad, scan_lit, scan_u. destruct (head_num ds r F N) as [-> ->]. rewrite (run_all _ _ _ (digs_b _ F) ST).
  destruct ds as [|c ds]; [now destruct N|]. change (dval (c :: ds)) with (value (c :: ds)). rewrite V.
  destruct (Z.ltb_spec v (2 ^ 32)); [lia|reflexivity].
Qed.
(* the first number fits an unsigned int and the text has no dot: it is no quad *)
Definition small (t : bytes) : Prop := exists ds r v, t = ds ++ r /\ number ds v /\ v < 2 ^ 32 /\ stops digitb r.
Lemma no_dot_no_quad ws sg neg t : blanks ws -> csign sg neg -> small t -> ~ In 46 t -> scan_quad (ws ++ sg ++ t) = Ok None.
Proof.
  intros W S (ds & r & v & -> & N & B & ST) ND. unfold scan_quad, scan_lit. rewrite (scan_numeral ws sg ds neg v r) by (repeat split; auto; apply N). cbn [bind].
  unfold lit. destruct r as [|c r]; [reflexivity|]. destruct (Z.eqb_spec c 46); [|reflexivity]. subst. exfalso. apply ND. apply in_or_app. right. now left.
Qed.
Lemma parse_number_text res4 res6 ws sg neg t : blanks ws -> csign sg neg -> leading t true -> small t -> ~ In 46 t ->
  parse_addr res4 res6 (ws ++ sg ++ t) = Ok (V4 0 1).
Proof. intros W S L SM ND. apply (parse_leading res4 res6 ws sg neg t true); auto. now apply (no_dot_no_quad ws sg neg t). Qed.
Lemma parse_zero_text res4 res6 ws sg neg t name ws' sg' dp neg' p r : blanks ws -> csign sg neg -> leading t false -> small t -> ~ In 46 t ->
  ws ++ sg ++ t = name ++ 58 :: ws' ++ sg' ++ dp ++ r -> ~ In 58 name ->
  numeral ws' sg' dp neg' p -> p < 2 ^ 32 -> stops digitb r ->
  parse_addr res4 res6 (ws ++ sg ++ t) = Ok (if (length name <? 260)%nat then lookup res4 res6 name (signed neg' p mod 65536) else Fail).
Proof. intros W S L SM ND E NC N B ST. apply (parse_leading_zero res4 res6 ws sg neg t name ws' sg' dp neg' p r); auto. now apply (no_dot_no_quad ws sg neg t). Qed.
Lemma parse_quad_general res4 res6 a b c d p r : part_ok a -> part_ok b -> part_ok c -> part_ok d -> part_ok p -> stops digitb r ->
  parse_addr res4 res6 (ptext a ++ 46 :: ptext b ++ 46 :: ptext c ++ 46 :: ptext d ++ 58 :: ptext p ++ r) =
    Ok (V4 (Z.lor (Z.lor (Z.lor ((pval a * 2 ^ 24) mod 2 ^ 32) ((pval b * 2 ^ 16) mod 2 ^ 32)) ((pval c * 2 ^ 8) mod 2 ^ 32)) (pval d)) (pval p mod 65536)).
Proof. intros. apply quad_complete. now apply quad_general. Qed.
