(* Host texts: specification and lemmas for str_parseip. *)
From Verif Require Import Base StrModel StrProofs AddrModel AddrProofs TextModel.

(* ---- Specification ---- *)
Local Open Scope Z_scope.
Definition digit_of (c : Z) : Z := if c <=? 57 then c - 48 else if c <=? 70 then c - 55 else c - 87.
Fixpoint value_in (b : Z) (ds : bytes) (v : Z) : Z :=
  match ds with [] => v | c :: r => value_in b r (v * b + digit_of c) end.
(* A C number literal: decimal, octal after 0, hexadecimal after 0x. *)
Inductive literal : bytes -> Z -> Prop :=
| Lit10 c ds : 49 <= c <= 57 -> Forall dig ds -> literal (c :: ds) (value_in 10 (c :: ds) 0)
| Lit8 ds : Forall octal ds -> literal (48 :: ds) (value_in 8 ds 0)
| Lit16 x ds : x = 120 \/ x = 88 -> ds <> [] -> Forall hexdigit ds -> literal (48 :: x :: ds) (value_in 16 ds 0).
(* what one part between dots is taken for: the low 32 bits count *)
Definition octet (t : bytes) (a : Z) : Prop :=
  exists v, literal t v /\ v < 2 ^ 64 /\ v mod 2 ^ 32 = a /\ 0 <= a < 256.
Definition dotted (ts : list bytes) : bytes := join [46] ts.
(* which four bytes the parts stand for *)
Inductive filled : list Z -> list (option Z) -> Prop :=
| Four a b c d : filled [a; b; c; d] [Some a; Some b; Some c; Some d]
| A3 a b c : a < 128 -> filled [a; b; c] [Some a; Some 0; Some b; Some c]
| A2 a b : a < 128 -> filled [a; b] [Some a; Some 0; Some 0; Some b]
| B3 a b c : 128 <= a < 192 -> filled [a; b; c] [Some a; Some b; Some 0; Some c].
Definition short_text (s : bytes) : Prop := Z.of_nat (length s) < 2 ^ 31.
(* digits, and then nothing that continues the number *)
Definition port_text (t : bytes) (p : Z) : Prop :=
  exists ds r, t = ds ++ r /\ number ds p /\ p < 2 ^ 31 /\ stops digitb r.

(* ---- Positions ---- *)
Lemma first_occ_unique n t i j : first_occ n t i -> first_occ n t j -> i = j.
Proof. intros [Hi Mi] [Hj Mj]. destruct (Nat.lt_trichotomy i j) as [L|[E|L]]; [destruct (Mj _ L Hi)|exact E|destruct (Mi _ L Hj)]. Qed.

Lemma pos_some s p i : short_text s -> first_occ p s i -> str_pos s p = Ok (Z.of_nat i).
Proof.
  intros B F. destruct (mempos_spec s p B) as [(j & E & F')|[_ N]].
  - unfold str_pos. rewrite E. now rewrite (first_occ_unique _ _ _ _ F F').
  - destruct (N i (proj1 F)).
Qed.
Lemma pos_none s p : short_text s -> (forall i, ~ occurs p s i) -> str_pos s p = Ok (-1).
Proof. intros B N. destruct (mempos_spec s p B) as [(j & _ & F)|[E _]]; [destruct (N j (proj1 F))|exact E]. Qed.

Lemma occurs_in p s i x : occurs p s i -> In x p -> In x s.
Proof. intros (a & b & -> & _) H. apply in_app_iff. right. apply in_app_iff. now left. Qed.
Lemma no_occ s p x : In x p -> ~ In x s -> forall i, ~ occurs p s i.
Proof. intros Hp Hs i H. apply Hs. eapply occurs_in; eauto. Qed.

Lemma first_at (h : bytes) a p r : ~ In a h -> first_occ (a :: p) (h ++ (a :: p) ++ r) (length h).
Proof.
  intros N. split; [exists h, r; auto|]. intros j L (pre & post & E & Hj).
  apply N. assert (X : nth_error (h ++ (a :: p) ++ r) j = Some a).
  { rewrite E, nth_error_app2 by lia. subst j. now rewrite Nat.sub_diag. }
  rewrite nth_error_app1 in X by lia. eapply nth_error_In; eauto.
Qed.

(* ---- Numbers ---- *)
Lemma based_value b ds : forall v, fold_left (fun v c => b * v + hexval c) ds v = value_in b ds v.
Proof.
  induction ds as [|c ds IH]; intros v; cbn [fold_left value_in]; [reflexivity|].
  rewrite <- IH. f_equal. unfold hexval, digit_of. lia.
Qed.
Lemma value_in_nonneg b ds : 0 < b -> Forall (fun c => 0 <= digit_of c) ds -> forall v, 0 <= v -> 0 <= value_in b ds v.
Proof. intros Hb. induction 1 as [|c ds H F IH]; intros v V; cbn [value_in]; [exact V|]. apply IH. nia. Qed.
Lemma dig_nonneg c : dig c -> 0 <= digit_of c.
Proof. unfold dig, digit_of. intros H. destruct (Z.leb_spec c 57); lia. Qed.
Lemma oct_nonneg c : octal c -> 0 <= digit_of c.
Proof. unfold octal, digit_of. intros H. destruct (Z.leb_spec c 57); lia. Qed.
Lemma hex_nonneg c : hexdigit c -> 0 <= digit_of c.
Proof. unfold hexdigit, digit_of. intros H. destruct (Z.leb_spec c 57), (Z.leb_spec c 70); lia. Qed.
Lemma literal_nonneg t v : literal t v -> 0 <= v.
Proof.
  destruct 1 as [c ds H F|ds F|x ds H N F].
  - apply value_in_nonneg; [lia| |lia]. constructor; [apply dig_nonneg; unfold dig; lia|]. eapply Forall_impl; [apply dig_nonneg|exact F].
  - apply value_in_nonneg; [lia| |lia]. eapply Forall_impl; [apply oct_nonneg|exact F].
  - apply value_in_nonneg; [lia| |lia]. eapply Forall_impl; [apply hex_nonneg|exact F].
Qed.

Lemma clip_id v : 0 <= v < 2 ^ 64 -> clip false v = v.
Proof. intros H. unfold clip. destruct (Z.leb_spec (2 ^ 64) v); [lia|reflexivity]. Qed.

(* a part is followed by the end or by a dot *)
Definition dot_next (r : bytes) : Prop := r = [] \/ exists k, r = 46 :: k.
Lemma dot_stops r : dot_next r -> stops digitb r /\ stops octb r /\ stops hexb r.
Proof. intros [-> | [k ->]]; cbn; repeat split. Qed.

Lemma strtoul_literal t v r : literal t v -> v < 2 ^ 64 -> dot_next r -> strtoul (t ++ r) = (v, r).
Proof.
  intros L B D. pose proof (literal_nonneg t v L) as P. destruct (dot_stops r D) as (S1 & S2 & S3).
  destruct L as [c ds H F|ds F|x ds H N F].
  - assert (Dg : Forall dig (c :: ds)) by (constructor; [unfold dig; lia|exact F]).
    unfold strtoul. destruct (head_num (c :: ds) r Dg) as [-> ->]; [discriminate|].
    rewrite (run_all digitb (c :: ds) r (digs_b _ Dg) S1). cbn [app].
    assert (E : c <> 48) by lia.
    unfold based. rewrite (based_value 10). rewrite clip_id by lia.
    destruct c as [|q|q]; try lia. do 7 (destruct q as [q|q|]; try reflexivity; try lia).
  - assert (Dg : Forall dig (48 :: ds)).
    { constructor; [unfold dig; lia|]. eapply Forall_impl; [|exact F]. intros c. unfold octal, dig. lia. }
    unfold strtoul. destruct (head_num (48 :: ds) r Dg) as [-> ->]; [discriminate|].
    assert (Ro : AddrModel.run octb (48 :: ds ++ r) = (48 :: ds, r)).
    { apply (run_all octb (48 :: ds) r); [|exact S2]. constructor; [reflexivity|]. now apply octs_b. }
    assert (V : clip false (based 8 (48 :: ds)) = value_in 8 ds 0).
    { unfold based. rewrite (based_value 8). cbn [value_in]. change (0 * 8 + digit_of 48) with 0. apply clip_id. lia. }
    cbn [app]. rewrite Ro, V.
    destruct ds as [|x ds]; cbn [app].
    + destruct D as [-> | [k ->]]; [reflexivity|]. destruct k; reflexivity.
    + assert (Hx : octal x) by (inversion F; assumption).
      destruct (ds ++ r); [reflexivity|].
      assert (E : ((x =? 120) || (x =? 88)) = false).
      { unfold octal in Hx. destruct (Z.eqb_spec x 120), (Z.eqb_spec x 88); try lia; reflexivity. }
      now rewrite E.
  - assert (D0 : Forall dig [48]) by (constructor; [unfold dig; lia|constructor]).
    unfold strtoul. destruct (head_num [48] (x :: ds ++ r) D0) as [E1 E2]; [discriminate|].
    cbn [app] in E1, E2 |- *. rewrite E1, E2.
    destruct ds as [|h ds]; [congruence|]. cbn [app].
    assert (E : ((x =? 120) || (x =? 88)) = true) by (destruct H as [-> | ->]; reflexivity).
    assert (Hh : hexb h = true) by (apply hex_b; inversion F; assumption).
    rewrite E, Hh. cbn [andb].
    assert (R : AddrModel.run hexb (h :: ds ++ r) = (h :: ds, r)) by (apply (run_all hexb (h :: ds) r); [now apply hexs_b|exact S3]).
    rewrite R. unfold based. rewrite (based_value 16). now rewrite clip_id by lia.
Qed.

Lemma wraps_octet v a : v mod 2 ^ 32 = a -> 0 <= a < 256 -> wraps 32 v = a.
Proof.
  intros E H. unfold wraps. change (2 ^ (32 - 1)) with 2147483648. change (2 ^ 32) with 4294967296 in *. lia.
Qed.

Lemma literal_nonempty t v : literal t v -> t <> [].
Proof. destruct 1; discriminate. Qed.

Lemma octets_step n t a r acc : octet t a -> dot_next r ->
  octets (S n) (t ++ r) acc = octets n (match r with [] => [] | _ :: k => k end) (acc ++ [a]).
Proof.
  intros (v & L & B & E & H) D. cbn [octets].
  pose proof (literal_nonempty t v L) as N. pose proof (strtoul_literal t v r L B D) as X.
  destruct (t ++ r) as [|c k] eqn:Et; [destruct t; [congruence|discriminate]|].
  rewrite X. rewrite (wraps_octet v a E H).
  destruct (Z.ltb_spec a 0); [lia|]. destruct (Z.leb_spec 256 a); [lia|]. cbn [orb].
  destruct D as [-> | [k' ->]]; reflexivity.
Qed.

Lemma octets_nil n acc : octets n [] acc = Some acc.
Proof. destruct n; reflexivity. Qed.

Lemma octets_dotted ts vs : Forall2 octet ts vs -> forall n acc, (length ts <= n)%nat ->
  octets n (dotted ts) acc = Some (acc ++ vs).
Proof.
  induction 1 as [|t a ts vs O F IH]; intros n acc L.
  - rewrite app_nil_r. apply octets_nil.
  - destruct n as [|n]; [cbn in L; lia|]. unfold dotted in *. destruct ts as [|t2 ts].
    + inversion F; subst. cbn [join]. pose proof (octets_step n t a [] acc O (or_introl eq_refl)) as E.
      rewrite app_nil_r in E. rewrite E. apply octets_nil.
    + change (join [46] (t :: t2 :: ts)) with (t ++ 46 :: join [46] (t2 :: ts)).
      rewrite (octets_step n t a (46 :: join [46] (t2 :: ts)) acc O) by (right; eauto).
      rewrite IH by (cbn in *; lia). now rewrite <- app_assoc.
Qed.

(* four parts and then anything after a further dot *)
Lemma octets_junk a b c d x y z w k : octet a x -> octet b y -> octet c z -> octet d w ->
  octets 4 (dotted [a; b; c; d] ++ 46 :: k) [] = Some [x; y; z; w].
Proof.
  intros Ha Hb Hc Hd. unfold dotted. cbn [join app].
  replace ((a ++ 46 :: b ++ 46 :: c ++ 46 :: d) ++ 46 :: k) with (a ++ 46 :: b ++ 46 :: c ++ 46 :: d ++ 46 :: k)
    by (repeat (rewrite <- app_assoc; cbn [app]); reflexivity).
  rewrite (octets_step 3 a x) by (auto; right; eauto). rewrite (octets_step 2 b y) by (auto; right; eauto).
  rewrite (octets_step 1 c z) by (auto; right; eauto). rewrite (octets_step 0 d w) by (auto; right; eauto). reflexivity.
Qed.

Lemma octet_range t a : octet t a -> 0 <= a < 256.
Proof. intros (v & _ & _ & _ & H). exact H. Qed.

Lemma classful_filled vs ip : filled vs ip -> Forall (fun a => 0 <= a < 256) vs -> classful vs = Ok (Some ip).
Proof.
  intros F R. destruct F as [a b c d|a b c H|a b H|a b c H]; inversion R; subst; cbn [classful].
  - destruct (Z.ltb_spec (a / 64) 2); [reflexivity|]. destruct (Z.eqb_spec (a / 64) 2); reflexivity.
  - destruct (Z.ltb_spec (a / 64) 2); [reflexivity|lia].
  - destruct (Z.ltb_spec (a / 64) 2); [reflexivity|lia].
  - destruct (Z.ltb_spec (a / 64) 2); [lia|]. destruct (Z.eqb_spec (a / 64) 2); [reflexivity|lia].
Qed.

Lemma octets_ranges ts vs : Forall2 octet ts vs -> Forall (fun a => 0 <= a < 256) vs.
Proof. induction 1; constructor; eauto using octet_range. Qed.

(* ---- Characters of a dotted host ---- *)
Definition hostish (c : Z) : Prop := hexdigit c \/ c = 120 \/ c = 88 \/ c = 46.
Lemma literal_chars t v : literal t v -> Forall hostish t.
Proof.
  destruct 1 as [c ds H F|ds F|x ds H N F]; repeat (constructor; [unfold hostish, hexdigit; lia|]).
  - eapply Forall_impl; [|exact F]. unfold hostish, hexdigit, dig. intros; lia.
  - eapply Forall_impl; [|exact F]. unfold hostish, hexdigit, octal. intros; lia.
  - eapply Forall_impl; [|exact F]. unfold hostish. auto.
Qed.
Lemma dotted_chars ts vs : Forall2 octet ts vs -> Forall hostish (dotted ts).
Proof.
  unfold dotted. induction 1 as [|t a ts vs (v & L & _) F IH]; [constructor|].
  apply literal_chars in L. destruct ts as [|t2 ts]; [exact L|].
  change (join [46] (t :: t2 :: ts)) with (t ++ 46 :: join [46] (t2 :: ts)).
  apply Forall_app. split; [exact L|]. constructor; [unfold hostish; lia|exact IH].
Qed.
Lemma hostish_not x s : Forall hostish s -> x = 47 \/ x = 58 \/ x = 93 -> ~ In x s.
Proof. intros F H I. rewrite Forall_forall in F. apply F in I. unfold hostish, hexdigit in I. lia. Qed.

Lemma octet_length t a : octet t a -> (1 <= length t)%nat.
Proof. intros (v & L & _). apply literal_nonempty in L. destruct t; [congruence|cbn; lia]. Qed.
Lemma four_length a b c d x y z w : Forall2 octet [a; b; c; d] [x; y; z; w] -> (7 <= length (dotted [a; b; c; d]))%nat.
Proof.
  intros F. unfold dotted. cbn [join app].
  repeat match goal with H : Forall2 octet _ _ |- _ => inversion H; clear H; subst end.
  repeat match goal with H : octet _ _ |- _ => apply octet_length in H end.
  repeat (rewrite app_length; cbn [length]). lia.
Qed.

(* ---- Ports ---- *)
Lemma atoi_port t p : port_text t p -> atoi t = Ok p.
Proof.
  intros (ds & r & -> & Nu & B & S). pose proof (number_nonneg _ _ Nu) as P. destruct Nu as (N & F & V).
  unfold atoi. destruct (head_num ds r F N) as [-> ->]. rewrite (run_all _ _ _ (digs_b _ F) S). cbn [fst].
  change (dval ds) with (value ds). rewrite V.
  destruct (Z.leb_spec (- 2 ^ 31) p); [|lia]. destruct (Z.ltb_spec p (2 ^ 31)); [reflexivity|lia].
Qed.

(* the port text ends at the next colon *)
Lemma port_cut t p : port_text t p ->
  port_text (match cut_colon t with Some (a, _) => a | None => t end) p.
Proof.
  intros (ds & r & -> & Nu & B & S).
  assert (Nc : ~ In 58 ds).
  { destruct Nu as (_ & F & _). intros I. rewrite Forall_forall in F. apply F in I. unfold dig in I. lia. }
  assert (E : cut_colon (ds ++ r) = match cut_colon r with Some (a, b) => Some (ds ++ a, b) | None => None end).
  { clear - Nc. induction ds as [|c ds IH]; cbn [app cut_colon]; [destruct (cut_colon r) as [[? ?]|]; reflexivity|].
    destruct (Z.eqb_spec c 58) as [->|]; [destruct Nc; now left|].
    rewrite IH by (intros I; apply Nc; now right). destruct (cut_colon r) as [[? ?]|]; reflexivity. }
  rewrite E. destruct (cut_colon r) as [[a b]|] eqn:Er.
  - exists ds, a. repeat split; auto; try apply Nu.
    destruct r as [|c r]; [discriminate|]. cbn [cut_colon] in Er.
    destruct (c =? 58); [injection Er as <- <-; exact I|].
    destruct (cut_colon r) as [[? ?]|]; [|discriminate]. injection Er as <- <-. exact S.
  - exists ds, r. auto.
Qed.

(* ---- The pieces of str_parseip ---- *)
(* the text that is parsed: all of it, or what follows "//" *)
Definition bare (name0 : bytes) : Prop := forall i, first_occ slashes name0 i -> (i <= 3)%nat.

Lemma pos_bare name : short_text name -> bare name -> exists i, str_pos name slashes = Ok i /\ i <= 3.
Proof.
  intros B H. destruct (mempos_spec name slashes B) as [(i & E & F)|[E _]].
  - exists (Z.of_nat i). split; [exact E|]. apply H in F. lia.
  - exists (-1). split; [exact E|lia].
Qed.

Definition body_of (autofree isbuf : bool) (name0 name : bytes) : outcome parsed :=
  do j <- str_pos name close_colon;
  if (3 <? j)%Z then
    do port <- atoi (skipn (Z.to_nat j + 2) name);
    let cut := firstn (Z.to_nat j + 1) name in
    Ok (mkp (Copied autofree cut) None (Some port) (if isbuf then name0 else cut))
  else
    do k <- str_pos name [58%Z];
    if (6 <? k)%Z then
      let host := firstn (Z.to_nat k) name in
      let rest := skipn (Z.to_nat k + 1) name in
      let word := match cut_colon rest with Some (a, _) => a | None => rest end in
      do port <- atoi word;
      if autofree then scan_ip host (Copied true host) (Ok (Copied true host)) (Some port) name0
      else UB
    else if isbuf && negb (Nat.eqb (length name) 0) then
      scan_ip name (Copied true name)
        (if autofree then (if Nat.leb 8 (align2 (length name + 1)) then Ok (Wild (firstn 8 (name ++ [0%Z]))) else UB)
         else Ok (Copied true name)) None name0
    else
      let r := if autofree then (if isbuf then Wild [] else Own) else Null in
      scan_ip name r (Ok r) None name0.

Lemma parse_bare_body af name : short_text name -> bare name -> str_parseip af name = body_of af false name name.
Proof.
  intros B H. destruct (pos_bare name B H) as (i & E & L). unfold str_parseip. rewrite E. cbn [bind].
  destruct (Z.ltb_spec 3 i); [lia|]. reflexivity.
Qed.
Lemma parse_scheme_body af sch rest : short_text (sch ++ slashes ++ rest) -> ~ In 47 sch -> (4 <= length sch)%nat ->
  str_parseip af (sch ++ slashes ++ rest) = body_of af true (sch ++ slashes ++ rest) (firstn 259 rest).
Proof.
  intros B N L. unfold str_parseip.
  rewrite (pos_some _ slashes (length sch) B (first_at sch 47 [47] rest N)). cbn [bind].
  destruct (Z.ltb_spec 3 (Z.of_nat (length sch))); [|lia].
  assert (E : skipn (Z.to_nat (Z.of_nat (length sch)) + 2) (sch ++ slashes ++ rest) = rest).
  { rewrite Nat2Z.id, skipn_app, skipn_all2 by lia. replace (length sch + 2 - length sch)%nat with 2%nat by lia. reflexivity. }
  rewrite E. reflexivity.
Qed.

Lemma short_firstn rest : short_text (firstn 259 rest).
Proof. unfold short_text. rewrite firstn_length. lia. Qed.

(* host:port *)
Lemma body_port af isbuf name0 host port p : short_text (host ++ 58 :: port) ->
  (forall i, occurs close_colon (host ++ 58 :: port) i -> (i <= 3)%nat) ->
  ~ In 58 host -> (7 <= length host)%nat -> port_text port p ->
  body_of af isbuf name0 (host ++ 58 :: port) =
  if af then scan_ip host (Copied true host) (Ok (Copied true host)) (Some p) name0 else UB.
Proof.
  intros B NC N L P. unfold body_of.
  assert (EC : exists j, str_pos (host ++ 58 :: port) close_colon = Ok j /\ j <= 3).
  { destruct (mempos_spec _ close_colon B) as [(i & E & F)|[E _]].
    - exists (Z.of_nat i). split; [exact E|]. destruct F as [F _]. apply NC in F. lia.
    - exists (-1). split; [exact E|lia]. }
  destruct EC as (j & -> & Hj). cbn [bind]. destruct (Z.ltb_spec 3 j); [lia|].
  rewrite (pos_some _ [58] (length host) B (first_at host 58 [] port N)). cbn [bind].
  destruct (Z.ltb_spec 6 (Z.of_nat (length host))); [|lia].
  rewrite Nat2Z.id. rewrite firstn_app, firstn_all, Nat.sub_diag, firstn_O, app_nil_r.
  assert (E : skipn (length host + 1) (host ++ 58 :: port) = port).
  { rewrite skipn_app, skipn_all2 by lia. replace (length host + 1 - length host)%nat with 1%nat by lia. reflexivity. }
  rewrite E. cbv zeta. rewrite (atoi_port _ p (port_cut port p P)). cbn [bind]. reflexivity.
Qed.

Lemma scan_filled name bad good port caller vs ip : octets 4 name [] = Some vs -> Forall (fun a => 0 <= a < 256) vs ->
  filled vs ip -> scan_ip name bad (Ok good) port caller = Ok (mkp good (Some ip) port caller).
Proof. intros E R F. unfold scan_ip. rewrite E. rewrite (classful_filled vs ip F R). reflexivity. Qed.

Lemma filled_length vs ip : filled vs ip -> (length vs <= 4)%nat.
Proof. destruct 1; cbn; lia. Qed.
Lemma Forall2_len {A B} (R : A -> B -> Prop) l m : Forall2 R l m -> length l = length m.
Proof. induction 1; cbn; congruence. Qed.

Lemma port_no_bracket host port : ~ In 93 (host ++ 58 :: port) -> forall i, occurs close_colon (host ++ 58 :: port) i -> (i <= 3)%nat.
Proof. intros N i O. destruct N. eapply occurs_in; [exact O|left; reflexivity]. Qed.

Lemma parse_port ts vs ip port p : Forall2 octet ts vs -> filled vs ip -> (7 <= length (dotted ts))%nat ->
  port_text port p -> ~ In 47 port -> ~ In 93 port -> short_text (dotted ts ++ 58 :: port) ->
  str_parseip true (dotted ts ++ 58 :: port) =
  Ok (mkp (Copied true (dotted ts)) (Some ip) (Some p) (dotted ts ++ 58 :: port)).
Proof.
  intros F I L P N1 N2 B. pose proof (dotted_chars _ _ F) as C.
  rewrite parse_bare_body; [|exact B|].
  2:{ intros i [O _]. exfalso. eapply (no_occ _ slashes 47); [left; reflexivity| |exact O].
      rewrite in_app_iff. intros [X|[X|X]]; [now apply hostish_not in X; auto|discriminate|contradiction]. }
  rewrite (body_port true false _ _ _ p); auto.
  - apply (scan_filled _ _ _ _ _ vs); auto; [|eapply octets_ranges; eauto].
    rewrite (octets_dotted _ _ F); [reflexivity|]. rewrite (Forall2_len _ _ _ F). eapply filled_length; eauto.
  - apply port_no_bracket. rewrite in_app_iff. intros [X|[X|X]]; [now apply hostish_not in X; auto|discriminate|contradiction].
  - apply hostish_not; auto.
Qed.

Lemma parse_scheme_port sch ts vs ip port p : ~ In 47 sch -> (4 <= length sch)%nat ->
  Forall2 octet ts vs -> filled vs ip -> (7 <= length (dotted ts))%nat ->
  port_text port p -> ~ In 93 port -> Z.of_nat (length (dotted ts ++ 58 :: port)) <= 259 ->
  short_text (sch ++ slashes ++ dotted ts ++ 58 :: port) ->
  str_parseip true (sch ++ slashes ++ dotted ts ++ 58 :: port) =
  Ok (mkp (Copied true (dotted ts)) (Some ip) (Some p) (sch ++ slashes ++ dotted ts ++ 58 :: port)).
Proof.
  intros N1 N2 F I L P N3 B Sh. pose proof (dotted_chars _ _ F) as C.
  rewrite parse_scheme_body by auto. rewrite firstn_all2 by lia.
  rewrite (body_port true true _ _ _ p); auto.
  - apply (scan_filled _ _ _ _ _ vs); auto; [|eapply octets_ranges; eauto].
    rewrite (octets_dotted _ _ F); [reflexivity|]. rewrite (Forall2_len _ _ _ F). eapply filled_length; eauto.
  - unfold short_text. lia.
  - apply port_no_bracket. rewrite in_app_iff. intros [X|[X|X]]; [now apply hostish_not in X; auto|discriminate|contradiction].
  - apply hostish_not; auto.
Qed.

(* without autofree the text is read after it was freed, whatever the host *)
Lemma parse_port_freed host port p : ~ In 58 host -> (7 <= length host)%nat -> port_text port p ->
  ~ In 47 (host ++ 58 :: port) -> ~ In 93 (host ++ 58 :: port) -> short_text (host ++ 58 :: port) ->
  str_parseip false (host ++ 58 :: port) = UB.
Proof.
  intros N L P N1 N2 B. rewrite parse_bare_body; [|exact B|].
  2:{ intros i [O _]. exfalso. eapply (no_occ _ slashes 47); [left; reflexivity| |exact O]. exact N1. }
  rewrite (body_port false false _ _ _ p); auto. now apply port_no_bracket.
Qed.
Lemma parse_scheme_freed sch host port p : ~ In 47 sch -> (4 <= length sch)%nat -> ~ In 58 host -> (7 <= length host)%nat ->
  port_text port p -> ~ In 93 (host ++ 58 :: port) -> Z.of_nat (length (host ++ 58 :: port)) <= 259 ->
  short_text (sch ++ slashes ++ host ++ 58 :: port) ->
  str_parseip false (sch ++ slashes ++ host ++ 58 :: port) = UB.
Proof.
  intros N1 N2 N L P N3 B Sh. rewrite parse_scheme_body by auto. rewrite firstn_all2 by lia.
  rewrite (body_port false true _ _ _ p); auto.
  - unfold short_text. lia.
  - now apply port_no_bracket.
Qed.

(* a name: not a number, so handed back as text *)
Definition no_number (s : bytes) : Prop := exists c r, s = c :: r /\ plain c /\ c <> 46.
Lemma octets_name s n : no_number s -> octets (S n) s [] = None.
Proof.
  intros (c & r & -> & (P1 & P2 & P3 & P4) & P5). cbn [octets].
  assert (E : strtoul (c :: r) = (0, c :: r)).
  { unfold strtoul. unfold dig in P4.
    assert (W : isspace c = false).
    { unfold isspace. destruct (Z.eqb_spec c 32), (Z.leb_spec 9 c), (Z.leb_spec c 13); try reflexivity; exfalso; apply P1; lia. }
    assert (Sg : sign (c :: r) = (false, c :: r)).
    { cbn [sign]. destruct (Z.eqb_spec c 43); [lia|]. destruct (Z.eqb_spec c 45); [lia|]. reflexivity. }
    cbn [skip_ws]. rewrite W, Sg.
    assert (D : digitb c = false) by (unfold digitb; destruct (Z.leb_spec 48 c), (Z.leb_spec c 57); try reflexivity; lia).
    assert (R : AddrModel.run digitb (c :: r) = ([], c :: r)) by (cbn [AddrModel.run]; now rewrite D).
    rewrite R. destruct c as [|q|q]; try reflexivity. do 7 (destruct q as [q|q|]; try reflexivity; try (exfalso; lia)). }
  rewrite E. change (wraps 32 0) with 0. cbn [Z.ltb Z.leb orb Z.compare].
  destruct (Z.eqb_spec c 46); [contradiction|reflexivity].
Qed.

Lemma parse_name_port host port p : no_number host -> ~ In 58 host -> (7 <= length host)%nat -> port_text port p ->
  ~ In 47 (host ++ 58 :: port) -> ~ In 93 (host ++ 58 :: port) -> short_text (host ++ 58 :: port) ->
  str_parseip true (host ++ 58 :: port) = Ok (mkp (Copied true host) None (Some p) (host ++ 58 :: port)).
Proof.
  intros NN N L P N1 N2 B. rewrite parse_bare_body; [|exact B|].
  2:{ intros i [O _]. exfalso. eapply (no_occ _ slashes 47); [left; reflexivity| |exact O]. exact N1. }
  rewrite (body_port true false _ _ _ p); auto; [|now apply port_no_bracket].
  unfold scan_ip. now rewrite octets_name.
Qed.

(* a colon within the first seven characters: no port is ever stored *)
Lemma scan_port name bad good port caller r : scan_ip name bad good port caller = Ok r -> p_port r = port.
Proof.
  unfold scan_ip. destruct (octets 4 name []) as [l|]; [|intros E; injection E as <-; reflexivity].
  destruct (classful l) as [[ip|]| | |]; cbn [bind]; try discriminate.
  - destruct good; cbn [bind]; try discriminate. intros E; injection E as <-; reflexivity.
  - intros E; injection E as <-; reflexivity.
Qed.
Lemma parse_short_host af host port r : ~ In 58 host -> (length host <= 6)%nat ->
  ~ In 47 (host ++ 58 :: port) -> ~ In 93 (host ++ 58 :: port) -> short_text (host ++ 58 :: port) ->
  str_parseip af (host ++ 58 :: port) = Ok r -> p_port r = None.
Proof.
  intros N L N1 N2 B. rewrite parse_bare_body; [|exact B|].
  2:{ intros i [O _]. exfalso. eapply (no_occ _ slashes 47); [left; reflexivity| |exact O]. exact N1. }
  unfold body_of. rewrite (pos_none _ close_colon B) by (apply (no_occ _ _ 93); [left; reflexivity|exact N2]). cbn [bind].
  change (3 <? -1) with false. cbv iota.
  rewrite (pos_some _ [58] (length host) B (first_at host 58 [] port N)). cbn [bind].
  destruct (Z.ltb_spec 6 (Z.of_nat (length host))); [lia|]. cbn [andb]. apply scan_port.
Qed.
Lemma parse_short_name af host port : no_number host -> ~ In 58 host -> (length host <= 6)%nat ->
  ~ In 47 (host ++ 58 :: port) -> ~ In 93 (host ++ 58 :: port) -> short_text (host ++ 58 :: port) ->
  str_parseip af (host ++ 58 :: port) = Ok (mkp (if af then Own else Null) None None (host ++ 58 :: port)).
Proof.
  intros NN N L N1 N2 B. rewrite parse_bare_body; [|exact B|].
  2:{ intros i [O _]. exfalso. eapply (no_occ _ slashes 47); [left; reflexivity| |exact O]. exact N1. }
  unfold body_of. rewrite (pos_none _ close_colon B) by (apply (no_occ _ _ 93); [left; reflexivity|exact N2]). cbn [bind].
  change (3 <? -1) with false. cbv iota.
  rewrite (pos_some _ [58] (length host) B (first_at host 58 [] port N)). cbn [bind].
  destruct (Z.ltb_spec 6 (Z.of_nat (length host))); [lia|]. cbn [andb].
  unfold scan_ip. rewrite octets_name; [reflexivity|].
  destruct NN as (c & r & -> & P). exists c, (r ++ 58 :: port). auto.
Qed.

(* no port, no scheme *)
Lemma body_noport af isbuf name0 name : ~ In 93 name -> ~ In 58 name -> short_text name ->
  body_of af isbuf name0 name =
  if isbuf && negb (Nat.eqb (length name) 0) then
      scan_ip name (Copied true name)
        (if af then (if Nat.leb 8 (align2 (length name + 1)) then Ok (Wild (firstn 8 (name ++ [0%Z]))) else UB)
         else Ok (Copied true name)) None name0
  else
      let r := if af then (if isbuf then Wild [] else Own) else Null in
      scan_ip name r (Ok r) None name0.
Proof.
  intros N1 N2 B. unfold body_of.
  rewrite (pos_none _ close_colon B) by (apply (no_occ _ _ 93); [left; reflexivity|exact N1]). cbn [bind].
  rewrite (pos_none _ [58] B) by (apply (no_occ _ _ 58); [left; reflexivity|exact N2]). reflexivity.
Qed.
Lemma parse_plain af ts vs ip : Forall2 octet ts vs -> filled vs ip -> short_text (dotted ts) ->
  str_parseip af (dotted ts) = Ok (mkp (if af then Own else Null) (Some ip) None (dotted ts)).
Proof.
  intros F I B. pose proof (dotted_chars _ _ F) as C.
  rewrite parse_bare_body; [|exact B|].
  2:{ intros i [O _]. exfalso. eapply (no_occ _ slashes 47); [left; reflexivity| |exact O]. now apply hostish_not; auto. }
  rewrite body_noport by (auto; apply hostish_not; auto). cbn [andb]. cbv zeta.
  apply (scan_filled _ _ _ _ _ vs); auto; [|eapply octets_ranges; eauto].
  rewrite (octets_dotted _ _ F); [reflexivity|]. rewrite (Forall2_len _ _ _ F). eapply filled_length; eauto.
Qed.

(* scheme, no port *)
Lemma parse_wild sch ts vs ip : ~ In 47 sch -> (4 <= length sch)%nat ->
  Forall2 octet ts vs -> filled vs ip -> (7 <= length (dotted ts) <= 259)%nat ->
  short_text (sch ++ slashes ++ dotted ts) ->
  str_parseip true (sch ++ slashes ++ dotted ts) =
  Ok (mkp (Wild (firstn 8 (dotted ts ++ [0]))) (Some ip) None (sch ++ slashes ++ dotted ts)).
Proof.
  intros N1 N2 F I L Sh. pose proof (dotted_chars _ _ F) as C.
  rewrite parse_scheme_body by auto. rewrite firstn_all2 by lia.
  rewrite body_noport by (try (apply hostish_not; auto); unfold short_text; lia).
  destruct (Nat.eqb_spec (length (dotted ts)) 0); [lia|]. cbn [andb negb].
  assert (E : Nat.leb 8 (align2 (length (dotted ts) + 1)) = true) by (apply Nat.leb_le; unfold align2; lia).
  rewrite E. apply (scan_filled _ _ _ _ _ vs); auto; [|eapply octets_ranges; eauto].
  rewrite (octets_dotted _ _ F); [reflexivity|]. rewrite (Forall2_len _ _ _ F). eapply filled_length; eauto.
Qed.
Lemma parse_wild_short sch ts vs ip : ~ In 47 sch -> (4 <= length sch)%nat ->
  Forall2 octet ts vs -> filled vs ip -> (length (dotted ts) <= 5)%nat ->
  short_text (sch ++ slashes ++ dotted ts) ->
  str_parseip true (sch ++ slashes ++ dotted ts) = UB.
Proof.
  intros N1 N2 F I L Sh. pose proof (dotted_chars _ _ F) as C.
  rewrite parse_scheme_body by auto. rewrite firstn_all2 by lia.
  rewrite body_noport by (try (apply hostish_not; auto); unfold short_text; lia).
  assert (E0 : length (dotted ts) <> 0%nat).
  { destruct F as [|t a ts' vs' O F']; [inversion I|]. apply octet_length in O. unfold dotted. cbn [join].
    destruct ts'; [lia|]. rewrite app_length. lia. }
  destruct (Nat.eqb_spec (length (dotted ts)) 0); [lia|]. cbn [andb negb].
  assert (E : Nat.leb 8 (align2 (length (dotted ts) + 1)) = false).
  { apply Nat.leb_gt. unfold align2.
    assert (K : (length (dotted ts) = 1 \/ length (dotted ts) = 2 \/ length (dotted ts) = 3 \/ length (dotted ts) = 4 \/ length (dotted ts) = 5)%nat) by lia.
    destruct K as [K|[K|[K|[K|K]]]]; rewrite K; cbn; lia. }
  rewrite E. unfold scan_ip. rewrite (octets_dotted _ _ F) by (rewrite (Forall2_len _ _ _ F); eapply filled_length; eauto).
  cbn [app]. rewrite (classful_filled vs ip I) by (eapply octets_ranges; eauto). reflexivity.
Qed.
Lemma parse_scheme_name af sch host : ~ In 47 sch -> (4 <= length sch)%nat -> no_number host ->
  ~ In 93 host -> ~ In 58 host -> (length host <= 259)%nat -> short_text (sch ++ slashes ++ host) ->
  str_parseip af (sch ++ slashes ++ host) = Ok (mkp (Copied true host) None None (sch ++ slashes ++ host)).
Proof.
  intros N1 N2 NN N3 N4 L Sh. rewrite parse_scheme_body by auto. rewrite firstn_all2 by lia.
  rewrite body_noport by (auto; unfold short_text; lia).
  assert (E0 : length host <> 0%nat) by (destruct NN as (c & r & -> & _); cbn; lia).
  destruct (Nat.eqb_spec (length host) 0); [lia|]. cbn [andb negb].
  unfold scan_ip. now rewrite octets_name.
Qed.

(* [ ... ]:port *)
Lemma parse_bracket af pre port p : ~ In 93 pre -> ~ In 47 (pre ++ 93 :: 58 :: port) -> (4 <= length pre)%nat -> port_text port p ->
  short_text (pre ++ 93 :: 58 :: port) ->
  str_parseip af (pre ++ 93 :: 58 :: port) = Ok (mkp (Copied af (pre ++ [93])) None (Some p) (pre ++ [93])).
Proof.
  intros N1 N2 L P B. rewrite parse_bare_body; [|exact B|].
  2:{ intros i [O _]. exfalso. eapply (no_occ _ slashes 47); [left; reflexivity| |exact O]. exact N2. }
  unfold body_of. rewrite (pos_some _ close_colon (length pre) B (first_at pre 93 [58] port N1)). cbn [bind].
  destruct (Z.ltb_spec 3 (Z.of_nat (length pre))); [|lia]. rewrite Nat2Z.id.
  assert (E : skipn (length pre + 2) (pre ++ 93 :: 58 :: port) = port).
  { rewrite skipn_app, skipn_all2 by lia. replace (length pre + 2 - length pre)%nat with 2%nat by lia. reflexivity. }
  assert (E2 : firstn (length pre + 1) (pre ++ 93 :: 58 :: port) = pre ++ [93]).
  { rewrite firstn_app, firstn_all2 by lia. replace (length pre + 1 - length pre)%nat with 1%nat by lia. reflexivity. }
  rewrite E, E2. rewrite (atoi_port port p P). reflexivity.
Qed.

(* trailing text after four parts *)
Lemma parse_junk a b c d x y z w k : Forall2 octet [a; b; c; d] [x; y; z; w] ->
  ~ In 47 k -> ~ In 93 k -> ~ In 58 k -> short_text (dotted [a; b; c; d] ++ 46 :: k) ->
  str_parseip true (dotted [a; b; c; d] ++ 46 :: k) =
  Ok (mkp Own (Some [Some x; Some y; Some z; Some w]) None (dotted [a; b; c; d] ++ 46 :: k)).
Proof.
  intros F N1 N2 N3 B. pose proof (dotted_chars _ _ F) as C.
  assert (NI : forall v, v = 47 \/ v = 58 \/ v = 93 -> ~ In v k -> ~ In v (dotted [a; b; c; d] ++ 46 :: k)).
  { intros v Hv Hk. rewrite in_app_iff. intros [X|[X|X]]; [now apply (hostish_not v) in X; auto|lia|contradiction]. }
  rewrite parse_bare_body; [|exact B|].
  2:{ intros i [O _]. exfalso. eapply (no_occ _ slashes 47); [left; reflexivity| |exact O]. apply NI; auto. }
  rewrite body_noport by (auto; apply NI; auto). cbn [andb]. cbv zeta.
  apply (scan_filled _ _ _ _ _ [x; y; z; w]); [|eapply octets_ranges; eauto|constructor].
  inversion F as [|? ? ? ? Ha F1]; subst. inversion F1 as [|? ? ? ? Hb F2]; subst.
  inversion F2 as [|? ? ? ? Hc F3]; subst. inversion F3 as [|? ? ? ? Hd F4]; subst.
  now apply octets_junk.
Qed.

(* from 192 on a shortened address leaves bytes unwritten *)
Lemma parse_unwritten af ts vs : Forall2 octet ts vs -> (1 <= length ts <= 3)%nat -> 192 <= hd 0 vs -> short_text (dotted ts) ->
  exists n, (1 <= n)%nat /\
  str_parseip af (dotted ts) = Ok (mkp (if af then Own else Null) (Some (map Some vs ++ repeat None n)) None (dotted ts)).
Proof.
  intros F L H B. pose proof (dotted_chars _ _ F) as C. pose proof (Forall2_len _ _ _ F) as Q.
  exists (4 - length vs)%nat. split; [lia|].
  rewrite parse_bare_body; [|exact B|].
  2:{ intros i [O _]. exfalso. eapply (no_occ _ slashes 47); [left; reflexivity| |exact O]. now apply hostish_not; auto. }
  rewrite body_noport by (auto; apply hostish_not; auto). cbn [andb]. cbv zeta.
  unfold scan_ip. rewrite (octets_dotted _ _ F) by lia. cbn [app].
  pose proof (octets_ranges _ _ F) as R.
  destruct vs as [|a vs]; [cbn in Q; lia|]. cbn [hd] in H. inversion R; subst. unfold classful.
  destruct (Z.ltb_spec (a / 64) 2); [lia|]. destruct (Z.eqb_spec (a / 64) 2); [lia|]. reflexivity.
Qed.

(* too few parts below 192: refused *)
Lemma parse_too_few af ts vs : Forall2 octet ts vs -> (length ts = 1%nat \/ length ts = 2%nat /\ 128 <= hd 0 vs) -> hd 0 vs < 192 -> short_text (dotted ts) ->
  str_parseip af (dotted ts) = Ok (mkp (if af then Own else Null) None None (dotted ts)).
Proof.
  intros F L H B. pose proof (dotted_chars _ _ F) as C. pose proof (Forall2_len _ _ _ F) as Q.
  rewrite parse_bare_body; [|exact B|].
  2:{ intros i [O _]. exfalso. eapply (no_occ _ slashes 47); [left; reflexivity| |exact O]. now apply hostish_not; auto. }
  rewrite body_noport by (auto; apply hostish_not; auto). cbn [andb]. cbv zeta.
  unfold scan_ip. rewrite (octets_dotted _ _ F) by lia. cbn [app].
  pose proof (octets_ranges _ _ F) as R.
  destruct vs as [|a vs]; [cbn in Q; lia|]. cbn [hd] in *. inversion R; subst. unfold classful.
  destruct L as [L|[L L2]]; rewrite L in Q.
  - destruct vs; [|discriminate]. destruct (Z.ltb_spec (a / 64) 2); [reflexivity|]. destruct (Z.eqb_spec (a / 64) 2); [reflexivity|lia].
  - destruct vs as [|b [|? ?]]; try discriminate.
    destruct (Z.ltb_spec (a / 64) 2); [lia|]. destruct (Z.eqb_spec (a / 64) 2); [reflexivity|lia].
Qed.

Lemma parse_nothing af : str_parseip af [] = UB.
Proof. destruct af; reflexivity. Qed.
