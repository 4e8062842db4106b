(* Programs started on Windows: specification and proofs *)
From Verif Require Import Base StrModel StrProofs WcModel.
From Coq Require Import Lia.
Local Open Scope Z_scope.

(* pieces of a text between the characters c *)
Fixpoint pieces (c : Z) (s : bytes) : list bytes :=
  match s with
  | [] => [[]]
  | x :: r => if x =? c then [] :: pieces c r
              else match pieces c r with [] => [[x]] | p :: ps => (x :: p) :: ps end
  end.
Definition swap1 (a b : Z) (s : bytes) : bytes := map (fun x => if x =? a then b else x) s.
Definition contains (p s : bytes) : Prop := exists pre post, s = pre ++ p ++ post.

Lemma pieces_ne c s : exists p ps, pieces c s = p :: ps.
Proof. destruct s as [|x r]; cbn; [eauto|]. destruct (x =? c); [eauto|]. destruct (pieces c r); eauto. Qed.
Lemma occurs1 c s i : occurs [c] s i <-> nth_error s i = Some c.
Proof.
  split.
  - intros (pre & post & -> & <-). rewrite nth_error_app2 by lia. rewrite Nat.sub_diag. reflexivity.
  - intros H. apply nth_error_split in H. destruct H as (l1 & l2 & -> & L). exists l1, l2. auto.
Qed.
Lemma pieces_splits c s : splits [c] s (pieces c s).
Proof.
  induction s as [|x r IH]; cbn [pieces].
  - apply splits_last. intros i. rewrite occurs1. destruct i; discriminate.
  - destruct (x =? c) eqn:E.
    + assert (x = c) by lia. subst x. change (c :: r) with ([] ++ [c] ++ r). apply (splits_more [c] [] r); [|exact IH].
      split; [apply occurs1; reflexivity | cbn; intros; lia].
    + assert (NE : x <> c) by lia. remember (pieces c r) as pp eqn:PP. clear PP. destruct IH as [r NO | pre post ps F Q].
      * apply splits_last. intros [|i]; rewrite occurs1; cbn; [congruence|]. intros H. apply (NO i). apply occurs1. exact H.
      * change (x :: pre ++ [c] ++ post) with ((x :: pre) ++ [c] ++ post). apply (splits_more [c] (x :: pre) post); [|exact Q].
        destruct F as [F1 F2]. split.
        -- apply occurs1 in F1. apply occurs1. exact F1.
        -- intros [|j] Hj; rewrite occurs1; cbn; [congruence|]. intros H. apply (F2 j); [cbn in Hj; lia | apply occurs1; exact H].
Qed.
Lemma join_pieces a b s : join [b] (pieces a s) = swap1 a b s.
Proof.
  induction s as [|x r IH]; [reflexivity|]. cbn [pieces swap1 map]. destruct (pieces_ne a r) as (p & ps & E). rewrite E in *.
  destruct (x =? a).
  - change (join [b] ([] :: p :: ps)) with (b :: join [b] (p :: ps)). rewrite IH. reflexivity.
  - assert (J : join [b] ((x :: p) :: ps) = x :: join [b] (p :: ps)) by (destruct ps; reflexivity). rewrite J, IH. reflexivity.
Qed.
Lemma pieces_more a s : In a s -> (2 <= length (pieces a s))%nat.
Proof.
  induction s as [|x r IH]; [intros []|]. cbn [pieces]. destruct (pieces_ne a r) as (p & ps & E). rewrite E in *.
  destruct (x =? a) eqn:X; [cbn; lia|]. intros [->|H]; [lia|]. specialize (IH H). cbn in *. exact IH.
Qed.

Lemma has_spec e p : Z.of_nat (length e) < 2 ^ 31 -> exists b, str_has e p = Ok b /\ (b = true <-> contains p e).
Proof.
  intros L. destruct (str_has_spec e p L) as (b & A & B). exists b. split; [exact A|]. rewrite B. split.
  - intros [i (pre & post & E & _)]. exists pre, post. exact E.
  - intros (pre & post & E). exists (length pre), pre, post. split; [exact E | reflexivity].
Qed.
Lemma contains1 c e : contains [c] e <-> In c e.
Proof.
  split.
  - intros (pre & post & ->). apply in_app_iff. right. left. reflexivity.
  - intros H. apply in_split in H. destruct H as (l1 & l2 & ->). exists l1, l2. reflexivity.
Qed.

(* ---- the command line ---- *)
Definition named (c : bytes) : Prop := contains [46; 98; 97; 116] c \/ contains [46; 101; 120; 101] c.
Lemma program_named c : Z.of_nat (length c) < 2 ^ 31 -> named c -> program c = Ok (firstn 259 c).
Proof.
  intros L N. unfold program. destruct (has_spec c BAT L) as (b & B & B'). rewrite B. cbn [bind].
  destruct b.
  - cbn [bind]. now rewrite app_nil_r.
  - destruct (has_spec c EXE L) as (x & X & X'). rewrite X. cbn [bind]. destruct N as [N|N].
    + apply B' in N. discriminate N.
    + apply X' in N. subst x. now rewrite app_nil_r.
Qed.
Lemma program_plain c : Z.of_nat (length c) < 2 ^ 31 -> ~ named c -> program c = Ok (firstn 259 (c ++ [46; 101; 120; 101])).
Proof.
  intros L N. unfold program. destruct (has_spec c BAT L) as (b & B & B'). rewrite B. cbn [bind].
  destruct b; [exfalso; apply N; left; apply B'; reflexivity|].
  destruct (has_spec c EXE L) as (x & X & X'). rewrite X. cbn [bind].
  destruct x; [exfalso; apply N; right; apply X'; reflexivity|]. reflexivity.
Qed.
Lemma swap1_nul_free a b s : b <> 0 -> nul_free s -> nul_free (swap1 a b s).
Proof.
  intros B H. unfold swap1. induction H as [|x r Hx H IH]; cbn; [constructor|]. constructor; [|exact IH]. destruct (x =? a); assumption.
Qed.
Lemma until_nul_end s : nul_free s -> until_nul (s ++ [0]) = s.
Proof. intros H. induction H as [|x r Hx H IH]; cbn; [reflexivity|]. destruct (Z.eqb_spec x 0); [contradiction|]. now rewrite IH. Qed.
Lemma cmdline_of p c args : program c = Ok p -> nul_free p -> (forall a, args = Some a -> nul_free a) ->
  Z.of_nat (length p) + Z.of_nat (length (match args with None => [] | Some a => a end)) + 2 < 2 ^ 31 ->
  cmdline c args = Ok (swap1 44 32 (p ++ [44] ++ match args with None => [] | Some a => a end)).
Proof.
  intros P NP NA L. unfold cmdline. rewrite P. cbn [bind].
  set (a := match args with None => [] | Some a => a end : bytes) in *.
  change (Z.of_nat (length p) + Z.of_nat (length a) + 2 < 2 ^ 31) in L.
  assert (Na : nul_free a) by (unfold a; destruct args as [q|]; [apply NA; reflexivity | constructor]).
  set (t := p ++ [COMMA] ++ a).
  match goal with |- context [str_has ?u [COMMA]] => change u with t end.
  assert (LT : Z.of_nat (length t) = Z.of_nat (length p) + Z.of_nat (length a) + 1) by (unfold t; rewrite !app_length; cbn [length]; lia).
  destruct (has_spec t [COMMA]) as (b & B & B'); [rewrite LT; clear - L; change (2 ^ 31) with 2147483648 in *; lia|]. rewrite B. cbn [bind].
  assert (I : In COMMA t) by (unfold t; apply in_app_iff; right; left; reflexivity).
  assert (b = true) as -> by (apply B', contains1, I).
  assert (LS : forall u, length (swap1 COMMA SPACE u) = length u) by (intros u; apply map_length).
  rewrite (str_swap_spec [COMMA] [SPACE] t (pieces COMMA t)).
  - cbn [bind]. assert (Q := pieces_more COMMA t I). destruct (Nat.eqb_spec (length (pieces COMMA t)) 1); [lia|].
    rewrite join_pieces. rewrite until_nul_end; [reflexivity|]. apply swap1_nul_free; [discriminate|].
    unfold t. apply Forall_app. split; [exact NP|]. constructor; [discriminate | exact Na].
  - discriminate.
  - apply pieces_splits.
  - rewrite join_pieces, LS. change (2 ^ 31) with 2147483648 in *. change (2 ^ 64) with 18446744073709551616. lia.
Qed.
Lemma swap1_none a b s : ~ In a s -> swap1 a b s = s.
Proof.
  unfold swap1. induction s as [|x r IH]; intros N; [reflexivity|]. cbn. destruct (Z.eqb_spec x a); [exfalso; apply N; left; assumption|].
  rewrite IH; [reflexivity|]. intros H; apply N; right; exact H.
Qed.
Lemma swap1_app a b s r : swap1 a b (s ++ r) = swap1 a b s ++ swap1 a b r.
Proof. apply map_app. Qed.
Definition short (c a : bytes) : Prop := (length c <= 255)%nat /\ Z.of_nat (length a) < 2 ^ 30.
Lemma firstn_short (n : nat) (l : bytes) : (length l <= n)%nat -> firstn n l = l.
Proof. apply firstn_all2. Qed.
(* a name without extension, without commas: the name, ".exe", a space, the arguments with spaces between *)
Lemma line_plain c a : short c a -> nul_free c -> nul_free a -> ~ In 44 c -> ~ named c ->
  cmdline c (Some a) = Ok (c ++ [46; 101; 120; 101] ++ [32] ++ swap1 44 32 a).
Proof.
  intros [S1 S2] N1 N2 C NM. change (2 ^ 30) with 1073741824 in S2.
  assert (P : program c = Ok (c ++ [46; 101; 120; 101])).
  { rewrite program_plain by (auto; change (2 ^ 31) with 2147483648; lia). rewrite firstn_short; [reflexivity|]. rewrite app_length. cbn [length]. lia. }
  rewrite (cmdline_of _ _ (Some a) P).
  - f_equal. rewrite !swap1_app, (swap1_none 44 32 c C), <- !app_assoc. reflexivity.
  - apply Forall_app. split; [exact N1|]. repeat constructor; discriminate.
  - intros b E. injection E as <-. exact N2.
  - rewrite app_length. cbn [length]. change (2 ^ 31) with 2147483648. lia.
Qed.
Lemma line_named c a : short c a -> nul_free c -> nul_free a -> ~ In 44 c -> named c ->
  cmdline c (Some a) = Ok (c ++ [32] ++ swap1 44 32 a).
Proof.
  intros [S1 S2] N1 N2 C NM. change (2 ^ 30) with 1073741824 in S2.
  assert (P : program c = Ok c).
  { rewrite program_named by (auto; change (2 ^ 31) with 2147483648; lia). rewrite firstn_short; [reflexivity | lia]. }
  rewrite (cmdline_of _ _ (Some a) P).
  - f_equal. rewrite !swap1_app, (swap1_none 44 32 c C). reflexivity.
  - exact N1.
  - intros b E. injection E as <-. exact N2.
  - change (2 ^ 31) with 2147483648. lia.
Qed.
Lemma line_none c : (length c <= 255)%nat -> nul_free c -> ~ In 44 c -> named c -> cmdline c None = Ok (c ++ [32]).
Proof.
  intros S1 N1 C NM.
  assert (P : program c = Ok c).
  { rewrite program_named by (auto; change (2 ^ 31) with 2147483648; lia). rewrite firstn_short; [reflexivity | lia]. }
  rewrite (cmdline_of _ _ None P).
  - f_equal. rewrite !swap1_app, (swap1_none 44 32 c C). reflexivity.
  - exact N1.
  - discriminate.
  - cbn [length]. change (2 ^ 31) with 2147483648. lia.
Qed.
Lemma swap1_idem s : swap1 44 32 (swap1 44 32 s) = swap1 44 32 s.
Proof. unfold swap1. rewrite map_map. apply map_ext. intros x. destruct (x =? 44) eqn:E; cbn; [reflexivity | now rewrite E]. Qed.
(* an argument with a space in it cannot be told from two *)
Lemma line_ambiguous c a : short c a -> nul_free c -> nul_free a -> ~ In 44 c -> ~ named c ->
  cmdline c (Some a) = cmdline c (Some (swap1 44 32 a)).
Proof.
  intros S N1 N2 C NM. rewrite (line_plain c a S N1 N2 C NM). destruct S as [S1 S2]. rewrite line_plain; auto.
  - now rewrite swap1_idem.
  - split; [exact S1|]. unfold swap1. now rewrite map_length.
  - apply swap1_nul_free; [discriminate | exact N2].
Qed.
(* a long name is cut, with its extension *)
Lemma name_cut c : (259 <= length c)%nat -> Z.of_nat (length c) < 2 ^ 31 -> program c = Ok (firstn 259 c).
Proof.
  intros L1 L. unfold program. destruct (has_spec c BAT L) as (b & B & B'). destruct (has_spec c EXE L) as (x & X & X'). rewrite B. cbn [bind].
  destruct b; cbn [bind]; [now rewrite app_nil_r|]. rewrite X. cbn [bind]. f_equal. unfold MAX_PATH. change (260 - 1)%nat with 259%nat.
  rewrite firstn_app. replace (259 - length c)%nat with 0%nat by lia. cbn [firstn]. apply app_nil_r.
Qed.

(* ---- the environment ---- *)
Lemma cut_spec c fuel : forall s L ptrs, nul_free s -> (length s <= fuel)%nat -> exists ptrs',
  sp_cut [c] fuel (L ++ s ++ [0]) (length L) ptrs = Ok (L ++ swap1 c 0 s ++ [0], ptrs').
Proof.
  induction fuel as [|fuel IH]; intros s L ptrs Hnf Hf.
  - destruct s; [|cbn in Hf; lia]. exists ptrs. cbn [sp_cut]. rewrite (cstr_app L [] []) by constructor. reflexivity.
  - cbn [sp_cut]. rewrite cstr_app by auto. destruct (strstr [c] s) as [k|] eqn:E.
    + apply strstr_some in E. destruct E as [(pre & post & -> & <-) F].
      apply nul_free_app in Hnf as [Hpre Hnf]. apply nul_free_app in Hnf as [Hdf Hpost].
      rewrite wr_ok by (rewrite !app_length; cbn [length]; lia). cbn [bind].
      assert (Ebuf : set_nth (length L + length pre) 0 (L ++ (pre ++ [c] ++ post) ++ [0]) = (L ++ pre ++ [0]) ++ post ++ [0]).
      { rewrite set_nth_app_r by lia. rewrite <- !app_assoc. f_equal.
        replace (length L + length pre - length L)%nat with (length pre) by lia.
        rewrite set_nth_app_r by lia. rewrite Nat.sub_diag. reflexivity. }
      rewrite Ebuf.
      replace (length L + length pre + length [c])%nat with (length (L ++ pre ++ [0])) by (rewrite !app_length; cbn [length]; lia).
      destruct (IH post (L ++ pre ++ [0]) (ptrs ++ [length (L ++ pre ++ [0])])) as [q Q]; [exact Hpost | rewrite !app_length in Hf; cbn [length] in Hf; lia |].
      rewrite Q. exists q. f_equal. f_equal. rewrite !swap1_app.
      rewrite (swap1_none c 0 pre).
      * cbn [swap1 map]. rewrite Z.eqb_refl. rewrite <- !app_assoc. reflexivity.
      * intros I. apply In_nth_error in I. destruct I as [j J]. apply (F j).
        -- apply nth_error_Some. rewrite J. discriminate.
        -- apply occurs1. rewrite nth_error_app1; [exact J|]. apply nth_error_Some. rewrite J. discriminate.
    + exists ptrs. f_equal. f_equal. rewrite swap1_none; [reflexivity|]. intros I. apply In_nth_error in I. destruct I as [j J].
      apply (strstr_none _ _ E j), occurs1, J.
Qed.
Lemma split_buf c s : s <> [] -> nul_free s -> exists ptrs n, str_split [c] s = Ok (Some (swap1 c 0 s ++ [0], ptrs, n)).
Proof.
  intros H N. destruct (str_split_spec [c] s (pieces c s) ltac:(discriminate) H N (pieces_splits c s)) as ([[b ptrs] n] & A & _).
  exists ptrs, n. rewrite A. do 4 f_equal. unfold str_split in A.
  assert (Nat.eqb (length s) 0 = false) as E0 by (destruct s; [congruence|reflexivity]). rewrite E0 in A.
  rewrite (sp_count_spec [c] (S (length s)) s 1 (pieces c s)) in A; [|discriminate | lia | apply pieces_splits].
  cbn [bind] in A. destruct (Nat.ltb_spec 1 (1 + length (pieces c s) - 1)) as [L|L].
  - destruct (cut_spec c (S (length s)) s [] [0%nat] N) as [q Q]; [lia|]. cbn [app length] in Q. rewrite Q in A. cbn [bind] in A.
    destruct (Nat.leb _ _) in A; [|discriminate A]. injection A as <- _ _. reflexivity.
  - cbn [bind] in A. destruct (Nat.leb _ _) in A; [|discriminate A]. injection A as <- _ _.
    rewrite swap1_none; [reflexivity|]. intros I. apply pieces_more in I. lia.
Qed.
(* what is read of texts ended by NUL each, with one more NUL behind them or not *)
Definition isnil (q : bytes) : bool := match q with [] => true | _ => false end.
Fixpoint till_empty (ps : list bytes) : list bytes := match ps with [] => [] | [] :: _ => [] | p :: r => p :: till_empty r end.
Lemma read_pieces : forall s cur pad, nul_free s -> nul_free cur ->
  read_block cur (swap1 59 0 s ++ [0] ++ pad) =
  match pieces 59 s with
  | [] => UB
  | p :: ps => let l := (cur ++ p) :: ps in
      if existsb isnil l then Ok (till_empty l)
      else match pad with [] => UB | _ => do r <- read_block [] pad; Ok (l ++ r) end
  end.
Proof.
  induction s as [|x r IH]; intros cur pad Ns Nc.
  - cbn [swap1 map app pieces]. cbn [read_block]. change (0 =? 0) with true. cbn iota. rewrite app_nil_r. destruct cur as [|y cur]; [reflexivity|].
    cbn [existsb till_empty orb]. destruct pad as [|z pad]; [reflexivity|]. destruct (read_block [] (z :: pad)); reflexivity.
  - inversion Ns as [|x' r' Hx Hr]; subst. cbn [swap1 map pieces app]. fold (swap1 59 0 r). destruct (pieces_ne 59 r) as (p & ps & E).
    destruct (x =? 59) eqn:X.
    + cbn [read_block]. change (0 =? 0) with true. cbn iota. rewrite app_nil_r. destruct cur as [|y cur]; [reflexivity|].
      match goal with |- context [read_block [] ?z] => change z with (swap1 59 0 r ++ [0] ++ pad) end.
      rewrite IH by (auto; constructor). rewrite E. cbn [app existsb orb].
      destruct (isnil p) eqn:Pe; cbn [orb].
      * destruct p; [|discriminate Pe]. cbn [bind till_empty]. reflexivity.
      * destruct (existsb isnil ps).
        -- cbn [bind till_empty]. reflexivity.
        -- destruct pad as [|z pad]; [reflexivity|]. destruct (read_block [] (z :: pad)); reflexivity.
    + cbn [read_block]. destruct (Z.eqb_spec x 0); [contradiction|].
      match goal with |- read_block ?y ?z = _ => change z with (swap1 59 0 r ++ [0] ++ pad) end.
      rewrite IH; [|exact Hr | apply Forall_app; split; [exact Nc | constructor; [assumption | constructor]]].
      rewrite E. rewrite <- app_assoc. reflexivity.
Qed.
Lemma env_given e : nul_free e -> Z.of_nat (length e) < 2 ^ 31 -> In 61 e -> In 59 e ->
  environment (Some e) =
  (if existsb isnil (pieces 59 e) then Ok (Some (till_empty (pieces 59 e)))
   else if Nat.even (length e) then Ok (Some (pieces 59 e)) else UB).
Proof.
  intros N L I1 I2. unfold environment. destruct (has_spec e [EQUALS] L) as (a & A & A'). destruct (has_spec e [SEMI] L) as (b & B & B').
  rewrite A, B. cbn [bind]. assert (a = true) as -> by (apply A', contains1, I1). assert (b = true) as -> by (apply B', contains1, I2). cbn [andb].
  assert (NE : e <> []) by (intros ->; destruct I1). destruct (split_buf 59 e NE N) as (ptrs & n & S1). unfold SEMI. rewrite S1. cbn [bind].
  assert (LN : length (swap1 59 0 e ++ [0]) = S (length e)) by (rewrite app_length; unfold swap1; rewrite map_length; cbn [length]; lia).
  rewrite LN. unfold align2. replace (S (length e) + S (length e) mod 2 - S (length e))%nat with (S (length e) mod 2)%nat by lia.
  rewrite <- app_assoc. rewrite read_pieces by (auto; constructor).
  destruct (pieces_ne 59 e) as (p & ps & E). rewrite E. cbn [app existsb]. destruct (isnil p || existsb isnil ps)%bool; [reflexivity|].
  assert (M : (S (length e) mod 2 = if Nat.even (length e) then 1 else 0)%nat).
  { destruct (Nat.even (length e)) eqn:EV.
    - apply Nat.even_spec in EV. destruct EV as [k K]. rewrite K. replace (S (2 * k)) with (1 + k * 2)%nat by lia. rewrite Nat.mod_add by lia. reflexivity.
    - assert (OD : Nat.odd (length e) = true) by (unfold Nat.odd; now rewrite EV). apply Nat.odd_spec in OD. destruct OD as [k K].
      rewrite K. replace (S (2 * k + 1)) with (0 + (k + 1) * 2)%nat by lia. rewrite Nat.mod_add by lia. reflexivity. }
  rewrite M. destruct (Nat.even (length e)); cbn [repeat].
  - cbn [read_block bind]. change (0 =? 0) with true. cbn iota. cbn [bind]. now rewrite app_nil_r.
  - reflexivity.
Qed.
Lemma env_not_given e : Z.of_nat (length e) < 2 ^ 31 -> ~ In 59 e -> environment (Some e) = Ok None.
Proof.
  intros L NI. unfold environment. destruct (has_spec e [EQUALS] L) as (a & A & A'). destruct (has_spec e [SEMI] L) as (b & B & B').
  rewrite A, B. cbn [bind]. destruct b; [exfalso; apply NI, contains1, B'; reflexivity|]. now rewrite Bool.andb_false_r.
Qed.
(* an even text of variables *)
Lemma env_even e : nul_free e -> Z.of_nat (length e) < 2 ^ 31 -> In 61 e -> In 59 e -> ~ In [] (pieces 59 e) -> Nat.even (length e) = true ->
  environment (Some e) = Ok (Some (pieces 59 e)).
Proof.
  intros N L I1 I2 NE EV. rewrite env_given by assumption. replace (existsb isnil (pieces 59 e)) with false; [now rewrite EV|].
  symmetry. apply Bool.not_true_is_false. intros Q. apply existsb_exists in Q. destruct Q as ([|y q] & Q1 & Q2); [exact (NE Q1) | discriminate Q2].
Qed.
Lemma env_odd e : nul_free e -> Z.of_nat (length e) < 2 ^ 31 -> In 61 e -> In 59 e -> ~ In [] (pieces 59 e) -> Nat.odd (length e) = true ->
  environment (Some e) = UB.
Proof.
  intros N L I1 I2 NE OD. rewrite env_given by assumption. replace (existsb isnil (pieces 59 e)) with false.
  - unfold Nat.odd in OD. destruct (Nat.even (length e)); [discriminate OD | reflexivity].
  - symmetry. apply Bool.not_true_is_false. intros Q. apply existsb_exists in Q. destruct Q as ([|y q] & Q1 & Q2); [exact (NE Q1) | discriminate Q2].
Qed.
Lemma till_empty_app a r : ~ In [] a -> till_empty (a ++ [] :: r) = a.
Proof. induction a as [|p a IH]; intros N; [reflexivity|]. cbn [app till_empty]. destruct p; [exfalso; apply N; left; reflexivity|]. rewrite IH; [reflexivity|]. intros H; apply N; right; exact H. Qed.
(* an empty piece ends it: one at the end (a text closed by ";") is harmless, one before hides what follows *)
Lemma env_empty e a r : nul_free e -> Z.of_nat (length e) < 2 ^ 31 -> In 61 e -> In 59 e -> pieces 59 e = a ++ [] :: r -> ~ In [] a ->
  environment (Some e) = Ok (Some a).
Proof.
  intros N L I1 I2 E NA. rewrite env_given by assumption. rewrite E. rewrite till_empty_app by exact NA.
  replace (existsb isnil (a ++ [] :: r)) with true; [reflexivity|]. symmetry. rewrite existsb_app. cbn. apply Bool.orb_true_r.
Qed.

(* ---- the output ---- *)
Definition reads (l : list cev) : list bytes :=
  flat_map (fun e => match e with Read (x :: b) => [x :: b] | _ => [] end) l.
(* every read finds the former one already taken *)
Fixpoint in_step (pending : bool) (l : list cev) : Prop :=
  match l with
  | [] => True
  | Read [] :: r => in_step pending r
  | Read _ :: r => pending = false /\ in_step true r
  | Take :: r => in_step false r
  | Wait _ :: r => in_step pending r
  end.
Definition alive (l : list cev) : Prop := Forall (fun e => e <> Wait true) l.
Definition fits (l : list cev) : Prop := Forall (fun e => match e with Read b => Z.of_nat (length b) <= 65536 | _ => True end) l.
Lemma put_buf_first (m b : bytes) : firstn (length b) (put_buf m b) = b.
Proof. unfold put_buf. rewrite firstn_app, Nat.sub_diag, firstn_all. cbn [firstn]. apply app_nil_r. Qed.
Lemma buflen_z : Z.of_nat BUFLEN = 65536.
Proof. unfold BUFLEN. now rewrite Z2Nat.id. Qed.
#[local] Opaque BUFLEN.
Lemma fits_len (b : bytes) : Z.of_nat (length b) <= 65536 -> (length b <=? BUFLEN)%nat = true.
Proof. intros H. apply Nat.leb_le. assert (Q := buflen_z). lia. Qed.
Lemma intact_gen l : forall s m, alive l -> fits l -> used s = true -> buf s = Some m ->
  (posts s = [] \/ exists n, posts s = [n]) -> in_step (match posts s with [] => false | _ => true end) l ->
  exists s' m', crun s l = Ok s' /\ used s' = true /\ buf s' = Some m' /\ ends s' = ends s /\
    told s' ++ match posts s' with [] => [] | n :: _ => [firstn n m'] end =
    (told s ++ match posts s with [] => [] | n :: _ => [firstn n m] end) ++ reads l /\ (length (posts s') <= 1)%nat.
Proof.
  induction l as [|e l IH]; intros s m A F U B P ST.
  - exists s, m. cbn [crun reads flat_map]. rewrite app_nil_r. repeat (split; [first [reflexivity | assumption]|]).
    destruct P as [->|[n ->]]; cbn [length]; lia.
  - inversion A as [|e' l' A1 A2]; subst. inversion F as [|e' l' F1 F2]; subst.
    destruct e as [b| |w]; cbn [crun cstep].
    + destruct b as [|x b]; [exact (IH s m A2 F2 U B P ST)|].
      cbn [in_step] in ST. destruct ST as [ST1 ST2]. rewrite (fits_len _ F1), B. cbn [bind].
      destruct P as [P|[n P]]; rewrite P in *; [|discriminate ST1]. cbn [app].
      match goal with |- context [crun ?z l] => destruct (IH z (put_buf m (x :: b))) as (s' & m' & E & U' & B' & N' & T' & L') end;
        [exact A2 | exact F2 | exact U | reflexivity | right; eexists; reflexivity | exact ST2 |].
      exists s', m'. split; [exact E|]. split; [exact U'|]. split; [exact B'|]. split; [exact N'|]. split; [|exact L'].
      cbn [told posts] in T'. rewrite put_buf_first in T'. rewrite T'. cbn [reads flat_map]. rewrite app_nil_r, <- app_assoc. reflexivity.
    + cbn [in_step] in ST. destruct (posts s) as [|n r] eqn:PS; [assert (Q := IH s m A2 F2 U B); rewrite PS in Q; exact (Q (or_introl eq_refl) ST) |].
      rewrite U, B. cbn [bind]. destruct P as [P|[k P]]; [discriminate P|]. injection P as -> ->.
      match goal with |- context [crun ?z l] => destruct (IH z m) as (s' & m' & E & U' & B' & N' & T' & L') end;
        [exact A2 | exact F2 | reflexivity | reflexivity | left; reflexivity | exact ST |].
      exists s', m'. split; [exact E|]. split; [exact U'|]. split; [exact B'|]. split; [exact N'|]. split; [|exact L'].
      cbn [told posts] in T'. rewrite app_nil_r in T'. exact T'.
    + cbn [in_step] in ST. destruct w; [exfalso; apply A1; reflexivity|]. rewrite Bool.andb_false_r. cbn [bind]. exact (IH s m A2 F2 U B P ST).
Qed.
Lemma intact l : alive l -> fits l -> in_step false l -> exists s rest, crun chl0 l = Ok s /\ told s ++ rest = reads l /\ (length rest <= 1)%nat.
Proof.
  intros A F ST. destruct (intact_gen l chl0 (repeat 0 (BUFLEN + 2)) A F eq_refl eq_refl (or_introl eq_refl) ST) as (s & m & E & _ & _ & _ & T & L).
  exists s, (match posts s with [] => [] | n :: _ => [firstn n m] end). split; [exact E|]. split; [exact T|].
  destruct (posts s); cbn [length]; lia.
Qed.
Lemma unused_stays : forall k z z', used z = false -> crun z k = Ok z' -> used z' = false.
Proof.
  induction k as [|e k IH]; intros z z' Uz Ez; cbn [crun] in Ez; [injection Ez as <-; exact Uz|].
  destruct (cstep z e) as [z1| | |] eqn:C1; try discriminate Ez. cbn [bind] in Ez. apply (IH z1 z'); [|exact Ez].
  destruct e as [[|x b]| |w]; cbn [cstep] in C1.
  - injection C1 as <-. exact Uz.
  - destruct (_ <=? _)%nat; [|injection C1 as <-; exact Uz]. destruct (buf z); [|discriminate C1]. injection C1 as <-. exact Uz.
  - destruct (posts z); [injection C1 as <-; exact Uz|]. rewrite Uz in C1. injection C1 as <-. reflexivity.
  - rewrite Uz in C1. injection C1 as <-. exact Uz.
Qed.
(* the lengths are told in order whatever happens *)
Lemma lengths_gen l : forall s s', (forall m, buf s = Some m -> Forall (fun n => n <= length m)%nat (posts s) /\ Z.of_nat (length m) = 65538) -> fits l -> crun s l = Ok s' -> used s' = true ->
  map (@length Z) (told s') ++ posts s' = map (@length Z) (told s) ++ posts s ++ map (@length Z) (reads l).
Proof.
  induction l as [|e l IH]; intros s s' I F E U.
  - cbn in E. injection E as <-. cbn. rewrite app_nil_r. reflexivity.
  - inversion F as [|e' l' F1 F2]; subst. cbn [crun] in E. destruct e as [b| |w]; cbn [cstep] in E.
    + destruct b as [|x b]; [cbn [bind] in E; exact (IH s s' I F2 E U)|].
      rewrite (fits_len _ F1) in E. destruct (buf s) as [m|] eqn:B; [|discriminate E]. cbn [bind] in E.
      destruct (I m eq_refl) as [I1 I2].
      assert (LP : length (put_buf m (x :: b)) = length m).
      { unfold put_buf. rewrite !app_length, skipn_length. change (length [0]) with 1%nat. lia. }
      assert (Q := fun Hp => IH _ s' Hp F2 E U). cbn [told posts buf] in Q. rewrite Q.
      * cbn [reads flat_map app map]. rewrite <- !app_assoc. reflexivity.
      * intros m' Em. injection Em as <-. rewrite LP. split; [|exact I2]. apply Forall_app. split; [exact I1|]. constructor; [lia | constructor].
    + destruct (posts s) as [|n r] eqn:P; [cbn [bind] in E; assert (Q := IH s s'); rewrite P in Q; rewrite (Q I F2 E U); reflexivity|].
      destruct (used s) eqn:US.
      * destruct (buf s) as [m|] eqn:B; [|discriminate E]. cbn [bind] in E. destruct (I m eq_refl) as [I1 I2]. inversion I1 as [|n' r' Hn Hr]; subst.
        assert (Q := fun Hp => IH _ s' Hp F2 E U). cbn [told posts buf] in Q. rewrite Q.
        -- rewrite map_app. cbn [map reads flat_map app]. rewrite firstn_length_le by exact Hn. rewrite <- app_assoc. reflexivity.
        -- intros m' Em. injection Em as <-. split; [exact Hr | exact I2].
      * exfalso. cbn [bind] in E. apply unused_stays in E; [|reflexivity]. rewrite E in U. discriminate U.
    + destruct (used s && w) eqn:UW; cbn [bind] in E.
      * exfalso. apply unused_stays in E; [|reflexivity]. rewrite E in U. discriminate U.
      * rewrite (IH s s' I F2 E U). reflexivity.
Qed.
Lemma lengths l s : fits l -> crun chl0 l = Ok s -> used s = true -> map (@length Z) (told s) ++ posts s = map (@length Z) (reads l).
Proof.
  intros F E U. apply (lengths_gen l chl0 s) in E; [exact E | | exact F | exact U].
  intros m Em. injection Em as <-. split; [constructor|]. rewrite repeat_length. assert (Q := buflen_z). lia.
Qed.
(* two reads before the loop turns: the second overwrites the first *)
Lemma overwritten x (a : bytes) y b : Z.of_nat (length (x :: a)) <= 65536 -> Z.of_nat (length (y :: b)) <= 65536 -> (length (x :: a) <= length (y :: b))%nat ->
  exists s, crun chl0 [Read (x :: a); Read (y :: b); Take; Take] = Ok s /\ told s = [firstn (length (x :: a)) (y :: b); y :: b].
Proof.
  intros F1 F2 L. cbn [crun cstep chl0 buf]. rewrite (fits_len _ F1), (fits_len _ F2). cbn [bind crun cstep buf posts app used told].
  eexists. split; [reflexivity|]. cbn [told]. change (S (length b)) with (length (y :: b)). rewrite put_buf_first. f_equal.
  unfold put_buf. rewrite firstn_app. replace (length (x :: a) - length (y :: b))%nat with 0%nat by lia. cbn [firstn]. rewrite app_nil_r. reflexivity.
Qed.
(* what was read but not taken when the end is noticed is never told, and a read after that goes to freed memory *)
Lemma after_end l s s' : crun chl0 l = Ok s -> used s = false -> forall k, crun s k = Ok s' -> told s' = told s /\ ends s' = ends s /\ used s' = false.
Proof.
  intros _ U k. revert s U. induction k as [|e k IH]; intros s U E; cbn [crun] in E.
  - injection E as <-. split; [reflexivity|]. split; [reflexivity | exact U].
  - destruct (cstep s e) as [s1| | |] eqn:C1; try discriminate E. cbn [bind] in E.
    assert (Q : used s1 = false /\ told s1 = told s /\ ends s1 = ends s).
    { destruct e as [[|x b]| |w]; cbn [cstep] in C1.
      - injection C1 as <-. auto.
      - destruct (_ <=? _)%nat; [|injection C1 as <-; auto]. destruct (buf s); [|discriminate C1]. injection C1 as <-. cbn. auto.
      - destruct (posts s); [injection C1 as <-; auto|]. rewrite U in C1. injection C1 as <-. cbn. auto.
      - rewrite U in C1. injection C1 as <-. auto. }
    destruct Q as [Q1 [Q2 Q3]]. destruct (IH s1 Q1 E) as [R1 [R2 R3]]. split; [congruence|]. split; [congruence | exact R3].
Qed.
Lemma ends_once l : forall s s', ends s = (if used s then 0 else 1)%nat -> crun s l = Ok s' -> ends s' = (if used s' then 0 else 1)%nat.
Proof.
  induction l as [|e l IH]; intros s s' H E; cbn [crun] in E; [injection E as <-; exact H|].
  destruct (cstep s e) as [s1| | |] eqn:C1; try discriminate E. cbn [bind] in E. apply (IH s1 s'); [|exact E].
  destruct e as [[|x b]| |w]; cbn [cstep] in C1.
  - injection C1 as <-. exact H.
  - destruct (_ <=? _)%nat; [|injection C1 as <-; exact H]. destruct (buf s); [|discriminate C1]. injection C1 as <-. exact H.
  - destruct (posts s); [injection C1 as <-; exact H|]. destruct (used s) eqn:U.
    + destruct (buf s); [|discriminate C1]. injection C1 as <-. cbn. exact H.
    + injection C1 as <-. cbn. exact H.
  - injection C1 as <-. destruct (used s) eqn:U; cbn [andb].
    + destruct w; cbn; [rewrite H; reflexivity | rewrite U; exact H].
    + rewrite U. exact H.
Qed.
Lemma end_told l s : crun chl0 l = Ok s -> ends s = (if used s then 0 else 1)%nat.
Proof. apply ends_once. reflexivity. Qed.
Lemma end_noticed l s : crun chl0 l = Ok s -> exists s', crun s [Wait true] = Ok s' /\ used s' = false /\ ends s' = 1%nat /\ told s' = told s.
Proof.
  intros E. assert (Q := end_told l s E). cbn [crun cstep]. eexists. split; [reflexivity|]. destruct (used s) eqn:U; cbn.
  - rewrite Q. repeat split; reflexivity.
  - rewrite U, Q. repeat split; reflexivity.
Qed.
Lemma freed_read l s x b : crun chl0 l = Ok s -> used s = false -> Z.of_nat (length (x :: b)) <= 65536 -> cstep s (Read (x :: b)) = UB.
Proof.
  intros E U F. cbn [cstep]. rewrite (fits_len _ F).
  assert (G : forall k z z', (used z = false -> buf z = None) -> crun z k = Ok z' -> (used z' = false -> buf z' = None)).
  { clear. induction k as [|e k IH]; intros z z' H Ez; cbn [crun] in Ez; [injection Ez as <-; exact H|].
    destruct (cstep z e) as [z1| | |] eqn:C1; try discriminate Ez. cbn [bind] in Ez. apply (IH z1 z'); [|exact Ez].
    destruct e as [[|x b]| |w]; cbn [cstep] in C1.
    - injection C1 as <-. exact H.
    - destruct (_ <=? _)%nat; [|injection C1 as <-; exact H]. destruct (buf z) eqn:B; [|discriminate C1]. injection C1 as <-. cbn. intros U. specialize (H U). discriminate H.
    - destruct (posts z); [injection C1 as <-; exact H|]. destruct (used z) eqn:U.
      + destruct (buf z) eqn:B; [|discriminate C1]. injection C1 as <-. cbn. intros Q. discriminate Q.
      + injection C1 as <-. cbn. intros _. apply H. reflexivity.
    - injection C1 as <-. destruct (used z && w); cbn; [reflexivity | exact H]. }
  rewrite (G l chl0 s); [reflexivity | discriminate | exact E | exact U].
Qed.
Lemma unstarted_ub : unstarted true true = UB.
Proof. reflexivity. Qed.
