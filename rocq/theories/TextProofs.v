(* Specifications and lemmas: exploding, binary splitting, concatenation, letter case, paths. *)
From Verif Require Import Base ArrayModel ArrayProofs StrModel StrProofs StrProofs2 AddrModel TextModel.

(* ---- Specification ---- *)
(* A part starts at offset [off] of the buffer and is followed by a zero byte. *)
Definition part_at (buf : bytes) (off : nat) (p : bytes) : Prop :=
  exists post, skipn off buf = p ++ 0%Z :: post.
(* The letters, as written. *)
Definition capitals : bytes := [65;66;67;68;69;70;71;72;73;74;75;76;77;78;79;80;81;82;83;84;85;86;87;88;89;90]%Z.
Definition smalls : bytes := [97;98;99;100;101;102;103;104;105;106;107;108;109;110;111;112;113;114;115;116;117;118;119;120;121;122]%Z.
Fixpoint swap_case (from to : bytes) (c : Z) : Z :=
  match from, to with
  | f :: fs, t :: ts => if Z.eqb c f then t else swap_case fs ts c
  | _, _ => c
  end.
(* A path component; a directory text that does not end in a slash. *)
Definition component (c : bytes) : Prop := c <> [] /\ ~ In 47%Z c.
Definition ends_plain (d : bytes) : Prop := exists a c, d = a ++ [c] /\ c <> 47%Z.
Definition slashes_only (s : bytes) : Prop := s <> [] /\ Forall (fun c => c = 47%Z) s.

(* The part behind the last dot. *)
Inductive extension : bytes -> option bytes -> Prop :=
| NoDot f : ~ In 46%Z f -> extension f None
| Dot a e : ~ In 46%Z e -> extension (a ++ 46%Z :: e) (Some e).

(* ---- Exploding ---- *)
Lemma sp_cut_tail d n L s r ptrs ps :
  d <> [] -> nul_free s -> length s <= n -> splits d s ps ->
  exists buf' offs,
    sp_cut d n (L ++ s ++ 0%Z :: r) (length L) ptrs = Ok (buf', ptrs ++ offs) /\
    firstn (length L) buf' = L /\
    map (cstr buf') (length L :: offs) = ps.
Proof.
  intros Hd. revert L s ptrs ps; induction n as [|n IH]; intros L s ptrs ps Hnf Hf Hs.
  - destruct s; [|simpl in Hf; lia]. apply splits_nil in Hs; subst; auto.
    exists (L ++ [] ++ 0%Z :: r), []. cbn [sp_cut]. rewrite cstr_app by constructor.
    destruct d; [congruence|]. simpl. rewrite app_nil_r. split; [reflexivity|]. split.
    + rewrite firstn_app, firstn_all, Nat.sub_diag. simpl. apply app_nil_r.
    + f_equal. apply (cstr_app L [] r). constructor.
  - cbn [sp_cut]. rewrite cstr_app by auto.
    inversion Hs as [s' Hno E|pre post ps' Hfo Hs' E]; subst.
    + rewrite no_occ_strstr by auto. exists (L ++ s ++ 0%Z :: r), []. rewrite app_nil_r.
      split; [reflexivity|]. split.
      * rewrite firstn_app, firstn_all, Nat.sub_diag. simpl. apply app_nil_r.
      * simpl. rewrite cstr_app by auto. reflexivity.
    + rewrite (first_occ_strstr _ _ _ Hfo).
      apply nul_free_app in Hnf as [Hpre Hnf]. apply nul_free_app in Hnf as [Hdf Hpost].
      destruct d as [|d0 d']; [congruence|].
      rewrite wr_ok by (rewrite !app_length; simpl; lia). cbn [bind].
      set (L' := L ++ pre ++ 0%Z :: d').
      assert (EL : length L' = length L + length pre + length (d0 :: d')).
      { unfold L'. rewrite !app_length. simpl. lia. }
      assert (Ebuf : set_nth (length L + length pre) 0%Z (L ++ (pre ++ (d0 :: d') ++ post) ++ 0%Z :: r)
                     = L' ++ post ++ 0%Z :: r).
      { rewrite set_nth_app_r by lia. unfold L'. rewrite <- !app_assoc. f_equal.
        replace (length L + length pre - length L) with (length pre) by lia.
        rewrite set_nth_app_r by lia. rewrite Nat.sub_diag. simpl. reflexivity. }
      rewrite Ebuf. rewrite <- EL.
      destruct (IH L' post (ptrs ++ [length L']) ps') as (buf' & offs & Hrun & Hfirst & Hmap); auto.
      { rewrite !app_length in Hf; simpl in *; lia. }
      rewrite Hrun. exists buf', (length L' :: offs). rewrite <- app_assoc.
      split; [reflexivity|]. split.
      * rewrite <- (firstn_skipn (length L') buf'), Hfirst. unfold L'. rewrite <- !app_assoc.
        rewrite firstn_app, firstn_all, Nat.sub_diag. simpl. apply app_nil_r.
      * cbn [map]. f_equal; auto.
        rewrite <- (firstn_skipn (length L') buf'), Hfirst. unfold L'. rewrite <- !app_assoc. simpl.
        now apply cstr_app.
Qed.

(* appending while there is room, whatever the allocator would do *)
Lemma append_room {A} (b : block A) l v : holds b l -> b_type b = T_ARRAY -> b_size b < cap b ->
  exists b', append b v = Ok b' /\ holds b' (l ++ [v]) /\ b_type b' = T_ARRAY /\ cap b' = cap b.
Proof.
  intros H HT Hc. destruct (append_spec A b l v H) as (b' & E & H' & T' & C'); [congruence|lia|].
  exists b'. split; [exact E|]. split; [exact H'|]. split; [congruence|].
  unfold append in E. rewrite HT in E. destruct (Nat.leb_spec (cap b) (b_size b)); [lia|].
  unfold wr in E. destruct (Nat.ltb (b_size b) (length (b_cells b))); [|discriminate].
  cbn [bind] in E. injection E as <-. unfold cap. cbn [b_cells]. apply set_nth_length.
Qed.

Lemma happends_room {A} (vs : list (A * bool)) : forall h (b : block A) l,
  nth_error h 0 = Some (Some b) -> holds b l -> b_type b = T_ARRAY -> length l + length vs <= cap b ->
  exists h' b', happends h 0 vs = Ok h' /\ nth_error h' 0 = Some (Some b') /\
    holds b' (l ++ map fst vs) /\ b_type b' = T_ARRAY /\ cap b' = cap b.
Proof.
  induction vs as [|[v m] r IH]; intros h b l E H HT Hc; cbn [happends].
  - exists h, b. rewrite app_nil_r. auto.
  - assert (Hs : b_size b = length l) by apply H.
    destruct (append_room b l v H HT) as (b1 & E1 & H1 & T1 & C1); [simpl in Hc; lia|].
    unfold happend, hget. rewrite E. cbn [bind]. rewrite HT.
    destruct (Nat.leb_spec (cap b) (b_size b)); [simpl in Hc; lia|]. rewrite E1. cbn [bind].
    destruct (IH (set_nth 0 (Some b1) h) b1 (l ++ [v])) as (h' & b' & E' & N' & H' & T' & C'); auto.
    + destruct h; [discriminate|reflexivity].
    + rewrite app_length. simpl in *. lia.
    + exists h', b'. rewrite <- app_assoc in H'. repeat split; try congruence; apply H'.
Qed.

Lemma happends_app {A} (vs ws : list (A * bool)) : forall h,
  happends h 0 (vs ++ ws) = (do h' <- happends h 0 vs; happends h' 0 ws).
Proof.
  induction vs as [|[v m] r IH]; intros h; cbn [app happends]; [reflexivity|].
  destruct (happend m h 0 v); cbn [bind]; auto.
Qed.

Lemma happends_dead {A} (vs : list (A * bool)) h : nth_error h 0 = Some None ->
  match happends h 0 vs with Ok h' => hget h' 0 = UB | UB => True | _ => False end.
Proof.
  intros H. destruct vs as [|[v m] r]; cbn [happends].
  - unfold hget. now rewrite H.
  - unfold happend, hget. rewrite H. exact I.
Qed.

Lemma fst_combine {A B} (l : list A) (m : list B) : length l = length m -> map fst (combine l m) = l.
Proof. revert m; induction l as [|a l IH]; intros [|b m] H; simpl in *; try lia; auto. f_equal. apply IH. lia. Qed.

Lemma fresh_holds_nat q : holds (@fresh nat q) [].
Proof. apply fresh_holds. Qed.

Lemma explode_shape n q moves s d ps :
  d <> [] -> s <> [] -> nul_free s -> splits d s ps -> 2 <= length ps -> length s <= n ->
  exists buf offs, map (cstr buf) offs = ps /\ length offs = length ps /\
    str_explode n q moves s d =
      (do h <- happends [Some (fresh q)] 0 (combine offs (map moves (seq 0 (length ps))));
       do b <- hget h 0; Ok (Some (buf, b))).
Proof.
  intros Hd Hne Hnf Hs H2 Hn. unfold str_explode.
  assert (Nat.eqb (length s) 0 = false) as -> by (destruct s; [congruence|reflexivity]).
  rewrite (sp_count_spec d n s 0 ps) by auto. cbn [bind].
  replace (0 + length ps - 1) with (length ps - 1) by lia.
  destruct (Nat.eqb_spec (length ps - 1) 0) as [Q|Q]; [lia|].
  assert (Hz : exists r, repeat 0%Z (align2 ((length ps - 1) * 8 + length s + 1) - length s) = 0%Z :: r).
  { unfold align2. destruct ((length ps - 1) * 8 + length s + 1 + ((length ps - 1) * 8 + length s + 1) mod 2 - length s) as [|k] eqn:Ek; [lia|].
    exists (repeat 0%Z k). reflexivity. }
  destruct Hz as [r ->].
  destruct (sp_cut_tail d n [] s r [0] ps) as (buf & offs & E & _ & Hm); auto.
  change (length (@nil Z)) with 0 in *. change ([] ++ s ++ 0%Z :: r) with (s ++ 0%Z :: r) in E.
  rewrite E. cbn [bind]. exists buf, (0 :: offs).
  assert (L : length (0 :: offs) = length ps) by (rewrite <- Hm, map_length; reflexivity).
  cbn [app]. rewrite L. auto.
Qed.

Lemma explode_spec n q moves s d ps :
  d <> [] -> s <> [] -> nul_free s -> splits d s ps -> 2 <= length ps -> length s <= n -> 0 < q ->
  length ps <= q \/ (forall k, moves k = false) ->
  exists buf b offs, str_explode n q moves s d = Ok (Some (buf, b)) /\ holds b offs /\
    map (cstr buf) offs = ps.
Proof.
  intros Hd Hne Hnf Hs H2 Hn Hq Hor.
  destruct (explode_shape n q moves s d ps) as (buf & offs & Hm & Hl & E); auto.
  rewrite E. clear E.
  assert (HF : map fst (combine offs (map moves (seq 0 (length ps)))) = offs)
    by (apply fst_combine; rewrite map_length, seq_length; exact Hl).
  destruct Hor as [Hr|Hf].
  - destruct (happends_room (combine offs (map moves (seq 0 (length ps)))) [Some (fresh q)] (fresh q) [])
      as (h' & b' & E & N & Hh & _).
    + reflexivity.
    + apply fresh_holds_nat.
    + reflexivity.
    + rewrite combine_length, map_length, seq_length. unfold cap. cbn [fresh b_cells]. rewrite repeat_length. simpl. lia.
    + rewrite E. cbn [bind]. unfold hget. rewrite N. cbn [bind]. rewrite HF in Hh.
      exists buf, b', offs. auto.
  - destruct (happends_in_place nat [Some (fresh q)] 0 (fresh q) [] (combine offs (map moves (seq 0 (length ps)))))
      as (h' & b' & E & N & Hh).
    + reflexivity.
    + apply fresh_holds_nat.
    + discriminate.
    + unfold cap. cbn [fresh b_cells]. rewrite repeat_length. exact Hq.
    + intros x m Hin. apply in_combine_r in Hin. apply in_map_iff in Hin as (k & <- & _). apply Hf.
    + rewrite E. cbn [bind]. unfold hget. rewrite N. cbn [bind]. rewrite HF in Hh.
      exists buf, b', offs. auto.
Qed.

Lemma combine_app {A B} (a1 a2 : list A) (b1 b2 : list B) : length a1 = length b1 ->
  combine (a1 ++ a2) (b1 ++ b2) = combine a1 b1 ++ combine a2 b2.
Proof.
  revert b1; induction a1 as [|x a1 IH]; intros [|y b1] H; simpl in *; try lia; auto.
  f_equal. apply IH. lia.
Qed.

Lemma explode_moved n q moves s d ps :
  d <> [] -> s <> [] -> nul_free s -> splits d s ps -> length s <= n -> 0 < q ->
  q < length ps -> moves q = true -> str_explode n q moves s d = UB.
Proof.
  intros Hd Hne Hnf Hs Hn Hq Hlt Hmv.
  destruct (explode_shape n q moves s d ps) as (buf & offs & Hm & Hl & E); auto; [lia|].
  rewrite E. clear E.
  assert (E : offs = firstn q offs ++ skipn q offs) by (symmetry; apply firstn_skipn).
  assert (L1 : length (firstn q offs) = q) by (rewrite firstn_length; lia).
  destruct (skipn q offs) as [|o r2] eqn:Es.
  { apply (f_equal (@length _)) in Es. rewrite skipn_length in Es. simpl in Es. lia. }
  rewrite E. replace (length ps) with (q + S (length ps - S q)) by lia.
  rewrite seq_app, map_app. cbn [seq map Nat.add].
  rewrite combine_app by (rewrite map_length, seq_length; exact L1). cbn [combine].
  rewrite happends_app.
  destruct (happends_room (combine (firstn q offs) (map moves (seq 0 q))) [Some (fresh q)] (fresh q) [])
    as (h' & b' & E' & N & Hh & T & C).
  { reflexivity. } { apply fresh_holds_nat. } { reflexivity. }
  { rewrite combine_length, map_length, seq_length. unfold cap. cbn [fresh b_cells]. rewrite repeat_length. simpl. lia. }
  rewrite E'. cbn [bind happends]. unfold happend at 1. unfold hget at 1. rewrite N. cbn [bind]. rewrite T.
  assert (Sz : b_size b' = q).
  { rewrite (proj1 Hh). rewrite fst_combine by (rewrite map_length, seq_length; exact L1). exact L1. }
  assert (Cq : cap (@fresh nat q) = q) by (unfold cap; cbn [fresh b_cells]; apply repeat_length).
  destruct (Nat.leb_spec (cap b') (b_size b')); [|lia].
  destruct (append_spec nat b' _ o Hh) as (b2 & E2 & _); [congruence|lia|].
  rewrite E2. cbn [bind]. rewrite Hmv. cbn [bind].
  assert (D : nth_error (set_nth 0 None h' ++ [Some b2]) 0 = Some (@None (block nat)))
    by (destruct h'; [discriminate|reflexivity]).
  pose proof (happends_dead (combine r2 (map moves (seq (S q) (length ps - S q)))) _ D) as G.
  destruct (happends _ 0 (combine r2 _)); try contradiction; cbn [bind]; [|reflexivity].
  rewrite G. reflexivity.
Qed.

Lemma explode_no_delim n q moves s d : s <> [] -> (forall i, ~ occurs d s i) ->
  str_explode n q moves s d = Ok (Some ([], fresh q)).
Proof.
  intros Hne Hno. unfold str_explode.
  assert (Nat.eqb (length s) 0 = false) as -> by (destruct s; [congruence|reflexivity]).
  destruct n; cbn [sp_count]; rewrite no_occ_strstr by auto; reflexivity.
Qed.

Lemma sp_count_empty n : forall s nb, sp_count [] n s nb = Fuel.
Proof.
  induction n as [|n IH]; intros s nb; cbn [sp_count]; destruct s; cbn [strstr prefixb]; auto.
Qed.

Lemma explode_empty_delim n q moves s : s <> [] -> str_explode n q moves s [] = Fuel.
Proof.
  intros Hne. unfold str_explode.
  assert (Nat.eqb (length s) 0 = false) as -> by (destruct s; [congruence|reflexivity]).
  rewrite sp_count_empty. reflexivity.
Qed.

(* ---- Binary splitting ---- *)
Lemma memmem_slice (a s r d : bytes) : memmem (a ++ s ++ r) (length a) (length s) d = strstr d s.
Proof.
  unfold memmem. rewrite skipn_app, skipn_all, Nat.sub_diag. cbn [app skipn].
  now rewrite firstn_app, firstn_all, Nat.sub_diag, firstn_O, app_nil_r.
Qed.

Lemma ms_count_spec d n : forall a s r nb ps, d <> [] -> length s <= n -> splits d s ps ->
  ms_count n (a ++ s ++ r) d (length a) (length s) nb = Ok (nb + length ps - 1).
Proof.
  induction n as [|n IH]; intros a s r nb ps Hd Hf Hs.
  - destruct s; [|simpl in Hf; lia]. apply splits_nil in Hs; subst; auto.
    cbn [ms_count]. rewrite memmem_slice. destruct d; [congruence|]. simpl. f_equal; lia.
  - cbn [ms_count]. rewrite memmem_slice.
    inversion Hs as [s' Hno E|pre post ps' Hfo Hs' E]; subst.
    + rewrite no_occ_strstr by auto. simpl. f_equal; lia.
    + rewrite (first_occ_strstr _ _ _ Hfo).
      replace (a ++ (pre ++ d ++ post) ++ r) with ((a ++ pre ++ d) ++ post ++ r) by (now rewrite <- !app_assoc).
      replace (length a + length pre + length d) with (length (a ++ pre ++ d)) by (rewrite !app_length; lia).
      replace (length (pre ++ d ++ post) - (length pre + length d)) with (length post) by (rewrite !app_length; lia).
      rewrite (IH _ post r (S nb) ps'); auto.
      * f_equal. simpl. apply splits_nonempty in Hs'. destruct ps'; simpl; [congruence|lia].
      * rewrite !app_length in Hf. destruct d; [congruence|simpl in *; lia].
Qed.

Lemma ms_cut_spec d n : forall L s r ptrs ps, d <> [] -> length s <= n -> splits d s ps ->
  exists buf' offs,
    ms_cut n (L ++ s ++ 0%Z :: r) d (length L) (length s) ptrs = Ok (buf', ptrs ++ offs) /\
    firstn (length L) buf' = L /\ Forall2 (part_at buf') (length L :: offs) ps.
Proof.
  induction n as [|n IH]; intros L s r ptrs ps Hd Hf Hs.
  - destruct s; [|simpl in Hf; lia]. apply splits_nil in Hs; subst; auto.
    exists (L ++ [] ++ 0%Z :: r), []. cbn [ms_cut]. rewrite memmem_slice.
    destruct d; [congruence|]. cbn [strstr prefixb]. rewrite app_nil_r. split; [reflexivity|]. split.
    + now rewrite firstn_app, firstn_all, Nat.sub_diag, firstn_O, app_nil_r.
    + constructor; [|constructor]. exists r. now rewrite skipn_app, skipn_all, Nat.sub_diag.
  - cbn [ms_cut]. rewrite memmem_slice.
    inversion Hs as [s' Hno E|pre post ps' Hfo Hs' E]; subst.
    + rewrite no_occ_strstr by auto. exists (L ++ s ++ 0%Z :: r), []. rewrite app_nil_r.
      split; [reflexivity|]. split.
      * now rewrite firstn_app, firstn_all, Nat.sub_diag, firstn_O, app_nil_r.
      * constructor; [|constructor]. exists r. now rewrite skipn_app, skipn_all, Nat.sub_diag.
    + rewrite (first_occ_strstr _ _ _ Hfo).
      destruct d as [|d0 d']; [congruence|].
      rewrite wr_ok by (rewrite !app_length; simpl; lia). cbn [bind].
      set (L' := L ++ pre ++ 0%Z :: d').
      assert (EL : length L' = length L + length pre + length (d0 :: d')).
      { unfold L'. rewrite !app_length. simpl. lia. }
      assert (Ebuf : set_nth (length L + length pre) 0%Z (L ++ (pre ++ (d0 :: d') ++ post) ++ 0%Z :: r)
                     = L' ++ post ++ 0%Z :: r).
      { rewrite set_nth_app_r by lia. unfold L'. rewrite <- !app_assoc. f_equal.
        replace (length L + length pre - length L) with (length pre) by lia.
        rewrite set_nth_app_r by lia. rewrite Nat.sub_diag. simpl. reflexivity. }
      rewrite Ebuf. rewrite <- EL.
      replace (length (pre ++ (d0 :: d') ++ post) - (length pre + length (d0 :: d'))) with (length post)
        by (rewrite !app_length; lia).
      destruct (IH L' post r (ptrs ++ [length L']) ps') as (buf' & offs & Hrun & Hfirst & Hmap); auto.
      { rewrite !app_length in Hf; simpl in *; lia. }
      rewrite Hrun. exists buf', (length L' :: offs). rewrite <- app_assoc.
      split; [reflexivity|]. split.
      * rewrite <- (firstn_skipn (length L') buf'), Hfirst. unfold L'. rewrite <- !app_assoc.
        now rewrite firstn_app, firstn_all, Nat.sub_diag, firstn_O, app_nil_r.
      * constructor; auto. exists (d' ++ skipn (length L') buf').
        rewrite <- (firstn_skipn (length L') buf') at 1. rewrite Hfirst. unfold L'. rewrite <- !app_assoc.
        rewrite skipn_app, skipn_all, Nat.sub_diag. reflexivity.
Qed.

Lemma mem_split_spec n s d ps : d <> [] -> s <> [] -> splits d s ps -> length s <= n ->
  exists buf ptrs, mem_split n s d = Ok (Some (buf, ptrs, length ps)) /\ Forall2 (part_at buf) ptrs ps.
Proof.
  intros Hd Hne Hs Hn. unfold mem_split.
  assert (Nat.eqb (length s) 0 = false) as -> by (destruct s; [congruence|reflexivity]).
  pose proof (ms_count_spec d n [] s [] 1 ps Hd Hn Hs) as Ec. cbn [app length] in Ec.
  rewrite app_nil_r in Ec. rewrite Ec. cbn [bind].
  pose proof (splits_nonempty _ _ _ Hs) as Hpsn.
  destruct ps as [|p0 ps]; [congruence|].
  replace (1 + length (p0 :: ps) - 1) with (S (length ps)) by (simpl; lia).
  destruct (ms_cut_spec d n [] s [] [0] (p0 :: ps) Hd Hn Hs) as (buf' & offs & Hrun & _ & HF).
  change (length (@nil Z)) with 0 in *. change ([] ++ s ++ [0%Z]) with (s ++ [0%Z]) in Hrun.
  destruct (Nat.ltb_spec 1 (S (length ps))) as [L|L].
  - rewrite Hrun. cbn [bind app].
    assert (Hlen : length (0 :: offs) = length (p0 :: ps)) by (clear - HF; induction HF; simpl; congruence).
    destruct (Nat.leb_spec (length (0 :: offs) + 1) (S (length ps) + 1)) as [Q|Q]; [|simpl in *; lia].
    exists buf', (0 :: offs). auto.
  - destruct ps; [|simpl in L; lia]. cbn [bind length]. simpl Nat.leb.
    exists (s ++ [0%Z]), [0]. split; [reflexivity|].
    inversion Hs; subst.
    + constructor; [|constructor]. exists []. reflexivity.
    + match goal with H : splits _ _ [] |- _ => apply splits_nonempty in H; congruence end.
Qed.

Lemma part_cstr buf off p : part_at buf off p -> cstr buf off = until_nul p.
Proof.
  intros [post E]. unfold cstr. rewrite E. clear. induction p as [|c p IH]; simpl; auto.
  destruct (c =? 0)%Z; auto. now rewrite IH.
Qed.

Lemma mem_split_words n s d ps : d <> [] -> s <> [] -> splits d s ps -> length s <= n ->
  exists buf ptrs, mem_split n s d = Ok (Some (buf, ptrs, length ps)) /\
    map (cstr buf) ptrs = map until_nul ps.
Proof.
  intros Hd Hne Hs Hn. destruct (mem_split_spec n s d ps) as (buf & ptrs & E & HF); auto.
  exists buf, ptrs. split; [exact E|]. clear - HF. induction HF; simpl; auto.
  f_equal; auto. now apply part_cstr.
Qed.

Lemma mem_split_empty_delim n s : s <> [] -> mem_split n s [] = Fuel.
Proof.
  intros Hne. unfold mem_split.
  assert (Nat.eqb (length s) 0 = false) as -> by (destruct s; [congruence|reflexivity]).
  assert (G : forall n src h l nb, ms_count n src [] h l nb = Fuel).
  { clear. induction n as [|n IH]; intros; cbn [ms_count]; unfold memmem;
      destruct (firstn l (skipn h src)); cbn [strstr prefixb]; auto. }
  rewrite G. reflexivity.
Qed.

(* ---- Concatenation ---- *)
Lemma copy_at_spec s : forall a b, length s <= length b ->
  copy_at (a ++ b) (length a) s = Ok (a ++ s ++ skipn (length s) b).
Proof.
  induction s as [|c s IH]; intros a b H; cbn [copy_at].
  - reflexivity.
  - destruct b as [|y b]; [simpl in H; lia|].
    rewrite wr_ok by (rewrite app_length; simpl; lia). cbn [bind].
    rewrite set_nth_app_r by lia. rewrite Nat.sub_diag. cbn [set_nth].
    replace (a ++ c :: b) with ((a ++ [c]) ++ b) by (now rewrite <- app_assoc).
    replace (S (length a)) with (length (a ++ [c])) by (rewrite app_length; simpl; lia).
    rewrite IH by (simpl in H; lia). rewrite <- app_assoc. reflexivity.
Qed.

Lemma cat_copy_spec args : forall a b, length (concat args) <= length b ->
  cat_copy (a ++ b) (length a) args = Ok (a ++ concat args ++ skipn (length (concat args)) b).
Proof.
  induction args as [|s args IH]; intros a b H; cbn [cat_copy concat]; [reflexivity|].
  cbn [concat] in H. rewrite app_length in H.
  rewrite copy_at_spec by lia. cbn [bind].
  rewrite app_assoc. rewrite <- app_length. rewrite IH by (rewrite skipn_length; lia).
  f_equal. rewrite <- !app_assoc. do 3 f_equal. rewrite skipn_skipn. f_equal. rewrite app_length. lia.
Qed.

Lemma total_length (args : list bytes) : forall n, fold_left (fun n s => n + length s) args n = n + length (concat args).
Proof.
  induction args as [|s args IH]; intros n; cbn [fold_left concat]; [simpl; lia|].
  rewrite IH, app_length. lia.
Qed.

Lemma skipn_repeat {A} (x : A) k n : skipn k (repeat x n) = repeat x (n - k).
Proof.
  revert k; induction n as [|n IH]; intros [|k]; simpl; auto.
Qed.

Lemma str_cat_spec args : args <> [] ->
  str_cat args = Ok (Some (concat args ++ repeat 0%Z (align2 (length (concat args) + 1) - length (concat args)))).
Proof.
  intros H. unfold str_cat. destruct args as [|s args]; [congruence|].
  rewrite total_length. cbn [Nat.add].
  set (t := length (concat (s :: args))).
  assert (Ha : t + 1 <= align2 (t + 1)) by (unfold align2; lia).
  pose proof (cat_copy_spec (s :: args) [] (repeat 0%Z (align2 (t + 1)))) as E.
  cbn [app length] in E. rewrite E by (rewrite repeat_length; fold t; lia). cbn [bind].
  fold t. rewrite skipn_repeat. reflexivity.
Qed.

Lemma concat_nul_free args : Forall nul_free args -> nul_free (concat args).
Proof. induction 1; simpl; [constructor|]. apply nul_free_app; auto. Qed.

Lemma str_cat_text args : args <> [] -> Forall nul_free args ->
  exists b, str_cat args = Ok (Some b) /\ cstr b 0 = concat args /\ length b = align2 (length (concat args) + 1).
Proof.
  intros H HF. rewrite str_cat_spec by auto.
  set (t := length (concat args)).
  assert (Ha : t + 1 <= align2 (t + 1)) by (unfold align2; lia).
  eexists. split; [reflexivity|]. split.
  - destruct (align2 (t + 1) - t) as [|k] eqn:Ek; [lia|]. cbn [repeat].
    apply (cstr_app [] (concat args) (repeat 0%Z k)). now apply concat_nul_free.
  - rewrite app_length, repeat_length. fold t. lia.
Qed.

(* ---- Letter case ---- *)
Lemma map_bytes_spec f s : forall a r, map_bytes f (length s) (a ++ s ++ r) (length a) = Ok (a ++ map f s ++ r).
Proof.
  induction s as [|c s IH]; intros a r; cbn [length map_bytes map app]; [reflexivity|].
  unfold rd. rewrite nth_error_app2, Nat.sub_diag by lia. cbn [nth_error bind].
  rewrite wr_ok by (rewrite app_length; simpl; lia). cbn [bind].
  rewrite set_nth_app_r by lia. rewrite Nat.sub_diag. cbn [set_nth].
  replace (a ++ f c :: s ++ r) with ((a ++ [f c]) ++ s ++ r) by (now rewrite <- app_assoc).
  replace (S (length a)) with (length (a ++ [f c])) by (rewrite app_length; simpl; lia).
  rewrite IH. now rewrite <- app_assoc.
Qed.

Lemma toupper_swap c : toupper c = swap_case smalls capitals c.
Proof.
  unfold toupper, smalls, capitals. cbn [swap_case].
  repeat (match goal with |- context [Z.eqb c ?k] => destruct (Z.eqb_spec c k); [subst; reflexivity|] end).
  destruct ((97 <=? c) && (c <=? 122))%Z eqn:E; [lia|reflexivity].
Qed.
Lemma tolower_swap c : tolower c = swap_case capitals smalls c.
Proof.
  unfold tolower, smalls, capitals. cbn [swap_case].
  repeat (match goal with |- context [Z.eqb c ?k] => destruct (Z.eqb_spec c k); [subst; reflexivity|] end).
  destruct ((65 <=? c) && (c <=? 90))%Z eqn:E; [lia|reflexivity].
Qed.

Lemma toupper_spec s r : nul_free s ->
  str_toupper (s ++ 0%Z :: r) = Ok (map (swap_case smalls capitals) s ++ 0%Z :: r).
Proof.
  intros H. unfold str_toupper. pose proof (cstr_app [] s r H) as C. cbn [app length] in C. rewrite C.
  pose proof (map_bytes_spec toupper s [] (0%Z :: r)) as E. cbn [app length] in E.
  rewrite E. f_equal. f_equal. apply map_ext. exact toupper_swap.
Qed.
Lemma tolower_spec s r : nul_free s ->
  str_tolower (s ++ 0%Z :: r) = Ok (map (swap_case capitals smalls) s ++ 0%Z :: r).
Proof.
  intros H. unfold str_tolower. pose proof (cstr_app [] s r H) as C. cbn [app length] in C. rewrite C.
  pose proof (map_bytes_spec tolower s [] (0%Z :: r)) as E. cbn [app length] in E.
  rewrite E. f_equal. f_equal. apply map_ext. exact tolower_swap.
Qed.

(* ---- Paths ---- *)
Lemma strip_all p s : Forall (fun c => p c = true) s -> strip p s = [].
Proof. induction 1 as [|c s Hc Hs IH]; simpl; auto. rewrite IH, Hc. reflexivity. Qed.

Lemma strip_app p d c s : p c = false -> Forall (fun c => p c = true) s -> strip p (d ++ c :: s) = d ++ [c].
Proof.
  intros Hc Hs. induction d as [|x d IH]; cbn [app strip].
  - rewrite strip_all by auto. now rewrite Hc.
  - rewrite IH. destruct (d ++ [c]) eqn:E; [destruct d; discriminate|reflexivity].
Qed.

Lemma rcut_none p s : Forall (fun c => p c = false) s -> rcut p s = None.
Proof. induction 1 as [|c s Hc Hs IH]; simpl; auto. now rewrite IH, Hc. Qed.

Lemma rcut_app p a c s : p c = true -> Forall (fun c => p c = false) s -> rcut p (a ++ c :: s) = Some (a, s).
Proof.
  intros Hc Hs. induction a as [|x a IH]; cbn [app rcut].
  - rewrite rcut_none by auto. now rewrite Hc.
  - now rewrite IH.
Qed.

Lemma no_slash s : ~ In 47%Z s -> Forall (fun c => slash c = false) s.
Proof. intros H. apply Forall_forall. intros c Hc. unfold slash. apply Z.eqb_neq. intros ->. auto. Qed.
Lemma all_slash s : Forall (fun c => c = 47%Z) s -> Forall (fun c => slash c = true) s.
Proof. apply Forall_impl. intros c ->. reflexivity. Qed.

Lemma strip_plain d : ends_plain d -> forall s, Forall (fun c => c = 47%Z) s -> strip slash (d ++ s) = d.
Proof.
  intros (a & c & -> & Hc) s Hs. rewrite <- app_assoc. cbn [app]. apply strip_app; [|now apply all_slash].
  unfold slash. now apply Z.eqb_neq.
Qed.
Lemma strip_plain0 d : ends_plain d -> strip slash d = d.
Proof. intros H. rewrite <- (app_nil_r d) at 1. apply strip_plain; auto. Qed.

Lemma component_plain pre f : component f -> ends_plain (pre ++ f).
Proof.
  intros [Hne Hno]. destruct (exists_last Hne) as (a & c & ->). exists (pre ++ a), c.
  split; [now rewrite app_assoc|]. intros ->. apply Hno. apply in_app_iff. right. left. reflexivity.
Qed.

Lemma ends_plain_nonempty d : ends_plain d -> d <> [].
Proof. intros (a & c & -> & _) E. destruct a; discriminate. Qed.

Lemma last_slash s : slashes_only s -> exists k, s = repeat 47%Z k ++ [47%Z] /\ Forall (fun c => c = 47%Z) (repeat 47%Z k).
Proof.
  intros [Hne HF]. destruct (exists_last Hne) as (a & c & ->).
  apply Forall_app in HF as [Ha Hc]. inversion Hc; subst.
  exists (length a). assert (E : a = repeat 47%Z (length a)).
  { clear - Ha. induction Ha as [|x a E H IH]; simpl; congruence. }
  rewrite <- E. auto.
Qed.

Lemma basename_strip path t : strip slash path = t -> t <> [] ->
  basename path = match rcut slash t with Some (_, b) => (b, t) | None => (t, t) end.
Proof.
  intros E Ht. unfold basename. rewrite E. destruct path as [|x l]; [cbn in E; congruence|].
  destruct t; [congruence|reflexivity].
Qed.

Lemma basename_plain pre s f : slashes_only s -> component f ->
  basename (pre ++ s ++ f) = (f, pre ++ s ++ f).
Proof.
  intros Hs Hf.
  assert (Hp : ends_plain (pre ++ s ++ f)) by (rewrite app_assoc; now apply component_plain).
  rewrite (basename_strip _ _ (strip_plain0 _ Hp) (ends_plain_nonempty _ Hp)).
  destruct (last_slash s Hs) as (k & Es & _).
  assert (R : rcut slash (pre ++ s ++ f) = Some (pre ++ repeat 47%Z k, f)).
  { rewrite Es. rewrite <- app_assoc. cbn [app]. rewrite app_assoc. apply rcut_app; [reflexivity|]. apply no_slash, Hf. }
  rewrite R. reflexivity.
Qed.

Lemma basename_component f : component f -> basename f = (f, f).
Proof.
  intros Hf. pose proof (component_plain [] f Hf) as Hp. cbn [app] in Hp.
  rewrite (basename_strip _ _ (strip_plain0 _ Hp) (ends_plain_nonempty _ Hp)).
  rewrite rcut_none by (apply no_slash, Hf). reflexivity.
Qed.

Lemma basename_trailing pre s f t : slashes_only s -> component f -> slashes_only t ->
  basename (pre ++ s ++ f ++ t) = (f, pre ++ s ++ f).
Proof.
  intros Hs Hf Ht.
  assert (Hp : ends_plain (pre ++ s ++ f)) by (rewrite app_assoc; now apply component_plain).
  replace (pre ++ s ++ f ++ t) with ((pre ++ s ++ f) ++ t) by (now rewrite <- !app_assoc).
  rewrite (basename_strip _ _ (strip_plain _ Hp t (proj2 Ht)) (ends_plain_nonempty _ Hp)).
  destruct (last_slash s Hs) as (k & Es & _).
  assert (R : rcut slash (pre ++ s ++ f) = Some (pre ++ repeat 47%Z k, f)).
  { rewrite Es. rewrite <- app_assoc. cbn [app]. rewrite app_assoc. apply rcut_app; [reflexivity|]. apply no_slash, Hf. }
  rewrite R. reflexivity.
Qed.

Lemma dirname_strip path t : strip slash path = t -> t <> [] ->
  dirname_buffer path = match rcut slash t with
    | None => path
    | Some (a, _) => match strip slash a with
                     | [] => if Nat.eqb (length a) 1 then [47; 47]%Z else [47%Z]
                     | u => u end
    end.
Proof.
  intros E Ht. unfold dirname_buffer. rewrite E. destruct t; [congruence|reflexivity].
Qed.

(* the directory of d / ... / f, where d does not end in a slash *)
Lemma dirname_plain d s f t : ends_plain d -> slashes_only s -> component f -> Forall (fun c => c = 47%Z) t ->
  dirname_buffer (d ++ s ++ f ++ t) = d.
Proof.
  intros Hd Hs Hf Ht.
  assert (Hp : ends_plain (d ++ s ++ f)) by (rewrite app_assoc; now apply component_plain).
  replace (d ++ s ++ f ++ t) with ((d ++ s ++ f) ++ t) by (now rewrite <- !app_assoc).
  rewrite (dirname_strip _ _ (strip_plain _ Hp t Ht) (ends_plain_nonempty _ Hp)).
  destruct (last_slash s Hs) as (k & Es & HF).
  assert (R : rcut slash (d ++ s ++ f) = Some (d ++ repeat 47%Z k, f)).
  { rewrite Es. rewrite <- app_assoc. cbn [app]. rewrite app_assoc. apply rcut_app; [reflexivity|]. apply no_slash, Hf. }
  rewrite R, strip_plain by auto.
  destruct d; [destruct (ends_plain_nonempty _ Hd eq_refl)|]. reflexivity.
Qed.

(* the directory of / f *)
Lemma dirname_root f t : component f -> Forall (fun c => c = 47%Z) t ->
  dirname_buffer (47%Z :: f ++ t) = [47%Z].
Proof.
  intros Hf Ht.
  pose proof (component_plain [47%Z] f Hf) as Hp. cbn [app] in Hp.
  replace (47%Z :: f ++ t) with ((47%Z :: f) ++ t) by reflexivity.
  rewrite (dirname_strip _ _ (strip_plain _ Hp t Ht) (ends_plain_nonempty _ Hp)).
  pose proof (rcut_app slash [] 47%Z f eq_refl (no_slash _ (proj2 Hf))) as R. cbn [app] in R.
  rewrite R. reflexivity.
Qed.

Lemma dirname_none f t : component f -> Forall (fun c => c = 47%Z) t -> dirname_buffer (f ++ t) = f ++ t.
Proof.
  intros Hf Ht. pose proof (component_plain [] f Hf) as Hp. cbn [app] in Hp.
  rewrite (dirname_strip _ _ (strip_plain _ Hp t Ht) (ends_plain_nonempty _ Hp)).
  rewrite rcut_none by (apply no_slash, Hf). reflexivity.
Qed.

Definition ext_of (f : bytes) : option bytes := option_map snd (rcut (fun c => (c =? 46)%Z) f).

Lemma ext_some a e : ~ In 46%Z e -> ext_of (a ++ 46%Z :: e) = Some e.
Proof.
  intros H. unfold ext_of. rewrite rcut_app; [reflexivity|reflexivity|].
  apply Forall_forall. intros c Hc. apply Z.eqb_neq. intros ->. auto.
Qed.
Lemma ext_none f : ~ In 46%Z f -> ext_of f = None.
Proof.
  intros H. unfold ext_of. rewrite rcut_none; [reflexivity|].
  apply Forall_forall. intros c Hc. apply Z.eqb_neq. intros ->. auto.
Qed.

Lemma ext_of_spec f e : extension f e -> ext_of f = e.
Proof. destruct 1; [now apply ext_none|now apply ext_some]. Qed.

(* d1 / c / f *)
Lemma pathinfo_deep d1 s1 c s f e : slashes_only s1 -> component c -> slashes_only s -> component f -> extension f e ->
  pathinfo (d1 ++ s1 ++ c ++ s ++ f) = (mkf (d1 ++ s1 ++ c) c f e, d1 ++ s1 ++ c ++ s ++ f).
Proof.
  intros H1 Hc Hs Hf He. apply ext_of_spec in He. subst e.
  assert (Hd : ends_plain (d1 ++ s1 ++ c)) by (rewrite app_assoc; now apply component_plain).
  pose proof (dirname_plain (d1 ++ s1 ++ c) s f [] Hd Hs Hf (Forall_nil _)) as D.
  rewrite app_nil_r in D.
  pose proof (basename_plain (d1 ++ s1 ++ c) s f Hs Hf) as B.
  replace (d1 ++ s1 ++ c ++ s ++ f) with ((d1 ++ s1 ++ c) ++ s ++ f) by (now rewrite <- !app_assoc).
  unfold pathinfo. rewrite D, basename_plain by auto. rewrite B. reflexivity.
Qed.

(* c / f *)
Lemma pathinfo_shallow c s f e : component c -> slashes_only s -> component f -> extension f e ->
  pathinfo (c ++ s ++ f) = (mkf c c f e, c ++ s ++ f).
Proof.
  intros Hc Hs Hf He. apply ext_of_spec in He. subst e. pose proof (component_plain [] c Hc) as Hd. cbn [app] in Hd.
  pose proof (dirname_plain c s f [] Hd Hs Hf (Forall_nil _)) as D. rewrite app_nil_r in D.
  unfold pathinfo. rewrite D, basename_component by auto. rewrite basename_plain by auto. reflexivity.
Qed.

(* / f *)
Lemma pathinfo_root f e : component f -> extension f e ->
  pathinfo (47%Z :: f) = (mkf [47%Z] [47%Z] f e, 47%Z :: f).
Proof.
  intros Hf He. apply ext_of_spec in He. subst e. pose proof (dirname_root f [] Hf (Forall_nil _)) as D. rewrite app_nil_r in D.
  unfold pathinfo. rewrite D.
  assert (Hs : slashes_only [47%Z]) by (split; [congruence|repeat constructor]).
  pose proof (basename_plain [] [47%Z] f Hs Hf) as B. cbn [app] in B. rewrite B. reflexivity.
Qed.

(* f alone: the directory is the file itself *)
Lemma pathinfo_alone f e : component f -> extension f e -> pathinfo f = (mkf f f f e, f).
Proof.
  intros Hf He. apply ext_of_spec in He. subst e. pose proof (dirname_none f [] Hf (Forall_nil _)) as D. rewrite app_nil_r in D.
  unfold pathinfo. rewrite D, basename_component by auto. reflexivity.
Qed.

(* a path that ends in slashes is shortened in the caller's memory *)
Lemma pathinfo_trailing d s f t : ends_plain d -> slashes_only s -> component f -> slashes_only t ->
  f_dirname (fst (pathinfo (d ++ s ++ f ++ t))) = d /\
  f_filename (fst (pathinfo (d ++ s ++ f ++ t))) = f /\
  snd (pathinfo (d ++ s ++ f ++ t)) = d ++ s ++ f.
Proof.
  intros Hd Hs Hf Ht. unfold pathinfo. rewrite dirname_plain by (auto; apply Ht).
  rewrite basename_trailing by auto.
  assert (E : snd (basename d) = d).
  { rewrite (basename_strip _ _ (strip_plain0 _ Hd) (ends_plain_nonempty _ Hd)).
    destruct (rcut slash d) as [[? ?]|]; reflexivity. }
  destruct (basename d) as [base d']. cbn [snd] in E. subst d'. cbn [fst snd f_dirname f_filename]. auto.
Qed.
