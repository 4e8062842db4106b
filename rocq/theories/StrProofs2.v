(* Specifications and lemmas: repeat, pad, trim, bounded copy, case-insensitive comparison. *)
From Verif Require Import Base StrModel StrProofs.

(* ---- repeat ---- *)
Definition times (n : nat) (s : bytes) : bytes := concat (repeat s n).

Lemma times_length n s : length (times n s) = n * length s.
Proof. induction n; simpl; auto. unfold times in *. simpl. rewrite app_length. lia. Qed.

Lemma times_add a b s : times (a + b) s = times a s ++ times b s.
Proof. unfold times. rewrite repeat_app, concat_app. reflexivity. Qed.

Lemma firstn_times a b s : a <= b -> firstn (a * length s) (times b s) = times a s.
Proof.
  intros H. replace b with (a + (b - a)) by lia. rewrite times_add, firstn_app, times_length.
  rewrite Nat.sub_diag. simpl. rewrite app_nil_r. apply firstn_all2. rewrite times_length. lia.
Qed.

Lemma rp_loop_spec s m : s <> [] -> forall fuel j,
  1 <= j <= m -> m * length s <= fuel + j * length s ->
  rp_loop fuel (m * length s) (times j s) = Ok (times m s).
Proof.
  intros Hs. assert (Hl : 1 <= length s) by (destruct s; [congruence|simpl; lia]).
  induction fuel as [|fuel IH]; intros j Hj Hf.
  - assert (j = m) by nia. subst j. simpl. rewrite times_length, Nat.ltb_irrefl. reflexivity.
  - cbn [rp_loop]. rewrite times_length.
    destruct (Nat.ltb_spec (j * length s) (m * length s)) as [L|L].
    + replace (m * length s - j * length s) with ((m - j) * length s) by nia.
      assert (E : Nat.min (j * length s) ((m - j) * length s) = Nat.min j (m - j) * length s).
      { now rewrite Nat.mul_min_distr_r. }
      rewrite E, firstn_times by lia.
      rewrite emits_ok by (rewrite !times_length; nia). cbn [bind].
      rewrite <- times_add. apply IH; [lia|]. assert (1 <= Nat.min j (m - j)) by nia. nia.
    + assert (j = m) by nia. now subst.
Qed.

Lemma times_one n c : times n [c] = repeat c n.
Proof. induction n; simpl; auto. unfold times in *. simpl. congruence. Qed.

Lemma str_repeat_spec s mult :
  (0 <= mult)%Z -> str_repeat s mult = Ok (times (Z.to_nat mult) s).
Proof.
  intros H. unfold str_repeat. destruct (Z.ltb_spec mult 0); [lia|].
  destruct s as [|c s].
  - simpl. f_equal. induction (Z.to_nat mult); auto.
  - cbn [length Nat.eqb orb]. destruct (Z.eqb_spec mult 0) as [->|Hne]; auto.
    destruct s as [|c2 s].
    + cbn [length]. rewrite emits_ok by (rewrite repeat_length; simpl; lia).
      now rewrite times_one.
    + set (t := c :: c2 :: s). change (S (length (c2 :: s))) with (length t).
      rewrite emits_ok; cbn [bind app].
      * rewrite Nat.mul_comm.
        pose proof (rp_loop_spec t (Z.to_nat mult) ltac:(discriminate) (Z.to_nat mult * length t) 1) as R.
        replace (times 1 t) with t in R by (unfold times; simpl; now rewrite app_nil_r).
        apply R; lia.
      * change (length (@nil Z)) with 0. assert (1 <= Z.to_nat mult) by lia. nia.
Qed.

Lemma str_repeat_negative s mult : (mult < 0)%Z -> str_repeat s mult = Exn.
Proof. intros H. unfold str_repeat. now apply Z.ltb_lt in H as ->. Qed.

(* ---- pad ---- *)
(* the first n bytes of pad pad pad ... *)
Definition cycle (pad : bytes) (n : nat) : bytes :=
  map (fun i => nth (Nat.modulo i (length pad)) pad 0%Z) (seq 0 n).

Lemma cycle_length pad n : length (cycle pad n) = n.
Proof. unfold cycle. now rewrite map_length, seq_length. Qed.

Lemma cycle_nth pad n i : i < n -> nth_error (cycle pad n) i = Some (nth (Nat.modulo i (length pad)) pad 0%Z).
Proof.
  intros H. unfold cycle.
  erewrite map_nth_error; [reflexivity|]. rewrite (nth_error_nth' _ 0) by (rewrite seq_length; lia).
  now rewrite seq_nth by lia.
Qed.

Lemma pd_loop_spec size pad n i out :
  pad <> [] -> length out + n <= size ->
  pd_loop size pad n i out =
  Ok (out ++ map (fun i => nth (Nat.modulo i (length pad)) pad 0%Z) (seq i n)).
Proof.
  intros Hp. revert i out; induction n as [|n IH]; intros i out H.
  - simpl. now rewrite app_nil_r.
  - cbn [pd_loop seq map].
    assert (Hm : Nat.modulo i (length pad) < length pad).
    { apply Nat.mod_upper_bound. destruct pad; [congruence|simpl; lia]. }
    rewrite (rd_ok pad (Nat.modulo i (length pad)) (nth (Nat.modulo i (length pad)) pad 0%Z)).
    2:{ now apply nth_error_nth'. }
    cbn [bind]. rewrite emit_ok by lia. cbn [bind].
    rewrite IH by (rewrite app_length; simpl; lia). now rewrite <- app_assoc.
Qed.

(* how many pad bytes go to the left *)
Definition left_share (ty : pad_type) (num : nat) : nat :=
  match ty with PAD_LEFT => num | PAD_RIGHT => 0 | PAD_BOTH => Nat.div num 2 end.

Lemma str_pad_spec s len pad ty :
  pad <> [] -> (Z.of_nat (length s) < len)%Z ->
  let num := Z.to_nat len - length s in
  str_pad s len pad ty =
  Ok (cycle pad (left_share ty num) ++ s ++ cycle pad (num - left_share ty num)).
Proof.
  intros Hp Hl num. unfold str_pad. destruct (Z.leb_spec len (Z.of_nat (length s))); [lia|].
  destruct pad as [|p0 pad]; [congruence|]. change (Nat.eqb (length (p0 :: pad)) 0) with false.
  cbv iota. fold num.
  replace (match ty with PAD_LEFT => num | PAD_RIGHT => 0 | PAD_BOTH => Nat.div num 2 end)
    with (left_share ty num) by (destruct ty; reflexivity).
  assert (HL : left_share ty num <= num).
  { destruct ty; unfold left_share; lia. }
  set (size := align2 _). assert (length s + num + 1 <= size) by (unfold size, align2; lia).
  rewrite pd_loop_spec by (try discriminate; change (length (@nil Z)) with 0; lia). cbn [bind app].
  rewrite emits_ok by (rewrite map_length, seq_length; lia). cbn [bind].
  rewrite pd_loop_spec by (try discriminate; rewrite app_length, map_length, seq_length; lia).
  unfold cycle. now rewrite <- app_assoc.
Qed.

Lemma str_pad_short s len pad ty :
  (len <= Z.of_nat (length s))%Z -> str_pad s len pad ty = Ok s.
Proof. intros H. unfold str_pad. now apply Z.leb_le in H as ->. Qed.

(* ---- trim ---- *)
Definition all_space (s : bytes) : Prop := Forall (fun c => isspace c = true) s.
(* [core] starts and ends with a non-space *)
Definition tight (core : bytes) : Prop :=
  exists a b, core = a ++ [b] /\ isspace b = false /\
              exists c d, core = c :: d /\ isspace c = false.

Lemma ltrim_spec fuel L sp c r :
  all_space sp -> isspace c = false -> length sp < fuel ->
  ltrim fuel (L ++ sp ++ c :: r) (length L) = Ok (length L + length sp).
Proof.
  revert L fuel; induction sp as [|x sp IH]; intros L fuel Hs Hc Hf.
  - destruct fuel; [simpl in Hf; lia|]. cbn [ltrim].
    rewrite (rd_ok _ _ c). { cbn [bind]. rewrite Hc. f_equal; simpl; lia. }
    rewrite nth_error_app2, Nat.sub_diag by lia. reflexivity.
  - destruct fuel; [simpl in Hf; lia|]. cbn [ltrim].
    rewrite (rd_ok _ _ x). 2:{ rewrite nth_error_app2, Nat.sub_diag by lia. reflexivity. }
    cbn [bind]. inversion Hs; subst. rewrite H1.
    specialize (IH (L ++ [x]) fuel H2 Hc ltac:(simpl in *; lia)).
    rewrite <- app_assoc in IH. rewrite app_length in IH. simpl in IH |- *.
    replace (length L + 1) with (S (length L)) in IH by lia. rewrite IH. f_equal; lia.
Qed.

Lemma rtrim_back_spec A b sp r :
  all_space sp -> isspace b = false ->
  rtrim_back (A ++ b :: sp ++ r) (length A + 1 + length sp) = Ok (length A).
Proof.
  revert r; induction sp as [|x sp IH] using rev_ind; intros r Hs Hb.
  - replace (length A + 1 + length (@nil Z)) with (S (length A)) by (simpl; lia). simpl.
    rewrite (rd_ok _ _ b). { cbn [bind]. now rewrite Hb. }
    rewrite nth_error_app2, Nat.sub_diag by lia. reflexivity.
  - apply Forall_app in Hs as [Hs Hx]. inversion Hx; subst.
    rewrite app_length. replace (length A + 1 + (length sp + length [x])) with (S (length A + 1 + length sp)) by (simpl; lia).
    cbn [rtrim_back]. rewrite (rd_ok _ _ x).
    2:{ rewrite nth_error_app2 by lia. replace (length A + 1 + length sp - length A) with (S (length sp)) by lia.
        simpl. rewrite <- app_assoc. rewrite nth_error_app2, Nat.sub_diag by lia. reflexivity. }
    cbn [bind]. rewrite H1. rewrite <- app_assoc. now apply IH.
Qed.

Lemma isspace_0 : isspace 0 = false.
Proof. reflexivity. Qed.

Lemma nth_set_app {A} (a : list A) x y b : set_nth (length a) y (a ++ x :: b) = a ++ y :: b.
Proof. rewrite set_nth_app_r, Nat.sub_diag by lia. reflexivity. Qed.

Lemma trim_spec sp1 core sp2 :
  all_space sp1 -> all_space sp2 -> tight core -> nul_free (sp1 ++ core ++ sp2) ->
  exists buf off, trim (sp1 ++ core ++ sp2) = Ok (buf, off) /\ cstr buf off = core.
Proof.
  intros H1 H2 (a & b & Ec & Hb & c & d & Ec2 & Hc) Hnf.
  apply nul_free_app in Hnf as [Hn1 Hnf]. pose proof Hnf as Hnf2. apply nul_free_app in Hnf as [Hnc Hn2].
  unfold trim.
  assert (E1 : (sp1 ++ core ++ sp2) ++ [0%Z] = [] ++ sp1 ++ c :: (d ++ sp2 ++ [0%Z])).
  { rewrite Ec2. simpl. rewrite <- !app_assoc. simpl. rewrite <- !app_assoc. reflexivity. }
  assert (E2 : (sp1 ++ core ++ sp2) ++ [0%Z] = (sp1 ++ a) ++ b :: sp2 ++ [0%Z]).
  { rewrite Ec. rewrite <- !app_assoc. reflexivity. }
  assert (HL : ltrim (S (length ((sp1 ++ core ++ sp2) ++ [0%Z]))) ((sp1 ++ core ++ sp2) ++ [0%Z]) 0 = Ok (length sp1)).
  { rewrite E1 at 2. apply (ltrim_spec _ [] sp1 c); auto. rewrite !app_length; lia. }
  rewrite HL. cbn [bind].
  replace (cstr ((sp1 ++ core ++ sp2) ++ [0%Z]) (length sp1)) with (core ++ sp2).
  2:{ rewrite <- app_assoc. symmetry. apply cstr_app; auto. }
  replace (length sp1 + length (core ++ sp2)) with (length (sp1 ++ a) + 1 + length sp2).
  2:{ rewrite Ec, !app_length. simpl. lia. }
  rewrite E2, rtrim_back_spec; auto. cbn [bind].
  rewrite wr_ok. 2:{ rewrite !app_length. simpl. rewrite app_length. simpl. lia. }
  cbn [bind]. eexists _, _. split; [reflexivity|].
  assert (E3 : exists r, set_nth (S (length (sp1 ++ a))) 0%Z ((sp1 ++ a) ++ b :: sp2 ++ [0%Z]) = sp1 ++ core ++ 0%Z :: r).
  { replace (S (length (sp1 ++ a))) with (length ((sp1 ++ a) ++ [b])) by (rewrite app_length; simpl; lia).
    replace ((sp1 ++ a) ++ b :: sp2 ++ [0%Z]) with (((sp1 ++ a) ++ [b]) ++ sp2 ++ [0%Z]) by (rewrite <- !app_assoc; reflexivity).
    destruct sp2 as [|x sp2].
    - exists []. simpl. rewrite nth_set_app. rewrite Ec, <- !app_assoc. reflexivity.
    - exists (sp2 ++ [0%Z]). simpl. rewrite nth_set_app. rewrite Ec, <- !app_assoc. reflexivity. }
  destruct E3 as [r ->]. now apply cstr_app.
Qed.

Lemma rtrim_back_all buf n :
  n <= length buf -> all_space (firstn n buf) -> rtrim_back buf n = UB.
Proof.
  induction n as [|n IH]; intros Hl Hs; auto. cbn [rtrim_back].
  destruct (nth_error buf n) as [x|] eqn:E; [|apply nth_error_None in E; lia].
  rewrite (rd_ok _ _ _ E). cbn [bind].
  assert (firstn (S n) buf = firstn n buf ++ [x]) as EF.
  { clear -E. revert buf E; induction n; intros [|y buf] E; simpl in *; try discriminate.
    - congruence. - f_equal. auto. }
  rewrite EF in Hs. apply Forall_app in Hs as [Hs Hx]. inversion Hx; subst. rewrite H1.
  apply IH; auto; lia.
Qed.

Lemma trim_blank s : all_space s -> trim s = UB.
Proof.
  intros Hs. unfold trim.
  assert (HL : ltrim (S (length (s ++ [0%Z]))) (s ++ [0%Z]) 0 = Ok (length s)).
  { apply (ltrim_spec _ [] s 0%Z []); auto. rewrite app_length; simpl; lia. }
  rewrite HL. cbn [bind].
  replace (cstr (s ++ [0%Z]) (length s)) with (@nil Z).
  2:{ symmetry. exact (cstr_app s [] [] (Forall_nil _)). }
  simpl length. rewrite Nat.add_0_r. rewrite rtrim_back_all; auto.
  - rewrite app_length; lia.
  - rewrite firstn_app, firstn_all, Nat.sub_diag. simpl. now rewrite app_nil_r.
Qed.

(* every string is blank or has a tight core *)
Lemma trim_cases s : all_space s \/
  exists sp1 core sp2, s = sp1 ++ core ++ sp2 /\ all_space sp1 /\ all_space sp2 /\ tight core.
Proof.
  assert (HR : forall s, all_space s \/ exists a b sp, s = a ++ b :: sp /\ isspace b = false /\ all_space sp).
  { clear. induction s as [|x s IH]; [left; constructor|].
    destruct IH as [H|(a & b & sp & -> & Hb & Hsp)].
    - destruct (isspace x) eqn:E.
      + left; now constructor.
      + right. exists [], x, s. auto.
    - right. exists (x :: a), b, sp. auto. }
  induction s as [|x s IH]; [left; constructor|].
  destruct (isspace x) eqn:E.
  - destruct IH as [H|(sp1 & core & sp2 & -> & H1 & H2 & H3)].
    + left; now constructor.
    + right. exists (x :: sp1), core, sp2. repeat split; auto. now constructor.
  - right. destruct (HR (x :: s)) as [H|(a & b & sp & Es & Hb & Hsp)].
    + inversion H; congruence.
    + exists [], (a ++ [b]), sp. simpl. rewrite <- app_assoc. repeat split; auto; try constructor.
      exists a, b. repeat split; auto.
      destruct a as [|y a]; simpl in Es; injection Es as -> ->.
      * exists b, []. auto.
      * exists y, (a ++ [b]). auto.
Qed.

(* ---- str_lcpy ---- *)
Lemma lcpy_loop_spec len L src R :
  1 <= len -> length src + 1 <= length R \/ len <= length R ->
  lcpy_loop len (L ++ R) src (length L) =
  Ok (L ++ firstn (len - 1) src ++ 0%Z :: skipn (S (length (firstn (len - 1) src))) R).
Proof.
  revert len L R; induction src as [|c src IH]; intros len L R Hl Hr.
  - cbn [lcpy_loop]. destruct R as [|r R]; [simpl in Hr; lia|].
    rewrite wr_ok by (rewrite app_length; simpl; lia). rewrite nth_set_app.
    rewrite firstn_nil. reflexivity.
  - cbn [lcpy_loop]. destruct R as [|r R]; [simpl in Hr; lia|].
    rewrite !wr_ok by (rewrite app_length; simpl; lia). rewrite !nth_set_app.
    destruct (Nat.ltb_spec 1 len) as [L1|L1].
    + cbn [bind]. replace (L ++ c :: R) with ((L ++ [c]) ++ R) by (rewrite <- app_assoc; reflexivity).
      replace (S (length L)) with (length (L ++ [c])) by (rewrite app_length; simpl; lia).
      rewrite IH by (simpl in Hr; lia). rewrite <- app_assoc.
      replace (len - 1) with (S (len - 1 - 1)) at 3 4 by lia. reflexivity.
    + replace (len - 1) with 0 by lia. reflexivity.
Qed.

Lemma str_lcpy_spec dest src len :
  1 <= len -> len <= length dest ->
  str_lcpy dest src len =
  Ok (firstn (len - 1) src ++ 0%Z :: skipn (S (length (firstn (len - 1) src))) dest).
Proof.
  intros H1 H2. unfold str_lcpy. destruct (Nat.eqb_spec len 0); [lia|].
  destruct (Nat.eqb_spec (length src) 0) as [E|E].
  - destruct src; [|discriminate]. rewrite firstn_nil.
    destruct dest as [|x dest]; [simpl in H2; lia|]. reflexivity.
  - rewrite <- (app_nil_l dest) at 1. change 0 with (length (@nil Z)) at 1.
    rewrite lcpy_loop_spec; auto.
Qed.

(* ---- case-insensitive comparison ---- *)
Definition is_byte (c : Z) : Prop := (0 <= c < 256)%Z.
(* ASCII lower case, as a rule *)
Definition lower (c : Z) : Z := if (65 <=? c)%Z && (c <=? 90)%Z then (c + 32)%Z else c.

Lemma tolower_rule c : is_byte c -> tolower_ascii c = lower c.
Proof.
  intros H. unfold tolower_ascii. rewrite Z.mod_small by exact H.
  assert (S : forallb (fun n => Z.eqb (nth n tolower_map 0%Z) (lower (Z.of_nat n))) (seq 0 256) = true)
    by (vm_compute; reflexivity).
  rewrite forallb_forall in S. unfold is_byte in H. specialize (S (Z.to_nat c)).
  rewrite Z2Nat.id in S by lia. apply Z.eqb_eq. apply S. apply in_seq. lia.
Qed.

Lemma lower_byte c : is_byte c -> is_byte (lower c).
Proof. unfold is_byte, lower. destruct (Z.leb_spec 65 c), (Z.leb_spec c 90); simpl; lia. Qed.

(* lexicographic order on byte strings *)
Inductive lexlt : bytes -> bytes -> Prop :=
| lexlt_nil b s : lexlt [] (b :: s)
| lexlt_head a b s t : (a < b)%Z -> lexlt (a :: s) (b :: t)
| lexlt_tail a s t : lexlt s t -> lexlt (a :: s) (a :: t).

Lemma bscc_spec s1 s2 :
  Forall is_byte s1 -> Forall is_byte s2 ->
  let l1 := map lower s1 in let l2 := map lower s2 in
  (exists d, bscc_loop (Nat.min (length s1) (length s2)) s1 s2 = Ok (Some d) /\
    ((d < 0)%Z /\ lexlt l1 l2 \/ (0 < d)%Z /\ lexlt l2 l1)) \/
  (bscc_loop (Nat.min (length s1) (length s2)) s1 s2 = Ok None /\
    ((length s1 = length s2 /\ l1 = l2) \/
     (length s1 < length s2 /\ lexlt l1 l2) \/ (length s2 < length s1 /\ lexlt l2 l1))).
Proof.
  intros H1. revert s2. induction H1 as [|a s1 Ha H1 IH]; intros s2 H2.
  - right. split; auto. destruct s2; [left; auto|]. right; left. split; [simpl; lia|constructor].
  - destruct H2 as [|b s2 Hb H2].
    + right. split; auto. right; right. split; [simpl; lia|constructor].
    + cbn [length Nat.min bscc_loop]. rewrite !tolower_rule by auto.
      destruct (Z.eqb_spec (lower a) (lower b)) as [E|E].
      * destruct (IH s2 H2) as [(d & -> & Hd)|(-> & Hd)].
        -- left. exists d. split; auto. cbn [map]. rewrite E.
           destruct Hd as [[? ?]|[? ?]]; [left|right]; split; auto; now constructor.
        -- right. split; auto. cbn [map length]. rewrite E.
           destruct Hd as [[? ?]|[[? ?]|[? ?]]].
           ++ left. split; [lia|congruence].
           ++ right; left. split; [lia|now constructor].
           ++ right; right. split; [lia|now constructor].
      * left. exists (lower a - lower b)%Z. split; auto. cbn [map].
        destruct (Z.lt_total (lower a) (lower b)) as [L|[L|L]]; [left| |right]; try lia;
          split; try lia; now constructor.
Qed.

Lemma lexlt_irrefl s : ~ lexlt s s.
Proof. induction s; intros H; inversion H; subst; auto; lia. Qed.

Lemma lexlt_asym s t : lexlt s t -> ~ lexlt t s.
Proof. induction 1; intros K; inversion K; subst; auto; lia. Qed.

Lemma strcasecmp_spec s1 s2 :
  Forall is_byte s1 -> Forall is_byte s2 ->
  (Z.of_nat (length s1) < 2 ^ 31)%Z -> (Z.of_nat (length s2) < 2 ^ 31)%Z ->
  exists r, strcasecmp s1 s2 = Ok r /\
    (r = 0%Z <-> map lower s1 = map lower s2) /\
    ((r < 0)%Z <-> lexlt (map lower s1) (map lower s2)) /\
    ((0 < r)%Z <-> lexlt (map lower s2) (map lower s1)).
Proof.
  intros H1 H2 L1 L2. unfold strcasecmp.
  destruct (bscc_spec s1 s2 H1 H2) as [(d & -> & Hd)|(-> & Hd)]; cbn [bind].
  - exists d. split; auto. destruct Hd as [[K1 K2]|[K1 K2]].
    + repeat split; try lia; intros; auto.
      * rewrite H in K2. exfalso; eapply lexlt_irrefl; eauto.
      * exfalso; eapply lexlt_asym; eauto.
    + repeat split; try lia; intros; auto.
      * rewrite H in K2. exfalso; eapply lexlt_irrefl; eauto.
      * exfalso; eapply lexlt_asym; eauto.
  - rewrite wraps_id by lia.
    eexists; split; [reflexivity|]. destruct Hd as [[K1 K2]|[[K1 K2]|[K1 K2]]].
    + rewrite K2. repeat split; try lia; intros H; exfalso; eapply lexlt_irrefl; eauto.
    + repeat split; try lia; intros; auto.
      * rewrite H in K2. exfalso; eapply lexlt_irrefl; eauto.
      * exfalso; eapply lexlt_asym; eauto.
    + repeat split; try lia; intros; auto.
      * rewrite H in K2. exfalso; eapply lexlt_irrefl; eauto.
      * exfalso; eapply lexlt_asym; eauto.
Qed.

Lemma lower_0 c : is_byte c -> lower c = 0%Z -> c = 0%Z.
Proof. unfold is_byte, lower. destruct (Z.leb_spec 65 c), (Z.leb_spec c 90); simpl; lia. Qed.

Lemma sce_loop_spec s1 s2 len :
  Forall is_byte s1 -> Forall is_byte s2 -> nul_free s1 -> nul_free s2 ->
  exists b, sce_loop (S len) (s1 ++ [0%Z]) (s2 ++ [0%Z]) = Ok b /\
    (b = true <-> firstn (S len) (map lower s1) = firstn (S len) (map lower s2)).
Proof.
  intros H1; revert s2 len. induction H1 as [|a s1 Ha H1 IH]; intros s2 len H2 N1 N2.
  - destruct H2 as [|b s2 Hb H2].
    + simpl. exists true. split; auto. split; auto.
    + inversion N2; subst. cbn [sce_loop app]; unfold rd; cbn [nth_error bind tl]. rewrite (tolower_rule b) by auto.
      change (tolower_ascii 0) with 0%Z.
      destruct (Z.eqb_spec 0 (lower b)) as [E|E].
      * symmetry in E. apply lower_0 in E; auto; congruence.
      * exists false. split; auto. split; discriminate.
  - inversion N1; subst. destruct H2 as [|b s2 Hb H2].
    + cbn [sce_loop app]; unfold rd; cbn [nth_error bind tl]. rewrite tolower_rule by auto. change (tolower_ascii 0) with 0%Z.
      destruct (Z.eqb_spec (lower a) 0) as [E|E].
      * apply lower_0 in E; auto; congruence.
      * exists false. split; auto. split; discriminate.
    + inversion N2; subst. cbn [sce_loop app]; unfold rd; cbn [nth_error bind tl]. rewrite !tolower_rule by auto.
      destruct (Z.eqb_spec (lower a) (lower b)) as [E|E].
      * destruct (Z.eqb_spec a 0); [congruence|]. destruct len as [|len].
        -- exists true. split; auto. split; auto. intros _. simpl. now rewrite E.
        -- destruct (IH s2 len H2) as (r & -> & Hr); auto. exists r. split; auto.
           rewrite Hr. cbn [map]. rewrite E, !(firstn_cons (S len)).
           split; [intros ->; auto|intros K; now injection K].
      * exists false. split; auto. split; [discriminate|]. intros K. injection K. intros; congruence.
Qed.

Lemma str_case_equal_spec s1 s2 len :
  Forall is_byte s1 -> Forall is_byte s2 -> nul_free s1 -> nul_free s2 ->
  exists b, str_case_equal s1 s2 len = Ok b /\
    (b = true <-> 0 < len /\ firstn len (map lower s1) = firstn len (map lower s2)).
Proof.
  intros. unfold str_case_equal. destruct len as [|len].
  - exists false. split; auto. split; [discriminate|]. intros [? _]; lia.
  - cbn [Nat.eqb]. destruct (sce_loop_spec s1 s2 len) as (b & -> & Hb); auto.
    exists b. split; auto. rewrite Hb. split; [split; auto; lia|tauto].
Qed.

(* ---- str_cat_argv ---- *)
(* The buffer content is a C string with only zeros behind it. *)
Definition buf_holds (buf s : bytes) : Prop :=
  nul_free s /\ exists k, buf = s ++ repeat 0%Z k.

Lemma strncat_at_spec k a b s off :
  off = length a -> nul_free b -> nul_free s -> length s < k ->
  strncat_at (a ++ b ++ repeat 0%Z k) off s = (a ++ b ++ s) ++ repeat 0%Z (k - length s).
Proof.
  intros -> Hb Hs Hk. unfold strncat_at.
  destruct k as [|k]; [lia|]. cbn [repeat].
  rewrite cstr_app by auto.
  assert (E1 : firstn (length a + length b) (a ++ b ++ 0%Z :: repeat 0%Z k) = a ++ b).
  { rewrite app_assoc, <- app_length, firstn_app, firstn_all, Nat.sub_diag. apply app_nil_r. }
  assert (E2 : skipn (length a + length b + length s + 1) (a ++ b ++ 0%Z :: repeat 0%Z k) = repeat 0%Z (k - length s)).
  { replace (length a + length b + length s + 1) with (S (length s) + length (a ++ b)) by (rewrite app_length; lia).
    rewrite <- skipn_skipn, app_assoc, skipn_len_app. simpl.
    clear. revert k. induction (length s); intros [|k]; simpl; auto. }
  rewrite E1, E2. rewrite <- !app_assoc.
  replace (S k - length s) with (S (k - length s)) by lia. reflexivity.
Qed.

Lemma strncat_at_end cur k off s :
  nul_free cur -> off <= length cur -> nul_free s -> length s < k ->
  strncat_at (cur ++ repeat 0%Z k) off s = (cur ++ s) ++ repeat 0%Z (k - length s).
Proof.
  intros Hc Ho Hs Hk.
  pose proof (firstn_skipn off cur) as E.
  assert (Hb : nul_free (skipn off cur)).
  { rewrite <- E in Hc. now apply nul_free_app in Hc as [_ ?]. }
  pose proof (strncat_at_spec k (firstn off cur) (skipn off cur) s off) as R.
  rewrite !(app_assoc (firstn off cur)), E in R. apply R; auto. rewrite firstn_length; lia.
Qed.

(* text appended by the loop *)
Definition cat_text (first : bool) (delim : Z) (args : list bytes) : bytes :=
  (if first then [] else if (Nat.eqb (length args) 0) then [] else [delim]) ++ join [delim] args.

Lemma cat_loop_spec delim args : delim <> 0%Z -> Forall nul_free args ->
  forall cur k first j, nul_free cur -> j <= length cur ->
  length (cat_text first delim args) < k ->
  cat_loop (cur ++ repeat 0%Z k) delim first j args =
  (cur ++ cat_text first delim args) ++ repeat 0%Z (k - length (cat_text first delim args)).
Proof.
  intros Hd Hargs. induction Hargs as [|a args Ha Hargs IH]; intros cur k first j Hc Hj Hk.
  - unfold cat_text in *. destruct first; simpl in *; rewrite app_nil_r, Nat.sub_0_r; reflexivity.
  - cbn [cat_loop].
    assert (EJ : join [delim] (a :: args) = a ++ cat_text false delim args).
    { unfold cat_text. destruct args; simpl; [now rewrite app_nil_r|reflexivity]. }
    destruct first.
    + unfold cat_text in Hk |- *. cbn [app] in *. rewrite EJ in *. rewrite app_length in Hk |- *.
      rewrite strncat_at_end; auto; try lia.
      rewrite IH; try lia.
      * rewrite <- !app_assoc. do 3 f_equal. f_equal. lia.
      * apply nul_free_app; auto.
      * rewrite app_length; lia.
    + unfold cat_text in Hk |- *. cbn [length Nat.eqb] in *. rewrite EJ in *. rewrite !app_length in Hk |- *.
      simpl length in *.
      assert (Hnd : nul_free [delim]) by (repeat constructor; auto).
      rewrite strncat_at_end; auto; try lia; try (simpl; lia). simpl length.
      rewrite strncat_at_end; auto; try lia.
      * rewrite IH; try lia.
        -- rewrite <- !app_assoc. do 4 f_equal. f_equal. lia.
        -- rewrite !nul_free_app; auto.
        -- rewrite !app_length; simpl; lia.
      * apply nul_free_app; auto.
      * rewrite app_length; simpl; lia.
Qed.

Lemma cat_len_spec delim args : args <> [] ->
  fold_right (fun a n => length a + 1 + n) 0 args = S (length (join [delim] args)).
Proof.
  induction args as [|a args IH]; [congruence|]. intros _. destruct args as [|b args].
  - simpl. lia.
  - rewrite join_cons by discriminate. cbn [fold_right] in *. rewrite IH by discriminate.
    rewrite !app_length. simpl (length [delim]). lia.
Qed.

Lemma join_nul_free d ps : nul_free d -> Forall nul_free ps -> nul_free (join d ps).
Proof.
  intros Hd H. induction H as [|p ps Hp Hps IH]; [constructor|]. destruct ps; auto.
  rewrite join_cons by discriminate. rewrite !nul_free_app. auto.
Qed.

Lemma str_cat_argv_spec delim args t k :
  delim <> 0%Z -> args <> [] -> Forall nul_free args -> nul_free t ->
  length (join [delim] args) < k ->
  exists buf', str_cat_argv (t ++ repeat 0%Z k) delim args = Ok buf' /\
    cstr buf' 0 = firstn (length (join [delim] args)) (t ++ join [delim] args).
Proof.
  intros Hd Hne Hargs Ht Hk. unfold str_cat_argv.
  rewrite (cat_len_spec delim) by auto.
  rewrite cat_loop_spec by (auto; lia). unfold cat_text; cbn [app].
  set (J := join [delim] args) in *. 
  assert (HJ : nul_free J) by (apply join_nul_free; auto; repeat constructor; auto).
  rewrite wr_ok.
  2:{ rewrite !app_length, repeat_length; lia. }
  eexists; split; [reflexivity|].
  set (F := (t ++ J) ++ repeat 0%Z (k - length J)).
  assert (EF : firstn (length J) F = firstn (length J) (t ++ J)).
  { unfold F. rewrite firstn_app.
    replace (length J - length (t ++ J)) with 0 by (rewrite app_length; lia).
    simpl. apply app_nil_r. }
  rewrite set_nth_firstn_skipn by (unfold F; rewrite !app_length, repeat_length; lia).
  rewrite EF. apply (cstr_app []).
  assert (nul_free (t ++ J)) as HN by (apply nul_free_app; auto).
  rewrite <- (firstn_skipn (length J) (t ++ J)) in HN. now apply nul_free_app in HN as [? _].
Qed.

(* ---- str_has_either ---- *)
Definition mixes (m1 m2 src : bytes) (c : nat) : Prop :=
  c + length m1 <= length src /\
  forall d, d < length m1 ->
    nth_error src (c + d) = nth_error m1 d \/ nth_error src (c + d) = nth_error m2 d.

Lemma he_inner_spec src m1 m2 n d e :
  n = length m1 - d -> d <= length m1 -> length m1 <= length m2 -> e + n <= length src ->
  exists r, he_inner src m1 m2 n d e = Ok r /\
    (r = true <-> forall k, k < n -> nth_error src (e + k) = nth_error m1 (d + k) \/
                                     nth_error src (e + k) = nth_error m2 (d + k)).
Proof.
  revert d e; induction n as [|n IH]; intros d e Hn Hd Hm He; simpl.
  - exists true; split; auto. split; auto. intros; lia.
  - destruct (nth_error m1 d) as [a|] eqn:Ea; [|apply nth_error_None in Ea; lia].
    destruct (nth_error m2 d) as [b|] eqn:Eb; [|apply nth_error_None in Eb; lia].
    destruct (nth_error src e) as [s|] eqn:Es; [|apply nth_error_None in Es; lia].
    rewrite (rd_ok _ _ _ Ea), (rd_ok _ _ _ Es); cbn [bind].
    rewrite (rd_ok (m2 ++ [0%Z]) d b) by (rewrite nth_error_app1; auto; lia). cbn [bind].
    destruct (IH (S d) (S e)) as (r & Hr & Hiff); try lia.
    assert (Hyes : a = s \/ b = s -> (forall k, k < n -> nth_error src (S e + k) = nth_error m1 (S d + k) \/
                                     nth_error src (S e + k) = nth_error m2 (S d + k)) <->
       (forall k, k < S n -> nth_error src (e + k) = nth_error m1 (d + k) \/
                                     nth_error src (e + k) = nth_error m2 (d + k))).
    { intros Hab. split; intros H k Hk.
      - destruct k as [|k]; [rewrite !Nat.add_0_r, Ea, Eb, Es; destruct Hab; [left|right]; congruence|].
        rewrite <- !plus_n_Sm. apply (H k); lia.
      - specialize (H (S k)). rewrite <- !plus_n_Sm in H. apply H; lia. }
    destruct (Z.eqb_spec a s) as [->|Hne].
    + exists r; split; auto. rewrite Hiff. apply Hyes; auto.
    + destruct (Z.eqb_spec b s) as [->|Hne2].
      * exists r; split; auto. rewrite Hiff. apply Hyes; auto.
      * exists false; split; auto. split; [discriminate|]. intros H.
        specialize (H 0 ltac:(lia)). rewrite !Nat.add_0_r, Ea, Eb, Es in H. destruct H; congruence.
Qed.

Lemma he_outer_spec src m1 m2 n c :
  length m1 <= length m2 -> c + n + length m1 = length src + 1 -> length m1 <= length src ->
  exists r, he_outer src m1 m2 n c = Ok r /\
    (r = true <-> exists i, c <= i /\ mixes m1 m2 src i).
Proof.
  intros Hm. revert c; induction n as [|n IH]; intros c Hc Hl; simpl.
  - exists false; split; auto. split; [discriminate|]. intros (i & Hi & [Hi2 _]); lia.
  - destruct (he_inner_spec src m1 m2 (length m1) 0 c) as (r & -> & Hiff); try lia.
    cbn [bind]. destruct r.
    + exists true. split; auto. split; auto. intros _. exists c. split; auto. split; [lia|].
      destruct Hiff as [Hiff _]. intros d Hd. apply (Hiff eq_refl d Hd).
    + destruct (IH (S c)) as (r & -> & Hr); try lia. exists r; split; auto. rewrite Hr.
      split; intros (i & Hi & Hmix); exists i; split; auto; try lia.
      destruct (Nat.eq_dec i c) as [->|]; [|lia]. exfalso.
      assert (false = true); [|discriminate]. apply Hiff. intros k Hk. apply Hmix; auto.
Qed.

Lemma str_has_either_spec src m1 m2 :
  length m1 <= length m2 ->
  exists r, str_has_either src m1 m2 = Ok r /\ (r = true <-> exists i, mixes m1 m2 src i).
Proof.
  intros Hm. unfold str_has_either. destruct (Nat.ltb_spec (length src) (length m1)).
  - exists false; split; auto. split; [discriminate|]. intros (i & Hi & _); lia.
  - destruct (he_outer_spec src m1 m2 (length src - length m1 + 1) 0) as (r & -> & Hr); try lia.
    exists r. split; auto. rewrite Hr. split; intros (i & Hi); exists i; intuition lia.
Qed.

Lemma cat_argv_stale :
  exists buf, str_cat_argv (repeat 0%Z 12) 32 [[97]; [98]]%Z = Ok buf /\
  exists buf', str_cat_argv buf 32 [[99]; [100]]%Z = Ok buf' /\
    cstr buf' 0 = [97;32;98]%Z /\ cstr buf' 0 <> join [32]%Z [[99]; [100]]%Z.
Proof.
  eexists; split; [reflexivity|]. eexists; split; [reflexivity|].
  split; [reflexivity|]. vm_compute. discriminate.
Qed.
