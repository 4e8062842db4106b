(* Arrays given back by functions in threads and in the pool: what the callers get, what is released, what runs *)
From Coq Require Import ZArith List Bool Arith Lia.
From Verif Require Import Base TdModel.
Import ListNotations.

(* ---- what is meant ---- *)
Definition makers (l : list op) : list op := filter (fun o => match o with Data _ | New _ => true | _ => false end) l.
Fixpoint defers (l : list op) : list nat := match l with [] => [] | Defer f :: r => f :: defers r | _ :: r => defers r end.
(* what reading the arguments should give; None: no such argument *)
Fixpoint reads (c : list Z) (l : list op) : option (list Z) :=
  match l with
  | [] => Some []
  | Arg i :: r => match nth_error c i, reads c r with Some z, Some zs => Some (z :: zs) | _, _ => None end
  | _ :: r => reads c r
  end.
(* what a call that makes an array was given *)
Definition given (o : op) : option (list Z) :=
  match o with Data [] => None | Data xs | New xs => Some xs | _ => None end.
(* what the caller should get *)
Definition due (l : list op) (r : ret) : got :=
  match r with
  | RInt z => if (z =? 0)%Z then Kept else Word z
  | RVar v => match nth_error (makers l) v with
              | Some o => match given o with Some xs => Tuple xs | None => Kept end
              | None => Kept
              end
  | RArgs => Kept
  end.
Definition made (l : list op) : nat := length (filter (fun o => match given o with Some _ => true | None => false end) l).
Definition live (h : list arr) : nat := length (filter alive h).
Definition is_array (g : got) : nat := match g with Tuple _ => 1 | _ => 0 end.
Definition touches (l : list op) : bool := existsb (fun o => match o with Data _ | Defer _ => true | _ => false end) l.

(* ---- small lemmas ---- *)
Lemma fill_ok cap moves n : n <= cap -> fill cap moves n = Ok true.
Proof. intros H. unfold fill. apply Nat.leb_le in H. rewrite H, orb_true_r. reflexivity. Qed.
Lemma stale_no cap moves n : n <= cap -> stale cap moves n = false.
Proof. intros H. unfold stale. assert (E : cap <? n = false) by (apply Nat.ltb_ge; exact H). rewrite E. apply andb_false_r. Qed.
Lemma live_app h k : live (h ++ k) = live h + live k.
Proof. unfold live. rewrite filter_app, app_length. reflexivity. Qed.
Lemma live_kill h : forall i x y, nth_error h i = Some x -> alive x = true -> alive y = false -> S (live (set_nth i y h)) = live h.
Proof.
  unfold live. induction h as [|b h IH]; intros [|i] x y H A B; cbn in *; try discriminate.
  - injection H as ->. rewrite A, B. reflexivity.
  - destruct (alive b); cbn [length]; rewrite <- (IH i x y H A B); reflexivity.
Qed.
Lemma live_same h : forall i x y, nth_error h i = Some x -> alive x = alive y -> live (set_nth i y h) = live h.
Proof.
  unfold live. induction h as [|b h IH]; intros [|i] x y H A; cbn in *; try discriminate.
  - injection H as ->. rewrite A. destruct (alive y); reflexivity.
  - destruct (alive b); cbn [length]; rewrite (IH i x y H A); reflexivity.
Qed.
Lemma nth_lt {A} (l : list A) i x : nth_error l i = Some x -> i < length l.
Proof. intros H. apply nth_error_Some. congruence. Qed.
Lemma nth_last {A} (l : list A) x : nth_error (l ++ [x]) (length l) = Some x.
Proof. rewrite nth_error_app2, Nat.sub_diag; [reflexivity|lia]. Qed.
Lemma nth_keep {A} (l k : list A) i x : nth_error l i = Some x -> nth_error (l ++ k) i = Some x.
Proof. intros H. rewrite nth_error_app1; [exact H|]. apply (nth_lt _ _ _ H). Qed.

Lemma delete_ok s i x : nth_error (heap s) i = Some x -> alive x = true ->
  delete s (Arr i) = Ok (mkS (set_nth i (mkA false (size x) (cells x)) (heap s)) (scope s) (local s) (pend s) (seen s) (ran s)).
Proof. intros H A. unfold delete. rewrite (rd_ok _ _ _ H). cbn [bind]. rewrite A, (wr_ok _ _ _ (nth_lt _ _ _ H)). reflexivity. Qed.
Lemma delete_dead s i x : nth_error (heap s) i = Some x -> alive x = false -> delete s (Arr i) = UB.
Proof. intros H A. unfold delete. rewrite (rd_ok _ _ _ H). cbn [bind]. rewrite A. reflexivity. Qed.
Lemma set_ok s i x : nth_error (heap s) i = Some x -> alive x = true -> promise_set s (Arr i) = Ok (Tuple (firstn (size x) (cells x))).
Proof. intros H A. unfold promise_set. rewrite (rd_ok _ _ _ H). cbn [bind]. rewrite A. reflexivity. Qed.

Section Arrays.
Variables (cap : nat) (moves : bool).
Definition fits (l : list op) : Prop := Forall (fun o => match o with Data xs => length xs <= cap | _ => True end) l.

(* ---- without an array in local: the pool, and threads without arguments ---- *)
Definition own (h : list arr) (lo : nat) (o : op) (w : word) : Prop :=
  match given o with
  | None => w = Int 0
  | Some xs => exists i, w = Arr i /\ lo <= i /\ nth_error h i = Some (mkA true (length xs) xs)
  end.
Definition argsok (w : word) (h : list arr) (c : list Z) : Prop :=
  match w with Int _ => c = [] | Arr a => exists n, nth_error h a = Some (mkA true n c) end.

Lemma own_mono h h' lo lo' o w : (forall j x, nth_error h j = Some x -> nth_error h' j = Some x) -> lo' <= lo -> own h lo o w -> own h' lo' o w.
Proof.
  unfold own. intros K L. destruct (given o) as [xs|]; [|auto]. intros (i & E & Li & N). exists i. split; [exact E|]. split; [lia|]. apply K, N.
Qed.
Lemma Forall2_own_mono h h' lo lo' l ws : (forall j x, nth_error h j = Some x -> nth_error h' j = Some x) -> lo' <= lo ->
  Forall2 (own h lo) l ws -> Forall2 (own h' lo') l ws.
Proof. intros K L H. induction H; constructor; [eapply own_mono; eauto|assumption]. Qed.

Lemma data_own s xs : local s = None -> length xs <= cap ->
  exists s' w, thrd_data cap moves s xs = Ok (s', w) /\ scope s' = true /\ local s' = None /\ pend s' = pend s /\ seen s' = seen s /\ ran s' = ran s /\
    (exists k, heap s' = heap s ++ k) /\ own (heap s') (length (heap s)) (Data xs) w /\
    live (heap s') = live (heap s) + made [Data xs].
Proof.
  intros L F. unfold thrd_data. rewrite L. unfold data_ex. destruct xs as [|x xs].
  - eexists _, _. split; [reflexivity|]. cbn [heap scope local pend seen ran fst snd].
    do 5 (split; [reflexivity|]). split; [exists []; rewrite app_nil_r; reflexivity|]. split; [reflexivity|]. cbn. lia.
  - rewrite (fill_ok _ _ _ F). cbn [bind alloc fst snd]. eexists _, _. split; [reflexivity|].
    cbn [heap scope local pend seen ran]. do 5 (split; [reflexivity|]). split; [eexists; reflexivity|]. split.
    + unfold own. cbn [given]. exists (length (heap s)). split; [reflexivity|]. split; [lia|]. apply nth_last.
    + rewrite live_app. reflexivity.
Qed.

Lemma body_own base w c : forall l env s zs, local s = None -> fits l -> base + length (pend s) + length (defers l) <= S cap ->
  argsok w (heap s) c -> reads c l = Some zs ->
  exists ws s', body cap moves base w l env s = Ok (env ++ ws, s') /\ Forall2 (own (heap s') (length (heap s))) (makers l) ws /\
    local s' = None /\ pend s' = rev (defers l) ++ pend s /\ seen s' = seen s ++ zs /\ ran s' = ran s /\ scope s' = scope s || touches l /\
    (forall j x, nth_error (heap s) j = Some x -> nth_error (heap s') j = Some x) /\ live (heap s') = live (heap s) + made l.
Proof.
  induction l as [|o l IH]; intros env s zs L F D A R.
  - injection R as <-. exists [], s. cbn [body defers makers touches rev app filter existsb]. rewrite !app_nil_r, orb_false_r. unfold made. cbn.
    do 7 (split; [auto|]). split; [auto|]. lia.
  - inversion F as [|? ? F1 F2]; subst. destruct o as [xs|xs|i|f].
    + destruct (data_own s xs L F1) as (s1 & w1 & E & Sc & L1 & P1 & Se1 & R1 & (k & K) & O & Lv).
      cbn [body]. rewrite E. cbn [bind fst snd].
      assert (Kp : forall j x, nth_error (heap s) j = Some x -> nth_error (heap s1) j = Some x) by (intros j x N; rewrite K; apply nth_keep, N).
      destruct (IH (env ++ [w1]) s1 zs L1 F2) as (ws & s' & B & W & H1 & H2 & H3 & H4 & H5 & H6 & H7).
      { rewrite P1. exact D. }
      { destruct w as [|a]; [exact A|]. destruct A as (n & A). exists n. apply Kp, A. }
      { exact R. }
      exists (w1 :: ws), s'. rewrite B, <- app_assoc. split; [reflexivity|]. split.
      { cbn [makers filter]. constructor.
        - eapply own_mono; [exact H6| |exact O]. lia.
        - eapply Forall2_own_mono; [| |exact W]; [auto|]. rewrite K, app_length. lia. }
      split; [exact H1|]. split; [rewrite H2, P1; reflexivity|]. split; [rewrite H3, Se1; reflexivity|]. split; [rewrite H4; exact R1|].
      split; [rewrite H5, Sc; cbn; rewrite orb_true_r; reflexivity|]. split; [intros j x N; apply H6, Kp, N|].
      rewrite H7, Lv. unfold made. cbn [filter]. destruct (given (Data xs)); cbn [length]; lia.
    + cbn [body arrays alloc].
      set (s1 := mkS (heap s ++ [mkA true (length xs) xs]) (scope s) (local s) (pend s) (seen s) (ran s)).
      assert (Kp : forall j x, nth_error (heap s) j = Some x -> nth_error (heap s1) j = Some x) by (intros j x N; apply nth_keep, N).
      destruct (IH (env ++ [Arr (length (heap s))]) s1 zs L F2) as (ws & s' & B & W & H1 & H2 & H3 & H4 & H5 & H6 & H7).
      { exact D. }
      { destruct w as [|a]; [exact A|]. destruct A as (n & A). exists n. apply Kp, A. }
      { exact R. }
      exists (Arr (length (heap s)) :: ws), s'. rewrite B, <- app_assoc. split; [reflexivity|]. split.
      { cbn [makers filter]. constructor.
        - unfold own. cbn [given]. exists (length (heap s)). split; [reflexivity|]. split; [lia|]. apply H6. apply nth_last.
        - eapply Forall2_own_mono; [| |exact W]; [auto|]. unfold s1. cbn [heap]. rewrite app_length. lia. }
      split; [exact H1|]. split; [exact H2|]. split; [exact H3|]. split; [exact H4|].
      split; [rewrite H5; reflexivity|]. split; [intros j x N; apply H6, Kp, N|].
      rewrite H7. unfold s1. cbn [heap]. rewrite live_app. unfold made. cbn. lia.
    + cbn [reads] in R. destruct (nth_error c i) as [z|] eqn:N; [|discriminate]. destruct (reads c l) as [zt|] eqn:Rt; [|discriminate].
      injection R as <-. cbn [body]. unfold read at 1. destruct w as [|a]; [cbn in A; subst c; destruct i; discriminate|].
      destruct A as (n & A). rewrite (rd_ok _ _ _ A). cbn [bind alive cells]. rewrite (rd_ok _ _ _ N). cbn [bind].
      set (s1 := mkS (heap s) (scope s) (local s) (pend s) (seen s ++ [z]) (ran s)).
      destruct (IH env s1 zt L F2 D) as (ws & s' & B & W & H1 & H2 & H3 & H4 & H5 & H6 & H7); [exists n; exact A|reflexivity|].
      exists ws, s'. split; [exact B|]. split; [exact W|]. split; [exact H1|]. split; [exact H2|].
      split; [rewrite H3; unfold s1; cbn [seen]; rewrite <- app_assoc; reflexivity|]. split; [exact H4|]. split; [exact H5|]. split; [exact H6|]. exact H7.
    + cbn [body defers length] in *. unfold defer at 1. rewrite stale_no by lia. cbn [bind].
      set (s1 := mkS (heap s) true (local s) (f :: pend s) (seen s) (ran s)).
      destruct (IH env s1 zs L F2) as (ws & s' & B & W & H1 & H2 & H3 & H4 & H5 & H6 & H7); [unfold s1; cbn [pend length]; lia|exact A|exact R|].
      exists ws, s'. split; [exact B|]. split; [exact W|]. split; [exact H1|].
      split; [rewrite H2; unfold s1; cbn [pend rev]; rewrite <- app_assoc; reflexivity|].
      split; [exact H3|]. split; [exact H4|]. split; [rewrite H5; cbn; rewrite orb_true_r; reflexivity|]. split; [exact H6|]. exact H7.
Qed.

Lemma own_value h lo w l ws r : r <> RArgs -> Forall2 (own h lo) (makers l) ws ->
  match due l r with
  | Tuple xs => exists i, value w ws r = Arr i /\ lo <= i /\ nth_error h i = Some (mkA true (length xs) xs)
  | g => exists z, value w ws r = Int z /\ g = (if (z =? 0)%Z then Kept else Word z)
  end.
Proof.
  intros N F. destruct r as [z|v|]; [| |congruence].
  - cbn [due value]. destruct (z =? 0)%Z eqn:E; exists z; rewrite E; auto.
  - clear N. cbn [due value]. revert v. induction F as [|o u l0 us H _ IH]; intros v.
    + destruct v; cbn; exists 0%Z; auto.
    + destruct v as [|v]; cbn [nth_error nth]; [|apply IH].
      unfold own in H. destruct (given o) as [xs|]; [exact H|]. exists 0%Z. auto.
Qed.

(* ---- one job of the pool ---- *)
Definition settled (s : st) (l : list op) (r : ret) : Prop := r <> RArgs /\
  (scope s || touches l = true \/ is_array (due l r) = 0).

Lemma job_ok s args l r zs : args <> [] -> length args <= cap -> local s = None -> fits l -> length (pend s) + length (defers l) <= S cap ->
  reads args l = Some zs -> settled s l r ->
  exists s', job cap moves s args l r = Ok (Some (due l r), s') /\ local s' = None /\ pend s' = rev (defers l) ++ pend s /\ seen s' = seen s ++ zs /\
    ran s' = ran s /\ scope s' = scope s || touches l /\ live (heap s') + is_array (due l r) = live (heap s) + made l.
Proof.
  intros Na La L F D R (NR & St). unfold job, data_ex. destruct args as [|z args]; [congruence|]. rewrite (fill_ok _ _ _ La). cbn [bind alloc].
  set (A := mkA true (length (z :: args)) (z :: args)).
  set (a := length (heap s)). set (s0 := mkS (heap s ++ [A]) (scope s) (local s) (pend s) (seen s) (ran s)).
  destruct (body_own 0 (Arr a) (z :: args) l [] s0 zs L F D) as (ws & s1 & B & W & H1 & H2 & H3 & H4 & H5 & H6 & H7).
  { exists (length (z :: args)). apply nth_last. }
  { exact R. }
  rewrite B. cbn [bind app].
  assert (Ha : nth_error (heap s1) a = Some A) by (apply H6; apply nth_last).
  assert (Lv : live (heap s1) = S (live (heap s)) + made l) by (rewrite H7; unfold s0; cbn [heap]; rewrite live_app; cbn; lia).
  pose proof (own_value (heap s1) (length (heap s0)) (Arr a) l ws r NR W) as V.
  pose proof (live_kill (heap s1) a A (mkA false (size A) (cells A)) Ha eq_refl eq_refl) as K1.
  destruct (due l r) as [|y|xs] eqn:Du.
  - destruct V as (y & -> & E). unfold promise_set. rewrite <- E. cbn [bind]. rewrite (delete_ok _ _ _ Ha eq_refl). cbn [bind].
    eexists. split; [reflexivity|]. cbn [heap scope local pend seen ran is_array]. do 4 (split; [assumption|]). split; [assumption|]. lia.
  - destruct V as (y' & -> & E). unfold promise_set. rewrite <- E. cbn [bind]. rewrite (delete_ok _ _ _ Ha eq_refl). cbn [bind].
    eexists. split; [reflexivity|]. cbn [heap scope local pend seen ran is_array]. do 4 (split; [assumption|]). split; [assumption|]. lia.
  - destruct V as (i & -> & Li & Ni). rewrite (set_ok _ _ _ Ni eq_refl). cbn [bind size cells]. rewrite firstn_all.
    rewrite (delete_ok _ _ _ Ha eq_refl). cbn [bind heap scope local].
    assert (Ne : a <> i) by (unfold s0 in Li; cbn [heap] in Li; rewrite app_length in Li; cbn in Li; fold a in Li; lia).
    assert (Ni2 : nth_error (set_nth a (mkA false (size A) (cells A)) (heap s1)) i = Some (mkA true (length xs) xs)) by (rewrite set_nth_other; assumption).
    rewrite (rd_ok _ _ _ Ni2). cbn [bind alive].
    destruct St as [St|St]; [|discriminate]. rewrite H5. unfold s0 at 1. cbn [scope]. rewrite St, H1.
    erewrite delete_ok; [|exact Ni2|reflexivity]. cbn [bind].
    eexists. split; [reflexivity|]. cbn [heap scope local pend seen ran size cells is_array]. do 4 (split; [first [assumption|reflexivity]|]). split; [exact St|].
    pose proof (live_kill _ i _ (mkA false (length xs) xs) Ni2 eq_refl eq_refl) as K2. lia.
Qed.

(* its arguments given back *)
Lemma job_args s args l zs : args <> [] -> length args <= cap -> local s = None -> fits l -> length (pend s) + length (defers l) <= S cap ->
  reads args l = Some zs -> job cap moves s args l RArgs = UB.
Proof.
  intros Na La L F D R. unfold job, data_ex. destruct args as [|z args]; [congruence|]. rewrite (fill_ok _ _ _ La). cbn [bind alloc].
  set (A := mkA true (length (z :: args)) (z :: args)).
  set (a := length (heap s)). set (s0 := mkS (heap s ++ [A]) (scope s) (local s) (pend s) (seen s) (ran s)).
  destruct (body_own 0 (Arr a) (z :: args) l [] s0 zs L F D) as (ws & s1 & B & W & H1 & H2 & H3 & H4 & H5 & H6 & H7).
  { exists (length (z :: args)). apply nth_last. }
  { exact R. }
  rewrite B. cbn [bind app value].
  assert (Ha : nth_error (heap s1) a = Some A) by (apply H6; apply nth_last).
  rewrite (set_ok _ _ _ Ha eq_refl). cbn [bind]. rewrite (delete_ok _ _ _ Ha eq_refl). cbn [bind heap].
  erewrite rd_ok by (apply set_nth_same; apply (nth_lt _ _ _ Ha)). reflexivity.
Qed.

(* an array made without $ in a thread that has no scope yet *)
Lemma job_noscope s args l r zs : args <> [] -> length args <= cap -> local s = None -> fits l -> length (pend s) + length (defers l) <= S cap ->
  reads args l = Some zs -> r <> RArgs -> scope s = false -> touches l = false -> is_array (due l r) = 1 -> job cap moves s args l r = UB.
Proof.
  intros Na La L F D R NR Sc Tl IA. unfold job, data_ex. destruct args as [|z args]; [congruence|]. rewrite (fill_ok _ _ _ La). cbn [bind alloc].
  set (A := mkA true (length (z :: args)) (z :: args)).
  set (a := length (heap s)). set (s0 := mkS (heap s ++ [A]) (scope s) (local s) (pend s) (seen s) (ran s)).
  destruct (body_own 0 (Arr a) (z :: args) l [] s0 zs L F D) as (ws & s1 & B & W & H1 & H2 & H3 & H4 & H5 & H6 & H7).
  { exists (length (z :: args)). apply nth_last. }
  { exact R. }
  rewrite B. cbn [bind app].
  assert (Ha : nth_error (heap s1) a = Some A) by (apply H6; apply nth_last).
  pose proof (own_value (heap s1) (length (heap s0)) (Arr a) l ws r NR W) as V.
  destruct (due l r) as [|y|xs] eqn:Du; try discriminate.
  destruct V as (i & -> & Li & Ni). rewrite (set_ok _ _ _ Ni eq_refl). cbn [bind].
  rewrite (delete_ok _ _ _ Ha eq_refl). cbn [bind heap scope].
  assert (Ne : a <> i) by (unfold s0 in Li; cbn [heap] in Li; rewrite app_length in Li; cbn in Li; fold a in Li; lia).
  rewrite (rd_ok _ _ _ (eq_trans (set_nth_other a i _ (heap s1) Ne) Ni)). cbn [bind alive].
  rewrite H5. unfold s0. cbn [scope]. rewrite Sc, Tl. reflexivity.
Qed.

(* ---- a worker ---- *)
Definition alldefers (l : list (list Z * list op * ret)) : list nat := concat (map (fun j => defers (snd (fst j))) l).
Fixpoint leaks (l : list (list Z * list op * ret)) : nat :=
  match l with [] => 0 | (_, b, r) :: t => (made b - is_array (due b r)) + leaks t end.
Definition proper (j : list Z * list op * ret) : Prop :=
  let '(args, b, r) := j in args <> [] /\ length args <= cap /\ fits b /\ reads args b <> None /\ r <> RArgs /\ (touches b = true \/ is_array (due b r) = 0).

Lemma due_made b r : is_array (due b r) <= made b.
Proof.
  destruct r as [z|v|]; cbn [due]; try (destruct (z =? 0)%Z; cbn; lia); [|cbn; lia].
  destruct (nth_error (makers b) v) as [o|] eqn:N; [|cbn; lia]. destruct (given o) as [xs|] eqn:G; [|cbn; lia]. cbn [is_array].
  apply nth_error_In in N. unfold makers in N. apply filter_In in N. destruct N as [N _].
  unfold made. induction b as [|q b IH]; [contradiction|]. cbn [filter]. destruct N as [->|N].
  - rewrite G. cbn. lia.
  - destruct (given q); cbn [length]; [lia|auto].
Qed.

Lemma jobs_ok : forall l s, local s = None -> Forall proper l -> length (pend s) + length (alldefers l) <= S cap ->
  exists s', jobs cap moves s l = Ok (map (fun j => Some (due (snd (fst j)) (snd j))) l, s') /\ local s' = None /\
    ran s' = ran s /\ pend s' = rev (alldefers l) ++ pend s /\ live (heap s') = live (heap s) + leaks l.
Proof.
  induction l as [|[[args b] r] l IH]; intros s L P D.
  - exists s. cbn. split; [reflexivity|]. do 3 (split; [auto|]). lia.
  - inversion P as [|? ? P0 P']; subst. destruct P0 as (P1 & P2 & P3 & P4 & P5 & P6). destruct (reads args b) as [zs|] eqn:R; [|congruence].
    unfold alldefers in D. cbn [map concat fst snd] in D. rewrite app_length in D.
    destruct (job_ok s args b r zs P1 P2 L P3) as (s1 & E & L1 & Pe & Se & Ra & Sc & Lv); [lia|exact R|split; [exact P5|]; destruct P6 as [->|P6]; [left; apply orb_true_r|auto]|].
    destruct (IH s1 L1 P') as (s' & E' & L' & Ra' & Pe' & Lv').
    { rewrite Pe, app_length, rev_length. unfold alldefers. lia. }
    exists s'. cbn [jobs map fst snd]. rewrite E. cbn [bind fst snd]. rewrite E'. cbn [bind fst snd]. split; [reflexivity|]. split; [exact L'|].
    split; [congruence|]. split.
    + rewrite Pe', Pe. unfold alldefers. cbn [map concat fst snd]. rewrite rev_app_distr, app_assoc. reflexivity.
    + cbn [leaks]. rewrite Lv'. pose proof (due_made b r). lia.
Qed.

(* whatever the jobs do, no deferred function of theirs ever runs *)
Lemma data_ran s xs s' w : thrd_data cap moves s xs = Ok (s', w) -> ran s' = ran s.
Proof.
  unfold thrd_data. destruct (local s) as [a|].
  - destruct (rd (heap s) a) as [x| | |]; try discriminate. cbn [bind]. destruct (alive x); [|discriminate].
    destruct (fill cap moves (length xs)); try discriminate. cbn [bind]. destruct (wr _ a _); try discriminate. cbn [bind].
    intros E. injection E as <- _. reflexivity.
  - destruct (data_ex cap moves (heap s) xs) as [[h v]| | |]; try discriminate. cbn [bind]. intros E. injection E as <- _. reflexivity.
Qed.
Lemma body_ran base w : forall l env s env' s', body cap moves base w l env s = Ok (env', s') -> ran s' = ran s.
Proof.
  induction l as [|o l IH]; intros env s env' s' E; [injection E as _ <-; reflexivity|]. destruct o as [xs|xs|i|f]; cbn [body] in E.
  - destruct (thrd_data cap moves s xs) as [[s1 v]| | |] eqn:T; try discriminate. cbn [bind fst snd] in E.
    rewrite (IH _ _ _ _ E). apply (data_ran _ _ _ _ T).
  - cbn [arrays alloc] in E. rewrite (IH _ _ _ _ E). reflexivity.
  - destruct (read s w i) as [s1| | |] eqn:T; try discriminate. cbn [bind] in E. rewrite (IH _ _ _ _ E).
    unfold read in T. destruct w as [|a]; [discriminate|]. destruct (rd (heap s) a) as [x| | |]; try discriminate. cbn [bind] in T.
    destruct (alive x); [|discriminate]. destruct (rd (cells x) i); try discriminate. injection T as <-. reflexivity.
  - destruct (defer cap moves base s f) as [s1| | |] eqn:T; try discriminate. cbn [bind] in E. rewrite (IH _ _ _ _ E).
    unfold defer in T. destruct (stale _ _ _); [discriminate|]. injection T as <-. reflexivity.
Qed.
Lemma delete_ran s w s' : delete s w = Ok s' -> ran s' = ran s.
Proof.
  unfold delete. destruct w as [z|i]; [intros E; injection E as <-; reflexivity|]. destruct (rd (heap s) i) as [x| | |]; try discriminate. cbn [bind].
  destruct (alive x); [|discriminate]. destruct (wr _ i _); try discriminate. intros E. injection E as <-. reflexivity.
Qed.
Lemma job_ran s args l r g s' : job cap moves s args l r = Ok (g, s') -> ran s' = ran s.
Proof.
  unfold job. destruct (data_ex cap moves (heap s) args) as [[h w]| | |]; try discriminate. cbn [bind].
  destruct w as [z|a]; [intros E; injection E as _ <-; reflexivity|].
  destruct (body cap moves 0 (Arr a) l [] _) as [[env s1]| | |] eqn:B; try discriminate. cbn [bind].
  destruct (promise_set s1 (value (Arr a) env r)) as [g0| | |]; try discriminate. cbn [bind].
  destruct (delete s1 (Arr a)) as [s2| | |] eqn:D; try discriminate. cbn [bind].
  apply body_ran in B. apply delete_ran in D. cbn [ran] in B.
  destruct (value (Arr a) env r) as [z|i]; [intros E; injection E as _ <-; congruence|].
  destruct (rd (heap s2) i) as [x| | |]; try discriminate. cbn [bind]. destruct (alive x); [|discriminate]. destruct (scope s2); [|discriminate].
  destruct (local s2) as [q|]; [intros E; injection E as _ <-; congruence|].
  destruct (delete s2 (Arr i)) as [s3| | |] eqn:D3; try discriminate. cbn [bind]. apply delete_ran in D3. intros E. injection E as _ <-. congruence.
Qed.
Lemma jobs_ran : forall l s gs s', jobs cap moves s l = Ok (gs, s') -> ran s' = ran s.
Proof.
  induction l as [|[[args b] r] l IH]; intros s gs s' E; [injection E as _ <-; reflexivity|]. cbn [jobs] in E.
  destruct (job cap moves s args b r) as [[g s1]| | |] eqn:J; try discriminate. cbn [bind fst snd] in E.
  destruct (jobs cap moves s1 l) as [[gs1 s2]| | |] eqn:Js; try discriminate. cbn [bind fst snd] in E. injection E as _ <-.
  rewrite (IH _ _ _ Js). apply (job_ran _ _ _ _ _ _ J).
Qed.

(* ---- a thread without arguments ---- *)
Lemma thread_noargs h l r : fits l -> length (defers l) <= cap -> reads [] l <> None -> r <> RArgs ->
  exists s', thread cap moves h [] l r = Ok (due l r, s') /\ ran s' = rev (defers l) /\ live (heap s') = live h + made l.
Proof.
  intros F D R NR. destruct (reads [] l) as [zs|] eqn:Rz; [|congruence]. unfold thread. cbn [data_ex bind].
  set (s0 := mkS h true None [] [] []).
  destruct (body_own 0 (Int 0) [] l [] s0 zs eq_refl F) as (ws & s1 & B & W & H1 & H2 & H3 & H4 & H5 & H6 & H7).
  { unfold s0; cbn [pend length]; lia. } { reflexivity. } { exact Rz. }
  rewrite B. cbn [bind app].
  pose proof (own_value (heap s1) (length (heap s0)) (Int 0) l ws r NR W) as V.
  assert (E : promise_set s1 (value (Int 0) ws r) = Ok (due l r)).
  { destruct (due l r) as [|y|xs].
    - destruct V as (z & -> & E). unfold promise_set. rewrite <- E. reflexivity.
    - destruct V as (z & -> & E). unfold promise_set. rewrite <- E. reflexivity.
    - destruct V as (i & -> & _ & Ni). rewrite (set_ok _ _ _ Ni eq_refl). cbn [size cells]. rewrite firstn_all. reflexivity. }
  rewrite E. cbn [bind]. rewrite stale_no by (rewrite H2; unfold s0; cbn [pend]; rewrite app_nil_r, rev_length; lia). cbn [delete bind].
  eexists. split; [reflexivity|]. cbn [ran heap]. rewrite H4, H2. unfold s0. cbn [ran pend app]. rewrite app_nil_r. split; [reflexivity|exact H7].
Qed.
End Arrays.
