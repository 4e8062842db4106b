(* Joins. *)
From Coq Require Import ZArith List Bool Lia.
From Verif Require Import Base JnModel.
Import ListNotations.
Local Open Scope Z_scope.

(* the exit code as the int that was meant *)
Definition meant (l : last) (c : Z) : Prop :=
  match l with
  | Exits u => 0 <= u < 2 ^ 32 -> c mod 2 ^ 32 = u /\ - 2 ^ 31 <= c < 2 ^ 31
  | Returns x _ => - 2 ^ 31 <= x < 2 ^ 31 -> c = x
  end.

Lemma to_int_spec z : (to_int z) mod 2 ^ 32 = z mod 2 ^ 32 /\ - 2 ^ 31 <= to_int z < 2 ^ 31.
Proof.
  unfold to_int. cbv zeta. change (2 ^ 31) with 2147483648. change (2 ^ 32) with 4294967296.
  destruct (z mod 4294967296 <? 2147483648) eqn:E; split; lia.
Qed.
Lemma code_meant l : meant l (to_int (word l)).
Proof.
  destruct (to_int_spec (word l)) as (A & B). destruct l as [u|x junk]; unfold meant; intros R.
  - split; auto. rewrite A. unfold word. rewrite Z.mod_mod by (change (2 ^ 32) with 4294967296; lia). apply Z.mod_small. exact R.
  - revert A B. unfold word. generalize (to_int (x mod 2 ^ 32 + 2 ^ 32 * (junk mod 2 ^ 32))). intros c. generalize (junk mod 2 ^ 32). intros k.
    change (2 ^ 31) with 2147483648 in *. change (2 ^ 32) with 4294967296. intros. lia.
Qed.

Lemma addms_ok n ms : 0 <= ms ->
  let ts := addms (n / giga, n mod giga) ms in
  fst ts * giga + snd ts = n + ms * 1000000 /\ 0 <= snd ts < giga.
Proof.
  intros M. unfold addms, giga. change (1000 * 1000 * 1000) with 1000000000. cbn [fst snd].
  destruct (1000000000 <=? _) eqn:E; cbn [fst snd]; lia.
Qed.

(* ended within the time given: (ms = 2^32 - 1: no limit) *)
Definition within (t : thread) (n ms : Z) : Prop :=
  match ends t with Some e => ms = 2 ^ 32 - 1 \/ e <= n + ms * 1000000 | None => False end.

Lemma timed_spec t n ms : 0 <= ms ->
  timed t n (n + ms * 1000000) = match ends t with
    | Some e => if e <=? n + ms * 1000000 then Some (0, Z.max n e) else Some (ETIMEDOUT, n + ms * 1000000)
    | None => Some (ETIMEDOUT, n + ms * 1000000) end.
Proof.
  intros M. unfold timed, ended. rewrite (Z.max_r n (n + ms * 1000000)) by lia. destruct (ends t) as [e|]; auto.
Qed.

Lemma wait_spec o t n ms : o <> Unix -> 0 <= ms < 2 ^ 32 ->
  wait o t n ms =
    if ms =? 2 ^ 32 - 1 then match ends t with Some e => Some (0, Z.max n e) | None => None end
    else match ends t with
    | Some e => if e <=? n + ms * 1000000 then Some (0, Z.max n e) else Some (ETIMEDOUT, n + ms * 1000000)
    | None => Some (ETIMEDOUT, n + ms * 1000000) end.
Proof.
  intros O M. unfold wait. destruct (ms =? 2 ^ 32 - 1) eqn:E; [reflexivity|]. destruct o; [|congruence|].
  - destruct (ms =? 0) eqn:E0.
    + apply Z.eqb_eq in E0. subst ms. unfold ended. replace (n + 0 * 1000000) with n by lia. destruct (ends t) as [e|]; auto.
      destruct (e <=? n) eqn:L; auto. rewrite Z.max_l by lia. reflexivity.
    + destruct (addms_ok n ms) as (A & B); [lia|]. destruct (addms _ ms) as [a b]. cbn [fst snd] in *.
      replace (b <? 0) with false by lia. replace (giga <=? b) with false by lia. cbn [orb]. rewrite A. apply timed_spec. lia.
  - replace (n + ms * 1000 * 1000) with (n + ms * 1000000) by lia. apply timed_spec. lia.
Qed.

Definition set_gone (l : list thread) (i : nat) (t : thread) : list thread := set_nth i (mkT (ends t) (how t) true) l.

Lemma join_in_time o s i t ms : o <> Unix -> 0 <= ms < 2 ^ 32 -> nth_error (ths s) i = Some t -> gone t = false ->
  within t (now s) ms ->
  exists c s', os_join o s i ms = Ok (Zero c, s') /\ meant (how t) c /\ ths s' = set_gone (ths s) i t /\ errno s' = errno s /\
    now s <= now s' /\ (ms <> 2 ^ 32 - 1 -> now s' <= now s + ms * 1000000) /\ (forall e, ends t = Some e -> now s' = Z.max (now s) e).
Proof.
  intros O M E G W. unfold os_join, rd. rewrite E. cbn [bind]. rewrite G, (wait_spec o t (now s) ms O M). unfold within in W.
  destruct (ends t) as [e|] eqn:Et; [|tauto].
  assert (X : (if ms =? 2 ^ 32 - 1 then Some (0, Z.max (now s) e)
    else if e <=? now s + ms * 1000000 then Some (0, Z.max (now s) e) else Some (ETIMEDOUT, now s + ms * 1000000)) = Some (0, Z.max (now s) e)).
  { destruct (ms =? 2 ^ 32 - 1) eqn:Q; auto. apply Z.eqb_neq in Q. replace (e <=? _) with true by lia. reflexivity. }
  rewrite X. unfold wr. replace (Nat.ltb i (length (ths s))) with true.
  2:{ symmetry. apply Nat.ltb_lt. apply nth_error_Some. congruence. }
  cbn [bind]. eexists _, _. split; [reflexivity|]. cbn [ths now errno]. split; [apply code_meant|]. unfold set_gone. rewrite Et.
  split; auto. split; auto. split; [lia|]. split; [|intros ? Y; injection Y as <-; auto]. intros Q. destruct W as [W|W]; [tauto|]. lia.
Qed.

Lemma join_late o s i t ms : o <> Unix -> 0 <= ms < 2 ^ 32 - 1 -> nth_error (ths s) i = Some t -> gone t = false ->
  ~ within t (now s) ms ->
  os_join o s i ms = Ok (Minus, mkS (ths s) (now s + ms * 1000000) ETIMEDOUT).
Proof.
  intros O M E G W. unfold os_join, rd. rewrite E. cbn [bind]. rewrite G, (wait_spec o t (now s) ms O) by lia. unfold within in W.
  replace (ms =? 2 ^ 32 - 1) with false by lia.
  destruct (ends t) as [e|] eqn:Et; [|reflexivity]. replace (e <=? _) with false by lia. reflexivity.
Qed.

Lemma join_never o s i t : nth_error (ths s) i = Some t -> gone t = false -> ends t = None ->
  os_join o s i (2 ^ 32 - 1) = Ok (Never, s).
Proof.
  intros E G N. unfold os_join, rd. rewrite E. cbn [bind]. rewrite G. unfold wait. rewrite Z.eqb_refl. unfold forever. rewrite N. reflexivity.
Qed.

(* asking again and again *)
Definition total (l : list Z) : Z := fold_right Z.add 0 l.
Definition tries (i : nat) (l : list Z) : list op := map (Join i) l.

Lemma tries_late o i l : forall s t, o <> Unix -> (forall ms, In ms l -> 0 <= ms < 2 ^ 32 - 1) -> nth_error (ths s) i = Some t -> gone t = false ->
  match ends t with Some e => now s + total l * 1000000 < e | None => True end ->
  exists er, run o s (tries i l) = Ok (map (fun _ => Minus) l, mkS (ths s) (now s + total l * 1000000) er).
Proof.
  induction l as [|ms l IH]; intros s t O M E G W; simpl.
  - exists (errno s). rewrite Z.add_0_r. destruct s; reflexivity.
  - assert (P : 0 <= total l).
    { clear - M. induction l as [|a l IH]; simpl; [lia|]. pose proof (M a (or_intror (or_introl eq_refl))).
      assert (0 <= total l) by (apply IH; intros x [<-|X]; apply M; simpl; auto). lia. }
    pose proof (M ms (or_introl eq_refl)) as Mm. rewrite (join_late o s i t ms); auto.
    2:{ unfold within. destruct (ends t) as [e|]; [|auto]. simpl in W. lia. }
    cbn [bind fst snd]. destruct (IH (mkS (ths s) (now s + ms * 1000000) ETIMEDOUT) t) as (er & R); auto.
    { intros x X. apply M. simpl; auto. }
    { cbn [now]. destruct (ends t) as [e|]; auto. simpl in W. lia. }
    unfold tries in *. rewrite R. cbn [bind fst snd now ths]. exists er. do 3 f_equal. lia.
Qed.

Lemma tries_hit o i p ms q s t e : o <> Unix -> (forall x, In x (p ++ [ms]) -> 0 <= x < 2 ^ 32 - 1) -> nth_error (ths s) i = Some t -> gone t = false ->
  ends t = Some e -> now s + total p * 1000000 < e <= now s + (total p + ms) * 1000000 -> q <> [] ->
  exists c s1, run o s (tries i (p ++ [ms])) = Ok (map (fun _ => Minus) p ++ [Zero c], s1) /\ meant (how t) c /\ now s1 = e /\
    match o with
    | Windows => exists s2, run o s (tries i (p ++ ms :: q)) = Ok (map (fun _ => Minus) p ++ Zero c :: map (fun _ => Minus) q, s2) /\ now s2 = e
    | _ => run o s (tries i (p ++ ms :: q)) = UB
    end.
Proof.
  intros O M E G Et W Q. assert (App : forall a b s, run o s (tries i (a ++ b)) =
    match run o s (tries i a) with
    | Ok (r, s1) => if existsb (fun v => match v with Never => true | _ => false end) r then Ok (r, s1)
                    else do y <- run o s1 (tries i b); Ok (r ++ fst y, snd y)
    | UB => UB | Exn => Exn | Fuel => Fuel end).
  { clear. induction a as [|x a IH]; intros b s; cbn.
    - unfold tries. destruct (run o s (map (Join i) b)) as [[r s1]| | |]; reflexivity.
    - destruct (os_join o s i x) as [[v s1]| | |]; cbn [bind fst snd]; try reflexivity. destruct v; [| |reflexivity]; unfold tries in *; rewrite IH;
        destruct (run o s1 (map (Join i) a)) as [[r s2]| | |]; cbn [bind fst snd existsb orb]; try reflexivity; destruct (existsb _ r); try reflexivity;
        destruct (run o s2 (map (Join i) b)) as [[r2 s3]| | |]; reflexivity. }
  destruct (tries_late o i p s t O) as (er & R); auto.
  { intros x X. apply M. apply in_or_app; auto. }
  { rewrite Et. lia. }
  assert (NN : existsb (fun v => match v with Never => true | _ => false end) (map (fun _ : Z => Minus) p) = false)
    by (clear; induction p; auto).
  set (s1 := mkS (ths s) (now s + total p * 1000000) er).
  pose proof (M ms ltac:(apply in_or_app; simpl; auto)) as Mm.
  destruct (join_in_time o s1 i t ms O ltac:(lia) E G) as (c & s2 & J & C & T2 & _ & _ & _ & N2).
  { unfold within. rewrite Et. right. cbn [now s1]. lia. }
  specialize (N2 e Et). cbn [now s1] in N2. rewrite Z.max_r in N2 by lia.
  exists c, s2. rewrite (App p [ms]), R, NN. fold s1. unfold tries at 1. cbn [map run]. rewrite J. cbn [bind fst snd]. split; auto. split; auto. split; auto.
  rewrite (App p (ms :: q)), R, NN. fold s1. unfold tries. cbn [map run]. rewrite J. cbn [bind fst snd].
  assert (G2 : nth_error (ths s2) i = Some (mkT (ends t) (how t) true)).
  { rewrite T2. unfold set_gone. apply set_nth_same. apply nth_error_Some. cbn [ths s1]. congruence. }
  destruct q as [|x q]; [congruence|].
  assert (Jw : forall o x, os_join o s2 i x = match o with Windows => Ok (Minus, s2) | _ => UB end).
  { intros o' y. unfold os_join, rd. rewrite G2. cbn [bind gone]. destruct o'; reflexivity. }
  destruct o; [|congruence|].
  - cbn [map run]. rewrite Jw. reflexivity.
  - assert (K : forall q, run Windows s2 (map (Join i) q) = Ok (map (fun _ => Minus) q, s2)).
    { induction q0 as [|y q0 IH]; auto. cbn [map run]. rewrite Jw. cbn [bind fst snd]. rewrite IH. reflexivity. }
    exists s2. rewrite K. cbn [bind fst snd]. auto.
Qed.

(* without timed joins *)
Lemma unix_blocks s i t ms : nth_error (ths s) i = Some t -> gone t = false ->
  match ends t with
  | None => os_join Unix s i ms = Ok (Never, s)
  | Some e => exists c s', os_join Unix s i ms = Ok (Zero c, s') /\ meant (how t) c /\ now s' = Z.max (now s) e /\ ths s' = set_gone (ths s) i t
  end.
Proof.
  intros E G. unfold os_join, rd. rewrite E. cbn [bind]. rewrite G. unfold wait, forever. destruct (ms =? 2 ^ 32 - 1); destruct (ends t) as [e|] eqn:Et; auto;
    (unfold wr; replace (Nat.ltb i (length (ths s))) with true by (symmetry; apply Nat.ltb_lt, nth_error_Some; congruence);
     cbn [bind]; eexists _, _; split; [reflexivity|]; cbn [now ths]; split; [apply code_meant|]; split; auto; unfold set_gone; rewrite Et; auto).
Qed.

Lemma detach_then o s i t ms : nth_error (ths s) i = Some t -> gone t = false ->
  exists s', os_detach o s i = Ok (0, s') /\ now s' = now s /\
    match o with Windows => os_join o s' i ms = Ok (Minus, s') | _ => os_join o s' i ms = UB /\ os_detach o s' i = UB end.
Proof.
  intros E G. unfold os_detach, rd. rewrite E. cbn [bind]. rewrite G. unfold wr.
  replace (Nat.ltb i (length (ths s))) with true by (symmetry; apply Nat.ltb_lt, nth_error_Some; congruence).
  cbn [bind]. eexists. split; [reflexivity|]. split; auto.
  assert (G2 : nth_error (set_nth i (mkT (ends t) (how t) true) (ths s)) i = Some (mkT (ends t) (how t) true)).
  { apply set_nth_same. apply nth_error_Some. congruence. }
  unfold os_join, os_detach, rd. cbn [ths]. rewrite G2. cbn [bind gone]. destruct o; auto.
Qed.

Lemma wait_later o t n ms v n' : wait o t n ms = Some (v, n') -> n <= n'.
Proof.
  assert (F : forever t n = Some (v, n') -> n <= n').
  { unfold forever. destruct (ends t); [|discriminate]. intros H. injection H as _ <-. apply Z.le_max_l. }
  assert (D : forall d, timed t n d = Some (v, n') -> n <= n').
  { intros d. unfold timed. destruct (ended t (Z.max n d)); intros H; injection H as _ <-.
    - destruct (ends t); [apply Z.le_max_l|apply Z.le_refl].
    - apply Z.le_max_l. }
  unfold wait. destruct (ms =? 2 ^ 32 - 1); [exact F|]. destruct o; [|exact F|apply D].
  destruct (ms =? 0); [intros H; injection H as _ <-; apply Z.le_refl|]. cbv zeta.
  destruct ((snd _ <? 0) || _); [intros H; injection H as _ <-; apply Z.le_refl|apply D].
Qed.

Lemma join_later o s i ms v s' : os_join o s i ms = Ok (v, s') -> now s <= now s'.
Proof.
  unfold os_join. destruct (rd (ths s) i) as [t| | |]; cbn [bind]; try discriminate.
  destruct (gone t); [destruct o; intros H; try discriminate; injection H as _ <-; apply Z.le_refl|].
  destruct (wait o t (now s) ms) as [[e n]|] eqn:W; [|intros H; injection H as _ <-; apply Z.le_refl].
  apply wait_later in W. destruct e.
  - destruct (wr _ _ _); cbn [bind]; try discriminate. intros H. injection H as _ <-. exact W.
  - intros H. injection H as _ <-. exact W.
  - intros H. injection H as _ <-. exact W.
Qed.

Lemma detach_now o s i v s' : os_detach o s i = Ok (v, s') -> now s' = now s.
Proof.
  unfold os_detach. destruct (rd (ths s) i) as [t| | |]; cbn [bind]; try discriminate.
  destruct (gone t); [destruct o; intros H; try discriminate; injection H as _ <-; reflexivity|].
  destruct (wr _ _ _); cbn [bind]; try discriminate. intros H. injection H as _ <-. reflexivity.
Qed.

Lemma run_later o l : forall s rs s', run o s l = Ok (rs, s') -> now s <= now s'.
Proof.
  induction l as [|[i ms|i|ns] l IH]; intros s rs s'; cbn [run].
  - intros H. injection H as _ <-. apply Z.le_refl.
  - destruct (os_join o s i ms) as [[v s1]| | |] eqn:J; cbn [bind fst snd]; try discriminate. apply join_later in J.
    destruct v; [| |intros H; injection H as _ <-; exact J];
      (destruct (run o s1 l) as [[r2 s2]| | |] eqn:R; cbn [bind fst snd]; try discriminate;
       intros H; injection H as _ <-; apply IH in R; eapply Z.le_trans; eassumption).
  - destruct (os_detach o s i) as [[v s1]| | |] eqn:J; cbn [bind fst snd]; try discriminate. apply detach_now in J.
    destruct (run o s1 l) as [[r2 s2]| | |] eqn:R; cbn [bind fst snd]; try discriminate.
    intros H. injection H as _ <-. apply IH in R. rewrite <- J. exact R.
  - intros H. apply IH in H. cbn [now] in H. pose proof (Z.le_max_l 0 ns). lia.
Qed.
