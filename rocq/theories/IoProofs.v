(* Specifications and proofs for IoModel. *)
From Verif Require Import Base IoModel.

(* ---- async_write ---- *)
Lemma skipn_skipn {A} (a b : nat) (l : list A) : skipn a (skipn b l) = skipn (b + a) l.
Proof. revert l; induction b; intros l; cbn; [reflexivity|]. destruct l; [now rewrite skipn_nil|]. apply IHb. Qed.

Lemma firstn_step {A} (l : list A) a b : firstn a l ++ firstn b (skipn a l) = firstn (a + b) l.
Proof. revert l; induction a; intros l; cbn; [reflexivity|]. destruct l; cbn; [now rewrite firstn_nil|]. now rewrite IHa. Qed.

(* what is handed over is the caller's bytes from [tot] on, in order; on success the value returned is
   the number of bytes accepted altogether *)
Lemma awrite_sound buf n os : forall tot, tot <= n -> n <= length buf -> forall sent ret, awrite buf n tot os = Ok (sent, ret) ->
  tot + length sent <= n /\ sent = firstn (length sent) (skipn tot buf) /\
  (ret = (-1)%Z \/ ret = Z.of_nat (tot + length sent)).
Proof.
  induction os as [|o os IH]; intros tot Ht Hn sent ret; cbn [awrite];
    (destruct (Nat.ltb_spec tot n); [|intros [= <- <-]; cbn; split; [lia|]; split; [reflexivity|right; f_equal; lia]]);
    (destruct (Nat.ltb_spec (length buf) n); [lia|]); [discriminate|].
  destruct o as [k| | |].
  - destruct (Nat.eqb_spec (Nat.min k (n - tot)) 0) as [Z0|NZ].
    + intros [= <- <-]. cbn. split; [lia|]. split; [reflexivity|right; f_equal; lia].
    + destruct (awrite buf n (tot + Nat.min k (n - tot)) os) as [[s r]| | |] eqn:E; try discriminate. cbn [bind fst snd].
      intros [= <- <-]. apply IH in E; [|lia|lia]. destruct E as (L & S & R).
      assert (LF : length (firstn (Nat.min k (n - tot)) (skipn tot buf)) = Nat.min k (n - tot)).
      { rewrite firstn_length, skipn_length. lia. }
      rewrite app_length, LF. split; [lia|]. split.
      * rewrite <- firstn_step, skipn_skipn. f_equal. exact S.
      * destruct R as [->| ->]; [now left|right; f_equal; lia].
  - apply IH; lia.
  - intros [= <- <-]. cbn. split; [lia|]. auto.
  - intros [= <- <-]. cbn. split; [lia|]. auto.
Qed.

Definition no_fail (o : io) : Prop := match o with Moved k => 0 < k | Again => True | _ => False end.
Definition progress (os : list io) : nat := length (filter (fun o => match o with Moved (S _) => true | _ => false end) os).

(* if the kernel never fails and keeps accepting at least one byte, everything is sent *)
Lemma awrite_complete buf n os : forall tot, tot <= n -> n <= length buf -> Forall no_fail os -> n - tot <= progress os ->
  awrite buf n tot os = Ok (firstn (n - tot) (skipn tot buf), Z.of_nat n).
Proof.
  induction os as [|o os IH]; intros tot Ht Hn F P; cbn [awrite];
    (destruct (Nat.ltb_spec tot n); [|replace (n - tot) with 0 by lia; cbn [firstn]; do 3 f_equal; lia]);
    (destruct (Nat.ltb_spec (length buf) n); [lia|]).
  - cbn in P. lia.
  - inversion F as [|? ? N F']; subst. destruct o as [k| | |]; cbn in N; try contradiction.
    + destruct k as [|k]; [lia|]. cbn in P.
      destruct (Nat.eqb_spec (Nat.min (S k) (n - tot)) 0) as [Z0|NZ]; [lia|].
      rewrite IH; [|lia|lia|assumption|unfold progress; lia]. cbn [bind fst snd].
      rewrite <- skipn_skipn, firstn_step. replace (Nat.min (S k) (n - tot) + (n - (tot + Nat.min (S k) (n - tot)))) with (n - tot) by lia. reflexivity.
    + apply IH; try assumption.
Qed.

Lemma awrite_whole buf n os : n <= length buf -> forall sent ret, async_write buf n os = Ok (sent, ret) ->
  sent = firstn (length sent) (firstn n buf) /\ length sent <= n /\ (ret = (-1)%Z \/ ret = Z.of_nat (length sent)).
Proof.
  intros Hn sent ret E. destruct (awrite_sound buf n os 0 (Nat.le_0_l n) Hn sent ret E) as (L & S & R).
  cbn in *. split; [|auto]. rewrite firstn_firstn. rewrite Nat.min_l by lia. exact S.
Qed.
Lemma awrite_all buf n os : n <= length buf -> Forall no_fail os -> n <= progress os ->
  async_write buf n os = Ok (firstn n buf, Z.of_nat n).
Proof. intros H F P. unfold async_write. rewrite awrite_complete; [|lia|lia|assumption|lia]. now rewrite Nat.sub_0_r. Qed.

(* after a partial transfer an error loses the count: any number of bytes may be out and -1 is returned *)
Lemma awrite_loses_count buf n j : 0 < j < n -> n <= length buf ->
  async_write buf n [Moved j; Bad] = Ok (firstn j buf, (-1)%Z).
Proof.
  intros J H. unfold async_write; cbn [awrite].
  destruct (Nat.ltb_spec 0 n); [|lia]. destruct (Nat.ltb_spec (length buf) n); [lia|].
  rewrite Nat.sub_0_r, Nat.min_l by lia. destruct (Nat.eqb_spec j 0); [lia|]. cbn [Nat.add].
  destruct (Nat.ltb_spec j n); [|lia]. cbn. now rewrite app_nil_r.
Qed.

(* ---- copy ---- *)
Lemma copy_out_sound ws : forall rest w ok ws', copy_out rest ws = Ok (w, ok, ws') ->
  w = firstn (length w) rest /\ (ok = true -> w = rest).
Proof.
  induction ws as [|o ws IH]; intros rest w ok ws'; cbn [copy_out]; [discriminate|].
  destruct o as [k| | |].
  - set (m := Nat.min k (length rest)). destruct (skipn m rest) as [|x t] eqn:E.
    + intros [= <- <- <-]. assert (F : firstn m rest = rest).
      { rewrite <- (firstn_skipn m rest) at 2. now rewrite E, app_nil_r. }
      rewrite F, firstn_all. auto.
    + destruct (copy_out (x :: t) ws) as [[[w1 ok1] ws1]| | |] eqn:C; try discriminate. cbn [bind].
      intros [= <- <- <-]. apply IH in C. destruct C as [P T].
      assert (LF : length (firstn m rest) = m) by (rewrite firstn_length; subst m; lia).
      split.
      * rewrite app_length, LF, <- firstn_step, E. f_equal. exact P.
      * intros K. rewrite (T K), <- E. apply firstn_skipn.
  - intros [= <- <- <-]. split; [reflexivity|discriminate].
  - apply IH.
  - intros [= <- <- <-]. split; [reflexivity|discriminate].
Qed.

Lemma copy_loop_sound rs : forall src ws w ok, copy_loop src rs ws = Ok (w, ok) ->
  w = firstn (length w) src /\ (ok = true -> w = src).
Proof.
  induction rs as [|o rs IH]; intros src ws w ok; cbn [copy_loop]; [discriminate|].
  destruct o as [k| | |]; try (intros [= <- <-]; split; [reflexivity|discriminate]).
  destruct src as [|x t]; [intros [= <- <-]; auto|].
  set (s := x :: t). set (m := Nat.min (Nat.max k 1) (Nat.min CHUNK (length s))).
  assert (ML : m <= length s) by (subst m; lia).
  destruct (copy_out (firstn m s) ws) as [[[w1 ok1] ws1]| | |] eqn:C; try discriminate. cbn [bind].
  apply copy_out_sound in C. destruct C as [P T]. destruct ok1.
  - destruct (copy_loop (skipn m s) rs ws1) as [[w2 ok2]| | |] eqn:D; try discriminate. cbn [bind fst snd].
    intros [= <- <-]. apply IH in D. destruct D as [P2 T2].
    rewrite (T eq_refl). assert (LF : length (firstn m s) = m) by (rewrite firstn_length; lia).
    split.
    + rewrite app_length, LF, <- firstn_step. f_equal. exact P2.
    + intros K. rewrite (T2 K). apply firstn_skipn.
  - intros [= <- <-]. split; [|discriminate]. rewrite P at 1. rewrite firstn_firstn.
    rewrite Nat.min_l; [reflexivity|]. rewrite P. rewrite !firstn_length. lia.
Qed.

Lemma copy_success src dst rs ws c d : copyfile src dst rs ws c = Ok (0%Z, d) -> exists s, src = Some s /\ dst = None /\ d = Some s.
Proof.
  unfold copyfile. destruct src as [s|]; [|discriminate]. destruct dst as [d0|]; [discriminate|].
  destruct (copy_loop s rs ws) as [[w ok]| | |] eqn:E; try discriminate. cbn [bind fst snd].
  destruct ok; cbn; [|discriminate]. destruct c; [|discriminate]. intros [= <-].
  apply copy_loop_sound in E. destruct E as [_ T]. rewrite (T eq_refl). eauto.
Qed.
Lemma copy_failure src dst rs ws c r d : copyfile src dst rs ws c = Ok (r, d) -> r = 0%Z \/
  (r = (-1)%Z /\ (d = dst \/ exists s k, src = Some s /\ dst = None /\ d = Some (firstn k s))).
Proof.
  unfold copyfile. destruct src as [s|]; [|intros [= <- <-]; auto]. destruct dst as [d0|]; [intros [= <- <-]; auto|].
  destruct (copy_loop s rs ws) as [[w ok]| | |] eqn:E; try discriminate. cbn [bind fst snd].
  intros [= <- <-]. destruct (ok && c); [now left|right]. split; [reflexivity|right].
  apply copy_loop_sound in E. destruct E as [P _]. exists s, (length w). rewrite <- P. auto.
Qed.

(* EINTR and short transfers are survived *)
Definition fine_w (o : io) : Prop := match o with Moved _ | Intr => True | _ => False end.
Definition fine_r (o : io) : Prop := match o with Moved _ => True | _ => False end.
Lemma copy_out_complete ws : forall rest, rest <> [] -> Forall fine_w ws -> length rest <= progress ws ->
  exists ws', copy_out rest ws = Ok (rest, true, ws') /\ Forall fine_w ws' /\ progress ws <= length rest + progress ws'.
Proof.
  induction ws as [|o ws IH]; intros rest NE F P; cbn [copy_out].
  - destruct rest; cbn in P; [now destruct NE|lia].
  - inversion F as [|? ? N F']; subst. destruct o as [k| | |]; cbn in N; try contradiction.
    + set (m := Nat.min k (length rest)). destruct (skipn m rest) as [|x t] eqn:E.
      * assert (FR : firstn m rest = rest).
        { rewrite <- (firstn_skipn m rest) at 2. now rewrite E, app_nil_r. }
        rewrite FR. exists ws. split; [reflexivity|]. split; [assumption|].
        unfold progress; cbn. destruct k; cbn; [lia|]. destruct rest; [now destruct NE|]. cbn; lia.
      * destruct (IH (x :: t)) as (ws' & C & FW & PW); [discriminate|assumption| |].
        { rewrite <- E, skipn_length. unfold progress in *; cbn in P. destruct k; cbn in P; subst m; lia. }
        rewrite C. cbn [bind]. exists ws'. split; [rewrite <- E; now rewrite firstn_skipn|]. split; [assumption|].
        rewrite <- E, skipn_length in PW. assert (0 < length rest) by (destruct rest; [now destruct NE|cbn; lia]).
        unfold progress in *; cbn. destruct k; cbn [length]; subst m; lia.
    + destruct (IH rest NE F' P) as (ws' & C & FW & PW). exists ws'. split; [exact C|]. split; [assumption|]. exact PW.
Qed.

Lemma copy_loop_complete rs : forall src ws, Forall fine_r rs -> Forall fine_w ws ->
  length src < length rs -> length src <= progress ws -> copy_loop src rs ws = Ok (src, true).
Proof.
  induction rs as [|o rs IH]; intros src ws FR FW L P; cbn [copy_loop]; [cbn in L; lia|].
  inversion FR as [|? ? N FR']; subst. destruct o as [k| | |]; cbn in N; try contradiction.
  destruct src as [|x t]; [reflexivity|].
  set (s := x :: t) in *. set (m := Nat.min (Nat.max k 1) (Nat.min CHUNK (length s))).
  assert (M1 : 1 <= m) by (subst m s; unfold CHUNK; cbn [length]; lia).
  assert (ML : m <= length s) by (subst m; lia).
  destruct (copy_out_complete ws (firstn m s)) as (ws' & C & FW' & PW).
  - intros K. apply (f_equal (@length byte)) in K. rewrite firstn_length in K. cbn [length] in K. lia.
  - assumption.
  - rewrite firstn_length. lia.
  - rewrite C. cbn [bind]. rewrite firstn_length in PW. rewrite IH; [|assumption|assumption| |].
    + cbn [bind fst snd]. now rewrite firstn_skipn.
    + rewrite skipn_length. cbn [length] in L. lia.
    + rewrite skipn_length. lia.
Qed.
Lemma copy_complete s rs ws : Forall fine_r rs -> Forall fine_w ws -> length s < length rs -> length s <= progress ws ->
  copyfile (Some s) None rs ws true = Ok (0%Z, Some s).
Proof. intros. unfold copyfile. rewrite copy_loop_complete by assumption. reflexivity. Qed.

(* ---- whole-file write ---- *)
Lemma wr_len (text : list byte) : (Z.of_nat (length text) < 2 ^ 31)%Z -> wraps 32 (Z.of_nat (length text)) = Z.of_nat (length text).
Proof. intros H. unfold wraps. change (32 - 1)%Z with 31%Z. rewrite Z.mod_small; lia. Qed.

(* exact effect of a successful, complete write *)
Lemma writefile_effect old text fd k r cur : (Z.of_nat (length text) < 2 ^ 31)%Z -> length text <= k ->
  writefile old text fd (Moved k) true = (Some r, cur) ->
  r = Z.of_nat (length text) /\ cur = Some (text ++ skipn (length text) (match old with Some c => c | None => [] end)).
Proof.
  intros L K. unfold writefile. destruct (Z.ltb_spec fd 0); [discriminate|]. destruct (Z.eqb_spec fd 0); [discriminate|].
  rewrite wr_len by assumption. destruct (Z.ltb_spec 0 (Z.of_nat (length text))).
  - rewrite Nat2Z.id, Nat.min_r by lia. rewrite firstn_all. unfold overlay. intros [= <- <-]. auto.
  - intros [= <- <-]. destruct text; [auto|cbn [length] in *; lia].
Qed.
Lemma writefile_reads_back old text fd k r cur : text <> [] -> (Z.of_nat (length text) < 2 ^ 31)%Z -> length text <= k ->
  length (match old with Some c => c | None => [] end) <= length text ->
  writefile old text fd (Moved k) true = (Some r, cur) -> forall fd' j, (0 < fd')%Z -> length text <= j ->
  readfile cur fd' (Moved j) = Some text.
Proof.
  intros NE L K SH W fd' j F J. destruct (writefile_effect _ _ _ _ _ _ L K W) as [_ ->].
  rewrite skipn_all2 by assumption. rewrite app_nil_r. unfold readfile. destruct text as [|x t]; [now destruct NE|].
  destruct (Z.leb_spec fd' 0); [lia|]. unfold wrapu. rewrite Z.mod_small by lia. rewrite Nat2Z.id.
  now rewrite Nat.min_r, firstn_all by assumption.
Qed.
(* any longer old contents survive beyond the new text *)
Lemma writefile_old_tail old text fd : length text < length old -> (Z.of_nat (length old) < 2 ^ 31)%Z -> (0 < fd)%Z ->
  exists r cur, writefile (Some old) text fd (Moved (length text)) true = (Some r, Some cur) /\
  r = Z.of_nat (length text) /\ cur <> text /\ length cur = length old /\
  readfile (Some cur) fd (Moved (length cur)) = Some cur.
Proof.
  intros H L F. destruct (writefile (Some old) text fd (Moved (length text)) true) as [r0 c0] eqn:W.
  assert (exists r, r0 = Some r) as [r ->].
  { unfold writefile in W. destruct (Z.ltb_spec fd 0); [lia|]. destruct (Z.eqb_spec fd 0); [lia|].
    destruct (0 <? wraps 32 (Z.of_nat (length text)))%Z; injection W as <- _; eauto. }
  assert (LT : (Z.of_nat (length text) < 2 ^ 31)%Z) by lia.
  destruct (writefile_effect _ _ _ _ _ _ LT (Nat.le_refl _) W) as [-> ->].
  do 2 eexists; split; [reflexivity|]. split; [reflexivity|].
  assert (LC : length (text ++ skipn (length text) old) = length old) by (rewrite app_length, skipn_length; lia).
  split; [intros K; apply (f_equal (@length byte)) in K; lia|]. split; [exact LC|].
  revert LC. generalize (text ++ skipn (length text) old) as c. intros c LC. unfold readfile. destruct c as [|x t]; [cbn in LC; lia|].
  destruct (Z.leb_spec fd 0); [lia|]. unfold wrapu. rewrite Z.mod_small by lia. rewrite Nat2Z.id, Nat.min_id.
  now rewrite firstn_all.
Qed.
(* writing the empty text (touch) then reading gives NULL, not the empty text *)
Lemma empty_reads_null fd fd' r : (0 < fd)%Z -> exists cur, writefile None [] fd r true = (Some 0%Z, cur) /\ readfile cur fd' r = None.
Proof.
  intros F. exists (Some []). split; [|reflexivity]. unfold writefile. destruct (Z.ltb_spec fd 0); [lia|]. destruct (Z.eqb_spec fd 0); [lia|].
  reflexivity.
Qed.
(* open returning descriptor 0 is taken for a failure *)
Lemma fd0_fails old text w c : fst (writefile old text 0 w c) = None.
Proof. reflexivity. Qed.

(* ---- close ---- *)
(* the caller's view: a set of open descriptors *)
Definition cspec (op : Z -> bool) (o : clop) : option ((Z -> bool) * Z) :=
  match o with
  | COpen fd => if (0 <? fd)%Z && negb (op fd) then Some (upz op fd true, fd) else None
  | CPlain fd => None
  | CJob => Some (op, 0%Z)
  | CClose fd => if (0 <? fd)%Z then Some (upz op fd false, if op fd then 0%Z else (-1)%Z) else None
  end.
Fixpoint cspec_run (op : Z -> bool) (l : list clop) : option ((Z -> bool) * list Z) :=
  match l with
  | [] => Some (op, [])
  | o :: k => match cspec op o with
    | None => None
    | Some (op1, r) => match cspec_run op1 k with None => None | Some (op2, rs) => Some (op2, r :: rs) end
    end
  end.

(* with a single future, descriptors all coming from fs_open and none of them 0, close works *)
Lemma close_one_pool l : forall s op op' rs, (forall x, is_open s x = op x) -> (forall x, (x <= 0)%Z -> op x = false) -> op (last_fd s 0) = false ->
  cspec_run op l = Some (op', rs) -> snd (cl_run 1 s l) = rs /\ forall x, is_open (fst (cl_run 1 s l)) x = op' x.
Proof.
  induction l as [|o l IH]; intros s op op' rs A N L R; cbn [cl_run cspec_run] in *; [injection R as <- <-; auto|].
  destruct (cspec op o) as [[op1 r]|] eqn:E; [|discriminate].
  destruct (cspec_run op1 l) as [[op2 rs2]|] eqn:E2; [|discriminate]. injection R as <- <-.
  assert (ST : exists s1, cl_step 1 s o = (s1, r) /\ (forall x, is_open s1 x = op1 x) /\ (forall x, (x <= 0)%Z -> op1 x = false) /\ op1 (last_fd s1 0) = false).
  { unfold cl_step. rewrite (Nat.mod_1_r (jobs s)).
    destruct o as [fd|fd| |fd]; cbn [cspec] in E.
    - destruct (0 <? fd)%Z eqn:P; [|discriminate]. apply Z.ltb_lt in P. destruct (op fd) eqn:O; [discriminate|]. cbn in E. injection E as <- <-.
      eexists; split; [reflexivity|]. cbn. unfold upz. split; [intros x; destruct (x =? fd)%Z; auto|].
      split; [intros x X; destruct (Z.eqb_spec x fd); [lia|auto]|].
      destruct (Z.eqb_spec 0 fd); [lia|]. apply N. lia.
    - discriminate.
    - injection E as <- <-. eexists; split; [reflexivity|]. cbn. auto.
    - destruct (0 <? fd)%Z eqn:P; [|discriminate]. apply Z.ltb_lt in P. injection E as <- <-.
      assert (N' : forall x, (x <= 0)%Z -> upz op fd false x = false).
      { intros x X; unfold upz; destruct (Z.eqb_spec x fd); auto. }
      destruct (Z.eqb_spec (last_fd s 0) fd) as [Q|Q].
      + rewrite Q in L. rewrite L. eexists; split; [reflexivity|]. cbn. split; [|split; [exact N'|apply N'; lia]].
        intros x. unfold upz. destruct (Z.eqb_spec x fd); [subst; now rewrite A|apply A].
      + eexists; split; [rewrite A; reflexivity|]. cbn. split; [intros x; unfold upz; destruct (x =? fd)%Z; auto|]. split; [exact N'|].
        unfold upz. now rewrite Z.eqb_refl. }
  destruct ST as (s1 & -> & A1 & N1 & L1). specialize (IH s1 op1 op2 rs2 A1 N1 L1 E2).
  destruct (cl_run 1 s1 l) as [s2 rs']. cbn in *. destruct IH as [-> B]. auto.
Qed.
Lemma close_one_pool0 l op' rs : cspec_run (fun _ => false) l = Some (op', rs) ->
  snd (cl_run 1 cls0 l) = rs /\ forall x, is_open (fst (cl_run 1 cls0 l)) x = op' x.
Proof. apply close_one_pool; auto. Qed.

(* with any larger number of futures a correct program leaks: open, close, open, close of one descriptor,
   with other jobs in between so that both closes meet the same future *)
Lemma jobs_run p n : forall s k, cl_run p s (repeat CJob n ++ k) =
  (fst (cl_run p {| is_open := is_open s; jobs := jobs s + n; last_fd := last_fd s |} k),
   repeat 0%Z n ++ snd (cl_run p {| is_open := is_open s; jobs := jobs s + n; last_fd := last_fd s |} k)).
Proof.
  induction n as [|n IH]; intros s k; cbn [repeat app].
  - rewrite Nat.add_0_r. destruct s; cbn. now destruct (cl_run p _ k).
  - cbn [cl_run cl_step]. rewrite IH. cbn [is_open jobs last_fd]. rewrite <- Nat.add_assoc. cbn [Nat.add]. reflexivity.
Qed.

Definition leak_prog (p : nat) (fd : Z) : list clop := COpen fd :: CClose fd :: repeat CJob (p - 2) ++ [COpen fd; CClose fd].
Lemma leak_legal p fd : (0 < fd)%Z -> exists op rs, cspec_run (fun _ => false) (leak_prog p fd) = Some (op, rs) /\ op fd = false.
Proof.
  intros F. apply Z.ltb_lt in F. unfold leak_prog. cbn [cspec_run cspec]. rewrite F. cbn [andb negb].
  assert (J : forall n op, op fd = false -> exists op' rs, cspec_run op (repeat CJob n ++ [COpen fd; CClose fd]) = Some (op', rs) /\ op' fd = false).
  { induction n as [|n IH]; intros op O; cbn [repeat app cspec_run cspec].
    - rewrite F, O. cbn [andb negb cspec_run cspec]. do 2 eexists; split; [reflexivity|]. unfold upz. now rewrite Z.eqb_refl.
    - destruct (IH op O) as (o & r & -> & Q). eauto. }
  destruct (J (p - 2) (upz (upz (fun _ => false) fd true) fd false)) as (o & r & -> & Q); [unfold upz; now rewrite Z.eqb_refl|].
  eauto.
Qed.
Lemma close_leaks p fd : 2 <= p -> (0 < fd)%Z -> is_open (fst (cl_run p cls0 (leak_prog p fd))) fd = true.
Proof.
  intros P F. unfold leak_prog. cbn [cl_run]. unfold cls0 at 1; cbn [cl_step is_open jobs last_fd].
  rewrite (Nat.mod_small 0 p) by lia. rewrite (Nat.mod_small (0 + 1) p) by lia. cbn [Nat.add].
  unfold upn at 1. cbn [Nat.eqb].
  destruct (Z.eqb_spec (-1) fd); [lia|]. rewrite jobs_run. cbn [is_open jobs last_fd].
  cbn [cl_run cl_step is_open jobs last_fd fst snd].
  replace (2 + (p - 2)) with p by lia. rewrite Nat.mod_same by lia. replace ((p + 1) mod p) with 1.
  2: { replace (p + 1) with (1 + 1 * p) by lia. rewrite Nat.mod_add by lia. now rewrite Nat.mod_small by lia. }
  unfold upn. cbn [Nat.eqb]. rewrite Z.eqb_refl. cbn [fst is_open]. unfold upz. now rewrite Z.eqb_refl.
Qed.
(* a descriptor obtained any other way than fs_open may not be closed even with one future *)
Lemma close_plain_leaks p fd : 0 < p -> (0 < fd)%Z -> exists l, is_open (fst (cl_run p cls0 l)) fd = true /\
  l = COpen fd :: repeat CJob (p - 1) ++ [CClose fd; CPlain fd] ++ repeat CJob (p - 1) ++ [CClose fd].
Proof.
  intros P F. eexists; split; [|reflexivity]. cbn [cl_run]. unfold cls0 at 1; cbn [cl_step is_open jobs last_fd].
  rewrite (Nat.mod_small 0 p) by lia. rewrite jobs_run. cbn [is_open jobs last_fd app Nat.add].
  cbn [cl_run cl_step is_open jobs last_fd fst snd].
  replace (S (p - 1)) with p by lia. rewrite Nat.mod_same by lia. unfold upn at 1; cbn [Nat.eqb]. destruct (Z.eqb_spec 0 fd); [lia|].
  cbn [cl_run cl_step is_open jobs last_fd fst snd]. rewrite jobs_run. cbn [is_open jobs last_fd].
  cbn [cl_run cl_step is_open jobs last_fd fst snd].
  replace (p + 1 + (p - 1)) with (2 * p) by lia. rewrite Nat.mod_mul by lia. unfold upn at 1; cbn [Nat.eqb]. rewrite Z.eqb_refl. cbn [fst is_open]. unfold upz. now rewrite Z.eqb_refl.
Qed.

Lemma awrite_short buf n os : length buf < n -> async_write buf n os = UB.
Proof.
  intros H. unfold async_write. assert (T : (0 <? n) = true) by (apply Nat.ltb_lt; lia). assert (T2 : (length buf <? n) = true) by (apply Nat.ltb_lt; lia).
  destruct os; cbn [awrite]; rewrite T, T2; reflexivity.
Qed.
Lemma writefile_close_fails old text fd w : fst (writefile old text fd w false) = None.
Proof.
  unfold writefile. destruct (fd <? 0)%Z; [reflexivity|]. destruct (fd =? 0)%Z; [reflexivity|].
  destruct (if (0 <? _)%Z then _ else _); reflexivity.
Qed.
