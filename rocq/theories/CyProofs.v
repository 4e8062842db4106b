(* What a copy holds. *)
From Coq Require Import ZArith List Bool Lia.
From Verif Require Import Base CyModel.
Import ListNotations.

(* every call but those of sendfile succeeds, two different files, and nobody writes to the source, which holds c *)
Definition calm (s : sys) (c : list Z) : Prop :=
  open_ok s = true /\ creat_ok s = true /\ stat_ok s = true /\ close_ok s = true /\ same s = false /\ (forall k, src s k = c).

(* sendfile k is answered: nothing, or the rest as far as one call can *)
Definition none_yet (s : sys) (k : nat) : Prop := forall j, j < k -> ans_ s j = Sent 0.
(* some call is the first to transfer anything, and transfers everything *)
Definition at_once (s : sys) (c : list Z) : Prop :=
  exists k n, none_yet s k /\ ans_ s k = Sent n /\ length c <= n /\ length c <= limit s.

Lemma firstn_part {A} n (l : list A) : length (firstn n l) = Nat.min n (length l).
Proof. apply firstn_length. Qed.

(* once something was copied the rest comes out too short *)
Lemma loop_late fuel : forall s c k copied out r n,
  (forall k, src s k = c) -> 0 < copied -> copied = 2 * length out -> length out < length c ->
  loop fuel s k copied (length c) out = Ok (0%Z, r, n) -> length r < length c.
Proof.
  induction fuel as [|f IH]; intros s c k copied out r n Hc Hp He Hl E; [discriminate|].
  cbn [loop] in E. destruct (Nat.ltb_spec copied (length c)) as [L|L].
  - unfold send in E. rewrite Hc in E. destruct (ans_ s k) as [|m]; [discriminate|].
    set (b := firstn (Nat.min m (limit s)) (skipn copied c)) in *.
    assert (Hb : length b <= length c - copied) by (unfold b; rewrite firstn_length, skipn_length; lia).
    eapply IH in E; eauto; rewrite ?app_length; lia.
  - injection E as <- <-. exact Hl.
Qed.

(* the first call that transfers anything decides *)
Lemma loop_first fuel : forall s c k r n, (forall k, src s k = c) -> none_yet s k ->
  loop fuel s k 0 (length c) [] = Ok (0%Z, r, n) -> (r = c <-> (c = [] \/ at_once s c)).
Proof.
  induction fuel as [|f IH]; intros s c k r n Hc Hn E; [discriminate|].
  cbn [loop] in E. destruct (Nat.ltb_spec 0 (length c)) as [L|L].
  2: { injection E as <- <-. destruct c; [|cbn in L; lia]. tauto. }
  unfold send in E. rewrite Hc in E. destruct (ans_ s k) as [|m] eqn:Ea; [discriminate|].
  cbn [skipn] in E. set (b := firstn (Nat.min m (limit s)) c) in *.
  assert (Hb : length b = Nat.min (Nat.min m (limit s)) (length c)) by apply firstn_length.
  cbn [app] in E. rewrite Nat.add_0_l in E.
  destruct (Nat.eq_dec (length b) (length c)) as [Full|Part].
  - (* everything *)
    assert (b = c). { unfold b. apply firstn_all2. lia. }
    destruct f as [|f]; [discriminate|]. cbn [loop] in E.
    destruct (Nat.ltb_spec (length b + length b) (length c)) as [X|X]; [lia|]. injection E as <- <-.
    split; [intros _; right|auto]. exists k, m. split; [exact Hn|]. split; [exact Ea|]. lia.
  - destruct (Nat.eq_dec (length b) 0) as [Zr|Nz].
    + (* nothing *)
      assert (Hb0 : b = []) by (destruct b; [reflexivity|discriminate]). rewrite Hb0 in E. cbn [length Nat.add] in E.
      destruct m as [|m].
      * apply IH in E; auto. intros j Hj. destruct (Nat.eq_dec j k) as [->|]; [exact Ea|apply Hn; lia].
      * (* one call transfers nothing at all *)
        assert (L0 : limit s = 0) by lia.
        split; [|intros [->|(k' & n' & _ & _ & _ & Hl)]; [cbn in L; lia|lia]].
        intros ->. exfalso. clear IH Hn.
        assert (X : forall f k r n, loop f s k 0 (length c) [] = Ok (0%Z, r, n) -> False).
        { clear - Hc L0 L. induction f as [|f IH]; intros k r n E; [discriminate|]. cbn [loop] in E.
          destruct (Nat.ltb_spec 0 (length c)); [|lia]. unfold send in E.
          destruct (ans_ s k); [discriminate|]. rewrite L0, Nat.min_0_r in E. cbn in E. eapply IH; eauto. }
        eapply X; eauto.
    + (* a part *)
      assert (Lr : length r < length c) by (eapply loop_late in E; eauto; lia).
      split; [intros ->; lia|]. intros [->|(k' & n' & N' & A' & Ln & Ll)]; [cbn in L; lia|]. exfalso.
      destruct (Nat.lt_trichotomy k k') as [K|[K|K]].
      * specialize (N' k K). rewrite Ea in N'. injection N' as ->. lia.
      * subst k'. rewrite Ea in A'. injection A' as ->. lia.
      * specialize (Hn k' K). rewrite A' in Hn. injection Hn as ->. destruct c; cbn in *; lia.
Qed.

Lemma copy_calm fuel s c old r n : calm s c -> copy fuel s old = Ok (r, n) ->
  exists a out, loop fuel s 0 0 (length c) [] = Ok (a, out, n) /\ r = mkRes a (Some out) c [In_; Out_] [In_; Out_].
Proof.
  intros (A & B & C & D & E & F) H. unfold copy in H. rewrite A, B, C, D, E in H. rewrite (F 0) in H.
  destruct (loop fuel s 0 0 (length c) []) as [[[a out] m]| | |]; try discriminate. cbn [bind] in H. rewrite (F m) in H.
  injection H as <- <-. exists a, out. auto.
Qed.

Lemma c186_iff fuel s c old r n : calm s c -> copy fuel s old = Ok (r, n) -> answer r = 0%Z ->
  (dest r = Some c <-> (c = [] \/ at_once s c)).
Proof.
  intros K H A. destruct (copy_calm _ _ _ _ _ _ K H) as (a & out & E & ->). cbn in A. subst a. cbn [dest].
  destruct K as (_ & _ & _ & _ & _ & F).
  rewrite <- (loop_first fuel s c 0 out n F ltac:(intros j Hj; lia) E). split; congruence.
Qed.

Lemma c186_whole fuel s c old m : calm s c -> 2 <= fuel -> length c <= limit s -> ans_ s 0 = Sent m -> length c <= m ->
  exists n, copy fuel s old = Ok (mkRes 0 (Some c) c [In_; Out_] [In_; Out_], n).
Proof.
  intros (A & B & C & D & E & F) Hf Hl Ha Hm. unfold copy. rewrite A, B, C, D, E, (F 0).
  destruct fuel as [|[|f]]; try lia. cbn [loop].
  destruct (Nat.ltb_spec 0 (length c)) as [L|L].
  - unfold send. rewrite Ha, F. cbn [skipn app]. rewrite firstn_all2 by lia.
    destruct (Nat.ltb_spec (0 + length c + length c) (length c)); [lia|]. cbn [bind]. rewrite F. eexists. reflexivity.
  - destruct c; [|cbn in L; lia]. cbn [bind]. rewrite F. eexists. reflexivity.
Qed.

(* a file too long for one call: the end is missing *)
Lemma c186_cut fuel s c old m : calm s c -> 2 <= fuel -> limit s < length c -> length c <= 2 * limit s ->
  ans_ s 0 = Sent m -> limit s <= m ->
  exists n, copy fuel s old = Ok (mkRes 0 (Some (firstn (limit s) c)) c [In_; Out_] [In_; Out_], n).
Proof.
  intros (A & B & C & D & E & F) Hf Hl Hl2 Ha Hm. unfold copy. rewrite A, B, C, D, E, (F 0).
  destruct fuel as [|[|f]]; try lia. cbn [loop].
  destruct (Nat.ltb_spec 0 (length c)) as [L|L]; [|lia].
  unfold send. rewrite Ha, F. cbn [skipn app]. rewrite Nat.min_r by lia.
  assert (Hb : length (firstn (limit s) c) = limit s) by (rewrite firstn_length; lia). rewrite Hb.
  destruct (Nat.ltb_spec (0 + limit s + limit s) (length c)); [lia|]. cbn [bind]. rewrite F. eexists. reflexivity.
Qed.

(* a longer one: every second piece is missing *)
Fixpoint every_second (n : nat) (lim : nat) (c : list Z) : list Z :=
  match n with
  | O => []
  | S n => firstn lim c ++ every_second n lim (skipn (2 * lim) c)
  end.

Lemma skipn_add {A} a : forall b (l : list A), skipn a (skipn b l) = skipn (b + a) l.
Proof. intros b. induction b as [|b IH]; intros [|x l]; cbn; auto. apply skipn_nil. Qed.

Lemma every_nil n lim : every_second n lim [] = [].
Proof. induction n as [|n IH]; [reflexivity|]. cbn [every_second]. rewrite firstn_nil, skipn_nil, IH. reflexivity. Qed.

Lemma loop_pieces n : forall s c k copied out lim fuel, 0 < lim -> limit s = lim -> (forall k, src s k = c) ->
  (forall j, exists m, ans_ s j = Sent m /\ lim <= m) -> length c <= copied + 2 * lim * n -> n < fuel ->
  exists m, loop fuel s k copied (length c) out = Ok (0%Z, out ++ every_second n lim (skipn copied c), m).
Proof.
  induction n as [|n IH]; intros s c k copied out lim fuel Hp Hl Hc Ha Hn Hf; (destruct fuel as [|f]; [lia|]); cbn [loop].
  - destruct (Nat.ltb_spec copied (length c)); [lia|]. eexists. cbn [every_second]. rewrite app_nil_r. reflexivity.
  - destruct (Nat.ltb_spec copied (length c)) as [L|L].
    + destruct (Ha k) as (m & Em & Lm). unfold send. rewrite Em, Hc, Hl, Nat.min_r by lia.
      cbn [every_second]. set (b := firstn lim (skipn copied c)).
      assert (Hb : length b = Nat.min lim (length c - copied)) by (unfold b; rewrite firstn_length, skipn_length; reflexivity).
      destruct (Nat.le_gt_cases lim (length c - copied)) as [X|X].
      * assert (Hb' : length b = lim) by lia. rewrite Hb'.
        destruct (IH s c (S k) (copied + lim + lim) (out ++ b) lim f) as [m' E]; auto; try lia.
        exists m'. rewrite E, skipn_add. replace (copied + 2 * lim) with (copied + lim + lim) by lia. rewrite app_assoc. reflexivity.
      * destruct f as [|f]; [lia|]. cbn [loop]. destruct (Nat.ltb_spec (copied + length b + length b) (length c)); [lia|].
        eexists. rewrite skipn_add, (skipn_all2 c) by lia. rewrite every_nil, app_nil_r. reflexivity.
    + eexists. rewrite skipn_all2 by lia. rewrite every_nil, app_nil_r. reflexivity.
Qed.

Lemma c186_pieces s c old n fuel : calm s c -> 0 < limit s -> (forall j, exists m, ans_ s j = Sent m /\ limit s <= m) ->
  length c <= 2 * limit s * n -> n < fuel ->
  exists k, copy fuel s old = Ok (mkRes 0 (Some (every_second n (limit s) c)) c [In_; Out_] [In_; Out_], k).
Proof.
  intros (A & B & C & D & E & F) Hl Ha Hn Hf. unfold copy. rewrite A, B, C, D, E, (F 0).
  destruct (loop_pieces n s c 0 0 [] (limit s) fuel) as [m Em]; auto; try lia.
  rewrite Em. cbn [bind skipn app]. rewrite F. eexists. reflexivity.
Qed.

(* the copying ends if no call transfers nothing *)
Lemma loop_ends fuel : forall s c k copied out, (forall k, src s k = c) -> 0 < limit s -> (forall j, ans_ s j <> Sent 0) ->
  0 < fuel -> length c < copied + fuel -> exists a r n, loop fuel s k copied (length c) out = Ok (a, r, n).
Proof.
  induction fuel as [|f IH]; intros s c k copied out Hc Hl Ha H0 Hf.
  - lia.
  - cbn [loop]. destruct (Nat.ltb_spec copied (length c)) as [L|L]; [|eauto].
    unfold send. rewrite Hc. specialize (Ha k) as Hk. destruct (ans_ s k) as [|m]; [eauto|].
    destruct m as [|m]; [congruence|].
    apply IH; auto; rewrite ?firstn_length, ?skipn_length; lia.
Qed.

Lemma c186_ends s c old fuel : calm s c -> 0 < limit s -> (forall j, ans_ s j <> Sent 0) -> length c < fuel ->
  exists r n, copy fuel s old = Ok (r, n).
Proof.
  intros (A & B & C & D & E & F) Hl Ha Hf. unfold copy. rewrite A, B, C, D, E, (F 0).
  destruct (loop_ends fuel s c 0 0 [] F Hl Ha) as (a & r & n & ->); try lia. cbn [bind]. eauto.
Qed.

(* the source was shortened after it was measured: no end *)
Lemma loop_stuck fuel : forall s k out size, 0 < size -> (forall k, src s (S k) = []) -> (forall j, ans_ s j <> Err) ->
  loop fuel s k 0 size out = Fuel.
Proof.
  induction fuel as [|f IH]; intros s k out size Hs Hc Ha; [reflexivity|]. cbn [loop].
  destruct (Nat.ltb_spec 0 size); [|lia]. unfold send. rewrite Hc. specialize (Ha k) as Hk. destruct (ans_ s k); [congruence|].
  cbn [skipn]. rewrite firstn_nil. cbn [length Nat.add]. apply IH; auto.
Qed.

Lemma c186_stuck fuel s old : open_ok s = true -> creat_ok s = true -> stat_ok s = true -> same s = false -> src s 0 <> [] ->
  (forall k, src s (S k) = []) -> (forall j, ans_ s j <> Err) -> copy fuel s old = Fuel.
Proof.
  intros A B C E H0 Hc Ha. unfold copy. rewrite A, B, C, E. rewrite loop_stuck; auto. destruct (src s 0); [congruence|cbn; lia].
Qed.

(* ---- failures ---- *)
Lemma loop_err fuel : forall s k copied size out a r n, loop fuel s k copied size out = Ok (a, r, n) ->
  (a = 0%Z \/ a = (-1)%Z) /\ (a = 0%Z -> forall j, k <= j < n -> ans_ s j <> Err) /\
  (a = (-1)%Z -> exists m, n = S m /\ ans_ s m = Err).
Proof.
  induction fuel as [|f IH]; intros s k copied size out a r n E; [discriminate|]. cbn [loop] in E.
  destruct (Nat.ltb copied size).
  - unfold send in E. destruct (ans_ s k) as [|m] eqn:Ea.
    + injection E as <- <- <-. split; [auto|]. split; [discriminate|]. eauto.
    + apply IH in E. destruct E as (E1 & E2 & E3). split; [exact E1|]. split; [|exact E3].
      intros Hz j Hj. destruct (Nat.eq_dec j k) as [->|]; [congruence|]. apply E2; auto; lia.
  - injection E as <- <- <-. split; [auto|]. split; [intros _ j Hj; lia|discriminate].
Qed.

Lemma c187_closed fuel s old r n : copy fuel s old = Ok (r, n) -> closed r = opened r.
Proof.
  unfold copy. destruct (open_ok s); [|intros E; injection E as <- <-; reflexivity].
  destruct (creat_ok s); [|intros E; injection E as <- <-; reflexivity].
  destruct (if stat_ok s then _ else _) as [[[a out] m]| | |]; cbn [bind]; intros E; try discriminate. injection E as <- <-. reflexivity.
Qed.

Lemma c187_told fuel s old r n : copy fuel s old = Ok (r, n) ->
  (answer r = 0%Z \/ answer r = (-1)%Z) /\
  (answer r = 0%Z <-> open_ok s = true /\ creat_ok s = true /\ stat_ok s = true /\ forall j, j < n -> ans_ s j <> Err).
Proof.
  unfold copy. destruct (open_ok s).
  2: { intros E; injection E as <- <-. cbn. split; [auto|]. split; [discriminate|intros (K & _); discriminate]. }
  destruct (creat_ok s).
  2: { intros E; injection E as <- <-. cbn. split; [auto|]. split; [discriminate|intros (_ & K & _); discriminate]. }
  destruct (stat_ok s).
  2: { cbn [bind]. intros E; injection E as <- <-. cbn. split; [auto|]. split; [discriminate|intros (_ & _ & K & _); discriminate]. }
  destruct (loop _ _ _ _ _ _) as [[[a out] m]| | |] eqn:L; cbn [bind]; intros E; try discriminate. injection E as <- <-. cbn [answer].
  apply loop_err in L. destruct L as (L1 & L2 & L3). split; [exact L1|]. split.
  - intros ->. repeat (split; [reflexivity|]). intros j Hj. apply L2; auto; lia.
  - intros (_ & _ & _ & K). destruct L1 as [L1|L1]; [exact L1|]. destruct (L3 L1) as (q & -> & Hq). destruct (K q); auto.
Qed.

Lemma c187_unopened fuel s old : open_ok s = false \/ creat_ok s = false ->
  exists r, copy fuel s old = Ok (r, 0) /\ answer r = (-1)%Z /\ dest r = old.
Proof.
  intros [H|H]; unfold copy; rewrite H; [eexists; repeat split; reflexivity|].
  destruct (open_ok s); eexists; repeat split; reflexivity.
Qed.

Lemma c187_source fuel s c old r n : same s = false -> (forall k, src s k = c) -> copy fuel s old = Ok (r, n) -> source r = c.
Proof.
  intros Hs F. unfold copy. rewrite Hs.
  destruct (open_ok s); [|intros E; injection E as <- <-; apply F].
  destruct (creat_ok s); [|intros E; injection E as <- <-; apply F].
  destruct (if stat_ok s then _ else _) as [[[a out] m]| | |]; cbn [bind]; intros E; try discriminate. injection E as <- <-. apply F.
Qed.

(* copying a file onto itself empties it *)
Lemma c187_same fuel s old : open_ok s = true -> creat_ok s = true -> stat_ok s = true -> same s = true -> 0 < fuel ->
  copy fuel s old = Ok (mkRes 0 (Some []) [] [In_; Out_] [In_; Out_], 0).
Proof.
  intros A B C D F. unfold copy. rewrite A, B, C, D. destruct fuel as [|f]; [lia|]. cbn. destruct (close_ok s); reflexivity.
Qed.

(* the destination's former contents are gone if the first sendfile, or the measuring, fails *)
Lemma c187_lost fuel s old : open_ok s = true -> creat_ok s = true -> same s = false -> 0 < fuel -> src s 0 <> [] ->
  stat_ok s = false \/ ans_ s 0 = Err ->
  exists r n, copy fuel s old = Ok (r, n) /\ answer r = (-1)%Z /\ dest r = Some [].
Proof.
  intros A B D F N H. unfold copy. rewrite A, B, D. destruct (stat_ok s).
  - destruct H as [H|H]; [discriminate|]. destruct fuel as [|f]; [lia|]. cbn [loop].
    destruct (Nat.ltb_spec 0 (length (src s 0))) as [L|L]; [|destruct (src s 0); [congruence|cbn in L; lia]].
    unfold send. rewrite H. cbn [bind]. do 2 eexists. split; [reflexivity|]. cbn. destruct (close_ok s); auto.
  - cbn [bind]. do 2 eexists. split; [reflexivity|]. cbn. destruct (close_ok s); auto.
Qed.

(* what the system could not store is not missed *)
Lemma c187_close fuel s old r n : close_ok s = false -> copy fuel s old = Ok (r, n) -> answer r = 0%Z -> dest r = Some [].
Proof.
  intros H. unfold copy. rewrite H.
  destruct (open_ok s); [|intros E; injection E as <- <-; discriminate].
  destruct (creat_ok s); [|intros E; injection E as <- <-; discriminate].
  destruct (if stat_ok s then _ else _) as [[[a out] m]| | |]; cbn [bind]; intros E; try discriminate. injection E as <- <-. reflexivity.
Qed.
