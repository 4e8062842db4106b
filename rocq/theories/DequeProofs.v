From Verif Require Import Base DequeModel.

(* ---- Specification: a double-ended sequence, oldest first ---- *)
Definition spec_step (l : list Z) (o : dop) : list Z * list Z :=
  match o with
  | DPush w => (l ++ [w], [])
  | DSteal => match l with [] => ([], [EMPTY]) | x :: r => (r, [x]) end
  | DTake => match l with [] => ([], [EMPTY]) | _ => (removelast l, [last l EMPTY]) end
  end.
Fixpoint spec_run (l : list Z) (ops : list dop) : list Z * list Z :=
  match ops with
  | [] => (l, [])
  | o :: r => let '(l1, o1) := spec_step l o in let '(l2, o2) := spec_run l1 r in (l2, o1 ++ o2)
  end.
(* no take before the first push *)
Fixpoint take_after_push (ops : list dop) : Prop :=
  match ops with
  | [] => True
  | DPush _ :: _ => True
  | DSteal :: r => take_after_push r
  | DTake :: _ => False
  end.
Fixpoint pushes (ops : list dop) : nat :=
  match ops with [] => 0 | DPush _ :: r => S (pushes r) | _ :: r => pushes r end.

(* ---- representation ---- *)
Definition pos (i : Z) (n : nat) : nat := Z.to_nat (i mod Z.of_nat n).

Record Repr (q : deque) (l : list Z) : Prop := {
  r_top : (0 <= dtop q)%Z;
  r_bot : dbot q = (dtop q + Z.of_nat (length l))%Z;
  r_size : 1 <= length (dbuf q);
  r_fit : length l <= length (dbuf q);
  r_cell : forall k x, nth_error l k = Some x ->
    nth_error (dbuf q) (pos (dtop q + Z.of_nat k) (length (dbuf q))) = Some x }.

Lemma mod_distinct a b N : (0 < N -> a < b < a + N -> a mod N <> b mod N)%Z.
Proof.
  intros HN H E.
  pose proof (Z.div_mod a N ltac:(lia)) as Ha. pose proof (Z.div_mod b N ltac:(lia)) as Hb.
  rewrite E in Ha.
  assert (D : (b - a = N * (b / N - a / N))%Z) by lia.
  destruct (Z.lt_trichotomy (b / N - a / N) 0) as [L|[L|L]]; nia.
Qed.

Lemma pos_lt i n : 1 <= n -> pos i n < n.
Proof.
  intros H. unfold pos. pose proof (Z.mod_pos_bound i (Z.of_nat n) ltac:(lia)). lia.
Qed.

Lemma pos_distinct a b n : 1 <= n -> (a < b < a + Z.of_nat n)%Z -> pos a n <> pos b n.
Proof.
  intros Hn H E. apply (mod_distinct a b (Z.of_nat n)); try lia.
  unfold pos in E.
  pose proof (Z.mod_pos_bound a (Z.of_nat n) ltac:(lia)).
  pose proof (Z.mod_pos_bound b (Z.of_nat n) ltac:(lia)). lia.
Qed.

Lemma slot_pos i n : 1 <= n -> slot i n = Ok (pos i n).
Proof. intros H. unfold slot. destruct (Nat.eqb_spec n 0); [lia|reflexivity]. Qed.

Lemma wrapu_id x : (0 <= x < 2 ^ 64)%Z -> wrapu 64 x = x.
Proof. intros. unfold wrapu. now apply Z.mod_small. Qed.

Lemma rd_pos (buf : list Z) i : 1 <= length buf ->
  exists x, rd buf (pos i (length buf)) = Ok x /\ nth_error buf (pos i (length buf)) = Some x.
Proof.
  intros H. unfold rd. destruct (nth_error buf (pos i (length buf))) eqn:E; eauto.
  apply nth_error_None in E. pose proof (pos_lt i _ H). lia.
Qed.

Lemma copy_loop_spec n : forall i old new,
  (0 <= i)%Z -> (i + Z.of_nat n < 2 ^ 64)%Z -> 1 <= length old -> n <= length new -> 1 <= length new ->
  exists new', copy_loop n i old new = Ok new' /\ length new' = length new /\
    (forall k, k < n -> nth_error new' (pos (i + Z.of_nat k) (length new)) =
                        nth_error old (pos (i + Z.of_nat k) (length old))) /\
    (forall j, (forall k, k < n -> j <> pos (i + Z.of_nat k) (length new)) ->
               nth_error new' j = nth_error new j).
Proof.
  induction n as [|n IH]; intros i old new Hi Hw Ho Hn Hne; cbn [copy_loop].
  - exists new. repeat split; auto. intros; lia.
  - rewrite slot_pos by auto. cbn [bind].
    destruct (rd_pos old i Ho) as (x & -> & Hx). cbn [bind].
    rewrite slot_pos by auto. cbn [bind].
    rewrite wr_ok by (now apply pos_lt). cbn [bind].
    rewrite wrapu_id by lia.
    destruct (IH (i + 1)%Z old (set_nth (pos i (length new)) x new)) as (new' & E & L & C & U);
      rewrite ?set_nth_length; try lia.
    rewrite set_nth_length in L, C, U.
    exists new'. split; [exact E|]. split; [exact L|]. split.
    + intros [|k] Hk.
      * rewrite Z.add_0_r. rewrite U.
        -- rewrite set_nth_same by (now apply pos_lt). auto.
        -- intros k Hk'. apply pos_distinct; auto. lia.
      * specialize (C k ltac:(lia)).
        replace (i + Z.of_nat (S k))%Z with (i + 1 + Z.of_nat k)%Z by lia. exact C.
    + intros j Hj. rewrite U.
      * rewrite set_nth_other; auto. specialize (Hj 0 ltac:(lia)). rewrite Z.add_0_r in Hj. auto.
      * intros k Hk. specialize (Hj (S k) ltac:(lia)).
        replace (i + 1 + Z.of_nat k)%Z with (i + Z.of_nat (S k))%Z by lia. exact Hj.
Qed.

Lemma resize_repr q l : Repr q l -> (dbot q < 2 ^ 64)%Z ->
  exists q', deque_resize q = Ok q' /\ Repr q' l /\ dtop q' = dtop q /\ dbot q' = dbot q /\
    length (dbuf q') = 2 * length (dbuf q).
Proof.
  intros [Ht Hb Hs Hf Hc] Hw. unfold deque_resize.
  replace (Z.to_nat (dbot q - dtop q)) with (length l) by lia.
  destruct (copy_loop_spec (length l) (dtop q) (dbuf q) (repeat 0%Z (2 * length (dbuf q))))
    as (new & E & L & C & _); rewrite ?repeat_length; try lia.
  rewrite E. cbn [bind]. rewrite repeat_length in L, C.
  eexists. split; [reflexivity|]. split; [|cbn [dtop dbot dbuf]; auto].
  constructor; cbn [dtop dbot dbuf]; try lia.
  intros k x Hk. rewrite L, C.
  - now apply Hc.
  - apply nth_error_Some. congruence.
Qed.

Lemma store_repr q l w : Repr q l -> length l < length (dbuf q) ->
  Repr {| dtop := dtop q; dbot := (dbot q + 1)%Z; dbuf := set_nth (pos (dbot q) (length (dbuf q))) w (dbuf q) |}
       (l ++ [w]).
Proof.
  intros [Ht Hb Hs Hf Hc] Hl. constructor; cbn [dtop dbot dbuf]; rewrite ?app_length, ?set_nth_length; cbn [length]; try lia.
  intros k x Hk. destruct (Nat.lt_ge_cases k (length l)) as [L|L].
  - rewrite nth_error_app1 in Hk by auto.
    rewrite set_nth_other; [now apply Hc|].
    intros E. symmetry in E. revert E. apply pos_distinct; auto. lia.
  - rewrite nth_error_app2 in Hk by auto.
    destruct (k - length l) as [|m] eqn:D; [|destruct m; discriminate].
    cbn in Hk. injection Hk as <-. replace (dtop q + Z.of_nat k)%Z with (dbot q) by lia.
    apply set_nth_same. now apply pos_lt.
Qed.

Lemma push_repr q l w : Repr q l -> (dbot q + 1 < 2 ^ 64)%Z -> (Z.of_nat (length (dbuf q)) < 2 ^ 63)%Z ->
  exists q', deque_push q w = Ok q' /\ Repr q' (l ++ [w]) /\ dbot q' = (dbot q + 1)%Z /\
    length (dbuf q') <= Nat.max (length (dbuf q)) (2 * length l).
Proof.
  intros R Hw Hsz. pose proof R as [Ht Hb Hs Hf Hc]. unfold deque_push.
  rewrite (wrapu_id (_ - 1)), (wrapu_id (_ - _)) by lia.
  destruct (Z.ltb_spec (Z.of_nat (length (dbuf q)) - 1) (dbot q - dtop q)) as [L|L].
  - destruct (resize_repr q l R ltac:(lia)) as (q1 & -> & R1 & T1 & B1 & S1). cbn [bind].
    rewrite slot_pos by lia. cbn [bind]. rewrite wr_ok by (apply pos_lt; lia). cbn [bind].
    rewrite wrapu_id by lia. eexists. split; [reflexivity|].
    rewrite <- B1 at 1 2. split; [apply store_repr; auto; lia|].
    cbn [dbot dbuf]. rewrite set_nth_length. split; lia.
  - cbn [bind]. rewrite slot_pos by lia. cbn [bind]. rewrite wr_ok by (apply pos_lt; lia). cbn [bind].
    rewrite wrapu_id by lia. eexists. split; [reflexivity|].
    split; [apply store_repr; auto; lia|]. cbn [dbot dbuf]. rewrite set_nth_length. split; lia.
Qed.

Lemma steal_repr q l : Repr q l -> (dbot q < 2 ^ 64)%Z ->
  exists q', deque_steal q = Ok (hd EMPTY l, q') /\ Repr q' (tl l) /\ dbot q' = dbot q /\ dbuf q' = dbuf q.
Proof.
  intros R Hw. pose proof R as [Ht Hb Hs Hf Hc]. unfold deque_steal.
  destruct l as [|x l]; cbn [length hd tl] in *.
  - destruct (Z.ltb_spec (dtop q) (dbot q)); [lia|]. exists q. auto.
  - destruct (Z.ltb_spec (dtop q) (dbot q)); [|lia].
    rewrite slot_pos by lia. cbn [bind].
    pose proof (Hc 0 x eq_refl) as H0. rewrite Z.add_0_r in H0. rewrite (rd_ok _ _ _ H0). cbn [bind].
    rewrite wrapu_id by lia. eexists. split; [reflexivity|]. split; [|auto].
    constructor; cbn [dtop dbot dbuf]; try lia.
    intros k y Hk. specialize (Hc (S k) y Hk).
    replace (dtop q + 1 + Z.of_nat k)%Z with (dtop q + Z.of_nat (S k))%Z by lia. exact Hc.
Qed.

Lemma take_repr q l : Repr q l -> (dbot q < 2 ^ 64)%Z -> (0 < dbot q)%Z ->
  exists q', deque_take q = Ok (last l EMPTY, q') /\ Repr q' (removelast l) /\ dbuf q' = dbuf q /\
    (0 <= dbot q' <= dbot q)%Z /\ (l = [] \/ length l = 1 -> dbot q' = dbot q) /\ (1 < length l -> (0 < dbot q')%Z).
Proof.
  intros R Hw Hp. pose proof R as [Ht Hb Hs Hf Hc]. unfold deque_take.
  rewrite (wrapu_id (dbot q - 1)) by lia. cbv zeta.
  destruct (destruct_list l) as [(x & l' & E)|E].
  2:{ subst l. cbn [length] in *. destruct (Z.leb_spec (dtop q) (dbot q - 1)); [lia|].
      rewrite wrapu_id by lia. eexists. split; [reflexivity|].
      replace (dbot q - 1 + 1)%Z with (dbot q) by lia. cbn [dtop dbot dbuf].
      split; [destruct q; exact R|]. split; auto. split; [lia|]. split; intros; cbn [length] in *; auto; lia. }
  assert (Hne : l <> []) by (subst; discriminate). clear x l' E.
  destruct (exists_last Hne) as (r & x & ->).
  rewrite app_length in *. cbn [length] in *.
  destruct (Z.leb_spec (dtop q) (dbot q - 1)); [|lia].
  rewrite slot_pos by lia. cbn [bind].
  assert (Hx : nth_error (r ++ [x]) (length r) = Some x) by (rewrite nth_error_app2, Nat.sub_diag; auto).
  apply Hc in Hx. replace (dtop q + Z.of_nat (length r))%Z with (dbot q - 1)%Z in Hx by lia.
  rewrite (rd_ok _ _ _ Hx). cbn [bind]. rewrite last_last, removelast_last.
  destruct (Z.eqb_spec (dtop q) (dbot q - 1)) as [E|E].
  - rewrite !wrapu_id by lia. eexists. split; [reflexivity|]. cbn [dtop dbot dbuf].
    assert (length r = 0) by lia. destruct r; [|discriminate].
    split; [constructor; cbn [dtop dbot dbuf length] in *; try lia; intros [|k] y Hk; discriminate|].
    split; auto. split; [lia|]. split; cbn [length]; intros; lia.
  - eexists. split; [reflexivity|]. cbn [dtop dbot dbuf].
    split; [|split; auto; split; [lia|]; split; intros; destruct r; cbn [length] in *; try lia; destruct H0; try discriminate; lia].
    constructor; cbn [dtop dbot dbuf]; try lia.
    intros k y Hk. apply Hc. rewrite nth_error_app1; auto. apply nth_error_Some. congruence.
Qed.

Lemma run_repr ops : forall q l p n0,
  Repr q l -> (dbot q <= Z.of_nat p)%Z -> length (dbuf q) <= n0 + 2 * p ->
  (Z.of_nat (n0 + 2 * (p + pushes ops)) < 2 ^ 63)%Z ->
  (0 < dbot q)%Z \/ take_after_push ops ->
  exists q', drun q ops = Ok (q', snd (spec_run l ops)) /\ Repr q' (fst (spec_run l ops)).
Proof.
  induction ops as [|o ops IH]; intros q l p n0 R Hp Hs Hb Ht; cbn [drun spec_run].
  - exists q. auto.
  - pose proof R as [R1 R2 R3 R4 R5].
    destruct o as [w| |]; cbn [dstep spec_step pushes take_after_push] in *.
    + destruct (push_repr q l w R) as (q1 & -> & RR & B & S); [lia|lia|]. cbn [bind fst snd].
      destruct (IH q1 (l ++ [w]) (Datatypes.S p) n0 RR) as (q2 & E & R'); try lia.
      rewrite E. cbn [bind fst snd]. destruct (spec_run (l ++ [w]) ops); cbn [fst snd] in *. eauto.
    + destruct Ht as [Ht|[]].
      destruct (take_repr q l R) as (q1 & -> & RR & BF & B & B0 & B1); [lia|lia|]. cbn [bind fst snd].
      assert (0 < dbot q1)%Z.
      { destruct l as [|x [|y l]]; [rewrite B0; auto|rewrite B0; auto|apply B1; cbn [length]; lia]. }
      destruct (IH q1 (removelast l) p n0 RR) as (q2 & E & R'); rewrite ?BF; try lia; auto.
      rewrite E. cbn [bind fst snd].
      destruct l as [|x l]; cbn [removelast last] in *.
      * destruct (spec_run [] ops); cbn [fst snd] in *. eauto.
      * destruct (spec_run _ ops); cbn [fst snd] in *. eauto.
    + destruct (steal_repr q l R) as (q1 & -> & RR & B & BF); [lia|]. cbn [bind fst snd].
      destruct (IH q1 (tl l) p n0 RR) as (q2 & E & R'); rewrite ?BF; try lia; auto.
      { destruct Ht; [left; lia|auto]. }
      rewrite E. cbn [bind fst snd].
      destruct l as [|x l]; cbn [hd tl] in *.
      * destruct (spec_run [] ops); cbn [fst snd] in *. eauto.
      * destruct (spec_run _ ops); cbn [fst snd] in *. eauto.
Qed.

Lemma init_repr n : 1 <= n -> Repr (deque_init n) [].
Proof.
  intros H. constructor; cbn; rewrite ?repeat_length; try lia. intros [|k] x; discriminate.
Qed.

(* every operation list from a fresh queue *)
Lemma deque_is_sequence n ops : 1 <= n -> take_after_push ops ->
  (Z.of_nat (n + 2 * pushes ops) < 2 ^ 63)%Z ->
  exists q, drun (deque_init n) ops = Ok (q, snd (spec_run [] ops)).
Proof.
  intros Hn Ht Hb. destruct (run_repr ops (deque_init n) [] 0 n) as (q & E & _); auto.
  - now apply init_repr.
  - cbn. lia.
  - cbn. rewrite repeat_length. lia.
  - eauto.
Qed.

(* the state after any such history is a queue that still serves everything left in it *)
Lemma take_on_empty n ops : 1 <= n -> take_after_push ops -> 1 <= pushes ops ->
  (Z.of_nat (n + 2 * pushes ops) < 2 ^ 63)%Z -> fst (spec_run [] ops) = [] ->
  exists q q', drun (deque_init n) ops = Ok (q, snd (spec_run [] ops)) /\
    deque_take q = Ok (EMPTY, q') /\ Repr q' [].
Proof.
  intros Hn Ht H1 Hb He.
  destruct (run_repr (ops ++ [DTake]) (deque_init n) [] 0 n) as (q & E & R); auto.
  - now apply init_repr.
  - cbn. lia.
  - cbn. rewrite repeat_length. lia.
  - assert (pushes (ops ++ [DTake]) = pushes ops) as ->; auto.
    clear. induction ops as [|[] r IH]; cbn [pushes app]; auto.
  - right. clear - Ht H1. induction ops as [|[] r IH]; cbn [pushes app take_after_push] in *; auto. lia.
  - destruct (deque_is_sequence n ops Hn Ht Hb) as (q0 & E0).
    exists q0. assert (A : forall a b l, spec_run l (a ++ b) =
      (fst (spec_run (fst (spec_run l a)) b), snd (spec_run l a) ++ snd (spec_run (fst (spec_run l a)) b))).
    { clear. induction a as [|o a IH]; intros b l; cbn [app spec_run].
      - cbn [fst snd app]. now destruct (spec_run l b).
      - destruct (spec_step l o) as [l1 o1]. rewrite IH. destruct (spec_run l1 a); cbn [fst snd].
        now rewrite app_assoc. }
    assert (D : forall a b q, drun q (a ++ b) =
      do x <- drun q a; do y <- drun (fst x) b; Ok (fst y, snd x ++ snd y)).
    { clear. induction a as [|o a IH]; intros b q; cbn [app drun].
      - cbn [bind fst snd app]. destruct (drun q b) as [[]| | |]; reflexivity.
      - destruct (dstep q o) as [[q1 o1]| | |]; cbn [bind fst snd]; auto. rewrite IH.
        destruct (drun q1 a) as [[q2 o2]| | |]; cbn [bind fst snd]; auto.
        destruct (drun q2 b) as [[q3 o3]| | |]; cbn [bind fst snd]; auto. now rewrite app_assoc. }
    rewrite D, E0 in E. cbn [bind fst snd drun dstep] in E.
    rewrite A, He in R, E. cbn [fst snd spec_run spec_step] in R, E.
    destruct (deque_take q0) as [[x q1]| | |]; cbn [bind fst snd] in E; try discriminate.
    exists q1. assert (E1 : q1 = q /\ x = EMPTY).
    { injection E as -> E. split; auto.
      apply app_inv_head in E. congruence. }
    destruct E1 as [-> ->]. auto.
Qed.

(* the refutation: a fresh queue *)
Lemma take_on_fresh n : 1 <= n -> (Z.of_nat n < 2 ^ 63)%Z ->
  exists q, deque_take (deque_init n) = Ok (0%Z, q) /\ dbot q = (2 ^ 64 - 1)%Z /\
    (exists q', deque_steal q = Ok (0%Z, q')).
Proof.
  intros Hn Hb. unfold deque_take, deque_init. cbn [dtop dbot dbuf].
  change (wrapu 64 (0 - 1)) with (2 ^ 64 - 1)%Z. cbv zeta.
  change (0 <=? 2 ^ 64 - 1)%Z with true. cbv iota. rewrite repeat_length.
  rewrite slot_pos by auto. cbn [bind].
  assert (Z0 : forall k, k < n -> rd (repeat 0%Z n) k = Ok 0%Z).
  { intros k Hk. apply rd_ok. rewrite nth_error_repeat; auto. }
  rewrite Z0 by (now apply pos_lt). cbn [bind].
  change (0 =? 2 ^ 64 - 1)%Z with false. cbv iota.
  eexists. split; [reflexivity|]. split; [reflexivity|].
  unfold deque_steal. cbn [dtop dbot dbuf]. change (0 <? 2 ^ 64 - 1)%Z with true. cbv iota.
  rewrite repeat_length, slot_pos by auto. cbn [bind]. rewrite Z0 by (now apply pos_lt). cbn [bind]. eauto.
Qed.

(* ---- task_take ---- *)
Lemma take_loop_spec k : forall q l avail taken,
  Repr q l -> (dbot q < 2 ^ 64)%Z -> Forall (fun w => w <> EMPTY) l ->
  exists q', take_loop k q avail taken =
      Ok (taken ++ firstn k l, q', (avail - Z.of_nat (length (firstn k l)))%Z) /\
    Repr q' (skipn k l) /\ dbot q' = dbot q.
Proof.
  induction k as [|k IH]; intros q l avail taken R Hb HF; cbn [take_loop].
  - exists q. cbn [firstn skipn length]. rewrite app_nil_r. replace (avail - Z.of_nat 0)%Z with avail by lia. auto.
  - destruct (steal_repr q l R Hb) as (q1 & -> & R1 & B & _). cbn [bind fst snd].
    destruct l as [|x l]; cbn [hd tl firstn skipn] in *.
    + change (EMPTY =? EMPTY)%Z with true. cbv iota. exists q1. rewrite app_nil_r. cbn [length].
      replace (avail - Z.of_nat 0)%Z with avail by lia. auto.
    + pose proof (Forall_inv HF) as Hx. cbv beta in Hx.
      destruct (Z.eqb_spec x EMPTY); [contradiction|].
      destruct (IH q1 l (avail - 1)%Z (taken ++ [x]) R1) as (q2 & -> & R2 & B2);
        [lia|now apply Forall_inv_tail in HF|].
      exists q2. rewrite <- app_assoc. cbn [app length]. split; [f_equal; f_equal; lia|]. split; auto; lia.
Qed.

(* enqueue_tasks keeps the counter equal to the number queued, task_take moves all of them *)
Definition Counted (q : deque) (avail : Z) (l : list Z) : Prop :=
  Repr q l /\ avail = Z.of_nat (length l) /\ Forall (fun w => w <> EMPTY) l.

Lemma enqueue_counted q avail l w : Counted q avail l -> w <> EMPTY ->
  (dbot q + 1 < 2 ^ 64)%Z -> (Z.of_nat (length (dbuf q)) < 2 ^ 63)%Z ->
  exists q' avail', enqueue_tasks q avail w = Ok (q', avail') /\ Counted q' avail' (l ++ [w]).
Proof.
  intros (R & Ha & HF) Hw Hb Hs. unfold enqueue_tasks.
  destruct (push_repr q l w R Hb Hs) as (q' & -> & R' & _). cbn [bind].
  eexists _, _. split; [reflexivity|]. split; [exact R'|]. split.
  - rewrite app_length. cbn [length]. lia.
  - apply Forall_app. auto.
Qed.

Lemma task_take_counted q avail l : Counted q avail l -> (dbot q < 2 ^ 64)%Z ->
  exists q', task_take q avail = Ok (l, q', 0%Z) /\ Counted q' 0%Z [].
Proof.
  intros (R & Ha & HF) Hb. unfold task_take.
  destruct (take_loop_spec (Z.to_nat avail) q l avail [] R Hb HF) as (q' & -> & R' & _).
  assert (Z.to_nat avail = length l) as E by lia. rewrite E in *.
  rewrite firstn_all, skipn_all in *. cbn [app]. exists q'. split.
  - f_equal. f_equal. lia.
  - split; auto.
Qed.

(* ---- peeking ---- *)
Lemma push_top q w q' : deque_push q w = Ok q' -> dtop q' = dtop q.
Proof.
  unfold deque_push, deque_resize. destruct (_ <? _)%Z.
  - destruct (copy_loop _ _ _ _); cbn [bind]; try discriminate. cbn [dbuf dtop].
    destruct (slot _ _); cbn [bind]; try discriminate. destruct (wr _ _ _); cbn [bind]; try discriminate.
    intros E; injection E as <-; reflexivity.
  - cbn [bind]. destruct (slot _ _); cbn [bind]; try discriminate. destruct (wr _ _ _); cbn [bind]; try discriminate.
    intros E; injection E as <-; reflexivity.
Qed.

Lemma pushes_repr ws : forall q l n0, Repr q l -> dtop q = 0%Z -> length (dbuf q) <= n0 + 2 * length l ->
  (Z.of_nat (n0 + 2 * (length l + length ws)) < 2 ^ 63)%Z ->
  exists q', drun q (map DPush ws) = Ok (q', []) /\ Repr q' (l ++ ws) /\ dtop q' = 0%Z /\
    (Z.of_nat (length (dbuf q')) < 2 ^ 63)%Z.
Proof.
  induction ws as [|w ws IH]; intros q l n0 R T Hs Hb; cbn [map drun].
  - exists q. rewrite app_nil_r. cbn [length] in Hb. repeat split; auto; try apply R. lia.
  - cbn [length] in Hb. destruct (push_repr q l w R) as (q1 & E & R1 & B & S); [destruct R; lia|lia|].
    cbn [dstep]. rewrite E. cbn [bind fst snd].
    destruct (IH q1 (l ++ [w]) n0 R1) as (q2 & E2 & R2 & T2 & L2).
    + rewrite (push_top _ _ _ E). exact T.
    + rewrite app_length. cbn [length]. lia.
    + rewrite app_length. cbn [length]. lia.
    + rewrite E2. cbn [bind fst snd app]. rewrite <- app_assoc in R2. exists q2. auto.
Qed.

Lemma peek_slot q i : (0 <= i < Z.of_nat (length (dbuf q)))%Z -> (Z.of_nat (length (dbuf q)) < 2 ^ 63)%Z ->
  deque_peek q i = rd (dbuf q) (Z.to_nat i).
Proof.
  intros Hi Hs. unfold deque_peek. rewrite !wrapu_id by lia.
  destruct (Z.leb_spec i (Z.of_nat (length (dbuf q)))); [|lia].
  rewrite slot_pos by lia. cbn [bind]. unfold pos. now rewrite Z.mod_small by lia.
Qed.

(* nothing removed yet: the tasks in the order they came *)
Lemma peek_pushed n ws i w : 1 <= n -> (Z.of_nat (n + 2 * length ws) < 2 ^ 63)%Z -> nth_error ws i = Some w ->
  exists q, drun (deque_init n) (map DPush ws) = Ok (q, []) /\ deque_peek q (Z.of_nat i) = Ok w.
Proof.
  intros Hn Hb Hi. destruct (pushes_repr ws (deque_init n) [] n) as (q & E & R & T & L); auto.
  - now apply init_repr.
  - cbn. rewrite repeat_length. lia.
  - exists q. split; [exact E|]. cbn [app] in R.
    assert (Hl : i < length ws) by (apply nth_error_Some; congruence).
    pose proof (r_fit _ _ R). pose proof (r_size _ _ R). rewrite peek_slot by lia.
    pose proof (r_cell _ _ R i w Hi) as C. rewrite T in C. unfold pos in C.
    rewrite Z.mod_small in C by lia. rewrite Z.add_0_l in C. unfold rd. now rewrite C.
Qed.

(* a removed task is still shown *)
Lemma peek_removed n w : 1 <= n -> (Z.of_nat n < 2 ^ 62)%Z ->
  exists q, drun (deque_init n) [DPush w; DSteal] = Ok (q, [w]) /\ Repr q [] /\ deque_peek q 0 = Ok w.
Proof.
  intros Hn Hb.
  destruct (deque_is_sequence n [DPush w; DSteal]) as (q & E); [lia|exact I|cbn; lia|].
  destruct (run_repr [DPush w; DSteal] (deque_init n) [] 0 n) as (q' & E' & R').
  { apply init_repr; lia. } { cbn; lia. } { cbn. rewrite repeat_length. lia. } { cbn; lia. } { right; exact I. }
  rewrite E in E'. injection E' as <-. exists q. split; [exact E|]. split; [exact R'|].
  cbn [drun dstep] in E. unfold deque_push in E. cbn [deque_init dbuf dbot dtop] in E.
  rewrite repeat_length in E. rewrite (wrapu_id (0 - 0)), (wrapu_id (Z.of_nat n - 1)) in E by lia.
  destruct (Z.ltb_spec (Z.of_nat n - 1) (0 - 0)) as [Q|Q]; [lia|]. cbn [bind dbuf dtop dbot deque_init] in E.
  rewrite repeat_length, slot_pos in E by lia. cbn [bind] in E.
  rewrite wr_ok in E by (rewrite repeat_length; apply pos_lt; lia). cbn [bind fst snd] in E.
  unfold deque_steal in E. cbn [dtop dbot dbuf] in E. rewrite (wrapu_id (0 + 1)) in E by lia.
  change (0 <? 0 + 1)%Z with true in E. cbv iota in E.
  rewrite set_nth_length, repeat_length, slot_pos in E by lia. cbn [bind] in E.
  destruct (rd_pos (set_nth (pos 0 n) w (repeat 0%Z n)) 0) as (x & X & _); [rewrite set_nth_length, repeat_length; lia|].
  rewrite set_nth_length, repeat_length in X. rewrite X in E. cbn [bind fst snd] in E. injection E as <- _.
  destruct n as [|n]; [lia|]. cbn [repeat].
  rewrite peek_slot; cbn [dbuf length]; rewrite ?repeat_length; [reflexivity|lia|lia].
Qed.

(* one past the end shows the first slot again *)
Lemma peek_past_end q l w r : Repr q l -> dtop q = 0%Z -> (Z.of_nat (length (dbuf q)) < 2 ^ 63)%Z -> l = w :: r ->
  deque_peek q (Z.of_nat (length (dbuf q))) = Ok w.
Proof.
  intros R T Hs ->. pose proof (r_size _ _ R). unfold deque_peek. rewrite !wrapu_id by lia.
  destruct (Z.leb_spec (Z.of_nat (length (dbuf q))) (Z.of_nat (length (dbuf q)))); [|lia].
  rewrite slot_pos by lia. cbn [bind]. unfold pos. rewrite Z_mod_same_full.
  pose proof (r_cell _ _ R 0 w eq_refl) as C. rewrite T in C. unfold pos in C. change (0 + Z.of_nat 0)%Z with 0%Z in C.
  rewrite Z.mod_0_l in C by lia. unfold rd. now rewrite C.
Qed.

Lemma peek_outside q i : (- 2 ^ 31 <= i < 0 \/ Z.of_nat (length (dbuf q)) < i < 2 ^ 31)%Z ->
  (Z.of_nat (length (dbuf q)) < 2 ^ 63)%Z -> deque_peek q i = Ok 0%Z.
Proof.
  intros H Hs. unfold deque_peek.
  destruct (Z.leb_spec (wrapu 64 i) (Z.of_nat (length (dbuf q)))) as [L|L]; [|reflexivity].
  unfold wrapu in L. change (2 ^ 64)%Z with 18446744073709551616%Z in L. change (2 ^ 63)%Z with 9223372036854775808%Z in Hs.
  change (2 ^ 31)%Z with 2147483648%Z in H. exfalso. lia.
Qed.
