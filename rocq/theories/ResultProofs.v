(* Specification and proofs for ResultModel. *)
From Verif Require Import Base ResultModel.

(* ---- specification: results by id, newest ids last ---- *)
(* value (0: none yet), finished, cancelled *)
Record spec_res := { svalue : Z; sdone : bool; scancel : bool }.
Definition spec := list spec_res.
Fixpoint at_ (s : spec) (i : nat) (f : spec_res -> spec_res) : spec :=
  match s, i with [], _ => [] | x :: r, 0 => f x :: r | x :: r, S k => x :: at_ r k f end.
(* None: an id that was never handed out is used *)
Definition spec_rstep (s : spec) (o : rop) : option (spec * rout) :=
  let known i (k : spec_res -> option (spec * rout)) := match nth_error s i with Some x => k x | None => None end in
  match o with
  | RCreate => Some (s ++ [{| svalue := 0; sdone := false; scancel := false |}], OId (length s))
  | RFinish i v => known i (fun _ => Some (at_ s i (fun x => {| svalue := if (v =? 0)%Z then svalue x else v; sdone := true; scancel := scancel x |}), OUnit))
  | RGet i => known i (fun x => Some (s, OVal (svalue x)))
  | RReady i => known i (fun x => Some (s, OBool (sdone x)))
  | RCancel i => Some ((if 0 <? i then at_ s i (fun x => {| svalue := svalue x; sdone := sdone x; scancel := true |}) else s), OUnit)
  | RAsk i => known i (fun x => Some (s, OBool (scancel x)))
  end.
Fixpoint spec_rsteps (s : spec) (l : list rop) : option (spec * list rout) :=
  match l with
  | [] => Some (s, [])
  | o :: k => match spec_rstep s o with None => None | Some (s1, r) => match spec_rsteps s1 k with None => None | Some (s2, rs) => Some (s2, r :: rs) end end
  end.

(* ---- proofs ---- *)
Lemma at_set s : forall i f, at_ s i f = match nth_error s i with Some x => set_nth i (f x) s | None => s end.
Proof.
  induction s as [|x s IH]; intros [|i] f; try reflexivity. cbn [at_ nth_error]. rewrite IH. destruct (nth_error s i); reflexivity.
Qed.
Definition rel1 (x : spec_res) (r : res) : Prop :=
  svalue x = (if rready r then rval r else 0%Z) /\ sdone x = (rready r || rterm r) /\ scancel x = rcancel r.
Definition rel (q : nat) (s : spec) (m : rst) : Prop :=
  rnext m = length s /\ (length s = 0 -> rtab m = []) /\ (0 < length s -> exists k, length (rtab m) = k * q /\ length s <= k * q) /\
  forall i x, nth_error s i = Some x -> exists r, nth_error (rtab m) i = Some (Some r) /\ rel1 x r.
Lemma slot_ok t i r : nth_error t i = Some (Some r) -> slot_of t i = Ok r.
Proof. intros H. unfold slot_of. rewrite (rd_ok _ _ _ H). reflexivity. Qed.
Lemma nth_lt {A} (l : list A) i x : nth_error l i = Some x -> i < length l.
Proof. intros H. apply nth_error_Some. congruence. Qed.
Lemma nth_realloc (l : list (option res)) n i x : i < n -> nth_error l i = Some x -> nth_error (realloc l n) i = Some x.
Proof.
  intros I H. unfold realloc. rewrite nth_error_app1 by (rewrite firstn_length; apply nth_lt in H; lia).
  rewrite nth_error_firstn. destruct (Nat.ltb_spec i n); [exact H|lia].
Qed.
Lemma realloc_length {A} (l : list (option A)) n : length (realloc l n) = n.
Proof. unfold realloc. rewrite app_length, firstn_length, repeat_length. lia. Qed.

Lemma rel_create q s m : 0 < q -> rel q s m -> exists m', create_result q m = Ok (m', length s) /\ rel q (s ++ [{| svalue := 0; sdone := false; scancel := false |}]) m'.
Proof.
  intros Q (N & Z0 & G & V). unfold create_result. rewrite N.
  set (t := if (length s mod q =? 0) || (length (rtab m) =? 0) then realloc (rtab m) (length s + q) else rtab m).
  assert (LT : length s < length t /\ (exists k, length t = k * q) /\ forall i x, i < length s -> nth_error (rtab m) i = Some x -> nth_error t i = Some x).
  { unfold t. destruct (Nat.eqb_spec (length s mod q) 0) as [M|M]; cbn [orb].
    - rewrite realloc_length. split; [lia|]. split; [|intros i x I H; apply nth_realloc; [lia|exact H]].
      exists (length s / q + 1). rewrite (Nat.div_mod (length s) q) at 1 by lia. rewrite M. lia.
    - assert (P : 0 < length s) by (destruct (length s); [rewrite Nat.mod_0_l in M by lia; lia|lia]). destruct (G P) as (k & K & L).
      assert (KN : length s <> k * q) by (intros E; rewrite E, Nat.mod_mul in M by lia; lia).
      destruct (Nat.eqb_spec (length (rtab m)) 0) as [E|E]; [lia|]. rewrite K. split; [lia|]. split; [eauto|auto]. }
  destruct LT as (L & (k & K) & KEEP). rewrite wr_ok by exact L. cbn [bind]. eexists. split; [reflexivity|].
  split; [cbn; rewrite app_length; cbn; lia|]. split; [rewrite app_length; cbn; lia|]. split.
  - intros _. exists k. cbn [rtab]. rewrite set_nth_length, app_length. cbn. split; [exact K|lia].
  - intros i x H. cbn [rtab]. destruct (Nat.lt_ge_cases i (length s)) as [I|I].
    + rewrite nth_error_app1 in H by exact I. destruct (V i x H) as (r & R & RL). exists r. split; [|exact RL]. rewrite set_nth_other by lia. now apply KEEP.
    + rewrite nth_error_app2 in H by exact I. assert (i = length s) as -> by (apply nth_lt in H; cbn in H; lia). rewrite Nat.sub_diag in H. injection H as <-.
      rewrite set_nth_same by exact L. eexists. split; [reflexivity|]. repeat split.
Qed.
Lemma rel_set q s m i x r x' r' : rel q s m -> nth_error s i = Some x -> nth_error (rtab m) i = Some (Some r) -> rel1 x' r' ->
  rel q (set_nth i x' s) {| rnext := rnext m; rtab := set_nth i (Some r') (rtab m) |}.
Proof.
  intros (N & Z & G & V) H R R1. split; [cbn; now rewrite set_nth_length|]. cbn [rtab]. rewrite !set_nth_length.
  split; [intros E; apply nth_lt in H; lia|]. split; [exact G|].
  intros j y J. destruct (Nat.eq_dec i j) as [<-|NE].
  - rewrite set_nth_same in J by (eapply nth_lt; eauto). injection J as <-. rewrite set_nth_same by (eapply nth_lt; eauto). eauto.
  - rewrite set_nth_other in J by exact NE. rewrite set_nth_other by exact NE. exact (V j y J).
Qed.
Lemma rstep_refines q s m o s' r : 0 < q -> rel q s m -> spec_rstep s o = Some (s', r) -> exists m', rstep q m o = Ok (m', r) /\ rel q s' m'.
Proof.
  intros Q R H. destruct o as [|i v|i|i|i|i]; cbn [spec_rstep rstep] in *.
  - injection H as <- <-. destruct (rel_create q s m Q R) as (m' & -> & R'). cbn. eauto.
  - destruct (nth_error s i) as [x|] eqn:E; [|discriminate]. injection H as <- <-. rewrite at_set, E.
    destruct R as (N & Z & G & V) eqn:ER. destruct (V i x E) as (y & Y & (Y1 & Y2 & Y3)). unfold finish_result. rewrite (slot_ok _ _ _ Y). cbn [bind].
    rewrite wr_ok by (eapply nth_lt; eauto). cbn [bind]. eexists. split; [reflexivity|]. eapply rel_set; eauto.
    destruct (v =? 0)%Z; unfold rel1; cbn; [|now rewrite Y3]. rewrite Y1, Y3, orb_true_r. auto.
  - destruct (nth_error s i) as [x|] eqn:E; [|discriminate]. injection H as <- <-. pose proof R as (_ & _ & _ & V). destruct (V i x E) as (y & Y & (Y1 & _)).
    unfold results_for. rewrite (slot_ok _ _ _ Y). cbn. rewrite Y1. eauto.
  - destruct (nth_error s i) as [x|] eqn:E; [|discriminate]. injection H as <- <-. pose proof R as (_ & _ & _ & V). destruct (V i x E) as (y & Y & (_ & Y2 & _)).
    unfold is_ready. rewrite (slot_ok _ _ _ Y). cbn. rewrite Y2. eauto.
  - injection H as <- <-. unfold set_canceled. pose proof R as (N & _ & _ & V). rewrite N. destruct (0 <? i); cbn [andb]; [|cbn [bind]; eauto].
    rewrite at_set. destruct (nth_error s i) as [x|] eqn:E.
    + destruct (Nat.ltb_spec i (length s)); [|apply nth_lt in E; lia]. destruct (V i x E) as (y & Y & (Y1 & Y2 & Y3)). rewrite (slot_ok _ _ _ Y). cbn [bind].
      rewrite wr_ok by (eapply nth_lt; eauto). cbn [bind]. eexists. split; [reflexivity|]. rewrite <- N. eapply rel_set; eauto. unfold rel1; cbn. auto.
    + apply nth_error_None in E. destruct (Nat.ltb_spec i (length s)); [lia|]. cbn [bind]. eauto.
  - destruct (nth_error s i) as [x|] eqn:E; [|discriminate]. injection H as <- <-. pose proof R as (_ & _ & _ & V). destruct (V i x E) as (y & Y & (_ & _ & Y3)).
    unfold is_canceled. rewrite (slot_ok _ _ _ Y). cbn. rewrite Y3. eauto.
Qed.
Lemma rsteps_refine q l : forall s m s' rs, 0 < q -> rel q s m -> spec_rsteps s l = Some (s', rs) -> exists m', rsteps q m l = Ok (m', rs) /\ rel q s' m'.
Proof.
  induction l as [|o l IH]; intros s m s' rs Q R H; cbn [spec_rsteps rsteps] in *.
  - injection H as <- <-. eauto.
  - destruct (spec_rstep s o) as [[s1 r]|] eqn:E; [|discriminate]. destruct (spec_rsteps s1 l) as [[s2 rs2]|] eqn:E2; [|discriminate]. injection H as <- <-.
    destruct (rstep_refines q s m o s1 r Q R E) as (m1 & -> & R1). cbn [bind fst snd]. destruct (IH s1 m1 s2 rs2 Q R1 E2) as (m2 & -> & R2). cbn. eauto.
Qed.
Lemma rel0 q : rel q [] rst0.
Proof. split; [reflexivity|]. split; [reflexivity|]. split; [cbn; lia|]. intros [|i] x H; discriminate. Qed.
Lemma results_refine q l s rs : 0 < q -> spec_rsteps [] l = Some (s, rs) -> exists m, rsteps q rst0 l = Ok (m, rs).
Proof. intros Q H. destruct (rsteps_refine q l [] rst0 s rs Q (rel0 q) H) as (m & E & _). eauto. Qed.

(* the reference keeps a value once given: facts about it *)
Lemma spec_keeps l : forall s s' rs i x, spec_rsteps s l = Some (s', rs) -> nth_error s i = Some x ->
  (forall v, ~ In (RFinish i v) l) -> exists x', nth_error s' i = Some x' /\ svalue x' = svalue x /\ sdone x' = sdone x.
Proof.
  induction l as [|o l IH]; intros s s' rs i x H N F; cbn [spec_rsteps] in H.
  - injection H as <- <-. eauto.
  - destruct (spec_rstep s o) as [[s1 r]|] eqn:E; [|discriminate]. destruct (spec_rsteps s1 l) as [[s2 rs2]|] eqn:E2; [|discriminate]. injection H as <- <-.
    assert (X : exists x1, nth_error s1 i = Some x1 /\ svalue x1 = svalue x /\ sdone x1 = sdone x).
    { destruct o as [|j v|j|j|j|j]; cbn [spec_rstep] in E.
      - injection E as <- <-. exists x. split; [|auto]. rewrite nth_error_app1 by (eapply nth_lt; eauto). exact N.
      - destruct (nth_error s j) as [y|] eqn:J; [|discriminate]. injection E as <- <-. rewrite at_set, J. assert (j <> i) by (intros ->; exact (F v (or_introl eq_refl))).
        exists x. rewrite set_nth_other by assumption. auto.
      - destruct (nth_error s j); [|discriminate]. injection E as <- <-. eauto.
      - destruct (nth_error s j); [|discriminate]. injection E as <- <-. eauto.
      - injection E as <- <-. destruct (0 <? j); [|eauto]. rewrite at_set. destruct (nth_error s j) as [y|] eqn:J; [|eauto]. destruct (Nat.eq_dec j i) as [->|].
        + rewrite N in J. injection J as <-. eexists. rewrite set_nth_same by (eapply nth_lt; eauto). split; [reflexivity|]. auto.
        + rewrite set_nth_other by assumption. eauto.
      - destruct (nth_error s j); [|discriminate]. injection E as <- <-. eauto. }
    destruct X as (x1 & N1 & V1 & D1). destruct (IH s1 s2 rs2 i x1 E2 N1) as (x' & N' & V' & D'); [intros v V; exact (F v (or_intror V))|].
    exists x'. split; [exact N'|]. split; congruence.
Qed.
(* created, then finished with v: asking gives 0 before, v ever after *)
Lemma value_from_then_on q pre mid post : 0 < q -> forall v s rs, (v <> 0)%Z ->
  let i := length (filter (fun o => match o with RCreate => true | _ => false end) pre) in
  (forall w, ~ In (RFinish i w) (mid ++ post)) ->
  spec_rsteps [] (pre ++ RCreate :: mid ++ RFinish i v :: post ++ [RGet i]) = Some (s, rs) ->
  exists m out, rsteps q rst0 (pre ++ RCreate :: mid ++ RFinish i v :: post ++ [RGet i]) = Ok (m, out) /\
    nth_error out (length pre) = Some (OId i) /\ last out OUnit = OVal v.
Proof.
  intros Q v s rs V i F H. destruct (results_refine q _ s rs Q H) as (m & E). exists m, rs. split; [exact E|].
  assert (APP : forall l1 l2 s0 s3 o3, spec_rsteps s0 (l1 ++ l2) = Some (s3, o3) -> exists s1 o1 o2, spec_rsteps s0 l1 = Some (s1, o1) /\ spec_rsteps s1 l2 = Some (s3, o2) /\ o3 = o1 ++ o2 /\ length o1 = length l1).
  { induction l1 as [|o l1 IH]; intros l2 s0 s3 o3 X; cbn [app spec_rsteps] in *; [exists s0, [], o3; auto|].
    destruct (spec_rstep s0 o) as [[s1 r]|]; [|discriminate]. destruct (spec_rsteps s1 (l1 ++ l2)) as [[s2 rs2]|] eqn:X2; [|discriminate]. injection X as <- <-.
    destruct (IH l2 s1 s2 rs2 X2) as (sa & oa & ob & A & B & C & D). exists sa, (r :: oa), ob. rewrite A. split; [reflexivity|]. split; [exact B|]. split; [cbn; congruence|cbn; congruence]. }
  assert (LEN : forall l s0 s1 o1, spec_rsteps s0 l = Some (s1, o1) -> length s1 = length s0 + length (filter (fun o => match o with RCreate => true | _ => false end) l)).
  { induction l as [|o l IH]; intros s0 s1 o1 X; cbn [spec_rsteps] in X; [injection X as <- <-; cbn; lia|].
    destruct (spec_rstep s0 o) as [[sa r]|] eqn:Y; [|discriminate]. destruct (spec_rsteps sa l) as [[sb ob]|] eqn:X2; [|discriminate]. injection X as <- <-.
    rewrite (IH _ _ _ X2). assert (length sa = length s0 + match o with RCreate => 1 | _ => 0 end).
    { destruct o as [|j w|j|j|j|j]; cbn [spec_rstep] in Y; try (destruct (nth_error s0 j) as [y|] eqn:J; [|discriminate]); injection Y as <- <-.
      - rewrite app_length. cbn. lia.
      - rewrite at_set, J, set_nth_length. lia.
      - lia.
      - lia.
      - destruct (0 <? j); [|lia]. rewrite at_set. destruct (nth_error s0 j); [rewrite set_nth_length|]; lia.
      - lia. }
    cbn [filter]. destruct o; cbn [length]; lia. }
  destruct (APP pre _ _ _ _ H) as (s1 & o1 & o2 & A1 & B1 & C1 & D1). pose proof (LEN _ _ _ _ A1) as L1. cbn [length Nat.add] in L1. fold i in L1.
  cbn [spec_rsteps spec_rstep] in B1. destruct (spec_rsteps (s1 ++ _) _) as [[s2 o3]|] eqn:B2 in B1; [|discriminate]. injection B1 as <- <-.
  split. { rewrite C1, nth_error_app2 by lia. rewrite D1, Nat.sub_diag. cbn. now rewrite L1. }
  destruct (APP mid _ _ _ _ B2) as (s3 & o4 & o5 & A3 & B3 & C3 & D3).
  assert (N1 : nth_error (s1 ++ [{| svalue := 0; sdone := false; scancel := false |}]) i = Some {| svalue := 0; sdone := false; scancel := false |}).
  { rewrite nth_error_app2 by lia. rewrite L1, Nat.sub_diag. reflexivity. }
  destruct (spec_keeps mid _ _ _ i _ A3 N1) as (x3 & N3 & V3 & _). { intros w W. apply (F w). apply in_or_app. now left. }
  cbn [spec_rsteps spec_rstep] in B3. rewrite N3 in B3. rewrite at_set, N3 in B3. destruct (spec_rsteps (set_nth i _ s3) _) as [[s4 o6]|] eqn:B4 in B3; [|discriminate]. injection B3 as <- <-.
  destruct (APP post _ _ _ _ B4) as (s5 & o7 & o8 & A5 & B5 & C5 & D5).
  pose proof (Z.eqb_neq v 0) as VE. apply VE in V. rewrite V in A5.
  destruct (spec_keeps post _ _ _ i {| svalue := v; sdone := true; scancel := scancel x3 |} A5) as (x5 & N5 & V5 & _).
  { rewrite set_nth_same by (eapply nth_lt; eauto). reflexivity. }
  { intros w W. apply (F w). apply in_or_app. now right. }
  cbn [spec_rsteps spec_rstep] in B5. rewrite N5 in B5. injection B5 as <- <-.
  rewrite C1, C3, C5. cbn [svalue] in V5. rewrite V5.
  rewrite !app_comm_cons, !app_assoc. change (OUnit :: o7 ++ [OVal v]) with ((OUnit :: o7) ++ [OVal v]). rewrite ?app_comm_cons, ?app_assoc. apply last_last.
Qed.

(* result 0 can never be cancelled *)
Lemma first_not_cancelled q : 0 < q -> exists m, rsteps q rst0 [RCreate; RCancel 0; RAsk 0] = Ok (m, [OId 0; OUnit; OBool false]).
Proof. intros Q. eapply results_refine; [exact Q|]. cbn. reflexivity. Qed.
(* a task without a result asks for the result whose id is its own number *)
Lemma wrong_slot_ub q m cid : 0 < q -> length (rtab m) <= cid -> is_canceled m None cid = UB.
Proof. intros Q L. unfold is_canceled, slot_of. unfold rd. rewrite (proj2 (nth_error_None _ _) L). reflexivity. Qed.


(* ---- concurrent creation ---- *)
(* nobody is creating: the current table has room for a whole number of blocks and holds every result so far *)
Definition quiet (q : nat) (s : cst) : Prop :=
  (cnext s = 0 /\ ccur s = 0) \/
  (0 < cnext s /\ ccur s <> 0 /\ exists t k, nth_error (cheap s) (ccur s) = Some t /\ freed t = false /\ length (cells t) = k * q /\
     cnext s <= k * q /\ k * q < cnext s + q /\ forall i, i < cnext s -> nth_error (cells t) i = Some (Some i)).
(* result i can be found *)
Definition found (s : cst) (i : nat) : Prop := exists t, nth_error (cheap s) (ccur s) = Some t /\ freed t = false /\ nth_error (cells t) i = Some (Some i).

Record cinv (q cap : nat) (cur : nat) (lo : nat) (s : cst) (pcs : nat -> cpc) (done : list nat) : Prop := {
  ci_cur : ccur s = cur;
  ci_next : lo <= cnext s <= cap;
  ci_tab : exists t, nth_error (cheap s) cur = Some t /\ freed t = false /\ length (cells t) = cap /\
           (forall i, i < lo -> nth_error (cells t) i = Some (Some i)) /\
           (forall i, In i done -> lo <= i < cnext s /\ nth_error (cells t) i = Some (Some i)) /\
           (forall x i p, pcs x = C4 i p -> nth_error (cells t) i = Some (Some i));
  ci_pc : forall x, match pcs x with C0 => True | C1 i => lo <= i < cnext s | C2 i p | C3 i p | C4 i p => lo <= i < cnext s /\ p = cur end }.
Lemma cinv_step q cap cur lo s pcs done x : cur <> 0 -> (forall i, lo <= i < cap -> i mod q <> 0) -> cinv q cap cur lo s pcs done ->
  (pcs x = C0 -> cnext s < cap) ->
  exists s' c' o, cstep q s (pcs x) = Ok (s', c', o) /\
    cinv q cap cur lo s' (fun y => if y =? x then c' else pcs y) (match o with Some id => done ++ [id] | None => done end).
Proof.
  intros CP BLK [I1 I2 (t & T & FR & LEN & LO & DN & C4C) IP] ROOM. pose proof (IP x) as PX.
  assert (OTHER : forall c' y i p, (forall j r, c' <> C4 j r) -> (if y =? x then c' else pcs y) = C4 i p -> nth_error (cells t) i = Some (Some i)).
  { intros c' y i p NC H. destruct (y =? x); [destruct (NC i p H)|exact (C4C y i p H)]. }
  destruct (pcs x) as [|i|i p|i p|i p] eqn:EX; cbn [cstep].
  - specialize (ROOM eq_refl). do 3 eexists. split; [reflexivity|]. constructor; cbn [ccur cheap cnext].
    + exact I1.
    + lia.
    + exists t. split; [exact T|]. split; [exact FR|]. split; [exact LEN|]. split; [exact LO|]. split.
      * intros i H. destruct (DN i H). split; [lia|assumption].
      * intros y i p H. eapply OTHER; [|exact H]. discriminate.
    + intros y. destruct (y =? x); [lia|]. pose proof (IP y). destruct (pcs y); intuition lia.
  - do 3 eexists. split; [reflexivity|]. constructor.
    + exact I1.
    + exact I2.
    + exists t. split; [exact T|]. split; [exact FR|]. split; [exact LEN|]. split; [exact LO|]. split; [exact DN|].
      intros y j p H. eapply OTHER; [|exact H]. discriminate.
    + intros y. destruct (y =? x); [split; [exact PX|exact I1]|]. exact (IP y).
  - destruct PX as (PX & ->). destruct (Nat.eqb_spec (i mod q) 0) as [E|_]; [exfalso; apply (BLK i); [lia|exact E]|]. destruct (Nat.eqb_spec cur 0) as [E|_]; [contradiction|]. cbn [orb].
    do 3 eexists. split; [reflexivity|]. constructor.
    + exact I1.
    + exact I2.
    + exists t. split; [exact T|]. split; [exact FR|]. split; [exact LEN|]. split; [exact LO|]. split; [exact DN|].
      intros y j p H. eapply OTHER; [|exact H]. discriminate.
    + intros y. destruct (y =? x); [auto|]. exact (IP y).
  - destruct PX as (PX & ->). rewrite (rd_ok _ _ _ T). cbn [bind]. rewrite FR. rewrite wr_ok by lia. cbn [bind].
    assert (KEEP : forall j, nth_error (cells t) j = Some (Some j) -> nth_error (set_nth i (Some i) (cells t)) j = Some (Some j)).
    { intros j H. destruct (Nat.eq_dec i j) as [->|NE]; [rewrite set_nth_same by (eapply nth_lt; eauto); reflexivity|rewrite set_nth_other by exact NE; exact H]. }
    do 3 eexists. split; [reflexivity|]. constructor; cbn [ccur cheap cnext].
    + exact I1.
    + exact I2.
    + eexists. split; [rewrite set_nth_same by (eapply nth_lt; eauto); reflexivity|]. cbn [freed cells]. split; [reflexivity|].
      split; [rewrite set_nth_length; exact LEN|]. split; [intros j H; apply KEEP, LO, H|]. split.
      * intros j H. destruct (DN j H). split; [assumption|now apply KEEP].
      * intros y j p H. destruct (y =? x).
        -- injection H as <- <-. rewrite set_nth_same by lia. reflexivity.
        -- apply KEEP, (C4C y j p H).
    + intros y. destruct (y =? x); [auto|]. exact (IP y).
  - destruct PX as (PX & ->). do 3 eexists. split; [reflexivity|]. constructor; cbn [ccur cheap cnext].
    + reflexivity.
    + exact I2.
    + exists t. split; [exact T|]. split; [exact FR|]. split; [exact LEN|]. split; [exact LO|]. split.
      * intros j H. apply in_app_or in H. destruct H as [H|[<-|[]]]; [exact (DN j H)|]. split; [lia|]. exact (C4C x i cur EX).
      * intros y j p H. eapply OTHER; [|exact H]. discriminate.
    + intros y. destruct (y =? x); [exact I|]. exact (IP y).
Qed.
Lemma block_run q cap cur lo sched : cur <> 0 -> (forall i, lo <= i < cap -> i mod q <> 0) -> forall s pcs done, cinv q cap cur lo s pcs done ->
  exists k s' pcs' done', csteps q s pcs done (firstn k sched) = Ok (s', pcs', done') /\ cinv q cap cur lo s' pcs' done' /\
    (k = length sched \/ cnext s' = cap /\ exists x, nth_error sched k = Some x /\ pcs' x = C0).
Proof.
  intros CP BLK. induction sched as [|x sched IH]; intros s pcs done I.
  - exists 0, s, pcs, done. cbn. auto.
  - assert (STOP : (pcs x = C0 /\ cnext s = cap) \/ (pcs x = C0 -> cnext s < cap)).
    { pose proof (ci_next _ _ _ _ _ _ _ I). destruct (Nat.eq_dec (cnext s) cap); [|right; intros _; lia]. destruct (pcs x); try (right; discriminate). now left. }
    destruct STOP as [(P0 & E)|ROOM].
    + exists 0, s, pcs, done. cbn [firstn csteps]. split; [reflexivity|]. split; [exact I|]. right. split; [exact E|]. exists x. split; [reflexivity|exact P0].
    + destruct (cinv_step q cap cur lo s pcs done x CP BLK I ROOM) as (s1 & c1 & o & ST & I1).
      destruct (IH _ _ _ I1) as (k & s' & p' & d' & R & RI & END). exists (S k), s', p', d'. cbn [firstn csteps]. rewrite ST. cbn [bind]. split; [exact R|].
      split; [exact RI|]. destruct END as [->|END]; [left; reflexivity|right; exact END].
Qed.
(* any number of threads, any schedule, until the id that opens the next block is due: no id twice, each completed result found *)
Lemma block_creation q s sched : 0 < q -> 0 < cnext s -> quiet q s ->
  exists k s' pcs done, csteps q s (fun _ => C0) [] (firstn k sched) = Ok (s', pcs, done) /\
    (forall i, i < cnext s -> found s' i) /\ (forall i, In i done -> cnext s <= i < cnext s' /\ found s' i) /\
    (k = length sched \/ cnext s' mod q = 0 /\ exists x, nth_error sched k = Some x /\ pcs x = C0).
Proof.
  intros Q P [(E & _)|(_ & CN & t & b & T & FR & LEN & N1 & N2 & V)]; [lia|].
  assert (BLK : forall i, cnext s <= i < b * q -> i mod q <> 0).
  { intros i I M. apply Nat.mod_divides in M; [|lia]. destruct M as (c & ->). destruct (Nat.lt_ge_cases c b).
    - assert (S c * q <= b * q) by (apply Nat.mul_le_mono_r; lia). lia.
    - assert (b * q <= c * q) by (apply Nat.mul_le_mono_r; lia). lia. }
  destruct (block_run q (b * q) (ccur s) (cnext s) sched CN BLK s (fun _ => C0) []) as (k & s' & p' & d' & R & [J1 J2 (t' & T' & FR' & LEN' & LO & DN & _) _] & END).
  { constructor; [reflexivity|lia| |intros y; exact I]. exists t. split; [exact T|]. split; [exact FR|]. split; [exact LEN|]. split; [exact V|]. split; [contradiction|discriminate]. }
  exists k, s', p', d'. split; [exact R|]. split; [|split].
  - intros i I. exists t'. rewrite J1. split; [exact T'|]. split; [exact FR'|now apply LO].
  - intros i I. destruct (DN i I) as (A & B). split; [exact A|]. exists t'. rewrite J1. auto.
  - destruct END as [->|(-> & END)]; [now left|right]. split; [apply Nat.mod_mul; lia|exact END].
Qed.
(* one thread creating while nobody else does: always works, the table growing as needed *)
Lemma alone q s pcs done x : 0 < q -> quiet q s -> pcs x = C0 -> length (cheap s) <> 0 ->
  exists s' pcs', csteps q s pcs done [x; x; x; x; x] = Ok (s', pcs', done ++ [cnext s]) /\ quiet q s' /\ cnext s' = S (cnext s) /\ pcs' x = C0 /\
    (forall y, y <> x -> pcs' y = pcs y) /\ length (cheap s') <> 0.
Proof.
  intros Q QT PX HL. cbn [csteps]. rewrite PX. cbn [cstep bind]. rewrite ?Nat.eqb_refl. cbn [cstep bind ccur cheap cnext]. rewrite ?Nat.eqb_refl. cbn [cstep].
  assert (PCS : forall a b c d e, e = C0 -> (if x =? x then e else if x =? x then d else if x =? x then c else if x =? x then b else if x =? x then a else pcs x) = C0) by (intros; rewrite Nat.eqb_refl; assumption).
  assert (OTH : forall a b c d e y, y <> x -> (if y =? x then e else if y =? x then d else if y =? x then c else if y =? x then b else if y =? x then a else pcs y) = pcs y).
  { intros a b c d e y NE. apply Nat.eqb_neq in NE. rewrite NE. reflexivity. }
  destruct QT as [(E & EC)|(P & CN & t & b & T & FR & LEN & N1 & N2 & V)].
  - rewrite E, EC. rewrite Nat.mod_0_l by lia. cbn [Nat.eqb orb bind freed cells cnext ccur cheap Nat.add]. rewrite ?Nat.eqb_refl. cbn [cstep cheap].
    unfold rd. rewrite nth_error_app2 by lia. rewrite Nat.sub_diag. cbn [nth_error bind freed cells cstep]. rewrite wr_ok by (rewrite realloc_length; lia). cbn [bind cnext ccur cheap].
    rewrite ?Nat.eqb_refl. cbn [cstep bind]. do 2 eexists. split; [reflexivity|]. cbn [cnext cheap]. split; [|split; [reflexivity|split; [apply PCS; reflexivity|split; [apply OTH|]]]].
    + right. cbn [cnext ccur cheap]. split; [lia|]. split; [exact HL|]. eexists. exists 1. split; [rewrite set_nth_same by (rewrite app_length; cbn; lia); reflexivity|]. cbn [freed cells].
      split; [reflexivity|]. rewrite set_nth_length, realloc_length. split; [lia|]. split; [lia|]. split; [lia|]. intros i I. assert (i = 0) as -> by lia.
      rewrite set_nth_same by (rewrite realloc_length; lia). reflexivity.
    + rewrite set_nth_length, app_length. cbn. lia.
  - destruct (Nat.eqb_spec (ccur s) 0) as [|_]; [contradiction|]. rewrite orb_false_r. cbn [cheap]. destruct (Nat.eqb_spec (cnext s mod q) 0) as [M|M].
    + assert (BN : cnext s = b * q).
      { apply Nat.mod_divides in M; [|lia]. destruct M as (c & M). rewrite M in *. assert (c = b); [|subst; lia].
        destruct (Nat.lt_trichotomy c b) as [L|[L|L]]; [|exact L|]; [assert (S c * q <= b * q) by (apply Nat.mul_le_mono_r; lia); lia|].
        assert (S b * q <= c * q) by (apply Nat.mul_le_mono_r; lia). lia. }
      rewrite (rd_ok _ _ _ T). cbn [bind]. rewrite FR. cbn [bind cheap cells]. rewrite ?Nat.eqb_refl. cbn [cstep cheap cnext ccur].
      unfold rd. rewrite nth_error_app2 by (rewrite set_nth_length; lia). rewrite set_nth_length, Nat.sub_diag. cbn [nth_error bind freed cells cstep].
      rewrite wr_ok by (rewrite realloc_length; lia). cbn [bind cnext ccur cheap].
      rewrite ?Nat.eqb_refl. cbn [cstep bind]. do 2 eexists. split; [reflexivity|]. cbn [cnext cheap]. split; [|split; [reflexivity|split; [apply PCS; reflexivity|split; [apply OTH|]]]].
      * right. cbn [cnext ccur cheap]. split; [lia|]. split; [exact HL|]. eexists. exists (S b). split; [rewrite set_nth_same by (rewrite app_length, set_nth_length; cbn; lia); reflexivity|]. cbn [freed cells].
        split; [reflexivity|]. rewrite set_nth_length, realloc_length. split; [lia|]. split; [lia|]. split; [lia|]. intros i I. destruct (Nat.eq_dec i (cnext s)) as [->|NE].
        -- rewrite set_nth_same by (rewrite realloc_length; lia). reflexivity.
        -- rewrite set_nth_other by lia. unfold realloc. rewrite nth_error_app1 by (rewrite firstn_length; lia). rewrite nth_error_firstn. destruct (Nat.ltb_spec i (cnext s + q)); [|lia]. apply V. lia.
      * rewrite set_nth_length, app_length. cbn. lia.
    + assert (BN : cnext s <> b * q) by (intros E; rewrite E, Nat.mod_mul in M by lia; lia).
      cbn [bind]. rewrite ?Nat.eqb_refl. cbn [cstep cheap cnext ccur]. rewrite (rd_ok _ _ _ T). cbn [bind]. rewrite FR. rewrite wr_ok by lia. cbn [bind cnext ccur cheap].
      rewrite ?Nat.eqb_refl. cbn [cstep bind]. do 2 eexists. split; [reflexivity|]. cbn [cnext cheap]. split; [|split; [reflexivity|split; [apply PCS; reflexivity|split; [apply OTH|]]]].
      * right. cbn [cnext ccur cheap]. split; [lia|]. split; [exact CN|]. eexists. exists b. split; [rewrite set_nth_same by (eapply nth_lt; eauto); reflexivity|]. cbn [freed cells].
        split; [reflexivity|]. rewrite set_nth_length. split; [exact LEN|]. split; [lia|]. split; [lia|]. intros i I. destruct (Nat.eq_dec i (cnext s)) as [->|NE].
        -- rewrite set_nth_same by lia. reflexivity.
        -- rewrite set_nth_other by lia. apply V. lia.
      * rewrite set_nth_length. exact HL.
Qed.
(* ids handed out are all different, whatever the schedule *)
Definition pending (c : cpc) : option nat := match c with C0 => None | C1 i | C2 i _ | C3 i _ | C4 i _ => Some i end.
Record uinv (s : cst) (pcs : nat -> cpc) (done : list nat) : Prop := {
  u_done : NoDup done; u_lt : forall i, In i done -> i < cnext s;
  u_pl : forall x i, pending (pcs x) = Some i -> i < cnext s /\ ~ In i done;
  u_pp : forall x y i, pending (pcs x) = Some i -> pending (pcs y) = Some i -> x = y }.
Lemma cstep_pending q s c s' c' o : cstep q s c = Ok (s', c', o) ->
  (c = C0 /\ cnext s' = S (cnext s) /\ pending c' = Some (cnext s) /\ o = None) \/
  (c <> C0 /\ cnext s' = cnext s /\ pending c' = pending c /\ o = None) \/ (cnext s' = cnext s /\ pending c' = None /\ o = pending c /\ c <> C0).
Proof.
  destruct c; cbn [cstep]; intros H.
  - injection H as <- <- <-. left. auto.
  - injection H as <- <- <-. right. left. repeat split; auto. discriminate.
  - destruct ((id mod q =? 0) || (p =? 0)); [|injection H as <- <- <-; right; left; repeat split; auto; discriminate].
    destruct (if p =? 0 then _ else rd (cheap s) p) as [t| | |]; cbn [bind] in H; try discriminate. destruct (freed t); [discriminate|]. injection H as <- <- <-. right. left. repeat split; auto. discriminate.
  - destruct (rd (cheap s) p) as [t| | |]; cbn [bind] in H; try discriminate. destruct (freed t); [discriminate|]. destruct (wr (cells t) id (Some id)); cbn [bind] in H; try discriminate. injection H as <- <- <-. right. left. repeat split; auto. discriminate.
  - injection H as <- <- <-. right. right. repeat split; auto. discriminate.
Qed.
Lemma nodup_snoc {A} (l : list A) x : NoDup l -> ~ In x l -> NoDup (l ++ [x]).
Proof.
  induction 1 as [|y l Y N IH]; intros H; cbn [app]; [repeat constructor; exact H|]. constructor.
  - intros I. apply in_app_or in I. destruct I as [I|[I|[]]]; [exact (Y I)|]. apply H. now left.
  - apply IH. intros I. apply H. now right.
Qed.
Lemma unique_ids q sched : forall s pcs done s' pcs' done', uinv s pcs done -> csteps q s pcs done sched = Ok (s', pcs', done') -> uinv s' pcs' done'.
Proof.
  induction sched as [|x sched IH]; intros s pcs done s' pcs' done' I H; cbn [csteps] in H.
  - injection H as <- <- <-. exact I.
  - destruct (cstep q s (pcs x)) as [[[s1 c1] o]| | |] eqn:ST; cbn [bind] in H; try discriminate. eapply IH; [|exact H]. clear IH H.
    destruct I as [D L PL PP]. destruct (cstep_pending _ _ _ _ _ _ ST) as [(E0 & EN & EP & ->)|[(E0 & EN & EP & ->)|(EN & EP & EO & E0)]].
    + constructor.
      * exact D.
      * intros i H. apply L in H. lia.
      * intros y i H. destruct (y =? x); [rewrite EP in H; injection H as <-; split; [lia|]; intros B; apply L in B; lia|]. destruct (PL y i H). split; [lia|assumption].
      * intros y z i Y Z0. destruct (Nat.eqb_spec y x) as [->|], (Nat.eqb_spec z x) as [->|]; try reflexivity.
        -- rewrite EP in Y. injection Y as <-. apply PL in Z0. lia.
        -- rewrite EP in Z0. injection Z0 as <-. apply PL in Y. lia.
        -- exact (PP y z i Y Z0).
    + constructor.
      * exact D.
      * intros i H. apply L in H. lia.
      * intros y i H. destruct (Nat.eqb_spec y x) as [->|]; [rewrite EP in H|]; destruct (PL _ i H); (split; [lia|assumption]).
      * intros y z i Y Z0. apply PP with i; [destruct (Nat.eqb_spec y x) as [->|]|destruct (Nat.eqb_spec z x) as [->|]]; congruence.
    + assert (EX : exists i, pending (pcs x) = Some i) by (destruct (pcs x); [contradiction|..]; cbn; eauto). destruct EX as (i0 & EX). rewrite EX in EO. subst o. destruct (PL x i0 EX) as (PX1 & PX2).
      constructor.
      * now apply nodup_snoc.
      * intros i H. apply in_app_or in H. destruct H as [H|[<-|[]]]; [apply L in H|]; lia.
      * intros y i H. destruct (Nat.eqb_spec y x) as [->|NE]; [rewrite EP in H; discriminate|]. destruct (PL y i H) as (A & B). split; [lia|].
        intros C. apply in_app_or in C. destruct C as [C|[<-|[]]]; [exact (B C)|]. exact (NE (PP y x i0 H EX)).
      * intros y z i Y Z0. destruct (Nat.eqb_spec y x) as [->|]; [rewrite EP in Y; discriminate|]. destruct (Nat.eqb_spec z x) as [->|]; [rewrite EP in Z0; discriminate|]. exact (PP y z i Y Z0).
Qed.
Lemma distinct_ids q sched s pcs done : csteps q cst0 (fun _ => C0) [] sched = Ok (s, pcs, done) -> NoDup done /\ forall i, In i done -> i < cnext s.
Proof.
  intros H. assert (U : uinv s pcs done).
  { eapply unique_ids; [|exact H]. constructor; [constructor|contradiction|discriminate|discriminate]. }
  destruct U. auto.
Qed.
(* one thread creating n results *)
Fixpoint turns (n : nat) : list nat := match n with 0 => [] | S k => [0; 0; 0; 0; 0] ++ turns k end.
Lemma csteps_app q l1 l2 : forall s pcs done, csteps q s pcs done (l1 ++ l2) = do r <- csteps q s pcs done l1; let '(s', pcs', d') := r in csteps q s' pcs' d' l2.
Proof.
  induction l1 as [|x l1 IH]; intros s pcs done; [reflexivity|]. cbn [app csteps]. destruct (cstep q s (pcs x)) as [[[s1 c1] o]| | |]; cbn [bind]; try reflexivity. apply IH.
Qed.
Lemma alone_from q n : 0 < q -> forall s pcs done, quiet q s -> (forall x, pcs x = C0) -> length (cheap s) <> 0 ->
  exists s' pcs', csteps q s pcs done (turns n) = Ok (s', pcs', done ++ seq (cnext s) n) /\ quiet q s' /\ cnext s' = cnext s + n /\ (forall x, pcs' x = C0) /\ length (cheap s') <> 0.
Proof.
  intros Q. induction n as [|n IH]; intros s pcs done QT PC HL.
  - exists s, pcs. cbn. rewrite app_nil_r, Nat.add_0_r. auto.
  - destruct (alone q s pcs done 0 Q QT (PC 0) HL) as (s1 & p1 & R & Q1 & N1 & P1 & O1 & H1). cbn [turns]. rewrite csteps_app, R. cbn [bind].
    destruct (IH s1 p1 (done ++ [cnext s]) Q1) as (s2 & p2 & R2 & Q2 & N2 & P2 & H2); [|exact H1|].
    { intros x. destruct (Nat.eq_dec x 0) as [->|NE]; [exact P1|]. rewrite (O1 x NE). apply PC. }
    exists s2, p2. rewrite R2, N1, <- app_assoc. cbn [app seq]. split; [reflexivity|]. split; [exact Q2|]. split; [lia|]. auto.
Qed.
Lemma quiet_found q s i : quiet q s -> i < cnext s -> found s i.
Proof. intros [(E & _)|(_ & CN & t & b & T & FR & LEN & N1 & N2 & V)] I; [lia|]. exists t. auto. Qed.
Lemma alone_n q n : 0 < q -> exists s pcs, csteps q cst0 (fun _ => C0) [] (turns n) = Ok (s, pcs, seq 0 n) /\ quiet q s /\ cnext s = n /\ (forall i, i < n -> found s i).
Proof.
  intros Q. destruct (alone_from q n Q cst0 (fun _ => C0) []) as (s & p & R & QT & N & _); [left; auto|reflexivity|discriminate|].
  exists s, p. cbn [cnext cst0 app Nat.add] in *. split; [exact R|]. split; [exact QT|]. split; [exact N|]. intros i I. eapply quiet_found; [exact QT|lia].
Qed.
(* the same two threads, one pushed off the processor for a moment *)
(* thread 0 holds the last id of a block while thread 1 opens the next block: a write into freed memory *)
Lemma quiet_grow q s : 1 < q -> quiet q s -> cnext s mod q <> 0 -> exists t, ccur s <> 0 /\ nth_error (cheap s) (ccur s) = Some t /\ freed t = false /\ cnext s < length (cells t) /\
  (S (cnext s) mod q = 0 -> length (cells t) = S (cnext s)).
Proof.
  intros Q [(E & _)|(P & CN & t & b & T & FR & LEN & N1 & N2 & V)] M; [rewrite E, Nat.mod_0_l in M by lia; lia|].
  exists t. split; [exact CN|]. split; [exact T|]. split; [exact FR|]. assert (cnext s <> b * q) by (intros X; rewrite X, Nat.mod_mul in M by lia; lia). split; [lia|].
  intros D. apply Nat.mod_divides in D; [|lia]. destruct D as (c & D).
  assert (c = b); [|subst; lia]. destruct (Nat.lt_trichotomy c b) as [L|[L|L]]; [|exact L|]; [assert (S c * q <= b * q) by (apply Nat.mul_le_mono_r; lia); lia|].
  assert (S b * q <= c * q) by (apply Nat.mul_le_mono_r; lia). lia.
Qed.
Lemma mod_pred q n : 1 < q -> S n mod q = 0 -> n mod q <> 0.
Proof.
  intros Q A B. apply Nat.mod_divides in A; [|lia]. apply Nat.mod_divides in B; [|lia]. destruct A as (a & A), B as (b & B).
  assert (a <= b \/ b < a) as [L|L] by lia; [assert (q * a <= q * b) by (apply Nat.mul_le_mono_l; lia); lia|assert (q * S b <= q * a) by (apply Nat.mul_le_mono_l; lia); lia].
Qed.
Lemma write_after_free q s : 1 < q -> quiet q s -> S (cnext s) mod q = 0 -> csteps q s (fun _ => C0) [] [0; 0; 0; 1; 1; 1; 0] = UB.
Proof.
  intros Q QT M. pose proof (mod_pred q _ Q M) as M0. destruct (quiet_grow q s Q QT M0) as (t & CN & T & FR & _).
  cbn [csteps cstep bind Nat.eqb ccur cheap cnext]. apply Nat.eqb_neq in M0, CN. apply Nat.eqb_eq in M. rewrite M0, CN. cbn [orb bind Nat.eqb cstep cnext ccur cheap].
  rewrite M. cbn [orb]. rewrite ?CN. rewrite (rd_ok _ _ _ T). cbn [bind]. rewrite FR. cbn [bind Nat.eqb cstep cheap].
  unfold rd. pose proof (nth_lt _ _ _ T). rewrite nth_error_app1 by (rewrite set_nth_length; lia). rewrite set_nth_same by lia. reflexivity.
Qed.
(* thread 0 holds the id that opens a block while thread 1 uses the next: a write past the end of the table *)
Lemma write_past_end q s : 1 < q -> quiet q s -> 0 < cnext s -> cnext s mod q = 0 -> csteps q s (fun _ => C0) [] [0; 1; 1; 1; 1] = UB.
Proof.
  intros Q [(E & _)|(P & CN & t & b & T & FR & LEN & N1 & N2 & V)] P0 M; [lia|].
  assert (M1 : S (cnext s) mod q <> 0) by (intros X; exact (mod_pred q _ Q X M)).
  assert (BN : cnext s = b * q).
  { apply Nat.mod_divides in M; [|lia]. destruct M as (c & M). rewrite M in *. assert (c = b); [|subst; lia].
    destruct (Nat.lt_trichotomy c b) as [L|[L|L]]; [|exact L|]; [assert (S c * q <= b * q) by (apply Nat.mul_le_mono_r; lia); lia|].
    assert (S b * q <= c * q) by (apply Nat.mul_le_mono_r; lia). lia. }
  cbn [csteps cstep bind Nat.eqb ccur cheap cnext]. apply Nat.eqb_neq in M1, CN. rewrite M1, CN. cbn [orb bind Nat.eqb cstep cnext ccur cheap]. rewrite (rd_ok _ _ _ T). cbn [bind]. rewrite FR.
  unfold wr. destruct (Nat.ltb_spec (S (cnext s)) (length (cells t))); [lia|]. reflexivity.
Qed.
(* both creations complete, and the table everyone uses afterwards is one already freed: every result is lost *)
Lemma all_lost q s : 1 < q -> quiet q s -> S (cnext s) mod q = 0 ->
  exists s' pcs, csteps q s (fun _ => C0) [] [0; 0; 0; 0; 1; 1; 1; 1; 1; 0] = Ok (s', pcs, [S (cnext s); cnext s]) /\ forall i, ~ found s' i.
Proof.
  intros Q QT M. pose proof (mod_pred q _ Q M) as M0. destruct (quiet_grow q s Q QT M0) as (t & CN & T & FR & L1 & L2). pose proof (nth_lt _ _ _ T) as LT.
  pose proof M0 as M0'. pose proof CN as CN'. apply Nat.eqb_neq in M0', CN'. pose proof M as M'. apply Nat.eqb_eq in M'.
  cbn [csteps cstep bind Nat.eqb ccur cheap cnext]. rewrite M0', CN'. cbn [orb bind Nat.eqb cstep cnext ccur cheap].
  rewrite (rd_ok _ _ _ T). cbn [bind]. rewrite FR. rewrite wr_ok by exact L1. cbn [bind Nat.eqb cstep cnext ccur cheap]. rewrite M'. cbn [orb]. rewrite CN'.
  unfold rd at 1. rewrite set_nth_same by exact LT. cbn [bind freed Nat.eqb cstep cnext ccur cheap cells].
  unfold rd at 1. rewrite nth_error_app2 by (rewrite ?set_nth_length; lia). rewrite !set_nth_length, Nat.sub_diag. cbn [nth_error bind freed cells Nat.eqb cstep cnext ccur cheap].
  rewrite wr_ok by (rewrite realloc_length; lia). cbn [bind freed cells Nat.eqb cstep cnext ccur cheap app].
  do 2 eexists. split; [reflexivity|]. intros i (t' & T' & F' & _). cbn [cheap ccur] in T'.
  rewrite set_nth_other in T' by lia. rewrite nth_error_app1 in T' by (rewrite !set_nth_length; lia). rewrite set_nth_same in T' by (rewrite set_nth_length; exact LT). injection T' as <-. discriminate.
Qed.
(* pcs compared pointwise *)
Definition same_run (a b : outcome (cst * (nat -> cpc) * list nat)) : Prop :=
  match a, b with
  | Ok (s, p, d), Ok (s', p', d') => s = s' /\ d = d' /\ forall x, p x = p' x
  | UB, UB => True | Exn, Exn => True | Fuel, Fuel => True | _, _ => False
  end.
Lemma csteps_ext q l : forall s p p' d, (forall x, p x = p' x) -> same_run (csteps q s p d l) (csteps q s p' d l).
Proof.
  induction l as [|x l IH]; intros s p p' d H; cbn [csteps]; [cbn; auto|]. rewrite <- H.
  destruct (cstep q s (p x)) as [[[s1 c1] o]| | |]; cbn [bind same_run]; try exact I. apply IH. intros y. destruct (y =? x); [reflexivity|apply H].
Qed.
Lemma reach q n : 0 < q -> exists s pcs, csteps q cst0 (fun _ => C0) [] (turns n) = Ok (s, pcs, seq 0 n) /\ quiet q s /\ cnext s = n /\ forall x, pcs x = C0.
Proof.
  intros Q. destruct (alone_from q n Q cst0 (fun _ => C0) []) as (s & p & R & QT & N & PC & _); [left; auto|reflexivity|discriminate|].
  exists s, p. auto.
Qed.
Lemma done_prefix q l : forall s p d, match csteps q s p d l, csteps q s p [] l with
  | Ok (s1, p1, d1), Ok (s2, p2, d2) => s1 = s2 /\ d1 = d ++ d2 /\ p1 = p2 | UB, UB => True | Exn, Exn => True | Fuel, Fuel => True | _, _ => False end.
Proof.
  induction l as [|x l IH]; intros s p d; cbn [csteps]; [rewrite app_nil_r; auto|].
  destruct (cstep q s (p x)) as [[[s1 c1] o]| | |]; cbn [bind]; try exact I.
  destruct o as [i|].
  - pose proof (IH s1 (fun y => if y =? x then c1 else p y) (d ++ [i])) as A. pose proof (IH s1 (fun y => if y =? x then c1 else p y) ([] ++ [i])) as B.
    destruct (csteps q s1 _ (d ++ [i]) l) as [[[sa pa] da]| | |], (csteps q s1 _ ([] ++ [i]) l) as [[[sb pb] db]| | |], (csteps q s1 _ [] l) as [[[sc pc] dc]| | |]; try contradiction; auto.
    destruct A as (-> & -> & ->), B as (-> & -> & ->). rewrite <- app_assoc. auto.
  - apply IH.
Qed.
Lemma race q n tail : 0 < q -> (forall s, quiet q s -> cnext s = n -> csteps q s (fun _ => C0) [] tail = UB) -> csteps q cst0 (fun _ => C0) [] (turns n ++ tail) = UB.
Proof.
  intros Q H. destruct (reach q n Q) as (s & p & R & QT & N & PC). rewrite csteps_app, R. cbn [bind].
  pose proof (done_prefix q tail s p (seq 0 n)) as A. pose proof (csteps_ext q tail s p (fun _ => C0) [] PC) as B. rewrite (H s QT N) in B.
  destruct (csteps q s p [] tail) as [[[? ?] ?]| | |]; try contradiction. destruct (csteps q s p (seq 0 n) tail) as [[[? ?] ?]| | |]; try contradiction. reflexivity.
Qed.
Lemma use_after_free q b : 1 < q -> 0 < b -> csteps q cst0 (fun _ => C0) [] (turns (b * q - 1) ++ [0; 0; 0; 1; 1; 1; 0]) = UB.
Proof.
  intros Q B. apply race; [lia|]. intros s QT N. apply write_after_free; [exact Q|exact QT|]. rewrite N. assert (1 * q <= b * q) by (apply Nat.mul_le_mono_r; lia). replace (S (b * q - 1)) with (b * q) by lia. apply Nat.mod_mul. lia.
Qed.
Lemma past_end q b : 1 < q -> 0 < b -> csteps q cst0 (fun _ => C0) [] (turns (b * q) ++ [0; 1; 1; 1; 1]) = UB.
Proof.
  intros Q B. assert (1 * q <= b * q) by (apply Nat.mul_le_mono_r; lia). apply race; [lia|]. intros s QT N. apply write_past_end; [exact Q|exact QT|lia|]. rewrite N. apply Nat.mod_mul. lia.
Qed.
Lemma lost q b : 1 < q -> 0 < b -> exists s pcs done, csteps q cst0 (fun _ => C0) [] (turns (b * q - 1) ++ [0; 0; 0; 0; 1; 1; 1; 1; 1; 0]) = Ok (s, pcs, done) /\
  length done = b * q + 1 /\ forall i, ~ found s i.
Proof.
  intros Q B. assert (1 * q <= b * q) by (apply Nat.mul_le_mono_r; lia). destruct (reach q (b * q - 1)) as (s & p & R & QT & N & PC); [lia|]. rewrite csteps_app, R. cbn [bind].
  destruct (all_lost q s Q QT) as (s' & p' & R' & NF). { rewrite N. replace (S (b * q - 1)) with (b * q) by lia. apply Nat.mod_mul. lia. }
  pose proof (done_prefix q [0; 0; 0; 0; 1; 1; 1; 1; 1; 0] s p (seq 0 (b * q - 1))) as A. pose proof (csteps_ext q [0; 0; 0; 0; 1; 1; 1; 1; 1; 0] s p (fun _ => C0) [] PC) as E. rewrite R' in E.
  destruct (csteps q s p [] _) as [[[s1 p1] d1]| | |]; try contradiction. destruct E as (-> & -> & _).
  destruct (csteps q s p (seq 0 (b * q - 1)) _) as [[[s2 p2] d2]| | |]; try contradiction. destruct A as (-> & -> & _).
  exists s', p2. eexists. split; [reflexivity|]. split; [rewrite app_length, seq_length; cbn; lia|exact NF].
Qed.
