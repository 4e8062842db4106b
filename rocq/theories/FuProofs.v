From Verif Require Import Base FuModel.
#[local] Open Scope Z_scope.

(* ---- specification ---- *)
(* what the caller of thrd_get should see of a thread that ended so: its word, the first value of its array, its error *)
Definition want (x : res) : ans :=
  match x with Val w _ => Returned w | Arr (v :: _) => Returned v | Arr [] => Nothing | Err e => Thrown e end.
Definition plain (x : res) : ans :=
  match x with Val w _ => Returned w | Arr (v :: _) => Returned v | Arr [] => Nothing | Err _ => Returned 0 end.
(* histories have the newest event first.  0 made, 1 running, 2 ended, 3 exited, 4 taken by a thrd_get after the exit *)
Fixpoint stage (i : nat) (h : list ev) : nat :=
  match h with
  | [] => 0
  | Begin j :: k => if Nat.eqb j i then 1 else stage i k
  | End j :: k => if Nat.eqb j i then 2 else stage i k
  | Exit j :: k => if Nat.eqb j i then 3 else stage i k
  | Get j :: k => if Nat.eqb j i && Nat.eqb (stage i k) 3 then 4 else stage i k
  | IsDone _ :: k => stage i k
  end%nat.
(* the error found in the scope: that of the thread that failed last, unless another began after it *)
Fixpoint scope_err (r : nat -> res) (h : list ev) : option Z :=
  match h with
  | [] => None
  | Begin _ :: _ => None
  | End j :: k => match r j with Err e => Some e | _ => scope_err r k end
  | _ :: k => scope_err r k
  end.
Definition own_errno (x : res) : Z := match x with Val w en => if w =? 18446744073709551615 then en else 0 | _ => 0 end.
Fixpoint errno_of (r : nat -> res) (h : list ev) : Z :=
  match h with
  | [] => 0
  | Get j :: k => if Nat.eqb (stage j k) 2 then 110 else if Nat.eqb (stage j k) 3 && negb (own_errno (r j) =? 0) then own_errno (r j) else errno_of r k
  | _ :: k => errno_of r k
  end.
(* the answers, exactly *)
Definition answer (r : nat -> res) (h : list ev) (e : ev) : ans :=
  match e with
  | Get i => if Nat.eqb (stage i h) 3 then match scope_err r h with Some x => Thrown x | None => plain (r i) end else plain (r i)
  | IsDone i => Done (Nat.eqb (stage i h) 2 || Nat.eqb (stage i h) 3)
  | _ => Nothing
  end.
Fixpoint answers (r : nat -> res) (h es : list ev) : list ans :=
  match es with [] => [] | e :: k => answer r h e :: answers r (e :: h) k end.

(* ---- proofs ---- *)
Definition vof (x : res) : Z := match x with Val w _ => w | _ => 0 end.
Definition aof (x : res) : option (list Z) := match x with Arr l => Some l | _ => None end.
Definition shape (n : nat) (x : res) : fut :=
  match n with
  | 0 => fut0
  | 1 => {| ph := Running; done := false; ty := Future; value := 0; arr := None; erred := 0 |}
  | 2 => {| ph := Ended; done := true; ty := Future; value := vof x; arr := aof x; erred := own_errno x |}
  | 3 => {| ph := Exited; done := true; ty := Future; value := vof x; arr := aof x; erred := own_errno x |}
  | _ => {| ph := Exited; done := false; ty := Result; value := vof x; arr := aof x; erred := own_errno x |}
  end%nat.
Definition inv (r : nat -> res) (h : list ev) (s : st) : Prop :=
  (forall i, futs s i = shape (stage i h) (r i)) /\ serr s = scope_err r h /\ errn s = errno_of r h.

Lemma stage_le i h : (stage i h <= 4)%nat.
Proof. induction h as [|[j|j|j|j|j] h IH]; cbn; try destruct (Nat.eqb j i); cbn; try lia. destruct (Nat.eqb (stage i h) 3); lia. Qed.
Lemma give_is n x : (forall l, x = Arr l -> l <> []) -> (2 <= n)%nat -> give (shape n x) = Ok (plain x).
Proof. intros A N. destruct n as [|[|[|[|n]]]]; [lia|lia| | |]; unfold give; cbn; destruct x as [w en|[|v l]|e]; cbn; try easy; now destruct (A [] eq_refl). Qed.
Lemma step_inv r h s e s' a : (forall i l, r i = Arr l -> l <> []) -> inv r h s -> step r s e = Some (Ok (s', a)) -> inv r (e :: h) s' /\ a = answer r h e.
Proof.
  intros NE (F & E & N) H. assert (P : forall i j x, put (futs s) i x j = if Nat.eqb j i then x else shape (stage j h) (r j)) by (intros; unfold put; destruct (Nat.eqb j i); [easy|apply F]).
  destruct e as [i|i|i|i|i]; cbn [step] in H.
  - rewrite F in H. assert (L := stage_le i h). destruct (stage i h) as [|[|[|[|[|n]]]]] eqn:SI; cbn in H; try discriminate; try lia. injection H as <- <-.
    split; [|easy]. split; [|split; [easy|now cbn]]. intros j. cbn [futs]. rewrite P. cbn [stage]. rewrite (Nat.eqb_sym i j). destruct (Nat.eqb j i); easy.
  - rewrite F in H. assert (L := stage_le i h). destruct (stage i h) as [|[|[|[|[|n]]]]] eqn:SI; cbn in H; try discriminate; try lia.
    assert (Q : forall f er, f = shape 2 (r i) -> er = scope_err r (End i :: h) -> inv r (End i :: h) {| futs := put (futs s) i f; serr := er; errn := errn s |}).
    { intros f er -> ->. split; [|split; [easy|now cbn]]. intros j. cbn [futs]. rewrite P. cbn [stage]. rewrite (Nat.eqb_sym i j). destruct (Nat.eqb_spec j i) as [EJ|EJ]; [subst j|]; easy. }
    destruct (r i) as [w en|l|e] eqn:R; injection H as <- <-; (split; [|easy]); apply Q; auto; cbn [scope_err]; rewrite ?R; auto.
    unfold shape, vof, aof, own_errno. destruct (w =? 0) eqn:W; [|easy]. apply Z.eqb_eq in W. subst w. easy.
  - rewrite F in H. assert (L := stage_le i h). destruct (stage i h) as [|[|[|[|[|n]]]]] eqn:SI; cbn in H; try discriminate; try lia. injection H as <- <-.
    split; [|easy]. split; [|split; [easy|now cbn]]. intros j. cbn [futs]. rewrite P. cbn [stage]. rewrite (Nat.eqb_sym i j). destruct (Nat.eqb_spec j i) as [EJ|EJ]; [subst j|]; easy.
  - rewrite F in H. assert (L := stage_le i h).
    assert (SAME : (stage i h <> 3)%nat -> forall x, futs x = futs s -> serr x = serr s -> errn x = errno_of r (Get i :: h) -> inv r (Get i :: h) x).
    { intros NN x X1 X2 X3. split; [|split; [now rewrite X2|easy]]. intros j. rewrite X1, F. cbn [stage]. destruct (Nat.eqb_spec i j) as [EJ|EJ]; cbn [andb]; [|easy].
      subst j. destruct (Nat.eqb_spec (stage i h) 3); easy. }
    destruct (stage i h) as [|[|[|[|[|n]]]]] eqn:SI; cbn [shape fut0 ty done negb ph] in H; try discriminate; try lia.
    + change {| ph := Ended; done := true; ty := Future; value := vof (r i); arr := aof (r i); erred := own_errno (r i) |} with (shape 2 (r i)) in H.
      rewrite give_is in H by (eauto; lia). cbn in H. injection H as <- <-. split; [|cbn; now rewrite SI]. apply SAME; auto. cbn. now rewrite SI.
    + assert (G : forall x, x = {| futs := put (futs s) i (shape 4 (r i)); serr := serr s; errn := if own_errno (r i) =? 0 then errn s else own_errno (r i) |} -> inv r (Get i :: h) x).
      { intros x ->. split; [|split; [easy|]]; cbn [futs errn].
        - intros j. rewrite P. cbn [stage]. destruct (Nat.eqb_spec j i) as [EJ|EJ]; [subst j; rewrite Nat.eqb_refl, SI; easy|]. destruct (Nat.eqb_spec i j); [congruence|easy].
        - cbn. rewrite SI. cbn. destruct (own_errno (r i) =? 0); easy. }
      cbn [erred value arr] in H. change {| ph := Exited; done := false; ty := Result; value := vof (r i); arr := aof (r i); erred := own_errno (r i) |} with (shape 4 (r i)) in H.
      cbn [answer]. rewrite SI. cbn [Nat.eqb]. rewrite E in H. destruct (scope_err r h) eqn:SE.
      * injection H as <- <-. split; [|easy]. apply G. now rewrite E.
      * rewrite give_is in H by (eauto; lia). cbn in H. injection H as <- <-. split; [|easy]. apply G. now rewrite E.
    + change {| ph := Exited; done := false; ty := Result; value := vof (r i); arr := aof (r i); erred := own_errno (r i) |} with (shape 4 (r i)) in H.
      rewrite give_is in H by (eauto; lia). cbn in H. injection H as <- <-. split; [|cbn; now rewrite SI]. apply SAME; auto. cbn. now rewrite SI.
  - injection H as <- <-. split; [split; [|split]; easy|]. cbn. rewrite F. assert (L := stage_le i h). destruct (stage i h) as [|[|[|[|[|n]]]]]; cbn; easy || lia.
Qed.
Lemma step_def r h s e : (forall i l, r i = Arr l -> l <> []) -> inv r h s -> step r s e = None \/ exists s' a, step r s e = Some (Ok (s', a)).
Proof.
  intros NE (F & E & N). destruct e as [i|i|i|i|i]; cbn [step]; rewrite ?F; assert (L := stage_le i h).
  - destruct (stage i h) as [|[|[|[|[|n]]]]]; cbn; try lia; eauto.
  - destruct (stage i h) as [|[|[|[|[|n]]]]]; cbn; try lia; eauto. destruct (r i); eauto.
  - destruct (stage i h) as [|[|[|[|[|n]]]]]; cbn; try lia; eauto.
  - destruct (stage i h) as [|[|[|[|[|n]]]]] eqn:SI; try lia; [now left|now left| | |]; right; cbn [shape ty done negb ph value arr erred].
    + change {| ph := Ended; done := true; ty := Future; value := vof (r i); arr := aof (r i); erred := own_errno (r i) |} with (shape 2 (r i)). rewrite give_is by (eauto; lia). cbn. eauto.
    + change {| ph := Exited; done := false; ty := Result; value := vof (r i); arr := aof (r i); erred := own_errno (r i) |} with (shape 4 (r i)). rewrite give_is by (eauto; lia). cbn [bind]. destruct (serr s); eauto.
    + change {| ph := Exited; done := false; ty := Result; value := vof (r i); arr := aof (r i); erred := own_errno (r i) |} with (shape 4 (r i)). rewrite give_is by (eauto; lia). cbn. eauto.
  - right. eauto.
Qed.
Lemma start_inv r : inv r [] start.
Proof. repeat split. Qed.
Lemma run_inv r es : (forall i l, r i = Arr l -> l <> []) -> forall h s, inv r h s ->
  run r s es = None \/ exists s', run r s es = Some (Ok (s', answers r h es)) /\ inv r (rev es ++ h) s'.
Proof.
  intros NE. induction es as [|e es IH]; intros h s V; cbn [run answers]; [right; eauto|].
  destruct (step_def r h s e NE V) as [-> | (s' & a & ST)]; [now left|]. rewrite ST. destruct (step_inv r h s e s' a NE V ST) as (V' & ->).
  destruct (IH (e :: h) s' V') as [-> | (s'' & -> & V'')]; [now left|]. right. exists s''. split; [easy|]. cbn [rev]. now rewrite <- app_assoc.
Qed.
Lemma run_exact r es s aa : (forall i l, r i = Arr l -> l <> []) -> run r start es = Some (Ok (s, aa)) -> aa = answers r [] es /\ errn s = errno_of r (rev es).
Proof. intros NE H. destruct (run_inv r es NE [] start (start_inv r)) as [E|(s' & E & V)]; rewrite E in H; [discriminate|]. injection H as <- <-. rewrite app_nil_r in V. destruct V as (_ & _ & V). easy. Qed.
Lemma run_safe r es : (forall i l, r i = Arr l -> l <> []) -> run r start es = None \/ exists s aa, run r start es = Some (Ok (s, aa)).
Proof. intros NE. destruct (run_inv r es NE [] start (start_inv r)) as [E|(s' & E & V)]; eauto. Qed.

(* no thread of the scope throws: every thrd_get gives the value of its own thread, at any time *)
Definition right_gets (r : nat -> res) (es : list ev) (aa : list ans) : Prop := Forall2 (fun e a => match e with Get i => a = want (r i) | _ => True end) es aa.
Lemma no_scope_err r h : (forall i e, r i <> Err e) -> scope_err r h = None.
Proof. intros N. induction h as [|[j|j|j|j|j] h IH]; cbn; auto. destruct (r j) eqn:R; auto. now destruct (N j e). Qed.
Lemma values_right r es s aa : (forall i e, r i <> Err e) -> (forall i l, r i = Arr l -> l <> []) -> run r start es = Some (Ok (s, aa)) -> right_gets r es aa.
Proof. intros NX NE H. destruct (run_exact _ _ _ _ NE H) as (-> & _). clear H. unfold right_gets. generalize (@nil ev). induction es as [|e es IH]; intros h; cbn; constructor; auto.
  destruct e as [i|i|i|i|i]; auto. cbn. rewrite no_scope_err by easy. destruct (Nat.eqb (stage i h) 3); destruct (r i) eqn:R; try easy; now destruct (NX i e). Qed.

(* threads that throw: right when the thread has exited and no other thread began or failed since *)
Lemma answers_app r es1 : forall h es2, answers r h (es1 ++ es2) = answers r h es1 ++ answers r (rev es1 ++ h) es2.
Proof. induction es1 as [|e es1 IH]; intros h es2; cbn; [easy|]. rewrite IH, <- app_assoc. easy. Qed.
Lemma answers_len r es : forall h, length (answers r h es) = length es.
Proof. induction es; intros h; cbn; auto. Qed.
Lemma get_exact r pre i post s aa : (forall i l, r i = Arr l -> l <> []) -> run r start (pre ++ Get i :: post) = Some (Ok (s, aa)) ->
  nth_error aa (length pre) = Some (answer r (rev pre) (Get i)).
Proof. intros NE H. destruct (run_exact _ _ _ _ NE H) as (-> & _). rewrite answers_app, app_nil_r. rewrite nth_error_app2 by (rewrite answers_len; lia). rewrite answers_len, Nat.sub_diag. easy. Qed.
Definition quiet_since (r : nat -> res) (i : nat) (h : list ev) : Prop := exists a b, h = a ++ End i :: b /\
  (forall j, ~ In (Begin j) a) /\ forall j e, In (End j) a -> r j <> Err e.
Lemma quiet_err r i e h : r i = Err e -> quiet_since r i h -> scope_err r h = Some e.
Proof. intros R (a & b & -> & A & B). induction a as [|x a IH]; cbn; [now rewrite R|].
  assert (I : scope_err r (a ++ End i :: b) = Some e) by (apply IH; intros; [intros J; apply (A j); now right|apply (B j); now right]).
  destruct x as [j|j|j|j|j]; auto; [exfalso; apply (A j); now left|]. destruct (r j) eqn:RJ; auto. exfalso. apply (B j e0); [now left|easy]. Qed.
Lemma error_right r pre i post s aa e : (forall i l, r i = Arr l -> l <> []) -> run r start (pre ++ Get i :: post) = Some (Ok (s, aa)) -> r i = Err e ->
  stage i (rev pre) = 3%nat -> quiet_since r i (rev pre) -> nth_error aa (length pre) = Some (Thrown e).
Proof. intros NE H R S Q. rewrite (get_exact _ _ _ _ _ _ NE H). cbn. rewrite S. cbn. now rewrite (quiet_err r i e _ R Q). Qed.
(* the thread has ended but not exited: the error is not thrown and errno is changed *)
Lemma error_early r pre i s aa e : (forall i l, r i = Arr l -> l <> []) -> run r start (pre ++ [Get i]) = Some (Ok (s, aa)) -> r i = Err e ->
  stage i (rev pre) = 2%nat -> nth_error aa (length pre) = Some (Returned 0) /\ errn s = 110.
Proof. intros NE H R S. rewrite (get_exact _ _ _ _ _ _ NE H). cbn. rewrite S, R. cbn. split; [easy|]. destruct (run_exact _ _ _ _ NE H) as (_ & ->). rewrite rev_app_distr. cbn. now rewrite S. Qed.
(* any time after the first that threw: not thrown again *)
Lemma error_again r pre i post s aa e : (forall i l, r i = Arr l -> l <> []) -> run r start (pre ++ Get i :: post) = Some (Ok (s, aa)) -> r i = Err e ->
  stage i (rev pre) = 4%nat -> nth_error aa (length pre) = Some (Returned 0).
Proof. intros NE H R S. rewrite (get_exact _ _ _ _ _ _ NE H). cbn. now rewrite S, R. Qed.
(* another thread of the scope failed: its error is thrown instead of the value *)
Lemma error_of_other r i j e w en : i <> j -> r i = Err e -> r j = Val w en ->
  exists s, run r start [Begin i; Begin j; End j; End i; Exit i; Exit j; Get j] = Some (Ok (s, [Nothing; Nothing; Nothing; Nothing; Nothing; Nothing; Thrown e])).
Proof. intros NIJ R1 R2. unfold run, step, start, put. cbn [futs ph]. assert (E1 : Nat.eqb j i = false) by (apply Nat.eqb_neq; auto). assert (E2 : Nat.eqb i j = false) by (apply Nat.eqb_neq; auto).
  repeat (rewrite ?E1, ?E2, ?Nat.eqb_refl, ?R1, ?R2; cbn [fut0 futs ph done ty serr errn negb value arr erred]). eexists. reflexivity. Qed.
(* another thread began: the error is lost *)
Lemma error_wiped r i j e : i <> j -> r i = Err e -> exists s, run r start [Begin i; End i; Exit i; Begin j; Get i] = Some (Ok (s, [Nothing; Nothing; Nothing; Nothing; Returned 0])).
Proof. intros NIJ R1. unfold run, step, start, put. cbn [futs ph]. assert (E1 : Nat.eqb j i = false) by (apply Nat.eqb_neq; auto). assert (E2 : Nat.eqb i j = false) by (apply Nat.eqb_neq; auto).
  repeat (rewrite ?E1, ?E2, ?Nat.eqb_refl, ?R1; cbn [fut0 futs ph done ty serr errn negb value arr erred bind give]). eexists. reflexivity. Qed.
(* thrd_is_done: never true before the function has ended; false for ever after the result is taken *)
Lemma done_exact r pre i post s aa : (forall i l, r i = Arr l -> l <> []) -> run r start (pre ++ IsDone i :: post) = Some (Ok (s, aa)) ->
  nth_error aa (length pre) = Some (Done (Nat.eqb (stage i (rev pre)) 2 || Nat.eqb (stage i (rev pre)) 3)).
Proof. intros NE H. destruct (run_exact _ _ _ _ NE H) as (-> & _). rewrite answers_app, app_nil_r. rewrite nth_error_app2 by (rewrite answers_len; lia). rewrite answers_len, Nat.sub_diag. easy. Qed.
Lemma stage_stays r h s e s' a i : inv r h s -> step r s e = Some (Ok (s', a)) -> stage i h = 4%nat -> stage i (e :: h) = 4%nat.
Proof. intros (F & _) H S. destruct e as [j|j|j|j|j]; cbn [stage]; try (rewrite S; cbn; now rewrite andb_false_r); auto; destruct (Nat.eqb_spec j i) as [EJ|EJ]; auto; exfalso; subst j; cbn in H; rewrite F, S in H; discriminate. Qed.
Lemma done_never r : (forall i l, r i = Arr l -> l <> []) -> forall es h s i s' aa, inv r h s -> stage i h = 4%nat -> run r s es = Some (Ok (s', aa)) ->
  Forall2 (fun e a => e = IsDone i -> a = Done false) es aa.
Proof. intros NE. induction es as [|e es IH]; intros h s i s' aa V S H; cbn [run] in H; [injection H as <- <-; constructor|].
  destruct (step r s e) as [[[s1 a]| | |]|] eqn:ST; try discriminate. destruct (run r s1 es) as [[[s2 bb]| | |]|] eqn:RU; try discriminate. injection H as <- <-.
  destruct (step_inv _ _ _ _ _ _ NE V ST) as (V' & ->). constructor; [|eapply IH; eauto; eapply stage_stays; eauto]. intros ->. cbn. now rewrite S. Qed.
Lemma wait_never r pre i post s aa : (forall i l, r i = Arr l -> l <> []) -> run r start (pre ++ Get i :: post) = Some (Ok (s, aa)) -> stage i (rev pre) = 3%nat ->
  exists a1 a a2, aa = a1 ++ a :: a2 /\ length a1 = length pre /\ Forall2 (fun e a => e = IsDone i -> a = Done false) post a2.
Proof. intros NE H S.
  destruct (run_exact _ _ _ _ NE H) as (-> & _). rewrite answers_app, app_nil_r. cbn [answers]. eexists _, _, _. split; [reflexivity|]. split; [apply answers_len|].
  assert (S4 : stage i (Get i :: rev pre) = 4%nat) by (cbn; now rewrite Nat.eqb_refl, S).
  assert (SPLIT : forall l1 l2 x, run r x (l1 ++ l2) = None \/ forall h, inv r h x -> exists y, inv r (rev l1 ++ h) y /\ run r y l2 <> None).
  { induction l1 as [|e l1 IH]; intros l2 x.
    - cbn. destruct (run r x l2) eqn:RR; [right; intros h V; exists x; split; [easy|now rewrite RR]|now left].
    - cbn [app run]. destruct (step r x e) as [[[x1 a]| | |]|] eqn:ST; try (right; intros h V; destruct (step_def r h x e NE V) as [Q|(? & ? & Q)]; rewrite Q in ST; discriminate); [|now left].
      destruct (IH l2 x1) as [Q|Q]; [left; now rewrite Q|]. right. intros h V. destruct (step_inv _ _ _ _ _ _ NE V ST) as (V' & _). destruct (Q _ V') as (y & Y & Z0). exists y. cbn [rev]. rewrite <- app_assoc. auto. }
  destruct (SPLIT (pre ++ [Get i]) post start) as [Q|Q]; [rewrite <- app_assoc in Q; cbn in Q; rewrite H in Q; discriminate|].
  destruct (Q [] (start_inv r)) as (y & Y & Z0). rewrite app_nil_r, rev_app_distr in Y. cbn in Y.
  destruct (run_inv r post NE (Get i :: rev pre) y Y) as [E|(s' & E & _)]; [now destruct Z0|]. eapply done_never; eauto. Qed.
(* errno of the function comes with the value once the thread has exited *)
Lemma errno_right r pre i s aa en : (forall i l, r i = Arr l -> l <> []) -> run r start (pre ++ [Get i]) = Some (Ok (s, aa)) -> r i = Val 18446744073709551615 en -> en <> 0 ->
  stage i (rev pre) = 3%nat -> errn s = en.
Proof. intros NE H R EN S. destruct (run_exact _ _ _ _ NE H) as (_ & ->). rewrite rev_app_distr. cbn. rewrite S, R. cbn. destruct (Z.eqb_spec en 0); easy. Qed.
(* of an array only the first value arrives *)
Definition other_rest (r r' : nat -> res) : Prop := forall i, r i = r' i \/ exists x l l', r i = Arr (x :: l) /\ r' i = Arr (x :: l').
Lemma rest_answers r r' es : other_rest r r' -> forall h, answers r h es = answers r' h es.
Proof. intros O. assert (P : forall i, plain (r i) = plain (r' i)) by (intros i; destruct (O i) as [-> |(x & l & l' & -> & ->)]; easy).
  assert (SE : forall h, scope_err r h = scope_err r' h).
  { induction h as [|[j|j|j|j|j] h IH]; cbn; auto. destruct (O j) as [-> |(x & l & l' & -> & ->)]; [now rewrite IH|easy]. }
  induction es as [|e es IH]; intros h; cbn; [easy|]. rewrite IH. f_equal. destruct e; cbn; auto. now rewrite P, SE. Qed.
Lemma rest_lost r r' es s aa s' aa' : (forall i l, r i = Arr l -> l <> []) -> other_rest r r' -> run r start es = Some (Ok (s, aa)) -> run r' start es = Some (Ok (s', aa')) -> aa = aa'.
Proof. intros NE O H H'. assert (NE' : forall i l, r' i = Arr l -> l <> []).
  { intros i l E. destruct (O i) as [Q|(x & k & k' & Q & Q')]; [eapply NE; rewrite Q; eauto|]. rewrite Q' in E. injection E as <-. discriminate. }
  destruct (run_exact _ _ _ _ NE H) as (-> & _). destruct (run_exact _ _ _ _ NE' H') as (-> & _). now apply rest_answers. Qed.
Lemma empty_array r i : r i = Arr [] -> run r start [Begin i; End i; Get i] = Some UB.
Proof. intros R. unfold run, step, start, put. repeat (rewrite ?Nat.eqb_refl, ?R; cbn [fut0 futs ph done ty serr errn negb value arr erred bind give]). reflexivity. Qed.
