From Verif Require Import Base EsModel.
#[local] Open Scope Z_scope.

(* ---- specification ---- *)
(* what has been asked for, newest first: Some name, or None for the default *)
Definition asked := list (Z * option string).
Definition thirteen : list (Z * string) :=
  [(11, "sig_segv"); (6, "sig_abrt"); (8, "sig_fpe"); (4, "sig_ill"); (2, "sig_int"); (15, "sig_term"); (3, "sig_quit"); (1, "sig_hup");
   (28, "sig_winch"); (5, "sig_trap"); (13, "sig_pipe"); (14, "sig_alrm"); (7, "sig_bus")]%string.
Definition all_thirteen : asked := rev (map (fun e => (fst e, Some (snd e))) thirteen).
Definition all_default : asked := rev (map (fun s => (s, None)) [11; 6; 8; 4; 2; 15; 3; 1; 28; 5; 14; 7]).
(* a set-up counts at the beginning and after a reset only *)
Definition due (a : asked) : bool := match a with [] => true | (_, None) :: _ => true | (_, Some _) :: _ => false end.
Fixpoint history (ops : list op) (a : asked) : asked :=
  match ops with
  | [] => a
  | Reg s n :: r => history r ((s, Some n) :: a)
  | Res s :: r => history r ((s, None) :: a)
  | Setup :: r => history r (if due a then all_thirteen ++ a else a)
  | Default :: r => history r (all_default ++ a)
  end.
(* the latest request that the system grants *)
Fixpoint latest (can : Z -> bool) (a : asked) (s : Z) : effect :=
  match a with
  | [] => Dfl
  | (s', n) :: r => if (s' =? s) && can s then match n with Some n => Throw (Some n) | None => Dfl end else latest can r s
  end.

(* ---- proofs ---- *)
Lemma look_store_same t s n : look (store t s n) s = Some n.
Proof. induction t as [|[s' n'] t IH]; unfold look in *; cbn; [now rewrite Z.eqb_refl|].
  destruct (Z.eqb_spec s' s); cbn; [now rewrite Z.eqb_refl|]. destruct (Z.eqb_spec s' s); [easy|]. exact IH. Qed.
Lemma look_store_other t s n q : q <> s -> look (store t s n) q = look t q.
Proof. intros N. induction t as [|[s' n'] t IH]; unfold look in *; cbn; [destruct (Z.eqb_spec s q); [congruence|easy]|].
  destruct (Z.eqb_spec s' s); cbn.
  - subst. destruct (Z.eqb_spec s q); [congruence|]. reflexivity.
  - destruct (s' =? q); [easy|]. exact IH. Qed.
Lemma store_in t s n q : In q (map fst (store t s n)) <-> In q (map fst t) \/ q = s.
Proof. induction t as [|[s' n'] t IH]; cbn; [intuition|]. destruct (Z.eqb_spec s' s); cbn; [subst; intuition|]. rewrite IH. intuition. Qed.
Lemma store_nodup t s n : NoDup (map fst t) -> NoDup (map fst (store t s n)).
Proof. induction t as [|[s' n'] t IH]; cbn; intros H; [constructor; [easy|constructor]|].
  inversion H; subst. destruct (Z.eqb_spec s' s); cbn; [subst; now constructor|]. constructor; [|auto]. rewrite store_in. intros [I|I]; congruence. Qed.

Definition inv (can : Z -> bool) (D : list Z) (a : asked) (x : st) : Prop :=
  NoDup (map fst (tab x)) /\ incl (map fst (tab x)) D /\ set x = negb (due a) /\ forall s, deliver x s = latest can a s.

Lemma not_full D t s : NoDup (map fst t) -> incl (map fst t) D -> (List.length D <= 32)%nat -> In s D -> full t s = false.
Proof. intros N I L S. unfold full, max_ex_sig. destruct (existsb _ t) eqn:E; [now rewrite andb_false_r|]. rewrite andb_true_r. apply Nat.leb_gt.
  assert (G : (List.length (s :: map fst t) <= List.length D)%nat).
  { apply NoDup_incl_length.
    - constructor; [|easy]. intros J. apply in_map_iff in J. destruct J as (e & F & J).
      assert (X : existsb (fun e => fst e =? s) t = true) by (apply existsb_exists; exists e; split; [easy|]; apply Z.eqb_eq; easy). congruence.
    - intros q [<-|J]; auto. }
  cbn in G. rewrite map_length in G. lia. Qed.

Lemma inv_reg can D a x s n : inv can D a x -> (List.length D <= 32)%nat -> In s D -> inv can D ((s, Some n) :: a) (ex_signal can s n x).
Proof. intros (N & I & F & L) LD S. unfold ex_signal. rewrite (not_full D _ _ N I LD S). destruct (can s) eqn:C; unfold inv, deliver; cbn.
  - split; [now apply store_nodup|]. split; [intros q J; apply store_in in J; destruct J as [J| ->]; auto|]. split; [easy|].
    intros q. unfold put. destruct (Z.eqb_spec q s).
    + subst. rewrite Z.eqb_refl, C. cbn. now rewrite look_store_same.
    + destruct (Z.eqb_spec s q); [congruence|]. cbn. rewrite look_store_other by easy. apply L.
  - split; [easy|]. split; [easy|]. split; [easy|]. intros q. destruct (Z.eqb_spec s q); [subst; rewrite C; cbn|cbn]; apply L. Qed.
Lemma inv_res can D a x s : inv can D a x -> inv can D ((s, None) :: a) (ex_signal_reset can s x).
Proof. intros (N & I & F & L). unfold ex_signal_reset, inv, deliver; cbn. split; [easy|]. split; [easy|]. split; [easy|]. intros q.
  destruct (can s) eqn:C.
  - unfold put. destruct (Z.eqb_spec q s); [subst; now rewrite Z.eqb_refl, C|]. destruct (Z.eqb_spec s q); [congruence|]. cbn. apply L.
  - destruct (Z.eqb_spec s q); [subst; rewrite C; cbn|cbn]; apply L. Qed.
Lemma inv_regs can D l a x : inv can D a x -> (List.length D <= 32)%nat -> (forall e, In e l -> In (fst e) D) ->
  inv can D (rev (map (fun e => (fst e, Some (snd e))) l) ++ a) (fold_left (fun x e => ex_signal can (fst e) (snd e) x) l x).
Proof. revert a x. induction l as [|e l IH]; intros a x V L H; cbn; [easy|]. rewrite <- app_assoc. cbn. apply IH; [|easy|intros; apply H; now right].
  apply inv_reg; [easy|easy|]. apply H. now left. Qed.
Lemma inv_ress can D l a x : inv can D a x -> inv can D (rev (map (fun s => (s, None)) l) ++ a) (fold_left (fun x s => ex_signal_reset can s x) l x).
Proof. revert a x. induction l as [|e l IH]; intros a x V; cbn; [easy|]. rewrite <- app_assoc. cbn. apply IH. now apply inv_res. Qed.

(* every signal named in the calls is in D *)
Definition within (D : list Z) (ops : list op) : Prop := forall o, In o ops ->
  match o with Reg s _ => In s D | Setup => incl [11; 6; 8; 4; 2; 15; 3; 1; 28; 5; 13; 14; 7] D | _ => True end.
Lemma run_inv can D ops : forall a x, inv can D a x -> (List.length D <= 32)%nat -> within D ops -> inv can D (history ops a) (fold_left (step can) ops x).
Proof. induction ops as [|o ops IH]; intros a x V L W; [easy|]. assert (W' : within D ops) by (intros q Q; apply W; now right).
  assert (Wo := W o (or_introl eq_refl)). destruct o as [s n|s| |]; cbn [history fold_left step]; apply IH; auto.
  - now apply inv_reg.
  - now apply inv_res.
  - unfold ex_signal_setup. assert (F : set x = negb (due a)) by apply V. rewrite F. destruct (due a); cbn [negb]; [|easy].
    apply (inv_regs can D thirteen a x V L). intros e E. apply Wo. apply (in_map fst) in E. exact E.
  - apply (inv_ress can D [11; 6; 8; 4; 2; 15; 3; 1; 28; 5; 14; 7] a x V). Qed.
Lemma start_inv can D : inv can D [] start.
Proof. split; [constructor|]. split; [intros q []|]. split; [easy|]. easy. Qed.
Lemma run_latest can D ops s : (List.length D <= 32)%nat -> within D ops -> deliver (run can ops) s = latest can (history ops []) s.
Proof. intros L W. apply (run_inv can D ops [] start (start_inv can D) L W). Qed.

(* the set-up at the start *)
Lemma setup_start can s : deliver (run can [Setup]) s = match find (fun e => fst e =? s) thirteen with Some (_, n) => if can s then Throw (Some n) else Dfl | None => Dfl end.
Proof.
  rewrite (run_latest can [11; 6; 8; 4; 2; 15; 3; 1; 28; 5; 13; 14; 7]); [|cbn; lia|intros o [<-|[]]; now intros q].
  cbn -[Z.eqb]. repeat (let E := fresh in match goal with |- context [?k =? s] => destruct (Z.eqb_spec k s) as [E|E]; [subst s; cbn; destruct (can _); reflexivity|]; cbn -[Z.eqb] end). reflexivity. Qed.

(* a full table *)
Lemma in_fst_exists t s : existsb (fun e : Z * string => fst e =? s) t = true <-> In s (map fst t).
Proof. rewrite existsb_exists, in_map_iff. split; intros (e & A & B); exists e; [apply Z.eqb_eq in B|rewrite Z.eqb_eq]; auto. Qed.
Lemma full_stays can ops : forall x s, (List.length (tab x) = 32)%nat -> ~ In s (map fst (tab x)) -> handled x s = false ->
  let y := fold_left (step can) ops x in deliver y s = Dfl.
Proof. induction ops as [|o ops IH]; intros x s L N H; cbn [fold_left]; [unfold deliver; now rewrite H|].
  assert (Greg : forall q n y, List.length (tab y) = 32%nat /\ map fst (tab y) = map fst (tab x) /\ handled y s = false ->
     List.length (tab (ex_signal can q n y)) = 32%nat /\ map fst (tab (ex_signal can q n y)) = map fst (tab x) /\ handled (ex_signal can q n y) s = false).
  { intros q n y (A & B & C). unfold ex_signal. destruct (full (tab y) q) eqn:F; [easy|]. unfold full, max_ex_sig in F. rewrite A in F. cbn [Nat.leb andb] in F.
    apply negb_false_iff in F. apply in_fst_exists in F. destruct (can q); [|easy]. cbn [tab handled].
    assert (M : map fst (store (tab y) q n) = map fst (tab y)).
    { clear - F. induction (tab y) as [|[a b] t IH]; cbn in *; [easy|]. destruct (Z.eqb_spec a q); cbn; [now subst|]. f_equal. apply IH. intuition. }
    split; [rewrite <- A, <- (map_length fst), M; apply map_length|]. split; [now rewrite M|]. unfold put. destruct (Z.eqb_spec s q); [subst; rewrite B in F; easy|easy]. }
  assert (Gres : forall q y, List.length (tab y) = 32%nat /\ map fst (tab y) = map fst (tab x) /\ handled y s = false ->
     List.length (tab (ex_signal_reset can q y)) = 32%nat /\ map fst (tab (ex_signal_reset can q y)) = map fst (tab x) /\ handled (ex_signal_reset can q y) s = false).
  { intros q y (A & B & C). unfold ex_signal_reset. cbn. split; [easy|]. split; [easy|]. destruct (can q); [|easy]. unfold put. now destruct (s =? q). }
  assert (G : List.length (tab (step can x o)) = 32%nat /\ map fst (tab (step can x o)) = map fst (tab x) /\ handled (step can x o) s = false).
  { destruct o; cbn [step]; auto.
    - unfold ex_signal_setup. destruct (set x); [auto|]. assert (K : forall l y, List.length (tab y) = 32%nat /\ map fst (tab y) = map fst (tab x) /\ handled y s = false ->
        let z := fold_left (fun x e => ex_signal can (fst e) (snd e) x) l y in List.length (tab z) = 32%nat /\ map fst (tab z) = map fst (tab x) /\ handled z s = false).
      { induction l as [|e l IHl]; intros y Y; cbn; [easy|]. apply IHl. now apply Greg. } apply K. auto.
    - unfold ex_signal_default. assert (K : forall l y, List.length (tab y) = 32%nat /\ map fst (tab y) = map fst (tab x) /\ handled y s = false ->
        let z := fold_left (fun x e => ex_signal_reset can e x) l y in List.length (tab z) = 32%nat /\ map fst (tab z) = map fst (tab x) /\ handled z s = false).
      { induction l as [|e l IHl]; intros y Y; cbn; [easy|]. apply IHl. now apply Gres. } apply K. auto. }
  destruct G as (A & B & C). apply IH; [easy|now rewrite B|easy]. Qed.
Lemma regs_tab can l : forall x, NoDup (map fst (tab x) ++ map fst l) -> (List.length (tab x) + List.length l <= 32)%nat -> (forall e, In e l -> can (fst e) = true) ->
  let y := fold_left (step can) (map (fun e => Reg (fst e) (snd e)) l) x in tab y = tab x ++ l /\ forall s, ~ In s (map fst l) -> handled y s = handled x s.
Proof. induction l as [|e l IH]; intros x N L C; cbn [map fold_left step]; [split; [now rewrite app_nil_r|easy]|].
  cbn [map List.length] in *.
  assert (NI : ~ In (fst e) (map fst (tab x))) by (intros I; apply NoDup_remove_2 in N; apply N, in_or_app; now left).
  assert (E : ex_signal can (fst e) (snd e) x = {| tab := tab x ++ [e]; handled := put (handled x) (fst e) true; set := true |}).
  { unfold ex_signal, full, max_ex_sig. destruct (Nat.leb_spec 32 (List.length (tab x))); [lia|]. cbn [andb]. rewrite (C e (or_introl eq_refl)). f_equal.
    clear - NI. induction (tab x) as [|[a b] t IHt]; cbn; [now destruct e|]. destruct (Z.eqb_spec a (fst e)) as [E|E]; [exfalso; apply NI; now left|]. f_equal. apply IHt. intros I. apply NI. now right. }
  rewrite E. cbn zeta in IH. specialize (IH {| tab := tab x ++ [e]; handled := put (handled x) (fst e) true; set := true |}). cbn [tab handled] in IH.
  destruct IH as (A & B).
  - rewrite map_app. cbn [map]. now rewrite <- app_assoc.
  - rewrite app_length. cbn. lia.
  - intros q Q. apply C. now right.
  - split; [rewrite A, <- app_assoc; easy|]. intros s S. rewrite B by (intros I; apply S; now right). unfold put. destruct (Z.eqb_spec s (fst e)); [exfalso; apply S; now left|easy]. Qed.
Lemma full_refuted can l s n ops : NoDup (map fst l) -> List.length l = 32%nat -> (forall e, In e l -> can (fst e) = true) -> ~ In s (map fst l) ->
  deliver (run can (map (fun e => Reg (fst e) (snd e)) l ++ ops ++ [Reg s n])) s = Dfl.
Proof. intros N L C S. unfold run. rewrite fold_left_app. destruct (regs_tab can l start) as (A & B); [easy|cbn; lia|easy|].
  apply full_stays; [rewrite A; exact L|rewrite A; exact S|]. now rewrite B. Qed.

(* a set-up after a registration does nothing *)
Lemma setup_late can s n q : q <> s -> deliver (run can [Reg s n; Setup]) q = Dfl.
Proof. intros N. rewrite (run_latest can (s :: [11; 6; 8; 4; 2; 15; 3; 1; 28; 5; 13; 14; 7])).
  - cbn. destruct (Z.eqb_spec s q); [congruence|]. reflexivity.
  - cbn. lia.
  - intros o [<-|[<-|[]]]; [now left|]. intros k K. now right. Qed.
(* after a reset it replaces names of the program *)
Lemma setup_again can n t : can 11 = true -> t <> 11 -> deliver (run can [Setup; Reg 11 n; Res t; Setup]) 11 = Throw (Some "sig_segv"%string).
Proof. intros C T. rewrite (run_latest can [11; 6; 8; 4; 2; 15; 3; 1; 28; 5; 13; 14; 7]).
  - cbn. rewrite C. reflexivity.
  - cbn. lia.
  - intros o [<-|[<-|[<-|[<-|[]]]]]; cbn; auto; now intros k. Qed.
(* the defaults, and the one left out *)
Lemma default_all can ops D s : (List.length D <= 32)%nat -> within D ops -> In s [11; 6; 8; 4; 2; 15; 3; 1; 28; 5; 14; 7] -> deliver (run can (ops ++ [Default])) s = Dfl.
Proof. intros L W I. rewrite (run_latest can D); [|easy|intros o O; apply in_app_or in O; destruct O as [O|[<-|[]]]; [now apply W|easy]].
  assert (E : forall a, history (ops ++ [Default]) a = all_default ++ history ops a).
  { clear. induction ops as [|o ops IH]; intros a; [easy|]. destruct o; cbn [history app]; apply IH. }
  rewrite E. remember (history ops []) as h. clear Heqh.
  assert (K : can s = false -> forall a, latest can a s = Dfl).
  { intros C. clear -C. induction a as [|[q m] a IH]; cbn; [easy|]. now rewrite C, andb_false_r. }
  destruct (can s) eqn:C; [|now apply K]. unfold all_default. cbn in I.
  repeat (destruct I as [<-|I]; [cbn; rewrite C; reflexivity|]). easy. Qed.
Lemma default_pipe can : can 13 = true -> deliver (run can [Setup; Default]) 13 = Throw (Some "sig_pipe"%string).
Proof. intros C. rewrite (run_latest can [11; 6; 8; 4; 2; 15; 3; 1; 28; 5; 13; 14; 7]).
  - cbn. rewrite C. reflexivity.
  - cbn. lia.
  - intros o [<-|[<-|[]]]; cbn; auto; now intros k. Qed.
