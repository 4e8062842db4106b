(* Directory-watch tasks: specification and proofs *)
From Verif Require Import Base FwModel.
From Coq Require Import Lia.

(* ---- closing ---- *)
Fixpoint evens (l : list nat) : list nat := match l with [] => [] | x :: r => x :: match r with [] => [] | _ :: q => evens q end end.
Definition memb (j : nat) (l : list nat) : bool := existsb (Nat.eqb j) l.
Lemma memb_in j l : memb j l = true <-> In j l.
Proof.
  unfold memb. rewrite existsb_exists. split.
  - intros [x [Hx E]]. apply Nat.eqb_eq in E. now subst.
  - intros H. exists j. split; [exact H | apply Nat.eqb_refl].
Qed.
Lemma sweep_exact n : forall rest kept fuel t, length rest <= n -> length rest <= fuel -> exists ws t',
  sweep fuel (length kept) (kept ++ rest) t = Ok (ws, t') /\ (forall j, t' j = if memb j (evens rest) then Free else t j).
Proof.
  induction n as [|n IH]; intros rest kept fuel t Hn Hf.
  - destruct rest as [|a r]; [|cbn in Hn; lia].
    exists kept, t. split; [|reflexivity].
    rewrite app_nil_r. destruct fuel; cbn [sweep]; rewrite Nat.ltb_irrefl; reflexivity.
  - destruct rest as [|h r].
    + exists kept, t. split; [|reflexivity].
      rewrite app_nil_r. destruct fuel; cbn [sweep]; rewrite Nat.ltb_irrefl; reflexivity.
    + destruct fuel as [|f]; [cbn in Hf; lia|].
      cbn [sweep]. replace (length kept <? length (kept ++ h :: r)) with true
        by (symmetry; apply Nat.ltb_lt; rewrite app_length; cbn [length]; lia).
      rewrite nth_error_app2 by lia. rewrite Nat.sub_diag. cbn [nth_error bind].
      replace (firstn (length kept) (kept ++ h :: r)) with kept
        by (rewrite firstn_app, Nat.sub_diag, firstn_all; cbn [firstn]; now rewrite app_nil_r).
      replace (skipn (S (length kept)) (kept ++ h :: r)) with r.
      2:{ rewrite skipn_app. rewrite skipn_all2 by lia. replace (S (length kept) - length kept) with 1 by lia. reflexivity. }
      destruct r as [|x q].
      * exists kept, (put t h Free). split.
        -- rewrite app_nil_r. destruct f; cbn [sweep];
             replace (S (length kept) <? length kept) with false by (symmetry; apply Nat.ltb_ge; lia); reflexivity.
        -- intros j. cbn [evens memb existsb]. unfold put. rewrite Bool.orb_false_r. reflexivity.
      * cbn [length] in Hn, Hf.
        destruct (IH q (kept ++ [x]) f (put t h Free)) as [ws [t' [E Ht]]]; [lia | lia |].
        exists ws, t'. split.
        -- rewrite app_length in E. cbn [length] in E. replace (length kept + 1) with (S (length kept)) in E by lia.
           rewrite <- app_assoc in E. exact E.
        -- intros j. rewrite Ht. cbn [evens]. change (memb j (h :: evens q)) with ((j =? h) || memb j (evens q)). unfold put.
           destruct (memb j (evens q)); destruct (j =? h); reflexivity.
Qed.
Lemma evens_nth n : forall l i j, length l <= n -> NoDup l -> nth_error l i = Some j -> memb j (evens l) = Nat.even i.
Proof.
  induction n as [|n IH]; intros l i j Hn ND H.
  - destruct l; [destruct i; discriminate H | cbn in Hn; lia].
  - destruct l as [|a [|b q]].
    + destruct i; discriminate H.
    + destruct i as [|i]; [|destruct i; discriminate H]. cbn in H. injection H as <-. cbn. now rewrite Nat.eqb_refl.
    + cbn [evens length] in *. change (memb j (a :: evens q)) with ((j =? a) || memb j (evens q)).
      inversion ND as [|a' l' Ha ND' ]; subst. inversion ND' as [|b' l'' Hb ND'']; subst.
      assert (SUB : forall l x, In x (evens l) -> In x l).
      { clear. intros l. assert (G : forall n l, length l <= n -> forall x, In x (evens l) -> In x l).
        { clear. induction n as [|n IH]; intros l Hl x Hx; [destruct l; [exact Hx | cbn in Hl; lia]|].
          destruct l as [|a [|b q]]; [exact Hx | exact Hx |]. cbn [evens] in Hx. destruct Hx as [->|Hx]; [left; reflexivity|].
          right; right. apply (IH q); [cbn in Hl; lia | exact Hx]. }
        intros x. apply (G (length l)). lia. }
      destruct i as [|[|i]].
      * cbn in H. injection H as <-. now rewrite Nat.eqb_refl.
      * cbn in H. injection H as <-. cbn [Nat.even].
        assert (b <> a) by (intros ->; apply Ha; left; reflexivity).
        rewrite (proj2 (Nat.eqb_neq b a) H). cbn [orb].
        destruct (memb b (evens q)) eqn:E; [|reflexivity]. apply memb_in, SUB in E. contradiction.
      * cbn [nth_error] in H. cbn [Nat.even].
        assert (j <> a) by (intros ->; apply Ha; right; eapply nth_error_In; exact H).
        rewrite (proj2 (Nat.eqb_neq j a) H0). cbn [orb]. apply IH; [lia | exact ND'' | exact H].
Qed.
Lemma evens_sub : forall l x, memb x (evens l) = true -> In x l.
Proof.
  intros l. assert (G : forall n l, length l <= n -> forall x, In x (evens l) -> In x l).
  { induction n as [|n IH]; intros m Hl x Hx; [destruct m; [exact Hx | cbn in Hl; lia]|].
    destruct m as [|a [|b q]]; [exact Hx | exact Hx |]. cbn [evens] in Hx. destruct Hx as [->|Hx]; [left; reflexivity|].
    right; right. apply (IH q); [cbn in Hl; lia | exact Hx]. }
  intros x Hx. apply memb_in in Hx. apply (G (length l)); [lia | exact Hx].
Qed.
Lemma close_exact s k : k < size s -> tab s k <> Free -> exists s', close_fd s (Some k) = Ok (s', true) /\
  (forall j, tab s' j = if (j =? k) || memb j (evens (mon_list (tab s) k)) then Free else tab s j) /\
  size s' = size s /\ loop_fd s' = loop_fd s /\ target s' = target s /\ act s' = act s /\ ids s' = ids s /\ cnt s' = cnt s /\ tasks s' = tasks s.
Proof.
  intros Hk Hf. unfold close_fd. rewrite (proj2 (Nat.ltb_lt k (size s)) Hk).
  replace (is_free (tab s k)) with false by (destruct (tab s k); [contradiction | reflexivity | reflexivity]). cbn [andb negb].
  destruct (sweep_exact (length (mon_list (tab s) k)) (mon_list (tab s) k) [] (length (mon_list (tab s) k)) (tab s)) as [ws [t' [E Ht]]]; [lia | lia |].
  cbn [length app] in E. rewrite E. cbn [bind fst snd]. eexists. split; [reflexivity|].
  split; [|cbn; repeat split; reflexivity].
  intros j. cbn [tab]. unfold put at 1. destruct (j =? k); [reflexivity | cbn [orb]; apply Ht].
Qed.
Definition del_eff (s s' : sys) (k : nat) : Prop :=
  (forall j, tab s' j = if (j =? k) || memb j (evens (mon_list (tab s) k)) then Free else tab s j) /\
  size s' = size s /\ loop_fd s' = None /\ target s' = target s /\ act s' = act s /\ ids s' = ids s /\ cnt s' = cnt s /\ tasks s' = tasks s.
Lemma del_exact s k : loop_fd s = Some k -> k < size s -> tab s k <> Free -> exists s', del_watch s = Ok (s', true) /\ del_eff s s' k.
Proof.
  intros L Hk Hf. unfold del_watch. rewrite L.
  destruct (close_exact {| size := size s; tab := tab s; loop_fd := None; target := target s; act := act s; ids := ids s; cnt := cnt s; tasks := tasks s |} k Hk Hf) as [s' [E R]].
  exists s'. split; [exact E | exact R].
Qed.
Lemma halves s k ws : loop_fd s = Some k -> k < size s -> tab s k = Mon ws -> ~ In k ws -> NoDup ws -> exists s',
  del_watch s = Ok (s', true) /\ tab s' k = Free /\ loop_fd s' = None /\
  (forall i j, nth_error ws i = Some j -> tab s' j = if Nat.even i then Free else tab s j) /\
  (forall j, j <> k -> ~ In j ws -> tab s' j = tab s j).
Proof.
  intros L Hk Hm Hn ND. destruct (del_exact s k L Hk) as [s' [E [Ht [_ [Hl _]]]]]; [rewrite Hm; discriminate|].
  unfold mon_list in Ht. rewrite Hm in Ht.
  exists s'. split; [exact E|]. split; [rewrite Ht, Nat.eqb_refl; reflexivity|]. split; [exact Hl|]. split.
  - intros i j H. rewrite Ht. assert (j <> k) by (intros ->; apply Hn; eapply nth_error_In; exact H).
    rewrite (proj2 (Nat.eqb_neq j k) H0). cbn [orb]. now rewrite (evens_nth (length ws) ws i j (le_n _) ND H).
  - intros j Hj Hi. rewrite Ht. rewrite (proj2 (Nat.eqb_neq j k) Hj). cbn [orb].
    destruct (memb j (evens ws)) eqn:M; [|reflexivity]. apply evens_sub in M. contradiction.
Qed.
Lemma single_freed s k w : loop_fd s = Some k -> k < size s -> tab s k = Mon [w] -> w <> k -> exists s',
  del_watch s = Ok (s', true) /\ tab s' k = Free /\ tab s' w = Free /\ loop_fd s' = None.
Proof.
  intros L Hk Hm Hw. destruct (halves s k [w] L Hk Hm) as [s' [E [A [B [C _]]]]].
  - intros [<-|[]]. now apply Hw.
  - constructor; [intros [] | constructor].
  - exists s'. split; [exact E|]. split; [exact A|]. split; [exact (C 0 w eq_refl) | exact B].
Qed.

(* ---- entries left over ---- *)
Definition leaked (s : sys) (h : nat) (p : nat) : Prop :=
  (exists fd top kwd, tab s h = Watch fd top p kwd) /\ (forall fd ws, tab s fd = Mon ws -> ~ In h ws) /\ h <> 0.
Definition tleaked (t : nat -> slot) (h p : nat) : Prop :=
  (exists fd top kwd, t h = Watch fd top p kwd) /\ (forall fd ws, t fd = Mon ws -> ~ In h ws).
Lemma new_fd_free n t w h : new_fd n t w = Some h -> t h = Free /\ h < n.
Proof.
  unfold new_fd. destruct (w <? n) eqn:A; cbn [andb].
  - destruct (is_free (t w)) eqn:B.
    + intros E. injection E as <-. split; [destruct (t w); [reflexivity | discriminate | discriminate] | now apply Nat.ltb_lt].
    + destruct (0 <? w); [|discriminate]. intros E. apply find_some in E. destruct E as [E1 E2]. apply in_seq in E1.
      split; [destruct (t h); [reflexivity | discriminate | discriminate] | lia].
  - destruct (0 <? w); [|discriminate]. intros E. apply find_some in E. destruct E as [E1 E2]. apply in_seq in E1.
    split; [destruct (t h); [reflexivity | discriminate | discriminate] | lia].
Qed.
Definition monk (t : nat -> slot) (fd : nat) : Prop := exists ws, t fd = Mon ws.
Lemma add_one_leak n t fd top kwd path t' h p : monk t fd -> tleaked t h p -> add_one n t fd top kwd path = Ok t' -> tleaked t' h p /\ monk t' fd.
Proof.
  intros [ws M] [[f0 [tp [kw W]]] N]. unfold add_one. destruct (new_fd n t kwd) as [g|] eqn:E; [|discriminate].
  apply new_fd_free in E. destruct E as [Fg _]. intros R. injection R as <-.
  assert (h <> fd) by (intros ->; rewrite M in W; discriminate).
  assert (h <> g) by (intros ->; rewrite Fg in W; discriminate).
  split; [|eexists; unfold put; rewrite Nat.eqb_refl; reflexivity]. split.
  - exists f0, tp, kw. unfold put. now rewrite (proj2 (Nat.eqb_neq h fd)), (proj2 (Nat.eqb_neq h g)).
  - intros f vs. unfold put. destruct (f =? fd) eqn:EF.
    + intros R. injection R as <-. unfold mon_list. rewrite M. intros I. apply in_app_iff in I. destruct I as [I|[->|[]]].
      * exact (N fd ws M I).
      * now apply H0.
    + destruct (f =? g) eqn:EG; [discriminate|]. apply N.
Qed.
Lemma add_subs_leak n fd h p : forall l t t', monk t fd -> tleaked t h p -> add_subs n t fd l = Ok t' -> tleaked t' h p /\ monk t' fd.
Proof.
  induction l as [|[kwd q] l IH]; intros t t' M L E; cbn [add_subs] in E.
  - injection E as <-. now split.
  - destruct (add_one n t fd false kwd q) as [t1| | |] eqn:A; try discriminate E. cbn [bind] in E.
    destruct (add_one_leak n t fd false kwd q t1 h p M L A) as [L1 M1]. exact (IH t1 t' M1 L1 E).
Qed.
(* the loop's descriptor, when set, is an open notification descriptor *)
Definition loop_ok (s : sys) : Prop := forall k, loop_fd s = Some k -> k < size s /\ monk (tab s) k.
Lemma put_leak t g h p ws : t g = Free -> ws = [] -> tleaked t h p -> tleaked (put t g (Mon ws)) h p.
Proof.
  intros F -> [[f0 [tp [kw W]]] N]. assert (h <> g) by (intros ->; rewrite F in W; discriminate). split.
  - exists f0, tp, kw. unfold put. now rewrite (proj2 (Nat.eqb_neq h g)).
  - intros f vs. unfold put. destruct (f =? g); [intros R; injection R as <-; intros [] | apply N].
Qed.
Lemma add_one_mon n t fd top kwd path t' : monk t fd -> add_one n t fd top kwd path = Ok t' -> monk t' fd.
Proof.
  intros M. unfold add_one. destruct (new_fd n t kwd) as [g|]; [|discriminate]. intros E. injection E as <-.
  eexists. unfold put. rewrite Nat.eqb_refl. reflexivity.
Qed.
Lemma add_subs_mon n fd : forall l t t', monk t fd -> add_subs n t fd l = Ok t' -> monk t' fd.
Proof.
  induction l as [|[kwd q] l IH]; intros t t' M E; cbn [add_subs] in E; [injection E as <-; exact M|].
  destruct (add_one n t fd false kwd q) as [t1| | |] eqn:A; try discriminate E. cbn [bind] in E.
  exact (IH t1 t' (add_one_mon _ _ _ _ _ _ _ M A) E).
Qed.
Lemma watch_ok s kfd top subs path cb s' r : loop_ok s -> watch s kfd top subs path cb = Ok (s', r) ->
  loop_ok s' /\ (forall h p, tleaked (tab s) h p -> tleaked (tab s') h p) /\ size s' = size s /\
  (act s <= act s')%Z /\ ids s' = ids s /\ cnt s' = cnt s /\ tasks s' = tasks s /\
  (forall k, r = Some k -> loop_fd s' = Some k /\ target s' k = Some cb /\ act s' = (act s + 1)%Z).
Proof.
  intros LO. unfold watch.
  assert (FIN : forall t0 fd, (fd < size s /\ monk t0 fd) -> (forall h p, tleaked (tab s) h p -> tleaked t0 h p) ->
    match top with
    | None => Ok ({| size := size s; tab := t0; loop_fd := Some fd; target := target s; act := act s; ids := ids s; cnt := cnt s; tasks := tasks s |}, None)
    | Some kwd => do t1 <- add_one (size s) t0 fd true kwd path; do t2 <- add_subs (size s) t1 fd subs;
       Ok ({| size := size s; tab := t2; loop_fd := Some fd; target := fun k => if k =? fd then Some cb else target s k; act := (act s + 1)%Z; ids := ids s; cnt := cnt s; tasks := tasks s |}, Some fd)
    end = Ok (s', r) ->
    loop_ok s' /\ (forall h p, tleaked (tab s) h p -> tleaked (tab s') h p) /\ size s' = size s /\
    (act s <= act s')%Z /\ ids s' = ids s /\ cnt s' = cnt s /\ tasks s' = tasks s /\
    (forall k, r = Some k -> loop_fd s' = Some k /\ target s' k = Some cb /\ act s' = (act s + 1)%Z)).
  { intros t0 fd [Hs M] K E. destruct top as [kwd|].
    - destruct (add_one (size s) t0 fd true kwd path) as [t1| | |] eqn:A; try discriminate E. cbn [bind] in E.
      destruct (add_subs (size s) t1 fd subs) as [t2| | |] eqn:B; try discriminate E. cbn [bind] in E. injection E as <- <-.
      assert (M1 := add_one_mon _ _ _ _ _ _ _ M A). assert (M2 := add_subs_mon _ _ _ _ _ M1 B).
      split; [intros k Ek; cbn [loop_fd size tab] in *; injection Ek as <-; split; assumption|].
      split.
      { intros h p L. cbn [tab]. destruct (add_one_leak _ _ _ _ _ _ _ h p M (K h p L) A) as [L1 _].
        destruct (add_subs_leak _ _ h p _ _ _ M1 L1 B) as [L2 _]. exact L2. }
      cbn. split; [reflexivity|]. split; [lia|]. split; [reflexivity|]. split; [reflexivity|]. split; [reflexivity|].
      intros k Ek. injection Ek as <-. rewrite Nat.eqb_refl. repeat split; reflexivity.
    - injection E as <- <-. split; [intros k Ek; cbn [loop_fd size tab] in *; injection Ek as <-; split; assumption|].
      split; [exact K|]. cbn. split; [reflexivity|]. split; [lia|]. split; [reflexivity|]. split; [reflexivity|]. split; [reflexivity|]. discriminate. }
  assert (NIL : Ok ({| size := size s; tab := tab s; loop_fd := None; target := target s; act := act s; ids := ids s; cnt := cnt s; tasks := tasks s |}, None) = Ok (s', r) ->
    loop_ok s' /\ (forall h p, tleaked (tab s) h p -> tleaked (tab s') h p) /\ size s' = size s /\
    (act s <= act s')%Z /\ ids s' = ids s /\ cnt s' = cnt s /\ tasks s' = tasks s /\
    (forall k, r = Some k -> loop_fd s' = Some k /\ target s' k = Some cb /\ act s' = (act s + 1)%Z)).
  { intros E. injection E as <- <-. split; [intros k Ek; discriminate Ek|]. split; [intros h p L; exact L|].
    cbn. split; [reflexivity|]. split; [lia|]. split; [reflexivity|]. split; [reflexivity|]. split; [reflexivity|]. discriminate. }
  destruct (loop_fd s) as [fd|] eqn:L; cbn [bind fst snd].
  - apply FIN; [apply LO; exact L | intros h p H; exact H].
  - destruct kfd as [k|]; cbn [bind fst snd]; [|exact NIL].
    destruct (new_fd (size s) (tab s) k) as [g|] eqn:G; cbn [bind fst snd]; [|exact NIL].
    apply new_fd_free in G. destruct G as [Fg Lg].
    apply FIN.
    + split; [exact Lg | eexists; unfold put; rewrite Nat.eqb_refl; reflexivity].
    + intros h p H. apply put_leak; [exact Fg | reflexivity | exact H].
Qed.
Lemma del_total s : loop_ok s -> exists s' b, del_watch s = Ok (s', b) /\ loop_fd s' = None /\ size s' = size s /\ act s' = act s /\ ids s' = ids s /\ cnt s' = cnt s /\ tasks s' = tasks s /\
  (forall h p, tleaked (tab s) h p -> tleaked (tab s') h p).
Proof.
  intros LO. destruct (loop_fd s) as [k|] eqn:L.
  - destruct (LO k L) as [Hk [ws M]]. destruct (del_exact s k L Hk) as [s' [E [T [A [B [C [D [F [G H]]]]]]]]]; [rewrite M; discriminate|].
    exists s', true. split; [exact E|]. split; [exact B|]. split; [exact A|]. split; [exact D|]. split; [exact F|]. split; [exact G|]. split; [exact H|].
    intros h p [[f0 [tp [kw W]]] N]. split.
    + exists f0, tp, kw. rewrite T. assert (h <> k) by (intros ->; rewrite M in W; discriminate).
      rewrite (proj2 (Nat.eqb_neq h k) H0). cbn [orb]. destruct (memb h _) eqn:Q; [|exact W].
      apply evens_sub in Q. unfold mon_list in Q. rewrite M in Q. exfalso. exact (N k ws M Q).
    + intros fd vs. rewrite T. destruct ((fd =? k) || _); [discriminate | apply N].
  - unfold del_watch. rewrite L. unfold close_fd. eexists; exists false. split; [reflexivity|]. cbn.
    repeat (split; [reflexivity|]). intros h p H; exact H.
Qed.

(* a turn of a task, whatever the kernel answers *)
Lemma turn_ok s i kfd top subs s' : loop_ok s -> turn s i kfd top subs = Ok s' ->
  loop_ok s' /\ (forall h p, tleaked (tab s) h p -> tleaked (tab s') h p) /\ (act s <= act s')%Z /\ ids s' = ids s /\ cnt s' = cnt s.
Proof.
  intros LO. unfold turn. destruct (nth_error (tasks s) i) as [t|]; [|intros E; injection E as <-; split; [exact LO | split; [intros h p H; exact H | split; [lia | split; reflexivity]]]].
  destruct (t_done t); [intros E; injection E as <-; split; [exact LO | split; [intros h p H; exact H | split; [lia | split; reflexivity]]]|].
  assert (G : forall s1 r, loop_ok s1 -> (forall h p, tleaked (tab s) h p -> tleaked (tab s1) h p) -> (act s <= act s1)%Z -> ids s1 = ids s -> cnt s1 = cnt s ->
    (do w <- watching (fst (s1, r)) (snd (s1, r));
     if w && negb (t_cancel t) then Ok (set_task (fst (s1, r)) i {| t_id := t_id t; t_path := t_path t; t_cb := t_cb t; t_fd := snd (s1, r); t_cancel := t_cancel t; t_done := false |})
     else do e <- del_watch (fst (s1, r)); Ok (set_task (fst e) i {| t_id := t_id t; t_path := t_path t; t_cb := t_cb t; t_fd := snd (s1, r); t_cancel := t_cancel t; t_done := true |})) = Ok s' ->
    loop_ok s' /\ (forall h p, tleaked (tab s) h p -> tleaked (tab s') h p) /\ (act s <= act s')%Z /\ ids s' = ids s /\ cnt s' = cnt s).
  { intros s1 r L1 K1 A1 I1 C1. cbn [fst snd]. destruct (watching s1 r) as [w| | |]; cbn [bind]; try discriminate.
    destruct (w && negb (t_cancel t)).
    - intros E. injection E as <-. split; [exact L1|]. split; [exact K1|]. split; [exact A1|]. split; [exact I1 | exact C1].
    - destruct (del_total s1 L1) as [s2 [b [E2 [F2 [S2 [A2 [I2 [C2 [T2 K2]]]]]]]]]. rewrite E2. cbn [bind fst]. intros E. injection E as <-.
      split; [intros k Hk; cbn in Hk; rewrite F2 in Hk; discriminate Hk|]. split; [intros h p H; cbn; apply K2, K1, H|]. cbn. split; [lia|]. split; congruence. }
  destruct (t_fd t) as [fd|]; cbn [bind].
  - apply G; [exact LO | intros h p H; exact H | lia | reflexivity | reflexivity].
  - destruct (watch s kfd top subs (t_path t) (t_cb t)) as [[s1 r]| | |] eqn:W; cbn [bind]; try discriminate.
    destruct (watch_ok _ _ _ _ _ _ _ _ LO W) as [A [B [C [D [E [F _]]]]]]. apply G; [exact A | exact B | exact D | exact E | exact F].
Qed.
Lemma drop_len r : forall l, existsb (fun x => (x =? r)%Z) l = true -> length l = S (length (drop r l)).
Proof.
  induction l as [|x l IH]; [discriminate|]. cbn [existsb drop]. destruct (x =? r)%Z; [reflexivity|].
  cbn [orb length]. intros E. rewrite (IH E). reflexivity.
Qed.
Lemma step_ok s o s' : loop_ok s -> step s o = Ok s' ->
  loop_ok s' /\ (forall h p, tleaked (tab s) h p -> tleaked (tab s') h p) /\ (act s <= act s')%Z /\ (cnt s' - Z.of_nat (length (ids s')) = cnt s - Z.of_nat (length (ids s)))%Z.
Proof.
  intros LO. destruct o as [r p c|r|i kfd top subs]; cbn [step]; intros E.
  - injection E as <-. unfold init. destruct (0 <? r)%Z; [|split; [exact LO | split; [intros h q H; exact H | split; lia]]].
    split; [exact LO|]. split; [intros h q H; exact H|]. cbn. split; [lia|]. rewrite app_length. cbn. lia.
  - injection E as <-. unfold stop. destruct ((0 <? r)%Z && existsb (fun x => (x =? r)%Z) (ids s)) eqn:B; [|split; [exact LO | split; [intros h q H; exact H | split; cbn; lia]]].
    apply andb_prop in B. destruct B as [_ B]. apply drop_len in B.
    split; [exact LO|]. split; [intros h q H; exact H|]. cbn. split; [lia|]. rewrite B. lia.
  - destruct (turn_ok s i kfd top subs s' LO E) as [A [B [C [D F]]]]. split; [exact A|]. split; [exact B|]. split; [exact C|]. rewrite D, F. reflexivity.
Qed.
Lemma run_ok : forall l s s', loop_ok s -> run s l = Ok s' ->
  loop_ok s' /\ (forall h p, tleaked (tab s) h p -> tleaked (tab s') h p) /\ (act s <= act s')%Z /\ (cnt s' - Z.of_nat (length (ids s')) = cnt s - Z.of_nat (length (ids s)))%Z.
Proof.
  induction l as [|o l IH]; intros s s' LO E; cbn [run] in E.
  - injection E as <-. split; [exact LO|]. split; [intros h p H; exact H | split; lia].
  - destruct (step s o) as [s1| | |] eqn:S1; try discriminate E. cbn [bind] in E.
    destruct (step_ok s o s1 LO S1) as [A [B [C D]]]. destruct (IH s1 s' A E) as [A' [B' [C' D']]].
    split; [exact A'|]. split; [intros h p H; apply B', B, H|]. split; lia.
Qed.
Lemma loop_ok0 n : loop_ok (sys0 n).
Proof. intros k E. discriminate E. Qed.

Lemma counts n l s : run (sys0 n) l = Ok s -> cnt s = Z.of_nat (length (ids s)).
Proof. intros E. destruct (run_ok l _ _ (loop_ok0 n) E) as [_ [_ [_ D]]]. cbn in D. lia. Qed.
Lemma never_idle n l l' s s' : run (sys0 n) l = Ok s -> (0 < act s)%Z -> run s l' = Ok s' -> busy s' = true.
Proof.
  intros E A E'. destruct (run_ok l _ _ (loop_ok0 n) E) as [L _]. destruct (run_ok l' s s' L E') as [_ [_ [C _]]].
  unfold busy. replace (0 <? act s')%Z with true by (symmetry; apply Z.ltb_lt; lia). reflexivity.
Qed.
Lemma left_over n l l' s s1 s' k ws i h top p : run (sys0 n) l = Ok s -> loop_fd s = Some k -> tab s k = Mon ws -> NoDup ws -> ~ In k ws ->
  nth_error ws i = Some h -> Nat.odd i = true -> (forall fd vs, tab s fd = Mon vs -> fd <> k -> ~ In h vs) -> tab s h = Watch k top p h ->
  del_watch s = Ok (s1, true) -> run s1 l' = Ok s' -> reported s' h = Some p.
Proof.
  intros E L M ND NK Hi OD NO W D R.
  destruct (run_ok l _ _ (loop_ok0 n) E) as [LO _]. destruct (LO k L) as [Hk _].
  destruct (halves s k ws L Hk M NK ND) as [s2 [D2 [Fk [Ln [Hv Ho]]]]]. rewrite D in D2. injection D2 as <-.
  assert (NE : Nat.even i = false) by (unfold Nat.odd in OD; destruct (Nat.even i); [discriminate | reflexivity]).
  assert (LK : tleaked (tab s1) h p).
  { split.
    - exists k, top, h. rewrite (Hv i h Hi), NE. exact W.
    - intros fd vs Hf I. destruct (Nat.eq_dec fd k) as [->|NEk]; [rewrite Fk in Hf; discriminate|].
      apply (NO fd vs); [|exact NEk | exact I].
      destruct (in_dec Nat.eq_dec fd ws) as [I2|I2].
      + apply In_nth_error in I2. destruct I2 as [q Hq]. rewrite (Hv q fd Hq) in Hf. destruct (Nat.even q); [discriminate | exact Hf].
      + rewrite <- (Ho fd NEk I2). exact Hf. }
  destruct (run_ok l' s1 s') as [_ [K _]]; [intros k' Hk'; rewrite Ln in Hk'; discriminate | exact R |].
  destruct (K h p LK) as [[f0 [tp [kw Q]]] _]. unfold reported. now rewrite Q.
Qed.

(* ---- stopping ---- *)
Lemma drop_split r : forall l, existsb (fun x => (x =? r)%Z) l = true -> exists a b, l = a ++ r :: b /\ ~ In r a /\ drop r l = a ++ b.
Proof.
  induction l as [|x l IH]; [discriminate|]. cbn [existsb drop]. destruct (x =? r)%Z eqn:E.
  - intros _. apply Z.eqb_eq in E. subst x. exists [], l. split; [reflexivity|]. split; [intros [] | reflexivity].
  - cbn [orb]. intros H. destruct (IH H) as [a [b [E1 [N E2]]]]. exists (x :: a), b.
    split; [cbn; now rewrite E1|]. split; [|cbn; now rewrite E2].
    intros [->|I]; [rewrite Z.eqb_refl in E; discriminate | exact (N I)].
Qed.
Lemma stop_spec s r : (snd (stop s r) = true <-> (0 < r)%Z /\ In r (ids s)) /\ (snd (stop s r) = false -> fst (stop s r) = s) /\
  (snd (stop s r) = true -> (exists a b, ids s = a ++ r :: b /\ ~ In r a /\ ids (fst (stop s r)) = a ++ b) /\ cnt (fst (stop s r)) = (cnt s - 1)%Z /\
    tab (fst (stop s r)) = tab s /\ loop_fd (fst (stop s r)) = loop_fd s /\
    (forall i t, nth_error (tasks s) i = Some t -> exists t', nth_error (tasks (fst (stop s r))) i = Some t' /\
       t_id t' = t_id t /\ t_path t' = t_path t /\ t_cb t' = t_cb t /\ t_fd t' = t_fd t /\ t_done t' = t_done t /\
       (t_id t = r -> t_cancel t' = true) /\ (t_id t <> r -> t_cancel t' = t_cancel t))).
Proof.
  unfold stop. destruct (0 <? r)%Z eqn:A; cbn [andb].
  - apply Z.ltb_lt in A. destruct (existsb (fun x => (x =? r)%Z) (ids s)) eqn:B; cbn [fst snd].
    + split; [|split; [discriminate|]].
      * split; [intros _; split; [exact A|] | intros _; reflexivity].
        apply existsb_exists in B. destruct B as [x [I E]]. apply Z.eqb_eq in E. now subst.
      * intros _. cbn [ids cnt tab loop_fd tasks]. split; [exact (drop_split r _ B)|]. split; [reflexivity|]. split; [reflexivity|]. split; [reflexivity|].
        intros i t Hi. exists (mark r t). split; [now apply map_nth_error|]. cbn. repeat (split; [reflexivity|]). split.
        -- intros ->. now rewrite Z.eqb_refl.
        -- intros N. apply Z.eqb_neq in N. now rewrite N.
    + split; [|split; [reflexivity | discriminate]]. split; [discriminate|].
      intros [_ I]. exfalso. assert (X : existsb (fun x => (x =? r)%Z) (ids s) = true) by (apply existsb_exists; exists r; split; [exact I | apply Z.eqb_refl]).
      rewrite X in B. discriminate.
  - apply Z.ltb_ge in A. cbn [fst snd]. split; [|split; [reflexivity | discriminate]]. split; [discriminate | intros [H _]; lia].
Qed.
Lemma goes_on s i t k ws x kfd top subs : nth_error (tasks s) i = Some t -> t_fd t = Some k -> t_cancel t = false -> t_done t = false -> tab s k = Mon (x :: ws) ->
  turn s i kfd top subs = Ok (set_task s i t).
Proof.
  intros H F C D M. unfold turn. rewrite H, D, F. cbn [bind fst snd]. unfold watching, mon_list. rewrite M. cbn [length bind].
  change (0 <? S (length ws)) with true. cbn [bind]. rewrite C. cbn [andb negb]. f_equal. f_equal. destruct t as [a b c d e f]; cbn in *. congruence.
Qed.
Lemma set_nth_id {A} (x : A) : forall l i, nth_error l i = Some x -> set_nth i x l = l.
Proof.
  induction l as [|a l IH]; intros i H; destruct i as [|i]; cbn in *; try discriminate H.
  - injection H as <-. reflexivity.
  - now rewrite (IH i H).
Qed.
Lemma goes_on_same s i t k ws x kfd top subs : nth_error (tasks s) i = Some t -> t_fd t = Some k -> t_cancel t = false -> t_done t = false -> tab s k = Mon (x :: ws) ->
  exists s', turn s i kfd top subs = Ok s' /\ size s' = size s /\ tab s' = tab s /\ loop_fd s' = loop_fd s /\ target s' = target s /\ act s' = act s /\ ids s' = ids s /\ cnt s' = cnt s /\ tasks s' = tasks s.
Proof.
  intros H F C D M. exists (set_task s i t). split; [eapply goes_on; eassumption|]. cbn.
  repeat (split; [reflexivity|]). now apply set_nth_id.
Qed.
Definition ended (s : sys) (i : nat) : Prop := exists t, nth_error (tasks s) i = Some t /\ t_done t = true.
Lemma set_task_ended s i t u : nth_error (tasks s) i = Some u -> t_done t = true -> ended (set_task s i t) i.
Proof.
  intros H D. exists t. split; [|exact D]. cbn. apply set_nth_same. apply nth_error_Some. rewrite H. discriminate.
Qed.
(* a stopped task, or one whose descriptor has no watches, at its next turn *)
Lemma ends s i t k kfd top subs : nth_error (tasks s) i = Some t -> t_fd t = Some k -> t_done t = false -> (t_cancel t = true \/ mon_list (tab s) k = []) ->
  loop_ok s -> exists s', turn s i kfd top subs = Ok s' /\ ended s' i /\ loop_fd s' = None /\ ids s' = ids s /\ cnt s' = cnt s /\
    (forall q, loop_fd s = Some q -> tab s' q = Free) /\ (forall j u, j <> i -> nth_error (tasks s) j = Some u -> nth_error (tasks s') j = Some u) /\
    (forall j, tab s j = Free -> tab s' j = Free).
Proof.
  intros H F D CE LO. unfold turn. rewrite H, D, F. cbn [bind fst snd]. unfold watching. cbn [bind].
  replace ((0 <? length (mon_list (tab s) k)) && negb (t_cancel t)) with false.
  2:{ symmetry. destruct CE as [->| ->]; [now rewrite Bool.andb_false_r | reflexivity]. }
  destruct (loop_fd s) as [q|] eqn:L.
  - destruct (LO q L) as [Hq [ws M]]. destruct (del_exact s q L Hq) as [s' [E [T [A [B [C [G [I [J K]]]]]]]]]; [rewrite M; discriminate|].
    rewrite E. cbn [bind fst]. eexists. split; [reflexivity|].
    split; [apply (set_task_ended s' i _ t); [now rewrite K | reflexivity]|]. cbn [set_task loop_fd ids cnt tab tasks].
    split; [exact B|]. split; [exact I|]. split; [exact J|]. split; [intros q' Eq; injection Eq as <-; rewrite T, Nat.eqb_refl; reflexivity|].
    split; [intros j u Nj Hj; rewrite set_nth_other by congruence; now rewrite K|].
    intros j Fj. rewrite T. destruct ((j =? q) || _); [reflexivity | exact Fj].
  - unfold del_watch. rewrite L. cbn [close_fd bind fst]. eexists. split; [reflexivity|].
    split; [eapply set_task_ended; [exact H | reflexivity]|]. cbn [set_task loop_fd ids cnt tab tasks].
    repeat (split; [reflexivity|]). split; [intros q' Eq; discriminate Eq|].
    split; [intros j u Nj Hj; now rewrite set_nth_other by congruence | intros j Fj; exact Fj].
Qed.
(* two tasks of one loop: stopping the first ends the second as well *)
Lemma others_end n l s i j t u k kfd top subs kfd' top' subs' : run (sys0 n) l = Ok s -> i <> j -> loop_fd s = Some k ->
  nth_error (tasks s) i = Some t -> t_fd t = Some k -> t_done t = false -> t_cancel t = true ->
  nth_error (tasks s) j = Some u -> t_fd u = Some k -> t_done u = false -> t_cancel u = false -> In (t_id u) (ids s) ->
  exists s1 s2, turn s i kfd top subs = Ok s1 /\ turn s1 j kfd' top' subs' = Ok s2 /\ ended s2 j /\ In (t_id u) (ids s2) /\ cnt s2 = cnt s.
Proof.
  intros R NE L Hi Fi Di Ci Hj Fj Dj Cj I. destruct (run_ok l _ _ (loop_ok0 n) R) as [LO _].
  destruct (ends s i t k kfd top subs Hi Fi Di (or_introl Ci) LO) as [s1 [E1 [_ [L1 [I1 [C1 [Fr [O1 _]]]]]]]].
  destruct (ends s1 j u k kfd' top' subs') as [s2 [E2 [En [_ [I2 [C2 _]]]]]].
  - apply O1; [congruence | exact Hj].
  - exact Fj.
  - exact Dj.
  - right. unfold mon_list. now rewrite (Fr k L).
  - intros q Hq. rewrite L1 in Hq. discriminate Hq.
  - exists s1, s2. split; [exact E1|]. split; [exact E2|]. split; [exact En|]. split; [rewrite I2, I1; exact I | congruence].
Qed.
(* and a task ended that way, when it next runs, closes the descriptor of a watch begun since *)
Lemma closes_newer n l s i t k q kfd top subs : run (sys0 n) l = Ok s -> nth_error (tasks s) i = Some t -> t_fd t = Some k -> t_done t = false ->
  tab s k = Free -> loop_fd s = Some q -> exists s', turn s i kfd top subs = Ok s' /\ loop_fd s' = None /\ tab s' q = Free.
Proof.
  intros R Hi Fi Di Fk L. destruct (run_ok l _ _ (loop_ok0 n) R) as [LO _].
  destruct (ends s i t k kfd top subs Hi Fi Di) as [s' [E [_ [L1 [_ [_ [Fr _]]]]]]]; [right; unfold mon_list; now rewrite Fk | exact LO |].
  exists s'. split; [exact E|]. split; [exact L1 | exact (Fr q L)].
Qed.
(* stopping the only watch *)
Lemma only_one n l s i t k kfd top subs : run (sys0 n) l = Ok s -> nth_error (tasks s) i = Some t -> t_fd t = Some k -> t_done t = false -> t_cancel t = true ->
  loop_fd s = Some k -> exists s', turn s i kfd top subs = Ok s' /\ ended s' i /\ loop_fd s' = None /\ tab s' k = Free /\
   (forall j u, j <> i -> nth_error (tasks s) j = Some u -> nth_error (tasks s') j = Some u).
Proof.
  intros R Hi Fi Di Ci L. destruct (run_ok l _ _ (loop_ok0 n) R) as [LO _].
  destruct (ends s i t k kfd top subs Hi Fi Di (or_introl Ci) LO) as [s' [E [En [L1 [_ [_ [Fr [O _]]]]]]]].
  exists s'. split; [exact E|]. split; [exact En|]. split; [exact L1|]. split; [exact (Fr k L) | exact O].
Qed.
(* ---- starting ---- *)
Lemma begun n l s i t kfd top subs s' : run (sys0 n) l = Ok s -> nth_error (tasks s) i = Some t -> t_fd t = None -> t_done t = false -> t_cancel t = false ->
  turn s i kfd top subs = Ok s' -> exists k, target s' k = Some (t_cb t) /\ act s' = (act s + 1)%Z /\ ((loop_fd s' = Some k /\ ~ ended s' i) \/ ended s' i) /\ (forall q, loop_fd s = Some q -> k = q).
Proof.
  intros R Hi Fi Di Ci. destruct (run_ok l _ _ (loop_ok0 n) R) as [LO _]. unfold turn. rewrite Hi, Di, Fi.
  destruct (watch s kfd top subs (t_path t) (t_cb t)) as [[s1 r]| | |] eqn:W; cbn [bind]; try discriminate. cbn [fst snd].
  destruct (watch_ok _ _ _ _ _ _ _ _ LO W) as [A [B [C [D [E [F [G H]]]]]]].
  destruct r as [k|]; [|cbn [watching bind]; discriminate].
  destruct (H k eq_refl) as [H1 [H2 H3]].
  assert (SAME : forall q, loop_fd s = Some q -> k = q).
  { intros q Lq. unfold watch in W. rewrite Lq in W. cbn [bind fst snd] in W. destruct top as [kwd|]; [|discriminate W].
    destruct (add_one (size s) (tab s) q true kwd (t_path t)) as [t1| | |]; try discriminate W. cbn [bind] in W.
    destruct (add_subs (size s) t1 q subs) as [t2| | |]; try discriminate W. cbn [bind] in W. injection W as _ <-. reflexivity. }
  unfold watching. cbn [bind]. rewrite Ci. cbn [negb]. rewrite Bool.andb_true_r.
  destruct (0 <? length (mon_list (tab s1) k)).
  - intros X. injection X as <-. exists k. cbn [set_task target act loop_fd]. split; [exact H2|]. split; [exact H3|]. split; [|exact SAME].
    left. split; [exact H1|]. intros [u [Hu Du]]. cbn [tasks set_task] in Hu. rewrite set_nth_same in Hu; [|rewrite G; apply nth_error_Some; rewrite Hi; discriminate].
    injection Hu as <-. discriminate Du.
  - destruct (del_total s1 A) as [s2 [b [E2 [F2 [S2 [A2 [I2 [C2 [T2 K2]]]]]]]]].
    assert (TG : target s2 = target s1).
    { destruct (loop_fd s1) as [z|] eqn:LZ; [|discriminate H1]. injection H1 as ->.
      destruct (A k) as [Hk [ws M]]; [exact LZ|]. destruct (del_exact s1 k LZ Hk) as [s3 [E3 [_ [_ [_ [T3 _]]]]]]; [rewrite M; discriminate|].
      rewrite E2 in E3. injection E3 as <- _. exact T3. }
    rewrite E2. cbn [bind fst]. intros X. injection X as <-. exists k. cbn [set_task target act]. rewrite TG. split; [exact H2|]. split; [lia|]. split; [|exact SAME].
    right. apply (set_task_ended s2 i _ t); [rewrite T2, G; exact Hi | reflexivity].
Qed.
Lemma refused s i t kfd subs : nth_error (tasks s) i = Some t -> t_fd t = None -> t_done t = false -> turn s i kfd None subs = UB.
Proof.
  intros H F D. unfold turn. rewrite H, D, F. unfold watch. destruct (loop_fd s) as [q|]; cbn [bind fst snd]; [reflexivity|].
  destruct kfd as [k|]; cbn [bind fst snd]; [|reflexivity]. destruct (new_fd (size s) (tab s) k) as [g|]; reflexivity.
Qed.
(* ---- removing one watch ---- *)
Lemma removed s wd fd top p kwd ws : tab s wd = Watch fd top p kwd -> tab s fd = Mon ws -> In wd ws -> exists a b, ws = a ++ wd :: b /\ ~ In wd a /\
  snd (remove s wd) = true /\ tab (fst (remove s wd)) wd = Free /\ tab (fst (remove s wd)) fd = Mon (a ++ b) /\
  (forall j, j <> wd -> j <> fd -> tab (fst (remove s wd)) j = tab s j) /\
  (a ++ b <> [] -> act (fst (remove s wd)) = act s /\ target (fst (remove s wd)) = target s) /\
  (a ++ b = [] -> act (fst (remove s wd)) = (act s - 1)%Z /\ target (fst (remove s wd)) fd = None).
Proof.
  intros W M I. assert (NE : wd <> fd) by (intros ->; rewrite M in W; discriminate).
  assert (SP : exists a b, ws = a ++ wd :: b /\ ~ In wd a /\ drop_h wd ws = a ++ b).
  { clear - I. induction ws as [|x ws IH]; [destruct I|]. cbn [drop_h]. destruct (x =? wd) eqn:E.
    - apply Nat.eqb_eq in E. subst x. exists [], ws. split; [reflexivity|]. split; [intros [] | reflexivity].
    - apply Nat.eqb_neq in E. destruct I as [->|I]; [contradiction|]. destruct (IH I) as [a [b [E1 [N E2]]]].
      exists (x :: a), b. split; [cbn; now rewrite E1|]. split; [intros [->|Q]; [now apply E | exact (N Q)] | cbn; now rewrite E2]. }
  destruct SP as [a [b [E1 [N E2]]]]. exists a, b. split; [exact E1|]. split; [exact N|].
  unfold remove. rewrite W. unfold mon_list. rewrite M, E2. cbn [fst snd tab act target].
  split; [reflexivity|]. split; [unfold put; now rewrite Nat.eqb_refl|].
  split; [unfold put; rewrite (proj2 (Nat.eqb_neq fd wd)) by congruence; now rewrite Nat.eqb_refl|].
  split; [intros j J1 J2; unfold put; now rewrite (proj2 (Nat.eqb_neq j wd) J1), (proj2 (Nat.eqb_neq j fd) J2)|].
  destruct (a ++ b) as [|x y]; split.
  - intros Q. now contradiction Q.
  - intros _. rewrite Nat.eqb_refl. split; reflexivity.
  - intros _. split; reflexivity.
  - discriminate.
Qed.
Lemma not_removed s wd : (forall fd top p kwd, tab s wd <> Watch fd top p kwd) -> remove s wd = (s, false).
Proof. intros H. unfold remove. destruct (tab s wd) as [|fd top p kwd|ws] eqn:E; [reflexivity | exfalso; exact (H _ _ _ _ eq_refl) | reflexivity]. Qed.
(* ---- what a new watch enters, while the kernel's numbers are unused handles ---- *)
Definition fresh (n : nat) (t : nat -> slot) (fd : nat) (l : list (nat * nat)) : Prop :=
  NoDup (map fst l) /\ forall k p, In (k, p) l -> k < n /\ t k = Free /\ k <> fd.
Lemma add_one_new n t fd top kwd p ws : t fd = Mon ws -> kwd < n -> t kwd = Free -> kwd <> fd ->
  add_one n t fd top kwd p = Ok (put (put t kwd (Watch fd top p kwd)) fd (Mon (ws ++ [kwd]))).
Proof.
  intros M L F N. unfold add_one, new_fd. rewrite (proj2 (Nat.ltb_lt kwd n) L), F. cbn [is_free andb]. unfold mon_list. now rewrite M.
Qed.
Lemma add_subs_new n fd : forall l t ws, t fd = Mon ws -> fresh n t fd l -> exists t', add_subs n t fd l = Ok t' /\ t' fd = Mon (ws ++ map fst l) /\
  (forall k p, In (k, p) l -> t' k = Watch fd false p k) /\ (forall j, j <> fd -> ~ In j (map fst l) -> t' j = t j).
Proof.
  induction l as [|[k p] l IH]; intros t ws M [ND FR].
  - exists t. cbn. rewrite app_nil_r. split; [reflexivity|]. split; [exact M|]. split; [intros k p [] | reflexivity].
  - cbn [map fst] in ND. inversion ND as [|k' l' Hk ND']; subst. destruct (FR k p (or_introl eq_refl)) as [L [F N]].
    cbn [add_subs]. rewrite (add_one_new n t fd false k p ws M L F N). cbn [bind].
    set (t1 := put (put t k (Watch fd false p k)) fd (Mon (ws ++ [k]))).
    destruct (IH t1 (ws ++ [k])) as [t' [E [M' [A B]]]].
    + unfold t1, put. now rewrite Nat.eqb_refl.
    + split; [exact ND'|]. intros q r I. destruct (FR q r (or_intror I)) as [L2 [F2 N2]]. split; [exact L2|]. split; [|exact N2].
      unfold t1, put. rewrite (proj2 (Nat.eqb_neq q fd) N2).
      assert (q <> k) by (intros ->; apply Hk; change k with (fst (k, r)); now apply in_map).
      now rewrite (proj2 (Nat.eqb_neq q k) H).
    + exists t'. split; [exact E|]. split; [rewrite M', <- app_assoc; reflexivity|]. split.
      * intros q r [X|I].
        -- injection X as -> ->. rewrite B; [|exact N | exact Hk]. unfold t1, put.
           now rewrite (proj2 (Nat.eqb_neq q fd) N), Nat.eqb_refl.
        -- exact (A q r I).
      * intros j J1 J2. cbn [map fst] in J2. rewrite B; [|exact J1 | intros Q; apply J2; now right].
        unfold t1, put. rewrite (proj2 (Nat.eqb_neq j fd) J1). assert (j <> k) by (intros ->; apply J2; now left).
        now rewrite (proj2 (Nat.eqb_neq j k) H).
Qed.
Lemma entered s k top subs path cb : loop_fd s = None -> k < size s -> tab s k = Free -> fresh (size s) (tab s) k ((top, path) :: subs) ->
  exists s', watch s (Some k) (Some top) subs path cb = Ok (s', Some k) /\ tab s' k = Mon (top :: map fst subs) /\ loop_fd s' = Some k /\
   tab s' top = Watch k true path top /\ (forall d p, In (d, p) subs -> tab s' d = Watch k false p d) /\
   (forall j, j <> k -> j <> top -> ~ In j (map fst subs) -> tab s' j = tab s j) /\ target s' k = Some cb /\ (forall j, j <> k -> target s' j = target s j).
Proof.
  intros L Hk F [ND FR]. cbn [map fst] in ND. inversion ND as [|k' l' Hn ND']; subst.
  destruct (FR top path (or_introl eq_refl)) as [L1 [F1 N1]].
  unfold watch. rewrite L. unfold new_fd at 1. rewrite (proj2 (Nat.ltb_lt k (size s)) Hk), F. cbn [is_free andb bind fst snd].
  set (t0 := put (tab s) k (Mon [])).
  assert (M0 : t0 k = Mon []) by (unfold t0, put; now rewrite Nat.eqb_refl).
  rewrite (add_one_new (size s) t0 k true top path [] M0 L1); [|unfold t0, put; now rewrite (proj2 (Nat.eqb_neq top k) N1) | exact N1].
  cbn [bind app]. set (t1 := put (put t0 top (Watch k true path top)) k (Mon [top])).
  destruct (add_subs_new (size s) k subs t1 [top]) as [t2 [E [M [A B]]]].
  - unfold t1, put. now rewrite Nat.eqb_refl.
  - split; [exact ND'|]. intros q r I. destruct (FR q r (or_intror I)) as [L2 [F2 N2]]. split; [exact L2|]. split; [|exact N2].
    assert (q <> top) by (intros ->; apply Hn; change top with (fst (top, r)); now apply in_map).
    unfold t1, t0, put. now rewrite (proj2 (Nat.eqb_neq q k) N2), (proj2 (Nat.eqb_neq q top) H).
  - rewrite E. cbn [bind]. eexists. split; [reflexivity|]. cbn [tab loop_fd target]. split; [exact M|]. split; [reflexivity|]. split.
    + rewrite B; [|exact N1 | exact Hn]. unfold t1, put. now rewrite (proj2 (Nat.eqb_neq top k) N1), Nat.eqb_refl.
    + split; [exact A|]. split.
      * intros j J1 J2 J3. rewrite B; [|exact J1 | exact J3]. unfold t1, t0, put.
        now rewrite (proj2 (Nat.eqb_neq j k) J1), (proj2 (Nat.eqb_neq j top) J2).
      * rewrite Nat.eqb_refl. split; [reflexivity|]. intros j J. now rewrite (proj2 (Nat.eqb_neq j k) J).
Qed.
