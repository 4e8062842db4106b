(* Events of a watched directory, blocking reads, and the end of watches. *)
From Verif Require Import Base StrModel StrProofs StrProofs2 BwModel BwProofs.

(* ---- the handler ---- *)
Lemma arg_kind a : Z.land a 4277248 = a -> Z.land (Z.lor a (Z.lnot (Z.lor (Z.lor (Z.lor W_MODIFIED W_REMOVED) W_ADDED) W_MOVED))) 4277248 = a.
Proof.
  intros H. change (Z.lor (Z.lor (Z.lor W_MODIFIED W_REMOVED) W_ADDED) W_MOVED) with 4277248%Z.
  rewrite Z.land_lor_distr_l, H, (Z.land_comm (Z.lnot _)), Z.land_lnot_diag, Z.lor_0_r. reflexivity.
Qed.
Lemma handler_shows pm top s fl b p : kind_of s fl <> 0%Z -> (if used s then firstn (pm - 1) b else firstn (pm - 1) (top ++ slash :: b)) = p ->
  nul_free p -> tight p -> Z.land (kind_of s fl) 4277248 = kind_of s fl ->
  exists e, handler pm top s fl (UText b) = Ok (Some (e, p)) /\ Z.land e 4277248 = kind_of s fl.
Proof.
  intros Hk Hp Hn Ht Hl. unfold handler. cbv zeta. destruct (Z.eqb_spec (kind_of s fl) 0); [contradiction|].
  cbn [shown bind]. match goal with |- context [trim ?x] => replace x with p by (rewrite <- Hp; reflexivity) end. destruct (trim_tight p Hn Ht) as (buf & o & E & C). rewrite E. cbn [bind fst snd]. rewrite C.
  eexists. split; [reflexivity|]. apply arg_kind, Hl.
Qed.
Lemma kind_nonzero s fl : kind_of s fl <> 0%Z.
Proof.
  unfold kind_of. destruct (is_added s fl); [discriminate|]. destruct (is_removed s fl); [discriminate|].
  destruct (negb (Z.land fl NOTE_RENAME =? 0)%Z); [discriminate|].
  assert (is_modified fl = true) as ->; [|discriminate].
  unfold is_modified. destruct (Z.eqb_spec (Z.lor (Z.lor (Z.land fl NOTE_ATTRIB) NOTE_EXTEND) NOTE_REVOKE) 0) as [E|]; auto.
  apply Z.lor_eq_0_iff in E as (_ & E). discriminate.
Qed.
Lemma modified_always fl : is_modified fl = true.
Proof.
  unfold is_modified. destruct (Z.eqb_spec (Z.lor (Z.lor (Z.land fl NOTE_ATTRIB) NOTE_EXTEND) NOTE_REVOKE) 0) as [E|]; auto.
  apply Z.lor_eq_0_iff in E as (_ & E). discriminate.
Qed.
Lemma handler_null pm top s fl u : (forall b, u <> UText b) -> handler pm top s fl u = UB.
Proof.
  intros H. unfold handler. cbv zeta. destruct (Z.eqb_spec (kind_of s fl) 0) as [E|]; [now apply kind_nonzero in E|].
  destruct u; auto. now destruct (H b).
Qed.

Lemma no_flags fl : Z.land fl 33 = 0%Z -> Z.land fl NOTE_DELETE = 0%Z /\ Z.land fl NOTE_RENAME = 0%Z.
Proof.
  intros H. split.
  - change NOTE_DELETE with (Z.land 33 NOTE_DELETE). rewrite Z.land_assoc, H. reflexivity.
  - change NOTE_RENAME with (Z.land 33 NOTE_RENAME). rewrite Z.land_assoc, H. reflexivity.
Qed.
Lemma kind_same s fl : Z.land fl 33 = 0%Z -> off s = cnt s -> kind_of s fl = 16384%Z.
Proof.
  intros H E. apply no_flags in H as (H1 & H2). unfold kind_of, is_added, is_removed. rewrite E, Nat.ltb_irrefl, H1, H2, andb_false_r, modified_always. reflexivity.
Qed.
Lemma kind_less s fl : off s < cnt s -> kind_of s fl = 4194304%Z.
Proof.
  intros H. unfold kind_of, is_added, is_removed. destruct (Nat.ltb_spec (cnt s) (off s)); [lia|]. rewrite andb_false_r.
  destruct (Nat.ltb_spec (off s) (cnt s)); [|lia]. rewrite orb_true_r. reflexivity.
Qed.

(* ---- events ---- *)
Lemma event_modified pm top s fl stat l a n m m' b : known s = a ++ (n, m) :: b -> regs l = map fst (a ++ (n, m') :: b) ->
  there pm stat top (a ++ (n, m') :: b) -> m' <> m -> showable pm top n -> Z.land fl 33 = 0%Z ->
  exists s' e, event pm top s fl stat (Some l) = Ok (s', Some (e, top ++ 47%Z :: n)) /\ Z.land e 4277248 = 16384%Z /\
    known s' = a ++ (n, m') :: b /\ used s' = false /\ work s' = UNull /\ path s' = None.
Proof.
  intros Hk Hr Ht Hne (Sl & Sn & St) Hf.
  destruct (look_modified true pm stat top s a n m m' b l Hk Hr Ht Hne) as (s1 & E & K & U & O & C & W). destruct (W eq_refl) as (W1 & W2).
  unfold event. rewrite E. cbn [bind fst snd].
  destruct (handler_shows pm top s1 fl n (top ++ 47%Z :: n)) as (e & He & Hb).
  - apply kind_nonzero.
  - rewrite U. simpl. apply firstn_all2. rewrite app_length; simpl; lia.
  - exact Sn.
  - exact St.
  - rewrite (kind_same s1 fl Hf) by congruence. reflexivity.
  - rewrite He. cbn [bind]. do 2 eexists. split; [reflexivity|]. rewrite Hb, (kind_same s1 fl Hf) by congruence. simpl in U |- *. auto 6.
Qed.
Lemma event_removed pm top s fl stat l a n m b : known s = a ++ (n, m) :: b -> regs l = map fst (a ++ b) ->
  there pm stat top (a ++ b) -> stat (sub pm top n) = None -> (b = [] -> used s = false /\ work s = UNull) -> showable pm top n ->
  exists s' e, event pm top s fl stat (Some l) = Ok (s', Some (e, top ++ 47%Z :: n)) /\ Z.land e 4277248 = 4194304%Z /\
    known s' = a ++ b /\ used s' = true /\ path s' = None.
Proof.
  intros Hk Hr Ht Hn Hb (Sl & Sn & St).
  destruct (look_removed true pm stat top s a n m b l Hk Hr Ht Hn Hb) as (s1 & E & K & U & O & C).
  unfold event. rewrite E. cbn [bind fst snd].
  destruct (handler_shows pm top s1 fl (sub pm top n) (top ++ 47%Z :: n)) as (e & He & Hx).
  - apply kind_nonzero.
  - rewrite U. rewrite sub_full by auto. apply firstn_all2. rewrite app_length; simpl; lia.
  - exact Sn.
  - exact St.
  - rewrite (kind_less s1 fl) by lia. reflexivity.
  - rewrite He. cbn [bind]. do 2 eexists. split; [reflexivity|]. rewrite Hx, (kind_less s1 fl) by lia. simpl. auto 6.
Qed.
Lemma event_added pm top s fl stat l a n m b : known s = a ++ b -> regs l = map fst (a ++ (n, m) :: b) ->
  there pm stat top (a ++ (n, m) :: b) -> ~ In n (map fst (a ++ b)) -> path s = None -> (used s = false -> work s = UNull) ->
  event pm top s fl stat (Some l) = UB.
Proof.
  intros Hk Hr Ht Hn Hp Hw. destruct (look_added true pm stat top s a n m b l Hk Hr Ht Hn Hp Hw) as (s1 & u & E & Hu & _).
  unfold event. rewrite E. cbn [bind fst snd]. rewrite handler_null; auto. destruct Hu as [-> | ->]; discriminate.
Qed.
Lemma event_same pm top s fl stat l : regs l = map fst (known s) -> there pm stat top (known s) -> path s = None -> (used s = false -> work s = UNull) ->
  event pm top s fl stat (Some l) = UB.
Proof.
  intros Hr Ht Hp Hw. destruct (look_same true pm stat top s l Hr Ht Hp Hw) as (s1 & E & _).
  unfold event. rewrite E. cbn [bind fst snd]. rewrite handler_null; auto. discriminate.
Qed.
Lemma look_last loop pm top s stat l a n m : known s = a ++ [(n, m)] -> regs l = map fst a -> there pm stat top a -> path s = None -> used s = true ->
  exists s', look loop pm stat top (Some l) s = Ok (s', UNull) /\ known s' = known s.
Proof.
  intros Hk Hr Ht Hp Hu. unfold look.
  assert (Hl : length (files s) = length a + 1) by (rewrite <- known_len, Hk, app_length; reflexivity).
  rewrite <- (app_nil_r (map fst a)) in Hr.
  destruct (scan_skip loop pm stat top a l [] 0 (length (files s)) s Hr) as (l1 & R1 & E1); auto; [exists [], [(n, m)]; auto|lia|].
  rewrite E1, scan_end by exact R1. cbn [bind]. unfold finish. rewrite Hu, Hp. eexists. split; [reflexivity|]. reflexivity.
Qed.
Lemma event_last pm top s fl stat l a n m : known s = a ++ [(n, m)] -> regs l = map fst a -> there pm stat top a -> path s = None -> used s = true ->
  event pm top s fl stat (Some l) = UB.
Proof.
  intros Hk Hr Ht Hp Hu. destruct (look_last true pm top s stat l a n m Hk Hr Ht Hp Hu) as (s1 & E & _).
  unfold event. rewrite E. cbn [bind fst snd]. rewrite handler_null; auto. discriminate.
Qed.

(* A course of events: each is a change of one file or the removal of one; [u]: the last one was a removal.  The
   handler is to be told the kind and the whole path. *)
Inductive course (pm : nat) (top : bytes) : bool -> world -> list (Z * (bytes -> option meta) * option (list (kind * bytes))) ->
  list (Z * bytes) -> world -> Prop :=
| c_end u w : course pm top u w [] [] w
| c_mod u a n m m' b fl stat l evs told w : m' <> m -> regs l = map fst (a ++ (n, m') :: b) -> there pm stat top (a ++ (n, m') :: b) ->
    showable pm top n -> Z.land fl 33 = 0%Z -> course pm top false (a ++ (n, m') :: b) evs told w ->
    course pm top u (a ++ (n, m) :: b) ((fl, stat, Some l) :: evs) ((16384%Z, top ++ 47%Z :: n) :: told) w
| c_del u a n m b fl stat l evs told w : regs l = map fst (a ++ b) -> there pm stat top (a ++ b) -> stat (sub pm top n) = None ->
    showable pm top n -> (b = [] -> u = false) -> course pm top true (a ++ b) evs told w ->
    course pm top u (a ++ (n, m) :: b) ((fl, stat, Some l) :: evs) ((4194304%Z, top ++ 47%Z :: n) :: told) w.

Lemma course_told pm top u w evs told w' : course pm top u w evs told w' -> forall s, known s = w -> (u = false -> used s = false /\ work s = UNull) ->
  exists s' hs, events pm top s evs = Ok (s', hs) /\ known s' = w' /\
    Forall2 (fun h t => exists e, h = Some (e, snd t) /\ Z.land e 4277248 = fst t) hs told.
Proof.
  induction 1 as [u w|u a n m m' b fl stat l evs told w Hne Hr Ht Hs Hf Hc IH|u a n m b fl stat l evs told w Hr Ht Hn Hs Hb Hc IH]; intros s Hk Hu.
  - exists s, []. simpl. auto.
  - destruct (event_modified pm top s fl stat l a n m m' b Hk Hr Ht Hne Hs Hf) as (s1 & e & E & He & K & U & W & P).
    destruct (IH s1 K) as (s2 & hs & E2 & K2 & F); auto. exists s2, (Some (e, top ++ 47%Z :: n) :: hs). simpl. rewrite E. cbn [bind fst snd].
    rewrite E2. cbn [bind fst snd]. split; auto. split; auto. constructor; auto. exists e. auto.
  - destruct (event_removed pm top s fl stat l a n m b Hk Hr Ht Hn ltac:(auto) Hs) as (s1 & e & E & He & K & U & P).
    destruct (IH s1 K) as (s2 & hs & E2 & K2 & F); [discriminate|]. exists s2, (Some (e, top ++ 47%Z :: n) :: hs). simpl. rewrite E. cbn [bind fst snd].
    rewrite E2. cbn [bind fst snd]. split; auto. split; auto. constructor; auto. exists e. auto.
Qed.

(* ---- what is on record at the start ---- *)
Lemma recorded pm stat top : forall w l, regs l = map fst w -> there pm stat top w -> Forall (fun x => length (fst x) < 255) w ->
  known (start (record pm stat top l)) = w.
Proof.
  intros w l. revert w. induction l as [|[k x] l IH]; intros w Hr Ht Hs.
  - destruct w; [reflexivity|discriminate].
  - rewrite regs_cons in Hr. destruct k; [apply IH; auto| |apply IH; auto].
    destruct w as [|[n m] w]; [discriminate|]. simpl in Hr. injection Hr as -> Hr.
    apply Forall_cons_iff in Ht as (Hn & Ht). apply Forall_cons_iff in Hs as (Hl & Hs). simpl in Hn, Hl.
    simpl. rewrite Hn. unfold known. simpl. f_equal; [|apply (IH w); auto]. unfold cut. rewrite firstn_all2 by lia. reflexivity.
Qed.
Lemma record_app pm stat top l1 l2 : record pm stat top (l1 ++ l2) = record pm stat top l1 ++ record pm stat top l2.
Proof. induction l1 as [|[k x] l1 IH]; auto. simpl. destruct k; auto. destruct (stat (sub pm top x)); auto. simpl. now rewrite IH. Qed.

Lemma long_name pm top stat l1 l2 n m w : regs l1 = map fst w -> there pm stat top w -> Forall (fun x => length (fst x) < 255) w ->
  254 < length n -> stat (sub pm top n) = Some m -> stat (sub pm top (firstn 254 n)) = None -> showable pm top (firstn 254 n) ->
  forall fl, exists s' e, event pm top (start (record pm stat top (l1 ++ (KReg, n) :: l2))) fl stat (Some (l1 ++ (KReg, n) :: l2)) =
    Ok (s', Some (e, top ++ 47%Z :: firstn 254 n)) /\ Z.land e 4277248 = 4194304%Z.
Proof.
  intros Hr Ht Hs Hl Hn Hc (Sl & Sn & St) fl.
  set (s := start (record pm stat top (l1 ++ (KReg, n) :: l2))).
  assert (Hk : known s = w ++ (firstn 254 n, m) :: map (fun e => (e_name e, e_meta e)) (record pm stat top l2)).
  { unfold s, known, start. simpl. rewrite record_app, map_app. pose proof (recorded pm stat top w l1 Hr Ht Hs) as R. unfold known, start in R. simpl in R.
    rewrite R. simpl. rewrite Hn. reflexivity. }
  assert (Hll : length w < length (files s)) by (rewrite <- known_len, Hk, app_length; simpl; lia).
  destruct (known_at s w _ m _ Hk) as (f & Hf & Fn & Fm).
  assert (Hd : length (drop_at (length w) (files s)) = length (files s) - 1).
  { unfold drop_at. rewrite app_length, firstn_length, skipn_length. lia. }
  assert (Hreg : forall l, regs (l1 ++ l) = map fst w ++ regs l).
  { intros l. unfold regs. rewrite filter_app, map_app. fold (regs l1). rewrite Hr. reflexivity. }
  assert (E : exists s1, look true pm stat top (Some (l1 ++ (KReg, n) :: l2)) s = Ok (s1, UText (sub pm top (firstn 254 n))) /\ used s1 = true /\ off s1 < cnt s1).
  { unfold look. destruct (scan_skip true pm stat top w (l1 ++ (KReg, n) :: l2) _ 0 (length (files s)) s (Hreg _)) as (l3 & R1 & E1); auto.
    { exists [], ((firstn 254 n, m) :: map (fun e => (e_name e, e_meta e)) (record pm stat top l2)). auto. } { lia. }
    rewrite E1. rewrite regs_cons in R1. destruct (scan_next true pm stat top l3 (0 + length w) (length (files s)) s n (regs l2) R1) as (l4 & R2 & E2).
    rewrite E2. cbn [scan]. simpl (0 + length w). destruct (Nat.leb_spec (length (files s)) (length w)); [lia|]. unfold rd. rewrite Hf. cbn [bind].
    rewrite name_eqb_neq. 2:{ rewrite Fn. intros Hx. apply (f_equal (@length Z)) in Hx. rewrite firstn_length in Hx. lia. }
    rewrite Fn, Hc. cbn [bind]. unfold finish. cbn [used path text_of files]. eexists. split; [reflexivity|]. cbn [used off cnt files]. rewrite Hd. split; auto. lia. }
  destruct E as (s1 & E & U & O). unfold event. rewrite E. cbn [bind fst snd].
  destruct (handler_shows pm top s1 fl (sub pm top (firstn 254 n)) (top ++ 47%Z :: firstn 254 n)) as (e & He & Hx).
  - apply kind_nonzero.
  - rewrite U, sub_full by auto. apply firstn_all2. rewrite app_length; simpl in *; lia.
  - exact Sn.
  - exact St.
  - rewrite (kind_less s1 fl) by lia. reflexivity.
  - rewrite He. cbn [bind]. do 2 eexists. split; [reflexivity|]. rewrite Hx. apply kind_less; lia.
Qed.

(* ---- blocking reads ---- *)
Definition fresh (s : st) : st := {| files := files s; used := used s; path := None; work := work s; off := off s; cnt := cnt s |}.
Lemma read_modified pm ks len ch top s stat l a n m m' b : ks <= len -> known s = a ++ (n, m) :: b -> regs l = map fst (a ++ (n, m') :: b) ->
  there pm stat top (a ++ (n, m') :: b) -> m' <> m -> length top + 1 + length n < pm ->
  exists s', read_event pm ks len ch 1 top s stat (Some l) = Ok (s', UText (top ++ 47%Z :: n)) /\ known s' = a ++ (n, m') :: b /\
    (forall fl, is_added s' fl = false) /\ (forall fl, Z.land fl 1 = 0%Z -> is_removed s' fl = false).
Proof.
  intros Hks Hk Hr Ht Hne Hl. unfold read_event.
  destruct (Nat.ltb_spec len (ks * Nat.min ch 1)) as [H|_]; [destruct ch; simpl in H; lia|]. fold (fresh s).
  destruct (look_modified false pm stat top (fresh s) a n m m' b l Hk Hr Ht Hne) as (s1 & E & K & U & O & C & _).
  exists s1. rewrite <- (sub_full pm top n Hl). split; [exact E|]. split; [exact K|]. split.
  - intros fl. unfold is_added. rewrite O, C, Nat.ltb_irrefl, andb_false_r. reflexivity.
  - intros fl Hf. unfold is_removed. unfold NOTE_DELETE. rewrite Hf, O, C, Nat.ltb_irrefl. reflexivity.
Qed.
Lemma read_removed pm ks len ch top s stat l a n m b : ks <= len -> known s = a ++ (n, m) :: b -> regs l = map fst (a ++ b) ->
  there pm stat top (a ++ b) -> stat (sub pm top n) = None -> (b = [] -> used s = false /\ work s = UNull) -> length top + 1 + length n < pm ->
  exists s', read_event pm ks len ch 1 top s stat (Some l) = Ok (s', UText (top ++ 47%Z :: n)) /\ known s' = a ++ b /\
    forall fl, is_removed s' fl = true /\ is_added s' fl = false.
Proof.
  intros Hks Hk Hr Ht Hn Hb Hl. unfold read_event.
  destruct (Nat.ltb_spec len (ks * Nat.min ch 1)) as [H|_]; [destruct ch; simpl in H; lia|]. fold (fresh s).
  destruct (look_removed false pm stat top (fresh s) a n m b l Hk Hr Ht Hn Hb) as (s1 & E & K & U & O & C).
  exists s1. rewrite <- (sub_full pm top n Hl). split; [exact E|]. split; [exact K|]. intros fl. unfold is_removed, is_added. rewrite O, C. split.
  - destruct (Nat.ltb_spec (length (a ++ b)) (S (length (a ++ b)))); [|lia]. apply orb_true_r.
  - destruct (Nat.ltb_spec (S (length (a ++ b))) (length (a ++ b))); [lia|]. apply andb_false_r.
Qed.
Lemma read_added pm ks len ch top s stat l a n m b : ks <= len -> known s = a ++ b -> regs l = map fst (a ++ (n, m) :: b) ->
  there pm stat top (a ++ (n, m) :: b) -> ~ In n (map fst (a ++ b)) -> (used s = false -> work s = UNull) ->
  exists s' u, read_event pm ks len ch 1 top s stat (Some l) = Ok (s', u) /\ shown u = UB /\ (b = [] -> forall fl, is_added s' fl = false) /\
    (b <> [] -> forall fl, is_added s' fl = negb (Z.land fl 2 =? 0)%Z).
Proof.
  intros Hks Hk Hr Ht Hn Hw. unfold read_event.
  destruct (Nat.ltb_spec len (ks * Nat.min ch 1)) as [H|_]; [destruct ch; simpl in H; lia|]. fold (fresh s).
  destruct (look_added false pm stat top (fresh s) a n m b l Hk Hr Ht Hn eq_refl Hw) as (s1 & u & E & Hu & Hb & Hb2).
  exists s1, u. split; [exact E|]. split; [destruct Hu as [-> | ->]; reflexivity|]. split.
  2:{ intros Hne fl. destruct (Hb2 Hne) as (_ & _ & Ho). unfold is_added. rewrite Ho. destruct (Nat.ltb_spec (cnt s1) (S (cnt s1))); [|lia]. apply andb_true_r. }
  intros -> fl.
  destruct (Hb eq_refl) as (-> & K). unfold is_added.
  assert (Hc : off s1 = cnt s1).
  { clear - E K. unfold look in E. destruct (scan false pm stat top l 0 (length (files (fresh s))) (fresh s)) as [x| | |] eqn:Es; try discriminate.
    cbn [bind] in E. injection E as E. apply (f_equal (@length _)) in K. rewrite !known_len in K. simpl in K. unfold finish in E.
    assert (Hs : s1 = fst (s1, UNull)) by reflexivity. rewrite <- E in Hs. clear E. subst s1. revert K.
    destruct (used x); simpl; [auto|]. destruct (work x); simpl; auto.
    destruct (missing pm stat top (firstn (length (files s)) (files x)) 0) as [[i p]|]; simpl; auto. }
  rewrite Hc, Nat.ltb_irrefl. apply andb_false_r.
Qed.
Lemma read_last pm ks len ch top s stat l a n m : ks <= len -> known s = a ++ [(n, m)] -> regs l = map fst a -> there pm stat top a -> used s = true ->
  exists s', read_event pm ks len ch 1 top s stat (Some l) = Ok (s', UNull) /\ known s' = known s.
Proof.
  intros Hks Hk Hr Ht Hu. unfold read_event.
  destruct (Nat.ltb_spec len (ks * Nat.min ch 1)) as [H|_]; [destruct ch; simpl in H; lia|]. fold (fresh s).
  apply (look_last false pm top (fresh s) stat l a n m); auto.
Qed.
Lemma read_overflow pm ks len ch found top s stat dir : len < ks * Nat.min ch found -> read_event pm ks len ch found top s stat dir = UB.
Proof. intros H. unfold read_event. destruct (Nat.ltb_spec len (ks * Nat.min ch found)); auto; lia. Qed.

(* ---- the end of watches ---- *)
Fixpoint evens (l : list nat) : list nat := match l with x :: y :: r => x :: evens r | l => l end.
Definition minus_all (ds l : list nat) : list nat := filter (fun y => negb (existsb (Nat.eqb y) ds)) l.
Lemma minus_all_cons d ds l : minus_all ds (minus d l) = minus_all (d :: ds) l.
Proof.
  unfold minus_all, minus. induction l as [|x l IH]; auto. simpl. destruct (x =? d) eqn:E; simpl; auto.
  destruct (existsb (Nat.eqb x) ds); simpl; now rewrite IH.
Qed.
Lemma minus_all_nil l : minus_all [] l = l.
Proof. induction l as [|x l IH]; auto. unfold minus_all in *. simpl in *. now rewrite IH. Qed.
Lemma close_each_spec : forall n fuel o r s, length r <= n -> length r <= fuel ->
  exists s', close_each fuel (length o) (o ++ r) s = Ok s' /\ opened s' = minus_all (evens r) (opened s) /\ reg s' = minus_all (evens r) (reg s) /\
    dirs s' = dirs s /\ kq s' = kq s /\ loops s' = loops s.
Proof.
  induction n as [|n IH]; intros fuel o r s Hn Hf.
  - destruct r; [|simpl in Hn; lia]. exists s. rewrite app_nil_r.
    assert (nth_error o (length o) = None) by (apply nth_error_None; lia). destruct fuel; simpl; rewrite H, !minus_all_nil; auto 6.
  - destruct r as [|x r].
    + exists s. rewrite app_nil_r. assert (nth_error o (length o) = None) by (apply nth_error_None; lia).
      destruct fuel; simpl; rewrite H, !minus_all_nil; auto 6.
    + destruct fuel as [|fuel]; [simpl in Hf; lia|]. cbn [close_each]. rewrite nth_error_app2, Nat.sub_diag by lia. cbn [nth_error].
      rewrite drop_at_mid. destruct r as [|y r].
      * rewrite app_nil_r. assert (nth_error o (S (length o)) = None) by (apply nth_error_None; lia).
        eexists. split; [destruct fuel; cbn [close_each]; rewrite H; reflexivity|]. simpl. rewrite <- !minus_all_cons, !minus_all_nil. auto 6.
      * replace (o ++ y :: r) with ((o ++ [y]) ++ r) by (rewrite <- app_assoc; reflexivity).
        replace (S (length o)) with (length (o ++ [y])) by (rewrite app_length; simpl; lia).
        edestruct (IH fuel (o ++ [y]) r) as (s' & E & A & B & C & D & F); [simpl in Hn; lia|simpl in Hf; lia|].
        exists s'. split; [exact E|]. rewrite A, B, C, D, F. simpl. rewrite !minus_all_cons. auto 6.
Qed.
Lemma in_minus x d l : In x (minus d l) <-> In x l /\ x <> d.
Proof. unfold minus. rewrite filter_In. destruct (Nat.eqb_spec x d); simpl; intuition; discriminate. Qed.
Lemma in_minus_all x ds l : In x (minus_all ds l) <-> In x l /\ ~ In x ds.
Proof.
  unfold minus_all. rewrite filter_In. rewrite negb_true_iff, <- not_true_iff_false, existsb_exists. split; intros (A & B); split; auto.
  - intros C. apply B. exists x. split; auto. apply Nat.eqb_refl.
  - intros (y & C & D). apply Nat.eqb_eq in D as ->. auto.
Qed.
Lemma evens_in l x : In x (evens l) -> In x l.
Proof.
  assert (H : forall n l, length l <= n -> In x (evens l) -> In x l); [|eauto].
  clear l. induction n as [|n IH]; intros [|a [|b r]] Hl; simpl in *; auto; try lia.
  intros [->|H]; auto. right. right. apply IH; auto. lia.
Qed.

Lemma close_all_spec fuel s : own s = true -> length (match wlist s with Some l => l | None => [] end) <= fuel ->
  exists s', close_all fuel s = Ok (s', true) /\ own s' = false /\ wlist s' = None /\ dirs s' = dirs s /\ loops s' = loops s /\
    (forall d, In d (opened s') <-> In d (opened s) /\ ~ In d (evens (match wlist s with Some l => l | None => [] end)) /\ d <> kq s) /\
    (forall d, In d (reg s') <-> In d (reg s) /\ ~ In d (evens (match wlist s with Some l => l | None => [] end))).
Proof.
  intros Ho Hf. unfold close_all. rewrite Ho. set (l := match wlist s with Some l => l | None => [] end) in *.
  destruct (close_each_spec (length l) fuel [] l s (le_n _) Hf) as (s1 & E & A & B & C & D & F). simpl in E. rewrite E. cbn [bind].
  eexists. split; [reflexivity|]. simpl. split; auto. split; auto. split; auto. split; auto. split; intros d.
  - rewrite in_minus, A, in_minus_all. intuition.
  - rewrite B, in_minus_all. reflexivity.
Qed.

Lemma second_left fuel s l d0 d1 r : own s = true -> wlist s = Some l -> l = d0 :: d1 :: r -> NoDup l -> length l <= fuel -> In d1 (opened s) -> In d1 (reg s) ->
  d1 <> kq s -> loops s = true ->
  exists s', close_all fuel s = Ok (s', true) /\ In d1 (opened s') /\ In d1 (reg s') /\ rm s' d1 = (s', false) /\ close_all fuel s' = Ok (s', false).
Proof.
  intros Ho Hw -> Hd Hf Hop Hrg Hk Hl. destruct (close_all_spec fuel s Ho) as (s' & E & O & W & D & L & A & B); [rewrite Hw; exact Hf|].
  assert (Hne : ~ In d1 (evens (d0 :: d1 :: r))).
  { simpl. intros [->|H]; [inversion Hd; simpl in *; tauto|]. apply evens_in in H. inversion Hd as [|? ? ? Hd2]; subst. inversion Hd2; auto. }
  exists s'. split; [exact E|]. split; [apply A; rewrite Hw; auto|]. split; [apply B; rewrite Hw; auto|]. split.
  - unfold rm. rewrite L, Hl, W. destruct (negb (existsb (Nat.eqb d1) (opened s'))); reflexivity.
  - unfold close_all. rewrite O. reflexivity.
Qed.
Lemma drop_pos d l : In d l -> NoDup l -> drop_at (pos d l) l = minus d l.
Proof.
  induction l as [|x l IH]; simpl; intros Hi Hn; [contradiction|]. inversion Hn as [|? ? Hx Hn']; subst.
  destruct (Nat.eqb_spec x d) as [->|Hne]; simpl.
  - unfold drop_at. simpl. symmetry. unfold minus. clear - Hx. induction l as [|y l IH]; auto. simpl in *.
    destruct (Nat.eqb_spec y d) as [->|]; [tauto|]. simpl. rewrite IH; tauto.
  - destruct Hi as [->|Hi]; [contradiction|]. rewrite <- IH by auto. reflexivity.
Qed.
Lemma rm_spec s d l : loops s = true -> wlist s = Some l -> NoDup l -> In d l -> In d (opened s) ->
  exists s' l', rm s d = (s', true) /\ wlist s' = Some l' /\ (forall x, In x l' <-> In x l /\ x <> d) /\ (forall x, In x (opened s') <-> In x (opened s) /\ x <> d) /\
    (forall x, In x (reg s') <-> In x (reg s) /\ x <> d) /\ (forall x, In x (dirs s') <-> In x (dirs s) /\ x <> d) /\ own s' = own s /\ NoDup l'.
Proof.
  intros Hl Hw Hn Hi Ho. unfold rm.
  assert (Hx : existsb (Nat.eqb d) (opened s) = true) by (apply existsb_exists; exists d; split; [exact Ho|apply Nat.eqb_refl]).
  assert (Hy : existsb (Nat.eqb d) l = true) by (apply existsb_exists; exists d; split; [exact Hi|apply Nat.eqb_refl]).
  rewrite Hx, Hl, Hw, Hy. simpl. do 2 eexists. split; [reflexivity|]. simpl. split; [reflexivity|]. rewrite drop_pos by auto.
  repeat (split; [intros x; apply in_minus|]). split; auto. unfold minus. now apply NoDup_filter.
Qed.
Lemma rm_unknown s d l : loops s = true -> wlist s = Some l -> ~ In d l -> rm s d = (s, false).
Proof.
  intros Hl Hw Hn. unfold rm. rewrite Hl, Hw. destruct (negb (existsb (Nat.eqb d) (opened s))); auto.
  destruct (existsb (Nat.eqb d) l) eqn:E; auto. apply existsb_exists in E as (y & A & B). apply Nat.eqb_eq in B as ->. contradiction.
Qed.
Lemma one_closed fuel s d : own s = true -> wlist s = Some [d] -> 0 < fuel -> exists s', close_all fuel s = Ok (s', true) /\ ~ In d (opened s') /\ ~ In d (reg s').
Proof.
  intros Ho Hw Hf. destruct (close_all_spec fuel s Ho) as (s' & E & O & W & D & L & A & B); [rewrite Hw; simpl; lia|].
  exists s'. split; [exact E|]. rewrite Hw in A, B. simpl in A, B. split; [rewrite A|rewrite B]; tauto.
Qed.
Lemma queue_closed fuel s : own s = true -> length (match wlist s with Some l => l | None => [] end) <= fuel ->
  exists s', close_all fuel s = Ok (s', true) /\ ~ In (kq s) (opened s') /\ dirs s' = dirs s.
Proof.
  intros Ho Hf. destruct (close_all_spec fuel s Ho Hf) as (s' & E & O & W & D & L & A & B). exists s'. split; [exact E|]. split; [rewrite A; tauto|exact D].
Qed.
Lemma kq_init : forall lp lk k, kq (init lp lk k) = if lp then lk else k.
Proof. reflexivity. Qed.
Lemma blocking_left lk k dss fuel d : let s := fold_left add dss (init false lk k) in In d (concat dss) -> d <> k ->
  exists s', close_all fuel s = Ok (s', true) /\ In d (opened s').
Proof.
  intros s Hd Hk. unfold s.
  assert (H : forall dss s0, loops s0 = false -> own s0 = true -> wlist s0 = None -> let s1 := fold_left add dss s0 in own s1 = true /\ wlist s1 = None /\ kq s1 = kq s0 /\ opened s1 = opened s0 ++ concat dss).
  { clear. induction dss as [|ds dss IH]; intros s0 L O W; simpl.
    - rewrite app_nil_r. auto.
    - destruct (IH (add s0 ds)) as (A & B & C & D); simpl; auto; [rewrite L; auto|]. rewrite D. simpl. rewrite <- app_assoc. auto. }
  destruct (H dss (init false lk k) eq_refl eq_refl eq_refl) as (O & W & Q & P). clear s.
  destruct (close_all_spec fuel _ O) as (s' & E & _ & _ & _ & _ & A & _); [rewrite W; simpl; lia|]. exists s'. split; [exact E|].
  apply A. rewrite P, W, Q. split; [apply in_or_app; auto|]. split; auto.
Qed.
