(* More of what a look at a watched directory does: kinds, path lengths, a directory that cannot be opened, files that
   come and go. *)
From Verif Require Import Base StrModel StrProofs StrProofs2 BwModel BwProofs BwProofs2.

Lemma recorded_full pm stat top w l : regs l = map fst w -> there pm stat top w -> Forall (fun x => length (fst x) < 255) w ->
  let s := start (record pm stat top l) in
  known s = w /\ used s = false /\ path s = None /\ work s = UNull /\ off s = 0 /\ cnt s = length w.
Proof.
  intros Hr Ht Hs s. pose proof (recorded pm stat top w l Hr Ht Hs) as R. fold s in R.
  split; [exact R|]. do 3 (split; [reflexivity|]). split; [reflexivity|].
  rewrite <- R. unfold known. rewrite map_length. reflexivity.
Qed.

(* the four kinds by flags (delete 1, write 2, rename 32) and counts *)
Lemma kinds s fl :
  (cnt s < off s -> Z.land fl 2 <> 0%Z -> kind_of s fl = 65536%Z) /\
  (off s < cnt s -> kind_of s fl = 4194304%Z) /\
  (off s <= cnt s \/ Z.land fl 2 = 0%Z -> Z.land fl 1 <> 0%Z -> kind_of s fl = 4194304%Z) /\
  (off s = cnt s -> Z.land fl 1 = 0%Z -> Z.land fl 32 <> 0%Z -> kind_of s fl = 1024%Z) /\
  (off s = cnt s -> Z.land fl 1 = 0%Z -> Z.land fl 32 = 0%Z -> kind_of s fl = 16384%Z).
Proof.
  unfold kind_of, is_added, is_removed. rewrite modified_always.
  change NOTE_WRITE with 2%Z. change NOTE_DELETE with 1%Z. change NOTE_RENAME with 32%Z.
  destruct (Nat.ltb_spec (cnt s) (off s)), (Nat.ltb_spec (off s) (cnt s)), (Z.eqb_spec (Z.land fl 2) 0), (Z.eqb_spec (Z.land fl 1) 0),
    (Z.eqb_spec (Z.land fl 32) 0); simpl; repeat split; intros; try reflexivity; try lia; tauto.
Qed.

Lemma sub_bound pm top n : 0 < pm -> length (sub pm top n) < pm /\ (length top + 1 + length n < pm -> sub pm top n = top ++ 47%Z :: n).
Proof.
  intros H. split; [|apply sub_full]. unfold sub. rewrite firstn_length. lia.
Qed.

(* the directory cannot be opened: its own path is taken for the name of a file in it *)
Lemma event_unopened pm top s fl stat : used s = false -> off s < cnt s -> showable pm top top ->
  exists s' e, event pm top s fl stat None = Ok (s', Some (e, top ++ 47%Z :: top)) /\ Z.land e 4277248 = 4194304%Z /\ known s' = known s.
Proof.
  intros Hu Ho (Sl & Sn & St). unfold event, look. cbn [bind fst snd].
  destruct (handler_shows pm top s fl top (top ++ 47%Z :: top)) as (e & He & Hx).
  - apply kind_nonzero.
  - rewrite Hu. apply firstn_all2. rewrite app_length; simpl; lia.
  - exact Sn.
  - exact St.
  - rewrite (kind_less s fl) by lia. reflexivity.
  - rewrite He. cbn [bind]. do 2 eexists. split; [reflexivity|]. rewrite Hx, (kind_less s fl) by lia. auto.
Qed.

(* a file that is listed and gone again before it is looked at: nothing changed, and the name shown is not there *)
Lemma event_short_lived pm top s fl stat l a x m n : known s = a ++ [(x, m)] -> regs l = map fst a ++ [n; x] ->
  there pm stat top (a ++ [(x, m)]) -> ~ In n (map fst (a ++ [(x, m)])) -> stat (sub pm top n) = None -> path s = None -> used s = false ->
  event pm top s fl stat (Some l) = UB.
Proof.
  intros Hk Hr Ht Hn Hs Hp Hu. unfold event, look.
  assert (Hl : length (files s) = length a + 1) by (rewrite <- known_len, Hk, app_length; reflexivity).
  apply Forall_app in Ht as (Ha & Ht). apply Forall_cons_iff in Ht as (Hx & _). simpl in Hx.
  destruct (scan_skip true pm stat top a l _ 0 (length (files s)) s Hr) as (l1 & R1 & E1); auto; [exists [], [(x, m)]; auto|lia|].
  rewrite E1. simpl (0 + length a).
  destruct (scan_next true pm stat top l1 (length a) (length (files s)) s n [x] R1) as (l2 & R2 & E2).
  rewrite E2. cbn [scan]. destruct (Nat.leb_spec (length (files s)) (length a)); [lia|].
  destruct (known_at s a x m [] Hk) as (f & Hf & Fn & Fm). unfold rd. rewrite Hf. cbn [bind]. rewrite Fn.
  rewrite (name_eqb_neq x n). 2:{ intros ->. apply Hn. rewrite map_app. apply in_or_app. right. left. reflexivity. }
  rewrite Hx, Hs.
  destruct (scan_next true pm stat top l2 (S (length a)) (length (files s))
     {| files := files s; used := false; path := path s; work := UEntry n; off := off s; cnt := cnt s |} x [] R2) as (l3 & R3 & E3).
  assert (E4 : scan true pm stat top l2 (S (length a)) (length (files s))
     {| files := files s; used := false; path := path s; work := UEntry n; off := off s; cnt := cnt s |} =
     Ok {| files := files s; used := false; path := path s; work := UEntry n; off := off s; cnt := cnt s |}).
  { rewrite E3. cbn [scan]. destruct (Nat.leb_spec (length (files s)) (S (length a))); [reflexivity|lia]. }
  destruct (negb (existsb (fun e => name_eqb n (e_name e)) (skipn (length a) (firstn (length (files s)) (files s)))));
    rewrite E4; cbn [bind]; unfold finish; cbn [used work fst snd]; rewrite handler_null; auto; discriminate.
Qed.

(* two files listed in the other order: the event cannot be told, and the first of them is on record twice *)
Lemma event_reordered pm top s stat l a x m y m2 b : known s = a ++ (x, m) :: (y, m2) :: b -> regs l = map fst a ++ y :: x :: map fst b ->
  there pm stat top (known s) -> NoDup (map fst (known s)) -> length x < 255 ->
  exists s', look true pm stat top (Some l) s = Ok (s', UEntry x) /\ known s' = known s ++ [(x, m)] /\
    forall fl, event pm top s fl stat (Some l) = UB.
Proof.
  intros Hk Hr Ht Hd Hlx.
  assert (Hl : length (files s) = length a + S (S (length b))) by (rewrite <- known_len, Hk, app_length; reflexivity).
  rewrite Hk in Ht, Hd. pose proof Ht as Ht0. apply Forall_app in Ht as (Ha & Ht). apply Forall_cons_iff in Ht as (Hx & Ht). apply Forall_cons_iff in Ht as (Hy & Hb).
  simpl in Hx, Hy. rewrite map_app in Hd. simpl in Hd. apply NoDup_remove in Hd as (Hd & Hnx).
  assert (Hxy : x <> y) by (intros ->; apply Hnx, in_or_app; right; left; reflexivity).
  assert (E : exists s', look true pm stat top (Some l) s = Ok (s', UEntry x) /\ known s' = known s ++ [(x, m)]).
  { unfold look.
    destruct (scan_skip true pm stat top a l _ 0 (length (files s)) s Hr) as (l1 & R1 & E1); auto; [exists [], ((x, m) :: (y, m2) :: b); auto|lia|].
    rewrite E1. simpl (0 + length a).
    destruct (scan_next true pm stat top l1 (length a) (length (files s)) s y (x :: map fst b) R1) as (l2 & R2 & E2).
    rewrite E2. cbn [scan]. destruct (Nat.leb_spec (length (files s)) (length a)); [lia|].
    destruct (known_at s a x m _ Hk) as (f & Hf & Fn & Fm). unfold rd. rewrite Hf. cbn [bind]. rewrite Fn, (name_eqb_neq x y) by auto. rewrite Hx.
    assert (Hk1 : known s = (a ++ [(x, m)]) ++ (y, m2) :: b) by (rewrite <- app_assoc; exact Hk).
    destruct (known_at s _ y m2 _ Hk1) as (g & Hg & Gn & Gm). rewrite app_length in Hg. simpl in Hg. rewrite Nat.add_1_r in Hg.
    assert (Hin : existsb (fun e => name_eqb y (e_name e)) (skipn (length a) (firstn (length (files s)) (files s))) = true).
    { apply existsb_exists. exists g. split; [|rewrite Gn; apply name_eqb_refl]. rewrite firstn_all.
      rewrite <- (firstn_skipn (length a) (files s)) in Hg. rewrite nth_error_app2 in Hg by (rewrite firstn_length; lia).
      apply nth_error_In in Hg. exact Hg. }
    rewrite Hin. cbn [negb].
    set (s1 := {| files := files s; used := false; path := path s; work := UEntry y; off := off s; cnt := cnt s |}).
    destruct (scan_next true pm stat top l2 (S (length a)) (length (files s)) s1 x (map fst b) R2) as (l3 & R3 & E3).
    rewrite E3. cbn [scan]. destruct (Nat.leb_spec (length (files s)) (S (length a))); [lia|]. unfold rd. cbn [files s1]. rewrite Hg. cbn [bind].
    rewrite Gn, (name_eqb_neq y x) by auto. rewrite Hy.
    assert (Hout : existsb (fun e => name_eqb x (e_name e)) (skipn (S (length a)) (firstn (length (files s)) (files s))) = false).
    { rewrite firstn_all. apply not_true_iff_false. intros Hq. apply existsb_exists in Hq as (e & He & Hq). apply Hnx. apply in_or_app. right.
      unfold name_eqb in Hq. destruct (list_eq_dec Z.eq_dec x (e_name e)) as [->|]; [|discriminate].
      assert (Hm : map fst (skipn (S (length a)) (known s)) = y :: map fst b).
      { rewrite Hk1. replace (S (length a)) with (length (a ++ [(e_name e, m)])) by (rewrite app_length; simpl; lia).
        rewrite skipn_app, Nat.sub_diag, skipn_all. reflexivity. }
      change (y :: map fst b) with (y :: map fst b) in Hm. rewrite <- Hm. unfold known. rewrite skipn_map, map_map.
      apply (in_map (fun e => fst (e_name e, e_meta e)) _ e) in He. exact He. }
    rewrite Hout. cbn [negb]. rewrite Hx. cbn [bind]. unfold finish. cbn [used work files]. eexists. split; [reflexivity|].
    unfold known. cbn [files]. rewrite map_app. simpl. f_equal. f_equal. f_equal. unfold cut. apply firstn_all2. lia. }
  destruct E as (s' & E & K). exists s'. split; [exact E|]. split; [exact K|]. intros fl. unfold event. rewrite E. cbn [bind fst snd].
  rewrite handler_null; auto. discriminate.
Qed.

(* every watch made is open, known and, with an event loop, watched by it *)
Lemma add_all lk k lp dss : let s := fold_left add dss (init lp lk k) in
  opened s = (if lp then lk else k) :: concat dss /\ dirs s = concat dss /\ own s = true /\
  reg s = (if lp then concat dss else []) /\ wlist s = (if lp then match dss with [] => None | _ => Some (concat dss) end else None).
Proof.
  cut (forall dss s, loops s = lp -> let s' := fold_left add dss s in
    opened s' = opened s ++ concat dss /\ dirs s' = dirs s ++ concat dss /\ own s' = own s /\
    reg s' = (if lp then reg s ++ concat dss else reg s) /\
    wlist s' = (if lp then match dss with [] => wlist s | _ => Some (match wlist s with Some l => l | None => [] end ++ concat dss) end else wlist s)).
  { intro K. destruct (K dss (init lp lk k) eq_refl) as (A & B & C & D & E). cbn in A, B, C, D, E.
    repeat split; auto. }
  clear dss. induction dss as [|d dss IH]; intros s E.
  - cbn. rewrite !app_nil_r. destruct lp; auto.
  - cbn [fold_left concat]. destruct (IH (add s d)) as (A & B & C & D & F); [exact E|].
    rewrite A, B, C, D, F. unfold add. cbn [opened dirs own reg wlist]. rewrite E, <- !app_assoc.
    repeat split; destruct lp; try reflexivity.
    all: destruct dss; cbn [concat]; rewrite ?app_nil_r, <- ?app_assoc; reflexivity.
Qed.
