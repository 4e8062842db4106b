(* What a parse leaves in memory and what uri_free takes away. *)
From Verif Require Import Base StrModel UriModel UriProofs UfModel.

Definition opt (o : option nat) : list nat := match o with Some b => [b] | None => [] end.
Definition one {A} (o : option A) : nat := match o with Some _ => 1 | None => 0 end.
(* the blocks of a record *)
Definition blocks (r : urec) : list nat :=
  r_blk r :: opt (r_scheme r) ++ opt (r_user r) ++ opt (r_pass r) ++ opt (r_host r) ++ opt (r_path r) ++ opt (r_query r) ++ opt (r_frag r).
(* the parts of a URI *)
Definition parts (u : uri) : nat :=
  one (uscheme u) + one (uuser u) + one (upass u) + one (uhost u) + one (ufrag u) + one (uquery u) + one (upath u).
(* every block was asked for before *)
Definition Wf (m : mem) : Prop := NoDup (live m) /\ forall b, In b (live m) -> b < asked m.

Lemma part_ok : forall ans x m, Wf m -> (forall n, asked m <= n -> ans n = true) ->
  exists o m1, part ans x m = Ok (o, m1) /\ Wf m1 /\ live m1 = opt o ++ live m /\ one o = one x /\ asked m1 = asked m + one x /\ (forall b, o = Some b -> b = asked m).
Proof.
  intros ans x m [HN HB] Ha. destruct x as [x|]; cbn [part].
  - unfold alloc. rewrite (Ha (asked m)) by lia. do 2 eexists. split; [reflexivity|]. split.
    + split; cbn [live asked].
      * constructor; [|exact HN]. intros H. apply HB in H. lia.
      * intros b [<-|H]; [lia|apply HB in H; lia].
    + cbn. split; [reflexivity|]. split; [reflexivity|]. split; [lia|]. intros b [= <-]. reflexivity.
  - do 2 eexists. split; [reflexivity|]. split; [split; auto|]. cbn. split; [reflexivity|]. split; [reflexivity|]. split; [lia|discriminate].
Qed.

Lemma build_ok : forall ans u m, Wf m -> (forall n, asked m <= n -> ans n = true) ->
  exists r m1, build ans u m = Ok (Some r, m1) /\ Wf m1 /\ (forall b, In b (live m1) <-> In b (blocks r) \/ In b (live m)) /\ NoDup (blocks r) /\
    (forall b, In b (blocks r) -> ~ In b (live m)) /\ length (live m1) = S (parts u) + length (live m) /\ length (blocks r) = S (parts u) /\ r_rej r = urej u /\ r_type r = None.
Proof.
  intros ans u m HW Ha. unfold build, alloc. rewrite (Ha (asked m)) by lia.
  set (m1 := mkMem (asked m :: live m) (S (asked m))).
  assert (HW1 : Wf m1).
  { destruct HW as [HN HB]. split; cbn; [constructor; [intros H; apply HB in H; lia|exact HN]|]. intros b [<-|H]; [lia|apply HB in H; lia]. }
  assert (A1 : asked m1 = S (asked m)) by reflexivity.
  destruct (part_ok ans (uscheme u) m1 HW1) as (o1 & n1 & -> & W1 & L1 & E1 & B1 & F1); [intros n Hn; apply Ha; lia|]. cbn [bind fst snd].
  destruct (part_ok ans (uuser u) n1 W1) as (o2 & n2 & -> & W2 & L2 & E2 & B2 & F2); [intros n Hn; apply Ha; lia|]. cbn [bind fst snd].
  destruct (part_ok ans (upass u) n2 W2) as (o3 & n3 & -> & W3 & L3 & E3 & B3 & F3); [intros n Hn; apply Ha; lia|]. cbn [bind fst snd].
  destruct (part_ok ans (uhost u) n3 W3) as (o4 & n4 & -> & W4 & L4 & E4 & B4 & F4); [intros n Hn; apply Ha; lia|]. cbn [bind fst snd].
  destruct (part_ok ans (ufrag u) n4 W4) as (o5 & n5 & -> & W5 & L5 & E5 & B5 & F5); [intros n Hn; apply Ha; lia|]. cbn [bind fst snd].
  destruct (part_ok ans (uquery u) n5 W5) as (o6 & n6 & -> & W6 & L6 & E6 & B6 & F6); [intros n Hn; apply Ha; lia|]. cbn [bind fst snd].
  destruct (part_ok ans (upath u) n6 W6) as (o7 & n7 & -> & W7 & L7 & E7 & B7 & F7); [intros n Hn; apply Ha; lia|]. cbn [bind fst snd].
  eexists _, n7. split; [reflexivity|]. split; [exact W7|].
  assert (LL : live n7 = opt o7 ++ opt o6 ++ opt o5 ++ opt o4 ++ opt o3 ++ opt o2 ++ opt o1 ++ asked m :: live m).
  { rewrite L7, L6, L5, L4, L3, L2, L1. reflexivity. }
  assert (len : forall o : option nat, length (opt o) = one o) by (intros [|]; reflexivity).
  unfold blocks, parts. cbn [r_blk r_scheme r_user r_pass r_host r_path r_query r_frag r_rej r_type].
  assert (NB : NoDup (asked m :: opt o1 ++ opt o2 ++ opt o3 ++ opt o4 ++ opt o7 ++ opt o6 ++ opt o5)).
  { clear - F1 F2 F3 F4 F5 F6 F7 B1 B2 B3 B4 B5 B6 B7 A1 E1 E2 E3 E4 E5 E6 E7.
    repeat match goal with H : forall b, ?o = Some b -> _ |- _ => destruct o as [?|]; [specialize (H _ eq_refl)|clear H] end;
    repeat match goal with H : one _ = one ?x |- _ => rewrite <- H in *; clear H end; cbn [opt app one] in *;
    repeat (constructor; [cbn [In]; lia|]); constructor. }
  split; [intros b; rewrite LL; cbn [In]; rewrite !in_app_iff; cbn [In]; tauto|]. split; [exact NB|]. split.
  { intros b Hb Hm. destruct W7 as [N7 _]. rewrite LL in N7. destruct HW as [_ HB]. apply HB in Hm. cbn [In] in Hb. rewrite !in_app_iff in Hb.
    repeat match goal with H : _ \/ _ |- _ => destruct H as [H|H] end; try lia;
    match goal with H : In b (opt ?o) |- _ => destruct o as [z|]; [destruct H as [H|[]]; subst z|destruct H] end;
    match goal with H : forall b0, Some b = Some b0 -> _ |- _ => specialize (H _ eq_refl) end; lia. }
  split. { rewrite LL, !app_length, !len, E1, E2, E3, E4, E5, E6, E7. cbn [length]. lia. }
  split. { cbn [length]. rewrite !app_length, !len, E1, E2, E3, E4, E5, E6, E7. lia. }
  auto.
Qed.

Lemma release_ok : forall b m, NoDup (live m) -> In b (live m) ->
  exists m1, release b m = Ok m1 /\ NoDup (live m1) /\ (forall x, In x (live m1) <-> In x (live m) /\ x <> b) /\ asked m1 = asked m.
Proof.
  intros b m HN Hb. unfold release. replace (existsb (Nat.eqb b) (live m)) with true by (symmetry; apply existsb_exists; exists b; split; [exact Hb|apply Nat.eqb_refl]).
  eexists. split; [reflexivity|]. cbn [live asked]. split; [apply NoDup_filter; exact HN|]. split; [|reflexivity].
  intros x. rewrite filter_In, negb_true_iff, Nat.eqb_neq. intuition.
Qed.
Lemma release_gone : forall b m, ~ In b (live m) -> release b m = UB.
Proof.
  intros b m H. unfold release. destruct (existsb _ _) eqn:E; [|reflexivity]. apply existsb_exists in E. destruct E as (x & Hx & E). apply Nat.eqb_eq in E. subst. contradiction.
Qed.

Lemma give_ok : forall o m, NoDup (live m) -> (forall b, In b (opt o) -> In b (live m)) ->
  exists m1, give_up o m = Ok m1 /\ NoDup (live m1) /\ (forall x, In x (live m1) <-> In x (live m) /\ ~ In x (opt o)) /\ asked m1 = asked m.
Proof.
  intros [b|] m HN H; cbn [give_up opt] in *.
  - destruct (release_ok b m HN (H b (or_introl eq_refl))) as (m1 & E & N1 & I1 & A1). exists m1. split; [exact E|]. split; [exact N1|]. split; [|exact A1].
    intros x. rewrite I1. cbn. intuition.
  - exists m. split; [reflexivity|]. split; [exact HN|]. split; [|reflexivity]. intros x. cbn. tauto.
Qed.

(* a record with one of the four transports *)
Lemma free_all : forall r m t, r_type r = Some t -> t <> TNone -> NoDup (live m) -> NoDup (blocks r) -> (forall b, In b (blocks r) -> In b (live m)) ->
  exists m1, uri_free r m = Ok m1 /\ NoDup (live m1) /\ (forall x, In x (live m1) <-> In x (live m) /\ ~ In x (blocks r)) /\ asked m1 = asked m.
Proof.
  intros r m t Ht Hn HN HB HI. unfold uri_free.
  replace (existsb (Nat.eqb (r_blk r)) (live m)) with true by (symmetry; apply existsb_exists; exists (r_blk r); split; [apply HI; left; reflexivity|apply Nat.eqb_refl]).
  replace (match r_type r with Some TNone => r_rej r | Some _ => true | None => false end) with true by (rewrite Ht; destruct t; congruence).
  unfold blocks in HB, HI |- *. set (b := r_blk r) in *.
  destruct (r_scheme r) as [x1|], (r_user r) as [x2|], (r_pass r) as [x3|], (r_host r) as [x4|], (r_path r) as [x5|], (r_query r) as [x6|], (r_frag r) as [x7|];
  revert HB HI; cbn [opt app]; intros HB HI;
  repeat (cbn [give_up bind];
    match goal with
    | |- context [release ?y ?mm] =>
      let m1 := fresh "m" in let E := fresh "E" in let N := fresh "N" in let I1 := fresh "I" in let A1 := fresh "A" in
      destruct (release_ok y mm) as (m1 & E & N & I1 & A1);
      [assumption | repeat match goal with H : forall x, In x (live ?q) <-> _ |- In _ (live ?q) => apply H; clear H; split end;
        try (apply HI; cbn [In]; tauto);
        repeat match goal with H : NoDup (_ :: _) |- _ => inversion H; clear H; subst end; cbn [In] in *; intros <-; tauto
      | rewrite E ]
    end); cbn [bind];
  (eexists; split; [reflexivity|]; split; [assumption|]; split; [|congruence]; intros x;
   repeat match goal with H : forall y, In y (live ?q) <-> _ |- context [In x (live ?q)] => rewrite (H x); clear H end; cbn [In]; intuition congruence).
Qed.

Definition allowed (ans : nat -> bool) (m : mem) : Prop := forall n, asked m <= n -> ans n = true.

(* an accepted text *)
Lemma accepted_ok : forall ans hostname str m u t, Wf m -> allowed ans m -> parse_uri hostname str = Ok (Some (u, t)) ->
  exists r m1, parse_uri_ex ans hostname str m = Ok (Some r, m1) /\ NoDup (blocks r) /\ length (blocks r) = S (parts u) /\
    (forall b, In b (blocks r) -> ~ In b (live m)) /\ (forall b, In b (live m1) <-> In b (blocks r) \/ In b (live m)) /\ Wf m1 /\ r_type r = Some t /\ r_rej r = false.
Proof.
  intros ans hostname str m u t HW Ha H. unfold parse_uri in H. unfold parse_uri_ex. destruct (length str =? 0); [discriminate|].
  destruct (parse str) as [u0| | |]; cbn [bind] in *; try discriminate.
  destruct (urej u0) eqn:Er; [discriminate|]. destruct (uhost u0) as [h|] eqn:Eh; [|discriminate].
  destruct (str_has h [46%Z]) as [dot| | |]; cbn [bind] in *; try discriminate. destruct (negb dot && negb (beq h hostname)); [discriminate|].
  destruct (scheme_type (uscheme u0)) as [t0| | |]; cbn [bind] in *; try discriminate. injection H as -> ->.
  destruct (build_ok ans u m HW Ha) as (r & m1 & E & W1 & I1 & NB & Fr & _ & LB & Rj & _). rewrite E. cbn [bind fst snd].
  eexists _, m1. split; [reflexivity|]. unfold blocks in *. cbn [r_blk r_scheme r_user r_pass r_host r_path r_query r_frag r_type r_rej].
  split; [exact NB|]. split; [exact LB|]. split; [exact Fr|]. split; [exact I1|]. split; [exact W1|]. split; [reflexivity|congruence].
Qed.

Lemma accepted_freed : forall ans hostname str m u t, Wf m -> allowed ans m -> parse_uri hostname str = Ok (Some (u, t)) -> t <> TNone ->
  exists r m1 m2, parse_uri_ex ans hostname str m = Ok (Some r, m1) /\ uri_free r m1 = Ok m2 /\
    (forall b, In b (live m2) <-> In b (live m)) /\ length (live m2) = length (live m) /\ length (live m1) = S (parts u) + length (live m) /\ uri_free r m2 = UB.
Proof.
  intros ans hostname str m u t HW Ha H Ht.
  destruct (accepted_ok ans hostname str m u t HW Ha H) as (r & m1 & E & NB & LB & Fr & I1 & [N1 _] & Et & _).
  destruct (free_all r m1 t Et Ht N1 NB ltac:(intros b Hb; apply I1; left; exact Hb)) as (m2 & E2 & N2 & I2 & _).
  exists r, m1, m2. split; [exact E|]. split; [exact E2|].
  assert (I3 : forall b, In b (live m2) <-> In b (live m)).
  { intros b. rewrite I2, I1. specialize (Fr b). tauto. }
  assert (LEN : forall l1 l2 : list nat, NoDup l1 -> NoDup l2 -> (forall x, In x l1 <-> In x l2) -> length l1 = length l2).
  { intros l1 l2 A B C. apply Nat.le_antisymm; apply NoDup_incl_length; auto; intros x Hx; apply C; exact Hx. }
  split; [exact I3|]. split; [apply LEN; auto; apply HW|]. split.
  - rewrite <- LB, <- app_length. apply LEN; [exact N1| |intros b; rewrite I1, in_app_iff; reflexivity].
    clear - NB HW Fr. destruct HW as [HN _]. induction (blocks r) as [|x l IH]; [exact HN|]. cbn. inversion NB; subst. constructor.
    + rewrite in_app_iff. intros [K|K]; [contradiction|]. exact (Fr x (or_introl eq_refl) K).
    + apply IH; auto. intros b Hb. apply Fr. right. exact Hb.
  - unfold uri_free. destruct (existsb (Nat.eqb (r_blk r)) (live m2)) eqn:Ex; [|reflexivity]. apply existsb_exists in Ex. destruct Ex as (x & Hx & Ex).
    apply Nat.eqb_eq in Ex. subst x. apply I3 in Hx. exfalso. exact (Fr _ (or_introl eq_refl) Hx).
Qed.

(* an accepted text whose scheme is none of the known ones *)
Lemma unknown_scheme_kept : forall ans hostname str m u, Wf m -> allowed ans m -> parse_uri hostname str = Ok (Some (u, TNone)) ->
  exists r m1, parse_uri_ex ans hostname str m = Ok (Some r, m1) /\ uri_free r m1 = Ok m1 /\ length (blocks r) = S (parts u) /\
    forall b, In b (blocks r) -> In b (live m1) /\ ~ In b (live m).
Proof.
  intros ans hostname str m u HW Ha H.
  destruct (accepted_ok ans hostname str m u TNone HW Ha H) as (r & m1 & E & NB & LB & Fr & I1 & _ & Et & Er).
  exists r, m1. split; [exact E|]. split; [|split; [exact LB|]].
  - unfold uri_free. rewrite Et, Er. destruct (existsb _ _) eqn:Ex; [reflexivity|]. exfalso.
    assert (In (r_blk r) (live m1)) as Hi by (apply I1; left; left; reflexivity).
    assert (existsb (Nat.eqb (r_blk r)) (live m1) = true) by (apply existsb_exists; exists (r_blk r); split; [exact Hi|apply Nat.eqb_refl]). congruence.
  - intros b Hb. split; [apply I1; left; exact Hb|apply Fr; exact Hb].
Qed.

(* a refused text *)
Lemma refused_kept : forall ans hostname str m, Wf m -> allowed ans m -> str <> [] -> parse_uri hostname str = Ok None ->
  exists u m1, parse str = Ok u /\ parse_uri_ex ans hostname str m = Ok (None, m1) /\ length (live m1) = S (parts u) + length (live m) /\
    forall b, In b (live m) -> In b (live m1).
Proof.
  intros ans hostname str m HW Ha Hs H. unfold parse_uri in H. unfold parse_uri_ex. destruct str as [|c str]; [congruence|]. cbn [length Nat.eqb] in *.
  set (s := c :: str) in *. destruct (parse s) as [u| | |]; cbn [bind] in *; try discriminate.
  destruct (build_ok ans u m HW Ha) as (r & m1 & E & W1 & I1 & NB & Fr & LM & LB & Rj & Ty). rewrite E. cbn [bind fst snd].
  assert (F : uri_free r m1 = Ok m1).
  { unfold uri_free. rewrite Ty. destruct (existsb _ _) eqn:Ex; [reflexivity|]. exfalso.
    assert (In (r_blk r) (live m1)) as Hi by (apply I1; left; left; reflexivity).
    assert (existsb (Nat.eqb (r_blk r)) (live m1) = true) by (apply existsb_exists; exists (r_blk r); split; [exact Hi|apply Nat.eqb_refl]). congruence. }
  exists u, m1. split; [reflexivity|]. split; [|split; [exact LM|intros b Hb; apply I1; right; exact Hb]].
  destruct (urej u) eqn:Er; cbn [bind]; [rewrite F; reflexivity|].
  destruct (uhost u) as [h|] eqn:Eh; cbn [bind]; [|rewrite F; reflexivity].
  destruct (str_has h [46%Z]) as [dot| | |]; cbn [bind] in *; try discriminate.
  destruct (negb dot && negb (beq h hostname)); cbn [bind]; [rewrite F; reflexivity|].
  destruct (scheme_type (uscheme u)) as [t0| | |]; cbn [bind] in *; discriminate.
Qed.

(* no memory: any failing request is undefined *)
Lemma no_memory_ub : forall ans hostname str m u k, str <> [] -> parse str = Ok u -> k <= parts u ->
  (forall n, asked m <= n < asked m + k -> ans n = true) -> ans (asked m + k) = false -> parse_uri_ex ans hostname str m = UB.
Proof.
  intros ans hostname str m u k Hs Hp Hk Ha Hf. unfold parse_uri_ex. destruct str as [|c str]; [congruence|]. cbn [length Nat.eqb]. rewrite Hp. cbn [bind].
  unfold build, alloc. destruct k as [|k].
  { rewrite Nat.add_0_r in Hf. rewrite Hf. reflexivity. }
  rewrite (Ha (asked m)) by lia.
  assert (P : forall x mm j, asked mm = asked m + S j -> j <= k ->
    (one x = 0 /\ part ans x mm = Ok (None, mm)) \/ (one x = 1 /\ j = k /\ part ans x mm = UB) \/
    (one x = 1 /\ j < k /\ exists o m1, part ans x mm = Ok (o, m1) /\ asked m1 = asked m + S (S j))).
  { intros x mm j Hm Hj. destruct x as [x|]; [right|left; auto]. cbn [part one]. unfold alloc. destruct (Nat.eq_dec j k) as [->|Ne].
    - left. rewrite Hm, Hf. auto.
    - right. rewrite Hm, (Ha (asked m + S j)) by lia. do 2 (split; [lia|]). do 2 eexists. split; [reflexivity|]. cbn. lia. }
  unfold parts in Hk.
  set (m1 := mkMem _ _). assert (A1 : exists j, asked m1 = asked m + S j /\ j <= k /\ j = 0) by (exists 0; cbn; lia).
  destruct A1 as (j & A1 & J1 & J0).
  repeat match goal with
  | A : asked ?mm = asked m + S ?j, J : ?j <= k |- context [part ans ?x ?mm] =>
    let Z1 := fresh "Z" in let Z2 := fresh "Z" in let Z3 := fresh "Z" in let oo := fresh "oo" in let n1 := fresh "n" in let A2 := fresh "A" in
    destruct (P x mm j A J) as [(Z1 & Z2)|[(Z1 & Z2 & Z3)|(Z1 & Z2 & oo & n1 & Z3 & A2)]];
    [ rewrite Z2; clear Z2; cbn [bind fst snd] | rewrite Z3; reflexivity
    | assert (S j <= k) by lia; rewrite Z3; clear Z3; cbn [bind fst snd] ];
    rewrite ?Z1 in Hk; clear Z1
  end; lia.
Qed.
