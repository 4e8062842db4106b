(* What reading and writing at a position does, and what sending a file does. *)
From Verif Require Import Base WxModel.

(* ---- specification ---- *)
(* the bytes [bs] of a file, from position p on *)
Definition has_at (d : list Z) (p : nat) (bs : list Z) : Prop :=
  forall i, i < length bs -> nth_error d (p + i) = nth_error bs i.
(* [d'] is [d] with [bs] put at p, zeros filling a gap *)
Definition put_at (d : list Z) (p : nat) (bs : list Z) (d' : list Z) : Prop :=
  forall i, nth_error d' i =
    if (p <=? i) && (i <? p + length bs) then nth_error bs (i - p)
    else if i <? length d then nth_error d i
    else if negb (length bs =? 0) && (i <? p) then Some 0%Z
    else None.
(* a position that off_t holds *)
Definition small (z : Z) : Prop := (0 <= z <= LONG_MAX)%Z.

(* ---- lemmas ---- *)
Lemma put_spec d p bs : put_at d p bs (f_put d p bs).
Proof.
  intros i. destruct bs as [|b bs].
  - cbn [f_put length Nat.eqb negb andb].
    replace ((p <=? i) && (i <? p + 0)) with false by lia.
    destruct (i <? length d) eqn:E; auto.
    apply nth_error_None. lia.
  - unfold f_put. remember (b :: bs) as w eqn:W.
    assert (NZ : length w <> 0) by (rewrite W; cbn; lia).
    replace (length w =? 0) with false by lia. cbn [negb andb].
    assert (L : length (firstn p (d ++ repeat 0%Z (p - length d))) = p)
      by (rewrite firstn_length, app_length, repeat_length; lia).
    destruct (Nat.ltb_spec i p) as [LT|GE].
    + replace (p <=? i) with false by lia. cbn [andb].
      rewrite nth_error_app1 by lia. rewrite nth_error_firstn.
      replace (i <? p) with true by lia.
      destruct (Nat.ltb_spec i (length d)) as [A|A].
      * now rewrite nth_error_app1 by lia.
      * rewrite nth_error_app2 by lia. apply nth_error_repeat. lia.
    + replace (p <=? i) with true by lia. cbn [andb].
      rewrite nth_error_app2 by lia. rewrite L.
      destruct (Nat.ltb_spec i (p + length w)) as [A|A].
      * rewrite nth_error_app1 by lia. reflexivity.
      * rewrite nth_error_app2 by lia. rewrite nth_error_skipn.
        replace (p + length w + (i - p - length w)) with i by lia.
        destruct (Nat.ltb_spec i (length d)) as [B|B]; auto.
        apply nth_error_None. lia.
Qed.

Lemma put_twice d p a b d1 d2 : put_at d p a d1 -> put_at d1 (p + length a) b d2 -> put_at d p (a ++ b) d2.
Proof.
  intros A B i. rewrite (B i). rewrite app_length.
  assert (E : nth_error d1 i = if (p <=? i) && (i <? p + length a) then nth_error a (i - p)
    else if i <? length d then nth_error d i
    else if negb (length a =? 0) && (i <? p) then Some 0%Z else None) by apply A.
  assert (LD : i < length d1 <-> nth_error d1 i <> None) by (symmetry; apply nth_error_Some).
  destruct ((p <=? i) && (i <? p + length a)) eqn:C1.
  - replace ((p + length a <=? i) && (i <? p + length a + length b)) with false by lia.
    replace ((p <=? i) && (i <? p + (length a + length b))) with true by lia.
    assert (N : nth_error a (i - p) <> None) by (apply nth_error_Some; lia).
    replace (i <? length d1) with true by (symmetry; apply Nat.ltb_lt, LD; congruence).
    rewrite E. now rewrite nth_error_app1 by lia.
  - destruct ((p + length a <=? i) && (i <? p + length a + length b)) eqn:C2.
    + replace ((p <=? i) && (i <? p + (length a + length b))) with true by lia.
      rewrite nth_error_app2 by lia. f_equal. lia.
    + replace ((p <=? i) && (i <? p + (length a + length b))) with false by lia.
      destruct (Nat.ltb_spec i (length d)) as [F|F].
      * assert (N : nth_error d i <> None) by (apply nth_error_Some; lia).
        replace (i <? length d1) with true by (symmetry; apply Nat.ltb_lt, LD; congruence). exact E.
      * destruct (negb (length a =? 0) && (i <? p)) eqn:C3.
        -- replace (i <? length d1) with true by (symmetry; apply Nat.ltb_lt, LD; congruence).
           replace (negb (length a + length b =? 0) && (i <? p)) with true by lia. exact E.
        -- replace (i <? length d1) with false.
           2: { symmetry. apply Nat.ltb_ge. destruct (Nat.le_gt_cases (length d1) i) as [G|G]; auto. exfalso. apply LD in G. congruence. }
           destruct (negb (length b =? 0) && (i <? p + length a)) eqn:C4.
           ++ replace (negb (length a + length b =? 0) && (i <? p)) with true by lia. reflexivity.
           ++ replace (negb (length a + length b =? 0) && (i <? p)) with false by lia. reflexivity.
Qed.

Lemma put_nil d p : put_at d p [] d.
Proof. apply (put_spec d p []). Qed.

Lemma has_firstn d p n : has_at d p (firstn n (skipn p d)).
Proof.
  intros i H. rewrite nth_error_firstn, nth_error_skipn. rewrite firstn_length in H.
  replace (i <? n) with true by lia. reflexivity.
Qed.

(* ---- reading at a position ---- *)
Definition got_spec (f : fl) (n : nat) (off : Z) (bs : list Z) : Prop :=
  has_at (dat f) (Z.to_nat off) bs /\ length bs <= n /\
  (bs = [] -> n = 0 \/ length (dat f) <= Z.to_nat off).

Lemma read_got r f n f' bs : f_read r f n = (f', Some bs) ->
  got_spec f n (pos f) bs /\ dat f' = dat f /\ pos f' = (pos f + Z.of_nat (length bs))%Z.
Proof.
  unfold f_read. destruct r as [k|]; [|discriminate]. intros H; injection H as <- <-.
  cbn [dat pos]. repeat split; auto.
  - apply has_firstn.
  - rewrite firstn_length. lia.
  - intros E. apply (f_equal (@length Z)) in E. rewrite firstn_length, skipn_length in E. cbn [length] in E.
    destruct (Nat.le_gt_cases (length (dat f)) (Z.to_nat (pos f))); [now right|].
    left. destruct k; lia.
Qed.

Lemma pread_got a1 a2 a3 r f n off f' bs : pread a1 a2 a3 r f n off = (f', Some bs) ->
  got_spec f n off bs /\ f' = f /\ (0 <= off)%Z.
Proof.
  unfold pread. unfold seek_cur.
  destruct (a1 && (pos f <=? LONG_MAX)%Z); [|discriminate].
  destruct (seek_set a2 f off) as [f1|] eqn:S1; [|discriminate].
  destruct (f_read r f1 n) as [f2 [b|]] eqn:R; [|discriminate].
  destruct (seek_set a3 f2 (pos f)) as [f3|] eqn:S2; [|discriminate].
  intros H; injection H as <- <-.
  unfold seek_set in S1, S2.
  destruct (a2 && (0 <=? off)%Z) eqn:A2; [|discriminate]. injection S1 as <-.
  destruct (a3 && (0 <=? pos f)%Z) eqn:A3; [|discriminate]. injection S2 as <-.
  apply read_got in R. cbn [dat pos] in R. destruct R as (G & D & _).
  repeat split; try (apply G); try lia. destruct f as [fd0 fp0]; cbn [dat pos] in *. congruence.
Qed.

Lemma pread_works f n off k : small (pos f) -> (0 <= off)%Z ->
  exists bs, pread true true true (Some k) f n off = (f, Some bs).
Proof.
  intros (A & B) O. unfold pread, seek_cur, seek_set, f_read. cbn [andb].
  replace (pos f <=? LONG_MAX)%Z with true by lia. cbn [dat pos].
  replace (0 <=? off)%Z with true by lia. replace (0 <=? pos f)%Z with true by lia.
  eexists. destruct f as [fd0 fp0]; reflexivity.
Qed.

Lemma pread_keeps_bytes a1 a2 a3 r f n off f' res : pread a1 a2 a3 r f n off = (f', res) -> dat f' = dat f.
Proof.
  unfold pread, seek_cur, seek_set, f_read.
  destruct (a1 && _); [|congruence].
  destruct (a2 && _); [|congruence].
  destruct r as [k|]; cbn [dat pos].
  - destruct (a3 && _); intros H; injection H as <- <-; reflexivity.
  - intros H; injection H as <- <-; reflexivity.
Qed.

(* a read that fails leaves the position where it was asked to read *)
Lemma pread_moves a3 f n off : small (pos f) -> (0 <= off)%Z ->
  pread true true a3 None f n off = ({| dat := dat f; pos := off |}, None).
Proof.
  intros (A & B) O. unfold pread, seek_cur, seek_set, f_read. cbn [andb].
  replace (pos f <=? LONG_MAX)%Z with true by lia.
  now replace (0 <=? off)%Z with true by lia.
Qed.
(* a descriptor far in a large file reads nothing at any position *)
Lemma pread_far a1 a2 a3 r f n off : (LONG_MAX < pos f)%Z -> pread a1 a2 a3 r f n off = (f, None).
Proof. intros H. unfold pread, seek_cur. replace (pos f <=? LONG_MAX)%Z with false by lia. now rewrite andb_false_r. Qed.

(* ---- writing at a position ---- *)
Lemma write_did w f bs f' k : f_write w f bs = (f', Some k) ->
  k <= length bs /\ put_at (dat f) (Z.to_nat (pos f)) (firstn k bs) (dat f') /\ pos f' = (pos f + Z.of_nat k)%Z.
Proof.
  unfold f_write. destruct w as [m|]; [|discriminate]. intros H; injection H as <- <-. cbn [dat pos].
  repeat split.
  - rewrite firstn_length. lia.
  - intros i. replace (firstn (length (firstn m bs)) bs) with (firstn m bs).
    + apply put_spec.
    + rewrite firstn_length. destruct (Nat.le_gt_cases m (length bs)) as [L|L].
      * now rewrite Nat.min_l by lia.
      * rewrite Nat.min_r by lia. rewrite !firstn_all2 by lia. reflexivity.
Qed.

Lemma pwrite_did a1 a2 a3 w f bs off f' k : pwrite a1 a2 a3 w f bs off = (f', Some k) ->
  k <= length bs /\ (0 <= off)%Z /\ put_at (dat f) (Z.to_nat off) (firstn k bs) (dat f') /\ pos f' = pos f.
Proof.
  unfold pwrite, seek_cur.
  destruct (a1 && (pos f <=? LONG_MAX)%Z); [|discriminate].
  destruct (seek_set a2 f off) as [f1|] eqn:S1; [|discriminate].
  destruct (f_write w f1 bs) as [f2 [m|]] eqn:R; [|discriminate].
  destruct (seek_set a3 f2 (pos f)) as [f3|] eqn:S2; [|discriminate].
  intros H; injection H as <- <-.
  unfold seek_set in S1, S2.
  destruct (a2 && (0 <=? off)%Z) eqn:A2; [|discriminate]. injection S1 as <-.
  destruct (a3 && (0 <=? pos f)%Z) eqn:A3; [|discriminate]. injection S2 as <-.
  apply write_did in R. cbn [dat pos] in *. destruct R as (K & P & _).
  repeat split; auto. lia.
Qed.

Lemma pwrite_works f bs off k : small (pos f) -> (0 <= off)%Z ->
  exists f', pwrite true true true (Some k) f bs off = (f', Some (Nat.min k (length bs))).
Proof.
  intros (A & B) O. unfold pwrite, seek_cur, seek_set, f_write. cbn [andb].
  replace (pos f <=? LONG_MAX)%Z with true by lia. cbn [dat pos].
  replace (0 <=? off)%Z with true by lia. replace (0 <=? pos f)%Z with true by lia.
  eexists. rewrite firstn_length. reflexivity.
Qed.

(* -1 may come back although the bytes are in the file *)
Lemma pwrite_lies f bs off k : small (pos f) -> (0 <= off)%Z ->
  exists f', pwrite true true false (Some k) f bs off = (f', None) /\ put_at (dat f) (Z.to_nat off) (firstn k bs) (dat f').
Proof.
  intros (A & B) O. unfold pwrite, seek_cur, seek_set, f_write. cbn [andb].
  replace (pos f <=? LONG_MAX)%Z with true by lia. cbn [dat pos].
  replace (0 <=? off)%Z with true by lia. eexists; split; [reflexivity|]. apply put_spec.
Qed.
Lemma pwrite_moves a3 f bs off : small (pos f) -> (0 <= off)%Z ->
  pwrite true true a3 None f bs off = ({| dat := dat f; pos := off |}, None).
Proof.
  intros (A & B) O. unfold pwrite, seek_cur, seek_set, f_write. cbn [andb].
  replace (pos f <=? LONG_MAX)%Z with true by lia.
  now replace (0 <=? off)%Z with true by lia.
Qed.

(* ---- sending ---- *)
(* the chunks read one after another, and how many bytes of each were taken *)
Definition lost_free (cs : list (list Z * nat)) : Prop := Forall (fun c => snd c = length (fst c)) cs.
Definition read_all (cs : list (list Z * nat)) : list Z := concat (map fst cs).
Definition taken (cs : list (list Z * nat)) : list Z := concat (map (fun c => firstn (snd c) (fst c)) cs).

(* the answers: every reading and every writing works *)
Definition no_fail (g : nat -> option nat) : Prop := forall i, g i <> None.

Lemma read_none r f n f' : f_read r f n = (f', None) -> r = None /\ f' = f.
Proof. unfold f_read. destruct r; [discriminate|]. intros H; injection H as <-. auto. Qed.

Lemma skipn_app_ge {A} (a b : list A) n : skipn (length a + n) (a ++ b) = skipn n b.
Proof. rewrite skipn_app. rewrite skipn_all2 by lia. cbn [app]. f_equal. lia. Qed.

(* the loop: what was read is a run of the file from the position, what was written is the taken part of
   every chunk, and the answer counts it *)
Lemma send_run fuel : forall rr ww cap i fo fi len res fo' fi' res', (0 <= pos fi)%Z -> (0 <= pos fo)%Z -> 0 < cap ->
  send_loop fuel rr ww cap i fo fi len res = Ok (fo', fi', res') ->
  exists cs, has_at (dat fi) (Z.to_nat (pos fi)) (read_all cs) /\ length (read_all cs) <= len /\
    Forall (fun c => length (fst c) <= cap /\ fst c <> [] /\ exists j k, ww j = Some k /\ snd c = Nat.min k (length (fst c))) cs /\
    put_at (dat fo) (Z.to_nat (pos fo)) (taken cs) (dat fo') /\
    pos fo' = (pos fo + Z.of_nat (length (taken cs)))%Z /\
    dat fi' = dat fi /\
    ((res' = (res + Z.of_nat (length (taken cs)))%Z /\ pos fi' = (pos fi + Z.of_nat (length (read_all cs)))%Z /\
      (length (read_all cs) = len \/ length (dat fi) <= Z.to_nat (pos fi) + length (read_all cs))) \/
     (res' = (-1)%Z /\ exists j, rr j = None \/ ww j = None)).
Proof.
  induction fuel as [|k IH]; intros rr ww cap i fo fi len res fo' fi' res' P1 P2 C H.
  - destruct len; [|discriminate]. cbn in H. injection H as <- <- <-.
    exists []. cbn [read_all taken map concat length]. refine (conj _ (conj _ (conj _ (conj _ (conj _ (conj _ _)))))); auto; try lia.
    + intros j L. cbn in L. lia.
    + apply put_nil.
  - destruct len as [|len'].
    { cbn in H. injection H as <- <- <-.
      exists []. cbn [read_all taken map concat length]. refine (conj _ (conj _ (conj _ (conj _ (conj _ (conj _ _)))))); auto; try lia.
      + intros j L. cbn in L. lia.
      + apply put_nil. }
    cbn [send_loop] in H. remember (S len') as len eqn:EL.
    set (n := if len <? cap then len else cap) in *.
    assert (N : 0 < n <= len /\ n <= cap) by (unfold n; destruct (len <? cap) eqn:?; lia).
    destruct (f_read (rr i) fi n) as [fi1 [bs|]] eqn:R.
    + apply read_got in R. destruct R as ((HA & LB & EB) & DA & PO).
      destruct bs as [|b bs0].
      * injection H as <- <- <-. exists []. cbn [read_all taken map concat length]. refine (conj _ (conj _ (conj _ (conj _ (conj _ (conj _ _)))))); auto; try lia.
        -- apply put_nil.
        -- left. split; [lia|]. split; [cbn [length] in PO; lia|]. right. destruct (EB eq_refl); lia.
      * remember (b :: bs0) as bs eqn:EQ.
        destruct (f_write (ww i) fo bs) as [fo1 [m|]] eqn:W.
        -- assert (WM : match ww i with Some q => Some (length (firstn q bs)) | None => None end = Some m)
             by (unfold f_write in W; destruct (ww i); [now injection W as _ <-|discriminate]).
           apply write_did in W. destruct W as (ML & PU & PP).
           assert (LP : 0 < length bs) by (rewrite EQ; cbn; lia).
           rewrite EQ in H. rewrite <- EQ in H.
           apply IH in H; try lia. clear IH.
           destruct H as (cs & H1 & H2 & H3 & H4 & H5 & H6 & H7).
           exists ((bs, m) :: cs).
           cbn [read_all taken map concat fst snd] in *. fold (read_all cs) in *. fold (taken cs) in *.
           assert (FL : length (firstn m bs) = m) by (rewrite firstn_length; lia).
           rewrite !app_length, FL.
           split; [|split; [|split; [|split; [|split; [|split]]]]].
           ++ intros j L. rewrite app_length in L.
              destruct (Nat.lt_ge_cases j (length bs)) as [J|J].
              ** rewrite nth_error_app1 by lia. apply HA. lia.
              ** rewrite nth_error_app2 by lia. rewrite <- (H1 (j - length bs)) by lia.
                 rewrite DA. f_equal. lia.
           ++ lia.
           ++ constructor; auto. cbn [fst snd]. split; [lia|]. split; [rewrite EQ; discriminate|].
              destruct (ww i) as [q|] eqn:WI; [|discriminate WM]. exists i, q. split; auto.
              injection WM as WM. rewrite firstn_length in WM. lia.
           ++ eapply put_twice; [exact PU|]. rewrite FL.
              replace (Z.to_nat (pos fo) + m) with (Z.to_nat (pos fo1)) by lia. exact H4.
           ++ lia.
           ++ congruence.
           ++ destruct H7 as [(A & B & D)|(A & j & D)].
              ** left. split; [lia|]. split; [lia|]. rewrite DA in D. lia.
              ** right. split; auto. exists j. exact D.
        -- injection H as <- <- <-.
           assert (FO : fo1 = fo /\ ww i = None).
           { unfold f_write in W. destruct (ww i); [discriminate|]. now injection W as <-. }
           destruct FO as (-> & WN).
           exists []. cbn [read_all taken map concat length]. refine (conj _ (conj _ (conj _ (conj _ (conj _ (conj _ _)))))); auto; try lia.
           ++ intros j L. cbn in L. lia.
           ++ apply put_nil.
           ++ right. split; auto. exists i. now right.
    + apply read_none in R. destruct R as (RN & ->). injection H as <- <- <-.
      exists []. cbn [read_all taken map concat length]. refine (conj _ (conj _ (conj _ (conj _ (conj _ (conj _ _)))))); auto; try lia.
      * intros j L. cbn in L. lia.
      * apply put_nil.
      * right. split; auto. exists i. now left.
Qed.

Lemma send_ends fuel : forall rr ww cap i fo fi len res, 0 < cap -> len <= fuel ->
  exists x, send_loop fuel rr ww cap i fo fi len res = Ok x.
Proof.
  induction fuel as [|k IH]; intros rr ww cap i fo fi len res C L.
  - destruct len; [|lia]. eexists; reflexivity.
  - destruct len as [|len']; [eexists; reflexivity|]. cbn [send_loop]. remember (S len') as len eqn:EL.
    destruct (f_read (rr i) fi _) as [fi1 [[|b bs]|]]; try (eexists; reflexivity).
    destruct (f_write (ww i) fo (b :: bs)) as [fo1 [m|]]; try (eexists; reflexivity).
    apply IH; auto. cbn [length]. lia.
Qed.

Definition begins (fi : fl) (o : Z) : Z := if (o =? -1)%Z then pos fi else o.
(* the output takes whole chunks *)
Definition takes_all (ww : nat -> option nat) : Prop := forall i, exists k, ww i = Some k /\ MAX_BUF <= k.

Lemma max_buf_pos : 0 < MAX_BUF.
Proof. unfold MAX_BUF. lia. Qed.

Lemma cap_pos len : 0 < len -> 0 < (if len <? MAX_BUF then len else MAX_BUF).
Proof. pose proof max_buf_pos. destruct (len <? MAX_BUF); lia. Qed.

(* what sending does, whatever the answers of the system *)
Lemma send_spec fuel sk rr ww fo fi o len fo' fi' off' res :
  (0 <= pos fi)%Z -> (0 <= pos fo)%Z -> (-1 <= o)%Z ->
  sendfile fuel true sk rr ww fo fi (Some o) len = Ok (fo', fi', off', res) ->
  exists cs, has_at (dat fi) (Z.to_nat (begins fi o)) (read_all cs) /\ length (read_all cs) <= len /\
    Forall (fun c => length (fst c) <= MAX_BUF /\ fst c <> [] /\ exists j k, ww j = Some k /\ snd c = Nat.min k (length (fst c))) cs /\
    put_at (dat fo) (Z.to_nat (pos fo)) (taken cs) (dat fo') /\
    pos fo' = (pos fo + Z.of_nat (length (taken cs)))%Z /\
    dat fi' = dat fi /\
    ((res = Z.of_nat (length (taken cs)) /\ pos fi' = (begins fi o + Z.of_nat (length (read_all cs)))%Z /\
      (length (read_all cs) = len \/ length (dat fi) <= Z.to_nat (begins fi o) + length (read_all cs))) \/
     (res = (-1)%Z /\ ((sk = false /\ o <> (-1)%Z) \/ exists j, rr j = None \/ ww j = None))).
Proof.
  intros P1 P2 PO. unfold sendfile, begins.
  set (cap := if len <? MAX_BUF then len else MAX_BUF).
  assert (CB : cap <= MAX_BUF) by (unfold cap; destruct (len <? MAX_BUF) eqn:?; lia).
  assert (KEY : forall fi1, dat fi1 = dat fi -> (0 <= pos fi1)%Z -> forall x, send_loop fuel rr ww cap 0 fo fi1 len 0%Z = Ok x ->
    exists cs, has_at (dat fi) (Z.to_nat (pos fi1)) (read_all cs) /\ length (read_all cs) <= len /\
    Forall (fun c => length (fst c) <= MAX_BUF /\ fst c <> [] /\ exists j k, ww j = Some k /\ snd c = Nat.min k (length (fst c))) cs /\
    put_at (dat fo) (Z.to_nat (pos fo)) (taken cs) (dat (fst (fst x))) /\
    pos (fst (fst x)) = (pos fo + Z.of_nat (length (taken cs)))%Z /\
    dat (snd (fst x)) = dat fi /\
    ((snd x = Z.of_nat (length (taken cs)) /\ pos (snd (fst x)) = (pos fi1 + Z.of_nat (length (read_all cs)))%Z /\
      (length (read_all cs) = len \/ length (dat fi) <= Z.to_nat (pos fi1) + length (read_all cs))) \/
     (snd x = (-1)%Z /\ exists j, rr j = None \/ ww j = None))).
  { intros fi1 D P [[a b] c] L. cbn [fst snd]. rewrite <- D.
    destruct len as [|len'].
    - destruct fuel; cbn in L; injection L as <- <- <-; exists []; cbn [read_all taken map concat length];
        (refine (conj _ (conj _ (conj _ (conj _ (conj _ (conj _ _)))))); [intros j J; cbn in J; lia|lia|constructor|apply put_nil|lia|reflexivity|left; repeat split; lia]).
    - remember (S len') as len.
      apply send_run in L; auto; [|unfold cap; apply cap_pos; lia].
      destruct L as (cs & H1 & H2 & H3 & H4 & H5 & H6 & H7). exists cs. repeat split; auto.
      eapply Forall_impl; [|exact H3]. intros z (A & B & E). repeat split; auto. lia. }
  destruct (Z.eqb_spec o (-1)) as [E|E].
  - destruct (send_loop fuel rr ww cap 0 fo fi len 0) as [x| | |] eqn:L; cbn [bind]; try discriminate.
    intros H; injection H as <- <- <- <-.
    destruct (KEY fi eq_refl P1 x L) as (cs & H1 & H2 & H3 & H4 & H5 & H6 & H7).
    exists cs. repeat split; auto. destruct H7 as [A|(A & B)]; [left; auto|right; auto].
  - unfold seek_set. destruct sk.
    + replace (0 <=? o)%Z with true by lia. cbn [andb].
      destruct (send_loop _ _ _ _ _ _ _ _ _) as [x| | |] eqn:L; cbn [bind]; try discriminate.
      intros H; injection H as <- <- <- <-.
      apply KEY in L; cbn [dat pos] in *; auto; [|lia].
      destruct L as (cs & H1 & H2 & H3 & H4 & H5 & H6 & H7).
      exists cs. repeat split; auto. destruct H7 as [A|(A & B)]; [left; auto|right; auto].
    + cbn [andb]. intros H; injection H as <- <- <- <-.
      exists []. cbn [read_all taken map concat length].
      refine (conj _ (conj _ (conj _ (conj _ (conj _ (conj _ _)))))); auto; try lia.
      * intros j J; cbn in J; lia.
      * apply put_nil.
Qed.

Lemma takes_whole ww cs : takes_all ww ->
  Forall (fun c => length (fst c) <= MAX_BUF /\ fst c <> [] /\ exists j k, ww j = Some k /\ snd c = Nat.min k (length (fst c))) cs ->
  taken cs = read_all cs.
Proof.
  intros T. induction 1 as [|[b m] cs (A & _ & j & k & W & M) _ IH]; auto.
  cbn [taken read_all map concat fst snd] in *. fold (taken cs) in *. fold (read_all cs) in *.
  destruct (T j) as (k' & W' & K). rewrite W in W'. injection W' as <-.
  rewrite IH. rewrite firstn_all2 by lia. reflexivity.
Qed.

(* no reading fails and the output takes whole chunks: the bytes of the range are sent, in order *)
Lemma send_all fuel rr ww fo fi o len fo' fi' off' res :
  (0 <= pos fi)%Z -> (0 <= pos fo)%Z -> (-1 <= o)%Z -> no_fail rr -> takes_all ww ->
  sendfile fuel true true rr ww fo fi (Some o) len = Ok (fo', fi', off', res) ->
  exists bs, has_at (dat fi) (Z.to_nat (begins fi o)) bs /\ length bs = Nat.min len (length (dat fi) - Z.to_nat (begins fi o)) /\ put_at (dat fo) (Z.to_nat (pos fo)) bs (dat fo') /\ res = Z.of_nat (length bs) /\ dat fi' = dat fi /\ pos fi' = (begins fi o + Z.of_nat (length bs))%Z /\ pos fo' = (pos fo + Z.of_nat (length bs))%Z.
Proof.
  intros P1 P2 PO NF TA H. apply send_spec in H; auto.
  destruct H as (cs & H1 & H2 & H3 & H4 & H5 & H6 & H7).
  rewrite (takes_whole ww cs TA H3) in *. exists (read_all cs).
  destruct H7 as [(A & B & D)|(_ & [(A & _)|(j & [A|A])])]; [|discriminate|now apply NF in A|].
  2: { destruct (TA j) as (k & W & _). congruence. }
  repeat split; auto.
  assert (U : length (read_all cs) <= length (dat fi) - Z.to_nat (begins fi o)).
  { destruct (read_all cs) as [|x r] eqn:E; [cbn; lia|].
    specialize (H1 (length r)). cbn [length] in H1. specialize (H1 ltac:(lia)).
    assert (N : nth_error (x :: r) (length r) <> None) by (apply nth_error_Some; cbn; lia).
    rewrite <- H1 in N. apply nth_error_Some in N. cbn [length]. lia. }
  lia.
Qed.

Lemma send_returns fuel sk rr ww fo fi o len : len <= fuel ->
  exists x, sendfile fuel true sk rr ww fo fi (Some o) len = Ok x.
Proof.
  intros L. unfold sendfile.
  assert (E : forall f1, exists x, send_loop fuel rr ww (if len <? MAX_BUF then len else MAX_BUF) 0 fo f1 len 0%Z = Ok x).
  { intros f1. destruct len as [|n]; [destruct fuel; eexists; reflexivity|]. apply send_ends; auto. apply cap_pos. lia. }
  destruct (o =? -1)%Z.
  - destruct (E fi) as (x & ->). eexists; reflexivity.
  - unfold seek_set. destruct (sk && (0 <=? o)%Z); [|eexists; reflexivity].
    destruct (E {| dat := dat fi; pos := o |}) as (x & ->). eexists; reflexivity.
Qed.

(* the caller's offset does not move; with -1 it becomes 0 *)
Lemma send_offset fuel sk rr ww fo fi o len fo' fi' off' res : (-1 <= o)%Z ->
  sendfile fuel true sk rr ww fo fi (Some o) len = Ok (fo', fi', off', res) ->
  off' = (if (o =? -1)%Z then 0 else if sk then o else -1)%Z.
Proof.
  intros PO. unfold sendfile. destruct (Z.eqb_spec o (-1)) as [E|E].
  - destruct (send_loop _ _ _ _ _ _ _ _ _) as [x| | |]; cbn [bind]; try discriminate. intros H; now injection H.
  - unfold seek_set. destruct sk; cbn [andb]; [|intros H; now injection H].
    replace (0 <=? o)%Z with true by lia.
    destruct (send_loop _ _ _ _ _ _ _ _ _) as [x| | |]; cbn [bind]; try discriminate. intros H; now injection H.
Qed.

(* a short write: the rest of the chunk is gone *)
Lemma send_short a b c fo : pos fo = 0%Z -> dat fo = [] ->
  exists fi', sendfile 3 true true (fun i => match i with 0 => Some 2 | _ => Some 1 end) (fun _ => Some 1) fo
    {| dat := [a; b; c]; pos := 0%Z |} (Some 0%Z) 3 = Ok ({| dat := [a; c]; pos := 2%Z |}, fi', 0%Z, 2%Z).
Proof.
  intros P D. unfold sendfile.
  replace (3 <? MAX_BUF) with true by (symmetry; apply Nat.ltb_lt; unfold MAX_BUF; lia).
  destruct fo as [fd0 fp0]. cbn [dat pos] in *. subst. eexists. vm_compute. reflexivity.
Qed.
(* bytes were sent, and the answer is -1 *)
Lemma send_fails_late a b fo : pos fo = 0%Z -> dat fo = [] ->
  exists fi', sendfile 2 true true (fun i => match i with 0 => Some 1 | _ => None end) (fun _ => Some 1) fo
    {| dat := [a; b]; pos := 0%Z |} (Some 0%Z) 2 = Ok ({| dat := [a]; pos := 1%Z |}, fi', 0%Z, (-1)%Z).
Proof.
  intros P D. unfold sendfile.
  replace (2 <? MAX_BUF) with true by (symmetry; apply Nat.ltb_lt; unfold MAX_BUF; lia).
  destruct fo as [fd0 fp0]. cbn [dat pos] in *. subst. eexists. vm_compute. reflexivity.
Qed.
Lemma send_null fuel sk rr ww fo fi len : sendfile fuel true sk rr ww fo fi None len = UB.
Proof. reflexivity. Qed.
