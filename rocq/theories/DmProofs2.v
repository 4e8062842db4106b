(* The blocks of a task, from their making to their release; texts and neighbours taken for something else *)
From Coq Require Import ZArith List Bool Lia.
From Verif Require Import Base DmModel DmProofs.
Import ListNotations.
Open Scope Z_scope.

Definition bytes (m : Z -> Z) : Prop := forall x, byte (m x).

Lemma bytes_upd m a v : bytes m -> byte v -> bytes (upd m a v).
Proof. intros B V x. unfold upd. destruct (x =? a); auto. Qed.
Lemma bytes_put n : forall m a v, bytes m -> bytes (put m a n v).
Proof.
  induction n as [|n IH]; intros m a v B; cbn [put]; [exact B|]. apply IH. apply bytes_upd; [exact B|].
  unfold byte. apply Z.mod_pos_bound. lia.
Qed.
Lemma bytes_fill l : forall m a, bytes m -> Forall byte l -> bytes (fill m a l).
Proof.
  induction l as [|b l IH]; intros m a B F; cbn [fill]; [exact B|]. inversion F; subst. apply IH; [|assumption]. now apply bytes_upd.
Qed.

(* a block that begins with a calm text, and a zero after it if that is short *)
Lemma calm_val m a t : bytes m -> calm t -> (forall i, (i < length t)%nat -> m (a + Z.of_nat i) = nth i t 0) ->
  (t = [] -> m a = 0) -> ~ In (val m a 4) [21; 35; 36; 37].
Proof.
  intros B C F E K. cbn [val] in K.
  pose proof (B a) as B0. pose proof (B (a + 1)) as B1. pose proof (B (a + 1 + 1)) as B2. pose proof (B (a + 1 + 1 + 1)) as B3.
  unfold byte in *. cbn [In] in K.
  assert (Z1 : m (a + 1) = 0 /\ m (a + 1 + 1) = 0 /\ m (a + 1 + 1 + 1) = 0 /\ In (m a) [21; 35; 36; 37]).
  { cbn [In]. lia. }
  destruct Z1 as (Z1 & Z2 & Z3 & K0). destruct t as [|b r].
  - rewrite E in K0 by reflexivity. cbn in K0. lia.
  - apply C. exists b, r. split; [reflexivity|].
    pose proof (F 0%nat ltac:(cbn; lia)) as F0. rewrite Z.add_0_r in F0. cbn [nth] in F0. split; [now rewrite <- F0|].
    apply Forall_forall. intros x I0. apply In_nth with (d := 0) in I0 as (i & L & <-).
    rewrite firstn_length in L.
    assert (N : nth i (firstn 3 r) 0 = nth i r 0).
    { destruct r as [|r0 [|r1 [|r2 r]]]; cbn in L; destruct i as [|[|[|i]]]; cbn; auto; lia. }
    rewrite N. specialize (F (S i) ltac:(cbn; lia)). cbn [nth] in F. rewrite <- F.
    destruct i as [|[|[|i]]]; [| | |lia].
    + change (Z.of_nat 1) with 1. congruence.
    + replace (a + Z.of_nat 2) with (a + 1 + 1) by lia. congruence.
    + replace (a + Z.of_nat 3) with (a + 1 + 1 + 1) by lia. congruence.
Qed.

Lemma items_snoc place l o : items place (l ++ [o]) = items place l ++ [(place (length l), o)].
Proof.
  unfold items. rewrite app_length. cbn [length]. rewrite Nat.add_1_r, seq_S, map_app. cbn [map].
  assert (K : forall (A : list Z) (B : list op) x y, length A = length B -> combine (A ++ [x]) (B ++ [y]) = combine A B ++ [(x, y)]).
  { induction A as [|z A IH]; intros [|w B] x y L; cbn in *; try discriminate; [reflexivity|]. f_equal. apply IH. lia. }
  apply K. now rewrite map_length, seq_length.
Qed.

Lemma calloc_len k : exists z, (if Nat.even (k + 1) then k + 1 else k + 2)%nat = (k + z)%nat /\ (1 <= z <= 2)%nat.
Proof. destruct (Nat.even (k + 1)); [exists 1%nat|exists 2%nat]; lia. Qed.

Section P.
Variables (link : Z -> Z) (head : Z -> option Z) (M : Z) (own : bool) (place : nat -> Z).
Hypothesis HM : 0 < M /\ M mod 8 = 0.
Hypothesis HL : forall a, word (link a) /\ ~ In (link a mod 2 ^ 32) [31; 32; 33; 34].

Definition proper' (o : op) : Prop := proper own o /\ match o with Array _ c => Forall byte c | _ => True end.

Lemma run_snoc l o m0 : run own M place (init m0) (l ++ [o]) = step own M place (run own M place (init m0) l) o.
Proof. unfold run. now rewrite fold_left_app. Qed.

Lemma step_ok s o : bytes (mem s) -> proper' o -> let a := place (cnt s) in let s' := step own M place s o in
  bytes (mem s') /\ tells (mem s') (a, o) /\ live s' = live s ++ [a] /\ gar s' = gar s ++ [ptr M (a, o)] /\
  cnt s' = S (cnt s) /\ out s' = out s /\ (forall x, x < a \/ a + need M o <= x -> mem s' x = mem s x).
Proof.
  clear HL head link. intros B (PR & PC). cbn zeta. set (a := place (cnt s)).
  destruct o as [t|t|f y|f y|ty c|ty dt]; cbn [proper] in PR; cbn [step ptr snd fst need tells].
  - destruct PR as (Bt & C). fold a. cbn [mem live gar cnt out block].
    destruct (calloc_len (length t)) as (z & EZ & LZ).
    assert (BM : bytes (fill (calloc (mem s) a (length t)) a t)).
    { apply bytes_fill; [|exact Bt]. unfold calloc. apply bytes_fill; [exact B|].
      apply Forall_forall. intros x I0. apply repeat_spec in I0. subst x. unfold byte. lia. }
    split; [exact BM|]. split.
    + apply (calm_val _ _ t); [exact BM|exact C|intros; now apply fill_in|].
      intros ->. cbn [fill length]. unfold calloc. cbn [length]. rewrite <- (Z.add_0_r a) at 2. exact (fill_in [0; 0] (mem s) a 0 ltac:(cbn; lia)).
    + repeat split; try reflexivity. intros x HX. rewrite fill_out by lia. unfold calloc. apply fill_out. rewrite repeat_length, EZ. lia.
  - destruct PR as (-> & NE & Bt & C). fold a. destruct t as [|b t]; [congruence|].
    unfold mem_printf. cbn [snd]. cbn [mem live gar cnt out block].
    assert (BM : bytes (fill (mem s) a ((b :: t) ++ [0]))).
    { apply bytes_fill; [exact B|]. apply Forall_app. split; [exact Bt|]. constructor; [unfold byte; lia|constructor]. }
    split; [exact BM|]. split.
    + apply (calm_val _ _ (b :: t)); [exact BM|exact C| |discriminate].
      intros i Hi. rewrite fill_in by (rewrite app_length; lia). now rewrite app_nth1.
    + repeat split; try reflexivity. intros x HX. apply fill_out. rewrite app_length. cbn [length] in *. lia.
  - destruct PR as (Wf & Wy). unfold word in *. fold a. cbn [mem live gar cnt out block].
    split; [repeat apply bytes_put; exact B|]. split.
    + split; [apply val_put; cbn; lia|]. rewrite !(val_put_out _ 4 _ a) by lia.
      split; [rewrite !val_put_out by lia; apply val_put; cbn; lia|].
      split; [rewrite val_put_out by lia; apply val_put; exact Wf|apply val_put; exact Wy].
    + repeat split; try reflexivity. intros x HX. rewrite !put_out by lia. reflexivity.
  - destruct PR as (Wf & Wy). unfold word in *. fold a. cbn [mem live gar cnt out block].
    split; [repeat apply bytes_put; exact B|]. split.
    + split; [apply val_put; cbn; lia|]. rewrite !(val_put_out _ 4 _ a) by lia.
      split; [rewrite !val_put_out by lia; apply val_put; cbn; lia|].
      split; [rewrite val_put_out by lia; apply val_put; exact Wf|apply val_put; exact Wy].
    + repeat split; try reflexivity. intros x HX. rewrite !put_out by lia. reflexivity.
  - fold a. cbn [mem live gar cnt out block].
    split; [apply bytes_fill; [apply bytes_put; exact B|exact PC]|]. split.
    + assert (4 <= M). { destruct HM as (H1 & H2). pose proof (Z.div_mod M 8). lia. }
      rewrite val_fill_out by lia. rewrite val_put; [exact PR|]. cbn [In] in PR. cbn. lia.
    + repeat split; try reflexivity. intros x HX.
      assert (8 <= M). { destruct HM as (H1 & H2). pose proof (Z.div_mod M 8). lia. }
      rewrite fill_out by lia. apply put_out. lia.
  - destruct PR as (TY & Wd). unfold word in *. fold a. cbn [mem live gar cnt out block].
    split; [repeat apply bytes_put; exact B|]. split.
    + split; [rewrite val_put; [exact TY|]; cbn [In] in TY; cbn; lia|].
      rewrite val_put_out by lia. apply val_put. exact Wd.
    + repeat split; try reflexivity. intros x HX. rewrite !put_out by lia. reflexivity.
Qed.

Lemma run_ok m0 l : bytes m0 -> Forall proper' l -> apart M (items place l) ->
  let s := run own M place (init m0) l in
  bytes (mem s) /\ Forall (tells (mem s)) (items place l) /\ live s = map fst (items place l) /\
  gar s = map (ptr M) (items place l) /\ cnt s = length l /\ out s = [].
Proof.
  clear HL head link. intro B. induction l as [|o l IH] using rev_ind; intros PR A; cbn zeta.
  - cbn. split; [exact B|]. split; [constructor|]. auto 10.
  - apply Forall_app in PR as (PR & PX). apply Forall_inv in PX. rewrite items_snoc in *. apply apart_pre in A as (A & AX).
    destruct (IH PR A) as (I1 & I2 & I3 & I4 & I5 & I6). rewrite run_snoc.
    pose proof (step_ok _ _ I1 PX) as ST. cbn zeta in ST. rewrite I5 in ST. destruct ST as (S1 & S2 & S3 & S4 & S5 & S6 & S7).
    split; [exact S1|]. split.
    + apply Forall_app. split; [|constructor; [exact S2|constructor]].
      rewrite Forall_forall in I2 |- *. intros y Iy. eapply tells_ext; [|exact (I2 y Iy)].
      intros z Hz. apply S7. pose proof (span_size M (snd y) (proj1 HM)). pose proof (size_16 M o (proj1 HM)).
      destruct (AX y Iy) as [K|K]; cbn [fst snd] in K; lia.
    + rewrite S3, S4, S5, S6, I3, I4, I6, !map_app, app_length. cbn. repeat split; auto. lia.
Qed.

Lemma released m0 l : bytes m0 -> Forall proper' l -> Forall placed (items place l) -> apart M (items place l) ->
  let s := run own M place (init m0) l in
  Forall (quiet M (mem s)) (items place l) ->
  exists s', finish link head M s = Ok s' /\ out s' = flat_map due (rev (items place l)) /\
    live s' = map fst (filter object (items place l)).
Proof.
  intros B PR PL A. cbn zeta. intro Q. destruct (run_ok m0 l B PR A) as (_ & T & L & G & _ & O).
  unfold finish. rewrite G.
  destruct (release_list link head M HM HL (items place l) _ [] PL T Q A) as (s' & E & O' & L' & _).
  - rewrite app_nil_r. exact L.
  - exists s'. split; [exact E|]. rewrite O in O'. rewrite app_nil_r in L'. auto.
Qed.
End P.
