From Coq Require Import ZArith List Bool Lia.
From Verif Require Import Base FtModel.
Import ListNotations.
Local Open Scope Z_scope.

(* the kinds of POSIX: first digit of the mode (octal), name *)
Definition kinds : list (Z * Z) := [(1, FIFO); (2, CHR); (4, DIR); (6, BLK); (8, REG); (10, LNK); (12, SOCK)].

Lemma land_shift m a k : 0 <= k -> Z.land m (Z.shiftl a k) = Z.shiftl (Z.land (Z.shiftr m k) a) k.
Proof.
  intros K. apply Z.bits_inj'. intros n N. rewrite Z.land_spec, !Z.shiftl_spec by lia. destruct (Z_lt_dec n k) as [L|L].
  - rewrite !(Z.testbit_neg_r _ (n - k)) by lia. apply andb_false_r.
  - rewrite Z.land_spec, Z.shiftr_spec by lia. replace (n - k + k) with n by lia. reflexivity.
Qed.
Lemma kind_bits m : Z.land m 61440 = (m / 4096) mod 16 * 4096.
Proof.
  change 61440 with (Z.shiftl (Z.ones 4) 12). rewrite land_shift by lia. rewrite Z.land_ones, Z.shiftr_div_pow2, Z.shiftl_mul_pow2 by lia. reflexivity.
Qed.

Lemma unix_known neg m d k : In (d, k) kinds -> (m / 4096) mod 16 = d -> unix_type neg (Some m) = k.
Proof.
  intros H E. unfold unix_type. rewrite kind_bits, E. unfold kinds in H. simpl in H.
  repeat (destruct H as [H|H]; [injection H as <- <-; reflexivity|]). tauto.
Qed.
Lemma unix_unknown neg m : (forall d k, In (d, k) kinds -> (m / 4096) mod 16 <> d) -> unix_type neg (Some m) = UNKNOWN.
Proof.
  intros H. unfold unix_type. rewrite kind_bits. assert (X : forall d k, In (d, k) kinds -> ((m / 4096) mod 16 * 4096 =? d * 4096) = false).
  { intros d k I. specialize (H d k I). apply Z.eqb_neq. lia. }
  cbv zeta. change 24576 with (6 * 4096). change 8192 with (2 * 4096). change 16384 with (4 * 4096).
  change (_ =? 4096) with ((m / 4096) mod 16 * 4096 =? 1 * 4096) at 1. change 40960 with (10 * 4096). change 32768 with (8 * 4096). change 49152 with (12 * 4096).
  rewrite (X 6 BLK), (X 2 CHR), (X 4 DIR), (X 1 FIFO), (X 10 LNK), (X 8 REG), (X 12 SOCK) by (simpl; tauto). reflexivity.
Qed.
Lemma unix_error neg m : unix_type neg None <> unix_type neg (Some m) /\ (unix_type neg None < 0 <-> neg = true).
Proof.
  split.
  - unfold unix_type. cbv zeta. unfold as_enum.
    repeat match goal with |- context [if ?b then _ else _] => destruct b end; vm_compute; discriminate.
  - destruct neg; simpl; split; intros; try reflexivity; try discriminate.
Qed.

Lemma windows_blind sys of addr fd : sys addr = None -> windows_type sys of addr fd = UNKNOWN.
Proof. unfold windows_type. intros ->. reflexivity. Qed.

(* with the handle of the descriptor: the attributes are bits *)
Lemma attributes_whole a : (0 <= a) -> (handle_type (Some (Disk (Some a))) <> UNKNOWN <-> a = 128 \/ a = 16 \/ a = 1024).
Proof.
  intros A. unfold handle_type. destruct (a =? 128) eqn:E1; [|destruct (a =? 16) eqn:E2; [|destruct (a =? 1024) eqn:E3]];
    split; intros H; try (unfold REG, DIR, LNK, UNKNOWN; discriminate); try lia; exfalso; apply H; reflexivity.
Qed.

Lemma handles h :
  (handle_type h = CHR <-> h = Some Char) /\ (handle_type h = BLK <-> h = Some (Disk None)) /\
  (handle_type h = FIFO <-> h = Some (Pipe true)) /\ (handle_type h = SOCK <-> h = Some (Pipe false)) /\
  (handle_type h = REG <-> h = Some (Disk (Some 128))) /\ (handle_type h = DIR <-> h = Some (Disk (Some 16))) /\
  (handle_type h = LNK <-> h = Some (Disk (Some 1024))).
Proof.
  destruct h as [[|[a|]|[|]]|]; cbn [handle_type].
  2: { destruct (Z.eqb_spec a 128) as [E1|E1]; [|destruct (Z.eqb_spec a 16) as [E2|E2]; [|destruct (Z.eqb_spec a 1024) as [E3|E3]]];
       repeat split; intros H; try discriminate; try congruence; injection H; intros; congruence. }
  all: repeat split; intros H; try reflexivity; discriminate.
Qed.
