From Verif Require Import Base ErModel.
Local Open Scope Z_scope.

(* every second error, and 0 ("no error") if one is left over *)
Fixpoint seconds (q : list Z) : list Z :=
  match q with [] => [] | [_] => [0] | _ :: e :: r => e :: seconds r end.

Lemma ssl_error_eq : forall size len q, Forall (fun e => e <> 0) q -> (forall e, In e (0 :: q) -> (Nat.min 255 (len e) < size)%nat) ->
  ssl_error size len q = Ok (match q with [] => (None, []) | [_] => (Some 0, []) | _ :: e :: r => (Some e, r) end).
Proof.
  intros size len q N L. destruct q as [|a [|b q]]; unfold ssl_error; cbn [get_error]; [reflexivity| |];
  inversion N; subst; destruct (Z.eqb_spec a 0); try contradiction.
  - rewrite (proj2 (Nat.ltb_lt _ _) (L 0 ltac:(cbn; auto))). reflexivity.
  - rewrite (proj2 (Nat.ltb_lt _ _) (L b ltac:(cbn; auto))). reflexivity.
Qed.

Lemma reports : forall cap size len n q out, Forall (fun e => e <> 0) q -> (forall e, In e (0 :: q) -> (Nat.min 255 (len e) < size)%nat) ->
  (length q <= 2 * n)%nat -> run cap size len (repeat Report n) q out = Ok ([], out ++ seconds q).
Proof.
  intros cap size len. induction n as [|n IH]; intros q out N L H; cbn [repeat run].
  - destruct q; [|cbn in H; lia]. cbn. rewrite app_nil_r. reflexivity.
  - rewrite ssl_error_eq by assumption. cbn [bind]. destruct q as [|a [|b q]]; cbn [fst snd].
    + rewrite IH; [reflexivity|constructor|exact L|cbn; lia].
    + rewrite IH; [cbn [seconds]; rewrite <- app_assoc; reflexivity|constructor|intros e [<-|[]]; apply L; cbn; auto|cbn; lia].
    + inversion N as [|? ? _ N1]; subst; inversion N1; subst. rewrite IH; [cbn [seconds]; rewrite <- app_assoc; reflexivity|assumption| |cbn [length] in H; lia].
      intros e [<-|E]; apply L; cbn; auto.
Qed.

(* what the library keeps of the errors of calls *)
Definition kept (cap : nat) (es : list Z) : list Z := skipn (length es - cap) es.

Lemma push_kept : forall cap es q, (0 < cap)%nat -> (length q <= cap)%nat -> fold_left (push cap) es q = kept cap (q ++ es).
Proof.
  intros cap. induction es as [|e es IH]; intros q C H; cbn [fold_left].
  - rewrite app_nil_r. unfold kept. replace (length q - cap)%nat with 0%nat by lia. reflexivity.
  - unfold push at 2. destruct (Nat.ltb_spec (length q) cap).
    + rewrite IH by (rewrite ?app_length; cbn [length]; lia). rewrite <- app_assoc. reflexivity.
    + assert (E : length q = cap) by lia. destruct q as [|a q]; [cbn in E; lia|]. cbn [tl].
      rewrite IH by (rewrite ?app_length; cbn [length] in *; lia). rewrite <- app_assoc. cbn [app].
      unfold kept. cbn [length] in *. rewrite !app_length. cbn [length].
      replace (S (length q + S (length es)) - cap)%nat with (S (length q + S (length es) - cap))%nat by lia. reflexivity.
Qed.

Lemma kept_ok : forall (P : Z -> Prop) cap es, Forall P es -> Forall P (kept cap es) /\ (length (kept cap es) <= cap)%nat.
Proof.
  intros P cap es H. unfold kept. split; [|rewrite skipn_length; lia]. rewrite <- (firstn_skipn (length es - cap) es) in H. apply Forall_app in H as (_ & H). exact H.
Qed.

(* errors of calls, then reports until none is left *)
Lemma reported : forall cap size len es n, (0 < cap)%nat -> (255 < size)%nat -> Forall (fun e => e <> 0) es -> (length es <= 2 * n)%nat ->
  run cap size len (Fail es :: repeat Report n) [] [] = Ok ([], seconds (kept cap es)).
Proof.
  intros cap size len es n C S_ N H. cbn [run]. rewrite push_kept by (cbn; lia). cbn [app].
  destruct (kept_ok _ cap es N) as (K & _). rewrite reports; [reflexivity|exact K|intros; lia|unfold kept; rewrite skipn_length; lia].
Qed.

Lemma first_dropped : forall cap size len e es, (0 < cap)%nat -> (255 < size)%nat -> (length (e :: es) <= cap)%nat -> Forall (fun e => e <> 0) (e :: es) ->
  exists q, run cap size len [Fail (e :: es); Report] [] [] = Ok (q, [match es with [] => 0 | e2 :: _ => e2 end]) /\ (~ In e es -> ~ In e q).
Proof.
  intros cap size len e es C S_ L N. cbn [run]. rewrite push_kept by (cbn; lia). cbn [app]. unfold kept.
  replace (length (e :: es) - cap)%nat with 0%nat by lia. cbn [skipn]. rewrite ssl_error_eq; [|exact N|intros; lia].
  destruct es as [|b es]; cbn [bind run fst snd app]; eexists; (split; [reflexivity|]); [auto|]. intros H I_. apply H. right. exact I_.
Qed.

Lemma too_long : forall size len e1 e2 q, e1 <> 0 -> (size <= 255)%nat -> (size <= len e2)%nat -> ssl_error size len (e1 :: e2 :: q) = UB.
Proof.
  intros size len e1 e2 q N S_ L. unfold ssl_error. cbn [get_error]. destruct (Z.eqb_spec e1 0); [contradiction|]. destruct (Nat.ltb_spec (Nat.min 255 (len e2)) size); [lia|reflexivity].
Qed.

(* -- x509_str -- *)
Definition room (n : nat) : nat := ((n + 3) / 3 * 4)%nat.

Lemma room_more : forall n, (n < room n)%nat.
Proof. intros n. unfold room. pose proof (Nat.div_mod (n + 3) 3 ltac:(lia)). pose proof (Nat.mod_upper_bound (n + 3) 3 ltac:(lia)). lia. Qed.

(* the size of the block after writing pieces of these lengths *)
Fixpoint sizes (used_ size : nat) (ns : list nat) : nat :=
  match ns with [] => size | n :: r => sizes (used_ + n) (if Nat.leb (used_ + n) size then size else room (used_ + n)) r end.

Lemma written_inv : forall fill cs b text, firstn (inuse b) (block b) = text -> inuse b = length text -> (inuse b <= length (block b))%nat ->
  let b' := fold_left (write fill) cs b in
  exists slack, block b' = text ++ concat cs ++ slack /\ length (block b') = sizes (inuse b) (length (block b)) (map (@length Z) cs).
Proof.
  intros fill. induction cs as [|c cs IH]; intros b text T U L; cbn [fold_left concat map sizes app].
  - exists (skipn (inuse b) (block b)). rewrite <- T at 1. rewrite firstn_skipn. auto.
  - set (b1 := write fill b c).
    assert (B : exists slack, block b1 = (text ++ c) ++ slack /\ inuse b1 = (inuse b + length c)%nat /\
      length (block b1) = (if Nat.leb (inuse b + length c) (length (block b)) then length (block b) else room (inuse b + length c))).
    { unfold b1, write. destruct (Nat.leb_spec (inuse b + length c) (length (block b))); cbn [block inuse]; rewrite T; eexists; rewrite (app_assoc text c); (split; [reflexivity|]); (split; [reflexivity|]);
      rewrite !app_length; [rewrite skipn_length|rewrite map_length, seq_length; pose proof (room_more (inuse b + length c)); unfold room in *]; lia. }
    destruct B as (sl & B1 & B2 & B3).
    destruct (IH b1 (text ++ c)) as (slack & A1 & A2).
    + rewrite B1, B2, U, <- app_length, firstn_app, firstn_all, Nat.sub_diag. cbn. apply app_nil_r.
    + rewrite B2, U, app_length. reflexivity.
    + rewrite B2, B1, !app_length. lia.
    + exists slack. split; [rewrite A1, <- !app_assoc; reflexivity|]. rewrite A2, B2, B3. reflexivity.
Qed.

Lemma written_block : forall fill cs, exists slack, block (written fill cs) = concat cs ++ slack /\
  length (concat cs ++ slack) = sizes 0 0 (map (@length Z) cs).
Proof.
  intros fill cs. destruct (written_inv fill cs (mkBio [] 0 0) []) as (slack & A & B); [reflexivity|reflexivity|cbn; lia|]. exists slack.
  unfold written. rewrite A in *. auto.
Qed.

Lemma upto_app : forall t l, Forall (fun c => c <> 0) t -> upto_zero (t ++ l) = do x <- upto_zero l; Ok (t ++ x).
Proof.
  intros t l H. induction H as [|c t Hc Ht IH]; cbn [app upto_zero].
  - destruct (upto_zero l); reflexivity.
  - destruct (Z.eqb_spec c 0); [contradiction|]. rewrite IH. destruct (upto_zero l); reflexivity.
Qed.

Lemma upto_none : forall l, Forall (fun c => c <> 0) l -> upto_zero l = UB.
Proof. intros l H. rewrite <- (app_nil_r l), upto_app by exact H. reflexivity. Qed.

Definition text_of (details text : list (list Z)) : list Z := concat (details ++ text).

(* the text follows a zero byte that was there by chance *)
Lemma str_right : forall fill details text r, Forall (fun c => c <> 0) (text_of details text) ->
  block (written fill (details ++ text)) = text_of details text ++ 0 :: r ->
  x509_str fill true true true details text = Ok (Some (text_of details text)).
Proof.
  intros fill details text r N B. unfold x509_str. cbn [negb orb]. rewrite B, upto_app by exact N. cbn. rewrite app_nil_r. reflexivity.
Qed.

Lemma str_begins : forall fill details text s, Forall (fun c => c <> 0) (text_of details text) ->
  x509_str fill true true true details text = Ok (Some s) -> exists more, s = text_of details text ++ more.
Proof.
  intros fill details text s N E. unfold x509_str in E. cbn [negb orb] in E. destruct (written_block fill (details ++ text)) as (slack & B & _).
  rewrite B, upto_app in E by exact N. destruct (upto_zero slack) as [x| | |]; cbn in E; try discriminate. injection E as <-. exists x. reflexivity.
Qed.

Lemma str_null : forall fill cert bio_new pem details text, cert && bio_new && pem = false -> x509_str fill cert bio_new pem details text = Ok None.
Proof. intros fill [] [] [] details text H; try discriminate; reflexivity. Qed.

(* the block is used up to its last byte *)
Lemma str_full : forall fill details text, Forall (fun c => c <> 0) (text_of details text) ->
  sizes 0 0 (map (@length Z) (details ++ text)) = length (text_of details text) -> x509_str fill true true true details text = UB.
Proof.
  intros fill details text N S_. unfold x509_str. cbn [negb orb]. destruct (written_block fill (details ++ text)) as (slack & B & L). rewrite B.
  rewrite S_, app_length in L. unfold text_of in *. destruct slack; [|cbn in L; lia]. rewrite app_nil_r, upto_none by exact N. reflexivity.
Qed.

Lemma str_full_two : forall fill a b, Forall (fun c => c <> 0) (a ++ b) -> a <> [] -> length b = (room (length a) - length a)%nat ->
  x509_str fill true true true [] [a; b] = UB.
Proof.
  intros fill a b N A L. pose proof (room_more (length a)). apply str_full; unfold text_of; cbn [app concat map sizes Nat.add]; rewrite ?app_nil_r; [exact N|].
  destruct a as [|x a]; [contradiction|]. set (n := length (x :: a)) in *. assert (0 < n)%nat by (unfold n; cbn; lia).
  destruct (Nat.leb_spec n 0); [lia|]. rewrite L. destruct (Nat.leb_spec (n + (room n - n)) (room n)); [|lia]. rewrite app_length. unfold n in *. lia.
Qed.

(* other bytes behind the text become part of it *)
Lemma str_longer : forall fill details text x s, Forall (fun c => c <> 0) (text_of details text) ->
  (exists r, block (written fill (details ++ text)) = text_of details text ++ x :: r) -> x <> 0 ->
  x509_str fill true true true details text = Ok (Some s) -> s <> text_of details text.
Proof.
  intros fill details text x s N (r & B) X E. unfold x509_str in E. cbn [negb orb] in E. rewrite B, upto_app in E by exact N. cbn [upto_zero] in E.
  destruct (Z.eqb_spec x 0); [contradiction|]. destruct (upto_zero r) as [y| | |]; cbn in E; try discriminate. injection E as <-.
  intros H. apply (f_equal (@length Z)) in H. rewrite app_length in H. cbn in H. lia.
Qed.

Lemma fails_app cap size len a b l q out : run cap size len (Fail a :: Fail b :: l) q out = run cap size len (Fail (a ++ b) :: l) q out.
Proof. cbn [run]. rewrite fold_left_app. reflexivity. Qed.
