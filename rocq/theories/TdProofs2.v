(* Threads with arguments, where every $ is the array of the arguments; and what goes wrong *)
From Coq Require Import ZArith List Bool Arith Lia.
From Verif Require Import Base TdModel TdProofs.
Import ListNotations.

(* what is in the cells of the arguments while the function runs, and what reading them gives *)
Fixpoint sees (c : list Z) (l : list op) : option (list Z) :=
  match l with
  | [] => Some []
  | Arg i :: r => match nth_error c i, sees c r with Some z, Some zs => Some (z :: zs) | _, _ => None end
  | Data xs :: r => sees (xs ++ skipn (length xs) c) r
  | _ :: r => sees c r
  end.
(* what the last $ was given *)
Fixpoint latest (cur : list Z) (l : list op) : list Z :=
  match l with [] => cur | Data xs :: r => latest xs r | _ :: r => latest cur r end.
Definition shared (args : list Z) (l : list op) (r : ret) : got :=
  match r with
  | RInt z => if (z =? 0)%Z then Kept else Word z
  | RArgs => Tuple (latest args l)
  | RVar v => match nth_error (makers l) v with
              | Some (Data _) => Tuple (latest args l)
              | Some (New xs) => Tuple xs
              | _ => Kept
              end
  end.
Definition news (l : list op) : nat := length (filter (fun o => match o with New _ => true | _ => false end) l).

Section Args.
Variables (cap : nat) (moves : bool).

Definition one_of (h : list arr) (a : nat) (o : op) (w : word) : Prop :=
  match o with
  | Data _ => w = Arr a
  | New xs => exists i, w = Arr i /\ i <> a /\ nth_error h i = Some (mkA true (length xs) xs)
  | _ => False
  end.

Lemma one_of_mono h h' a o w : (forall j x, j <> a -> nth_error h j = Some x -> nth_error h' j = Some x) -> one_of h a o w -> one_of h' a o w.
Proof. intros K. destruct o; cbn; auto. intros (i & E & N & H). exists i. auto. Qed.

Lemma body_args base a : forall l env s zs n c, local s = Some a -> fits cap l -> base + length (pend s) + length (defers l) <= S cap ->
  nth_error (heap s) a = Some (mkA true n c) -> sees c l = Some zs ->
  exists ws s', body cap moves base (Arr a) l env s = Ok (env ++ ws, s') /\ Forall2 (one_of (heap s') a) (makers l) ws /\
    (exists n' c', nth_error (heap s') a = Some (mkA true n' c') /\ firstn n' c' = latest (firstn n c) l) /\
    pend s' = rev (defers l) ++ pend s /\ seen s' = seen s ++ zs /\ ran s' = ran s /\
    (forall j x, j <> a -> nth_error (heap s) j = Some x -> nth_error (heap s') j = Some x) /\ live (heap s') = live (heap s) + news l.
Proof.
  induction l as [|o l IH]; intros env s zs n c L F D A R.
  - injection R as <-. exists [], s. cbn [body defers makers rev app filter latest]. rewrite !app_nil_r. unfold news. cbn.
    do 2 (split; [auto|]). split; [exists n, c; auto|]. do 4 (split; [auto|]). lia.
  - inversion F as [|? ? F1 F2]; subst. destruct o as [xs|xs|i|f].
    + cbn [body]. unfold thrd_data at 1. rewrite L, (rd_ok _ _ _ A). cbn [bind alive cells].
      rewrite (fill_ok _ _ _ F1). cbn [bind]. rewrite (wr_ok _ _ _ (nth_lt _ _ _ A)). cbn [bind fst snd].
      set (c1 := xs ++ skipn (length xs) c). set (s1 := mkS (set_nth a (mkA true (length xs) c1) (heap s)) true (Some a) (pend s) (seen s) (ran s)).
      assert (A1 : nth_error (heap s1) a = Some (mkA true (length xs) c1)) by (apply set_nth_same, (nth_lt _ _ _ A)).
      destruct (IH (env ++ [Arr a]) s1 zs (length xs) c1 eq_refl F2 D A1 R) as (ws & s' & B & W & H1 & H2 & H3 & H4 & H6 & H7).
      exists (Arr a :: ws), s'. rewrite B, <- app_assoc. split; [reflexivity|]. split; [cbn [makers filter]; constructor; [reflexivity|exact W]|].
      split; [|split; [exact H2|split; [exact H3|split; [exact H4|]]]].
      * destruct H1 as (n' & c' & N & E). exists n', c'. split; [exact N|]. cbn [latest]. rewrite E. f_equal. unfold c1.
        rewrite firstn_app, Nat.sub_diag, firstn_all, firstn_O, app_nil_r. reflexivity.
      * split.
        -- intros j x Nj N. apply H6; [exact Nj|]. unfold s1. cbn [heap]. rewrite set_nth_other; auto.
        -- rewrite H7. unfold s1. cbn [heap]. rewrite (live_same _ _ _ _ A); reflexivity.
    + cbn [body arrays alloc].
      set (s1 := mkS (heap s ++ [mkA true (length xs) xs]) (scope s) (local s) (pend s) (seen s) (ran s)).
      assert (A1 : nth_error (heap s1) a = Some (mkA true n c)) by (apply nth_keep, A).
      destruct (IH (env ++ [Arr (length (heap s))]) s1 zs n c L F2 D A1 R) as (ws & s' & B & W & H1 & H2 & H3 & H4 & H6 & H7).
      exists (Arr (length (heap s)) :: ws), s'. rewrite B, <- app_assoc. split; [reflexivity|].
      pose proof (nth_lt _ _ _ A) as La.
      split; [cbn [makers filter]; constructor; [|exact W]|].
      { cbn. exists (length (heap s)). split; [reflexivity|]. split; [lia|]. apply H6; [lia|]. apply nth_last. }
      split; [exact H1|]. split; [exact H2|]. split; [exact H3|]. split; [exact H4|]. split.
      * intros j x Nj N. apply H6; [exact Nj|]. apply nth_keep, N.
      * rewrite H7. unfold s1. cbn [heap]. rewrite live_app. unfold news. cbn. lia.
    + cbn [sees] in R. destruct (nth_error c i) as [z|] eqn:N; [|discriminate]. destruct (sees c l) as [zt|] eqn:Rt; [|discriminate].
      injection R as <-. cbn [body]. unfold read at 1. rewrite (rd_ok _ _ _ A). cbn [bind alive cells]. rewrite (rd_ok _ _ _ N). cbn [bind].
      set (s1 := mkS (heap s) (scope s) (local s) (pend s) (seen s ++ [z]) (ran s)).
      destruct (IH env s1 zt n c L F2 D A Rt) as (ws & s' & B & W & H1 & H2 & H3 & H4 & H6 & H7).
      exists ws, s'. split; [exact B|]. split; [exact W|]. split; [exact H1|]. split; [exact H2|].
      split; [rewrite H3; unfold s1; cbn [seen]; rewrite <- app_assoc; reflexivity|]. split; [exact H4|]. split; [exact H6|]. exact H7.
    + cbn [body defers length] in *. unfold defer at 1. rewrite stale_no by lia. cbn [bind].
      set (s1 := mkS (heap s) true (local s) (f :: pend s) (seen s) (ran s)).
      destruct (IH env s1 zs n c L F2) as (ws & s' & B & W & H1 & H2 & H3 & H4 & H6 & H7); [unfold s1; cbn [pend length]; lia|exact A|exact R|].
      exists ws, s'. split; [exact B|]. split; [exact W|]. split; [exact H1|].
      split; [rewrite H2; unfold s1; cbn [pend rev]; rewrite <- app_assoc; reflexivity|].
      split; [exact H3|]. split; [exact H4|]. split; [exact H6|]. exact H7.
Qed.

(* exactly what a thread with arguments does *)
Lemma thread_args h args l r zs : args <> [] -> length args <= cap -> fits cap l -> S (length (defers l)) <= cap -> sees args l = Some zs ->
  exists s', thread cap moves h args l r = Ok (shared args l r, s') /\ seen s' = zs /\ ran s' = rev (defers l) /\
    live (heap s') = live h + news l /\ (forall i, i < length h -> nth_error (heap s') i = nth_error h i).
Proof.
  intros Na La F D R. unfold thread, data_ex. destruct args as [|z args]; [congruence|]. rewrite (fill_ok _ _ _ La). cbn [bind alloc].
  set (c := z :: args) in *. set (A := mkA true (length c) c). set (a := length h).
  set (s0 := mkS (h ++ [A]) true (Some a) [] [] []).
  destruct (body_args 1 a l [] s0 zs (length c) c eq_refl F) as (ws & s1 & B & W & (n' & c' & Ha & E) & H2 & H3 & H4 & H6 & H7).
  { unfold s0. cbn [pend length]. lia. }
  { apply nth_last. }
  { exact R. }
  rewrite firstn_all in E. rewrite B. cbn [bind app].
  assert (G : promise_set s1 (value (Arr a) ws r) = Ok (shared c l r)).
  { destruct r as [y|v|]; cbn [value shared].
    - reflexivity.
    - assert (X : match nth_error (makers l) v with
                  | Some o => exists w, nth v ws (Int 0) = w /\ one_of (heap s1) a o w
                  | None => nth v ws (Int 0) = Int 0 end).
      { clear -W. revert v. induction W as [|o w l0 ws0 H _ IH]; intros [|v]; cbn [nth nth_error]; [reflexivity|reflexivity|exists w; split; [reflexivity|exact H]|apply IH]. }
      destruct (nth_error (makers l) v) as [[xs|xs|i|f]|].
      + destruct X as (w & -> & ->). rewrite (set_ok _ _ _ Ha eq_refl). cbn [size cells]. rewrite E. reflexivity.
      + destruct X as (w & -> & (i & -> & _ & Ni)). rewrite (set_ok _ _ _ Ni eq_refl). cbn [size cells]. rewrite firstn_all. reflexivity.
      + destruct X as (w & _ & []).
      + destruct X as (w & _ & []).
      + rewrite X. reflexivity.
    - rewrite (set_ok _ _ _ Ha eq_refl). cbn [size cells]. rewrite E. reflexivity. }
  rewrite G. cbn [bind]. rewrite stale_no by (rewrite H2; unfold s0; cbn [pend]; rewrite app_nil_r, rev_length; lia).
  rewrite (delete_ok _ _ _ Ha eq_refl). cbn [bind]. eexists. split; [reflexivity|]. cbn [seen ran heap pend].
  split; [rewrite H3; reflexivity|]. split; [rewrite H4, H2; unfold s0; cbn [ran pend app]; apply app_nil_r|]. split.
  - pose proof (live_kill _ a _ (mkA false n' c') Ha eq_refl eq_refl) as K. cbn [size cells]. rewrite H7 in K. unfold s0 in K. cbn [heap] in K.
    rewrite live_app in K. cbn in K. cbn. lia.
  - intros i Hi. rewrite set_nth_other by (unfold a; lia). destruct (nth_error h i) as [x|] eqn:N.
    + apply H6; [unfold a; lia|]. unfold s0. cbn [heap]. apply nth_keep, N.
    + apply nth_error_None in N. lia.
Qed.

(* one $ at most: its caller gets what it was given *)
Lemma latest_one : forall l cur, (forall o, In o l -> match o with Data _ => False | _ => True end) -> latest cur l = cur.
Proof.
  induction l as [|o l IH]; intros cur H; [reflexivity|]. pose proof (H o (or_introl eq_refl)) as Ho.
  destruct o; cbn [latest]; try contradiction; apply IH; intros q Q; apply H; right; exact Q.
Qed.
Lemma latest_app : forall a b cur, latest cur (a ++ b) = latest (latest cur a) b.
Proof. induction a as [|o a IH]; intros b cur; [reflexivity|]. destruct o; cbn [app latest]; apply IH. Qed.

Lemma thread_one h args pre xs post zs : args <> [] -> length args <= cap -> let l := pre ++ Data xs :: post in
  (forall o, In o (pre ++ post) -> match o with Data _ => False | _ => True end) ->
  fits cap l -> S (length (defers l)) <= cap -> sees args l = Some zs ->
  exists s', thread cap moves h args l (RVar (length (makers pre))) = Ok (Tuple xs, s').
Proof.
  intros Na La l N F D R. destruct (thread_args h args l (RVar (length (makers pre))) zs Na La F D R) as (s' & E & _). exists s'. rewrite E.
  cbn [shared]. unfold l. unfold makers. rewrite filter_app, nth_error_app2, Nat.sub_diag by lia. cbn [filter nth_error].
  rewrite latest_app. cbn [latest]. rewrite latest_one; [reflexivity|]. intros o Io. apply N. apply in_or_app. right. exact Io.
Qed.

(* the arguments are read as they were given while no $ was called *)
Lemma sees_reads : forall l c, (forall o, In o l -> match o with Data _ => False | _ => True end) -> sees c l = reads c l.
Proof.
  induction l as [|o l IH]; intros c H; [reflexivity|]. pose proof (H o (or_introl eq_refl)) as Ho.
  assert (H' : forall o, In o l -> match o with Data _ => False | _ => True end) by (intros q Q; apply H; right; exact Q).
  destruct o; cbn [sees reads]; try contradiction; rewrite IH by exact H'; reflexivity.
Qed.

(* ---- what goes wrong ---- *)
Lemma two h args xs ys : args <> [] -> length args <= cap -> length xs <= cap -> length ys <= cap -> xs <> ys -> xs <> [] ->
  exists s', thread cap moves h args [Data xs; Data ys] (RVar 0) = Ok (Tuple ys, s') /\ due [Data xs; Data ys] (RVar 0) = Tuple xs /\ Tuple xs <> Tuple ys.
Proof.
  intros Na La Lx Ly N Nx. assert (F : fits cap [Data xs; Data ys]) by (repeat constructor; assumption).
  assert (C : 1 <= cap) by (destruct args; [congruence|cbn in La; lia]).
  destruct (thread_args h args [Data xs; Data ys] (RVar 0) [] Na La F C eq_refl) as (s' & E & _). exists s'. split; [exact E|].
  split; [cbn; destruct xs; [congruence|reflexivity]|congruence].
Qed.
Lemma overwritten h z rest x : S (length rest) <= cap ->
  exists s', thread cap moves h (z :: rest) [Data [x]; Arg 0] (RInt 0) = Ok (Kept, s') /\ seen s' = [x] /\ reads (z :: rest) [Data [x]; Arg 0] = Some [z].
Proof.
  intros La. assert (F : fits cap [Data [x]; Arg 0]) by (repeat constructor; cbn; lia).
  destruct (thread_args h (z :: rest) [Data [x]; Arg 0] (RInt 0) [x] ltac:(discriminate) La F ltac:(cbn; lia) eq_refl) as (s' & E & Se & _).
  exists s'. split; [exact E|]. split; [exact Se|reflexivity].
Qed.
End Args.

(* more values than a new array has room for, and growing moves the array *)
Lemma many cap s args xs : args <> [] -> length args <= cap -> length xs = S cap -> local s = None ->
  job cap true s args [Data xs] (RVar 0) = UB /\ (forall h, thread cap true h args [Data xs] (RVar 0) = UB).
Proof.
  intros Na La Lx L.
  assert (Fx : fill cap true (length xs) = Ok false).
  { unfold fill. rewrite Lx. replace (S cap <=? cap) with false by (symmetry; apply Nat.leb_gt; lia). rewrite Nat.eqb_refl. reflexivity. }
  destruct args as [|z args]; [congruence|]. split.
  - unfold job, data_ex at 1. rewrite (fill_ok _ _ _ La). cbn [bind alloc body]. unfold thrd_data at 1. cbn [local heap]. rewrite L.
    unfold data_ex. destruct xs as [|x xs]; [discriminate|]. rewrite Fx. cbn [bind alloc fst snd value nth app].
    unfold promise_set. cbn [heap]. rewrite (rd_ok _ _ _ (nth_last _ _)). reflexivity.
  - intros h. unfold thread, data_ex at 1. rewrite (fill_ok _ _ _ La). cbn [bind alloc body]. unfold thrd_data at 1. cbn [local heap].
    rewrite (rd_ok _ _ _ (nth_last _ _)). cbn [bind alive]. rewrite Fx. cbn [bind].
    rewrite wr_ok by (rewrite app_length; cbn; lia). cbn [bind fst snd value nth app]. unfold promise_set. cbn [heap].
    erewrite rd_ok by (apply set_nth_same; rewrite app_length; cbn; lia). reflexivity.
Qed.

(* functions deferred by jobs of the pool pile up *)
Lemma pile cap f : forall n env s w, S cap = length (pend s) + n -> body cap true 0 w (repeat (Defer f) (S n)) env s = UB.
Proof.
  induction n as [|n IH]; intros env s w D.
  - cbn [repeat body]. unfold defer at 1. replace (stale cap true (0 + length (pend s))) with true; [reflexivity|].
    unfold stale. cbn [andb]. symmetry. apply Nat.ltb_lt. lia.
  - change (repeat (Defer f) (S (S n))) with (Defer f :: repeat (Defer f) (S n)). cbn [body]. unfold defer at 1. rewrite stale_no by lia. cbn [bind].
    apply IH. cbn [pend length]. lia.
Qed.
Lemma piled cap f args r : args <> [] -> length args <= cap -> job cap true fresh args (repeat (Defer f) (S (S cap))) r = UB.
Proof.
  intros Na La. unfold job, data_ex. destruct args as [|z args]; [congruence|]. rewrite (fill_ok _ _ _ La). cbn [bind alloc].
  rewrite pile; [reflexivity|]. reflexivity.
Qed.
