From Verif Require Import Base TlModel.

(* -- what a program that deletes no key asked for, from its operations alone -- *)
(* keys made with a destructor, oldest first *)
Fixpoint made (l : list op) : list (nat * nat) :=
  match l with
  | [] => []
  | Create (Some k) (Some d) :: r => (k, d) :: made r
  | _ :: r => made r
  end.
(* the value last stored, or null *)
Fixpoint last_set (t k : nat) (l : list op) (v : nat) : nat :=
  match l with
  | [] => v
  | Set_ u j w :: r => last_set t k r (if (t =? u) && (k =? j) then w else v)
  | _ :: r => last_set t k r v
  end.
(* destructors to be called when thread t ends *)
Definition due (t : nat) (m : list (nat * nat)) (l : list op) : list (nat * nat * nat) :=
  map (fun p => (t, snd p, last_set t (fst p) l 0)) (filter (fun p => negb (last_set t (fst p) l 0 =? 0)) m).

(* the system's and the program's part: TlsAlloc gives a number not in use; no key is deleted; values are stored under
   keys that exist *)
Fixpoint fair (keys : list nat) (l : list op) : Prop :=
  match l with
  | [] => True
  | Create (Some k) _ :: r => ~ In k keys /\ fair (k :: keys) r
  | Create None _ :: r => fair keys r
  | Delete _ :: _ => False
  | Set_ _ k _ :: r => In k keys /\ fair keys r
  | End _ :: r => fair keys r
  end.

Definition asks (o : op) : nat := match o with Create _ (Some _) => 1 | _ => 0 end.
Fixpoint asked (l : list op) : nat := match l with [] => 0 | o :: r => asks o + asked r end.

Definition called (t : nat) (f : nat -> nat) (l : list (option nat * nat)) : list (nat * nat * nat) :=
  flat_map (fun p => match fst p with Some k => if f k =? 0 then [] else [(t, snd p, f k)] | None => [] end) l.

Lemma invoke_eq : forall t l s, invoke t l s = mkTls (owned s) (table s) (vals s) (calls s ++ called t (vals s t) l).
Proof.
  intros t. induction l as [|[[k|] d] l IH]; intros s; cbn [invoke called flat_map fst snd].
  - rewrite app_nil_r. destruct s; reflexivity.
  - destruct (vals s t k =? 0) eqn:E; rewrite IH; [reflexivity|]. cbn [owned table vals calls]. rewrite <- app_assoc. cbn. reflexivity.
  - rewrite IH. reflexivity.
Qed.

(* the table is what was asked for; values are those stored *)
Lemma run_inv : forall slots l s, fair (owned s) l -> (forall t k, ~ In k (owned s) -> vals s t k = 0) -> length (table s) + asked l <= slots ->
  let s' := run slots l s in
  (forall t k, vals s' t k = last_set t k l (vals s t k)) /\
  flat_map (fun p : option nat * nat => match fst p with Some k => [(k, snd p)] | None => [] end) (table s') =
    flat_map (fun p : option nat * nat => match fst p with Some k => [(k, snd p)] | None => [] end) (table s) ++ made l /\
  length (table s') = length (table s) + asked l.
Proof.
  intros slots. induction l as [|o l IH]; intros s Hf Hz Hn; cbn [run asked made] in *.
  { split; [reflexivity|]. split; [rewrite app_nil_r; reflexivity|lia]. }
  destruct o as [g d|k|t k v|t]; cbn [fair asks do_op] in *; [|contradiction| |].
  - destruct g as [k|].
    + destruct Hf as (Hk & Hf).
      assert (Z : forall t j, zero (vals s) k t j = vals s t j).
      { intros t j. unfold zero. destruct (Nat.eqb_spec j k) as [->|]; [symmetry; apply Hz; exact Hk|reflexivity]. }
      destruct d as [d|]; unfold create; cbn [length].
      * cbn [table]. destruct (Nat.eqb_spec (length (table s)) slots) as [E|E]; [cbn in Hn; lia|]. cbn [snd].
        destruct (IH (mkTls (k :: owned s) (table s ++ [(Some k, d)]) (zero (vals s) k) (calls s)) Hf) as (A & B & C).
        { cbn [owned vals]. intros t j Hj. rewrite Z. apply Hz. intros H. apply Hj. right. exact H. }
        { cbn [table]. rewrite app_length. cbn [length]. lia. }
        cbn [owned table vals calls] in *. split; [|split].
        -- intros t j. rewrite A, Z. reflexivity.
        -- rewrite B, flat_map_app. cbn [flat_map fst snd]. rewrite app_nil_r, <- app_assoc. reflexivity.
        -- rewrite C, app_length. cbn. lia.
      * cbn [snd]. destruct (IH (mkTls (k :: owned s) (table s) (zero (vals s) k) (calls s)) Hf) as (A & B & C).
        { cbn [owned vals]. intros t j Hj. rewrite Z. apply Hz. intros H. apply Hj. right. exact H. }
        { cbn [table]. lia. }
        cbn [owned table vals calls last_set] in *. split; [|split; [exact B|exact C]]. intros t j. rewrite A, Z. reflexivity.
    + destruct d as [d|]; unfold create; cbn [snd].
      * destruct (Nat.eqb_spec (length (table s)) slots) as [E|E]; [cbn in Hn; lia|]. cbn [snd].
        destruct (IH (mkTls (owned s) (table s ++ [(None, d)]) (vals s) (calls s)) Hf Hz) as (A & B & C).
        { cbn [table]. rewrite app_length. cbn [length]. lia. }
        cbn [owned table vals calls last_set] in *. split; [exact A|]. split; [|rewrite C, app_length; cbn; lia].
        rewrite B, flat_map_app. cbn [flat_map fst]. rewrite app_nil_r. reflexivity.
      * destruct (IH s Hf Hz ltac:(lia)) as (A & B & C). split; [exact A|]. split; [exact B|lia].
  - destruct Hf as (Hk & Hf). destruct (IH (set t k v s) Hf) as (A & B & C).
    { cbn [set owned vals]. intros u j Hj. unfold store. destruct (Nat.eqb_spec j k) as [->|]; [contradiction|]. rewrite andb_false_r. apply Hz. exact Hj. }
    { cbn [set table]. lia. }
    cbn [set owned table vals calls last_set] in *. split; [|split; [exact B|exact C]]. intros u j. rewrite A. reflexivity.
  - unfold thread_end. rewrite invoke_eq. destruct (IH (mkTls (owned s) (table s) (vals s) (calls s ++ called t (vals s t) (table s))) Hf Hz) as (A & B & C); [cbn [table]; lia|].
    cbn [owned table vals calls last_set] in *. auto.
Qed.

Lemma called_made : forall t f l, called t f l =
  map (fun p => (t, snd p, f (fst p))) (filter (fun p => negb (f (fst p) =? 0))
    (flat_map (fun p : option nat * nat => match fst p with Some k => [(k, snd p)] | None => [] end) l)).
Proof.
  intros t f. induction l as [|[[k|] d] l IH]; [reflexivity| |exact IH]. cbn [called flat_map fst snd app filter]. unfold called in IH. rewrite IH.
  destruct (f k =? 0); reflexivity.
Qed.

Lemma end_calls : forall slots l t, fair [] l -> asked l <= slots ->
  calls (run slots (l ++ [End t]) init) = calls (run slots l init) ++ due t (made l) l.
Proof.
  intros slots l t Hf Hn.
  assert (R : forall a b s, run slots (a ++ b) s = run slots b (run slots a s)) by (induction a; cbn; auto).
  rewrite R. cbn [run do_op]. unfold thread_end. rewrite invoke_eq. cbn [calls]. f_equal. rewrite called_made.
  destruct (run_inv slots l init Hf ltac:(reflexivity) ltac:(exact Hn)) as (A & B & _). cbn [table init flat_map app vals] in *. rewrite B.
  unfold due. rewrite (filter_ext _ (fun p => negb (last_set t (fst p) l 0 =? 0))) by (intros p; rewrite A; reflexivity).
  apply map_ext. intros p. rewrite A. reflexivity.
Qed.

(* destructors are called when threads end and at no other time *)
Lemma only_ends : forall slots o s, (forall t, o <> End t) -> calls (do_op slots o s) = calls s.
Proof.
  intros slots [g d|k|t k v|t] s H; try reflexivity.
  - cbn. unfold create. destruct g, d; cbn; try reflexivity; destruct (_ =? slots); reflexivity.
  - exfalso. exact (H t eq_refl).
Qed.

(* a creation succeeds exactly if the system gave a key and, with a destructor, a slot is left *)
Lemma create_result : forall slots l g d, fair [] l -> asked l <= slots ->
  fst (create slots g d (run slots l init)) = (match g with Some _ => true | None => false end) && (match d with Some _ => asked l <? slots | None => true end).
Proof.
  intros slots l g d Hf Hn. destruct (run_inv slots l init Hf ltac:(reflexivity) ltac:(exact Hn)) as (_ & _ & C). cbn [init table length Nat.add] in C.
  unfold create. destruct g as [k|], d as [d|]; cbn [fst table andb]; try reflexivity; rewrite C;
  destruct (Nat.eqb_spec (asked l) slots), (Nat.ltb_spec (asked l) slots); try lia; reflexivity.
Qed.

(* -- deleting -- *)
Fixpoint cycles (n k d : nat) : list op := match n with 0 => [] | S m => Create (Some k) (Some d) :: Delete k :: cycles m k d end.

Lemma cycles_table : forall slots n k d s, length (table s) + n <= slots -> owned s = [] -> (forall t j, vals s t j = 0) ->
  let s' := run slots (cycles n k d) s in table s' = table s ++ repeat (Some k, d) n /\ owned s' = [] /\ (forall t j, vals s' t j = 0) /\ calls s' = calls s.
Proof.
  intros slots. induction n as [|n IH]; intros k d s Hn Ho Hz; cbn [cycles run].
  - cbn. rewrite app_nil_r. auto.
  - cbn [do_op]. unfold create. cbn [table]. destruct (Nat.eqb_spec (length (table s)) slots) as [E|E]; [lia|]. cbn [snd owned vals calls].
    unfold delete, tls_free. cbn [owned table vals calls filter]. rewrite Nat.eqb_refl. cbn [negb]. rewrite Ho. cbn [filter].
    match goal with |- context [run slots _ ?z] => set (z1 := z) end.
    destruct (IH k d z1) as (A & B & C & D).
    { unfold z1. cbn [table]. rewrite app_length. cbn. lia. }
    { reflexivity. }
    { intros t j. unfold z1, zero. cbn [vals]. destruct (j =? k); [reflexivity|apply Hz]. }
    split; [|auto]. rewrite A. unfold z1. cbn [table]. rewrite <- app_assoc. reflexivity.
Qed.

Lemma called_repeat : forall t f k d n, f k <> 0 -> called t f (repeat (Some k, d) n) = repeat (t, d, f k) n.
Proof.
  intros t f k d n H. induction n as [|n IH]; [reflexivity|]. cbn [repeat called flat_map fst snd]. unfold called in IH. rewrite IH.
  destruct (Nat.eqb_spec (f k) 0); [contradiction|reflexivity].
Qed.

(* a key made again under the same number: the destructor is called once for each time it was made *)
Lemma called_again : forall slots n k d t v, n < slots -> v <> 0 ->
  calls (run slots (cycles n k d ++ [Create (Some k) (Some d); Set_ t k v; End t]) init) = repeat (t, d, v) (S n).
Proof.
  intros slots n k d t v Hn Hv.
  assert (R : forall a b s, run slots (a ++ b) s = run slots b (run slots a s)) by (induction a; cbn; auto).
  rewrite R. destruct (cycles_table slots n k d init) as (A & B & C & D); [cbn; lia|reflexivity|reflexivity|].
  set (s := run slots (cycles n k d) init) in *. cbn [run do_op]. unfold create. cbn [table]. rewrite A at 1. cbn [init table app]. rewrite repeat_length.
  destruct (Nat.eqb_spec n slots); [lia|]. cbn [snd]. unfold thread_end. rewrite invoke_eq. unfold set. cbn [owned table vals calls].
  rewrite D, A. cbn [init table calls app]. rewrite <- repeat_cons.
  change ((Some k, d) :: repeat (Some k, d) n) with (repeat (Some k, d) (S n)). rewrite called_repeat.
  - unfold store. rewrite !Nat.eqb_refl. reflexivity.
  - unfold store. rewrite !Nat.eqb_refl. exact Hv.
Qed.

(* a key of the same number made for something else: the old destructor gets the new value *)
Lemma wrong_destructor : forall slots k d e t v, 2 <= slots -> v <> 0 ->
  calls (run slots [Create (Some k) (Some d); Delete k; Create (Some k) (Some e); Set_ t k v; End t] init) = [(t, d, v); (t, e, v)].
Proof.
  intros slots k d e t v Hs Hv. cbn [run do_op]. unfold create at 2. cbn [init table length]. destruct (Nat.eqb_spec 0 slots); [lia|]. cbn [snd app].
  unfold create. cbn [delete tls_free table owned vals calls length]. destruct (Nat.eqb_spec 1 slots); [lia|]. cbn [snd app].
  unfold thread_end. rewrite invoke_eq. cbn [set table vals calls owned called flat_map fst snd app]. unfold store. rewrite !Nat.eqb_refl. cbn [andb].
  destruct (Nat.eqb_spec v 0); [contradiction|]. reflexivity.
Qed.

(* as many keys as there are slots, each deleted again: no key with a destructor can be made any more *)
Lemma used_up : forall slots k d g e, fst (create slots g (Some e) (run slots (cycles slots k d) init)) = false /\
  owned (run slots (cycles slots k d) init) = [].
Proof.
  intros slots k d g e. destruct (cycles_table slots slots k d init) as (A & B & _); [cbn; lia|reflexivity|reflexivity|]. split; [|exact B].
  unfold create. destruct g; cbn [table]; rewrite A; cbn [init table app]; rewrite repeat_length, Nat.eqb_refl; reflexivity.
Qed.

(* failures of the system use slots up as well *)
Lemma failures_use_slots : forall slots d k e, fst (create slots (Some k) (Some e) (run slots (repeat (Create None (Some d)) slots) init)) = false.
Proof.
  intros slots d k e.
  assert (H : forall n s, length (table s) + n <= slots -> length (table (run slots (repeat (Create None (Some d)) n) s)) = length (table s) + n).
  { induction n as [|n IH]; intros s Hn; cbn [repeat run]; [lia|]. cbn [do_op]. unfold create. destruct (Nat.eqb_spec (length (table s)) slots); [lia|]. cbn [snd].
    rewrite IH; cbn [table]; rewrite app_length; cbn [length]; lia. }
  unfold create. cbn [table]. rewrite (H slots init) by (cbn; lia). cbn [init table length Nat.add]. rewrite Nat.eqb_refl. reflexivity.
Qed.

(* -- the allocator's key -- *)
(* a program that owns key 0 and keeps a value there: the allocator takes it for the thread's heap *)
Lemma value_taken_for_heap : forall t v h s, v <> 0 -> fst (thread_heap t h (set t 0 v s)) = v.
Proof.
  intros t v h s Hv. unfold thread_heap, get, set, store. cbn [vals]. rewrite !Nat.eqb_refl. cbn [andb]. destruct (Nat.eqb_spec v 0); [contradiction|reflexivity].
Qed.
(* and if the program keeps none there, it finds the allocator's heap *)
Lemma heap_taken_for_value : forall slots t h d, h <> 0 ->
  get t 0 (snd (thread_heap t h (snd (create slots (Some 0) d init)))) = h.
Proof.
  intros slots t h d Hh. unfold thread_heap.
  assert (Z : get t 0 (snd (create slots (Some 0) d init)) = 0).
  { unfold get, create. destruct d; cbn [table init length]; [destruct (0 =? slots)|]; reflexivity. }
  rewrite Z. cbn [Nat.eqb snd]. unfold get, set, store. cbn [vals]. rewrite !Nat.eqb_refl. reflexivity.
Qed.

(* -- any program: what a key reads, and which keys the program holds, from its operations alone -- *)
(* the value stored since the key was last made or deleted, or null *)
Fixpoint reads (t k : nat) (l : list op) (v : nat) : nat :=
  match l with
  | [] => v
  | Create (Some j) _ :: r => reads t k r (if k =? j then 0 else v)
  | Delete j :: r => reads t k r (if k =? j then 0 else v)
  | Set_ u j w :: r => reads t k r (if (t =? u) && (k =? j) then w else v)
  | _ :: r => reads t k r v
  end.
(* the key was given by the system and kept, and not deleted since; free: slots left *)
Fixpoint holds (free k : nat) (l : list op) (h : bool) : bool :=
  match l with
  | [] => h
  | Create g d :: r =>
    let kept := match d with Some _ => 0 <? free | None => true end in
    holds (match d with Some _ => pred free | None => free end) k r (match g with Some j => if k =? j then kept else h | None => h end)
  | Delete j :: r => holds free k r (if k =? j then false else h)
  | _ :: r => holds free k r h
  end.

Lemma run_reads : forall slots l t k s, get t k (run slots l s) = reads t k l (get t k s).
Proof.
  intros slots. induction l as [|o l IH]; intros t k s; cbn [run reads]; [reflexivity|]. rewrite IH. destruct o as [[j|] d|j|u j w|u]; cbn [do_op]; f_equal.
  - unfold create, get. destruct d as [d|]; [destruct (_ =? slots)|]; cbn [snd vals tls_free]; unfold zero; destruct (k =? j); reflexivity.
  - unfold create, get. destruct d as [d|]; [destruct (_ =? slots)|]; reflexivity.
  - unfold get, thread_end. rewrite invoke_eq. reflexivity.
Qed.

Lemma in_filter_neq : forall k j l, In k (filter (fun i => negb (i =? j)) l) <-> In k l /\ k <> j.
Proof. intros k j l. rewrite filter_In. destruct (Nat.eqb_spec k j); cbn; intuition congruence. Qed.

Lemma run_holds : forall slots l k h s, length (table s) <= slots -> (In k (owned s) <-> h = true) ->
  (In k (owned (run slots l s)) <-> holds (slots - length (table s)) k l h = true).
Proof.
  intros slots. induction l as [|o l IH]; intros k h s Hn Hk; cbn [run holds]; [exact Hk|].
  destruct o as [g d|j|u j w|u]; cbn [do_op].
  - destruct d as [d|]; unfold create.
    + replace (table match g with Some k0 => mkTls (k0 :: owned s) (table s) (zero (vals s) k0) (calls s) | None => s end) with (table s) by (destruct g; reflexivity).
      destruct (Nat.eqb_spec (length (table s)) slots) as [E|E]; cbn [snd].
      * replace (slots - length (table s)) with 0 by lia. cbn [Nat.ltb Nat.leb pred].
        destruct g as [j|]; [|rewrite (IH k h s Hn Hk); replace (slots - length (table s)) with 0 by lia; reflexivity].
        rewrite (IH k (if k =? j then false else h)); [cbn [tls_free table]; replace (slots - length (table s)) with 0 by lia; reflexivity|exact Hn|].
        cbn [tls_free owned]. rewrite in_filter_neq. cbn [In]. destruct (Nat.eqb_spec k j); intuition congruence.
      * destruct (Nat.ltb_spec 0 (slots - length (table s))); [|lia].
        rewrite (IH k (match g with Some j => if k =? j then true else h | None => h end)).
        -- cbn [table]. rewrite app_length. cbn [length]. replace (slots - (length (table s) + 1)) with (pred (slots - length (table s))) by lia. reflexivity.
        -- cbn [table]. rewrite app_length. cbn [length]. lia.
        -- cbn [owned]. destruct g as [j|]; [|exact Hk]. cbn [owned In]. destruct (Nat.eqb_spec k j); intuition congruence.
    + cbn [snd]. destruct g as [j|]; [|apply IH; assumption].
      apply (IH k (if k =? j then true else h) (mkTls (j :: owned s) (table s) (zero (vals s) j) (calls s))); [exact Hn|].
      cbn [owned In]. destruct (Nat.eqb_spec k j); intuition congruence.
  - apply (IH k (if k =? j then false else h) (tls_free j s)); [exact Hn|]. cbn [tls_free owned]. rewrite in_filter_neq. destruct (Nat.eqb_spec k j); intuition congruence.
  - apply (IH k h (set u j w s)); assumption.
  - unfold thread_end. rewrite invoke_eq.
    apply (IH k h (mkTls (owned s) (table s) (vals s) (calls s ++ called u (vals s u) (table s)))); assumption.
Qed.

Lemma keys_held : forall slots l k, In k (owned (run slots l init)) <-> holds slots k l false = true.
Proof.
  intros slots l k. rewrite (run_holds slots l k false init ltac:(cbn; lia) ltac:(cbn; intuition discriminate)). cbn [init table length]. rewrite Nat.sub_0_r. reflexivity.
Qed.
