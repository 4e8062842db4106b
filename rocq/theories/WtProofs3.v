(* Proofs for WtModel: handles and violations. *)
From Verif Require Import Base WtModel WtProofs WtProofs2.

(* ---- every handle is closed once ---- *)
Definition b2n (b : bool) : nat := if b then 1 else 0.
(* handles that came to the table *)
Definition opened (h : Z) (o : op) (r : Z) : nat :=
  match o with
  | Open _ _ _ x => b2n (x =? h)%Z
  | Fifo _ _ x _ => b2n ((x =? h)%Z && negb (r =? -1)%Z)
  | _ => 0
  end.
Definition closed (h : Z) (e : list act) : nat := length (filter (fun a => match a with CloseH x => (x =? h)%Z | _ => false end) e).
Fixpoint opened_all (h : Z) (l : list op) (rs : list (Z * list act)) : nat :=
  match l, rs with o :: k, (r, _) :: q => opened h o r + opened_all h k q | _, _ => 0 end.
Fixpoint closed_all (h : Z) (rs : list (Z * list act)) : nat := match rs with (_, e) :: q => closed h e + closed_all h q | [] => 0 end.
Definition holds (h : Z) (e : ent) : bool := negb (ety e =? 0) && (eh e =? h)%Z.
Definition in_use (h : Z) (t : list ent) : nat := length (filter (holds h) t).
Definition accepts (o : op) : bool := match o with Pipe _ _ _ _ _ => true | _ => false end.

Lemma in_use_set h v t : forall i e, nth_error t i = Some e -> in_use h (set_nth i v t) + b2n (holds h e) = in_use h t + b2n (holds h v).
Proof.
  unfold in_use. induction t as [|a t IH]; intros [|i] e H; cbn in H; try discriminate.
  - injection H as ->. cbn [set_nth filter]. destruct (holds h e), (holds h v); cbn; lia.
  - cbn [set_nth filter]. specialize (IH i e H). destruct (holds h a); cbn [length]; lia.
Qed.
Lemma in_use_grow h t k : in_use h (t ++ repeat ent0 k) = in_use h t.
Proof.
  unfold in_use. rewrite filter_app, app_length. replace (filter (holds h) (repeat ent0 k)) with (@nil ent); [cbn; lia|].
  induction k as [|k IH]; [reflexivity|]. exact IH.
Qed.
Lemma closed_app h a b : closed h (a ++ b) = closed h a + closed h b.
Proof. unfold closed. now rewrite filter_app, app_length. Qed.
Lemma closed_calls h e : calls e = [] -> closed h e = 0.
Proof. induction e as [|a e IH]; [reflexivity|]. destruct a; cbn; try discriminate. exact IH. Qed.
Lemma holds_free h e : ety e = 0 -> holds h e = false.
Proof. intros E. unfold holds. now rewrite E. Qed.

Lemma step_balance h s o s' r e : accepts o = false -> step s o = Ok (s', r, e) ->
  opened h o r + in_use h (tab s) = closed h e + in_use h (tab s').
Proof.
  intros NA H. destruct o as [f a ok x|f a x n|f a c ok n|n|n|n|n|fl dc n]; cbn [step] in H; try discriminate.
  - unfold open_file in H. destruct (new_fd f a s FD_FILE_ASYNC x) as [[[s1 p] e1]| | |] eqn:N; cbn [bind] in H; try discriminate.
    apply new_fd_is in N. destruct N as (L & C1 & k & [(-> & ->)|(i & -> & I & N & Z & ->)]); unfold assign in H; cbn [opened].
    + cbn in H. injection H as <- <- <-. rewrite closed_app, (closed_calls h e1 C1). cbn [with_tab tab]. rewrite in_use_grow.
      unfold closed. cbn. destruct (x =? h)%Z; cbn; lia.
    + rewrite z_of_nat_m1 in H. pose proof (in_use_set h {| ety := FD_FILE_ASYNC; eh := x; epath := None |} _ i _ N) as U.
      rewrite (holds_free _ _ Z), in_use_grow in U. assert (HV0 : holds h {| ety := FD_FILE_ASYNC; eh := x; epath := None |} = (x =? h)%Z) by reflexivity. rewrite HV0 in U.
      destruct ok; injection H as <- <- <-; rewrite closed_app, (closed_calls h e1 C1).
      * cbn [with_tab tab]. unfold closed. cbn [filter length b2n] in *. lia.
      * assert (IL : i < length (tab s ++ repeat ent0 k)) by (apply nth_error_Some; congruence).
        unfold free_fd. cbn [with_tab tab]. set (t := tab s ++ repeat ent0 k) in *. set (v := {| ety := FD_FILE_ASYNC; eh := x; epath := None |}) in *.
        assert (NV : nth_error (set_nth i v t) i = Some v) by now apply set_nth_same.
        rewrite (entry_of _ i v NV), Nat2Z.id. cbn [with_tab tab].
        pose proof (in_use_set h {| ety := 0; eh := eh v; epath := None |} _ i v NV) as U2.
        rewrite (holds_free h {| ety := 0; eh := eh v; epath := None |} eq_refl) in U2.
        assert (HV : holds h v = (x =? h)%Z) by reflexivity. rewrite HV in U2. cbn [b2n] in U2.
        unfold closed. cbn [filter with_tab tab]. destruct (x =? h)%Z; cbn [length b2n] in *; lia.
  - unfold mkfifo in H. destruct (x =? -1)%Z eqn:X.
    + injection H as <- <- <-. cbn [opened]. rewrite Z.eqb_refl. rewrite andb_false_r. cbn. lia.
    + destruct (new_fd f a s FD_PIPE_ASYNC (port s)) as [[[s1 p] e1]| | |] eqn:N; cbn [bind] in H; try discriminate.
      apply new_fd_is in N. destruct N as (L & C1 & k & [(-> & ->)|(i & -> & I & N & Z & ->)]).
      * cbn in H. injection H as <- <- <-. cbn [opened]. rewrite Z.eqb_refl, andb_false_r, (closed_calls h e1 C1). cbn [with_tab tab]. rewrite in_use_grow. cbn. lia.
      * rewrite z_of_nat_m1 in H. injection H as <- <- <-. cbn [opened]. rewrite z_of_nat_m1, andb_true_r, (closed_calls h e1 C1). cbn [with_tab tab]. rewrite Nat2Z.id.
        assert (IL : i < length (tab s ++ repeat ent0 k)) by (apply nth_error_Some; congruence).
        set (t := tab s ++ repeat ent0 k) in *. set (v := {| ety := FD_PIPE_ASYNC; eh := port s; epath := None |}) in *. set (w := {| ety := FD_PIPE_ASYNC; eh := x; epath := Some n |}).
        assert (NV : nth_error (set_nth i v t) i = Some v) by now apply set_nth_same.
        pose proof (in_use_set h v _ i _ N) as U. pose proof (in_use_set h w _ i v NV) as U2. rewrite (holds_free _ _ Z) in U.
        unfold t in U. rewrite in_use_grow in U. fold t in U. assert (HW : holds h w = (x =? h)%Z) by reflexivity. rewrite HW in U2. cbn [b2n] in U. lia.
  - injection H as <- <- <-. reflexivity.
  - injection H as <- <- <-. reflexivity.
  - destruct (os_read s n) as [l| | |] eqn:R; cbn [bind] in H; try discriminate. injection H as <- <- <-. cbn [opened].
    assert (C : closed h l = 0); [|lia]. unfold os_read in R. destruct (not_slot s n) as [b| | |]; cbn [bind] in R; try discriminate.
    destruct (b && is_socket s n); [injection R as <-; reflexivity|]. destruct (if b then valid_fd s n else Ok true) as [v| | |]; cbn [bind] in R; try discriminate.
    destruct (negb v); [injection R as <-; reflexivity|]. destruct (entry (tab s) n); [|discriminate]. destruct (_ || _); [injection R as <-; reflexivity|discriminate].
  - destruct (os_write s n) as [l| | |] eqn:R; cbn [bind] in H; try discriminate. injection H as <- <- <-. cbn [opened].
    assert (C : closed h l = 0); [|lia]. unfold os_write in R. destruct (not_slot s n) as [b| | |]; cbn [bind] in R; try discriminate.
    destruct b; [injection R as <-; now destruct (is_socket s n)|]. destruct (entry (tab s) n); [|discriminate]. destruct (_ || _); [injection R as <-; reflexivity|discriminate].
  - cbn [opened]. unfold os_close in H. destruct (n =? -1)%Z; [injection H as <- <- <-; reflexivity|].
    destruct (if loops s then valid_fd s n else Ok false) as [v| | |] eqn:V; cbn [bind] in H; try discriminate.
    destruct (negb v && is_socket s n); [injection H as <- <- <-; reflexivity|].
    destruct (if v then Ok true else valid_fd s n) as [v2| | |] eqn:V2; cbn [bind] in H; try discriminate.
    destruct v2; cbn [negb] in H; [|injection H as <- <- <-; reflexivity].
    destruct (entry (tab s) n) as [d|] eqn:E; [|discriminate].
    destruct ((ety d =? FD_PIPE_ASYNC) && negb (fl && dc)); injection H as <- <- <-; [reflexivity|].
    assert (VD : valid_fd s n = Ok true). { destruct v; [destruct (loops s); [exact V|discriminate]|exact V2]. }
    unfold valid_fd in VD. rewrite E in VD. destruct (live s); [|discriminate]. injection VD as VD. apply negb_true_iff in VD.
    unfold free_fd. rewrite E. cbn [with_tab tab]. destruct (entry_in _ _ _ E) as (_ & N & _).
    pose proof (in_use_set h {| ety := 0; eh := eh d; epath := None |} _ _ _ N) as U. rewrite (holds_free h {| ety := 0; eh := eh d; epath := None |} eq_refl) in U.
    assert (HD : holds h d = (eh d =? h)%Z) by (unfold holds; now rewrite VD). rewrite HD in U. unfold closed. cbn [filter]. destruct (eh d =? h)%Z; cbn [length b2n] in *; lia.
Qed.
Lemma run_balance h l : forall s s' rs, forallb (fun o => negb (accepts o)) l = true -> steps s l = Ok (s', rs) ->
  opened_all h l rs + in_use h (tab s) = closed_all h rs + in_use h (tab s').
Proof.
  induction l as [|o l IH]; intros s s' rs W H; cbn [steps] in H.
  - injection H as <- <-. reflexivity.
  - destruct (step s o) as [[[s1 r] e]| | |] eqn:E; cbn [bind] in H; try discriminate.
    destruct (steps s1 l) as [[s2 rs2]| | |] eqn:E2; cbn [bind] in H; try discriminate. injection H as <- <-.
    cbn in W. apply andb_true_iff in W. destruct W as [W1 W2]. apply negb_true_iff in W1.
    pose proof (step_balance h s o s1 r e W1 E). specialize (IH s1 s2 rs2 W2 E2). cbn [opened_all closed_all]. lia.
Qed.
Lemma handles_balance h n lp k p l s rs : forallb (fun o => negb (accepts o)) l = true -> steps (start n lp k p) l = Ok (s, rs) ->
  opened_all h l rs = closed_all h rs + in_use h (tab s).
Proof. intros W H. pose proof (run_balance h l _ _ _ W H) as B. cbn [start tab] in B. change (repeat ent0 n) with ([] ++ repeat ent0 n) in B. rewrite in_use_grow in B. cbn in B. lia. Qed.

Lemma grow_ends a t : 0 < length t -> exists f t', grows f (Some a) t = Ok t' /\ a < length t'.
Proof.
  remember (S a - length t) as d eqn:D. revert t D. induction d as [d IH] using lt_wf_ind. intros t D H.
  destruct (Nat.lt_ge_cases a (length t)) as [L|L].
  - exists 0, t. cbn. destruct (Nat.leb_spec (length t) a); [lia|auto].
  - destruct (IH (S a - length (t ++ repeat ent0 (length t)))) with (t := t ++ repeat ent0 (length t)) as (f & t' & E & B);
      rewrite ?app_length, ?repeat_length; try lia.
    exists (S f), t'. cbn [grows]. destruct (Nat.leb_spec (length t) a); [|lia]. auto.
Qed.

(* ---- violations ---- *)
Lemma first_free_repeat n : first_free (repeat ent0 (S (S n))) 0 = Some 1.
Proof. reflexivity. Qed.
Lemma entry_far t h : (Z.of_nat (length t) <= h)%Z -> entry t h = None.
Proof. intros H. unfold entry. destruct (h <? 0)%Z; [reflexivity|]. apply nth_error_None. lia. Qed.
(* a file whose handle is beyond the table gets the number of standard output, and what is written there goes into it *)
Lemma takes_stdout n fdn port h f : 2 <= n -> (Z.of_nat n <= h < fdn)%Z ->
  exists s, steps (start n true fdn port) [Open f None true h; Write 1%Z] = Ok (s, [(1%Z, [EventH]); (0%Z, [WriteH h])]).
Proof.
  intros N H. destruct n as [|[|n]]; try lia. assert (EF : entry (repeat ent0 (S (S n))) h = None) by (apply entry_far; rewrite repeat_length; lia). cbn [steps step]. unfold open_file, new_fd. cbn [start live negb].
  destruct (Z.ltb_spec h 0); [lia|]. cbn [start WtModel.fdn]. destruct (Z.leb_spec fdn h); [lia|]. cbn [orb start tab].
  assert (G : forall t, grows f None t = Ok t) by (intros; now destruct f). rewrite G. cbn [bind]. unfold pick.
  destruct (Z.ltb_spec 0 h); [|lia]. unfold free_in. rewrite EF, first_free_repeat.
  cbn. eexists. reflexivity.
Qed.
(* with a loop running, a number outside the table is looked up there before it is seen to be a socket *)
Lemma far_read s fd : loops s = true -> entry (tab s) fd = None -> os_read s fd = UB /\ os_write s fd = UB.
Proof.
  intros L E. unfold os_read, os_write, not_slot, type_at. rewrite L, E. cbn. destruct (live s); auto.
Qed.
(* a file that cannot be opened *)
Lemma failed_open f a ok s : open_file f a ok s FD_FILE_ASYNC (-1) = UB.
Proof. unfold open_file, new_fd. now destruct (live s). Qed.
Lemma far_handle f a ok s h : (fdn s <= h)%Z -> open_file f a ok s FD_FILE_ASYNC h = UB.
Proof.
  intros H. unfold open_file, new_fd. destruct (live s); cbn [negb]; [|reflexivity]. destruct (h <? 0)%Z; [reflexivity|].
  destruct (Z.leb_spec (fdn s) h); [reflexivity|lia].
Qed.
(* without a loop a write goes to the C library under the number of the slot *)
Lemma idle_write s fd : loops s = false -> is_socket s fd = false -> os_write s fd = Ok [WriteC fd].
Proof. intros L K. unfold os_write, not_slot. rewrite L. cbn. now rewrite K. Qed.
(* a socket of the same number gets what is meant for the file *)
Lemma same_number s fd e : live s = true -> loops s = true -> entry (tab s) fd = Some e -> is_socket s fd = true ->
  os_read s fd = Ok [Recv fd] /\ os_write s fd = Ok [Send fd].
Proof. intros V L E K. unfold os_read, os_write, not_slot, type_at. rewrite V, L, E, K. cbn. rewrite orb_true_r. auto. Qed.
Lemma gone_close fl dc s fd e : live s = false -> entry (tab s) fd = Some e -> is_socket s fd = false -> os_close fl dc s fd = UB.
Proof.
  intros L E K. unfold os_close, valid_fd. rewrite L, E, K. destruct (Z.eqb_spec fd (-1)) as [->|_]; [discriminate|].
  destruct (loops s); reflexivity.
Qed.
(* a pipe whose other end made it cannot be disconnected, hence never closed *)
Lemma client_stuck fl s fd e : live s = true -> entry (tab s) fd = Some e -> ety e = FD_PIPE_ASYNC -> is_socket s fd = false ->
  os_close fl false s fd = Ok (s, -1, [])%Z.
Proof.
  intros L E T K. unfold os_close, valid_fd. rewrite L, E, K, T. cbn [Nat.eqb FD_PIPE_ASYNC negb]. rewrite andb_false_r.
  destruct (Z.eqb_spec fd (-1)) as [->|_]; [discriminate|]. destruct (loops s); cbn; reflexivity.
Qed.
(* a pipe opened by the process that made it: both numbers close the same handle *)
Lemma accepted_twice n fdn port h : (0 < port < Z.of_nat n)%Z -> (0 < h < Z.of_nat n)%Z -> port <> h -> (Z.of_nat n <= fdn)%Z ->
  exists s, steps (start n true fdn port) [Fifo 0 None h 7; Pipe 0 None true true 7; Close true true h; Close true true port]
  = Ok (s, [(port, [EventH]); (h, [EventH]); (0%Z, [CloseH h]); (0%Z, [CloseH h])]).
Proof.
  intros P H NE F.
  assert (E0 : forall i, (0 < i < Z.of_nat n)%Z -> entry (repeat ent0 n) i = Some ent0).
  { intros i I. unfold entry. destruct (Z.ltb_spec i 0); [lia|]. destruct (nth_error (repeat ent0 n) (Z.to_nat i)) as [e|] eqn:E.
    - apply nth_error_In, repeat_spec in E. now subst e.
    - apply nth_error_None in E. rewrite repeat_length in E. lia. }
  set (t1 := set_nth (Z.to_nat port) {| ety := FD_PIPE_ASYNC; eh := h; epath := Some 7 |} (repeat ent0 n)).
  set (s1 := with_tab (start n true fdn port) t1).
  assert (SS : forall i w v (t : list ent), set_nth i w (set_nth i v t) = set_nth i w t).
  { intros i w v t. revert i. induction t as [|a t IH]; intros [|i]; cbn; auto. now rewrite IH. }
  assert (S1 : step (start n true fdn port) (Fifo 0 None h 7) = Ok (s1, port, [EventH])).
  { cbn [step]. unfold mkfifo, new_fd. cbn [start live negb WtModel.port WtModel.fdn tab grows bind]. destruct (Z.eqb_spec h (-1)); [lia|].
    destruct (Z.ltb_spec port 0); [lia|]. destruct (Z.leb_spec fdn port); [lia|]. cbn [orb]. unfold pick. destruct (Z.ltb_spec 0 port); [|lia].
    unfold free_in. rewrite (E0 port P). cbn [ent0 ety Nat.eqb bind]. rewrite z_of_nat_m1, Z2Nat.id by lia. cbn [with_tab tab]. rewrite with_tab_twice, SS. reflexivity. }
  set (t2 := set_nth (Z.to_nat h) {| ety := FD_PIPE_ASYNC; eh := h; epath := None |} t1).
  set (s2 := with_tab (start n true fdn port) t2).
  assert (PE : entry (repeat ent0 n) port = Some ent0) by auto. assert (HE : entry (repeat ent0 n) h = Some ent0) by auto.
  assert (N1 : entry t1 port = Some {| ety := FD_PIPE_ASYNC; eh := h; epath := Some 7 |}) by (unfold t1; rewrite (entry_set _ _ _ _ port PE), Z.eqb_refl; reflexivity).
  assert (N2 : entry t1 h = Some ent0). { unfold t1. rewrite (entry_set _ _ _ _ h PE). destruct (Z.eqb_spec h port); [congruence|exact HE]. }
  assert (B1 : exists i, by_path t1 0 7 = Some i /\ nth_error t1 i = Some {| ety := FD_PIPE_ASYNC; eh := h; epath := Some 7 |}).
  { destruct (by_path t1 0 7) as [i|] eqn:B.
    - exists i. split; [reflexivity|]. apply by_path_is in B. destruct B as (_ & e & N & Z & E). rewrite Nat.sub_0_r in N. rewrite N.
      apply nth_error_In in N. unfold t1 in N. apply set_in in N. destruct N as [->|N]; [reflexivity|]. apply repeat_spec in N. subst e. now contradiction Z.
    - exfalso. destruct (entry_in _ _ _ N1) as (_ & N & _). apply nth_error_In in N. exact (by_path_none _ _ _ B _ N ltac:(discriminate) eq_refl). }
  assert (S2 : step s1 (Pipe 0 None true true 7) = Ok (s2, h, [EventH])).
  { destruct B1 as (i & B & N). cbn [step]. unfold open_pipe. cbn [s1 with_tab start live tab negb]. fold s1. rewrite B. cbn [bind]. unfold rd. rewrite N. cbn [bind ety eh FD_PIPE_ASYNC Nat.eqb].
    unfold new_fd. cbn [s1 with_tab start live negb WtModel.fdn tab grows bind]. destruct (Z.ltb_spec h 0); [lia|]. destruct (Z.leb_spec fdn h); [lia|]. cbn [orb].
    unfold pick. destruct (Z.ltb_spec 0 h); [|lia]. unfold free_in. rewrite N2. cbn [ent0 ety Nat.eqb bind]. unfold assign. rewrite z_of_nat_m1. cbn [bind].
    rewrite Z2Nat.id by lia. rewrite app_nil_r. reflexivity. }
  assert (K : forall t p, is_socket (with_tab (start n true fdn port) t) p = false) by (intros; unfold is_socket; cbn; now destruct (p <? 3)%Z).
  assert (M1 : entry t2 h = Some {| ety := FD_PIPE_ASYNC; eh := h; epath := None |}) by (unfold t2; rewrite (entry_set _ _ _ _ h N2), Z.eqb_refl; reflexivity).
  assert (M2 : entry t2 port = Some {| ety := FD_PIPE_ASYNC; eh := h; epath := Some 7 |}). { unfold t2. rewrite (entry_set _ _ _ _ port N2). destruct (Z.eqb_spec port h); [congruence|exact N1]. }
  assert (CL : forall t p e, entry t p = Some e -> ety e = FD_PIPE_ASYNC -> (0 < p)%Z -> os_close true true (with_tab (start n true fdn port) t) p =
    Ok (free_fd (with_tab (start n true fdn port) t) p, 0%Z, [CloseH (eh e)])).
  { intros t p e E T Q. unfold os_close, valid_fd. rewrite K. cbn [with_tab start loops live tab]. rewrite E, T. destruct (Z.eqb_spec p (-1)); [lia|]. reflexivity. }
  cbn [steps]. rewrite S1. cbn [bind]. rewrite S2. cbn [bind step]. unfold s2 at 1. rewrite (CL t2 h _ M1 eq_refl) by lia. cbn [bind eh].
  unfold free_fd at 1. cbn [with_tab tab]. rewrite M1. rewrite with_tab_twice.
  assert (M3 : entry (set_nth (Z.to_nat h) {| ety := 0; eh := h; epath := None |} t2) port = Some {| ety := FD_PIPE_ASYNC; eh := h; epath := Some 7 |}).
  { rewrite (entry_set _ _ _ _ port M1). destruct (Z.eqb_spec port h); [congruence|exact M2]. }
  cbn [eh]. rewrite (CL _ port _ M3 eq_refl) by lia. cbn [bind eh]. eexists. reflexivity.
Qed.
(* the handle of a new pipe is lost when the table has no place for it *)
Lemma fifo_lost n lp fdn h : (0 < fdn)%Z -> h <> (-1)%Z -> exists s, steps (start n lp fdn 0) [Fifo 0 None h 7] = Ok (s, [((-1)%Z, [])]) /\ tab s = repeat ent0 n.
Proof.
  intros F H. cbn [steps step]. unfold mkfifo. destruct (Z.eqb_spec h (-1)); [contradiction|]. unfold new_fd. cbn [start live negb port WtModel.fdn tab Z.ltb Z.compare].
  destruct (Z.leb_spec fdn 0); [lia|]. cbn. eexists. split; reflexivity.
Qed.
(* each open leaves one event object behind *)
Fixpoint again (n : nat) (h : Z) : list op := match n with 0 => [] | S k => Open 0 None true h :: Close true true h :: again k h end.
Definition events (rs : list (Z * list act)) : nat := length (filter (fun a => match a with EventH => true | _ => false end) (concat (map snd rs))).
Lemma set_nth_id {A} i (v : A) t : nth_error t i = Some v -> set_nth i v t = t.
Proof. revert i. induction t as [|a t IH]; intros [|i] H; cbn in *; try discriminate; [now injection H as ->|]. f_equal. auto. Qed.
Lemma events_left m lp k p h : forall n t e, entry t h = Some e -> ety e = 0 -> (0 < h < k)%Z -> exists t2 rs,
  steps {| live := true; tab := t; loops := lp; fdn := k; port := p; socks := [] |} (again m h) =
    Ok ({| live := true; tab := t2; loops := lp; fdn := k; port := p; socks := [] |}, rs) /\ events rs = m /\ (in_use n t2 = in_use n t).
Proof.
  induction m as [|m IH]; intros n t e E Z H; cbn [again].
  - exists t, []. auto.
  - set (v := {| ety := FD_FILE_ASYNC; eh := h; epath := None |}). set (w := {| ety := 0; eh := h; epath := None |}).
    set (t1 := set_nth (Z.to_nat h) v t). assert (E1 : entry t1 h = Some v) by (unfold t1; rewrite (entry_set _ _ _ _ h E), Z.eqb_refl; reflexivity).
    set (t2 := set_nth (Z.to_nat h) w t1). assert (E2 : entry t2 h = Some w) by (unfold t2; rewrite (entry_set _ _ _ _ h E1), Z.eqb_refl; reflexivity).
    destruct (IH n t2 w E2 eq_refl H) as (t3 & rs & R & EV & U). exists t3, ((h, [EventH]) :: (0%Z, [CloseH h]) :: rs).
    split; [|split].
    + cbn [steps step]. unfold open_file, new_fd. cbn [live negb fdn tab grows bind]. destruct (Z.ltb_spec h 0); [lia|]. destruct (Z.leb_spec k h); [lia|]. cbn [orb].
      unfold pick. destruct (Z.ltb_spec 0 h); [|lia]. unfold free_in. rewrite E, Z. cbn [Nat.eqb bind]. unfold assign. rewrite z_of_nat_m1, Z2Nat.id by lia. cbn [bind].
      unfold os_close, valid_fd, is_socket. cbn [with_tab live tab loops fdn port socks]. fold v. fold t1. rewrite E1. cbn [v ety FD_FILE_ASYNC Nat.eqb negb existsb].
      destruct (Z.eqb_spec h (-1)); [lia|]. replace (if (h <? 3)%Z then false else false) with false by now destruct (h <? 3)%Z. rewrite andb_false_r.
      assert (G : (if lp then @Ok bool true else Ok false) = Ok lp) by now destruct lp. rewrite G. cbn [bind]. rewrite andb_false_r.
      assert (G2 : (if lp then @Ok bool true else Ok true) = Ok true) by now destruct lp. rewrite G2. cbn [bind negb andb FD_PIPE_ASYNC Nat.eqb].
      unfold free_fd. cbn [with_tab live tab loops fdn port socks]. fold v. fold t1. rewrite E1. cbn [bind v eh]. fold w. fold t2.
      unfold with_tab. cbn [live loops fdn port socks]. rewrite R. reflexivity.
    + unfold events in *. cbn. now rewrite EV.
    + rewrite U. destruct (entry_in _ _ _ E) as (_ & N & L). pose proof (in_use_set n v t _ _ N) as U1. fold t1 in U1.
      destruct (entry_in _ _ _ E1) as (_ & N1 & L1). pose proof (in_use_set n w t1 _ _ N1) as U2. fold t2 in U2.
      rewrite (holds_free n e Z) in U1. rewrite (holds_free n w eq_refl) in U2. cbn [b2n] in *. lia.
Qed.
(* the end closes nothing *)
Lemma shutdown_keeps s p e : entry (tab s) p = Some e -> live s = true -> exists d, entry (tab (os_shutdown s)) p = Some d /\ ety d = 0 /\ eh d = eh e.
Proof.
  intros E L. unfold os_shutdown. rewrite L. cbn [tab]. unfold entry in *. destruct (p <? 0)%Z; [discriminate|].
  rewrite nth_error_map, E. cbn. eexists. split; [reflexivity|]. auto.
Qed.
Lemma run_defined n lp k p l s rs y es o : (lp = true \/ forallb (fun o => negb (writes o)) l = true) ->
  steps (start n lp k p) l = Ok (s, rs) -> spec_run sp0 l (map fst rs) = Some (y, es) -> in_reach s o -> exists s' r e, step s o = Ok (s', r, e).
Proof. intros W H Q R. apply (step_defined y s o); [|exact R]. exact (proj2 (run_agrees l sp0 _ s rs y es (agree0 n lp k p) W H Q)). Qed.
Lemma shut_close fl dc s fd e : live s = true -> entry (tab s) fd = Some e -> is_socket (os_shutdown s) fd = false -> os_close fl dc (os_shutdown s) fd = UB.
Proof. intros L E K. destruct (shutdown_keeps s fd e E L) as (d & D & _). apply gone_close with d; auto. unfold os_shutdown. now rewrite L. Qed.
