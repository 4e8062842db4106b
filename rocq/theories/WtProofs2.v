(* Proofs for WtModel: runs, definedness, handles, violations. *)
From Verif Require Import Base WtModel WtProofs.

Lemma close_is x s fl dc p s' r e : agree x s -> os_close fl dc s p = Ok (s', r, e) ->
  exists y, spec_step x (Close fl dc p) r = Some (y, r, calls e) /\ agree y s'.
Proof.
  intros A. unfold os_close. cbn [spec_step]. destruct (p =? -1)%Z; [intros [= <- <- <-]; exists x; auto|].
  pose proof (socket_is x s p A) as SK. pose proof (slot_at x s p A) as SL. pose proof (no_slot x s p A) as NS.
  rewrite (valid_fd_is _ _ _ A).
  assert (LIB : (om x p = Some Library \/ om x p = None) -> valid_in (tab s) p = false -> is_socket s p = false ->
    agree {| om := oset (om x) p None; nm := nm x |} s).
  { intros M V K. destruct A as [L S O T Y P N U]. constructor; cbn [om nm]; auto.
    - intros q h b n. unfold oset. destruct (Z.eqb_spec q p) as [->|]; [|apply S]. split; [discriminate|]. intros H. apply S in H. destruct M; congruence.
    - intros q. unfold oset. destruct (Z.eqb_spec q p) as [->|]; [|apply O]. split; [discriminate|]. intros H. apply O in H. destruct M; congruence. }
  destruct (om x p) as [[h b n| |]|] eqn:M.
  - destruct (SL h b n eq_refl) as (v & E & Z & <- & <- & <- & D). assert (V : valid_in (tab s) p = true).
    { unfold valid_in. rewrite E. destruct (Nat.eqb_spec (ety v) 0); [contradiction|reflexivity]. }
    rewrite V, E. assert (K : is_socket s p = false) by (destruct (is_socket s p); [apply proj1 in SK; specialize (SK eq_refl); discriminate|reflexivity]).
    rewrite K. assert (G : (if loops s then @Ok bool true else Ok false) = Ok (loops s)) by now destruct (loops s). rewrite G. cbn [bind]. rewrite andb_false_r.
    assert (G2 : (if loops s then @Ok bool true else Ok true) = Ok true) by now destruct (loops s). rewrite G2. cbn [bind negb].
    destruct ((ety v =? FD_PIPE_ASYNC) && negb (fl && dc)) eqn:PF; intros [= <- <- <-].
    + exists x. auto.
    + eexists. split; [reflexivity|]. exact (agree_drop x s p v A E Z).
  - specialize (NS ltac:(congruence)). rewrite NS.
    assert (K : is_socket s p = false) by (destruct (is_socket s p); [apply proj1 in SK; specialize (SK eq_refl); discriminate|reflexivity]).
    rewrite K. assert (G : (if loops s then @Ok bool false else Ok false) = Ok false) by now destruct (loops s). rewrite G. cbn [bind negb andb].
    intros [= <- <- <-]. eexists. split; [reflexivity|]. auto.
  - specialize (NS ltac:(congruence)). rewrite NS.
    rewrite (proj2 SK eq_refl). assert (G : (if loops s then @Ok bool false else Ok false) = Ok false) by now destruct (loops s). rewrite G. cbn [bind negb andb].
    intros [= <- <- <-]. eexists. split; [reflexivity|]. destruct A as [L S O T Y P N U]. constructor; cbn [om nm with_socks live tab socks]; auto.
    + intros q h b n. unfold oset. destruct (Z.eqb_spec q p) as [->|]; [|apply S]. split; [discriminate|]. intros H. apply S in H. congruence.
    + intros q. rewrite filter_In. unfold oset. destruct (Z.eqb_spec q p) as [->|NE]; [|cbn; rewrite O; tauto]. split; [discriminate|]. intros (_ & H). discriminate.
    + intros q. rewrite filter_In. intros (H & _). auto.
  - specialize (NS ltac:(congruence)). rewrite NS.
    assert (K : is_socket s p = false) by (destruct (is_socket s p); [apply proj1 in SK; specialize (SK eq_refl); discriminate|reflexivity]).
    rewrite K. assert (G : (if loops s then @Ok bool false else Ok false) = Ok false) by now destruct (loops s). rewrite G. cbn [bind negb andb].
    intros [= <- <- <-]. eexists. split; [reflexivity|]. auto.
Qed.

Lemma z_of_nat_m1 i : (Z.of_nat i =? -1)%Z = false.
Proof. apply Z.eqb_neq. lia. Qed.

Ltac two := split; [reflexivity|]; split; [reflexivity || assumption|].
Lemma step_agrees x s o s' r e y r' e' : agree x s -> (loops s = true \/ writes o = false) ->
  step s o = Ok (s', r, e) -> spec_step x o r = Some (y, r', e') -> r' = r /\ calls e = e' /\ agree y s'.
Proof.
  intros A W H Q. destruct o as [f a ok h|f a h n|f a c ok n|n|n|n|n|fl dc n]; cbn [step] in H.
  - unfold open_file in H. destruct (new_fd f a s FD_FILE_ASYNC h) as [[[s1 p] e1]| | |] eqn:N; cbn [bind] in H; try discriminate.
    apply new_fd_is in N. destruct N as (L & C1 & k & [(-> & ->)|(i & -> & I & N & Z & ->)]); unfold assign in H.
    + cbn in H. injection H as <- <- <-. cbn [spec_step Z.eqb Pos.eqb] in Q. injection Q as <- <- <-. rewrite calls_app, C1. two. now apply agree_grow.
    + rewrite z_of_nat_m1 in H. destruct ok; injection H as <- <- <-; rewrite calls_app, C1; cbn [spec_step] in Q.
      * rewrite z_of_nat_m1 in Q. destruct (give x (Z.of_nat i) (Handle h false None)) as [y0|] eqn:G; [|discriminate]. injection Q as <- <- <-.
        apply give_some in G. destruct G as (O & ->). two.
        apply (take_step x s k i FD_FILE_ASYNC h None); auto. discriminate.
      * cbn [Z.eqb Pos.eqb] in Q. injection Q as <- <- <-. two. apply agree_back; auto. discriminate.
  - unfold mkfifo in H. cbn [spec_step] in Q. destruct (h =? -1)%Z.
    + injection H as <- <- <-. cbn in Q. injection Q as <- <- <-. two. assumption.
    + destruct (new_fd f a s FD_PIPE_ASYNC (port s)) as [[[s1 p] e1]| | |] eqn:N; cbn [bind] in H; try discriminate.
      apply new_fd_is in N. destruct N as (L & C1 & k & [(-> & ->)|(i & -> & I & N & Z & ->)]).
      * cbn in H. injection H as <- <- <-. cbn in Q. injection Q as <- <- <-. two. now apply agree_grow.
      * rewrite z_of_nat_m1 in H. injection H as <- <- <-. rewrite z_of_nat_m1 in Q. destruct (nm x n) eqn:M; [discriminate|].
        destruct (give x (Z.of_nat i) (Handle h true (Some n))) as [y0|] eqn:G; [|discriminate]. injection Q as <- <- <-.
        apply give_some in G. destruct G as (O & ->). two. cbn [om nm with_tab tab]. rewrite with_tab_twice, Nat2Z.id.
        assert (SS : forall w v (t : list ent), i < length t -> set_nth i w (set_nth i v t) = set_nth i w t).
        { intros w v t IL. apply nth_error_ext. intros j. destruct (Nat.eq_dec i j) as [<-|NE]; [|now rewrite !set_nth_other by assumption].
          rewrite !set_nth_same; auto. now rewrite set_nth_length. }
        rewrite SS by (apply nth_error_Some; congruence).
        apply (take_step x s k i FD_PIPE_ASYNC h (Some n)); auto. intros m [= <-]. auto.
  - unfold open_pipe in H. rewrite (a_live _ _ A) in H. cbn [negb] in H. cbn [spec_step] in Q.
    destruct (by_path (tab s) 0 n) as [i|] eqn:B.
    + apply by_path_is in B. destruct B as (_ & v & N & Z & E). rewrite Nat.sub_0_r in N. unfold rd in H. rewrite N in H. cbn [bind] in H.
      destruct (a_path _ _ A v n (nth_error_In _ _ N) Z E) as (T & M). rewrite T, Nat.eqb_refl in H. rewrite M in Q.
      destruct (r =? -1)%Z eqn:R; [discriminate|]. destruct c; cbn [bind] in H.
      * destruct (new_fd f a s FD_PIPE_ASYNC (eh v)) as [[[s1 p] e1]| | |] eqn:NF; cbn [bind] in H; try discriminate.
        apply new_fd_is in NF. destruct NF as (L & C1 & k & [(-> & ->)|(j & -> & I & NJ & ZJ & ->)]); unfold assign in H.
        -- cbn in H. injection H as <- <- <-. discriminate.
        -- rewrite z_of_nat_m1 in H. destruct ok; cbn [bind] in H; injection H as <- <- <-; [|discriminate].
           destruct (give x (Z.of_nat j) (Handle (eh v) true None)) as [y0|] eqn:G; [|discriminate]. injection Q as <- <- <-.
           apply give_some in G. destruct G as (O & ->). rewrite app_nil_r. two.
           apply (take_step x s k j FD_PIPE_ASYNC (eh v) None); auto. discriminate.
      * cbn in H. injection H as <- <- <-. discriminate.
    + cbn [bind] in H. injection H as <- <- <-. destruct (nm x n) as [h|] eqn:M.
      * destruct (a_name _ _ A n h M) as (v & I & Z & E). exfalso. exact (by_path_none _ _ _ B v I Z E).
      * injection Q as <- <- <-. two. assumption.
  - injection H as <- <- <-. cbn [spec_step] in Q. destruct (Z.ltb_spec n 3) as [T|T]; [discriminate|].
    destruct (give x n Socket) as [y0|] eqn:G; [|discriminate]. injection Q as <- <- <-. apply give_some in G. destruct G as (O & ->).
    two. destruct A as [L S K TT Y P N U]. constructor; cbn [om nm with_socks live tab socks]; auto.
    + intros q h b m. unfold oset. destruct (Z.eqb_spec q n) as [->|]; [|apply S]. split; [discriminate|]. intros H. apply S in H. congruence.
    + intros q. unfold oset. destruct (Z.eqb_spec q n) as [->|NE]; [split; auto; now left|]. rewrite K. split; [now right|]. intros [E|E]; [congruence|exact E].
    + intros q [->|H]; auto.
  - injection H as <- <- <-. cbn [spec_step] in Q. destruct (give x n Library) as [y0|] eqn:G; [|discriminate]. injection Q as <- <- <-.
    apply give_some in G. destruct G as (O & ->). two. destruct A as [L S K TT Y P N U]. constructor; cbn [om nm]; auto.
    + intros q h b m. unfold oset. destruct (Z.eqb_spec q n) as [->|]; [|apply S]. split; [discriminate|]. intros H. apply S in H. congruence.
    + intros q. unfold oset. destruct (Z.eqb_spec q n) as [->|NE]; [|apply K]. split; [discriminate|]. intros H. apply K in H. congruence.
  - destruct (os_read s n) as [l| | |] eqn:R; cbn [bind] in H; try discriminate. injection H as <- <- <-. cbn [spec_step] in Q. injection Q as <- <- <-.
    apply (read_is x) in R; auto. split; [reflexivity|]. split; [|assumption]. rewrite R. now destruct (om x n) as [[]|].
  - destruct (os_write s n) as [l| | |] eqn:R; cbn [bind] in H; try discriminate. injection H as <- <- <-. cbn [spec_step] in Q. injection Q as <- <- <-.
    destruct W as [W|W]; [|discriminate]. apply (write_is x) in R; auto. split; [reflexivity|]. split; [|assumption]. rewrite R. now destruct (om x n) as [[]|].
  - destruct (close_is x s fl dc n s' r e A H) as (z & Q2 & A2). rewrite Q2 in Q. injection Q as <- <- <-. two. assumption.
Qed.
Lemma step_loops s o s' r e : step s o = Ok (s', r, e) -> loops s' = loops s.
Proof.
  assert (NF : forall f a ty h s' r e, new_fd f a s ty h = Ok (s', r, e) -> loops s' = loops s).
  { intros f a ty h s2 r2 e2 N. apply new_fd_is in N. destruct N as (L & C1 & k & [(-> & ->)|(i & -> & I & N & Z & ->)]); reflexivity. }
  assert (FF : forall s p, loops (free_fd s p) = loops s) by (intros s0 p; unfold free_fd; now destruct (entry (tab s0) p)).
  destruct o as [f a ok h|f a h n|f a c ok n|n|n|n|n|fl dc n]; cbn [step]; intros H.
  - unfold open_file in H. destruct (new_fd f a s FD_FILE_ASYNC h) as [[[s1 p] e1]| | |] eqn:N; cbn [bind] in H; try discriminate.
    apply NF in N. unfold assign in H. destruct (p =? -1)%Z; [|destruct ok]; injection H as <- _ _; rewrite ?FF; auto.
  - unfold mkfifo in H. destruct (h =? -1)%Z; [injection H as <- _ _; auto|].
    destruct (new_fd f a s FD_PIPE_ASYNC (port s)) as [[[s1 p] e1]| | |] eqn:N; cbn [bind] in H; try discriminate. apply NF in N.
    destruct (p =? -1)%Z; injection H as <- _ _; auto.
  - unfold open_pipe in H. destruct (live s); cbn [negb bind] in H; [|discriminate]. destruct (by_path (tab s) 0 n) as [i|]; cbn [bind] in H; [|injection H as <- _ _; auto].
    destruct (rd (tab s) i) as [v| | |]; cbn [bind] in H; try discriminate. destruct (ety v =? FD_PIPE_ASYNC); cbn [bind] in H; [|injection H as <- _ _; auto].
    destruct c; cbn [bind] in H.
    + destruct (new_fd f a s FD_PIPE_ASYNC (eh v)) as [[[s1 p] e1]| | |] eqn:N; cbn [bind] in H; try discriminate. apply NF in N.
      unfold assign in H. destruct (p =? -1)%Z; [|destruct ok]; cbn [bind] in H; injection H as <- _ _; rewrite ?FF; auto.
    + cbn in H. injection H as <- _ _. auto.
  - now injection H as <- _ _.
  - now injection H as <- _ _.
  - destruct (os_read s n); cbn [bind] in H; try discriminate. now injection H as <- _ _.
  - destruct (os_write s n); cbn [bind] in H; try discriminate. now injection H as <- _ _.
  - unfold os_close in H. destruct (n =? -1)%Z; [injection H as <- _ _; auto|].
    destruct (if loops s then valid_fd s n else Ok false) as [v| | |]; cbn [bind] in H; try discriminate.
    destruct (negb v && is_socket s n); [injection H as <- _ _; auto|].
    destruct (if v then Ok true else valid_fd s n) as [v2| | |]; cbn [bind] in H; try discriminate.
    destruct (negb v2); [injection H as <- _ _; auto|]. destruct (entry (tab s) n); [|discriminate].
    destruct (_ && _); injection H as <- _ _; rewrite ?FF; auto.
Qed.

Lemma run_agrees l : forall x s s' rs y es, agree x s -> (loops s = true \/ forallb (fun o => negb (writes o)) l = true) ->
  steps s l = Ok (s', rs) -> spec_run x l (map fst rs) = Some (y, es) -> map (fun re => (fst re, calls (snd re))) rs = es /\ agree y s'.
Proof.
  induction l as [|o l IH]; intros x s s' rs y es A W H Q; cbn [steps] in H.
  - injection H as <- <-. cbn in Q. injection Q as <- <-. auto.
  - destruct (step s o) as [[[s1 r] e]| | |] eqn:E; cbn [bind] in H; try discriminate.
    destruct (steps s1 l) as [[s2 rs2]| | |] eqn:E2; cbn [bind] in H; try discriminate. injection H as <- <-.
    cbn [map fst spec_run] in Q. destruct (spec_step x o r) as [[[x1 r1] e1]|] eqn:Q1; [|discriminate].
    destruct (spec_run x1 l (map fst rs2)) as [[z es2]|] eqn:Q2; [|discriminate]. injection Q as <- <-.
    assert (W1 : loops s = true \/ writes o = false).
    { destruct W as [W|W]; [auto|]. cbn in W. apply andb_true_iff in W. destruct W as [W _]. apply negb_true_iff in W. auto. }
    assert (W2 : loops s1 = true \/ forallb (fun o => negb (writes o)) l = true).
    { rewrite (step_loops _ _ _ _ _ E). destruct W as [W|W]; [auto|]. cbn in W. apply andb_true_iff in W. destruct W as [_ W]. auto. }
    destruct (step_agrees x s o s1 r e x1 r1 e1 A W1 E Q1) as (-> & <- & A1).
    destruct (IH x1 s1 s2 rs2 z es2 A1 W2 E2 Q2) as (<- & A2). cbn [map fst snd]. auto.
Qed.
Lemma agree0 n lp k p : agree sp0 (start n lp k p).
Proof.
  assert (I : forall e, In e (repeat ent0 n) -> e = ent0) by (intros e; apply repeat_spec).
  constructor; cbn [start live tab socks om nm sp0]; auto.
  - intros q h b m. assert (X : slot_of (repeat ent0 n) q = None).
    { change (repeat ent0 n) with ([] ++ repeat ent0 n). rewrite slot_grow. unfold slot_of, entry. destruct (q <? 0)%Z; [reflexivity|]. now destruct (Z.to_nat q). }
    rewrite X. destruct (_ && _); split; discriminate.
  - intros q. destruct (_ && _); split; try discriminate; contradiction.
  - contradiction.
  - intros e H. rewrite (I e H). now left.
  - intros e m H Z. rewrite (I e H) in Z. now contradiction Z.
  - discriminate.
  - intros i j a b m A _ Z. apply nth_error_In in A. rewrite (I a A) in Z. now contradiction Z.
Qed.
Lemma run_right n lp k p l s rs y es : (lp = true \/ forallb (fun o => negb (writes o)) l = true) ->
  steps (start n lp k p) l = Ok (s, rs) -> spec_run sp0 l (map fst rs) = Some (y, es) ->
  map (fun re => (fst re, calls (snd re))) rs = es.
Proof. intros W H Q. exact (proj1 (run_agrees l sp0 (start n lp k p) s rs y es (agree0 n lp k p) W H Q)). Qed.

(* a number given to a file is not the number of another file or pipe, whatever else happened *)
Lemma open_fresh f a ok s h s' r e : open_file f a ok s FD_FILE_ASYNC h = Ok (s', r, e) -> r <> (-1)%Z ->
  valid_in (tab s) r = false /\ (0 < r)%Z /\ slot_of (tab s') r = Some (Handle h false None) /\
  forall q, q <> r -> slot_of (tab s') q = slot_of (tab s) q.
Proof.
  intros H R. unfold open_file in H. destruct (new_fd f a s FD_FILE_ASYNC h) as [[[s1 p] e1]| | |] eqn:N; cbn [bind] in H; try discriminate.
  apply new_fd_is in N. destruct N as (L & C1 & k & [(-> & ->)|(i & -> & I & N & Z & ->)]); unfold assign in H.
  - cbn in H. injection H as <- <- <-. now contradiction R.
  - rewrite z_of_nat_m1 in H. destruct ok; injection H as <- <- <-; [|now contradiction R].
    assert (EN : entry (tab s ++ repeat ent0 k) (Z.of_nat i) = Some (nth i (tab s ++ repeat ent0 k) ent0)) by now apply entry_of.
    assert (VF : valid_in (tab s) (Z.of_nat i) = false).
    { unfold valid_in. destruct (entry (tab s) (Z.of_nat i)) as [v|] eqn:V; [|reflexivity]. apply entry_in in V. destruct V as (_ & V & VL). rewrite Nat2Z.id in *.
      rewrite nth_error_app1 in N by assumption. rewrite V in N. injection N as ->. rewrite Z. reflexivity. }
    split; [exact VF|]. split; [lia|]. cbn [with_tab tab].
    assert (SL : forall q, slot_of (set_nth i {| ety := FD_FILE_ASYNC; eh := h; epath := None |} (tab s ++ repeat ent0 k)) q =
      if (q =? Z.of_nat i)%Z then Some (Handle h false None) else slot_of (tab s ++ repeat ent0 k) q).
    { intros q. unfold slot_of. pose proof (entry_set _ _ _ {| ety := FD_FILE_ASYNC; eh := h; epath := None |} q EN) as X. rewrite Nat2Z.id in X. rewrite X.
      now destruct (q =? Z.of_nat i)%Z. }
    split; [now rewrite SL, Z.eqb_refl|]. intros q NE. rewrite SL. apply Z.eqb_neq in NE. rewrite NE. apply slot_grow.
Qed.

(* ---- definedness ---- *)
Definition in_reach (s : st) (o : op) : Prop :=
  match o with
  | Open f a ok h => a = None /\ (0 <= h < fdn s)%Z
  | Fifo f a h n => a = None /\ (h = -1 \/ 0 <= port s < fdn s)%Z
  | Pipe f a c ok n => a = None /\ forall e, In e (tab s) -> ety e <> 0 -> epath e = Some n -> (0 <= eh e < fdn s)%Z
  | Read n | Write n => loops s = true -> (0 <= n < Z.of_nat (length (tab s)))%Z
  | _ => True
  end.
Lemma step_defined x s o : agree x s -> in_reach s o -> exists s' r e, step s o = Ok (s', r, e).
Proof.
  intros A R. assert (NF : forall f ty h, (0 <= h < fdn s)%Z -> exists s1 p e1, new_fd f None s ty h = Ok (s1, p, e1)).
  { intros f ty h H. unfold new_fd. rewrite (a_live _ _ A). cbn [negb]. destruct (Z.ltb_spec h 0); [lia|]. destruct (Z.leb_spec (fdn s) h); [lia|].
    cbn [orb]. assert (G : grows f None (tab s) = Ok (tab s)) by now destruct f. rewrite G. cbn [bind]. destruct (pick (tab s) h); eauto. }
  assert (ES : forall n, (loops s = true -> (0 <= n < Z.of_nat (length (tab s)))%Z) -> loops s = true -> exists e, entry (tab s) n = Some e /\ In e (tab s)).
  { intros n B L. specialize (B L). unfold entry. destruct (Z.ltb_spec n 0); [lia|]. destruct (nth_error (tab s) (Z.to_nat n)) as [e|] eqn:E.
    - exists e. split; [reflexivity|]. now apply nth_error_In in E.
    - apply nth_error_None in E. lia. }
  assert (VT : forall p, valid_in (tab s) p = true -> exists e, entry (tab s) p = Some e /\ ((ety e =? FD_FILE_ASYNC) || (ety e =? FD_PIPE_ASYNC)) = true).
  { intros p V. unfold valid_in in V. destruct (entry (tab s) p) as [e|] eqn:E; [|discriminate]. exists e. split; [reflexivity|].
    apply negb_true_iff, Nat.eqb_neq in V. apply entry_in in E. destruct E as (_ & E & _). apply nth_error_In in E.
    destruct (a_types _ _ A _ E) as [T|[T|T]]; [contradiction|rewrite T; reflexivity..]. }
  destruct o as [f a ok h|f a h n|f a c ok n|n|n|n|n|fl dc n]; cbn [step in_reach] in *; eauto.
  - destruct R as (-> & R). unfold open_file. destruct (NF f FD_FILE_ASYNC h R) as (s1 & p & e1 & ->). cbn [bind]. destruct (assign ok s1 h p) as [[s2 r] e2]. eauto.
  - destruct R as (-> & R). unfold mkfifo. destruct (Z.eqb_spec h (-1)); [eauto|]. destruct R as [R|R]; [contradiction|].
    destruct (NF f FD_PIPE_ASYNC _ R) as (s1 & p & e1 & ->). cbn [bind]. destruct (p =? -1)%Z; eauto.
  - destruct R as (-> & R). unfold open_pipe. rewrite (a_live _ _ A). cbn [negb]. destruct (by_path (tab s) 0 n) as [i|] eqn:B; cbn [bind]; [|eauto].
    apply by_path_is in B. destruct B as (_ & v & N & Z & E). rewrite Nat.sub_0_r in N. unfold rd. rewrite N. cbn [bind].
    destruct (ety v =? FD_PIPE_ASYNC); cbn [bind]; [|eauto]. specialize (R v (nth_error_In _ _ N) Z E).
    destruct c; cbn [bind].
    + destruct (NF f FD_PIPE_ASYNC _ R) as (s1 & p & e1 & ->). cbn [bind]. destruct (assign ok s1 (eh v) p) as [[s2 r] e2]. cbn [bind]. eauto.
    + destruct (assign ok s (eh v) (-1)) as [[s2 r] e2]. cbn [bind]. eauto.
  - assert (G : exists l, os_read s n = Ok l); [|destruct G as (l & ->); cbn; eauto].
    unfold os_read, not_slot, type_at. rewrite (a_live _ _ A). cbn [negb]. rewrite (valid_fd_is _ _ _ A).
    destruct (loops s) eqn:LP; cbn [negb bind].
    + destruct (ES n R eq_refl) as (e & E & I). rewrite E. cbn [bind]. unfold valid_in. rewrite E.
      destruct (a_types _ _ A _ I) as [T|[T|T]]; rewrite T; cbn [Nat.eqb orb negb]; destruct (is_socket s n); cbn; eauto.
    + cbn [andb]. destruct (is_socket s n); [eauto|]. cbn [bind]. destruct (valid_in (tab s) n) eqn:V; cbn [negb]; [|eauto].
      destruct (VT n V) as (e & -> & ->). eauto.
  - assert (G : exists l, os_write s n = Ok l); [|destruct G as (l & ->); cbn; eauto].
    unfold os_write, not_slot, type_at. rewrite (a_live _ _ A). cbn [negb].
    destruct (loops s) eqn:LP; cbn [negb bind]; [|eauto].
    destruct (ES n R eq_refl) as (e & E & I). rewrite E. cbn [bind].
    destruct (a_types _ _ A _ I) as [T|[T|T]]; rewrite T; cbn [Nat.eqb orb negb]; destruct (is_socket s n); cbn; eauto.
  - unfold os_close. destruct (n =? -1)%Z; [eauto|]. rewrite (valid_fd_is _ _ _ A).
    assert (G : exists v, (if loops s then Ok (valid_in (tab s) n) else Ok false) = Ok v /\ (v = true -> valid_in (tab s) n = true)).
    { destruct (loops s); eexists; split; eauto. discriminate. }
    destruct G as (v & -> & GV). cbn [bind]. destruct (negb v && is_socket s n); [eauto|].
    assert (G2 : (if v then Ok true else Ok (valid_in (tab s) n)) = Ok (valid_in (tab s) n)). { destruct v; [now rewrite GV|reflexivity]. }
    rewrite G2. cbn [bind]. destruct (valid_in (tab s) n) eqn:V; cbn [negb]; [|eauto]. destruct (VT n V) as (e & -> & _). destruct (_ && _); eauto.
Qed.
