From Verif Require Import Base HnModel.
Local Open Scope Z_scope.

(* operations of others that look nothing up / read no text *)
Definition no_lookup (o : op) : Prop := match o with Work _ => False | _ => True end.
Definition no_ip (o : op) : Prop := match o with Ip _ => False | _ => True end.
Definition acts (t : nat) (o : op) : Prop := match o with Ask u _ _ => u = t | Work _ => False | Ip u => u = t | Use u => u = t end.

Lemma run_app : forall dns a b s, run dns (a ++ b) s = do s' <- run dns a s; run dns b s'.
Proof. intros dns. induction a as [|o a IH]; intros b s; cbn [run app bind]; [reflexivity|]. destruct (step dns o s); cbn [bind]; auto. Qed.

(* nothing is looked up: the hostent stays, and so does what a task got that does nothing *)
Lemma keep : forall dns l t s s', Forall no_lookup l -> Forall (fun o => ~ acts t o) l -> run dns l s = Ok s' ->
  static_ s' = static_ s /\ got s' t = got s t.
Proof.
  intros dns. induction l as [|o l IH]; intros t s s' Hn Hb E; cbn [run] in E; [injection E as <-; auto|].
  inversion Hn; subst; inversion Hb; subst. destruct (step dns o s) as [s1| | |] eqn:E1; cbn [bind] in E; try discriminate.
  destruct (IH t s1 s' ltac:(assumption) ltac:(assumption) E) as (A & B). rewrite A, B. clear - E1 H1 H3.
  destruct o as [u n w|w|u|u]; cbn [no_lookup acts step] in *; [|contradiction| |].
  - injection E1 as <-. cbn [static_ got]. unfold upd. destruct (Nat.eqb_spec t u); [exfalso; auto|]. auto.
  - destruct (got s u) as [[|]|] eqn:G; try discriminate; injection E1 as <-; cbn; auto.
  - destruct (got s u) as [[|]|]; injection E1 as <-; cbn; auto.
Qed.

(* no text is written: the buffer stays; requests that are served do not touch a task that has asked for nothing *)
Lemma keep_buf : forall dns l t s s', Forall no_ip l -> Forall (fun o => ~ acts t o) l -> (forall w, ~ In t (map fst (queue s w))) -> run dns l s = Ok s' ->
  buf s' = buf s /\ got s' t = got s t.
Proof.
  intros dns. induction l as [|o l IH]; intros t s s' Hn Hb Hq E; cbn [run] in E; [injection E as <-; auto|].
  inversion Hn; subst; inversion Hb; subst. destruct (step dns o s) as [s1| | |] eqn:E1; cbn [bind] in E; try discriminate.
  assert (P : buf s1 = buf s /\ got s1 t = got s t /\ (forall w, ~ In t (map fst (queue s1 w)))).
  { clear - E1 H1 H3 Hq. destruct o as [u n w|w|u|u]; cbn [no_ip acts step] in *; [| |contradiction|].
    - injection E1 as <-. cbn [buf got queue]. unfold upd. destruct (Nat.eqb_spec t u); [exfalso; auto|]. split; [reflexivity|]. split; [reflexivity|].
      intros w'. destruct (Nat.eqb_spec w' w) as [->|]; [|apply Hq]. rewrite map_app, in_app_iff. cbn. intros [H|[H|[]]]; [exact (Hq w H)|congruence].
    - destruct (queue s w) as [|[u n] r] eqn:Q; [injection E1 as <-; auto|].
      assert (T : t <> u) by (intros ->; apply (Hq w); rewrite Q; cbn; auto).
      assert (R : forall w', ~ In t (map fst (upd (queue s) w r w'))).
      { intros w'. unfold upd. destruct (Nat.eqb_spec w' w) as [->|]; [|apply Hq]. intros H. apply (Hq w). rewrite Q. right. exact H. }
      destruct (dns n); injection E1 as <-; cbn [buf got queue]; unfold upd at 1; destruct (Nat.eqb_spec t u); try contradiction; auto.
    - destruct (got s u) as [[|]|]; injection E1 as <-; cbn; auto. }
  destruct P as (P1 & P2 & P3). destruct (IH t s1 s' ltac:(assumption) ltac:(assumption) P3 E) as (A & B). rewrite A, B. auto.
Qed.

(* a task whose request is served, and no other before it reads the address, and no other task makes a text before it reads
   its own, reads the address of the name it asked for *)
Lemma right : forall dns s w t n r a mid1 mid2 s', queue s w = (t, n) :: r -> dns n = Some a ->
  ~ In t (map fst r) -> (forall w', w' <> w -> ~ In t (map fst (queue s w'))) ->
  Forall no_lookup mid1 -> Forall (fun o => ~ acts t o) mid1 -> Forall no_ip mid2 -> Forall (fun o => ~ acts t o) mid2 ->
  run dns (Work w :: mid1 ++ Ip t :: mid2 ++ [Use t]) s = Ok s' -> exists h, used s' = h ++ [(t, Some a)].
Proof.
  intros dns s w t n r a mid1 mid2 s' Q D T1 T2 M1 B1 M2 B2 E.
  cbn [run step] in E. rewrite Q, D in E. cbn [bind] in E. set (s1 := mkHost _ _ _ _ _) in E.
  assert (Q1 : forall w', ~ In t (map fst (queue s1 w'))).
  { intros w'. unfold s1. cbn [queue]. unfold upd. destruct (Nat.eqb_spec w' w); [exact T1|apply T2; assumption]. }
  rewrite run_app in E. destruct (run dns mid1 s1) as [s2| | |] eqn:E2; cbn [bind] in E; try discriminate.
  destruct (keep dns mid1 t s1 s2 M1 B1 E2) as (A1 & A2).
  assert (Q2 : forall w', ~ In t (map fst (queue s2 w'))).
  { clearbody s1. clear - Q1 E2 B1 M1. revert s1 s2 Q1 E2. induction mid1 as [|o l IH]; intros s1 s2 Q1 E2; cbn [run] in E2; [injection E2 as <-; exact Q1|].
    inversion M1; subst. inversion B1; subst.
    destruct (step dns o s1) as [s3| | |] eqn:E3; cbn [bind] in E2; try discriminate. apply (IH ltac:(assumption) ltac:(assumption) s3 s2); [|exact E2].
    destruct o as [u m v|v|u|u]; cbn [no_lookup acts step] in *; [|contradiction| |].
    - injection E3 as <-. cbn [queue]. intros w'. unfold upd. destruct (Nat.eqb_spec w' v) as [->|]; [|apply Q1]. rewrite map_app, in_app_iff. cbn. intros [H|[H|[]]]; [exact (Q1 v H)|congruence].
    - destruct (got s1 u) as [[|]|]; try discriminate; injection E3 as <-; exact Q1.
    - destruct (got s1 u) as [[|]|]; injection E3 as <-; exact Q1. }
  cbn [run step] in E. rewrite A2 in E. unfold s1 at 1 in E. cbn [got] in E. unfold upd in E at 1. rewrite Nat.eqb_refl in E. cbn [bind] in E.
  set (s3 := mkHost _ _ _ _ _) in E. rewrite run_app in E. destruct (run dns mid2 s3) as [s4| | |] eqn:E4; cbn [bind] in E; try discriminate.
  destruct (keep_buf dns mid2 t s3 s4 M2 B2 Q2 E4) as (C1 & C2).
  cbn [run step] in E. rewrite C2 in E. unfold s3 at 1 in E. cbn [got] in E. rewrite A2 in E. unfold s1 at 1 in E. cbn [got] in E. unfold upd in E at 1. rewrite Nat.eqb_refl in E.
  cbn [bind] in E. injection E as <-. cbn [used]. exists (used s4). rewrite C1. unfold s3. cbn [buf]. rewrite A1. reflexivity.
Qed.

(* two tasks: the other's address *)
Ltac go_ A B := repeat (progress (cbn [run step bind init queue got static_ buf used app]; unfold upd; rewrite ?Nat.eqb_refl, ?A, ?B)).

Lemma others_address : forall dns t u n m v w a b, t <> u -> dns n = Some a -> dns m = Some b ->
  exists s', run dns [Ask t n v; Work v; Ask u m w; Work w; Ip t; Use t] init = Ok s' /\ used s' = [(t, Some b)].
Proof.
  intros dns t u n m v w a b H A B. apply Nat.eqb_neq in H.
  destruct (Nat.eqb_spec w v) as [->|N]; [pose proof H as N|apply Nat.eqb_neq in N]; repeat (progress (go_ A B; rewrite ?N, ?H)); eexists; split; reflexivity.
Qed.

Lemma others_text : forall dns t u n m v w a b, t <> u -> dns n = Some a -> dns m = Some b ->
  exists s', run dns [Ask t n v; Work v; Ip t; Ask u m w; Work w; Ip u; Use t] init = Ok s' /\ used s' = [(t, Some b)].
Proof.
  intros dns t u n m v w a b H A B. apply Nat.eqb_neq in H.
  destruct (Nat.eqb_spec w v) as [->|N]; [pose proof H as N|apply Nat.eqb_neq in N]; repeat (progress (go_ A B; rewrite ?N, ?H)); eexists; split; reflexivity.
Qed.

Lemma unknown : forall dns t n w, dns n = None -> run dns [Ask t n w; Work w; Ip t] init = UB.
Proof. intros dns t n w A. go_ A A. reflexivity. Qed.

(* -- async_inet_pton -- *)
(* the addresses of the family that fit *)
Definition fits (af dstlen : Z) (l : list addr) : list (list Z) :=
  map bytes_ (filter (fun a => (family a =? af) && (Z.of_nat (length (bytes_ a)) <=? dstlen)) l).
(* memory after x was copied to its start *)
Definition over (x dst : list Z) : list Z := x ++ skipn (length x) dst.

Lemma over_length : forall x dst, (length x <= length dst)%nat -> length (over x dst) = length dst.
Proof. intros x dst H. unfold over. rewrite app_length, skipn_length. lia. Qed.

Lemma scan_eq : forall af dstlen l dst ret, dstlen <= Z.of_nat (length dst) ->
  scan af dstlen l dst ret = Ok (match fits af dstlen l with [] => ret | _ => 1 end, fold_left (fun d x => over x d) (fits af dstlen l) dst).
Proof.
  intros af dstlen. induction l as [|a l IH]; intros dst ret H; cbn [scan fits filter map]; [reflexivity|].
  unfold fits in IH. rewrite (andb_comm (_ <=? _)). destruct ((family a =? af) && (Z.of_nat (length (bytes_ a)) <=? dstlen)) eqn:E; [|apply IH; exact H].
  apply andb_prop in E as (_ & E). apply Z.leb_le in E. destruct (Nat.ltb_spec (length dst) (length (bytes_ a))); [lia|].
  change (bytes_ a ++ skipn (length (bytes_ a)) dst) with (over (bytes_ a) dst). rewrite IH by (rewrite over_length by lia; exact H).
  cbn [map fold_left]. destruct (map bytes_ (filter _ l)); reflexivity.
Qed.

(* all addresses of a family have the same length: the last is what remains *)
Lemma fold_same : forall n l dst, Forall (fun x => length x = n) l -> (n <= length dst)%nat -> l <> [] ->
  fold_left (fun d x => over x d) l dst = last l [] ++ skipn n dst.
Proof.
  intros n l dst. revert dst. induction l as [|x l IH]; intros dst H D N; [contradiction|]. inversion H as [|? ? Hx Hl]; subst. cbn [fold_left].
  destruct l as [|y l]; [cbn [fold_left last]; reflexivity|]. rewrite IH; [|exact Hl|rewrite over_length; lia|discriminate].
  cbn [last]. f_equal. unfold over. rewrite skipn_app, skipn_all, Nat.sub_diag. reflexivity.
Qed.

Lemma fold_length : forall n l dst, Forall (fun x => (length x <= n)%nat) l -> (n <= length dst)%nat ->
  length (fold_left (fun d x => over x d) l dst) = length dst /\ skipn n (fold_left (fun d x => over x d) l dst) = skipn n dst.
Proof.
  intros n. induction l as [|x l IH]; intros dst H D; cbn [fold_left]; [auto|]. inversion H as [|? ? Hx Hl]; subst.
  destruct (IH (over x dst) Hl) as (A & B); [rewrite over_length; lia|]. rewrite A, B, over_length by lia. split; [reflexivity|].
  unfold over. rewrite skipn_app, (skipn_all2 x) by lia. cbn [app]. rewrite skipn_skipn. f_equal. lia.
Qed.

Definition known (r : resolver) (name : Z) : option (list addr) := match numeric r name with Some l => Some l | None => names r name end.

Lemma bit2 : forall all_, all_ = 16 \/ all_ = 256 -> forall b : bool, Z.testbit (if b then 0 else Z.lor all_ 1) 2 = false.
Proof. intros all_ [-> | ->] []; reflexivity. Qed.

Lemma pton_result : forall all_ r af name dst dstlen src n, (all_ = 16 \/ all_ = 256) -> dstlen <= Z.of_nat (length dst) ->
  (forall l a, known r name = Some l -> In a l -> family a = af -> length (bytes_ a) = n) ->
  inet_pton all_ r af name dst dstlen src =
    Ok (match known r name with Some l => match fits af dstlen l with [] => 0 | _ => 1 end | None => 0 end,
        match known r name with Some l => match fits af dstlen l with [] => dst | f => last f [] ++ skipn n dst end | None => dst end,
        match numeric r name with Some _ => false | None => true end).
Proof.
  intros all_ r af name dst dstlen src n Ha Hd Hn. unfold inet_pton, getaddrinfo, known in *. rewrite (bit2 all_ Ha).
  assert (F : forall l (q : bool), (forall a, In a l -> family a = af -> length (bytes_ a) = n) ->
    (do x <- scan af dstlen l dst 0; Ok (x, q)) = Ok (match fits af dstlen l with [] => 0 | _ => 1 end,
      match fits af dstlen l with [] => dst | f => last f [] ++ skipn n dst end, q)).
  { intros l q H. rewrite scan_eq by exact Hd. cbn [bind].
    assert (A : Forall (fun x => length x = n /\ Z.of_nat (length x) <= dstlen) (fits af dstlen l)).
    { apply Forall_forall. intros x Hx. unfold fits in Hx. apply in_map_iff in Hx as (a & <- & Hx). apply filter_In in Hx as (Hx & E).
      apply andb_prop in E as (E1 & E2). apply Z.eqb_eq in E1. apply Z.leb_le in E2. split; [apply H; assumption|exact E2]. }
    destruct (fits af dstlen l) as [|x f] eqn:E; [reflexivity|].
    rewrite (fold_same n); [reflexivity| | |discriminate].
    - eapply Forall_impl; [|exact A]. cbn. intros y (Y & _). exact Y.
    - inversion A as [|? ? (X1 & X2) _]; subst. lia. }
  destruct (numeric r name) as [l|]; [|destruct (names r name) as [l|]; [|reflexivity]]; apply F; intros a; apply Hn; reflexivity.
Qed.

Lemma pton_within : forall all_ r af name dst dstlen src, 0 <= dstlen <= Z.of_nat (length dst) ->
  exists ret dst' q, inet_pton all_ r af name dst dstlen src = Ok (ret, dst', q) /\ length dst' = length dst /\
    skipn (Z.to_nat dstlen) dst' = skipn (Z.to_nat dstlen) dst.
Proof.
  intros all_ r af name dst dstlen src Hd. unfold inet_pton.
  destruct (getaddrinfo r _ name) as [[l|] q]; [|do 3 eexists; auto]. rewrite scan_eq by lia. cbn [bind]. do 3 eexists. split; [reflexivity|].
  apply (fold_length (Z.to_nat dstlen)); [|lia]. apply Forall_forall. intros x Hx. unfold fits in Hx. apply in_map_iff in Hx as (a & <- & Hx).
  apply filter_In in Hx as (_ & E). apply andb_prop in E as (_ & E). apply Z.leb_le in E. lia.
Qed.

(* resolve_src 0: the name is asked for all the same *)
Lemma pton_asks : forall all_ r af name dst dstlen src, (all_ = 16 \/ all_ = 256) -> dstlen <= Z.of_nat (length dst) -> numeric r name = None ->
  exists ret dst', inet_pton all_ r af name dst dstlen src = Ok (ret, dst', true).
Proof.
  intros all_ r af name dst dstlen src Ha Hd Hn. unfold inet_pton, getaddrinfo. rewrite Hn, (bit2 all_ Ha). destruct (names r name); [|eauto].
  rewrite scan_eq by exact Hd. cbn [bind]. eauto.
Qed.

(* several addresses: not the first *)
Lemma pton_last : forall all_ r af name dst dstlen src a b, (all_ = 16 \/ all_ = 256) -> family a = af -> family b = af ->
  length (bytes_ a) = length (bytes_ b) -> dstlen = Z.of_nat (length (bytes_ a)) -> length dst = length (bytes_ a) -> numeric r name = None -> names r name = Some [a; b] ->
  inet_pton all_ r af name dst dstlen src = Ok (1, bytes_ b, true).
Proof.
  intros all_ r af name dst dstlen src a b Ha Fa Fb L D D2 N N2.
  assert (K : known r name = Some [a; b]) by (unfold known; rewrite N; exact N2).
  rewrite (pton_result all_ r af name dst dstlen src (length (bytes_ a)) Ha ltac:(lia)).
  - rewrite N, K. unfold fits. cbn [filter]. rewrite Fa, Fb, Z.eqb_refl, <- L, (proj2 (Z.leb_le _ _)) by lia. cbn [andb map last].
    rewrite <- D2, skipn_all, app_nil_r. reflexivity.
  - rewrite K. intros l x [= <-] [<-|[<-|[]]] _; [reflexivity|symmetry; exact L].
Qed.

Lemma served dns s w t n r : queue s w = (t, n) :: r ->
  exists s', run dns [Work w] s = Ok s' /\ queue s' w = r /\ (forall w', w' <> w -> queue s' w' = queue s w') /\
    got s' t = Some (match dns n with Some _ => true | None => false end) /\ (forall u, u <> t -> got s' u = got s u) /\
    used s' = used s /\ (dns n = None -> static_ s' = static_ s).
Proof.
  intros H. cbn [run step]. rewrite H. destruct (dns n) as [a|]; (eexists; split; [reflexivity|]); cbn [queue got used static_]; unfold upd;
    rewrite !Nat.eqb_refl; (split; [reflexivity|]); (split; [intros x N; destruct (Nat.eqb_spec x w); [contradiction|reflexivity]|]);
    (split; [reflexivity|]); (split; [intros x N; destruct (Nat.eqb_spec x t); [contradiction|reflexivity]|]); (split; [reflexivity|]).
  - discriminate.
  - reflexivity.
Qed.

Lemma waits_on dns t l : forall s s', Forall (fun o => match o with Work _ => False | _ => True end) l -> got s t = None ->
  run dns l s = Ok s' -> got s' t = None /\ filter (fun x => Nat.eqb (fst x) t) (used s') = filter (fun x => Nat.eqb (fst x) t) (used s).
Proof.
  induction l as [|o l IH]; intros s s' F G R; [injection R as <-; auto|]. inversion F; subst. cbn [run] in R.
  destruct (step dns o s) as [s1| | |] eqn:E; try discriminate. cbn [bind] in R.
  assert (K : got s1 t = None /\ filter (fun x => Nat.eqb (fst x) t) (used s1) = filter (fun x => Nat.eqb (fst x) t) (used s)).
  { destruct o as [u m v|v|u|u]; cbn [step] in E; [|contradiction| |].
    - injection E as <-. cbn [got used]. split; [|reflexivity]. unfold upd. destruct (Nat.eqb t u); auto.
    - destruct (got s u) as [[]|]; try discriminate; injection E as <-; cbn [got used]; auto.
    - destruct (got s u) as [b|] eqn:Gu; injection E as <-; cbn [got used]; auto. split; [exact G|].
      rewrite filter_app. cbn [filter fst]. destruct (Nat.eqb_spec u t) as [->|]; [congruence|]. apply app_nil_r. }
  destruct K as [K1 K2]. destruct (IH s1 s') as [J1 J2]; auto. split; congruence.
Qed.

Lemma waits dns t n w l s s' : Forall (fun o => match o with Work _ => False | _ => True end) l ->
  run dns (Ask t n w :: l) s = Ok s' -> got s' t = None /\ filter (fun x => Nat.eqb (fst x) t) (used s') = filter (fun x => Nat.eqb (fst x) t) (used s).
Proof.
  intros F R. cbn [run step bind] in R. apply (waits_on dns t l _ _ F) in R; [exact R|]. cbn [got]. unfold upd. rewrite Nat.eqb_refl. reflexivity.
Qed.

Lemma believed all_ r af name dst dstlen src a l : (all_ = 16 \/ all_ = 256) -> known r name = Some (a :: l) -> family a = af ->
  Z.of_nat (length (bytes_ a)) <= dstlen -> (length dst < length (bytes_ a))%nat -> inet_pton all_ r af name dst dstlen src = UB.
Proof.
  intros Ha K F L D.
  assert (G : fst (getaddrinfo r (if src then 0 else Z.lor all_ 1) name) = Some (a :: l)).
  { unfold getaddrinfo. unfold known in K. destruct (numeric r name); [exact K|].
    destruct src; [exact K|]. destruct Ha as [-> | ->]; exact K. }
  unfold inet_pton. destruct (getaddrinfo r _ name) as [o q]. cbn [fst] in G. subst o. cbn [scan].
  apply Z.leb_le in L. rewrite L, F, Z.eqb_refl. apply Nat.ltb_lt in D. rewrite D. reflexivity.
Qed.
