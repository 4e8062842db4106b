(* Specification and proofs for WmModel. *)
From Verif Require Import Base WmModel.

(* ---- specification: what the kernel puts into the buffer ---- *)
Definition le16 (v : Z) : bytes := [v mod 256; v / 256 mod 256]%Z.
Definition le32 (v : Z) : bytes := le16 (v mod 65536) ++ le16 (v / 65536).
Definition notice := (Z * list Z)%type.
Definition body (r : notice) : bytes := le32 (fst r) ++ le32 (2 * Z.of_nat (length (snd r))) ++ flat_map le16 (snd r).
Definition pad (n : nat) : nat := (4 - n mod 4) mod 4.
Definition rec_len (r : notice) : nat := 12 + 2 * length (snd r) + pad (2 * length (snd r)).
(* records one after another, each with the distance to the next in bytes, the last with 0 *)
Fixpoint enc (l : list notice) : bytes :=
  match l with
  | [] => []
  | r :: k => le32 (match k with [] => 0%Z | _ => Z.of_nat (rec_len r) end) ++ body r ++
              match k with [] => [] | _ => repeat 0%Z (pad (2 * length (snd r))) ++ enc k end
  end.
Definition fine (r : notice) : Prop := (0 <= fst r < 4294967296)%Z /\ Forall (fun c => 0 <= c < 65536)%Z (snd r) /\ (2 * Z.of_nat (length (snd r)) < 4294967296)%Z.
Definition plain (n : bytes) : Prop := Forall (fun c => c <> 0%Z) n.

(* the kernel's number of an action and the bit the watcher is given: added, removed, modified, moved *)
Definition means (a i : Z) : Prop :=
  (a = 1 /\ i = 0x10000 \/ a = 2 /\ i = 0x400000 \/ a = 3 /\ i = 0x4000 \/ (a = 4 \/ a = 5) /\ i = 0x400)%Z.
Definition kinds := [0x10000; 0x4000; 0x400000; 0x400]%Z.

(* ---- proofs ---- *)
Lemma u16_at a v b : (0 <= v < 65536)%Z -> u16 (a ++ le16 v ++ b) (length a) = Ok v.
Proof.
  intros V. unfold u16, rd. rewrite (nth_error_app2 a) by lia. rewrite (nth_error_app2 a (le16 v ++ b) (n := length a + 1)) by lia.
  replace (length a + 1 - length a) with 1 by lia. rewrite Nat.sub_diag. cbn [le16 app nth_error bind]. f_equal. lia.
Qed.
Lemma u32_at a v b : (0 <= v < 4294967296)%Z -> u32 (a ++ le32 v ++ b) (length a) = Ok v.
Proof.
  intros V. unfold u32, le32. rewrite <- app_assoc. rewrite u16_at by lia. cbn [bind].
  rewrite app_assoc. replace (length a + 2) with (length (a ++ le16 (v mod 65536))) by (rewrite app_length; reflexivity).
  rewrite u16_at by lia. cbn [bind]. f_equal. lia.
Qed.
Lemma wides_at w : forall a b, Forall (fun c => 0 <= c < 65536)%Z w -> wides (a ++ flat_map le16 w ++ b) (length a) (length w) = Ok w.
Proof.
  induction w as [|c w IH]; intros a b F; [reflexivity|]. cbn [flat_map length wides]. rewrite <- app_assoc.
  rewrite u16_at by (exact (Forall_inv F)). cbn [bind]. rewrite app_assoc.
  replace (length a + 2) with (length (a ++ le16 c)) by (rewrite app_length; reflexivity). rewrite IH by (exact (Forall_inv_tail F)). reflexivity.
Qed.
Lemma le32_len v : length (le32 v) = 4.
Proof. reflexivity. Qed.
(* a record anywhere in the buffer *)
Lemma at_record a n r b : fine r -> (0 <= n < 4294967296)%Z -> let buf := a ++ le32 n ++ body r ++ b in
  u32 buf (length a) = Ok n /\ u32 buf (length a + 4) = Ok (fst r) /\ wname buf (length a) = Ok (snd r).
Proof.
  intros (F1 & F2 & F3) N buf. set (ln := (2 * Z.of_nat (length (snd r)))%Z) in *. set (fn := flat_map le16 (snd r)).
  assert (B4 : buf = (a ++ le32 n) ++ le32 (fst r) ++ (le32 ln ++ fn ++ b)) by (unfold buf, body, fn, ln; now rewrite <- !app_assoc).
  assert (B8 : buf = ((a ++ le32 n) ++ le32 (fst r)) ++ le32 ln ++ (fn ++ b)) by (rewrite B4; now rewrite <- !app_assoc).
  assert (B12 : buf = (((a ++ le32 n) ++ le32 (fst r)) ++ le32 ln) ++ fn ++ b) by (rewrite B8; now rewrite <- !app_assoc).
  assert (P4 : length a + 4 = length (a ++ le32 n)) by (rewrite app_length; reflexivity).
  assert (P8 : length a + 8 = length ((a ++ le32 n) ++ le32 (fst r))) by (rewrite !app_length, !le32_len; lia).
  assert (P12 : length a + 12 = length (((a ++ le32 n) ++ le32 (fst r)) ++ le32 ln)) by (rewrite !app_length, !le32_len; lia).
  split; [now apply u32_at|]. split.
  - rewrite P4, B4. now apply u32_at.
  - unfold wname. rewrite P8, P12. rewrite B8 at 1. rewrite u32_at by (unfold ln in *; lia). cbn [bind].
    replace (Z.to_nat ln / 2) with (length (snd r)).
    2: { replace (Z.to_nat ln) with (length (snd r) * 2) by (unfold ln; lia). now rewrite Nat.div_mul. }
    rewrite B12. now apply wides_at.
Qed.
Lemma enc_first r k : exists rest, enc (r :: k) = le32 (match k with [] => 0%Z | _ => Z.of_nat (rec_len r) end) ++ body r ++ rest.
Proof. cbn [enc]. eexists. reflexivity. Qed.

Lemma upto0_plain n : plain n -> forall z, upto0 (n ++ 0%Z :: z) = n.
Proof. induction n as [|c n IH]; intros P z; [reflexivity|]. cbn. pose proof (Forall_inv P) as C. destruct (Z.eqb_spec c 0); [contradiction|]. f_equal. apply IH. exact (Forall_inv_tail P). Qed.
Lemma handler_first conv junk r k tail : fine r -> (Z.of_nat (rec_len r) < 4294967296)%Z -> length (conv (snd r)) <= 255 -> plain (conv (snd r)) ->
  handler conv junk (enc (r :: k) ++ tail) = Ok (if (action_of (fst r) =? 0)%Z then None else Some (Z.lor (action_of (fst r)) (Z.lnot ALL), conv (snd r))).
Proof.
  intros F L N P. destruct (enc_first r k) as (rest & E). rewrite E. set (n := match k with [] => 0%Z | _ => Z.of_nat (rec_len r) end) in *.
  assert (B : (0 <= n < 4294967296)%Z) by (unfold n; destruct k; lia).
  destruct (at_record [] n r (rest ++ tail) F B) as (A1 & A2 & A3). cbn [length app Nat.add] in A1, A2, A3.
  unfold handler. rewrite <- !app_assoc. rewrite A2. cbn [bind]. destruct (action_of (fst r) =? 0)%Z; [reflexivity|]. rewrite A3. cbn [bind].
  unfold to_bytes. change 255 with NAME_MAX in N. destruct (Nat.leb_spec (length (conv (snd r))) NAME_MAX); [|lia].
  replace (skipn (length (conv (snd r))) (repeat 0%Z (NAME_MAX + 1))) with (0%Z :: repeat 0%Z (NAME_MAX - length (conv (snd r)))).
  - now rewrite upto0_plain.
  - replace (NAME_MAX + 1) with (length (conv (snd r)) + (1 + (NAME_MAX - length (conv (snd r))))) by lia.
    rewrite repeat_app, skipn_app, repeat_length, Nat.sub_diag. rewrite skipn_all2 by (rewrite repeat_length; lia). reflexivity.
Qed.
(* which bits are set *)
Lemma bits a i : (action_of a <> 0)%Z -> In i kinds -> (Z.land (Z.lor (action_of a) (Z.lnot ALL)) i <> 0)%Z <-> means a i.
Proof.
  intros A I. unfold means, action_of in *.
  destruct (Z.eqb_spec a 1) as [->|N1]; [|destruct (Z.eqb_spec a 2) as [->|N2]; [|destruct (Z.eqb_spec a 3) as [->|N3]; [|destruct (Z.eqb_spec a 4) as [->|N4]; [|destruct (Z.eqb_spec a 5) as [->|N5]; [|now contradiction A]]]]];
  unfold kinds in I; cbn in I; (destruct I as [<-|[<-|[<-|[<-|[]]]]]); (split; intros H; [first [lia | exfalso; apply H; reflexivity]|first [exfalso; lia | discriminate]]).
Qed.
Lemma no_action a : action_of a = 0%Z -> forall i, ~ means a i.
Proof.
  unfold action_of, means. intros H i M.
  destruct M as [(-> & _)|[(-> & _)|[(-> & _)|([-> | ->] & _)]]]; discriminate.
Qed.
Lemma handler_is conv junk r k tail : fine r -> (Z.of_nat (rec_len r) < 4294967296)%Z -> length (conv (snd r)) <= 255 -> plain (conv (snd r)) ->
  exists res, handler conv junk (enc (r :: k) ++ tail) = Ok res /\ match res with
    | None => forall i, ~ means (fst r) i
    | Some (ev, name) => name = conv (snd r) /\ (exists i, means (fst r) i) /\ forall i, In i kinds -> (Z.land ev i <> 0)%Z <-> means (fst r) i
    end.
Proof.
  intros F L N P. rewrite (handler_first conv junk r k tail F L N P). destruct (Z.eqb_spec (action_of (fst r)) 0) as [A|A]; eexists; (split; [reflexivity|]).
  - exact (no_action _ A).
  - split; [reflexivity|]. split; [|intros i I; now apply bits]. unfold action_of in A. unfold means.
    destruct (Z.eqb_spec (fst r) 1) as [->|N1]; [eexists; left; split; reflexivity|]. destruct (Z.eqb_spec (fst r) 2) as [->|N2]; [eexists; right; left; split; reflexivity|].
    destruct (Z.eqb_spec (fst r) 3) as [->|N3]; [eexists; do 2 right; left; split; reflexivity|].
    destruct (Z.eqb_spec (fst r) 4) as [->|N4]; [exists 0x400%Z; lia|].
    destruct (Z.eqb_spec (fst r) 5) as [->|N5]; [exists 0x400%Z; lia|]. now contradiction A.
Qed.

(* a single notice is walked over *)
Lemma walk_one r f tail : fine r -> walk (S f) (enc [r] ++ tail) 0 = Ok [r].
Proof.
  intros F. cbn [enc]. rewrite app_nil_r. destruct (at_record [] 0%Z r tail F ltac:(lia)) as (A1 & A2 & A3). cbn [length app Nat.add] in A1, A2, A3.
  rewrite <- app_assoc. cbn [walk Nat.add]. rewrite A2. cbn [bind]. rewrite A3. cbn [bind]. unfold next. rewrite A1. cbn. now destruct r.
Qed.
(* with more of them the second is looked for in the wrong place *)
Lemma next_wrong r1 r2 k tail : fine r1 -> (Z.of_nat (rec_len r1) < 4294967296)%Z ->
  next (enc (r1 :: r2 :: k) ++ tail) 0 = Ok (Some (16 * rec_len r1)) /\ exists front, enc (r1 :: r2 :: k) = front ++ enc (r2 :: k) /\ length front = rec_len r1 /\ rec_len r1 < 16 * rec_len r1.
Proof.
  intros F L. split.
  - destruct (enc_first r1 (r2 :: k)) as (rest & E). rewrite E. cbn in E.
    destruct (at_record [] (Z.of_nat (rec_len r1)) r1 (rest ++ tail) F ltac:(lia)) as (A1 & _ & _). cbn [length app] in A1.
    rewrite <- !app_assoc. unfold next. rewrite A1. cbn [bind]. destruct (Z.eqb_spec (Z.of_nat (rec_len r1)) 0) as [Z|Z]; [unfold rec_len in Z; lia|].
    unfold REC_SIZE. cbn [Nat.add]. now rewrite Nat2Z.id.
  - exists (le32 (Z.of_nat (rec_len r1)) ++ body r1 ++ repeat 0%Z (pad (2 * length (snd r1)))). split; [|split].
    + cbn [enc]. now rewrite <- !app_assoc.
    + unfold body. rewrite !app_length, repeat_length, !le32_len. unfold rec_len.
      assert (G : length (flat_map le16 (snd r1)) = 2 * length (snd r1)) by (induction (snd r1) as [|c w IH]; cbn; lia). lia.
    + unfold rec_len. lia.
Qed.
Lemma rd_out {A} (b : list A) p : length b <= p -> rd b p = UB.
Proof. intros L. unfold rd. apply nth_error_None in L. now rewrite L. Qed.
Lemma walk_out r1 r2 k tail f : fine r1 -> (Z.of_nat (rec_len r1) < 4294967296)%Z -> length (enc (r1 :: r2 :: k) ++ tail) <= 16 * rec_len r1 ->
  walk (S (S f)) (enc (r1 :: r2 :: k) ++ tail) 0 = UB.
Proof.
  intros F L B. destruct (next_wrong r1 r2 k tail F L) as (NX & _).
  destruct (enc_first r1 (r2 :: k)) as (rest & E).
  assert (AR : u32 (enc (r1 :: r2 :: k) ++ tail) 4 = Ok (fst r1) /\ wname (enc (r1 :: r2 :: k) ++ tail) 0 = Ok (snd r1)).
  { rewrite E. rewrite <- !app_assoc. destruct (at_record [] (Z.of_nat (rec_len r1)) r1 (rest ++ tail) F ltac:(lia)) as (_ & A2 & A3). auto. }
  destruct AR as (A2 & A3). set (buf := enc (r1 :: r2 :: k) ++ tail) in *. cbn [walk]. cbn [Nat.add]. rewrite A2. cbn [bind]. rewrite A3. cbn [bind]. rewrite NX. cbn [bind].
  unfold u32 at 1, u16 at 1. rewrite rd_out by lia. reflexivity.
Qed.

(* a name is written over the one before *)
Lemma name_over conv junk r k tail room prev z : fine r -> (Z.of_nat (rec_len r) < 4294967296)%Z -> length (conv (snd r)) <= room ->
  plain (conv (snd r)) -> plain prev ->
  exists out, name_of conv junk (enc (r :: k) ++ tail) 0 room (prev ++ 0%Z :: z) = Ok out /\
    (length prev <= length (conv (snd r)) <= length prev + length z -> Forall (eq 0%Z) z -> upto0 out = conv (snd r)) /\
    (length (conv (snd r)) < length prev -> upto0 out = conv (snd r) ++ skipn (length (conv (snd r))) prev).
Proof.
  intros F L N P Q. destruct (enc_first r k) as (rest & E). rewrite E. set (n := match k with [] => 0%Z | _ => Z.of_nat (rec_len r) end) in *.
  assert (B : (0 <= n < 4294967296)%Z) by (unfold n; destruct k; lia).
  destruct (at_record [] n r (rest ++ tail) F B) as (A1 & A2 & A3). cbn [length app Nat.add] in A1, A2, A3.
  unfold name_of. rewrite <- !app_assoc, A3. cbn [bind]. unfold to_bytes. destruct (Nat.leb_spec (length (conv (snd r))) room); [|lia].
  eexists. split; [reflexivity|]. set (c := conv (snd r)) in *. split.
  - intros (L1 & L2) ZZ. rewrite skipn_app. rewrite skipn_all2 by lia. cbn [app].
    destruct (skipn (length c - length prev) (0%Z :: z)) as [|x y] eqn:SK.
    + exfalso. apply (f_equal (@length Z)) in SK. rewrite skipn_length in SK. cbn [length] in SK. lia.
    + assert (X : x = 0%Z).
      { assert (H0 : nth_error (skipn (length c - length prev) (0%Z :: z)) 0 = Some x) by now rewrite SK. rewrite nth_error_skipn, Nat.add_0_r in H0.
        destruct (length c - length prev) as [|j]; cbn in H0; [congruence|]. apply nth_error_In in H0. symmetry. exact (proj1 (Forall_forall _ _) ZZ x H0). }
      subst x. now apply upto0_plain.
  - intros L1. rewrite skipn_app. replace (length c - length prev) with 0 by lia. cbn [skipn]. rewrite app_assoc. apply upto0_plain.
    apply Forall_app. split; [exact P|]. clear -Q. revert Q. generalize (length c). intros m. revert m. induction prev as [|a l IH]; intros [|m] Q; cbn; auto. apply IH. exact (Forall_inv_tail Q).
Qed.

(* ---- watches ---- *)
Record watch := { w_slot : Z; w_handle : Z; w_name : nat; w_subs : list nat }.
Definition adds (m : mon) (l : list watch) : mon := fold_left (fun m w => add m (w_slot w) (w_handle w) (w_name w) (w_subs w)) l m.
Lemma adds_are l : forall m, slots (adds m l) = slots m ++ map (fun w => (w_slot w, w_handle w)) l /\ closed (adds m l) = closed m /\
  mlist (adds m l) = mlist m ++ flat_map (fun w => (w_slot w, w_name w) :: map (fun d => (w_slot w, d)) (w_subs w)) l /\ mopen (adds m l) = mopen m.
Proof.
  induction l as [|w l IH]; intros m; [cbn; rewrite !app_nil_r; auto|]. unfold adds in *. cbn [fold_left]. destruct (IH (add m (w_slot w) (w_handle w) (w_name w) (w_subs w))) as (A & B & C & D).
  rewrite A, B, C, D. cbn [add slots closed mlist mopen map flat_map]. rewrite <- !app_assoc. auto.
Qed.
Lemma adds_last l w m : mh (adds m (l ++ [w])) = w_handle w /\ mwork (adds m (l ++ [w])) = Some (w_name w) /\ mlast (adds m (l ++ [w])) = w_slot w.
Proof. unfold adds. rewrite fold_left_app. auto. Qed.
Lemma count_all l : count (adds mon0 l) = length l + fold_right (fun w n => length (w_subs w) + n) 0 l.
Proof.
  unfold count. destruct (adds_are l mon0) as (_ & _ & -> & _). cbn [mon0 mlist app]. induction l as [|w l IH]; [reflexivity|].
  cbn [flat_map length fold_right]. rewrite app_length. cbn [length]. rewrite map_length, IH. lia.
Qed.
(* one watch is taken away by closing the monitor: the handle closed is that of the last watch *)
Lemma del_last l w wd : closed (fst (fst (del (adds mon0 (l ++ [w])) wd None))) = [w_handle w] /\
  slots (fst (fst (del (adds mon0 (l ++ [w])) wd None))) = map (fun w => (w_slot w, w_handle w)) (l ++ [w]) /\
  mlist (fst (fst (del (adds mon0 (l ++ [w])) wd None))) = [] /\ mopen (fst (fst (del (adds mon0 (l ++ [w])) wd None))) = false.
Proof.
  cbn [del fst close_mon closed slots mlist mopen]. destruct (adds_are (l ++ [w]) mon0) as (A & B & _ & _). rewrite A, B.
  destruct (adds_last l w mon0) as (-> & _). auto.
Qed.
(* the others still read into the buffer that was freed *)
Lemma del_pending l w wd : NoDup (map w_handle (l ++ [w])) ->
  pending (fst (fst (del (adds mon0 (l ++ [w])) wd None))) = map w_handle l.
Proof.
  intros ND. destruct (del_last l w wd) as (C & S & _ & _). unfold pending. rewrite C, S. rewrite map_map. cbn [snd].
  rewrite map_app, filter_app. cbn [map filter existsb]. rewrite Z.eqb_refl. cbn [orb negb]. rewrite app_nil_r.
  rewrite map_app in ND. cbn [map] in ND. apply NoDup_remove_2 in ND. rewrite app_nil_r in ND.
  clear C S. induction l as [|x l IH]; [reflexivity|]. cbn [map filter existsb]. cbn [map] in ND. destruct (Z.eqb_spec (w_handle x) (w_handle w)) as [E|E].
  - exfalso. apply ND. left. exact E.
  - cbn [orb negb]. f_equal. apply IH. intros H. apply ND. now right.
Qed.
(* within a watcher: the entry with the name goes, no handle is closed *)
Lemma del_inside m wd d : closed (fst (fst (del m wd (Some d)))) = closed m /\ slots (fst (fst (del m wd (Some d)))) = slots m /\ mopen (fst (fst (del m wd (Some d)))) = mopen m.
Proof. cbn [del]. destruct (drop_first d (mlist m)); auto. Qed.
Lemma path_last l w wd : path_at (adds mon0 (l ++ [w])) wd = Some (w_name w).
Proof. unfold path_at. apply adds_last. Qed.
Lemma drop_first_is d l q : drop_first d l = Some q -> exists pre w post, l = pre ++ (w, d) :: post /\ q = pre ++ post /\ Forall (fun x => snd x <> d) pre.
Proof.
  revert q. induction l as [|[w n] l IH]; intros q H; cbn [drop_first] in H; [discriminate|]. destruct (Nat.eqb_spec n d) as [->|N].
  - injection H as <-. exists [], w, l. auto.
  - destruct (drop_first d l) as [r|]; [|discriminate]. injection H as <-. destruct (IH r eq_refl) as (pre & w2 & post & -> & -> & F).
    exists ((w, n) :: pre), w2, post. repeat split; auto.
Qed.
Lemma drop_first_none d l : drop_first d l = None -> Forall (fun x => snd x <> d) l.
Proof.
  induction l as [|[w n] l IH]; intros H; cbn [drop_first] in H; [constructor|]. destruct (Nat.eqb_spec n d) as [->|N]; [discriminate|].
  destruct (drop_first d l); [discriminate|]. constructor; [exact N|auto].
Qed.
Lemma del_inside_list m wd d : (exists pre w post, mlist m = pre ++ (w, d) :: post /\ Forall (fun x => snd x <> d) pre /\ mlist (fst (fst (del m wd (Some d)))) = pre ++ post) \/
  (Forall (fun x => snd x <> d) (mlist m) /\ fst (fst (del m wd (Some d))) = m).
Proof.
  cbn [del]. destruct (drop_first d (mlist m)) as [q|] eqn:E.
  - left. destruct (drop_first_is _ _ _ E) as (pre & w & post & A & B & C). exists pre, w, post. subst q. auto.
  - right. apply drop_first_none in E. auto.
Qed.
Lemma handler_rest conv junk r k tail : fine r -> (Z.of_nat (rec_len r) < 4294967296)%Z -> length (conv (snd r)) <= 255 -> plain (conv (snd r)) ->
  handler conv junk (enc (r :: k) ++ tail) = handler conv junk (enc [r]).
Proof. intros F L N P. rewrite (handler_first conv junk r k tail F L N P). symmetry. rewrite <- (app_nil_r (enc [r])). now apply handler_first. Qed.
Lemma del_taken m wd d : snd (fst (del m wd (Some d))) = true <-> mlist (fst (fst (del m wd (Some d)))) = [].
Proof. unfold del. cbn [fst snd]. destruct (drop_first d (mlist m)); cbn [mlist]; [destruct l|destruct (mlist m)]; split; easy. Qed.
