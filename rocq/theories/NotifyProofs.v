(* Specification and proofs for NotifyModel. *)
From Verif Require Import Base StrModel FdModel FdProofs NotifyModel.

(* ---- specification ---- *)
(* a record as the kernel writes it: the name is followed by at least one NUL when present *)
Record nrec := { nwd : Z; nmask : Z; ncookie : Z; nname : bytes; npad : nat }.
Definition le32 (z : Z) : bytes := [z mod 256; z / 256 mod 256; z / 65536 mod 256; z / 16777216 mod 256]%Z.
Definition nlen (r : nrec) : nat := length (nname r) + npad r.
Definition enc (r : nrec) : bytes := le32 (nwd r) ++ le32 (nmask r) ++ le32 (ncookie r) ++ le32 (Z.of_nat (nlen r)) ++ nname r ++ repeat 0%Z (npad r).
Definition is32 (z : Z) : Prop := (0 <= z < 4294967296)%Z.
Definition wf_rec (r : nrec) : Prop :=
  (0 <= nwd r < 2147483648)%Z /\ is32 (nmask r) /\ is32 (ncookie r) /\ is32 (Z.of_nat (nlen r)) /\ Forall (fun c => c <> 0%Z) (nname r) /\ (nname r = [] -> npad r = 0) /\ (nname r <> [] -> 0 < npad r).
(* the kind of change a record stands for *)
Inductive kind := Added | Removed | Moved | Modified.
Definition bit (m : Z) (k : Z) : bool := Z.testbit m k.
Definition kind_of (m : Z) : option kind :=
  if bit m 8 || bit m 7 then Some Added                       (* IN_CREATE, IN_MOVED_TO *)
  else if bit m 9 || bit m 10 || bit m 6 then Some Removed    (* IN_DELETE, IN_DELETE_SELF, IN_MOVED_FROM *)
  else if bit m 11 then Some Moved                            (* IN_MOVE_SELF *)
  else if bit m 1 || bit m 2 then Some Modified               (* IN_MODIFY, IN_ATTRIB *)
  else None.
Definition kind_bit (k : kind) : Z := match k with Added => 65536 | Removed => 4194304 | Moved => 1024 | Modified => 16384 end%Z.
(* the callback a record must cause; None: none *)
Definition spec_path (dir : Z -> option bytes) (r : nrec) : bytes := match dir (nwd r) with None => nname r | Some d => d ++ 47%Z :: nname r end.
Definition reported (r : nrec) : option kind := match nname r with [] => None | _ => kind_of (nmask r) end.
(* argument says exactly this kind *)
Definition says (ev : Z) (k : kind) : Prop := forall k', Z.land ev (kind_bit k') = if match k, k' with Added, Added | Removed, Removed | Moved, Moved | Modified, Modified => true | _, _ => false end then kind_bit k' else 0%Z.
Inductive delivers (dir : Z -> option bytes) : list nrec -> list call -> Prop :=
| d_nil : delivers dir [] []
| d_skip r rs cs : reported r = None -> delivers dir rs cs -> delivers dir (r :: rs) cs
| d_call r rs c cs k : reported r = Some k -> cwd c = nwd r -> says (cev c) k -> cpath c = spec_path dir r -> delivers dir rs cs -> delivers dir (r :: rs) (c :: cs).

(* ---- proofs ---- *)
Lemma rd_app {A} (pre l : list A) k x : nth_error l k = Some x -> rd (pre ++ l) (length pre + k) = Ok x.
Proof. intros H. apply rd_ok. rewrite nth_error_app2 by lia. now replace (length pre + k - length pre) with k by lia. Qed.
Lemma u32_le pre z post : is32 z -> u32 (pre ++ le32 z ++ post) (length pre) = Ok z.
Proof.
  intros R. unfold u32, is32, le32 in *.
  replace (length pre) with (length pre + 0) at 1 by lia.
  rewrite (rd_app pre _ 0 (z mod 256)%Z) by reflexivity. rewrite (rd_app pre _ 1 (z / 256 mod 256)%Z) by reflexivity.
  rewrite (rd_app pre _ 2 (z / 65536 mod 256)%Z) by reflexivity. rewrite (rd_app pre _ 3 (z / 16777216 mod 256)%Z) by reflexivity. cbn [bind].
  f_equal. replace (z / 65536)%Z with (z / 256 / 256)%Z by (rewrite Z.div_div by lia; reflexivity).
  replace (z / 16777216)%Z with (z / 256 / 256 / 256)%Z by (rewrite !Z.div_div by lia; reflexivity).
  pose proof (Z.div_mod z 256 ltac:(lia)). pose proof (Z.div_mod (z / 256) 256 ltac:(lia)). pose proof (Z.div_mod (z / 256 / 256) 256 ltac:(lia)).
  rewrite (Z.mod_small (z / 256 / 256 / 256)%Z); [lia|]. rewrite !Z.div_div by lia. split; [apply Z.div_pos; lia|apply Z.div_lt_upper_bound; lia].
Qed.
Lemma u32_at l pre z post off : l = pre ++ le32 z ++ post -> off = length pre -> is32 z -> u32 l off = Ok z.
Proof. intros -> -> H. now apply u32_le. Qed.
Lemma cstr_name n post : Forall (fun c => c <> 0%Z) n -> cstr_of (n ++ 0%Z :: post) = Ok n.
Proof. induction 1 as [|c n H F IH]; cbn; [reflexivity|]. apply Z.eqb_neq in H. rewrite H. cbn in IH. rewrite IH. reflexivity. Qed.

Lemma land_pow_zero m k : (0 <= k)%Z -> (Z.land m (2 ^ k) =? 0)%Z = negb (Z.testbit m k).
Proof.
  intros K. destruct (Z.testbit m k) eqn:B; cbn.
  - apply Z.eqb_neq. intros E. assert (H : Z.testbit (Z.land m (2 ^ k)) k = true) by (rewrite Z.land_spec, B, Z.pow2_bits_true by lia; reflexivity).
    rewrite E, Z.bits_0 in H. discriminate.
  - apply Z.eqb_eq. apply Z.bits_inj'. intros j J. rewrite Z.land_spec, Z.bits_0. destruct (Z.eq_dec j k) as [->|NE].
    + now rewrite B.
    + rewrite Z.pow2_bits_false by congruence. apply andb_false_r.
Qed.
Lemma lor_zero a b : (Z.lor a b =? 0)%Z = (a =? 0)%Z && (b =? 0)%Z.
Proof. destruct (Z.eqb_spec (Z.lor a b) 0) as [E|E].
  - apply Z.lor_eq_0_iff in E. destruct E as [-> ->]. reflexivity.
  - destruct (Z.eqb_spec a 0) as [->|]; destruct (Z.eqb_spec b 0) as [->|]; try reflexivity. now contradiction E.
Qed.
Lemma action_kind m : action_of m = match kind_of m with Some k => kind_bit k | None => 0%Z end.
Proof.
  unfold action_of, kind_of, bit. rewrite !Z.land_lor_distr_r, !lor_zero.
  change IN_CREATE with (2 ^ 8)%Z. change IN_MOVED_TO with (2 ^ 7)%Z. change IN_DELETE with (2 ^ 9)%Z. change IN_DELETE_SELF with (2 ^ 10)%Z.
  change IN_MOVED_FROM with (2 ^ 6)%Z. change IN_MOVE_SELF with (2 ^ 11)%Z. change IN_MODIFY with (2 ^ 1)%Z. change IN_ATTRIB with (2 ^ 2)%Z.
  rewrite !land_pow_zero by lia.
  destruct (Z.testbit m 8), (Z.testbit m 7); try reflexivity. destruct (Z.testbit m 9), (Z.testbit m 10), (Z.testbit m 6); try reflexivity.
  destruct (Z.testbit m 11); try reflexivity. destruct (Z.testbit m 1), (Z.testbit m 2); reflexivity.
Qed.
Lemma says_kind k : says (events_arg (kind_bit k)) k.
Proof. intros k'. destruct k, k'; reflexivity. Qed.

(* the table knows every watch that reports a name, and paths fit *)
Definition knows (pm : nat) (info : winfo) (dir : Z -> option bytes) (r : nrec) : Prop :=
  reported r <> None -> match dir (nwd r) with
                        | None => exists p, info (nwd r) = Some (true, p)
                        | Some d => info (nwd r) = Some (false, Some d) /\ length d + 1 + length (nname r) < pm
                        end.

Definition encs (rs : list nrec) : bytes := concat (map enc rs).
Lemma enc_length r : length (enc r) = 16 + nlen r.
Proof. unfold enc, nlen. rewrite !app_length, repeat_length. cbn. lia. Qed.
Lemma walk_delivers pm info dir rs : forall pre fuel, Forall wf_rec rs -> Forall (knows pm info dir) rs -> length rs <= fuel ->
  exists cs, walk fuel pm info (pre ++ encs rs) (length pre) = Ok cs /\ delivers dir rs cs.
Proof.
  induction rs as [|r rs IH]; intros pre fuel W K F.
  - exists []. split; [|constructor]. unfold encs. cbn [map concat]. rewrite app_nil_r. destruct fuel; cbn [walk]; now rewrite Nat.ltb_irrefl.
  - destruct fuel as [|fuel]; [cbn in F; lia|].
    pose proof (Forall_inv W) as (WD & MK & CK & LN & NM & P0 & P1). pose proof (Forall_inv K) as KR.
    destruct (IH (pre ++ enc r) fuel (Forall_inv_tail W) (Forall_inv_tail K) ltac:(cbn in F; lia)) as (cs & WK & DL).
    assert (EQ : pre ++ encs (r :: rs) = (pre ++ enc r) ++ encs rs) by (unfold encs; cbn [map concat]; now rewrite app_assoc).
    rewrite <- EQ in WK. cbn [walk].
    assert (LT : (length pre <? length (pre ++ encs (r :: rs))) = true).
    { apply Nat.ltb_lt. rewrite EQ, !app_length, enc_length. lia. }
    rewrite LT.
    assert (FL : forall z a b, enc r = a ++ le32 z ++ b -> is32 z -> u32 (pre ++ encs (r :: rs)) (length pre + length a) = Ok z).
    { intros z a b E Z. apply (u32_at _ (pre ++ a) z (b ++ encs rs)); [|now rewrite app_length|exact Z].
      rewrite EQ, E, <- !app_assoc. reflexivity. }
    pose proof (FL (Z.of_nat (nlen r)) (le32 (nwd r) ++ le32 (nmask r) ++ le32 (ncookie r)) (nname r ++ repeat 0%Z (npad r))) as FLEN.
    rewrite !app_length in FLEN. cbn [length le32 Nat.add] in FLEN. rewrite FLEN; [|unfold enc; now rewrite <- !app_assoc|exact LN]. cbn [bind].
    rewrite Nat2Z.id. replace (length pre + 16 + nlen r) with (length (pre ++ enc r)) by (rewrite app_length, enc_length; lia).
    rewrite WK. unfold knows, reported in KR.
    destruct (nname r) as [|c n] eqn:EN.
    + assert (nlen r = 0) as -> by (unfold nlen; rewrite EN, (P0 eq_refl); reflexivity). cbn [Z.of_nat Z.eqb bind app].
      exists cs. split; [reflexivity|]. apply d_skip; [unfold reported; now rewrite EN|exact DL].
    + destruct (Z.eqb_spec (Z.of_nat (nlen r)) 0) as [Z|_]; [unfold nlen in Z; rewrite EN in Z; cbn in Z; lia|].
      pose proof (FL (nmask r) (le32 (nwd r)) (le32 (ncookie r) ++ le32 (Z.of_nat (nlen r)) ++ nname r ++ repeat 0%Z (npad r)) eq_refl MK) as FM.
      cbn [length le32] in FM. rewrite FM. cbn [bind]. rewrite action_kind.
      destruct (kind_of (nmask r)) as [k|] eqn:KO.
      2: { cbn [Z.eqb bind app]. exists cs. split; [reflexivity|]. apply d_skip; [unfold reported; now rewrite EN|exact DL]. }
      assert (NZ : (kind_bit k =? 0)%Z = false) by now destruct k. rewrite NZ.
      pose proof (FL (nwd r) [] (le32 (nmask r) ++ le32 (ncookie r) ++ le32 (Z.of_nat (nlen r)) ++ nname r ++ repeat 0%Z (npad r)) eq_refl) as FW.
      cbn [length] in FW. rewrite Nat.add_0_r in FW. rewrite FW by (unfold is32; lia). cbn [bind].
      assert (WS : wraps 32 (nwd r) = nwd r).
      { unfold wraps. change (2 ^ (32 - 1))%Z with 2147483648%Z. change (2 ^ 32)%Z with 4294967296%Z. rewrite Z.mod_small by lia.
        try lia; destruct (Z.ltb_spec (nwd r) 2147483648); lia. }
      rewrite WS.
      assert (SK : cstr_of (skipn (length pre + 16) (pre ++ encs (r :: rs))) = Ok (c :: n)).
      { rewrite EQ. unfold enc. rewrite EN.
        replace ((pre ++ le32 (nwd r) ++ le32 (nmask r) ++ le32 (ncookie r) ++ le32 (Z.of_nat (nlen r)) ++ (c :: n) ++ repeat 0%Z (npad r)) ++ encs rs)
          with ((pre ++ le32 (nwd r) ++ le32 (nmask r) ++ le32 (ncookie r) ++ le32 (Z.of_nat (nlen r))) ++ (c :: n) ++ repeat 0%Z (npad r) ++ encs rs) by now rewrite <- !app_assoc.
        rewrite skipn_app, skipn_all2 by (rewrite !app_length; cbn; lia).
        replace (length pre + 16 - length (pre ++ le32 (nwd r) ++ le32 (nmask r) ++ le32 (ncookie r) ++ le32 (Z.of_nat (nlen r)))) with 0 by (rewrite !app_length; cbn; lia).
        cbn [skipn app]. specialize (P1 ltac:(discriminate)). destruct (npad r) as [|q]; [lia|]. cbn [repeat app].
        exact (cstr_name (c :: n) (repeat 0%Z q ++ encs rs) NM). }
      rewrite SK. cbn [bind].
      assert (PO : path_of pm info (nwd r) (c :: n) = Ok (spec_path dir r)).
      { specialize (KR ltac:(discriminate)). unfold path_of, spec_path. rewrite EN. destruct (dir (nwd r)) as [d|].
        - destruct KR as [-> L]. f_equal. apply firstn_all2. rewrite app_length. unfold slash. cbn in *. lia.
        - destruct KR as [p ->]. reflexivity. }
      rewrite PO. cbn [bind app]. eexists. split; [reflexivity|]. eapply d_call with (k := k); cbn.
      * unfold reported. now rewrite EN.
      * reflexivity.
      * apply says_kind.
      * reflexivity.
      * exact DL.
Qed.
Lemma walk_all pm info dir rs : Forall wf_rec rs -> Forall (knows pm info dir) rs ->
  exists cs, walk (length rs) pm info (encs rs) 0 = Ok cs /\ delivers dir rs cs.
Proof. intros W K. exact (walk_delivers pm info dir rs [] (length rs) W K (le_n _)). Qed.

(* a change to the watched directory itself carries no name and is never reported *)
Lemma self_not_reported pm info wd mask cookie : (0 <= wd < 2147483648)%Z -> is32 mask -> is32 cookie ->
  walk 1 pm info (enc {| nwd := wd; nmask := mask; ncookie := cookie; nname := []; npad := 0 |}) 0 = Ok [].
Proof.
  intros W M C. destruct (walk_all pm info (fun _ => None) [{| nwd := wd; nmask := mask; ncookie := cookie; nname := []; npad := 0 |}]) as (cs & H & D).
  - constructor; [|constructor]. unfold wf_rec. cbn. unfold is32 in *. split; [exact W|]. split; [exact M|]. split; [exact C|]. split; [lia|]. split; [constructor|]. split; [reflexivity|]. intros X. now contradiction X.
  - constructor; [|constructor]. intros X. now contradiction X.
  - unfold encs in H. cbn [map concat] in H. rewrite app_nil_r in H. cbn [length] in H. rewrite H. f_equal.
    inversion D as [| |? ? ? ? ? RE]; subst; [now match goal with H : delivers _ [] _ |- _ => inversion H end|discriminate].
Qed.
(* stepping with inotify_next never reaches the record that follows *)
Lemma next_never_follows r rs : wf_rec r -> next_rec (encs (r :: rs)) (length (encs (r :: rs))) 0 <> Ok (Some (length (enc r))).
Proof.
  intros (WD & MK & CK & LN & _). unfold next_rec. cbn [Nat.eqb].
  assert (U : u32 (encs (r :: rs)) 12 = Ok (Z.of_nat (nlen r))).
  { apply (u32_at _ (le32 (nwd r) ++ le32 (nmask r) ++ le32 (ncookie r)) _ ((nname r ++ repeat 0%Z (npad r)) ++ encs rs)); [|reflexivity|exact LN].
    unfold encs. cbn [map concat]. unfold enc. now rewrite <- !app_assoc. }
  rewrite U. cbn [bind]. rewrite Nat2Z.id, enc_length. destruct (16 * (16 + nlen r) <? length (encs (r :: rs))); [|discriminate].
  intros E. injection E. lia.
Qed.

(* ---- which directory a change is reported for ---- *)
(* as long as the kernel's numbers collide with nothing, the handler finds the directory of each watch *)
Lemma watches_known l : forall s, NoDup (map fst l) -> Forall (fun x => free_at (tab (wtab s)) (fst x) = true) l ->
  exists s', add_watches s l = Ok s' /\ (forall wd p, In (wd, p) l -> info_of s' wd = Some (false, Some p)) /\
             (forall q, free_at (tab (wtab s)) q = false -> info_of s' q = info_of s q).
Proof.
  induction l as [|[wd p] l IH]; intros s ND FR.
  - exists s. split; [reflexivity|]. split; [intros wd p []|reflexivity].
  - cbn [map fst] in ND. apply NoDup_cons_iff in ND. destruct ND as [NI ND]. pose proof (Forall_inv FR) as F0. cbn [fst] in F0.
    destruct (free_used _ _ F0) as (i & e & E & T). pose proof (entry_in _ _ _ _ E) as (P & EI & N & L).
    cbn [add_watches]. unfold add_watch, fd_new. cbn [grows bind]. unfold pick. rewrite F0. cbn [bind fst snd].
    destruct (Z.ltb_spec (Z.of_nat (Z.to_nat wd)) 0); [lia|].
    set (s1 := {| wtab := _; wpath := _ |}).
    assert (OTHER : forall q, q <> wd -> free_at (tab (wtab s1)) q = free_at (tab (wtab s)) q).
    { intros q Q. unfold free_at, s1. cbn [wtab tab]. destruct (Z.leb_spec 0 q); [|reflexivity]. cbn [andb]. rewrite set_nth_other by lia. reflexivity. }
    assert (SELF : free_at (tab (wtab s1)) wd = false).
    { unfold free_at, s1. cbn [wtab tab]. rewrite set_nth_same by lia. cbn. apply andb_false_r. }
    destruct (IH s1 ND) as (s2 & A & K & O).
    { apply Forall_forall. intros [q b] Q. cbn [fst]. rewrite OTHER.
      - pose proof (Forall_inv_tail FR) as FT. rewrite Forall_forall in FT. exact (FT (q, b) Q).
      - intros ->. apply NI. apply in_map_iff. exists (wd, b). auto. }
    exists s2. split; [exact A|]. split.
    + intros q b [[= <- <-]|Q]; [|exact (K q b Q)]. rewrite (O wd SELF). unfold info_of, s1. cbn [wtab tab wpath]. unfold fd_entry.
      destruct (Z.ltb_spec wd 0); [lia|]. rewrite set_nth_same by lia. rewrite Nat2Z.id, Nat.eqb_refl. reflexivity.
    + intros q Q. assert (QW : q <> wd) by congruence. rewrite O by (rewrite OTHER; assumption).
      unfold info_of, s1, fd_entry. cbn [wtab tab wpath]. destruct (Z.ltb_spec q 0); [reflexivity|]. rewrite set_nth_other by lia.
      destruct (nth_error (tab (wtab s)) (Z.to_nat q)); [|reflexivity]. rewrite Nat2Z.id. destruct (Nat.eqb_spec (Z.to_nat q) (Z.to_nat wd)); [lia|reflexivity].
Qed.
(* the watch whose number equals the notification descriptor's number: its changes are undefined *)
Lemma watch_collides n fd p : (0 < fd < Z.of_nat n)%Z -> (2 < n) ->
  exists s h s' h', notify_init (wst0 n) fd = Ok (s, h) /\ add_watch s fd false p = Ok (s', h') /\ h' <> fd /\
  forall pm name, path_of pm (info_of s') fd name = UB.
Proof.
  intros F N. assert (L : Z.to_nat fd < n) by lia.
  assert (NR : forall i, i < n -> nth_error (repeat ent0 n) i = Some ent0).
  { intros i I. destruct (nth_error (repeat ent0 n) i) as [e|] eqn:X; [apply nth_error_In, repeat_spec in X; congruence|].
    apply nth_error_None in X. rewrite repeat_length in X. lia. }
  assert (FE : free_at (repeat ent0 n) fd = true). { unfold free_at. rewrite NR by lia. destruct (Z.leb_spec 0 fd); [reflexivity|lia]. }
  unfold notify_init, fd_new, wst0. cbn [grows bind fst0 tab wtab closed]. unfold pick. rewrite FE. cbn [bind fst snd].
  destruct (Z.ltb_spec (Z.of_nat (Z.to_nat fd)) 0); [lia|]. do 2 eexists.
  assert (X : exists s' h', add_watch {| wtab := {| tab := set_nth (Z.to_nat fd) {| ety := FD_MONITOR_ASYNC; efd := fd; eev := fd |} (repeat ent0 n); closed := [] |};
      wpath := fun k => if k =? Z.to_nat (Z.of_nat (Z.to_nat fd)) then (false, None) else (false, None) |} fd false p = Ok (s', h') /\ h' <> fd /\
      forall pm name, path_of pm (info_of s') fd name = UB).
  2: { destruct X as (s' & h' & X). exists s', h'. split; [reflexivity|exact X]. }
  set (t := set_nth _ _ _).
  assert (TF : nth_error t (Z.to_nat fd) = Some {| ety := FD_MONITOR_ASYNC; efd := fd; eev := fd |}) by (apply set_nth_same; rewrite repeat_length; lia).
  assert (TN : free_at t fd = false). { unfold free_at. rewrite TF. cbn. apply andb_false_r. }
  unfold add_watch, fd_new. cbn [wtab tab grows bind closed]. unfold pick. rewrite TN. assert (LE : (0 <? fd)%Z = true) by (apply Z.ltb_lt; lia). rewrite LE.
  destruct (first_free t 0) as [i|] eqn:FF.
  - pose proof (first_free_some _ _ _ FF) as (_ & I0 & e & NE & EE). rewrite Nat.sub_0_r in NE.
    assert (IF : i <> Z.to_nat fd). { intros ->. rewrite TF in NE. injection NE as <-. discriminate. }
    cbn [bind fst snd]. destruct (Z.ltb_spec (Z.of_nat i) 0); [lia|]. do 2 eexists. split; [reflexivity|]. split; [lia|].
    intros pm name. unfold path_of, info_of, fd_entry. cbn [wtab tab wpath]. destruct (Z.ltb_spec fd 0); [lia|].
    rewrite set_nth_other by congruence. rewrite TF. rewrite !Nat2Z.id. destruct (Nat.eqb_spec (Z.to_nat fd) i); [congruence|]. rewrite Nat.eqb_refl. reflexivity.
  - exfalso. destruct (Nat.eq_dec (Z.to_nat fd) 1) as [E1|E1].
    + apply (first_free_none t 0 FF 2 ent0); [|lia|reflexivity]. unfold t. rewrite set_nth_other by lia. now apply NR.
    + apply (first_free_none t 0 FF 1 ent0); [|lia|reflexivity]. unfold t. rewrite set_nth_other by lia. apply NR. lia.
Qed.

(* ---- one watch ---- *)
Lemma watch_one s wd top p : free_at (tab (wtab s)) wd = true ->
  exists s', add_watch s wd top p = Ok (s', wd) /\ forall pm name, path_of pm (info_of s') wd name =
    Ok (if top then name else firstn (pm - 1) (p ++ slash :: name)).
Proof.
  intros F. unfold add_watch, fd_new. cbn [grows bind]. unfold pick. rewrite F.
  pose proof F as F'. unfold free_at in F'. apply andb_true_iff in F'. destruct F' as [P E]. apply Z.leb_le in P.
  destruct (nth_error (tab (wtab s)) (Z.to_nat wd)) as [e|] eqn:N; [|discriminate].
  cbn [bind fst snd]. rewrite Z2Nat.id by lia. destruct (Z.ltb_spec wd 0); [lia|]. eexists. split; [reflexivity|].
  intros pm name. unfold path_of, info_of, fd_entry. cbn [wtab tab wpath]. destruct (Z.ltb_spec wd 0); [lia|].
  rewrite set_nth_same by (apply nth_error_Some; congruence). rewrite Nat.eqb_refl. destruct top; reflexivity.
Qed.
Lemma watch_full s wd top p : (forall i, free_at (tab (wtab s)) (Z.of_nat i) = false) -> add_watch s wd top p = UB.
Proof.
  intros F. unfold add_watch, fd_new. cbn [grows bind]. unfold pick.
  assert (FA : free_at (tab (wtab s)) wd = false).
  { destruct (Z.ltb_spec wd 0).
    - unfold free_at. destruct (Z.leb_spec 0 wd); [lia|reflexivity].
    - rewrite <- (Z2Nat.id wd) by lia. apply F. }
  rewrite FA. assert (FF : forall t k, (forall i, free_at t (Z.of_nat i) = false) -> first_free t k = None).
  { induction t as [|e t IH]; intros k H; cbn [first_free]; auto.
    assert (ety e =? 0 = false). { specialize (H 0). unfold free_at in H. cbn in H. exact H. }
    rewrite H0, andb_false_r. apply IH. intros i. specialize (H (S i)). unfold free_at in *. rewrite Nat2Z.id in *. cbn [nth_error] in H.
    replace (0 <=? Z.of_nat (S i))%Z with true in H by (symmetry; apply Z.leb_le; lia). replace (0 <=? Z.of_nat i)%Z with true by (symmetry; apply Z.leb_le; lia). exact H. }
  rewrite FF by auto. destruct (0 <? wd)%Z; reflexivity.
Qed.
Lemma own_entry s fd : free_at (tab (wtab s)) fd = true -> exists s', notify_init s fd = Ok (s', fd) /\
  forall pm name, path_of pm (info_of s') fd name = UB.
Proof.
  intros F. unfold notify_init, fd_new. cbn [grows bind]. unfold pick. rewrite F.
  pose proof F as F'. unfold free_at in F'. apply andb_true_iff in F'. destruct F' as [P E]. apply Z.leb_le in P.
  destruct (nth_error (tab (wtab s)) (Z.to_nat fd)) as [e|] eqn:N; [|discriminate].
  cbn [bind fst snd]. rewrite Z2Nat.id by lia. destruct (Z.ltb_spec fd 0); [lia|]. eexists. split; [reflexivity|].
  intros pm name. unfold path_of, info_of, fd_entry. cbn [wtab tab wpath]. destruct (Z.ltb_spec fd 0); [lia|].
  rewrite set_nth_same by (apply nth_error_Some; congruence). now rewrite Nat.eqb_refl.
Qed.
Lemma path_cut pm info wd d name : info wd = Some (false, Some d) -> 0 < pm -> pm <= length d + 1 + length name ->
  exists p, path_of pm info wd name = Ok p /\ length p = pm - 1 /\ p <> d ++ 47%Z :: name.
Proof.
  intros I P L. unfold path_of. rewrite I. eexists. split; [reflexivity|].
  assert (LL : length (firstn (pm - 1) (d ++ slash :: name)) = pm - 1) by (rewrite firstn_length, app_length; cbn [length]; lia).
  split; auto. intros E. rewrite E, app_length in LL. cbn [length] in LL. lia.
Qed.
