(* Specification and proofs for UriModel. *)
From Verif Require Import Base StrModel StrProofs UriModel.

(* ---- specification: components and the text made of them ---- *)
Record parts := { c_scheme : bytes; c_user : option (bytes * option bytes); c_host : bytes; c_port : option bytes;
  c_path : bytes; c_query : option bytes; c_frag : option bytes }.
Definition free (cs : list Z) (l : bytes) : Prop := forall c, In c l -> ~ In c cs.
Definition r_user (u : option (bytes * option bytes)) : bytes :=
  match u with None => [] | Some (a, None) => a ++ [64%Z] | Some (a, Some b) => a ++ 58%Z :: b ++ [64%Z] end.
Definition r_opt (c : Z) (x : option bytes) : bytes := match x with None => [] | Some l => c :: l end.
Definition render (p : parts) : bytes :=
  c_scheme p ++ [58; 47; 47]%Z ++ r_user (c_user p) ++ c_host p ++ r_opt 58 (c_port p) ++ c_path p ++ r_opt 63 (c_query p) ++ r_opt 35 (c_frag p).
Definition letter (c : Z) : Prop := (65 <= c <= 90 \/ 97 <= c <= 122 \/ 48 <= c <= 57 \/ c = 43 \/ c = 45 \/ c = 46)%Z.
Definition digit (c : Z) : Prop := (48 <= c <= 57)%Z.
Definition delims : list Z := [47; 63; 35]%Z.     (* / ? # *)
Fixpoint value (v : Z) (ds : bytes) : Z := match ds with [] => v | d :: r => value (10 * v + (d - 48))%Z r end.
Definition wf_parts (p : parts) : Prop :=
  (c_scheme p <> [] /\ Forall letter (c_scheme p)) /\
  (match c_user p with None => True | Some (a, b) => free (58%Z :: delims) a /\ match b with None => True | Some b => free delims b end end) /\
  (c_host p <> [] /\ free (64%Z :: delims) (c_host p)) /\
  (match c_port p with
   | Some d => d <> [] /\ length d <= 5 /\ Forall digit d /\ (value 0 d <= 65535)%Z
   | None => free [58%Z] (c_host p) \/ exists x, c_host p = 91%Z :: x ++ [93%Z] end) /\
  (free [63; 35]%Z (c_path p) /\ match c_path p with [] => True | c :: _ => c = 47%Z end) /\
  (match c_query p with None => True | Some q => free [35%Z] q end) /\
  Forall (fun c => 32 <= c /\ c <> 127)%Z (render p).
Definition nonempty (l : bytes) : option bytes := match l with [] => None | _ => Some l end.
Definition opt_nonempty (x : option bytes) : option bytes := match x with None => None | Some l => nonempty l end.
Definition result (p : parts) : uri :=
  {| urej := false; uport := match c_port p with Some d => value 0 d | None => 0 end; uscheme := Some (c_scheme p);
     uuser := match c_user p with None => None | Some (a, _) => Some a end;
     upass := match c_user p with None => None | Some (_, b) => b end;
     uhost := Some (c_host p); upath := nonempty (c_path p); uquery := opt_nonempty (c_query p); ufrag := opt_nonempty (c_frag p) |}.

(* ---- safety: never outside the text ---- *)
Section Safe.
Variable str : bytes.
Lemma range_ok s e : s <= e <= length str -> exists l, range str s e = Ok l /\ length l = e - s.
Proof.
  intros H. unfold range, ue. destruct (Nat.ltb_spec e s); [lia|]. destruct (Nat.ltb_spec (length str) e); [lia|]. cbn.
  eexists. split; [reflexivity|]. rewrite firstn_length, skipn_length. lia.
Qed.
Lemma fnd_lt c l i : fnd c l = Some i -> i < length l.
Proof.
  revert i; induction l as [|x l IH]; intros i; cbn; [discriminate|]. destruct (x =? c)%Z; [intros [= <-]; lia|].
  destruct (fnd c l) as [j|]; cbn; [|discriminate]. intros [= <-]. specialize (IH j eq_refl). lia.
Qed.
Lemma fnd_at c l i : fnd c l = Some i -> nth_error l i = Some c.
Proof.
  revert i; induction l as [|x l IH]; intros i; cbn; [discriminate|]. destruct (Z.eqb_spec x c) as [->|]; [intros [= <-]; reflexivity|].
  destruct (fnd c l) as [j|]; cbn; [|discriminate]. intros [= <-]. exact (IH j eq_refl).
Qed.
Lemma mchr_at c s e q : mchr str c s e = Ok (Some q) -> nth_error str q = Some c.
Proof.
  unfold mchr, range. destruct ((e <? s) || (ue str <? e)); [discriminate|]. cbn [bind]. destruct (fnd c _) as [i|] eqn:F; [|discriminate].
  cbn. intros [= <-]. pose proof (fnd_lt _ _ _ F) as L. rewrite firstn_length in L. apply fnd_at in F. rewrite nth_error_firstn in F.
  destruct (i <? e - s) eqn:B; [|apply Nat.ltb_ge in B; lia]. now rewrite nth_error_skipn in F.
Qed.
Lemma rfnd_lt c l i : rfnd c l = Some i -> i < length l.
Proof.
  revert i; induction l as [|x l IH]; intros i; cbn; [discriminate|]. destruct (rfnd c l) as [j|].
  - intros [= <-]. specialize (IH j eq_refl). lia.
  - destruct (x =? c)%Z; [intros [= <-]; lia|discriminate].
Qed.
Lemma mchr_ok c s e : s <= e <= length str -> exists r, mchr str c s e = Ok r /\ match r with Some q => s <= q < e | None => True end.
Proof.
  intros H. unfold mchr. destruct (range_ok s e H) as (l & -> & L). cbn [bind]. eexists. split; [reflexivity|].
  destruct (fnd c l) as [i|] eqn:F; cbn; [|trivial]. apply fnd_lt in F. lia.
Qed.
Lemma mrchr_ok c s e : s <= e <= length str -> exists r, mrchr str c s e = Ok r /\ match r with Some q => s <= q < e | None => True end.
Proof.
  intros H. unfold mrchr. destruct (range_ok s e H) as (l & -> & L). cbn [bind]. eexists. split; [reflexivity|].
  destruct (rfnd c l) as [i|] eqn:F; cbn; [|trivial]. apply rfnd_lt in F. lia.
Qed.
Lemma dup_ok s e : s <= e <= length str -> exists l, dup str s e = Ok l.
Proof. intros H. unfold dup. destruct (range_ok s e H) as (l & -> & L). cbn. eauto. Qed.
Lemma cspn_ok cs : forall s e, s <= e <= length str -> exists r, cspn str s e cs = Ok r /\ s <= r <= e /\ (r = e \/ exists c, In c cs /\ nth_error str r = Some c).
Proof.
  induction cs as [|c cs IH]; intros s e H; cbn [cspn]; [exists e; split; [reflexivity|]; split; [lia|now left]|].
  destruct (mchr_ok c s e H) as ([q|] & M & R); rewrite M; cbn [bind].
  - destruct (IH s q ltac:(lia)) as (r & -> & B & D). exists r. split; [reflexivity|]. split; [lia|]. right. destruct D as [->|(x & I & N)].
    + exists c. split; [now left|]. exact (mchr_at _ _ _ _ M).
    + exists x. split; [now right|exact N].
  - destruct (IH s e H) as (r & -> & B & D). exists r. split; [reflexivity|]. split; [lia|]. destruct D as [->|(x & I & N)]; [now left|right]. exists x. split; [now right|exact N].
Qed.
Lemma ch_ok k : k <= length str -> exists c, ch str k = Ok c.
Proof.
  intros H. unfold ch. destruct (nth_error (str ++ [0%Z]) k) as [c|] eqn:E; [exists c; now apply rd_ok|].
  apply nth_error_None in E. rewrite app_length in E. cbn in E. lia.
Qed.
Lemma port_ok s e : s <= e <= length str -> exists r, port_of str s e = Ok r.
Proof. intros H. unfold port_of. destruct (range_ok s e H) as (l & -> & L). cbn [bind]. destruct (strtol l). eauto. Qed.
Lemma just_path_ok u s : s <= length str -> exists u', just_path str u s = Ok u'.
Proof.
  intros H. unfold just_path, ue. destruct (mchr_ok 35 s (length str) ltac:(lia)) as (h & -> & R). cbn [bind].
  assert (X : exists u1 e1, (match h with
            | Some p => if S p <? length str then do f <- dup str (S p) (length str); Ok (set_frag f u, p) else Ok (u, p)
            | None => Ok (u, length str) end) = Ok (u1, e1) /\ s <= e1 <= length str).
  { destruct h as [p|]; [|do 2 eexists; split; [reflexivity|lia]]. destruct (Nat.ltb_spec (S p) (length str)).
    - destruct (dup_ok (S p) (length str) ltac:(lia)) as (l & ->). cbn. do 2 eexists. split; [reflexivity|lia].
    - do 2 eexists. split; [reflexivity|lia]. }
  destruct X as (u1 & e1 & -> & B1). cbn [bind].
  destruct (mchr_ok 63 s e1 ltac:(lia)) as (q & -> & R2). cbn [bind].
  assert (X : exists u2 e2, (match q with
            | Some p => if S p <? e1 then do f <- dup str (S p) e1; Ok (set_query f u1, p) else Ok (u1, p)
            | None => Ok (u1, e1) end) = Ok (u2, e2) /\ s <= e2 <= length str).
  { destruct q as [p|]; [|do 2 eexists; split; [reflexivity|lia]]. destruct (Nat.ltb_spec (S p) e1).
    - destruct (dup_ok (S p) e1 ltac:(lia)) as (l & ->). cbn. do 2 eexists. split; [reflexivity|lia].
    - do 2 eexists. split; [reflexivity|lia]. }
  destruct X as (u2 & e2 & -> & B2). cbn [bind]. destruct ((s <? e2) || (s =? length str)); [|eauto].
  destruct (dup_ok s e2 B2) as (l & ->). cbn. eauto.
Qed.
Lemma parse_host_ok u s0 : s0 <= length str -> exists u', parse_host str u s0 = Ok u'.
Proof.
  intros H. unfold parse_host, ue. destruct (cspn_ok [47; 63; 35]%Z s0 (length str) ltac:(lia)) as (e & -> & E & D). cbn [bind].
  destruct (mrchr_ok 64 s0 e ltac:(lia)) as (a & -> & A). cbn [bind].
  assert (X : exists u1 s, (match a with
           | Some p => do pp <- mchr str 58 s0 p;
             do u1 <- (match pp with Some q => do a <- dup str s0 q; do b <- dup str (S q) p; Ok (set_pass b (set_user a u)) | None => do a <- dup str s0 p; Ok (set_user a u) end);
             Ok (u1, S p)
           | None => Ok (u, s0) end) = Ok (u1, s) /\ s0 <= s <= e).
  { destruct a as [p|]; [|do 2 eexists; split; [reflexivity|lia]]. destruct (mchr_ok 58 s0 p ltac:(lia)) as ([q|] & -> & Q); cbn [bind].
    - destruct (dup_ok s0 q ltac:(lia)) as (l & ->). destruct (dup_ok (S q) p ltac:(lia)) as (l' & ->). cbn. do 2 eexists. split; [reflexivity|lia].
    - destruct (dup_ok s0 p ltac:(lia)) as (l & ->). cbn. do 2 eexists. split; [reflexivity|lia]. }
  destruct X as (u1 & s & -> & S1). cbn [bind].
  assert (X : exists b, (if s <? length str then do c <- ch str s; if (c =? 91)%Z then do d <- (match e with 0 => UB | S k => ch str k end); Ok (d =? 93)%Z else Ok false else Ok false) = Ok b).
  { destruct (Nat.ltb_spec s (length str)) as [L|L]; [|eauto]. destruct (ch_ok s ltac:(lia)) as (c & C). rewrite C. cbn [bind].
    destruct (c =? 91)%Z eqn:EC; [|eauto]. apply Z.eqb_eq in EC. subst c. destruct e as [|k].
    - (* e = s = s0 = 0 and the text starts with '[': impossible *)
      exfalso. assert (s = 0) by lia. subst s. unfold ch in C. apply rd_inv in C. rewrite nth_error_app1 in C by exact L.
      destruct D as [D|(x & I & N)]; [lia|]. rewrite C in N. injection N as <-. cbn in I. lia.
    - destruct (ch_ok k ltac:(lia)) as (d & ->). cbn. eauto. }
  destruct X as (v6 & ->). cbn [bind].
  assert (X : exists p : option nat, (if v6 then Ok None else mrchr str 58 s e) = Ok p /\ match p with Some q => s <= q < e | None => True end).
  { destruct v6; [exists None; split; [reflexivity|trivial]|]. destruct (mrchr_ok 58 s e ltac:(lia)) as (r & R1 & R2). exists r. split; [exact R1|exact R2]. }
  destruct X as (p & -> & P). cbn [bind].
  assert (X : exists u2 hp, (match p with
           | Some p => if (uport u1 =? 0)%Z then if 5 <? e - S p then Ok (set_rej u1, p) else if 0 <? e - S p then
                 do v <- port_of str (S p) e; match v with Some v => Ok (set_port v u1, p) | None => Ok (set_rej u1, p) end else Ok (u1, p) else Ok (u1, p)
           | None => Ok (u1, e) end) = Ok (u2, hp) /\ s <= hp <= e).
  { destruct p as [p|]; [|do 2 eexists; split; [reflexivity|lia]]. destruct (uport u1 =? 0)%Z; [|do 2 eexists; split; [reflexivity|lia]].
    destruct (5 <? e - S p); [do 2 eexists; split; [reflexivity|lia]|]. destruct (0 <? e - S p); [|do 2 eexists; split; [reflexivity|lia]].
    destruct (port_ok (S p) e ltac:(lia)) as (r & ->). cbn [bind]. destruct r; do 2 eexists; (split; [reflexivity|lia]). }
  destruct X as (u2 & hp & -> & HP). cbn [bind]. destruct (urej u2); [eauto|]. destruct (hp <? S s); [eauto|].
  destruct (dup_ok s hp ltac:(lia)) as (l & ->). cbn [bind]. destruct (e =? length str); [eauto|]. apply just_path_ok. lia.
Qed.
Lemma skip_digits_ok f : forall p, p <= length str -> exists q, skip_digits str f p = Ok q /\ p <= q <= length str.
Proof.
  induction f as [|f IH]; intros p H; cbn [skip_digits]; [exists p; split; [reflexivity|lia]|]. unfold ue.
  destruct (Nat.ltb_spec p (length str)); [|exists p; split; [reflexivity|lia]]. destruct (ch_ok p ltac:(lia)) as (c & ->). cbn [bind].
  destruct (dig c); [|exists p; split; [reflexivity|lia]]. destruct (IH (S p) ltac:(lia)) as (q & -> & Q). exists q. split; [reflexivity|lia].
Qed.
Lemma slashes_ok : exists b, slashes str = Ok b /\ (b = true -> 2 <= length str).
Proof.
  unfold slashes, ue. destruct (Nat.ltb_spec 1 (length str)); [|eexists; split; [reflexivity|discriminate]].
  destruct (ch_ok 0 ltac:(lia)) as (a & ->). destruct (ch_ok 1 ltac:(lia)) as (b & ->). cbn [bind]. eexists. split; [reflexivity|]. intros; lia.
Qed.
Lemma stop_ok p c : p <= length str -> exists b, (if p =? ue str then Ok true else do x <- ch str p; Ok (x =? c)%Z) = Ok b.
Proof. intros H. destruct (p =? ue str); [eauto|]. destruct (ch_ok p H) as (x & ->). cbn. eauto. Qed.
Lemma parse_port_ok u e : e < length str -> exists u', parse_port str u e = Ok u'.
Proof.
  intros H. unfold parse_port. destruct (skip_digits_ok 6 (S e) ltac:(lia)) as (pp & -> & P). cbn [bind].
  destruct (stop_ok pp 47 ltac:(lia)) as (st & ->). cbn [bind]. destruct slashes_ok as (sl & -> & SL). cbn [bind].
  destruct ((0 <? pp - S e) && (pp - S e <? 6) && st).
  - destruct (port_ok (S e) pp ltac:(lia)) as ([v|] & ->); cbn [bind]; [|eauto]. apply parse_host_ok. destruct sl; [now apply SL|lia].
  - destruct ((pp - S e =? 0) && (pp =? ue str)); [eauto|]. destruct sl; [apply parse_host_ok; now apply SL|apply just_path_ok; lia].
Qed.
Lemma parse_ok : exists u, parse str = Ok u.
Proof.
  unfold parse. destruct (mchr_ok 58 0 (ue str) ltac:(unfold ue; lia)) as (e0 & -> & R). cbn [bind]. unfold ue in *.
  destruct slashes_ok as (sl & SE & SL). rewrite SE. cbn [bind].
  assert (NS : exists u, (if sl then parse_host str uri0 2 else just_path str uri0 0) = Ok u).
  { destruct sl; [apply parse_host_ok; now apply SL|apply just_path_ok; lia]. }
  destruct e0 as [[|e]|]; [apply parse_port_ok; lia| |exact NS].
  set (k := S e) in *. destruct (range_ok 0 k ltac:(lia)) as (l & -> & L). cbn [bind]. destruct (dup_ok 0 k ltac:(lia)) as (x & ->). cbn [bind].
  destruct (forallb schemec l).
  - destruct (Nat.eqb_spec (S k) (length str)); [eauto|]. destruct (ch_ok (S k) ltac:(lia)) as (c1 & ->). cbn [bind].
    destruct (negb (c1 =? 47)%Z).
    + destruct (skip_digits_ok (length str - S k) (S k) ltac:(lia)) as (p & -> & P). cbn [bind].
      destruct (stop_ok p 47 ltac:(lia)) as (st & E). unfold ue in E. rewrite E. cbn [bind].
      destruct (st && (p - k <? 7)); [apply parse_port_ok; lia|apply just_path_ok; lia].
    + assert (X : exists b, (if S (S k) <? length str then do c <- ch str (S (S k)); Ok (c =? 47)%Z else Ok false) = Ok b /\ (b = true -> S (S k) < length str)).
      { destruct (Nat.ltb_spec (S (S k)) (length str)); [|eexists; split; [reflexivity|discriminate]]. destruct (ch_ok (S (S k)) ltac:(lia)) as (c & ->). cbn. eexists. split; [reflexivity|intros; lia]. }
      destruct X as (two & -> & TW). cbn [bind]. destruct two; [|apply just_path_ok; lia]. specialize (TW eq_refl).
      assert (X : exists b, (if beq (map lower x) file_ then if k + 3 <? length str then do c <- ch str (k + 3); Ok (c =? 47)%Z else Ok false else Ok false) = Ok b /\ (b = true -> k + 3 < length str)).
      { destruct (beq _ _); [|eexists; split; [reflexivity|discriminate]].
        destruct (Nat.ltb_spec (k + 3) (length str)); [|eexists; split; [reflexivity|discriminate]]. destruct (ch_ok (k + 3) ltac:(lia)) as (c & ->). cbn. eexists. split; [reflexivity|intros; lia]. }
      destruct X as (three & -> & TH). cbn [bind]. destruct three; [|apply parse_host_ok; lia]. specialize (TH eq_refl).
      destruct (Nat.ltb_spec (k + 5) (length str)).
      * destruct (ch_ok (k + 5) ltac:(lia)) as (c & ->). cbn [bind]. apply just_path_ok. destruct (c =? 58)%Z; lia.
      * cbn [bind]. apply just_path_ok. lia.
  - destruct (cspn_ok [63; 35]%Z 0 (length str) ltac:(lia)) as (q & -> & _). cbn [bind].
    destruct ((S k <? length str) && (k <? q)); [apply parse_port_ok; lia|exact NS].
Qed.
End Safe.

(* ---- the components come back ---- *)
Lemma range_at str s e pre mid post : str = pre ++ mid ++ post -> s = length pre -> e = length pre + length mid -> range str s e = Ok mid.
Proof.
  intros -> -> ->. unfold range, ue. rewrite !app_length. destruct (Nat.ltb_spec (length pre + length mid) (length pre)); [lia|].
  destruct (Nat.ltb_spec (length pre + (length mid + length post)) (length pre + length mid)); [lia|]. cbn [orb]. f_equal.
  rewrite skipn_app, skipn_all, Nat.sub_diag. cbn [skipn app]. replace (length pre + length mid - length pre) with (length mid) by lia.
  rewrite firstn_app, Nat.sub_diag, firstn_all. cbn. apply app_nil_r.
Qed.
Definition plain (l : bytes) : Prop := Forall (fun c => 32 <= c /\ c <> 127)%Z l.
Lemma clean_plain l : plain l -> clean l = l.
Proof.
  induction 1 as [|c l [H1 H2] F IH]; [reflexivity|]. cbn. unfold clean in IH. rewrite IH. unfold cntrl.
  destruct (Z.ltb_spec c 32); [lia|]. destruct (Z.eqb_spec c 127); [lia|]. reflexivity.
Qed.
Lemma dup_at str s e pre mid post : plain str -> str = pre ++ mid ++ post -> s = length pre -> e = length pre + length mid -> dup str s e = Ok mid.
Proof.
  intros P E S1 S2. unfold dup. rewrite (range_at str s e pre mid post E S1 S2). cbn. f_equal. apply clean_plain.
  rewrite E in P. apply Forall_app in P. destruct P as [_ P]. apply Forall_app in P. exact (proj1 P).
Qed.
Lemma free_cons_inv c x l cs : free cs (x :: l) -> In c cs -> x <> c /\ free cs l.
Proof. intros F I. split; [intros ->; exact (F c (or_introl eq_refl) I)|]. intros y Y. apply F. now right. Qed.
Lemma free_app cs a b : free cs (a ++ b) <-> free cs a /\ free cs b.
Proof.
  split.
  - intros F. split; intros c C; apply F; apply in_or_app; auto.
  - intros [A B] c C. apply in_app_or in C. destruct C; [now apply A|now apply B].
Qed.
Lemma free_sub cs cs' l : free cs l -> (forall c, In c cs' -> In c cs) -> free cs' l.
Proof. intros F S c C I. exact (F c C (S c I)). Qed.
Lemma fnd_none c l : free [c] l -> fnd c l = None.
Proof.
  induction l as [|x l IH]; intros F; [reflexivity|]. destruct (free_cons_inv c x l [c] F (or_introl eq_refl)) as [N F']. cbn.
  destruct (Z.eqb_spec x c); [contradiction|]. now rewrite IH.
Qed.
Lemma fnd_app c a b : free [c] a -> fnd c (a ++ c :: b) = Some (length a).
Proof.
  induction a as [|x a IH]; intros F; cbn; [now rewrite Z.eqb_refl|]. destruct (free_cons_inv c x a [c] F (or_introl eq_refl)) as [N F'].
  destruct (Z.eqb_spec x c); [contradiction|]. now rewrite IH.
Qed.
Lemma rfnd_none c l : free [c] l -> rfnd c l = None.
Proof.
  induction l as [|x l IH]; intros F; [reflexivity|]. destruct (free_cons_inv c x l [c] F (or_introl eq_refl)) as [N F']. cbn.
  rewrite IH by assumption. destruct (Z.eqb_spec x c); [contradiction|reflexivity].
Qed.
Lemma rfnd_app c a b : free [c] b -> rfnd c (a ++ c :: b) = Some (length a).
Proof. intros F. induction a as [|x a IH]; cbn; [rewrite rfnd_none by assumption; now rewrite Z.eqb_refl|]. now rewrite IH. Qed.
Lemma mchr_hit str c s e pre a b post : str = pre ++ (a ++ c :: b) ++ post -> s = length pre -> e = length pre + length (a ++ c :: b) -> free [c] a ->
  mchr str c s e = Ok (Some (length pre + length a)).
Proof. intros E S1 S2 F. unfold mchr. rewrite (range_at _ _ _ _ _ _ E S1 S2). cbn [bind]. rewrite fnd_app by assumption. cbn. now rewrite S1. Qed.
Lemma mchr_miss str c s e pre l post : str = pre ++ l ++ post -> s = length pre -> e = length pre + length l -> free [c] l -> mchr str c s e = Ok None.
Proof. intros E S1 S2 F. unfold mchr. rewrite (range_at _ _ _ _ _ _ E S1 S2). cbn [bind]. now rewrite fnd_none. Qed.
Lemma mrchr_hit str c s e pre a b post : str = pre ++ (a ++ c :: b) ++ post -> s = length pre -> e = length pre + length (a ++ c :: b) -> free [c] b ->
  mrchr str c s e = Ok (Some (length pre + length a)).
Proof. intros E S1 S2 F. unfold mrchr. rewrite (range_at _ _ _ _ _ _ E S1 S2). cbn [bind]. rewrite rfnd_app by assumption. cbn. now rewrite S1. Qed.
Lemma mrchr_miss str c s e pre l post : str = pre ++ l ++ post -> s = length pre -> e = length pre + length l -> free [c] l -> mrchr str c s e = Ok None.
Proof. intros E S1 S2 F. unfold mrchr. rewrite (range_at _ _ _ _ _ _ E S1 S2). cbn [bind]. now rewrite rfnd_none. Qed.
Lemma in_dec_split (c : Z) l : free [c] l \/ exists a b, l = a ++ c :: b /\ free [c] a.
Proof.
  induction l as [|x l IH]; [left; intros y []|]. destruct (Z.eq_dec x c) as [->|N].
  - right. exists [], l. split; [reflexivity|]. intros y [].
  - destruct IH as [F|(a & b & -> & F)].
    + left. intros y [<-|Y]; [intros [->|[]]; now apply N|now apply F].
    + right. exists (x :: a), b. split; [reflexivity|]. intros y [<-|Y]; [intros [->|[]]; now apply N|now apply F].
Qed.
Lemma cspn_at cs : forall str pre body mid post e, str = pre ++ body ++ mid ++ post -> e = length pre + length body + length mid -> free cs body ->
  match mid with [] => True | c :: _ => In c cs end -> cspn str (length pre) e cs = Ok (length pre + length body).
Proof.
  induction cs as [|c cs IH]; intros str pre body mid post e E EE F M; cbn [cspn].
  - destruct mid; [|contradiction]. cbn in EE. f_equal. lia.
  - assert (FC : free [c] body) by (eapply free_sub; [exact F|]; intros y [<-|[]]; now left).
    assert (FS : free cs body) by (eapply free_sub; [exact F|]; intros y Y; now right).
    destruct (in_dec_split c mid) as [FM|(a & b & -> & FA)].
    + rewrite (mchr_miss str c _ e pre (body ++ mid) post); [|now rewrite E, <- app_assoc|reflexivity|rewrite app_length; lia|apply free_app; auto].
      cbn [bind]. apply (IH str pre body mid post); auto. destruct mid as [|x mid]; [trivial|]. destruct M as [<-|M]; [|exact M].
      exfalso. exact (FM c (or_introl eq_refl) (or_introl eq_refl)).
    + rewrite (mchr_hit str c _ e pre (body ++ a) b post); [|rewrite E, <- !app_assoc; reflexivity|reflexivity|rewrite !app_length; rewrite app_length in EE; cbn [length] in *; lia|apply free_app; auto].
      cbn [bind]. apply (IH str pre body a (c :: b ++ post)).
      * rewrite E, <- !app_assoc. reflexivity.
      * rewrite app_length. lia.
      * exact FS.
      * destruct a as [|x a]; [trivial|]. cbn in M. destruct M as [<-|M]; [|exact M]. exfalso. exact (FA c (or_introl eq_refl) (or_introl eq_refl)).
Qed.

Definition with_tail (u : uri) (path : bytes) (q f : option bytes) : uri :=
  {| urej := urej u; uport := uport u; uscheme := uscheme u; uuser := uuser u; upass := upass u; uhost := uhost u; upath := nonempty path; uquery := opt_nonempty q; ufrag := opt_nonempty f |}.
Lemma just_path_at str u pre path q f : plain str -> str = pre ++ path ++ r_opt 63 q ++ r_opt 35 f -> path ++ r_opt 63 q ++ r_opt 35 f <> [] ->
  free [63; 35]%Z path -> match q with None => True | Some q => free [35%Z] q end -> upath u = None -> uquery u = None -> ufrag u = None ->
  just_path str u (length pre) = Ok (with_tail u path q f).
Proof.
  intros P E NE FP FQ U1 U2 U3.
  assert (LS : length str = length pre + length path + length (r_opt 63 q) + length (r_opt 35 f)) by (rewrite E, !app_length; lia).
  assert (F35 : free [35%Z] (path ++ r_opt 63 q)).
  { apply free_app. split; [eapply free_sub; [exact FP|]; intros c [<-|[]]; cbn; auto|]. destruct q as [q|]; [|intros c []].
    intros c [<-|C]; [intros [X|[]]; discriminate|now apply FQ]. }
  assert (F63 : free [63%Z] path) by (eapply free_sub; [exact FP|]; intros c [<-|[]]; cbn; auto).
  unfold just_path, ue.
  assert (X1 : exists u1, (do h <- mchr str 35 (length pre) (length str);
      match h with | Some p => if S p <? length str then do g <- dup str (S p) (length str); Ok (set_frag g u, p) else Ok (u, p) | None => Ok (u, length str) end)
      = Ok (u1, length pre + length path + length (r_opt 63 q)) /\ u1 = match opt_nonempty f with Some g => set_frag g u | None => u end).
  { destruct f as [f|]; cbn [r_opt] in *.
    - rewrite (mchr_hit str 35 _ _ pre (path ++ r_opt 63 q) f []); [|rewrite E, app_nil_r, <- !app_assoc; reflexivity|reflexivity|rewrite !app_length; cbn [length] in *; lia|exact F35].
      cbn [bind]. cbn [length] in LS. rewrite !app_length. destruct f as [|x f].
      + destruct (Nat.ltb_spec (S (length pre + (length path + length (r_opt 63 q)))) (length str)); [cbn in LS; lia|]. eexists. split; [do 2 f_equal; lia|reflexivity].
      + destruct (Nat.ltb_spec (S (length pre + (length path + length (r_opt 63 q)))) (length str)); [|cbn in LS; lia].
        rewrite (dup_at str _ _ (pre ++ path ++ r_opt 63 q ++ [35%Z]) (x :: f) []); [|exact P|rewrite E, app_nil_r, <- !app_assoc; reflexivity|rewrite !app_length; cbn; lia|rewrite !app_length; cbn [length] in *; lia].
        cbn [bind]. eexists. split; [do 2 f_equal; lia|reflexivity].
    - rewrite (mchr_miss str 35 _ _ pre (path ++ r_opt 63 q) []); [|rewrite E, !app_nil_r; reflexivity|reflexivity|rewrite !app_length; cbn [length] in *; lia|exact F35].
      cbn [bind]. eexists. split; [rewrite LS; cbn [length]; rewrite Nat.add_0_r; reflexivity|reflexivity]. }
  destruct X1 as (u1 & X1 & U1E). destruct (mchr str 35 (length pre) (length str)) as [h| | |]; cbn [bind] in X1 |- *; try discriminate. rewrite X1. cbn [bind].
  set (e1 := length pre + length path + length (r_opt 63 q)) in *.
  assert (X2 : exists u2, (do h <- mchr str 63 (length pre) e1;
      match h with | Some p => if S p <? e1 then do g <- dup str (S p) e1; Ok (set_query g u1, p) else Ok (u1, p) | None => Ok (u1, e1) end)
      = Ok (u2, length pre + length path) /\ u2 = match opt_nonempty q with Some g => set_query g u1 | None => u1 end).
  { destruct q as [q|]; cbn [r_opt length] in *.
    - rewrite (mchr_hit str 63 _ _ pre path q (r_opt 35 f)); [|rewrite E, <- !app_assoc; reflexivity|reflexivity|rewrite !app_length; cbn [length] in *; lia|exact F63].
      cbn [bind]. destruct q as [|x q].
      + destruct (Nat.ltb_spec (S (length pre + length path)) e1); [cbn in e1; lia|]. eexists. split; [reflexivity|reflexivity].
      + destruct (Nat.ltb_spec (S (length pre + length path)) e1); [|cbn in e1; lia].
        rewrite (dup_at str _ _ (pre ++ path ++ [63%Z]) (x :: q) (r_opt 35 f)); [|exact P|rewrite E, <- !app_assoc; reflexivity|rewrite !app_length; cbn; lia|rewrite !app_length; cbn [length] in *; lia].
        cbn [bind]. eexists. split; reflexivity.
    - rewrite (mchr_miss str 63 _ _ pre path (r_opt 35 f)); [|rewrite E; reflexivity|reflexivity|lia|exact F63].
      cbn [bind]. eexists. split; [do 2 f_equal; lia|reflexivity]. }
  destruct X2 as (u2 & X2 & U2E). destruct (mchr str 63 (length pre) e1) as [h2| | |]; cbn [bind] in X2 |- *; try discriminate. rewrite X2. cbn [bind].
  assert (FIN : u2 = {| urej := urej u; uport := uport u; uscheme := uscheme u; uuser := uuser u; upass := upass u; uhost := uhost u; upath := upath u; uquery := opt_nonempty q; ufrag := opt_nonempty f |}).
  { rewrite U2E, U1E. destruct u; cbn in U2, U3. subst. destruct (opt_nonempty q), (opt_nonempty f); reflexivity. }
  destruct path as [|x path].
  - destruct (Nat.ltb_spec (length pre) (length pre + length (@nil Z))); [cbn in *; lia|]. cbn [orb].
    destruct (Nat.eqb_spec (length pre) (length str)) as [EQ|_].
    + exfalso. apply NE. cbn [app]. unfold e1 in LS. destruct q; [cbn [r_opt length] in LS; lia|]. destruct f; [cbn [r_opt length] in LS; lia|reflexivity].
    + rewrite FIN, U1. reflexivity.
  - destruct (Nat.ltb_spec (length pre) (length pre + length (x :: path))); [|cbn in *; lia]. cbn [orb].
    rewrite (dup_at str _ _ pre (x :: path) (r_opt 63 q ++ r_opt 35 f)); [|exact P|exact E|reflexivity|reflexivity]. cbn [bind]. rewrite FIN. reflexivity.
Qed.

Lemma ch_at str pre c post : str = pre ++ c :: post -> ch str (length pre) = Ok c.
Proof. intros ->. unfold ch. apply rd_ok. rewrite <- app_assoc. rewrite nth_error_app2 by lia. rewrite Nat.sub_diag. reflexivity. Qed.
Lemma dec_value ds : dec ds = value 0 ds.
Proof. unfold dec. generalize 0%Z. induction ds as [|d ds IH]; intros v; [reflexivity|]. cbn [fold_left value]. apply IH. Qed.
Lemma digits_all ds : Forall digit ds -> digits ds = ds.
Proof.
  induction 1 as [|d ds H F IH]; [reflexivity|]. cbn. unfold digit in H. unfold dig. destruct (Z.leb_spec 48 d); [|lia]. destruct (Z.leb_spec d 57); [|lia]. cbn. now rewrite IH.
Qed.
Lemma value_ge ds : forall v, Forall digit ds -> (0 <= v)%Z -> (0 <= value v ds)%Z.
Proof. induction ds as [|d ds IH]; intros v F V; [exact V|]. cbn [value]. apply IH; [exact (Forall_inv_tail F)|]. pose proof (Forall_inv F) as D. unfold digit in D. lia. Qed.
Lemma strtol_digits ds : Forall digit ds -> ds <> [] -> strtol ds = (value 0 ds, true).
Proof.
  intros F N. unfold strtol. assert (SK : skip_sp ds = ds).
  { destruct ds as [|d ds]; [reflexivity|]. pose proof (Forall_inv F) as D. unfold digit in D. cbn. unfold isspace. destruct (Z.eqb_spec d 32); [lia|]. destruct (Z.leb_spec 9 d); [|lia]. destruct (Z.leb_spec d 13); [lia|]. reflexivity. }
  rewrite SK. destruct ds as [|d ds]; [congruence|]. pose proof (Forall_inv F) as D. unfold digit in D.
  assert (X : forall A (x y z : A), match d with 45%Z => x | 43%Z => y | _ => z end = z).
  { intros A x y z. destruct d as [|p|p]; [reflexivity| |reflexivity]. do 6 (destruct p as [p|p|]; try reflexivity); lia. }
  rewrite X. rewrite digits_all by assumption. rewrite dec_value. reflexivity.
Qed.
Lemma port_at str s e pre ds post : str = pre ++ ds ++ post -> s = length pre -> e = length pre + length ds -> Forall digit ds -> ds <> [] -> (value 0 ds <= 65535)%Z ->
  port_of str s e = Ok (Some (value 0 ds)).
Proof.
  intros E S1 S2 F N V. unfold port_of. rewrite (range_at _ _ _ _ _ _ E S1 S2). cbn [bind]. rewrite strtol_digits by assumption.
  pose proof (value_ge ds 0%Z F ltac:(lia)). destruct (Z.leb_spec 0 (value 0 ds)); [|lia]. destruct (Z.leb_spec (value 0 ds) 65535); [|lia]. reflexivity.
Qed.

Definition tail_of (p : parts) : bytes := c_path p ++ r_opt 63 (c_query p) ++ r_opt 35 (c_frag p).
Lemma tail_head p : wf_parts p -> match tail_of p with [] => True | c :: _ => In c delims end.
Proof.
  intros (_ & _ & _ & _ & (_ & HP) & _ & _). unfold tail_of. destruct (c_path p) as [|c l]; cbn.
  - destruct (c_query p); cbn; [auto|]. destruct (c_frag p); cbn; auto.
  - left. now rewrite HP.
Qed.
Lemma digit_free cs ds : Forall digit ds -> (forall c, In c cs -> ~ digit c) -> free cs ds.
Proof. intros F N c C I. rewrite Forall_forall in F. exact (N c I (F c C)). Qed.
Lemma free_nil cs : free cs [].
Proof. intros c []. Qed.
Lemma free_cons cs c l : ~ In c cs -> free cs l -> free cs (c :: l).
Proof. intros N F x [<-|X]; [exact N|now apply F]. Qed.

Ltac asc E := rewrite E; cbn [app]; rewrite <- ?app_assoc; cbn [app]; rewrite <- ?app_assoc; cbn [app]; reflexivity.
Lemma parse_host_at str pre p : wf_parts p -> plain str -> str = pre ++ r_user (c_user p) ++ c_host p ++ r_opt 58 (c_port p) ++ tail_of p ->
  parse_host str (set_scheme (c_scheme p) uri0) (length pre) = Ok (result p).
Proof.
  intros W P E. pose proof (tail_head p W) as TH. destruct W as (_ & WU & (HN & HF) & WP & (PF & _) & WQ & _).
  set (us := r_user (c_user p)) in *. set (ho := c_host p) in *. set (po := r_opt 58 (c_port p)) in *. set (tl := tail_of p) in *.
  assert (HD : free delims ho) by (eapply free_sub; [exact HF|]; intros c C; now right).
  assert (H64 : free [64%Z] ho) by (eapply free_sub; [exact HF|]; intros c [<-|[]]; now left).
  assert (PD : free (64%Z :: delims) po).
  { unfold po. destruct (c_port p) as [d|]; [|apply free_nil]. destruct WP as (_ & _ & FD & _). cbn. apply free_cons; [cbn; lia|].
    apply digit_free; [exact FD|]. intros c C. unfold digit. cbn in C. lia. }
  assert (UD : free delims us).
  { unfold us, r_user. destruct (c_user p) as [[a [b|]]|]; [| |apply free_nil].
    - destruct WU as [FA FB]. apply free_app. split; [eapply free_sub; [exact FA|]; intros c C; now right|].
      apply free_cons; [cbn; lia|]. apply free_app. split; [exact FB|]. apply free_cons; [cbn; lia|apply free_nil].
    - destruct WU as [FA _]. apply free_app. split; [eapply free_sub; [exact FA|]; intros c C; now right|]. apply free_cons; [cbn; lia|apply free_nil]. }
  assert (LS : length str = length pre + (length us + length ho + length po) + length tl) by (rewrite E, !app_length; lia).
  unfold parse_host, ue.
  rewrite (cspn_at [47; 63; 35]%Z str pre (us ++ ho ++ po) tl []); [|rewrite app_nil_r; asc E|rewrite !app_length; lia| |exact TH].
  2: { apply free_app. split; [exact UD|]. apply free_app. split; [exact HD|]. eapply free_sub; [exact PD|]. intros c C; now right. }
  cbn [bind]. set (e := length pre + length (us ++ ho ++ po)).
  assert (EE : e = length pre + length us + length ho + length po) by (unfold e; rewrite !app_length; lia).
  assert (HP64 : free [64%Z] (ho ++ po)).
  { apply free_app. split; [exact H64|]. eapply free_sub; [exact PD|]. intros c [<-|[]]; now left. }
  (* user and password *)
  set (u0 := set_scheme (c_scheme p) uri0).
  assert (X : (do at_ <- mrchr str 64 (length pre) e; match at_ with
           | Some q0 => do pp <- mchr str 58 (length pre) q0;
             do u1 <- (match pp with Some q => do a <- dup str (length pre) q; do b <- dup str (S q) q0; Ok (set_pass b (set_user a u0)) | None => do a <- dup str (length pre) q0; Ok (set_user a u0) end);
             Ok (u1, S q0)
           | None => Ok (u0, length pre) end) =
         Ok ({| urej := false; uport := 0; uscheme := Some (c_scheme p); uuser := match c_user p with None => None | Some (a, _) => Some a end;
                upass := match c_user p with None => None | Some (_, b) => b end; uhost := None; upath := None; uquery := None; ufrag := None |}, length pre + length us)).
  { subst us. unfold r_user in *. destruct (c_user p) as [[a [b|]]|].
    - destruct WU as [FA FB].
      rewrite (mrchr_hit str 64 _ _ pre (a ++ 58%Z :: b) (ho ++ po) tl); [|asc E|reflexivity| |exact HP64].
      2: { rewrite EE. rewrite !app_length. cbn [length]. rewrite !app_length. cbn [length]. lia. }
      cbn [bind]. rewrite (mchr_hit str 58 _ _ pre a b ([64%Z] ++ ho ++ po ++ tl)); [|asc E|reflexivity|reflexivity|].
      2: { eapply free_sub; [exact FA|]. intros c [<-|[]]; now left. }
      cbn [bind]. rewrite (dup_at str _ _ pre a (58%Z :: b ++ [64%Z] ++ ho ++ po ++ tl)); [|exact P|asc E|reflexivity|reflexivity].
      cbn [bind]. rewrite (dup_at str _ _ (pre ++ a ++ [58%Z]) b ([64%Z] ++ ho ++ po ++ tl)); [|exact P|asc E|rewrite !app_length; cbn [length]; lia|rewrite !app_length; cbn [length]; lia].
      cbn [bind]. f_equal. f_equal. rewrite !app_length. cbn [length]. rewrite app_length. cbn [length]. lia.
    - destruct WU as [FA _].
      rewrite (mrchr_hit str 64 _ _ pre a (ho ++ po) tl); [|asc E|reflexivity| |exact HP64].
      2: { rewrite EE. rewrite !app_length. cbn [length]. rewrite !app_length. cbn [length]. lia. }
      cbn [bind]. rewrite (mchr_miss str 58 _ _ pre a ([64%Z] ++ ho ++ po ++ tl)); [|asc E|reflexivity|reflexivity|].
      2: { eapply free_sub; [exact FA|]. intros c [<-|[]]; now left. }
      cbn [bind]. rewrite (dup_at str _ _ pre a ([64%Z] ++ ho ++ po ++ tl)); [|exact P|asc E|reflexivity|reflexivity].
      cbn [bind]. f_equal. f_equal. rewrite app_length. cbn [length]. lia.
    - rewrite (mrchr_miss str 64 _ _ pre (ho ++ po) tl); [|asc E|reflexivity|rewrite EE; rewrite !app_length; cbn [length]; lia|exact HP64].
      cbn [bind]. f_equal. f_equal. cbn [length]. lia. }
  destruct (mrchr str 64 (length pre) e) as [at_| | |]; cbn [bind] in X |- *; try discriminate. rewrite X. clear X. cbn [bind].
  set (u1 := {| urej := false; uport := 0; uscheme := _; uuser := _; upass := _; uhost := None; upath := None; uquery := None; ufrag := None |}).
  set (s := length pre + length us).
  assert (LT : (s <? length str) = true). { apply Nat.ltb_lt. unfold s. rewrite LS. destruct ho; [congruence|]. cbn [length]. lia. }
  rewrite LT.
  (* port *)
  assert (X : exists v6 pp, (do c <- ch str s; if (c =? 91)%Z then do d <- (match e with 0 => UB | S k => ch str k end); Ok (d =? 93)%Z else Ok false) = Ok v6 /\
      (if v6 then Ok None else mrchr str 58 s e) = Ok pp /\
      (match pp with
       | Some q => if (uport u1 =? 0)%Z then if 5 <? e - S q then Ok (set_rej u1, q) else if 0 <? e - S q then
                 do v <- port_of str (S q) e; match v with Some v => Ok (set_port v u1, q) | None => Ok (set_rej u1, q) end else Ok (u1, q) else Ok (u1, q)
       | None => Ok (u1, e) end) = Ok (set_port (match c_port p with Some d => value 0 d | None => 0%Z end) u1, s + length ho)).
  { assert (CH : exists h0 ht, ho = h0 :: ht /\ ch str s = Ok h0).
    { destruct ho as [|h0 ht]; [congruence|]. exists h0, ht. split; [reflexivity|]. unfold s. rewrite <- app_length.
      apply (ch_at str (pre ++ us) h0 (ht ++ po ++ tl)). asc E. }
    destruct CH as (h0 & ht & HE & CH). rewrite CH. cbn [bind].
    assert (LASTD : forall x l z, x = l ++ [z] -> forall q r, str = q ++ x ++ r -> e = length q + length x -> match e with 0 => UB | S k => ch str k end = Ok z).
    { intros x l z -> q r EQ EL. rewrite app_length in EL. cbn [length] in EL. destruct e as [|k]; [lia|].
      replace k with (length (q ++ l)) by (rewrite app_length; lia). apply (ch_at str (q ++ l) z r). rewrite EQ, <- !app_assoc. reflexivity. }
    subst po. destruct (c_port p) as [d|]; cbn [r_opt] in *.
    - destruct WP as (DN & DL & DF & DV).
      assert (V6 : (if (h0 =? 91)%Z then do x <- (match e with 0 => UB | S k => ch str k end); Ok (x =? 93)%Z else Ok false) = Ok false).
      { destruct (h0 =? 91)%Z; [|reflexivity]. destruct (exists_last DN) as (l & z & DE).
        rewrite (LASTD d l z DE (pre ++ us ++ ho ++ [58%Z]) tl); [|asc E|rewrite EE, !app_length; cbn [length]; lia].
        cbn [bind]. assert (digit z). { rewrite Forall_forall in DF. apply DF. rewrite DE. apply in_or_app. right. now left. }
        unfold digit in *. destruct (Z.eqb_spec z 93); [lia|reflexivity]. }
      rewrite V6. exists false, (Some (s + length ho)). split; [reflexivity|]. split.
      + unfold s. rewrite (mrchr_hit str 58 _ _ (pre ++ us) ho d tl); [rewrite app_length; reflexivity|asc E|now rewrite app_length|rewrite EE, !app_length; cbn [length]; lia|].
        apply digit_free; [exact DF|]. intros c [<-|[]]. unfold digit. lia.
      + cbn [u1 uport Z.eqb]. assert (EL : e - S (s + length ho) = length d) by (rewrite EE; unfold s; cbn [length]; lia). rewrite EL.
        destruct (Nat.ltb_spec 5 (length d)); [lia|]. destruct (Nat.ltb_spec 0 (length d)); [|destruct d; [congruence|cbn in *; lia]].
        rewrite (port_at str _ _ (pre ++ us ++ ho ++ [58%Z]) d tl); [|asc E|unfold s; rewrite !app_length; cbn [length]; lia|rewrite EE, !app_length; cbn [length]; lia|exact DF|exact DN|exact DV].
        reflexivity.
    - assert (ES : e = s + length ho) by (rewrite EE; unfold s; cbn [length]; lia).
      destruct WP as [FC|(x & HX)].
      + set (v6 := (if (h0 =? 91)%Z then _ else _)). assert (V6 : exists b, v6 = Ok b).
        { unfold v6. destruct (h0 =? 91)%Z; [|eauto]. destruct (exists_last HN) as (l & z & DE).
          rewrite (LASTD ho l z DE (pre ++ us) tl); [|asc E|rewrite ES; unfold s; rewrite !app_length; lia]. cbn. eauto. }
        destruct V6 as (b & ->). exists b, None. split; [reflexivity|]. split.
        * destruct b; [reflexivity|]. apply (mrchr_miss str 58 _ _ (pre ++ us) ho tl); [asc E|unfold s; now rewrite app_length|rewrite ES; unfold s; rewrite app_length; lia|exact FC].
        * rewrite ES. reflexivity.
      + exists true, None. split; [|split; [reflexivity|rewrite ES; reflexivity]].
        assert (h0 = 91%Z) by congruence. subst h0. cbn [Z.eqb Pos.eqb].
        rewrite (LASTD ho (91%Z :: x) 93%Z HX (pre ++ us) tl); [reflexivity|asc E|rewrite ES; unfold s; rewrite !app_length; lia]. }
  destruct X as (v6 & pp & -> & X2 & X3). cbn [bind]. rewrite X2. cbn [bind]. rewrite X3. cbn [bind].
  cbn [set_port u1 urej]. destruct (Nat.ltb_spec (s + length ho) (S s)) as [L|L]; [destruct ho; [congruence|cbn [length] in L; lia]|].
  rewrite (dup_at str _ _ (pre ++ us) ho (po ++ tl)); [|exact P|asc E|unfold s; now rewrite app_length|unfold s; rewrite app_length; lia].
  cbn [bind]. unfold result. destruct (Nat.eqb_spec e (length str)) as [EQ|NEQ].
  - assert (TN : tl = []) by (destruct tl; [reflexivity|cbn [length] in LS; lia]). unfold tl, tail_of in TN. apply app_eq_nil in TN. destruct TN as [-> TN].
    apply app_eq_nil in TN. destruct TN as [TQ TF]. destruct (c_query p); [discriminate|]. destruct (c_frag p); [discriminate|]. reflexivity.
  - replace e with (length (pre ++ us ++ ho ++ po)) by (rewrite !app_length, EE; lia).
    rewrite (just_path_at str _ (pre ++ us ++ ho ++ po) (c_path p) (c_query p) (c_frag p)); [reflexivity|exact P|asc E| |exact PF|exact WQ|reflexivity|reflexivity|reflexivity].
    intros TN. apply NEQ. rewrite LS, EE. unfold tl, tail_of. rewrite TN. cbn. lia.
Qed.
Lemma letter_schemec l : Forall letter l -> forallb schemec l = true.
Proof.
  intros F. apply forallb_forall. intros c C. rewrite Forall_forall in F. specialize (F c C). unfold letter in F. unfold schemec, alpha, dig.
  destruct (Z.leb_spec 65 c), (Z.leb_spec c 90), (Z.leb_spec 97 c), (Z.leb_spec c 122), (Z.leb_spec 48 c), (Z.leb_spec c 57), (Z.eqb_spec c 43), (Z.eqb_spec c 46), (Z.eqb_spec c 45); cbn; try reflexivity; lia.
Qed.
Lemma parse_render p : wf_parts p -> parse (render p) = Ok (result p).
Proof.
  intros W. pose proof W as ((SN & SL) & WU & (HN & HF) & _ & _ & _ & P).
  set (str := render p) in *. assert (E : str = c_scheme p ++ [58; 47; 47]%Z ++ r_user (c_user p) ++ c_host p ++ r_opt 58 (c_port p) ++ tail_of p) by reflexivity.
  assert (S58 : free [58%Z] (c_scheme p)). { intros c C [<-|[]]. rewrite Forall_forall in SL. specialize (SL _ C). unfold letter in SL. lia. }
  set (sc := c_scheme p) in *. set (rest := r_user (c_user p) ++ c_host p ++ r_opt 58 (c_port p) ++ tail_of p) in *.
  assert (RN : exists c r, rest = c :: r /\ c <> 47%Z).
  { unfold rest, r_user. destruct (c_user p) as [[[|c a] [b|]]|]; cbn [app].
    - exists 58%Z. eexists. split; [reflexivity|discriminate].
    - exists 64%Z. eexists. split; [reflexivity|discriminate].
    - exists c. eexists. split; [reflexivity|]. intros ->. destruct WU as [FA _]. apply (FA 47%Z); [now left|cbn; auto].
    - exists c. eexists. split; [reflexivity|]. intros ->. destruct WU as [FA _]. apply (FA 47%Z); [now left|cbn; auto].
    - destruct (c_host p) as [|c h]; [congruence|]. exists c. eexists. split; [reflexivity|]. intros ->. apply (HF 47%Z); [now left|cbn; auto]. }
  destruct RN as (r0 & rr & RE & R47).
  assert (LS : length str = length sc + 3 + length rest) by (rewrite E, !app_length; cbn [length]; unfold rest; rewrite !app_length; lia).
  unfold parse, ue. rewrite (mchr_hit str 58 _ _ [] sc ([47; 47]%Z ++ rest) []); [|rewrite E, app_nil_r; reflexivity|reflexivity|rewrite E; reflexivity|exact S58].
  cbn [bind length Nat.add]. destruct sc as [|s0 sc'] eqn:SCE; [congruence|]. cbn [length]. change (S (length sc')) with (length (s0 :: sc')). rewrite <- SCE in *.
  assert (SB : c_scheme p = sc) by reflexivity.
  rewrite (range_at str 0 (length sc) [] sc ([58; 47; 47]%Z ++ rest)); [|rewrite E; reflexivity|reflexivity|reflexivity]. cbn [bind]. rewrite (letter_schemec sc SL).
  destruct (Nat.eqb_spec (S (length sc)) (length str)); [lia|].
  assert (C1 : ch str (S (length sc)) = Ok 47%Z). { replace (S (length sc)) with (length (sc ++ [58%Z])) by (rewrite app_length; cbn [length]; lia). apply (ch_at str (sc ++ [58%Z]) 47%Z (47%Z :: rest)). asc E. }
  rewrite C1. cbn [bind Z.eqb Pos.eqb negb].
  rewrite (dup_at str 0 (length sc) [] sc ([58; 47; 47]%Z ++ rest)); [|exact P|rewrite E; reflexivity|reflexivity|reflexivity]. cbn [bind].
  destruct (Nat.ltb_spec (S (S (length sc))) (length str)); [|lia].
  assert (C2 : ch str (S (S (length sc))) = Ok 47%Z). { replace (S (S (length sc))) with (length (sc ++ [58; 47]%Z)) by (rewrite app_length; cbn [length]; lia). apply (ch_at str (sc ++ [58; 47]%Z) 47%Z rest). asc E. }
  rewrite C2. cbn [bind Z.eqb Pos.eqb].
  assert (C3 : (if beq (map lower sc) file_ then if length sc + 3 <? length str then do c <- ch str (length sc + 3); Ok (c =? 47)%Z else Ok false else Ok false) = Ok false).
  { destruct (beq _ _); [|reflexivity]. destruct (length sc + 3 <? length str); [|reflexivity].
    replace (length sc + 3) with (length (sc ++ [58; 47; 47]%Z)) by (rewrite app_length; cbn [length]; lia). rewrite (ch_at str (sc ++ [58; 47; 47]%Z) r0 rr); [|rewrite E, <- !app_assoc, RE; reflexivity].
    cbn [bind]. destruct (Z.eqb_spec r0 47); [contradiction|reflexivity]. }
  rewrite C3. cbn [bind]. replace (length sc + 3) with (length (sc ++ [58; 47; 47]%Z)) by (rewrite app_length; cbn [length]; lia).
  rewrite <- SB. apply parse_host_at; [exact W|exact P|]. rewrite SB, E, <- !app_assoc. reflexivity.
Qed.

(* ---- the public call ---- *)
Lemma beq_eq a : forall b, beq a b = true <-> a = b.
Proof.
  induction a as [|x a IH]; intros [|y b]; cbn; split; intros H; try discriminate; try reflexivity.
  - apply andb_true_iff in H. destruct H as [H1 H2]. apply Z.eqb_eq in H1. apply IH in H2. congruence.
  - injection H as -> ->. rewrite Z.eqb_refl. cbn. now apply IH.
Qed.
Lemma occurs_one c h : (exists i, occurs [c] h i) <-> In c h.
Proof.
  split.
  - intros (i & a & b & -> & _). apply in_or_app. right. now left.
  - intros H. apply in_split in H. destruct H as (a & b & ->). exists (length a), a, b. auto.
Qed.
Definition short (l : bytes) : Prop := (Z.of_nat (length l) < 2 ^ 31)%Z.
Definition accepted (hostname : bytes) (p : parts) : Prop := In 46%Z (c_host p) \/ c_host p = hostname.
Lemma scheme_type_ok s : short s -> exists t, scheme_type (Some s) = Ok t.
Proof.
  intros S. unfold scheme_type.
  destruct (str_has_spec s_tcp s ltac:(vm_compute; reflexivity)) as (a & -> & _). cbn [bind]. destruct a; [eauto|].
  destruct (str_has_spec s_tls s ltac:(vm_compute; reflexivity)) as (b & -> & _). cbn [bind]. destruct b; [eauto|].
  destruct (str_has_spec s_pipe s ltac:(vm_compute; reflexivity)) as (c & -> & _). cbn [bind]. destruct c; [eauto|].
  destruct (str_has_spec s s_udp S) as (d & -> & _). cbn. eauto.
Qed.
Lemma render_nonempty p : wf_parts p -> length (render p) <> 0.
Proof. intros ((SN & _) & _). unfold render. rewrite app_length. destruct (c_scheme p); [congruence|]. cbn. lia. Qed.
Lemma uri_accepted hostname p : wf_parts p -> short (c_scheme p) -> short (c_host p) -> accepted hostname p ->
  exists t, parse_uri hostname (render p) = Ok (Some (result p, t)) /\ scheme_type (Some (c_scheme p)) = Ok t.
Proof.
  intros W S1 S2 A. unfold parse_uri. destruct (Nat.eqb_spec (length (render p)) 0) as [Z|_]; [now apply render_nonempty in Z|].
  rewrite parse_render by assumption. cbn [bind result urej uhost uscheme]. destruct (str_has_spec (c_host p) [46%Z] S2) as (d & -> & D). cbn [bind].
  assert (negb d && negb (beq (c_host p) hostname) = false) as ->.
  { destruct A as [A|A].
    - destruct d; [reflexivity|]. apply occurs_one in A. apply D in A. discriminate.
    - apply beq_eq in A. rewrite A. apply andb_false_r. }
  destruct (scheme_type_ok (c_scheme p) S1) as (t & ->). cbn [bind]. exists t. auto.
Qed.
Lemma uri_dotless hostname p : wf_parts p -> short (c_host p) -> ~ accepted hostname p -> parse_uri hostname (render p) = Ok None.
Proof.
  intros W S2 A. unfold parse_uri. destruct (Nat.eqb_spec (length (render p)) 0) as [Z|_]; [now apply render_nonempty in Z|].
  rewrite parse_render by assumption. cbn [bind result urej uhost]. destruct (str_has_spec (c_host p) [46%Z] S2) as (d & -> & D). cbn [bind].
  destruct d; [exfalso; apply A; left; apply occurs_one; now apply D|]. destruct (beq (c_host p) hostname) eqn:B; [exfalso; apply A; right; now apply beq_eq|]. reflexivity.
Qed.
Lemma fragment_is_tcp s i : occurs s s_tcp i -> scheme_type (Some s) = Ok TTcp.
Proof.
  intros O. unfold scheme_type. destruct (str_has_spec s_tcp s ltac:(vm_compute; reflexivity)) as (a & -> & A). cbn [bind].
  rewrite (proj2 A) by eauto. reflexivity.
Qed.
(* text after the digits of a port is ignored: http://a.b:8x *)
Definition junk_port : bytes := [104;116;116;112;58;47;47;97;46;98;58;56;120]%Z.
Lemma port_junk : exists u, parse junk_port = Ok u /\ urej u = false /\ uport u = 8%Z /\ uhost u = Some [97; 46; 98]%Z.
Proof. eexists. split; [vm_compute; reflexivity|]. auto. Qed.
