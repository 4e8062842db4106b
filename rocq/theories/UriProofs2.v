(* Further forms of URIs: refused ports, URIs without a scheme, files, control bytes, transports. *)
From Verif Require Import Base StrModel StrProofs UriModel UriProofs.
From Coq Require Import Lia.

(* ---- what holds of every result ---- *)

Definition post {A} (Q : A -> Prop) (o : outcome A) : Prop := match o with Ok a => Q a | _ => True end.
Lemma post_bind {A B} (P : A -> Prop) (Q : B -> Prop) (o : outcome A) (f : A -> outcome B) :
  post P o -> (forall a, P a -> post Q (f a)) -> post Q (bind o f).
Proof. destruct o; cbn; auto. Qed.
Lemma post_any {A} (o : outcome A) : post (fun _ => True) o.
Proof. destruct o; cbn; auto. Qed.

Definition opt_plain (x : option bytes) : Prop := match x with Some l => plain l | None => True end.
(* no component has a control byte, and the port fits in 16 bits *)
Definition fine (u : uri) : Prop :=
  (0 <= uport u <= 65535)%Z /\ opt_plain (uscheme u) /\ opt_plain (uuser u) /\ opt_plain (upass u) /\ opt_plain (uhost u) /\
  opt_plain (upath u) /\ opt_plain (uquery u) /\ opt_plain (ufrag u).

Lemma clean_is_plain l : Forall (fun c => 0 <= c)%Z l -> plain (clean l).
Proof.
  unfold clean, plain. induction 1 as [|c l H F IH]; cbn; constructor; auto. unfold cntrl. destruct (Z.ltb_spec c 32); cbn; [lia|].
  destruct (Z.eqb_spec c 127); lia.
Qed.

Section Fine.
Variable str : bytes.
Lemma dup_fine s e : post plain (dup str s e).
Proof.
  unfold dup, range. destruct ((e <? s) || (ue str <? e)); cbn; [trivial|]. unfold clean, plain.
  apply Forall_forall. intros c C. apply in_map_iff in C. destruct C as (x & <- & _). unfold cntrl. destruct (Z.ltb_spec x 32); cbn; [lia|].
  destruct (Z.eqb_spec x 127); lia.
Qed.
Lemma port_fine s e : post (fun v => match v with Some v => 0 <= v <= 65535 | None => True end)%Z (port_of str s e).
Proof.
  unfold port_of, range. destruct ((e <? s) || (ue str <? e)); cbn; [trivial|]. destruct (strtol _) as [v ok]. cbn.
  destruct (Z.leb_spec 0 v), (Z.leb_spec v 65535), ok; cbn; lia.
Qed.
Ltac fdone := unfold fine in *; cbn in *; tauto.
Lemma just_path_fine u s : fine u -> post fine (just_path str u s).
Proof.
  intros F. unfold just_path. apply (post_bind (fun _ => True)); [apply post_any|]. intros h _.
  apply (post_bind (fun r => fine (fst r))).
  { destruct h as [p|]; [|exact F]. destruct (S p <? ue str); [|exact F]. apply (post_bind plain); [apply dup_fine|]. intros a A. cbn. fdone. }
  intros [u1 e1] F1. cbn in F1. apply (post_bind (fun _ => True)); [apply post_any|]. intros q _.
  apply (post_bind (fun r => fine (fst r))).
  { destruct q as [p|]; [|exact F1]. destruct (S p <? e1); [|exact F1]. apply (post_bind plain); [apply dup_fine|]. intros a A. cbn. fdone. }
  intros [u2 e2] F2. cbn in F2. destruct ((s <? e2) || (s =? ue str)); [|exact F2].
  apply (post_bind plain); [apply dup_fine|]. intros a A. cbn. fdone.
Qed.
Lemma parse_host_fine u s0 : fine u -> post fine (parse_host str u s0).
Proof.
  intros F. unfold parse_host. apply (post_bind (fun _ => True)); [apply post_any|]. intros e _.
  apply (post_bind (fun _ => True)); [apply post_any|]. intros a _.
  apply (post_bind (fun r => fine (fst r))).
  { destruct a as [p|]; [|exact F]. apply (post_bind (fun _ => True)); [apply post_any|]. intros pp _.
    apply (post_bind fine).
    - destruct pp as [q|].
      + apply (post_bind plain); [apply dup_fine|]. intros x X. apply (post_bind plain); [apply dup_fine|]. intros y Y. cbn. fdone.
      + apply (post_bind plain); [apply dup_fine|]. intros x X. cbn. fdone.
    - intros u1 F1. exact F1. }
  intros [u1 s] F1. cbn in F1. apply (post_bind (fun _ => True)); [apply post_any|]. intros v6 _.
  apply (post_bind (fun _ => True)); [apply post_any|]. intros p _.
  apply (post_bind (fun r => fine (fst r))).
  { destruct p as [p|]; [|exact F1]. destruct (uport u1 =? 0)%Z; [|exact F1]. destruct (5 <? e - S p); [cbn; fdone|].
    destruct (0 <? e - S p); [|exact F1]. eapply post_bind; [apply port_fine|]. intros [v|] V; cbn; fdone. }
  intros [u2 hp] F2. cbn in F2. destruct (urej u2); [exact F2|]. destruct (hp <? S s); [cbn; fdone|].
  apply (post_bind plain); [apply dup_fine|]. intros h H. cbv zeta. assert (F3 : fine (set_host h u2)) by fdone.
  destruct (e =? ue str); [exact F3 | apply just_path_fine; exact F3].
Qed.
Lemma parse_port_fine u e : fine u -> post fine (parse_port str u e).
Proof.
  intros F. unfold parse_port. cbv zeta. apply (post_bind (fun _ => True)); [apply post_any|]. intros pp _.
  apply (post_bind (fun _ => True)); [apply post_any|]. intros stop _. apply (post_bind (fun _ => True)); [apply post_any|]. intros sl _.
  destruct ((0 <? pp - S e) && (pp - S e <? 6) && stop).
  - eapply post_bind; [apply port_fine|]. intros [v|] V; [|cbn; fdone]. apply parse_host_fine. fdone.
  - destruct ((pp - S e =? 0) && (pp =? ue str)); [cbn; fdone|]. destruct sl; [apply parse_host_fine | apply just_path_fine]; exact F.
Qed.
Lemma parse_fine : post fine (parse str).
Proof.
  assert (F0 : fine uri0) by (unfold fine; cbn; repeat split; lia).
  unfold parse. apply (post_bind (fun _ => True)); [apply post_any|]. intros [[|e]|] _.
  - apply parse_port_fine, F0.
  - apply (post_bind (fun _ => True)); [apply post_any|]. intros l _. destruct (forallb schemec l).
    + destruct (S (S e) =? ue str).
      * apply (post_bind plain); [apply dup_fine|]. intros x X. cbn. fdone.
      * apply (post_bind (fun _ => True)); [apply post_any|]. intros c1 _. destruct (negb (c1 =? 47)%Z).
        -- apply (post_bind (fun _ => True)); [apply post_any|]. intros p _. apply (post_bind (fun _ => True)); [apply post_any|]. intros st _.
           destruct (st && (p - S e <? 7)); [apply parse_port_fine, F0|]. apply (post_bind plain); [apply dup_fine|]. intros x X.
           apply just_path_fine. fdone.
        -- apply (post_bind plain); [apply dup_fine|]. intros x X. cbv zeta. assert (FS : fine (set_scheme x uri0)) by fdone.
           apply (post_bind (fun _ => True)); [apply post_any|]. intros [|] _; [|apply just_path_fine, FS].
           apply (post_bind (fun _ => True)); [apply post_any|]. intros [|] _; [|apply parse_host_fine, FS].
           apply (post_bind (fun _ => True)); [apply post_any|]. intros [|] _; apply just_path_fine, FS.
    + apply (post_bind (fun _ => True)); [apply post_any|]. intros q _. destruct ((S (S e) <? ue str) && (S e <? q)); [apply parse_port_fine, F0|].
      apply (post_bind (fun _ => True)); [apply post_any|]. intros [|] _; [apply parse_host_fine | apply just_path_fine]; exact F0.
  - apply (post_bind (fun _ => True)); [apply post_any|]. intros [|] _; [apply parse_host_fine | apply just_path_fine]; exact F0.
Qed.
End Fine.

Lemma every_result str u : parse str = Ok u -> fine u.
Proof. intros H. pose proof (parse_fine str) as P. rewrite H in P. exact P. Qed.

(* ---- an authority host:port ---- *)

Definition port_value (d : bytes) : option Z := let (v, ok) := strtol d in if (0 <=? v)%Z && (v <=? 65535)%Z && ok then Some v else None.
Definition finish (str : bytes) (u : uri) (h : bytes) (tl : bytes) (e : nat) : outcome uri :=
  match tl with [] => Ok (set_host h u) | _ => just_path str (set_host h u) e end.

Lemma host_port_at str pre u h d tl : plain str -> str = pre ++ h ++ 58%Z :: d ++ tl -> h <> [] -> free (64%Z :: delims) h ->
  free (64%Z :: 58%Z :: 93%Z :: delims) d -> match tl with [] => True | c :: _ => In c delims end -> urej u = false ->
  parse_host str u (length pre) =
    let e := length pre + length h + S (length d) in
    if (uport u =? 0)%Z then
      if 5 <? length d then Ok (set_rej u)
      else match d with
           | [] => finish str u h tl e
           | _ => match port_value d with Some v => finish str (set_port v u) h tl e | None => Ok (set_rej u) end
           end
    else finish str u h tl e.
Proof.
  intros P E HN HF DF TH RJ. assert (LS : length str = length pre + length h + S (length d) + length tl) by (rewrite E, !app_length; cbn [length]; rewrite app_length; lia).
  unfold parse_host, ue.
  rewrite (cspn_at [47; 63; 35]%Z str pre (h ++ 58%Z :: d) tl []); [|rewrite app_nil_r, E, <- app_assoc; reflexivity|rewrite app_length; cbn [length]; lia| |exact TH].
  2: { apply free_app. split; [eapply free_sub; [exact HF|]; intros c C; right; exact C|]. apply free_cons; [cbn; lia|].
       eapply free_sub; [exact DF|]. intros c C. right. right. right. exact C. }
  cbn [bind]. cbv zeta. assert (EE : length pre + length (h ++ 58%Z :: d) = length pre + length h + S (length d)) by (rewrite app_length; cbn [length]; lia). rewrite EE.
  set (e := length pre + length h + S (length d)) in *.
  rewrite (mrchr_miss str 64 _ e pre (h ++ 58%Z :: d) tl); [|rewrite E, <- app_assoc; reflexivity|reflexivity|rewrite app_length; cbn [length]; unfold e; lia|].
  2: { apply free_app. split; [eapply free_sub; [exact HF|]; intros c [<-|[]]; now left|]. apply free_cons; [cbn; lia|]. eapply free_sub; [exact DF|]. intros c [<-|[]]. now left. }
  cbn [bind]. destruct (Nat.ltb_spec (length pre) (length str)); [|destruct h; [congruence|cbn [length] in *; lia]].
  assert (V6 : (do c <- ch str (length pre); if (c =? 91)%Z then do x <- (match e with 0 => UB | S k => ch str k end); Ok (x =? 93)%Z else Ok false) = Ok false).
  { destruct h as [|h0 ht]; [congruence|]. rewrite (ch_at str pre h0 (ht ++ 58%Z :: d ++ tl)) by (rewrite E; reflexivity). cbn [bind].
    destruct (h0 =? 91)%Z; [|reflexivity]. destruct (@exists_last _ (58%Z :: d) ltac:(discriminate)) as (l & z & DE).
    assert (DL : length l = length d). { apply (f_equal (@length Z)) in DE. rewrite app_length in DE. cbn [length] in DE. lia. }
    replace e with (S (length (pre ++ (h0 :: ht) ++ l))) by (rewrite !app_length; unfold e; cbn [length]; lia).
    rewrite (ch_at str (pre ++ (h0 :: ht) ++ l) z tl).
    2: { rewrite E. change (58%Z :: d ++ tl) with ((58%Z :: d) ++ tl). rewrite DE, <- !app_assoc. reflexivity. }
    cbn [bind]. destruct (Z.eqb_spec z 93) as [->|]; [|reflexivity]. exfalso.
    assert (I : In 93%Z (58%Z :: d)) by (rewrite DE; apply in_or_app; right; now left). destruct I as [I|I]; [discriminate I|]. apply (DF 93%Z I). cbn; auto. }
  rewrite V6. cbn [bind].
  rewrite (mrchr_hit str 58 _ e pre h d tl); [|rewrite E, <- app_assoc; reflexivity|reflexivity|rewrite app_length; cbn [length]; unfold e; lia|].
  2: { eapply free_sub; [exact DF|]. intros c [<-|[]]. right. now left. }
  cbn [bind]. assert (EL : e - S (length pre + length h) = length d) by (unfold e; lia). rewrite EL.
  assert (FIN : forall u', urej u' = false ->
     (if urej u' then Ok u' else if length pre + length h <? S (length pre) then Ok (set_rej u')
      else do x <- dup str (length pre) (length pre + length h); if e =? length str then Ok (set_host x u') else just_path str (set_host x u') e) = finish str u' h tl e).
  { intros u' R. rewrite R. destruct (Nat.ltb_spec (length pre + length h) (S (length pre))); [destruct h; [congruence|cbn [length] in *; lia]|].
    rewrite (dup_at str _ _ pre h (58%Z :: d ++ tl)); [|exact P|exact E|reflexivity|reflexivity]. cbn [bind]. unfold finish.
    destruct tl as [|c tl]; [destruct (Nat.eqb_spec e (length str)); [reflexivity|cbn [length] in LS; unfold e in *; lia]|].
    destruct (Nat.eqb_spec e (length str)); [cbn [length] in LS; unfold e in *; lia|reflexivity]. }
  destruct (uport u =? 0)%Z; [|cbn [bind]; apply FIN, RJ].
  destruct (5 <? length d) eqn:L5; [cbn [bind]; reflexivity|].
  destruct d as [|d0 dt]; [cbn [length Nat.ltb Nat.leb bind]; apply FIN, RJ|]. cbn [length]. destruct (Nat.ltb_spec 0 (S (length dt))); [|lia].
  unfold port_of. rewrite (range_at str _ _ (pre ++ h ++ [58%Z]) (d0 :: dt) tl).
  2: { rewrite E, <- !app_assoc. reflexivity. } 2: { rewrite !app_length. cbn [length]. lia. } 2: { rewrite !app_length. cbn [length]. unfold e. cbn [length]. lia. }
  cbn [bind]. fold (port_value (d0 :: dt)). unfold port_value. destruct (strtol (d0 :: dt)) as [v ok].
  destruct ((0 <=? v)%Z && (v <=? 65535)%Z && ok); cbn [bind]; [apply FIN; exact RJ | reflexivity].
Qed.

(* after "scheme://" *)
Lemma parse_front sc r0 rr : sc <> [] -> Forall letter sc -> plain (sc ++ [58; 47; 47]%Z ++ r0 :: rr) -> r0 <> 47%Z ->
  parse (sc ++ [58; 47; 47]%Z ++ r0 :: rr) = parse_host (sc ++ [58; 47; 47]%Z ++ r0 :: rr) (set_scheme sc uri0) (length (sc ++ [58; 47; 47]%Z)).
Proof.
  intros SN SL P R47. set (str := sc ++ [58; 47; 47]%Z ++ r0 :: rr) in *. assert (E : str = sc ++ [58; 47; 47]%Z ++ r0 :: rr) by reflexivity.
  assert (S58 : free [58%Z] sc). { intros c C [<-|[]]. rewrite Forall_forall in SL. specialize (SL _ C). unfold letter in SL. lia. }
  assert (LS : length str = length sc + 4 + length rr) by (rewrite E, !app_length; cbn [length]; lia).
  unfold parse, ue. rewrite (mchr_hit str 58 _ _ [] sc ([47; 47]%Z ++ r0 :: rr) []); [|rewrite E, app_nil_r; reflexivity|reflexivity|rewrite E; reflexivity|exact S58].
  cbn [bind length Nat.add]. destruct (length sc) as [|n] eqn:LN; [destruct sc; [congruence|discriminate LN]|]. rewrite <- LN in *.
  rewrite (range_at str 0 (length sc) [] sc ([58; 47; 47]%Z ++ r0 :: rr)); [|rewrite E; reflexivity|reflexivity|reflexivity]. cbn [bind]. rewrite (letter_schemec sc SL).
  destruct (Nat.eqb_spec (S (length sc)) (length str)); [lia|].
  assert (C1 : ch str (S (length sc)) = Ok 47%Z). { replace (S (length sc)) with (length (sc ++ [58%Z])) by (rewrite app_length; cbn [length]; lia). apply (ch_at str (sc ++ [58%Z]) 47%Z (47%Z :: r0 :: rr)). asc E. }
  rewrite C1. cbn [bind Z.eqb Pos.eqb negb].
  rewrite (dup_at str 0 (length sc) [] sc ([58; 47; 47]%Z ++ r0 :: rr)); [|exact P|rewrite E; reflexivity|reflexivity|reflexivity]. cbn [bind].
  destruct (Nat.ltb_spec (S (S (length sc))) (length str)); [|lia].
  assert (C2 : ch str (S (S (length sc))) = Ok 47%Z). { replace (S (S (length sc))) with (length (sc ++ [58; 47]%Z)) by (rewrite app_length; cbn [length]; lia). apply (ch_at str (sc ++ [58; 47]%Z) 47%Z (r0 :: rr)). asc E. }
  rewrite C2. cbn [bind Z.eqb Pos.eqb].
  assert (C3 : (if beq (map lower sc) file_ then if length sc + 3 <? length str then do c <- ch str (length sc + 3); Ok (c =? 47)%Z else Ok false else Ok false) = Ok false).
  { destruct (beq _ _); [|reflexivity]. destruct (length sc + 3 <? length str); [|reflexivity].
    replace (length sc + 3) with (length (sc ++ [58; 47; 47]%Z)) by (rewrite app_length; cbn [length]; lia). rewrite (ch_at str (sc ++ [58; 47; 47]%Z) r0 rr); [|rewrite E, <- !app_assoc; reflexivity].
    cbn [bind]. destruct (Z.eqb_spec r0 47); [contradiction|reflexivity]. }
  rewrite C3. cbn [bind]. replace (length sc + 3) with (length (sc ++ [58; 47; 47]%Z)) by (rewrite app_length; cbn [length]; lia). reflexivity.
Qed.

(* ---- refused ports ---- *)

Definition bad_port (d : bytes) : Prop :=
  5 < length d \/ (d <> [] /\ Forall digit d /\ (65535 < value 0 d)%Z) \/ (exists r, d = 45%Z :: r /\ Forall digit r /\ (0 < value 0 r)%Z) \/
  (exists c r, d = c :: r /\ ~ digit c /\ isspace c = false /\ c <> 43%Z /\ c <> 45%Z).

Lemma bad_value d : bad_port d -> d <> [] /\ (5 <? length d = true \/ port_value d = None).
Proof.
  intros [L | [(N & F & V) | [(r & -> & F & V) | (c & r & -> & ND & NS & N1 & N2)]]].
  - split; [destruct d; [cbn in L; lia | discriminate]|]. left. apply Nat.ltb_lt. exact L.
  - split; [exact N|]. right. unfold port_value. rewrite strtol_digits by assumption. destruct (Z.leb_spec (value 0 d) 65535); [lia|].
    rewrite andb_false_r. reflexivity.
  - split; [discriminate|]. right. unfold port_value, strtol. change (skip_sp (45%Z :: r)) with (45%Z :: r). cbv iota beta zeta. rewrite digits_all by exact F. rewrite dec_value.
    destruct (Z.leb_spec 0 (- value 0 r)); [lia|]. reflexivity.
  - split; [discriminate|]. right. unfold port_value, strtol. cbn [skip_sp]. rewrite NS. cbv zeta.
    assert (D : dig c = false). { unfold dig, digit in *. destruct (Z.leb_spec 48 c), (Z.leb_spec c 57); cbn; try reflexivity; lia. }
    assert (DD : digits (c :: r) = []) by (cbn; rewrite D; reflexivity).
    assert (G : match c :: r with 45%Z :: r0 => ((- dec (digits r0))%Z, negb (length (digits r0) =? 0)) | 43%Z :: r0 => (dec (digits r0), negb (length (digits r0) =? 0)) | _ => (dec (digits (c :: r)), negb (length (digits (c :: r)) =? 0)) end = (0%Z, false)).
    { rewrite DD. destruct c as [|p|p]; try reflexivity. do 6 (destruct p as [p|p|]; try reflexivity); exfalso; tauto. }
    rewrite G. reflexivity.
Qed.

Lemma bad_port_refused hostname sc h d tl : sc <> [] -> Forall letter sc -> h <> [] -> free (64%Z :: delims) h -> free (64%Z :: 58%Z :: 93%Z :: delims) d ->
  match tl with [] => True | c :: _ => In c delims end -> plain (sc ++ [58; 47; 47]%Z ++ h ++ 58%Z :: d ++ tl) -> bad_port d ->
  parse_uri hostname (sc ++ [58; 47; 47]%Z ++ h ++ 58%Z :: d ++ tl) = Ok None.
Proof.
  intros SN SL HN HF DF TH P B. destruct h as [|h0 ht] eqn:HE; [congruence|]. rewrite <- HE in *.
  set (str := sc ++ [58; 47; 47]%Z ++ h ++ 58%Z :: d ++ tl) in *.
  assert (PP : parse str = Ok (set_rej (set_scheme sc uri0))).
  { assert (E : str = sc ++ [58; 47; 47]%Z ++ h0 :: (ht ++ 58%Z :: d ++ tl)) by (unfold str; rewrite HE; reflexivity).
    rewrite E, parse_front; [|exact SN|exact SL|rewrite <- E; exact P|]. 2: { intros ->. apply (HF 47%Z); [rewrite HE; now left | cbn; auto]. }
    rewrite <- E. rewrite (host_port_at str (sc ++ [58; 47; 47]%Z) (set_scheme sc uri0) h d tl); [|exact P|unfold str; rewrite <- !app_assoc; reflexivity|exact HN|exact HF|exact DF|exact TH|reflexivity].
    cbv zeta. cbn [uport set_scheme uri0 Z.eqb]. destruct (bad_value d B) as (DN & [L | V]); [rewrite L; reflexivity|].
    rewrite V. destruct (5 <? length d); [reflexivity|]. destruct d; [congruence | reflexivity]. }
  unfold parse_uri. destruct (Nat.eqb_spec (length str) 0) as [Z0|_]; [reflexivity|]. rewrite PP. reflexivity.
Qed.

(* ---- without a scheme ---- *)

Definition rest_of (path : bytes) (q f : option bytes) : bytes := path ++ r_opt 63 q ++ r_opt 35 f.
Definition base (h : bytes) (port : Z) : uri := set_host h (set_port port uri0).

Lemma finish_at str pre u h d path q f : plain str -> str = pre ++ h ++ 58%Z :: d ++ rest_of path q f -> free [63; 35]%Z path ->
  match q with None => True | Some q => free [35%Z] q end -> upath u = None -> uquery u = None -> ufrag u = None ->
  finish str u h (rest_of path q f) (length pre + length h + S (length d)) = Ok (with_tail (set_host h u) path q f).
Proof.
  intros P E FP FQ U1 U2 U3. unfold finish. destruct (rest_of path q f) as [|c r] eqn:R.
  - unfold rest_of in R. apply app_eq_nil in R. destruct R as [-> R]. apply app_eq_nil in R. destruct R as [R1 R2].
    destruct q; [discriminate|]. destruct f; [discriminate|]. unfold with_tail. cbn. destruct u; cbn in *; subst. reflexivity.
  - replace (length pre + length h + S (length d)) with (length (pre ++ h ++ 58%Z :: d)) by (rewrite !app_length; cbn [length]; lia).
    apply just_path_at; auto. + rewrite E, <- !app_assoc. cbn [app]. rewrite <- R. reflexivity. + rewrite <- R in *. unfold rest_of in R. rewrite R. discriminate.
Qed.

Definition skips (l : bytes) : Prop := Forall digit l.
Lemma dig_digit c : digit c -> dig c = true.
Proof. unfold digit, dig. intros H. destruct (Z.leb_spec 48 c), (Z.leb_spec c 57); cbn; lia. Qed.
Lemma skip_at str : forall d pre c tl fuel, str = pre ++ d ++ tl -> Forall digit d -> (match tl with [] => True | x :: _ => x = c end) -> dig c = false -> length d <= fuel ->
  (length d < fuel \/ tl = []) -> skip_digits str fuel (length pre) = Ok (length pre + length d).
Proof.
  induction d as [|x d IH]; intros pre c tl fuel E F T C L L2.
  - cbn [length]. rewrite Nat.add_0_r. destruct fuel as [|fuel]; [reflexivity|]. cbn [skip_digits]. unfold ue.
    destruct (Nat.ltb_spec (length pre) (length str)); [|reflexivity]. destruct tl as [|y tl]; [rewrite E, app_nil_r in *; lia|]. subst y.
    rewrite (ch_at str pre c tl) by (rewrite E; reflexivity). cbn [bind]. rewrite C. reflexivity.
  - destruct fuel as [|fuel]; [cbn in L; lia|]. cbn [skip_digits]. unfold ue.
    destruct (Nat.ltb_spec (length pre) (length str)); [|rewrite E, app_length in *; cbn [length app] in *; lia].
    rewrite (ch_at str pre x (d ++ tl)) by (rewrite E; reflexivity). cbn [bind]. rewrite (dig_digit x) by exact (Forall_inv F).
    replace (S (length pre)) with (length (pre ++ [x])) by (rewrite app_length; cbn [length]; lia).
    rewrite (IH (pre ++ [x]) c tl fuel); [rewrite app_length; cbn [length]; f_equal; lia|rewrite E, <- app_assoc; reflexivity|exact (Forall_inv_tail F)|exact T|exact C|cbn in L; lia|].
    cbn [length] in L2. destruct L2 as [L2|L2]; [left; lia | right; exact L2].
Qed.

Lemma stop_at str p pre tl : str = pre ++ tl -> p = length pre -> (match tl with [] => True | x :: _ => x = 47%Z end) ->
  (if p =? length str then Ok true else do c <- ch str p; Ok (c =? 47)%Z) = Ok true.
Proof.
  intros E -> T. destruct tl as [|x tl]; [rewrite app_nil_r in E; subst pre; rewrite Nat.eqb_refl; reflexivity|]. subst x.
  destruct (length pre =? length str); [reflexivity|]. rewrite (ch_at str pre 47%Z tl E). reflexivity.
Qed.

Lemma value_zero d : Forall digit d -> (0 <= value 0 d)%Z.
Proof. intros F. apply value_ge; [exact F | lia]. Qed.

(* the port found, then the host, with or without the two slashes *)
Lemma parse_port_at str pre h d path q f : (pre = [] \/ pre = [47; 47]%Z) -> plain str -> str = pre ++ h ++ 58%Z :: d ++ rest_of path q f ->
  h <> [] -> free (64%Z :: delims) h -> d <> [] -> length d <= 5 -> Forall digit d -> (value 0 d <= 65535)%Z ->
  (match path with [] => q = None /\ f = None | c :: _ => c = 47%Z end) -> free [63; 35]%Z path -> match q with None => True | Some q => free [35%Z] q end ->
  parse_port str uri0 (length (pre ++ h)) = Ok (with_tail (base h (value 0 d)) path q f).
Proof.
  intros PRE P E HN HF DN DL FD V HP FP FQ. unfold parse_port. cbv zeta.
  assert (T47 : match rest_of path q f with [] => True | x :: _ => x = 47%Z end).
  { unfold rest_of. destruct path as [|c path]; [destruct HP as [-> ->]; exact I | exact HP]. }
  assert (TH : match rest_of path q f with [] => True | x :: _ => In x delims end).
  { destruct (rest_of path q f) as [|x r]; [exact I|]. subst x. cbn; auto. }
  set (tl := rest_of path q f) in *. assert (E2 : str = (pre ++ h ++ [58%Z]) ++ d ++ tl) by (rewrite E, <- !app_assoc; reflexivity).
  replace (S (length (pre ++ h))) with (length (pre ++ h ++ [58%Z])) by (rewrite !app_length; cbn [length]; lia).
  rewrite (skip_at str d (pre ++ h ++ [58%Z]) 47%Z tl 6 E2 FD T47 eq_refl ltac:(lia) ltac:(lia)). cbn [bind]. unfold ue.
  rewrite (stop_at str _ ((pre ++ h ++ [58%Z]) ++ d) tl); [|rewrite E2, <- !app_assoc; reflexivity|rewrite !app_length; reflexivity|exact T47]. cbn [bind].
  assert (SL : slashes str = Ok (match pre with [] => false | _ => true end)).
  { unfold slashes, ue. destruct (Nat.ltb_spec 1 (length str)) as [L1|L1].
    - destruct PRE as [-> | ->].
      + destruct h as [|h0 ht]; [congruence|]. rewrite (ch_at str [] h0 (ht ++ 58%Z :: d ++ tl) E : ch str 0 = Ok h0). cbn [bind].
        assert (NZ : h0 <> 47%Z). { intros ->. apply (HF 47%Z); [now left | cbn; auto]. }
        destruct (ch_ok str 1 ltac:(lia)) as (b & ->). cbn [bind]. destruct (Z.eqb_spec h0 47); [contradiction|reflexivity].
      + rewrite (ch_at str [] 47%Z (47%Z :: h ++ 58%Z :: d ++ tl) E : ch str 0 = Ok 47%Z).
        rewrite (ch_at str [47%Z] 47%Z (h ++ 58%Z :: d ++ tl) E : ch str 1 = Ok 47%Z). reflexivity.
    - exfalso. rewrite E, !app_length in L1. cbn [length] in L1. rewrite app_length in L1. destruct h; [congruence|]. destruct d; [congruence|]. cbn [length] in L1. lia. }
  rewrite SL. cbn [bind].
  replace (length (pre ++ h ++ [58%Z]) + length d - length (pre ++ h ++ [58%Z])) with (length d) by lia.
  destruct (Nat.ltb_spec 0 (length d)); [|destruct d; [congruence|cbn in *; lia]]. destruct (Nat.ltb_spec (length d) 6); [|lia]. cbn [andb].
  rewrite (port_at str _ _ (pre ++ h ++ [58%Z]) d tl E2 eq_refl eq_refl FD DN V). cbn [bind].
  replace (if match pre with [] => false | _ :: _ => true end then 2 else 0) with (length pre) by (destruct PRE as [-> | ->]; reflexivity).
  rewrite (host_port_at str pre (set_port (value 0 d) uri0) h d tl P E HN HF).
  2: { apply digit_free; [exact FD|]. intros c C. unfold digit. cbn in C. lia. } 2: exact TH. 2: reflexivity.
  cbv zeta. cbn [uport set_port]. assert (PV : port_value d = Some (value 0 d)).
  { unfold port_value. rewrite strtol_digits by assumption. pose proof (value_zero d FD). destruct (Z.leb_spec 0 (value 0 d)); [|lia]. destruct (Z.leb_spec (value 0 d) 65535); [|lia]. reflexivity. }
  rewrite PV. destruct (Nat.ltb_spec 5 (length d)); [lia|].
  assert (F1 : finish str (set_port (value 0 d) uri0) h tl (length pre + length h + S (length d)) = Ok (with_tail (base h (value 0 d)) path q f)).
  { apply finish_at; auto. }
  destruct (value 0 d =? 0)%Z; [destruct d; [congruence|] |]; exact F1.
Qed.

Lemma parse_relative h d path q f : let str := [47; 47]%Z ++ h ++ 58%Z :: d ++ rest_of path q f in plain str ->
  h <> [] -> free (64%Z :: 58%Z :: delims) h -> d <> [] -> length d <= 5 -> Forall digit d -> (value 0 d <= 65535)%Z ->
  (match path with [] => q = None /\ f = None | c :: _ => c = 47%Z end) -> free [63; 35]%Z path -> match q with None => True | Some q => free [35%Z] q end ->
  parse str = Ok (with_tail (base h (value 0 d)) path q f).
Proof.
  intros str P HN HF DN DL FD V HP FP FQ. assert (E : str = [47; 47]%Z ++ h ++ 58%Z :: d ++ rest_of path q f) by reflexivity.
  assert (HF2 : free (64%Z :: delims) h) by (eapply free_sub; [exact HF|]; cbn; tauto).
  unfold parse, ue. rewrite (mchr_hit str 58 _ _ [] ([47; 47]%Z ++ h) (d ++ rest_of path q f) []); [|rewrite app_nil_r, E, <- !app_assoc; reflexivity|reflexivity|unfold str; rewrite !app_length; cbn; lia|].
  2: { apply free_app. split; [intros c [<-|[<-|[]]] [X|[]]; discriminate X | eapply free_sub; [exact HF|]; intros c [<-|[]]; right; now left]. }
  cbn [bind length Nat.add app]. rewrite (range_at str 0 (S (S (length h))) [] ([47; 47]%Z ++ h) (58%Z :: d ++ rest_of path q f)); [|rewrite E, <- app_assoc; reflexivity|reflexivity|reflexivity].
  cbn [bind app forallb]. change (schemec 47) with false. cbn [andb].
  assert (LS : length str = 2 + length h + S (length d) + length (rest_of path q f)) by (rewrite E, !app_length; cbn [length]; rewrite app_length; lia).
  assert (CS : exists r, cspn str 0 (length str) [63; 35]%Z = Ok r /\ S (S (length h)) < r).
  { set (qf := r_opt 63 q ++ r_opt 35 f). exists (length ([47; 47]%Z ++ h ++ 58%Z :: d ++ path)).
    split; [|rewrite !app_length; cbn [length]; rewrite app_length; lia].
    apply (cspn_at [63; 35]%Z str [] ([47; 47]%Z ++ h ++ 58%Z :: d ++ path) qf []).
    - rewrite app_nil_r, E. unfold rest_of, qf. cbn [app]. rewrite <- !app_assoc. cbn [app]. rewrite <- !app_assoc. reflexivity.
    - rewrite E. unfold rest_of. fold qf. rewrite !app_length. cbn [length]. rewrite !app_length. lia.
    - apply free_app. split; [intros c [<-|[<-|[]]] [X|[X|[]]]; discriminate X|]. apply free_app. split; [eapply free_sub; [exact HF|]; cbn; tauto|].
      apply free_cons; [cbn; lia|]. apply free_app. split; [|exact FP]. apply digit_free; [exact FD|]. intros c C. unfold digit. cbn in C. lia.
    - unfold qf. destruct q; cbn; [auto|]. destruct f; cbn; auto. }
  destruct CS as (r & -> & CR). cbn [bind]. destruct (Nat.ltb_spec (S (S (S (length h)))) (length str)); [|destruct d; [congruence|cbn [length] in *; lia]].
  destruct (Nat.ltb_spec (S (S (length h))) r); [|lia]. cbn [andb].
  apply (parse_port_at str [47; 47]%Z h d path q f); auto.
Qed.

Lemma parse_plain h d path q f : let str := h ++ 58%Z :: d ++ rest_of path q f in plain str ->
  h <> [] -> free (64%Z :: 58%Z :: delims) h -> d <> [] -> length d <= 5 -> Forall digit d -> (value 0 d <= 65535)%Z ->
  (match path with [] => q = None /\ f = None | c :: _ => c = 47%Z end) -> free [63; 35]%Z path -> match q with None => True | Some q => free [35%Z] q end ->
  parse str = Ok (with_tail (base h (value 0 d)) path q f).
Proof.
  intros str P HN HF DN DL FD V HP FP FQ. assert (E : str = h ++ 58%Z :: d ++ rest_of path q f) by reflexivity.
  assert (HF2 : free (64%Z :: delims) h) by (eapply free_sub; [exact HF|]; cbn; tauto).
  assert (T47 : match rest_of path q f with [] => True | x :: _ => x = 47%Z end).
  { unfold rest_of. destruct path as [|c path]; [destruct HP as [-> ->]; exact I | exact HP]. }
  unfold parse, ue. rewrite (mchr_hit str 58 _ _ [] h (d ++ rest_of path q f) []); [|rewrite app_nil_r, E; reflexivity|reflexivity|reflexivity|].
  2: { eapply free_sub; [exact HF|]; intros c [<-|[]]; right; now left. }
  cbn [bind length Nat.add]. destruct (length h) as [|n] eqn:LN; [destruct h; [congruence|discriminate LN]|]. rewrite <- LN in *.
  rewrite (range_at str 0 (length h) [] h (58%Z :: d ++ rest_of path q f)); [|exact E|reflexivity|reflexivity]. cbn [bind].
  assert (LS : length str = length h + S (length d) + length (rest_of path q f)) by (rewrite E, app_length; cbn [length]; rewrite app_length; lia).
  assert (PP : parse_port str uri0 (length h) = Ok (with_tail (base h (value 0 d)) path q f)) by (apply (parse_port_at str [] h d path q f); auto).
  destruct (forallb schemec h).
  - destruct (Nat.eqb_spec (S (length h)) (length str)); [destruct d; [congruence|cbn [length] in *; lia]|].
    destruct d as [|d0 dt] eqn:DE; [congruence|]. rewrite <- DE in *.
    assert (C1 : ch str (S (length h)) = Ok d0). { replace (S (length h)) with (length (h ++ [58%Z])) by (rewrite app_length; cbn [length]; lia). apply (ch_at str (h ++ [58%Z]) d0 (dt ++ rest_of path q f)). rewrite E, DE, <- app_assoc. reflexivity. }
    rewrite C1. cbn [bind]. assert (D0 : digit d0) by (rewrite DE in FD; exact (Forall_inv FD)). unfold digit in D0. destruct (Z.eqb_spec d0 47); [lia|]. cbn [negb].
    assert (E2 : str = (h ++ [58%Z]) ++ d ++ rest_of path q f) by (rewrite E, <- app_assoc; reflexivity).
    replace (S (length h)) with (length (h ++ [58%Z])) by (rewrite app_length; cbn [length]; lia).
    rewrite (skip_at str d (h ++ [58%Z]) 47%Z (rest_of path q f) _ E2 FD T47 eq_refl).
    2: { rewrite app_length; cbn [length]; lia. }
    2: { destruct (rest_of path q f) as [|x r] eqn:RE; [right; reflexivity|]. left. rewrite app_length; cbn [length] in *; lia. }
    cbn [bind]. rewrite (stop_at str _ ((h ++ [58%Z]) ++ d) (rest_of path q f)); [|rewrite E2, <- !app_assoc; reflexivity|rewrite !app_length; reflexivity|exact T47]. cbn [bind andb].
    rewrite app_length. cbn [length]. destruct (Nat.ltb_spec (length h + 1 + length d - length h) 7); [|lia]. exact PP.
  - assert (CS : exists r, cspn str 0 (length str) [63; 35]%Z = Ok r /\ length h < r).
    { set (qf := r_opt 63 q ++ r_opt 35 f). exists (length (h ++ 58%Z :: d ++ path)).
      split; [|rewrite !app_length; cbn [length]; rewrite app_length; lia].
      apply (cspn_at [63; 35]%Z str [] (h ++ 58%Z :: d ++ path) qf []).
      - rewrite app_nil_r, E. unfold rest_of, qf. cbn [app]. rewrite <- !app_assoc. cbn [app]. rewrite <- !app_assoc. reflexivity.
      - rewrite E. unfold rest_of. fold qf. rewrite !app_length. cbn [length]. rewrite !app_length. lia.
      - apply free_app. split; [eapply free_sub; [exact HF|]; cbn; tauto|].
        apply free_cons; [cbn; lia|]. apply free_app. split; [|exact FP]. apply digit_free; [exact FD|]. intros c C. unfold digit. cbn in C. lia.
      - unfold qf. destruct q; cbn; [auto|]. destruct f; cbn; auto. }
    destruct CS as (r & -> & CR). cbn [bind]. destruct (Nat.ltb_spec (S (length h)) (length str)); [|destruct d; [congruence|cbn [length] in *; lia]].
    destruct (Nat.ltb_spec (length h) r); [|lia]. cbn [andb]. exact PP.
Qed.

(* only a scheme *)
Lemma parse_scheme_only sc : sc <> [] -> Forall letter sc -> parse (sc ++ [58%Z]) = Ok (set_scheme sc uri0).
Proof.
  intros SN SL. assert (S58 : free [58%Z] sc). { intros c C [<-|[]]. rewrite Forall_forall in SL. specialize (SL _ C). unfold letter in SL. lia. }
  assert (P : plain (sc ++ [58%Z])). { unfold plain. apply Forall_app. split; [|constructor; [lia | constructor]]. eapply Forall_impl; [|exact SL]. unfold letter. intros; lia. }
  set (str := sc ++ [58%Z]) in *. unfold parse, ue. rewrite (mchr_hit str 58 _ _ [] sc [] []); [|rewrite app_nil_r; reflexivity|reflexivity|reflexivity|exact S58].
  cbn [bind length Nat.add]. destruct (length sc) as [|n] eqn:LN; [destruct sc; [congruence|discriminate LN]|]. rewrite <- LN in *.
  rewrite (range_at str 0 (length sc) [] sc [58%Z]); [|reflexivity|reflexivity|reflexivity]. cbn [bind]. rewrite (letter_schemec sc SL).
  unfold str. rewrite app_length. cbn [length]. destruct (Nat.eqb_spec (S (length sc)) (length sc + 1)); [|lia]. fold str.
  rewrite (dup_at str 0 (length sc) [] sc [58%Z]); [reflexivity|exact P|reflexivity|reflexivity|reflexivity].
Qed.

(* ---- transports ---- *)

Definition fragment (s whole : bytes) : Prop := exists i, occurs s whole i.
Definition transport_of (s : bytes) (t : transport) : Prop :=
  (fragment s s_tcp /\ t = TTcp) \/
  (~ fragment s s_tcp /\ fragment s s_tls /\ t = TTls) \/
  (~ fragment s s_tcp /\ ~ fragment s s_tls /\ fragment s s_pipe /\ t = TPipe) \/
  (~ fragment s s_tcp /\ ~ fragment s s_tls /\ ~ fragment s s_pipe /\ fragment s_udp s /\ t = TUdp) \/
  (~ fragment s s_tcp /\ ~ fragment s s_tls /\ ~ fragment s s_pipe /\ ~ fragment s_udp s /\ t = TNone).
Lemma transport_exact s : short s -> exists t, scheme_type (Some s) = Ok t /\ transport_of s t.
Proof.
  intros SH. unfold scheme_type, transport_of.
  destruct (str_has_spec s_tcp s ltac:(vm_compute; reflexivity)) as (a & -> & A). cbn [bind].
  destruct (str_has_spec s_tls s ltac:(vm_compute; reflexivity)) as (b & EB & B).
  destruct (str_has_spec s_pipe s ltac:(vm_compute; reflexivity)) as (c & EC & C).
  destruct (str_has_spec s s_udp SH) as (d & ED & D).
  change (a = true <-> fragment s s_tcp) in A. change (b = true <-> fragment s s_tls) in B. change (c = true <-> fragment s s_pipe) in C. change (d = true <-> fragment s_udp s) in D.
  assert (NA : a = false -> ~ fragment s s_tcp) by (intros -> X; apply A in X; discriminate).
  assert (NB : b = false -> ~ fragment s s_tls) by (intros -> X; apply B in X; discriminate).
  assert (NC : c = false -> ~ fragment s s_pipe) by (intros -> X; apply C in X; discriminate).
  assert (ND : d = false -> ~ fragment s_udp s) by (intros -> X; apply D in X; discriminate).
  destruct a; [exists TTcp; split; [reflexivity|]; tauto|]. rewrite EB. cbn [bind]. destruct b; [exists TTls; split; [reflexivity|]; tauto|].
  rewrite EC. cbn [bind]. destruct c; [exists TPipe; split; [reflexivity|]; tauto|]. rewrite ED. cbn [bind].
  destruct d; [exists TUdp | exists TNone]; (split; [reflexivity|]); tauto.
Qed.

(* ---- files ---- *)

Lemma file_letters sc : map lower sc = file_ -> sc <> [] /\ Forall letter sc.
Proof.
  intros H. split; [intros ->; discriminate H|]. assert (G : forall l m, Forall (fun c => 97 <= c <= 122)%Z m -> map lower l = m -> Forall letter l).
  { induction l as [|c l IH]; intros m M L; constructor; destruct m as [|x m]; cbn in L; try discriminate L; injection L as L1 L2; [|eapply IH; [exact (Forall_inv_tail M) | exact L2]].
    pose proof (Forall_inv M) as X. cbn in X. unfold lower in L1. unfold letter. destruct (Z.leb_spec 65 c), (Z.leb_spec c 90); cbn in L1; lia. }
  apply (G sc file_); [|exact H]. repeat constructor; lia.
Qed.

Lemma parse_file_front sc r : map lower sc = file_ -> plain (sc ++ [58; 47; 47; 47]%Z ++ r) ->
  parse (sc ++ [58; 47; 47; 47]%Z ++ r) = just_path (sc ++ [58; 47; 47; 47]%Z ++ r) (set_scheme sc uri0)
    (match r with _ :: 58%Z :: _ => length (sc ++ [58; 47; 47; 47]%Z) | _ => length (sc ++ [58; 47; 47]%Z) end).
Proof.
  intros FS P. destruct (file_letters sc FS) as [SN SL]. set (str := sc ++ [58; 47; 47; 47]%Z ++ r) in *. assert (E : str = sc ++ [58; 47; 47; 47]%Z ++ r) by reflexivity.
  assert (S58 : free [58%Z] sc). { intros c C [<-|[]]. rewrite Forall_forall in SL. specialize (SL _ C). unfold letter in SL. lia. }
  assert (LS : length str = length sc + 4 + length r) by (rewrite E, !app_length; cbn [length]; lia).
  unfold parse, ue. rewrite (mchr_hit str 58 _ _ [] sc ([47; 47; 47]%Z ++ r) []); [|rewrite E, app_nil_r; reflexivity|reflexivity|rewrite E; reflexivity|exact S58].
  cbn [bind length Nat.add]. destruct (length sc) as [|n] eqn:LN; [destruct sc; [congruence|discriminate LN]|]. rewrite <- LN in *.
  rewrite (range_at str 0 (length sc) [] sc ([58; 47; 47; 47]%Z ++ r)); [|rewrite E; reflexivity|reflexivity|reflexivity]. cbn [bind]. rewrite (letter_schemec sc SL).
  destruct (Nat.eqb_spec (S (length sc)) (length str)); [lia|].
  assert (C1 : ch str (S (length sc)) = Ok 47%Z). { replace (S (length sc)) with (length (sc ++ [58%Z])) by (rewrite app_length; cbn [length]; lia). apply (ch_at str (sc ++ [58%Z]) 47%Z (47%Z :: 47%Z :: r)). asc E. }
  rewrite C1. cbn [bind Z.eqb Pos.eqb negb].
  rewrite (dup_at str 0 (length sc) [] sc ([58; 47; 47; 47]%Z ++ r)); [|exact P|rewrite E; reflexivity|reflexivity|reflexivity]. cbn [bind].
  destruct (Nat.ltb_spec (S (S (length sc))) (length str)); [|lia].
  assert (C2 : ch str (S (S (length sc))) = Ok 47%Z). { replace (S (S (length sc))) with (length (sc ++ [58; 47]%Z)) by (rewrite app_length; cbn [length]; lia). apply (ch_at str (sc ++ [58; 47]%Z) 47%Z (47%Z :: r)). asc E. }
  rewrite C2. cbn [bind Z.eqb Pos.eqb]. rewrite FS. change (beq file_ file_) with true. cbv iota.
  destruct (Nat.ltb_spec (length sc + 3) (length str)); [|lia].
  assert (C3 : ch str (length sc + 3) = Ok 47%Z). { replace (length sc + 3) with (length (sc ++ [58; 47; 47]%Z)) by (rewrite app_length; cbn [length]; lia). apply (ch_at str (sc ++ [58; 47; 47]%Z) 47%Z r). asc E. }
  rewrite C3. cbn [bind Z.eqb Pos.eqb].
  destruct r as [|x [|y r]]; [|cbn [length] in LS; destruct (Nat.ltb_spec (length sc + 5) (length str)); [lia|]; cbn [bind]; f_equal; rewrite app_length; reflexivity|].
  { cbn [length] in LS. destruct (Nat.ltb_spec (length sc + 5) (length str)); [lia|]. cbn [bind]. f_equal. rewrite app_length. reflexivity. }
  cbn [length] in LS. destruct (Nat.ltb_spec (length sc + 5) (length str)); [|lia].
  assert (C5 : ch str (length sc + 5) = Ok y). { replace (length sc + 5) with (length (sc ++ [58; 47; 47; 47; x]%Z)) by (rewrite app_length; cbn [length]; lia). apply (ch_at str (sc ++ [58; 47; 47; 47; x]%Z) y r). asc E. }
  rewrite C5. cbn [bind]. f_equal. rewrite !app_length. cbn [length]. destruct (Z.eqb_spec y 58) as [->|NY]; [reflexivity|].
  destruct y as [|p|p]; try reflexivity. do 6 (destruct p as [p|p|]; try reflexivity); congruence.
Qed.

Lemma parse_file_drive sc x path q f : map lower sc = file_ -> plain (sc ++ [58; 47; 47; 47]%Z ++ rest_of (x :: 58%Z :: path) q f) ->
  free [63; 35]%Z (x :: 58%Z :: path) -> match q with None => True | Some q => free [35%Z] q end ->
  parse (sc ++ [58; 47; 47; 47]%Z ++ rest_of (x :: 58%Z :: path) q f) = Ok (with_tail (set_scheme sc uri0) (x :: 58%Z :: path) q f).
Proof.
  intros FS P FP FQ. rewrite parse_file_front by assumption. unfold rest_of at 2. cbn [app]. fold (rest_of (x :: 58%Z :: path) q f).
  apply just_path_at; auto; [rewrite <- !app_assoc; reflexivity | discriminate].
Qed.
Lemma parse_file_path sc path q f : map lower sc = file_ -> plain (sc ++ [58; 47; 47]%Z ++ rest_of (47%Z :: path) q f) ->
  nth_error (rest_of path q f) 1 <> Some 58%Z -> free [63; 35]%Z path -> match q with None => True | Some q => free [35%Z] q end ->
  parse (sc ++ [58; 47; 47]%Z ++ rest_of (47%Z :: path) q f) = Ok (with_tail (set_scheme sc uri0) (47%Z :: path) q f).
Proof.
  intros FS P ND FP FQ. change (sc ++ [58; 47; 47]%Z ++ rest_of (47%Z :: path) q f) with (sc ++ [58; 47; 47; 47]%Z ++ rest_of path q f) in *.
  rewrite parse_file_front by assumption.
  assert (G : forall l a b, nth_error l 1 <> Some 58%Z -> match l with _ :: 58%Z :: _ => a | _ => b end = b :> nat).
  { intros l a b. destruct l as [|c [|y l]]; intros; try reflexivity. destruct y as [|p|p]; try reflexivity. do 6 (destruct p as [p|p|]; try reflexivity). cbn in *. congruence. }
  rewrite G by exact ND. apply just_path_at; auto; [rewrite <- !app_assoc; reflexivity | discriminate | apply free_cons; [cbn; lia | exact FP]].
Qed.
Lemma scheme_only_refused hostname sc : sc <> [] -> Forall letter sc ->
  parse (sc ++ [58%Z]) = Ok (set_scheme sc uri0) /\ parse_uri hostname (sc ++ [58%Z]) = Ok None.
Proof.
  intros N L. pose proof (parse_scheme_only sc N L) as E. split; [exact E|]. unfold parse_uri.
  destruct (length (sc ++ [58%Z]) =? 0); [reflexivity|]. rewrite E. reflexivity.
Qed.

(* a text without a colon that does not begin with two slashes is a path; the public call refuses it *)
Lemma path_alone hostname path q f : let str := rest_of path q f in plain str -> str <> [] -> free [58%Z] str -> (forall r, str <> 47%Z :: 47%Z :: r) ->
  free [63; 35]%Z path -> match q with None => True | Some q => free [35%Z] q end ->
  parse str = Ok (with_tail uri0 path q f) /\ parse_uri hostname str = Ok None.
Proof.
  intros str P NE F58 NS FP FQ.
  assert (E : parse str = Ok (with_tail uri0 path q f)).
  { unfold parse, ue. rewrite (mchr_miss str 58 _ _ [] str []); [|rewrite app_nil_r; reflexivity|reflexivity|reflexivity|exact F58]. cbn [bind].
    assert (SL : slashes str = Ok false).
    { unfold slashes, ue. destruct str as [|a [|b r]] eqn:ES; [congruence|reflexivity|]. cbn [length Nat.ltb Nat.leb].
      rewrite (ch_at _ [] a (b :: r) eq_refl : ch (a :: b :: r) 0 = Ok a). cbn [bind].
      rewrite (ch_at _ [a] b r eq_refl : ch (a :: b :: r) 1 = Ok b). cbn [bind].
      destruct (Z.eqb_spec a 47) as [->|]; [|reflexivity]. destruct (Z.eqb_spec b 47) as [->|]; [|reflexivity]. exfalso. exact (NS r eq_refl). }
    rewrite SL. cbn [bind]. apply (just_path_at str uri0 [] path q f P eq_refl NE FP FQ); reflexivity. }
  split; [exact E|]. unfold parse_uri. destruct str as [|a r] eqn:ES; [congruence|]. cbn [length Nat.eqb]. rewrite E. reflexivity.
Qed.
