(* Specification and proofs for ProcModel.v *)
From Verif Require Import Base StrModel StrProofs FdModel FdProofs ProcModel.
Local Open Scope Z_scope.

(* ---- specification ---- *)

(* a text cut at every occurrence of one character *)
Fixpoint pieces (c : Z) (s : bytes) : list bytes :=
  match s with
  | [] => [[]]
  | x :: r => if x =? c then [] :: pieces c r
              else match pieces c r with [] => [[x]] | p :: ps => (x :: p) :: ps end
  end.

(* what a program can get to: [hs] are the handles it got from exec and did not wait for to the end, each with
   the process started (-1: it could not be started) and whether it is detached *)
Inductive preach : pst -> list (Z * Z * bool) -> Prop :=
| pr_start n : preach {| ptab := fst0 n; pdet := fun _ => false; pps := fun _ => -1; kids := fun _ => None |} []
| pr_exec s hs det ev p s' h : preach s hs -> 0 < ev -> p = -1 \/ (0 < p /\ kids s p = None) ->
    exec s det ev p = Ok (s', h) -> preach s' ((h, p, det) :: hs)
| pr_done s l1 h p det l2 t fin s' c : preach s (l1 ++ (h, p, det) :: l2) -> exec_wait s h t fin = Ok (s', inl (Some c)) -> preach s' (l1 ++ l2)
| pr_again s hs h p det t fin s' r : preach s hs -> In (h, p, det) hs -> exec_wait s h t fin = Ok (s', r) ->
    (forall c, r <> inl (Some c)) -> preach s' hs
| pr_ends s hs p k : preach s hs -> kids s p = Some Running ->
    preach {| ptab := ptab s; pdet := pdet s; pps := pps s; kids := zset (kids s) p (Some k) |} hs
(* other users of the table *)
| pr_open s hs ty fd des s' i : preach s hs -> ty <> 0%nat -> new_fd s ty fd des = Ok (s', i) -> preach s' hs
| pr_close s hs i : preach s hs -> (forall p det, ~ In (i, p, det) hs) ->
    preach {| ptab := fd_close (ptab s) i; pdet := pdet s; pps := pps s; kids := kids s |} hs.

(* ---- cutting ---- *)

Lemma pieces_ne c s : exists p ps, pieces c s = p :: ps.
Proof. destruct s as [|x r]; cbn; [eauto|]. destruct (x =? c); [eauto|]. destruct (pieces c r); eauto. Qed.

Lemma occurs1 c s i : occurs [c] s i <-> nth_error s i = Some c.
Proof.
  split.
  - intros (pre & post & -> & <-). rewrite nth_error_app2 by lia. rewrite Nat.sub_diag. reflexivity.
  - intros H. apply nth_error_split in H. destruct H as (l1 & l2 & -> & L). exists l1, l2. auto.
Qed.

Lemma pieces_splits c s : splits [c] s (pieces c s).
Proof.
  induction s as [|x r IH]; cbn [pieces].
  - apply splits_last. intros i. rewrite occurs1. destruct i; discriminate.
  - destruct (x =? c) eqn:E.
    + assert (x = c) by lia. subst x. change (c :: r) with ([] ++ [c] ++ r). apply (splits_more [c] [] r); [|exact IH].
      split; [apply occurs1; reflexivity | cbn; intros; lia].
    + assert (NE : x <> c) by lia. remember (pieces c r) as pp eqn:PP. clear PP. destruct IH as [r NO | pre post ps F S].
      * apply splits_last. intros [|i]; rewrite occurs1; cbn; [congruence|]. intros H. apply (NO i). apply occurs1. exact H.
      * change (x :: pre ++ [c] ++ post) with ((x :: pre) ++ [c] ++ post). apply (splits_more [c] (x :: pre) post); [|exact S].
        destruct F as [F1 F2]. split.
        -- apply occurs1 in F1. apply occurs1. exact F1.
        -- intros [|j] Hj; rewrite occurs1; cbn; [congruence|]. intros H. apply (F2 j); [cbn in Hj; lia | apply occurs1; exact H].
Qed.

Lemma pieces_app c a b : ~ In c a -> pieces c (a ++ [c] ++ b) = a :: pieces c b.
Proof.
  induction a as [|x a IH]; intros N.
  - cbn [app pieces]. rewrite Z.eqb_refl. reflexivity.
  - change ((x :: a) ++ [c] ++ b) with (x :: (a ++ [c] ++ b)). cbn [pieces]. cbn [In] in N. replace (x =? c) with false by (symmetry; apply Z.eqb_neq; intros ->; tauto).
    rewrite IH by tauto. reflexivity.
Qed.

Lemma split_pieces c s : s <> [] -> nul_free s -> exists r, str_split [c] s = Ok (Some r) /\ words r = pieces c s.
Proof.
  intros H N. destruct (str_split_spec [c] s (pieces c s) ltac:(discriminate) H N (pieces_splits c s)) as (r & A & B & _). eauto.
Qed.

Lemma argv_pieces command args : nul_free command -> nul_free args ->
  argv_of command (Some args) = Ok (Some (pieces COMMA (command ++ [COMMA] ++ args))).
Proof.
  intros N1 N2. unfold argv_of.
  destruct (split_pieces COMMA (command ++ [COMMA] ++ args)) as (r & A & B).
  - destruct command; discriminate.
  - unfold nul_free in *. rewrite !Forall_app. repeat split; auto. constructor; [discriminate | constructor].
  - rewrite A. cbn [bind option_map]. rewrite B. reflexivity.
Qed.

Lemma argv_some command args : nul_free command -> nul_free args -> ~ In COMMA command ->
  argv_of command (Some args) = Ok (Some (command :: pieces COMMA args)).
Proof. intros N1 N2 C. rewrite argv_pieces by assumption. rewrite pieces_app by exact C. reflexivity. Qed.

Lemma argv_none command : nul_free command -> ~ In COMMA command -> argv_of command None = Ok (Some [command; []]).
Proof. intros N C. change (argv_of command None) with (argv_of command (Some [])). rewrite argv_some; auto. constructor. Qed.

Lemma has_char e c : Z.of_nat (length e) < 2 ^ 31 -> exists b, str_has e [c] = Ok b /\ (b = true <-> In c e).
Proof.
  intros L. destruct (str_has_spec e [c] L) as (b & A & B). exists b. split; [exact A|]. rewrite B. split.
  - intros [i O]. apply occurs1 in O. eapply nth_error_In; exact O.
  - intros I. apply In_nth_error in I. destruct I as [i I]. exists i. apply occurs1. exact I.
Qed.

Lemma env_cases e : nul_free e -> Z.of_nat (length e) < 2 ^ 31 ->
  (In EQUALS e /\ In SEMI e /\ env_of (Some e) = Ok (Some (pieces SEMI e))) \/
  (~ (In EQUALS e /\ In SEMI e) /\ env_of (Some e) = Ok None).
Proof.
  intros N L. unfold env_of. destruct (has_char e EQUALS L) as (a & A & A'). destruct (has_char e SEMI L) as (b & B & B').
  rewrite A, B. cbn [bind]. destruct a, b; cbn [andb].
  - left. split; [apply A'; reflexivity|]. split; [apply B'; reflexivity|].
    destruct (split_pieces SEMI e) as (r & R1 & R2).
    + intros ->. destruct (proj1 A' eq_refl).
    + exact N.
    + rewrite R1. cbn [bind option_map]. rewrite R2. reflexivity.
  - right. split; [|reflexivity]. intros [_ H]. apply B' in H. discriminate H.
  - right. split; [|reflexivity]. intros [H _]. apply A' in H. discriminate H.
  - right. split; [|reflexivity]. intros [H _]. apply A' in H. discriminate H.
Qed.

Lemma env_given e : nul_free e -> Z.of_nat (length e) < 2 ^ 31 -> In EQUALS e -> In SEMI e -> env_of (Some e) = Ok (Some (pieces SEMI e)).
Proof. intros N L I1 I2. destruct (env_cases e N L) as [(_ & _ & H) | (H & _)]; [exact H | tauto]. Qed.

Lemma env_ignored e : nul_free e -> Z.of_nat (length e) < 2 ^ 31 -> ~ In SEMI e -> exists r, env_of (Some e) = Ok r /\ given_env r = [].
Proof. intros N L I. destruct (env_cases e N L) as [(_ & H & _) | (_ & H)]; [tauto|]. exists None. auto. Qed.

(* ---- building an environment ---- *)

Lemma add_pair_ok data kv : (length (pair_text kv) < 2048)%nat -> add_pair data kv = Ok (data ++ pair_text kv).
Proof.
  intros L. unfold add_pair. cbv zeta. replace (length (pair_text kv) <=? BUF)%nat with true by (symmetry; apply Nat.leb_le; unfold BUF; lia).
  unfold snprintf_buf. rewrite (firstn_all2 (n := (BUF - 1)%nat)) by (unfold BUF; lia).
  rewrite firstn_app, firstn_all, Nat.sub_diag. cbn [firstn]. rewrite app_nil_r. reflexivity.
Qed.

Lemma addenv_ok l : forall data, Forall (fun kv => (length (pair_text kv) < 2048)%nat) l ->
  exec_addenv data l = Ok (data ++ concat (map pair_text l)).
Proof.
  induction l as [|kv l IH]; intros data F; cbn [exec_addenv map concat]; [rewrite app_nil_r; reflexivity|].
  inversion F as [|? ? F1 F2]; subst. rewrite add_pair_ok by exact F1. cbn [bind]. rewrite IH by exact F2. rewrite app_assoc. reflexivity.
Qed.

Lemma addenv_long data kv l : (2048 < length (pair_text kv))%nat -> exec_addenv data (kv :: l) = UB.
Proof.
  intros L. cbn [exec_addenv]. unfold add_pair. cbv zeta.
  replace (length (pair_text kv) <=? BUF)%nat with false by (symmetry; apply Nat.leb_gt; unfold BUF; lia). reflexivity.
Qed.

Lemma no_nul_text s : nul_free s -> as_text s = UB.
Proof.
  intros N. unfold as_text. replace (existsb (fun c => c =? 0) s) with false; [reflexivity|].
  symmetry. apply not_true_iff_false. intros E. apply existsb_exists in E. destruct E as (x & I & E).
  unfold nul_free in N. rewrite Forall_forall in N. apply (N x I). lia.
Qed.

Lemma nul_free_pairs l : Forall (fun kv => nul_free (fst kv) /\ nul_free (snd kv)) l -> nul_free (concat (map pair_text l)).
Proof.
  induction 1 as [|kv l [H1 H2] _ IH]; cbn [map concat]; [constructor|]. unfold nul_free, pair_text in *.
  rewrite !Forall_app. repeat split; auto; (constructor; [discriminate | constructor]).
Qed.

Lemma addenv_unterminated data l r : nul_free data -> Forall (fun kv => nul_free (fst kv) /\ nul_free (snd kv)) l ->
  Forall (fun kv => (length (pair_text kv) < 2048)%nat) l -> exec_addenv data l = Ok r -> as_text r = UB.
Proof.
  intros N F1 F2 X. rewrite addenv_ok in X by exact F2. injection X as <-. apply no_nul_text. unfold nul_free. rewrite Forall_app.
  split; [exact N | apply nul_free_pairs; exact F1].
Qed.

(* with the missing NUL the pairs come back, followed by an empty entry *)
Lemma pieces_pairs l : Forall (fun kv => ~ In SEMI (fst kv) /\ ~ In SEMI (snd kv)) l ->
  pieces SEMI (concat (map pair_text l)) = map (fun kv => fst kv ++ [EQUALS] ++ snd kv) l ++ [[]].
Proof.
  induction 1 as [|kv l [H1 H2] _ IH]; cbn [map concat app]; [reflexivity|].
  change (pair_text kv) with (fst kv ++ [EQUALS] ++ snd kv ++ [SEMI]).
  replace ((fst kv ++ [EQUALS] ++ snd kv ++ [SEMI]) ++ concat (map pair_text l))
    with ((fst kv ++ [EQUALS] ++ snd kv) ++ [SEMI] ++ concat (map pair_text l)) by (rewrite <- !app_assoc; reflexivity).
  rewrite pieces_app; [rewrite IH; reflexivity|].
  rewrite !in_app_iff. cbn [In]. intros [H | [[H | []] | H]]; [tauto | discriminate H | tauto].
Qed.

(* ---- processes ---- *)

Lemma zset_same {A} (f : Z -> A) i v : zset f i v i = v.
Proof. unfold zset. rewrite Z.eqb_refl. reflexivity. Qed.
Lemma zset_other {A} (f : Z -> A) i v j : j <> i -> zset f i v j = f j.
Proof. unfold zset. intros H. rewrite (proj2 (Z.eqb_neq j i) H). reflexivity. Qed.

Definition child (s : pst) (h p : Z) (det : bool) : Prop :=
  (exists ev, used (tab (ptab s)) h = Some {| hty := FD_CHILD; hfd := p; hev := ev |}) /\ pdet s h = det /\ pps s h = p /\
  (0 < p -> kids s p <> None) /\ (p = -1 \/ 0 < p).

Record pinv (s : pst) (hs : list (Z * Z * bool)) : Prop := {
  pi_child : forall h p det, In (h, p, det) hs -> child s h p det;
  pi_nd : NoDup (map (fun x => fst (fst x)) hs);
  pi_pid : forall h1 h2 p d1 d2, In (h1, p, d1) hs -> In (h2, p, d2) hs -> 0 < p -> h1 = h2;
  pi_pos : forall p, kids s p <> None -> 0 < p }.

Lemma used_entry t h x : used t h = Some x -> exists e, fd_entry t h = Some (Z.to_nat h, e) /\ ety e <> 0%nat /\ x = {| hty := ety e; hfd := efd e; hev := eev e |}.
Proof.
  unfold used. destruct (fd_entry t h) as [[i e]|] eqn:E; [|discriminate]. destruct (ety e =? 0)%nat eqn:T; [discriminate|].
  intros [= <-]. pose proof (entry_in _ _ _ _ E) as (_ & -> & _). exists e. apply Nat.eqb_neq in T. auto.
Qed.

Lemma fd_new_used s ty fd des t i : ty <> 0%nat -> fd_new 0 0 None s ty fd des = Ok (t, i) ->
  (i = -1 /\ tab t = tab s /\ closed t = closed s) \/
  (0 <= i /\ used (tab s) i = None /\ closed t = closed s /\
   forall q, used (tab t) q = if q =? i then Some {| hty := ty; hfd := des; hev := fd |} else used (tab s) q).
Proof.
  intros TY. unfold fd_new. cbn [grows bind]. destruct (pick (tab s) fd des) as [j|] eqn:P; intros [= <- <-].
  - right. destruct (pick_some _ _ _ _ P) as (e & E & T). split; [lia|]. split.
    + unfold used. rewrite E, T. reflexivity.
    + split; [reflexivity|]. intros q. cbn [tab]. rewrite (used_set _ _ _ _ _ q E). cbn [ety efd eev].
      rewrite (proj2 (Nat.eqb_neq ty 0) TY). reflexivity.
  - left. auto.
Qed.

Lemma new_fd_used s ty fd des s' i : ty <> 0%nat -> new_fd s ty fd des = Ok (s', i) ->
  kids s' = kids s /\ closed (ptab s') = closed (ptab s) /\
  ((i = -1 /\ tab (ptab s') = tab (ptab s) /\ pdet s' = pdet s /\ pps s' = pps s) \/
   (0 <= i /\ used (tab (ptab s)) i = None /\ pdet s' = zset (pdet s) i false /\ pps s' = zset (pps s) i (-1) /\
    forall q, used (tab (ptab s')) q = if q =? i then Some {| hty := ty; hfd := des; hev := fd |} else used (tab (ptab s)) q)).
Proof.
  intros TY X. unfold new_fd in X. destruct (fd_new 0 0 None (ptab s) ty fd des) as [[t j] | | |] eqn:E; cbn [bind] in X; try discriminate X.
  cbn [fst snd] in X. injection X as <- <-. cbn [kids ptab pdet pps]. destruct (fd_new_used _ _ _ _ _ _ TY E) as [(-> & T & C) | (P & U & C & V)].
  - split; [reflexivity|]. split; [exact C|]. left. auto.
  - split; [reflexivity|]. split; [exact C|]. right. replace (j =? -1) with false by lia. auto.
Qed.

Lemma fd_set_used s h v t x : used (tab s) h = Some x -> fd_set s h v = Ok t ->
  closed t = closed s /\ forall q, used (tab t) q = if q =? h then Some {| hty := hty x; hfd := v; hev := hev x |} else used (tab s) q.
Proof.
  intros U X. destruct (used_entry _ _ _ U) as (e & E & T & ->). unfold fd_set in X. rewrite E in X. injection X as <-.
  cbn [tab closed]. split; [reflexivity|]. intros q. rewrite (used_set _ _ _ _ _ q E). cbn [ety efd eev hty hev].
  rewrite (proj2 (Nat.eqb_neq _ _) T). reflexivity.
Qed.

Lemma fd_close_used s i : forall q, q <> i -> used (tab (fd_close s i)) q = used (tab s) q.
Proof.
  intros q N. unfold fd_close. destruct (i =? -1); [reflexivity|]. destruct (fd_entry (tab s) i) as [[j e]|] eqn:E; [|reflexivity].
  destruct (valid e); [|reflexivity]. cbn [tab]. rewrite (used_set _ _ _ _ _ q E). rewrite (proj2 (Z.eqb_neq q i) N). reflexivity.
Qed.


Lemma exec_ok s det ev p s' h : exec s det ev p = Ok (s', h) ->
  0 <= h /\ used (tab (ptab s)) h = None /\ closed (ptab s') = closed (ptab s) /\
  (forall q, pdet s' q = if q =? h then det else pdet s q) /\ (forall q, pps s' q = if q =? h then p else pps s q) /\
  (forall q, used (tab (ptab s')) q = if q =? h then Some {| hty := FD_CHILD; hfd := p; hev := ev |} else used (tab (ptab s)) q) /\
  kids s' = (if 0 <? p then zset (kids s) p (Some Running) else kids s).
Proof.
  intros X. unfold exec in X. destruct (new_fd s FD_CHILD ev (-1)) as [[s1 i] | | |] eqn:E; cbn [bind] in X; try discriminate X.
  assert (TY : FD_CHILD <> 0%nat) by (unfold FD_CHILD; lia). destruct (new_fd_used _ _ _ _ _ _ TY E) as (K & C & [(-> & _) | (P & U & D & PS & V)]); [discriminate X|].
  destruct (i =? -1) eqn:M; [discriminate X|].
  destruct (fd_set (ptab s1) i p) as [t | | |] eqn:F; cbn [bind] in X; try discriminate X. injection X as <- <-.
  assert (UI : used (tab (ptab s1)) i = Some {| hty := FD_CHILD; hfd := -1; hev := ev |}) by (rewrite V, Z.eqb_refl; reflexivity).
  destruct (fd_set_used _ _ _ _ _ UI F) as (C2 & V2). cbn [hty hev] in V2. cbn [ptab pdet pps kids].
  split; [exact P|]. split; [exact U|]. split; [congruence|]. rewrite K.
  split; [intros q; rewrite D; unfold zset; destruct (q =? i); reflexivity|].
  split; [intros q; rewrite PS; unfold zset; destruct (q =? i); reflexivity|].
  split; [|reflexivity]. intros q. rewrite V2, V. destruct (q =? i); reflexivity.
Qed.

Definition ended (k : kid) : bool := match k with Running => false | _ => true end.

(* the answer of a wait by the state of the child, the wished timeout and how it ends *)
Definition wait_answer (det : bool) (k : option kid) (timeout : Z) (fin : kid) : outcome (option Z + werr) :=
  if det then Ok (inl None)
  else match k with
       | None => Ok (inr ENoChild)
       | Some (Exited c) => Ok (inl (Some c))
       | Some (Killed g) => Ok (inl (Some (- g)))
       | Some Running => if timeout =? 0 then Ok (inr ETimedout)
                         else match fin with Running => Fuel | Exited c => Ok (inl (Some c)) | Killed g => Ok (inl (Some (- g))) end
       end.

Lemma wait_child s h p det t fin : child s h p det ->
  match exec_wait s h t fin with
  | Ok (s', r) => wait_answer det (kids s p) t fin = Ok r /\
      match r with
      | inl (Some _) => det = false /\ kids s' = zset (kids s) p None /\ pdet s' = pdet s /\ pps s' = pps s /\ ptab s' = fd_close (ptab s) h /\ kids s p <> None
      | _ => s' = s
      end
  | Fuel => wait_answer det (kids s p) t fin = Fuel
  | _ => False
  end.
Proof.
  intros ((ev & U) & D & PS & _). destruct (used_entry _ _ _ U) as (e & E & _). pose proof (entry_in _ _ _ _ E) as (P0 & _ & _ & L).
  unfold exec_wait. replace ((h <? 0) || (Z.of_nat (length (tab (ptab s))) <=? h)) with false by lia.
  rewrite D, PS. unfold wait_answer. destruct det; [auto|]. cbv zeta.
  destruct (kids s p) as [[|c|g]|] eqn:K; cbn [code_of].
  - destruct (t =? 0); [auto|]. destruct fin as [|c|g]; cbn [code_of]; [reflexivity| |]; (split; [reflexivity|]); repeat split; try discriminate; congruence.
  - split; [reflexivity|]. repeat split; congruence.
  - split; [reflexivity|]. repeat split; congruence.
  - auto.
Qed.

Lemma preach_inv s hs : preach s hs -> pinv s hs.
Proof.
  induction 1 as [n | s hs det ev p s' h R IH EV P X | s l1 h p det l2 t fin s' c R IH X | s hs h p det t fin s' r R IH I X NC
                 | s hs p k R IH K | s hs ty fd des s' i R IH TY X | s hs i R IH NI].
  - constructor; cbn; try tauto. constructor.
  - destruct IH as [PC ND PP PO]. destruct (exec_ok _ _ _ _ _ _ X) as (H0 & U & _ & D & PS & V & K).
    assert (NEW : forall p' d', ~ In (h, p', d') hs).
    { intros p' d' I. destruct (PC _ _ _ I) as ((e & Ue) & _). congruence. }
    assert (KM : forall q, kids s q <> None -> kids s' q <> None).
    { intros q Q. rewrite K. destruct (0 <? p); [|exact Q]. unfold zset. destruct (q =? p); [discriminate | exact Q]. }
    constructor.
    + intros h1 p1 d1 [E | I].
      * injection E as <- <- <-. unfold child. rewrite D, PS, V, Z.eqb_refl. split; [eauto|]. split; [reflexivity|]. split; [reflexivity|].
        split; [|tauto]. intros P0. rewrite K. replace (0 <? p) with true by lia. rewrite zset_same. discriminate.
      * destruct (PC _ _ _ I) as ((e & Ue) & D1 & P1 & K1 & PP1). assert (NE : h1 <> h) by (intros ->; apply (NEW _ _ I)).
        unfold child. rewrite D, PS, V, (proj2 (Z.eqb_neq h1 h) NE). split; [eauto|]. split; [exact D1|]. split; [exact P1|]. split; [|exact PP1]. intros Q. auto.
    + cbn [map fst]. constructor; [|exact ND]. intros I. apply in_map_iff in I. destruct I as ([[h1 p1] d1] & E & I). cbn [fst] in E. subst h1.
      apply (NEW _ _ I).
    + assert (OLD : forall h2 d2, In (h2, p, d2) hs -> 0 < p -> False).
      { intros h2 d2 I2 Q. destruct (PC _ _ _ I2) as (_ & _ & _ & K2 & _). destruct P as [P | [_ P]]; [lia|]. apply (K2 Q). exact P. }
      intros h1 h2 q d1 d2 [E1 | I1] [E2 | I2] Q.
      * congruence.
      * exfalso. replace q with p in * by congruence. apply (OLD _ _ I2 Q).
      * exfalso. replace q with p in * by congruence. apply (OLD _ _ I1 Q).
      * apply (PP _ _ _ _ _ I1 I2 Q).
    + intros q Q. rewrite K in Q. destruct (0 <? p) eqn:P0; [|apply PO; exact Q]. unfold zset in Q. destruct (q =? p) eqn:E; [lia | apply PO; exact Q].
  - destruct IH as [PC ND PP PO]. assert (IE : In (h, p, det) (l1 ++ (h, p, det) :: l2)) by apply in_elt.
    assert (SUB : forall x, In x (l1 ++ l2) -> In x (l1 ++ (h, p, det) :: l2)) by (intros x; rewrite !in_app_iff; cbn [In]; tauto).
    pose proof (wait_child s h p det t fin (PC _ _ _ IE)) as W. rewrite X in W. destruct W as (_ & _ & K & D & PS & T & KN).
    assert (HP : 0 < p) by (apply PO; exact KN).
    rewrite map_app in ND. cbn [map fst] in ND. apply NoDup_remove in ND. destruct ND as [ND NI]. rewrite <- map_app in ND, NI.
    constructor.
    + intros h1 p1 d1 I. destruct (PC _ _ _ (SUB _ I)) as ((e & Ue) & D1 & P1 & K1 & PP1).
      assert (NE : h1 <> h). { intros ->. apply NI. apply (in_map (fun x => fst (fst x))) in I. exact I. }
      unfold child. rewrite D, PS, T, K. split; [exists e; rewrite fd_close_used; auto|]. split; [exact D1|]. split; [exact P1|].
      split; [|exact PP1]. intros Q. rewrite zset_other; [auto|]. intros ->. apply NE. apply (PP _ _ _ _ _ (SUB _ I) IE Q).
    + exact ND.
    + intros h1 h2 q d1 d2 I1 I2 Q. apply (PP _ _ _ _ _ (SUB _ I1) (SUB _ I2) Q).
    + intros q Q. rewrite K in Q. unfold zset in Q. destruct (q =? p); [congruence | apply PO; exact Q].
  - destruct IH as [PC ND PP PO]. pose proof (wait_child s h p det t fin (PC _ _ _ I)) as W. rewrite X in W. destruct W as (_ & W).
    assert (s' = s). { destruct r as [[c|]|e]; [destruct (NC c eq_refl) | exact W | exact W]. }
    subst s'. constructor; auto.
  - destruct IH as [PC ND PP PO]. constructor; auto.
    + intros h1 p1 d1 I. destruct (PC _ _ _ I) as (Ue & D1 & P1 & K1 & PP1). split; [exact Ue|]. split; [exact D1|]. split; [exact P1|].
      split; [|exact PP1]. intros Q. cbn [kids]. unfold zset. destruct (p1 =? p); [discriminate | auto].
    + intros q Q. cbn [kids] in Q. unfold zset in Q. destruct (q =? p) eqn:E; [|apply PO; exact Q]. apply PO. replace q with p by lia. congruence.
  - destruct IH as [PC ND PP PO]. destruct (new_fd_used _ _ _ _ _ _ TY X) as (K & _ & [(_ & T & D & PS) | (P & U & D & PS & V)]).
    + constructor; auto.
      * intros h1 p1 d1 I. destruct (PC _ _ _ I) as (Ue & D1 & P1 & K1 & PP1). unfold child. rewrite T, D, PS, K. auto.
      * intros q. rewrite K. apply PO.
    + constructor; auto.
      * intros h1 p1 d1 I. destruct (PC _ _ _ I) as ((e & Ue) & D1 & P1 & K1 & PP1).
        assert (NE : h1 <> i) by (intros ->; congruence).
        unfold child. rewrite V, D, PS, K. rewrite !zset_other by exact NE. rewrite (proj2 (Z.eqb_neq h1 i) NE). split; [eauto|]. split; [exact D1|]. split; [exact P1|]. split; [exact K1 | exact PP1].
      * intros q. rewrite K. apply PO.
  - destruct IH as [PC ND PP PO]. constructor; auto.
    intros h1 p1 d1 I. destruct (PC _ _ _ I) as ((e & Ue) & D1 & P1 & K1 & PP1).
    assert (NE : h1 <> i) by (intros ->; apply (NI _ _ I)).
    unfold child. cbn [ptab pdet pps kids]. rewrite fd_close_used by exact NE. split; [eauto|]. split; [exact D1|]. split; [exact P1|]. split; [exact K1 | exact PP1].
Qed.

Lemma wait_exact s hs h p det t fin : preach s hs -> In (h, p, det) hs ->
  match exec_wait s h t fin with
  | Ok (_, r) => wait_answer det (kids s p) t fin = Ok r
  | Fuel => wait_answer det (kids s p) t fin = Fuel
  | _ => False
  end.
Proof.
  intros R I. pose proof (wait_child s h p det t fin (pi_child _ _ (preach_inv _ _ R) _ _ _ I)) as W.
  destruct (exec_wait s h t fin) as [[s' r] | | |]; try exact W. apply W.
Qed.

Lemma wait_others s hs h p det t fin s' r h2 p2 det2 : preach s hs -> In (h, p, det) hs -> In (h2, p2, det2) hs -> h2 <> h ->
  exec_wait s h t fin = Ok (s', r) -> forall t2 fin2, wait_answer det2 (kids s' p2) t2 fin2 = wait_answer det2 (kids s p2) t2 fin2.
Proof.
  intros R I I2 NE X t2 fin2. pose proof (preach_inv _ _ R) as [PC ND PP PO].
  pose proof (wait_child s h p det t fin (PC _ _ _ I)) as W. rewrite X in W. destruct W as (_ & W).
  destruct r as [[c|]|e]; [|subst; reflexivity | subst; reflexivity]. destruct W as (_ & K & _ & _ & _ & KN).
  rewrite K. unfold zset. destruct (p2 =? p) eqn:E; [|reflexivity]. exfalso. apply NE. replace p2 with p in I2 by lia.
  apply (PP _ _ _ _ _ I2 I). apply PO. exact KN.
Qed.

Lemma handles_distinct s hs : preach s hs -> NoDup (map (fun x => fst (fst x)) hs).
Proof. intros R. apply (preach_inv _ _ R). Qed.

(* the descriptors a finished wait closes: the event descriptor and the one whose number is the process id *)
Lemma wait_closes s hs h p det t fin s' c : preach s hs -> In (h, p, det) hs -> exec_wait s h t fin = Ok (s', inl (Some c)) ->
  exists ev, closed (ptab s') = closed (ptab s) ++ [ev; p].
Proof.
  intros R I X. pose proof (preach_inv _ _ R) as [PC ND PP PO]. destruct (PC _ _ _ I) as ((ev & U) & _).
  pose proof (wait_child s h p det t fin (PC _ _ _ I)) as W. rewrite X in W. destruct W as (_ & _ & _ & _ & _ & T & KN).
  exists ev. rewrite T. destruct (used_entry _ _ _ U) as (e & E & TY & Q). injection Q as Q1 Q2 Q3.
  pose proof (entry_in _ _ _ _ E) as (P0 & _). pose proof (PO _ KN) as PP0.
  unfold fd_close. replace (h =? -1) with false by lia. rewrite E. unfold valid. rewrite <- Q1, <- Q2.
  replace (p =? -1) with false by lia. cbn. unfold free_closes. rewrite <- Q1, <- ?Q2, <- Q3. reflexivity.
Qed.

(* a process that cannot be started gives a handle like any other *)
Lemma failed_start s det ev : (exists i, pick (tab (ptab s)) ev (-1) = Some i) -> exists s' h, exec s det ev (-1) = Ok (s', h) /\ 0 <= h.
Proof.
  intros [i P]. unfold exec, new_fd, fd_new. cbn [grows bind]. rewrite P. cbn [bind fst snd].
  replace (Z.of_nat i =? -1) with false by lia. unfold fd_set. cbn [ptab tab].
  destruct (pick_some _ _ _ _ P) as (e & E & _). pose proof (entry_in _ _ _ _ E) as (_ & _ & _ & L).
  unfold fd_entry. replace (Z.of_nat i <? 0) with false by lia. rewrite Nat2Z.id. rewrite set_nth_same by exact L. cbn [bind].
  eexists. eexists. split; [reflexivity | lia].
Qed.

(* ---- spawn ---- *)

Definition closes (l : list act) : list Z := flat_map (fun a => match a with AClose f => [f] | _ => [] end) l.
Definition exits (l : list act) : list (Z * Z) := flat_map (fun a => match a with AExit s g => [(s, g)] | _ => [] end) l.

Lemma spawn_wait_end n k r status : spawn_wait (repeat None n ++ Some k :: r) status = code_of k.
Proof. induction n as [|n IH]; cbn; auto. Qed.
Lemma spawn_wait_none n status : spawn_wait (repeat None n) status = status.
Proof. induction n as [|n IH]; cbn; auto. Qed.

Lemma spawn_exit io exitf p pid n k r : 0 < pid ->
  let l := spawning io exitf p pid 0 (repeat None n ++ Some k :: r) in
  exits l = (if exitf then [(code_of k, code_of k)] else []) /\ Permutation.Permutation (closes l) (opened_pipes io false p).
Proof.
  intros P. cbv zeta. unfold spawning. rewrite spawn_wait_end. replace (0 <? pid) with true by lia.
  destruct io, exitf; cbn; (split; [reflexivity|]); try constructor.
  - apply (Permutation.Permutation_app_comm [out_r p; out_w p] [in_r p; in_w p]).
  - apply (Permutation.Permutation_app_comm [out_r p; out_w p] [in_r p; in_w p]).
Qed.

Lemma spawn_refused io exitf p pid added waits : io = true -> added <> 0 ->
  spawning io exitf p pid added waits = [AStart; ARegister (out_w p); AFailed].
Proof. intros -> A. unfold spawning. rewrite (proj2 (Z.eqb_neq added 0) A). reflexivity. Qed.

Lemma spawn_unstarted io p pid n : 0 < pid -> exits (spawning io true p pid 0 (repeat None n)) = [(0, 0)].
Proof. intros P. unfold spawning. rewrite spawn_wait_none. replace (0 <? pid) with true by lia. destruct io; reflexivity. Qed.

Lemma spawn_error_pipe exitf p pid added waits f : In f (opened_pipes true true p) -> ~ In f (opened_pipes true false p) ->
  (f = err_r p \/ f = err_w p) /\ ~ In f (closes (spawning true exitf p pid added waits)).
Proof.
  unfold opened_pipes. rewrite app_nil_r. intros I N. split; [apply in_app_iff in I as [I|I]; [contradiction|]; cbn in I; intuition auto|]. unfold spawning. destruct ((added =? 0) && (0 <? pid)); destruct exitf; cbn in *; tauto.
Qed.

(* ---- standard streams ---- *)

(* 0 and -1 ask for the starter's own *)
Definition asked (f : fdmap) (io to : Z) : option Z := if (io =? 0) || (io =? -1) then f to else f io.

Lemma redirect_exec i o e f : (forall x, In x [i; o; e] -> x = 0 \/ x = -1 \/ (2 < x /\ f x <> None)) ->
  exists g, redirect false (-1) (info_fd i) (-1) (info_fd o) (-1) (info_fd e) f = Some g /\
    g 0 = asked f i 0 /\ g 1 = asked f o 1 /\ g 2 = asked f e 2 /\ forall x, 2 < x -> g x = f x.
Proof.
  intros H. pose proof (H i ltac:(cbn; auto)) as Hi. pose proof (H o ltac:(cbn; auto)) as Ho. pose proof (H e ltac:(cbn; auto)) as He. clear H.
  unfold redirect, redirect1, dup2, asked.
  assert (INF : forall x, 2 < x -> info_fd x = x). { intros x X. unfold info_fd. replace (x =? 0) with false by lia. reflexivity. }
  assert (Z1 : forall (h : fdmap) a v x, x <> a -> zset h a v x = h x) by (intros; apply zset_other; assumption).
  destruct Hi as [-> | [-> | [Hi Ni]]], Ho as [-> | [-> | [Ho No]]], He as [-> | [-> | [He Ne]]];
    change (info_fd 0) with (-1); change (info_fd (-1)) with (-1);
    try (replace (i =? 0) with false by lia); try (replace (o =? 0) with false by lia); try (replace (e =? 0) with false by lia);
    try (rewrite (INF i Hi) in *); try (rewrite (INF o Ho) in *); try (rewrite (INF e He) in *);
    try (replace (i =? -1) with false by lia); try (replace (o =? -1) with false by lia); try (replace (e =? -1) with false by lia);
    cbn [Z.eqb Pos.eqb orb].
  all: try (destruct (f i) as [fi|] eqn:Fi; [|congruence]).
  all: repeat (rewrite Z1 by lia).
  all: try (destruct (f o) as [fo|] eqn:Fo; [|congruence]).
  all: repeat (rewrite Z1 by lia).
  all: try (destruct (f e) as [fe|] eqn:Fe; [|congruence]).
  all: eexists; split; [reflexivity|]; unfold zset; cbn [Z.eqb Pos.eqb];
    (split; [congruence|]); (split; [congruence|]); (split; [congruence|]); intros x X;
    replace (x =? 0) with false by lia; replace (x =? 1) with false by lia; replace (x =? 2) with false by lia; reflexivity.
Qed.

Lemma redirect_spawn p f : 2 < in_r p -> 2 < in_w p -> 2 < out_r p -> 2 < out_w p ->
  f (in_r p) <> None -> f (out_w p) <> None -> NoDup [in_r p; in_w p; out_r p; out_w p] ->
  exists g, redirect true (in_r p) (in_w p) (out_r p) (out_w p) (-1) (-1) f = Some g /\
    g 0 = f (in_r p) /\ g 1 = f (out_w p) /\ g 2 = f 2 /\ g (in_w p) = None /\ g (out_r p) = None.
Proof.
  intros A B C D Fi Fo ND. unfold redirect, redirect1, dup2, close_fd.
  apply NoDup_cons_iff in ND. destruct ND as [N1 ND]. apply NoDup_cons_iff in ND. destruct ND as [N2 ND].
  apply NoDup_cons_iff in ND. destruct ND as [N3 _]. cbn [In] in N1, N2, N3.
  replace (in_r p =? -1) with false by lia. replace (out_w p =? -1) with false by lia. cbn [Z.eqb Pos.eqb].
  destruct (f (in_r p)) as [fi|]; [|congruence]. replace (in_w p <? 0) with false by lia.
  rewrite (zset_other _ (in_w p)) by (intros E; apply N2; rewrite E; auto). rewrite (zset_other _ 0) by lia.
  destruct (f (out_w p)) as [fo|]; [|congruence]. replace (out_r p <? 0) with false by lia.
  eexists. split; [reflexivity|]. unfold zset.
  replace (0 =? out_r p) with false by lia. replace (0 =? in_w p) with false by lia.
  replace (1 =? out_r p) with false by lia. replace (2 =? out_r p) with false by lia. replace (2 =? in_w p) with false by lia.
  cbn [Z.eqb Pos.eqb]. split; [reflexivity|]. split; [reflexivity|]. split; [reflexivity|]. rewrite !Z.eqb_refl.
  split; [|reflexivity]. destruct (in_w p =? out_r p); [reflexivity|]. destruct (in_w p =? 1) eqn:E; [lia|reflexivity].
Qed.

(* errors to the old output with the output moved: they go to the new one *)
Lemma redirect_err_out o f x y : 2 < o -> f o = Some x -> f 1 = Some y -> x <> y ->
  exists g, redirect false (-1) (-1) (-1) (info_fd o) (-1) (info_fd 1) f = Some g /\ g 2 = Some x /\ g 2 <> asked f 1 2.
Proof.
  intros O Fo F1 N. unfold redirect, redirect1, dup2, asked, info_fd. replace (o =? 0) with false by lia. replace (o =? -1) with false by lia.
  cbn [Z.eqb Pos.eqb orb]. rewrite Fo. rewrite zset_same. eexists. split; [reflexivity|]. unfold zset. cbn [Z.eqb Pos.eqb]. split; congruence.
Qed.

(* ---- output ---- *)

Lemma RD_pos : (0 < RD)%nat.
Proof. apply Nat.mul_pos_pos; lia. Qed.

Lemma spawn_out_inv cap l : forall s, taken s = concat (told s) ++ inpipe s -> (length (inpipe s) <= cap)%nat -> Forall (fun d => d <> [] /\ (length d <= RD)%nat) (told s) ->
  let r := fold_left (spawn_step cap) l s in
  taken r = concat (told r) ++ inpipe r /\ (length (inpipe r) <= cap)%nat /\ Forall (fun d => d <> [] /\ (length d <= RD)%nat) (told r).
Proof.
  induction l as [|x l IH]; intros s H L F; cbn [fold_left]; [auto|]. apply IH; destruct x as [b|]; cbn [spawn_step].
  - cbv zeta. cbn [taken told inpipe]. rewrite H, <- app_assoc. reflexivity.
  - destruct (length (inpipe s) <? cap)%nat; [|exact H]. destruct (inpipe s) as [|c d] eqn:E; [congruence|].
    cbn [taken told inpipe]. rewrite H, concat_app. cbn [concat]. rewrite app_nil_r, <- app_assoc, firstn_skipn. reflexivity.
  - cbv zeta. cbn [inpipe]. rewrite app_length, firstn_length. lia.
  - destruct (length (inpipe s) <? cap)%nat; [|exact L]. destruct (inpipe s) as [|c d] eqn:E; [rewrite E; cbn; lia|].
    cbn [inpipe]. rewrite skipn_length. lia.
  - exact F.
  - destruct (length (inpipe s) <? cap)%nat; [|exact F]. destruct (inpipe s) as [|c d] eqn:E; [exact F|].
    cbn [told]. apply Forall_app. split; [exact F|]. constructor; [|constructor]. split; [|rewrite firstn_length; lia].
    pose proof RD_pos. destruct RD; [lia | discriminate].
Qed.

Lemma spawn_output cap l : let r := spawn_out cap l in
  taken r = concat (told r) ++ inpipe r /\ Forall (fun d => d <> [] /\ (length d <= RD)%nat) (told r).
Proof.
  cbv zeta. unfold spawn_out. 
  destruct (spawn_out_inv cap l {| inpipe := []; told := []; taken := [] |}) as (A & _ & B);
    [reflexivity | apply Nat.le_0_l | constructor | split; [exact A | exact B]].
Qed.

(* a full pipe is never read again *)
Lemma spawn_full cap l : forall s, length (inpipe s) = cap -> fold_left (spawn_step cap) l s = s.
Proof.
  induction l as [|x l IH]; intros s H; cbn [fold_left]; [reflexivity|]. replace (spawn_step cap s x) with s; [apply IH; exact H|].
  destruct x as [b|]; cbn [spawn_step].
  - rewrite H, Nat.sub_diag. cbn [firstn]. rewrite !app_nil_r. destruct s; reflexivity.
  - rewrite H, Nat.ltb_irrefl. reflexivity.
Qed.

Lemma spawn_full_lost cap b l1 l2 : (cap <= length b)%nat -> inpipe (spawn_out cap l1) = [] ->
  told (spawn_out cap (l1 ++ SWrite b :: l2)) = told (spawn_out cap l1).
Proof.
  intros L E. unfold spawn_out in *. rewrite fold_left_app. cbn [fold_left]. rewrite spawn_full; [reflexivity|].
  cbn [spawn_step]. cbv zeta. cbn [inpipe]. rewrite E. cbn [length app]. rewrite Nat.sub_0_r, firstn_length. lia.
Qed.

(* what is written last is not told when the program ends before the next turn of the loop *)
Lemma spawn_last_lost cap l b : told (spawn_out cap (l ++ [SWrite b])) = told (spawn_out cap l).
Proof. unfold spawn_out. rewrite fold_left_app. reflexivity. Qed.
