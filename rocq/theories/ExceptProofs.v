(* Specification and proofs for ExceptModel. *)
From Verif Require Import Base ExceptModel.

(* ---- specification: structured exceptions by recursion on the program, no contexts, stages or jumps ----
   rv: the variables; rexn: the exception leaving the command and the pointer last released on its way out (0: none);
   racc: the command accepted the exception of the conditional handler it runs in.
   UB: no guarantee (a conditional handler that does not accept, a NULL or repeated pointer on the way, raw protection, break). *)
Record sres := { rtr : list ev; rv : nat -> nat; rexn : option (nat * nat); racc : bool }.
Definition takes (e : nat) (h : pat * cmd) : bool := match fst h with On e' => e =? e' | _ => true end.
Definition also (b : bool) (r : sres) : sres := {| rtr := rtr r; rv := rv r; rexn := rexn r; racc := b || racc r |}.
Fixpoint sem (fuel : nat) (x lx : option nat) (names : list nat) (c : cmd) (t : list ev) (vs : nat -> nat) : outcome sres :=
  match fuel with
  | 0 => Fuel
  | S n =>
    match c with
    | Do k => Ok {| rtr := t ++ [Did k]; rv := vs; rexn := None; racc := false |}
    | Var y v => Ok {| rtr := t; rv := upd vs y v; rexn := None; racc := false |}
    | Throw e => Ok {| rtr := t; rv := vs; rexn := Some (e, 0); racc := false |}
    | Rethrow => match lx with Some e => Ok {| rtr := t; rv := vs; rexn := Some (e, 0); racc := false |} | None => UB end
    | Seq a b => do r <- sem n x lx names a t vs; match rexn r with None => do r2 <- sem n x lx names b (rtr r) (rv r); Ok (also (racc r) r2) | _ => Ok r end
    | Test p a b => if p t then sem n x lx names a t vs else sem n x lx names b t vs
    | While p a => if p t then do r <- sem n x lx names a t vs; match rexn r with None => do r2 <- sem n x lx names (While p a) (rtr r) (rv r); Ok (also (racc r) r2) | _ => Ok r end
                   else Ok {| rtr := t; rv := vs; rexn := None; racc := false |}
    | Caught e a b => match x with
                      | Some e' => if e' =? e then do r <- sem n x lx names a t vs; Ok (also true r) else sem n x lx names b t vs
                      | None => sem n x lx names b t vs
                      end
    | With y a => if existsb (Nat.eqb y) names then UB
                  else do r <- sem n x lx (y :: names) a t vs;
                       match rexn r with
                       | None => Ok r
                       | Some (e, last) => let v := rv r y in
                         if (last =? v) || (v =? 0) then UB else Ok {| rtr := rtr r ++ [Rel v]; rv := rv r; rexn := Some (e, v); racc := racc r |}
                       end
    | Protect _ | Unprotect _ | Break => UB
    | Try b hs fin =>
      do r1 <- sem n None None names b t vs;
      do h <- match rexn r1 with
              | None => Ok (r1, None, None)
              | Some (e, _) =>
                match find (takes e) hs with
                | None => Ok (r1, Some e, Some e)
                | Some (p, h) => do r2 <- sem n (Some e) (Some e) names h (rtr r1) (rv r1);
                                 if match p with Cond => racc r2 | _ => true end
                                 then match rexn r2 with None => Ok (r2, None, Some e) | Some (e', _) => Ok (r2, Some e', Some e') end
                                 else UB
                end
              end;
      let '(r, pend, lst) := h in
      let out q := option_map (fun e => (e, 0)) q in
      match fin with
      | None => Ok {| rtr := rtr r; rv := rv r; rexn := out pend; racc := false |}
      | Some c' => do r3 <- sem n x lst names c' (rtr r) (rv r);
                   match rexn r3 with Some _ => Ok r3 | None => Ok {| rtr := rtr r3; rv := rv r3; rexn := out pend; racc := racc r3 |} end
      end
    end
  end.

Lemma upd_same {V} (f : nat -> V) k v : upd f k v k = v.
Proof. unfold upd. now rewrite Nat.eqb_refl. Qed.
Lemma upd_other {V} (f : nat -> V) k v x : x <> k -> upd f k v x = f x.
Proof. unfold upd. intros H. apply Nat.eqb_neq in H. now rewrite H. Qed.

Lemma also_false r : racc r = false -> forall b, racc (also b r) = b.
Proof. intros H b. cbn. rewrite H. now destruct b. Qed.
(* only the handler of an exception can accept it *)
Lemma sem_acc n : forall lx names c t vs r, sem n None lx names c t vs = Ok r -> racc r = false.
Proof.
  induction n as [|n IH]; intros lx names c t vs r H; [discriminate|]. destruct c; cbn [sem] in H; try discriminate.
  - now injection H as <-.
  - now injection H as <-.
  - now injection H as <-.
  - destruct lx; [|discriminate]. now injection H as <-.
  - destruct (sem n None lx names c1 t vs) as [r1| | |] eqn:E1; cbn [bind] in H; try discriminate. destruct (rexn r1).
    + injection H as <-. eauto.
    + destruct (sem n None lx names c2 (rtr r1) (rv r1)) as [r2| | |] eqn:E2; cbn [bind] in H; try discriminate. injection H as <-. cbn.
      rewrite (IH _ _ _ _ _ _ E1), (IH _ _ _ _ _ _ E2). reflexivity.
  - destruct (p t); eauto.
  - destruct (p t); [|now injection H as <-].
    destruct (sem n None lx names c t vs) as [r1| | |] eqn:E1; cbn [bind] in H; try discriminate. destruct (rexn r1).
    + injection H as <-. eauto.
    + destruct (sem n None lx names (While p c) (rtr r1) (rv r1)) as [r2| | |] eqn:E2; cbn [bind] in H; try discriminate. injection H as <-. cbn.
      rewrite (IH _ _ _ _ _ _ E1), (IH _ _ _ _ _ _ E2). reflexivity.
  - eauto.
  - destruct (existsb (Nat.eqb x) names); [discriminate|].
    destruct (sem n None lx (x :: names) c t vs) as [r1| | |] eqn:E1; cbn [bind] in H; try discriminate. destruct (rexn r1) as [[e l]|].
    + cbv zeta in H. destruct ((l =? rv r1 x) || (rv r1 x =? 0)); [discriminate|]. injection H as <-. cbn. eauto.
    + injection H as <-. eauto.
  - destruct (sem n None None names c t vs) as [r1| | |] eqn:E1; cbn [bind] in H; try discriminate.
    match type of H with bind ?m _ = _ => destruct m as [[[r2 pend] lst]| | |] eqn:E2; cbn [bind] in H; try discriminate end.
    destruct fin as [c'|]; [|now injection H as <-].
    destruct (sem n None lst names c' (rtr r2) (rv r2)) as [r3| | |] eqn:E3; cbn [bind] in H; try discriminate.
    destruct (rexn r3); injection H as <-; cbn; eauto.
Qed.

(* ---- the unwinding of protected pointers ---- *)
Fixpoint chain (nd : nat -> node) (p : option nat) (ns : list nat) : Prop :=
  match ns with [] => p = None | y :: k => p = Some y /\ nvalid (nd y) = true /\ chain nd (nnext (nd y)) k end.
Fixpoint rels (vs : nat -> nat) (ns : list nat) (last : nat) : list ev :=
  match ns with [] => [] | y :: k => if (last =? vs y) || (vs y =? 0) then [] else Rel (vs y) :: rels vs k (vs y) end.
Lemma chain_frame nd nd' ns : forall p, (forall y, In y ns -> nd' y = nd y) -> chain nd p ns -> chain nd' p ns.
Proof.
  induction ns as [|y ns IH]; intros p F H; cbn in *; auto. destruct H as (-> & V & H). rewrite (F y) by auto. repeat (split; auto).
Qed.
Lemma unwind_chain vs ns : forall fuel nd p last, chain nd p ns -> NoDup ns -> length ns <= fuel ->
  exists nd', unwind fuel nd vs p last = Ok (rels vs ns last, nd') /\ forall y, ~ In y ns -> nd' y = nd y.
Proof.
  induction ns as [|y ns IH]; intros fuel nd p last C N L; cbn [chain] in C.
  - subst p. exists nd. split; [destruct fuel; reflexivity|auto].
  - destruct C as (-> & V & C). destruct fuel as [|k]; [cbn in L; lia|]. cbn [unwind rels]. rewrite V. cbn [negb].
    destruct ((last =? vs y) || (vs y =? 0)); [exists nd; auto|]. inversion N; subst.
    destruct (IH k (upd nd y {| nnext := nnext (nd y); nvalid := false |}) (nnext (nd y)) (vs y)) as (nd' & E & F); [|assumption|cbn in L; lia|].
    + eapply chain_frame; [|exact C]. intros z Hz. apply upd_other. intros ->. contradiction.
    + rewrite E. cbn [bind fst snd]. exists nd'. split; [reflexivity|]. intros z Hz. rewrite F by (intros I; apply Hz; now right).
      apply upd_other. intros ->. apply Hz. now left.
Qed.

(* ---- refinement ---- *)
Record pre (x : option nat) (names ns : list nat) (s : st) : Prop := {
  p_x : cex (ctxs s (cur s)) = x;
  p_cur : cur s < nctx s;
  p_ch : chain (nodes s) (cstack (ctxs s (cur s))) ns;
  p_in : incl ns names;
  p_nd : NoDup ns;
  p_len : length ns <= nprot s }.
Definition with_acc (b : bool) (c : ctx) : ctx := {| cstate := if b then 4 else cstate c; cex := cex c; cnext := cnext c; cstack := cstack c |}.
Definition thrown (b : bool) (e : nat) (c : ctx) : ctx := {| cstate := if b then 4 else cstate c; cex := Some e; cnext := cnext c; cstack := None |}.
Record post (names ns : list nat) (s : st) (r : sres) (rs : res) (s' : st) : Prop := {
  q_cur : cur s' = cur s;
  q_nc : nctx s <= nctx s';
  q_np : nprot s <= nprot s';
  q_v : vars s' = rv r;
  q_fr : forall g, g < nctx s -> g <> cur s -> ctxs s' g = ctxs s g;
  q_res : match rexn r with
          | None => rs = Norm /\ tr s' = rtr r /\ ctxs s' (cur s) = with_acc (racc r) (ctxs s (cur s)) /\ (forall y, In y names -> nodes s' y = nodes s y)
          | Some (e, last) => rs = (if cur s =? 0 then Term e else Jmp (cur s)) /\ tr s' = rtr r ++ rels (vars s') ns last /\
              ctxs s' (cur s) = thrown (racc r) e (ctxs s (cur s)) /\ (forall y, In y names -> ~ In y ns -> nodes s' y = nodes s y)
          end }.

Lemma throw_post x names ns s e : pre x names ns s ->
  exists rs s', throw s e = Ok (rs, s') /\ post names ns s {| rtr := tr s; rv := vars s; rexn := Some (e, 0); racc := false |} rs s'.
Proof.
  intros [X CU CH IN ND LE]. unfold throw. destruct (unwind_chain (vars s) ns (nprot s) (nodes s) _ 0 CH ND LE) as (nd' & E & F).
  rewrite E. cbn [bind fst snd]. eexists _, _. split; [reflexivity|]. constructor; cbn [cur nctx nprot vars ctxs rexn rv tr rtr racc nodes]; auto.
  - intros g _ G. now rewrite upd_other by auto.
  - split; [reflexivity|]. split; [reflexivity|]. split; [|auto]. rewrite upd_same. reflexivity.
Qed.
Lemma with_acc_false c : with_acc false c = c.
Proof. destruct c; reflexivity. Qed.
Lemma with_acc_or a b c : with_acc b (with_acc a c) = with_acc (a || b) c.
Proof. destruct a, b; reflexivity. Qed.
Lemma thrown_or a b e c : thrown b e (with_acc a c) = thrown (a || b) e c.
Proof. destruct a, b; reflexivity. Qed.
Lemma pre_frame x names ns s s' b : pre x names ns s -> cur s' = cur s -> nctx s <= nctx s' -> nprot s <= nprot s' ->
  ctxs s' (cur s) = with_acc b (ctxs s (cur s)) -> (forall y, In y names -> nodes s' y = nodes s y) -> pre x names ns s'.
Proof.
  intros [X CU CH IN ND LE] C1 C2 C3 C4 C5. constructor; rewrite ?C1, ?C4; cbn; auto; try lia.
  eapply chain_frame; [|exact CH]. intros y Hy. apply C5. apply IN. exact Hy.
Qed.
Lemma post_trans names ns s s1 r1 rs1 r2 rs s2 : rexn r1 = None -> post names ns s r1 rs1 s1 -> post names ns s1 r2 rs s2 -> post names ns s (also (racc r1) r2) rs s2.
Proof.
  intros N [A1 A2 A3 A4 A5 A6] [B1 B2 B3 B4 B5 B6]. rewrite N in A6. destruct A6 as (_ & _ & A6 & A7).
  constructor; cbn [also rv rexn racc rtr]; try congruence; try lia.
  - intros g G1 G2. rewrite B5, A5; auto; [lia|congruence].
  - rewrite A1 in B6. rewrite A6 in B6. destruct (rexn r2) as [[e l]|].
    + destruct B6 as (-> & T & C & F). split; [reflexivity|]. split; [exact T|]. rewrite thrown_or in C. split; [exact C|]. intros y Y1 Y2. rewrite F, A7; auto.
    + destruct B6 as (-> & T & C & F). split; [reflexivity|]. split; [exact T|]. rewrite with_acc_or in C. split; [exact C|]. intros y Y1. rewrite F, A7; auto.
Qed.
Lemma find_pick e hs : pick (Some e) hs = find (takes e) hs.
Proof. induction hs as [|[[e'| |] h] hs IH]; cbn; auto. unfold takes; cbn. destruct (e =? e'); auto. Qed.

Definition lexok (lx : option nat) (lex : nat) (s : st) : Prop := lex < nctx s /\ forall e, lx = Some e -> cex (ctxs s lex) = Some e.
Lemma lexok_frame lx lex s s' b : lexok lx lex s -> nctx s <= nctx s' -> (forall g, g < nctx s -> g <> cur s -> ctxs s' g = ctxs s g) ->
  ctxs s' (cur s) = with_acc b (ctxs s (cur s)) -> lexok lx lex s'.
Proof.
  intros [L1 L2] N F C. split; [lia|]. intros e E. destruct (Nat.eq_dec lex (cur s)) as [->|D]; [rewrite C; cbn; auto|rewrite F; auto].
Qed.
Definition good (n : nat) : Prop := forall lex x lx names ns c s r, sem n x lx names c (tr s) (vars s) = Ok r -> lexok lx lex s -> pre x names ns s ->
  exists rs s', exec n lex c s = Ok (rs, s') /\ post names ns s r rs s'.

(* stage 2 and the end of a try block, in the context f of the block whose outer context is that of s *)
Record inner (names : list nat) (f : nat) (s s2 : st) : Prop := {
  i_f : nctx s <= f < nctx s2; i_cur : cur s2 = f; i_next : cnext (ctxs s2 f) = cur s; i_np : nprot s <= nprot s2;
  i_fr : forall g, g < nctx s -> ctxs s2 g = ctxs s g;
  i_nodes : forall y, In y names -> nodes s2 y = nodes s y }.
Definition pending (hs : list (pat * cmd)) (c : ctx) (pend : option nat) : Prop :=
  match pend with
  | None => cstate c = 0 \/ cstate c = 4
  | Some e => cex c = Some e /\ (cstate c = 5 \/ cstate c = 1 /\ pick (Some e) hs = None)
  end.
Lemma pre_out x names ns f s s2 : pre x names ns s -> inner names f s s2 -> pre x names ns (set_cur s2 (cur s)).
Proof.
  intros [X CU CH IN ND LE] [F C N P FR NO]. constructor; cbn [set_cur ctxs cur nctx nodes nprot]; auto; try lia; rewrite ?FR; auto.
  eapply chain_frame; [|exact CH]. intros y Hy. apply NO. now apply IN.
Qed.
Lemma finish_post x names ns f s s3 pend b hs t v : pre x names ns s3 -> cur s3 <> f -> pending hs (ctxs s3 f) pend ->
  tr s3 = t -> vars s3 = v ->
  exists rs s', finish f s3 = Ok (rs, s') /\ (post names ns s {| rtr := t; rv := v; rexn := None; racc := b |} Norm s3 ->
     post names ns s {| rtr := t; rv := v; rexn := option_map (fun e => (e, 0)) pend; racc := b |} rs s').
Proof.
  intros P D PE T V. unfold finish. apply Nat.eqb_neq in D. rewrite D. destruct pend as [e|]; cbn [pending] in PE.
  - destruct PE as (E & ST). assert (O : Nat.odd (cstate (ctxs s3 f)) = true) by (destruct ST as [->|[-> _]]; reflexivity). rewrite O, E.
    destruct (throw_post x names ns s3 e P) as (rs & s' & TH & PO). rewrite TH. exists rs, s'. split; [reflexivity|]. intros Q.
    pose proof (post_trans _ _ _ _ {| rtr := t; rv := v; rexn := None; racc := b |} _ _ _ _ eq_refl Q PO) as PP. rewrite T, V in PP. unfold also in PP. cbn in PP. rewrite orb_false_r in PP. exact PP.
  - assert (O : Nat.odd (cstate (ctxs s3 f)) = false) by (destruct PE as [-> | ->]; reflexivity). rewrite O. exists Norm, s3. split; [reflexivity|auto].
Qed.

(* stage 2: finally, then the end *)
Lemma tail_post n x lst names ns f b hs fin s s2 pend r : good n -> pre x names ns s -> inner names f s s2 -> pending hs (ctxs s2 f) pend ->
  (forall e, lst = Some e -> cex (ctxs s2 f) = Some e) ->
  match fin with
  | None => Ok {| rtr := tr s2; rv := vars s2; rexn := option_map (fun e => (e, 0)) pend; racc := false |}
  | Some c' => do r3 <- sem n x lst names c' (tr s2) (vars s2);
               match rexn r3 with Some _ => Ok r3 | None => Ok {| rtr := rtr r3; rv := rv r3; rexn := option_map (fun e => (e, 0)) pend; racc := racc r3 |} end
  end = Ok r ->
  exists rs s', try_loop (exec n f) f b hs fin [2] s2 = Ok (rs, s') /\ post names ns s r rs s'.
Proof.
  intros G PR I PE LX H. pose proof (pre_out _ _ _ _ _ _ PR I) as PO. destruct I as [IF IC IN IP IFR INO].
  assert (NB : stage_body f 2 b hs fin s2 = match fin with Some c' => Some (c', set_cur s2 (cur s)) | None => None end).
  { unfold stage_body. cbn [Nat.eqb]. rewrite andb_false_r, IN.
    destruct pend as [e|]; cbn [pending] in PE.
    - destruct PE as (E & [ST|[ST PI]]); rewrite ST; cbn [Nat.eqb]; [now destruct fin|]. rewrite E, PI. now destruct fin.
    - destruct PE as [ST|ST]; rewrite ST; cbn [Nat.eqb]; now destruct fin. }
  assert (FN : f <> cur s) by (destruct PR as [_ CU _ _ _ _]; lia).
  cbn [try_loop]. rewrite NB. destruct fin as [c'|].
  - destruct (sem n x lst names c' (tr s2) (vars s2)) as [r3| | |] eqn:E3; cbn [bind] in H; try discriminate.
    destruct (G f x lst names ns c' (set_cur s2 (cur s)) r3) as (rs & s3 & EX & Q); [exact E3| |exact PO|].
    { split; [cbn; lia|]. intros e E. cbn. auto. }
    rewrite EX. cbn [bind].
    assert (Q' : post names ns s r3 rs s3).
    { destruct Q as [Q1 Q2 Q3 Q4 Q5 Q6]. cbn [set_cur cur nctx nprot ctxs nodes] in *. constructor; auto; try lia.
      - intros g L D. rewrite Q5 by lia. auto.
      - rewrite IFR in Q6 by (destruct PR; lia). destruct (rexn r3) as [[e l]|]; destruct Q6 as (A & B & C & D); (split; [exact A|]); (split; [exact B|]); (split; [exact C|]).
        + intros y Y1 Y2. rewrite D; auto.
        + intros y Y1. rewrite D; auto. }
    destruct (rexn r3) as [[e l]|] eqn:X3.
    + injection H as <-. pose proof (q_res _ _ _ _ _ _ Q') as QR. rewrite X3 in QR. destruct QR as (-> & _).
      exists (if cur s =? 0 then Term e else Jmp (cur s)), s3. split; [|exact Q'].
      destruct (cur s =? 0); [reflexivity|]. assert (D : (cur s =? f) = false) by (apply Nat.eqb_neq; auto). rewrite D. reflexivity.
    + injection H as <-. pose proof (q_res _ _ _ _ _ _ Q') as QR. rewrite X3 in QR. destruct QR as (-> & T & C & FR).
      cbn [try_loop].
      destruct (finish_post x names ns f s s3 pend (racc r3) hs (rtr r3) (rv r3)) as (rs & s' & FI & IM); auto.
      * destruct Q' as [Q1 Q2 Q3 _ _ _]. exact (pre_frame x names ns s s3 (racc r3) PR Q1 Q2 Q3 C FR).
      * destruct Q' as [Q1 _ _ _ _ _]. rewrite Q1. auto.
      * destruct Q as [_ _ _ _ Q5 _]. cbn [set_cur cur nctx ctxs] in Q5. rewrite Q5 by (auto; lia). exact PE.
      * destruct Q'; assumption.
      * rewrite FI. exists rs, s'. split; [reflexivity|]. apply IM.
        destruct Q' as [Q1 Q2 Q3 Q4 Q5 Q6]. rewrite X3 in Q6. constructor; auto.
  - injection H as <-. cbn [try_loop].
    assert (FE : finish f s2 = finish f (set_cur s2 (cur s))).
    { unfold finish. cbn [set_cur cur ctxs]. rewrite IC, Nat.eqb_refl, IN. assert (D : (cur s =? f) = false) by (apply Nat.eqb_neq; auto). rewrite D. reflexivity. }
    rewrite FE.
    destruct (finish_post x names ns f s (set_cur s2 (cur s)) pend false hs (tr s2) (vars s2)) as (rs & s' & FI & IM); auto.
    rewrite FI. exists rs, s'. split; [reflexivity|]. apply IM. constructor; cbn [set_cur cur nctx nprot vars ctxs rexn rv tr rtr racc nodes]; auto; try lia.
    split; [reflexivity|]. split; [reflexivity|]. rewrite with_acc_false. split; [|auto]. apply IFR. destruct PR; assumption.
Qed.

Lemma inner_post names f s s1 r rs s2 : inner names f s s1 -> post names [] s1 r rs s2 -> inner names f s s2.
Proof.
  intros [F C N P FR NO] [Q1 Q2 Q3 Q4 Q5 Q6]. rewrite C in *.
  assert (X : cnext (ctxs s2 f) = cnext (ctxs s1 f) /\ forall y, In y names -> nodes s2 y = nodes s1 y).
  { destruct (rexn r) as [[e l]|]; destruct Q6 as (_ & _ & E & D); rewrite E; split; auto. }
  destruct X as [X1 X2]. constructor; auto; try lia; try congruence.
  - intros g L. rewrite Q5 by lia. auto.
  - intros y Y. rewrite X2; auto.
Qed.
Lemma inner_set names f s s2 v : inner names f s s2 -> inner names f s (set_state s2 f v).
Proof.
  intros [F C N P FR NO]. constructor; cbn [set_state set_ctx nctx cur nprot nodes ctxs]; auto.
  - rewrite upd_same. exact N.
  - intros g L. rewrite upd_other by lia. auto.
Qed.
Lemma pre_inner names f s s2 e : inner names f s s2 -> cex (ctxs s2 f) = e -> cstack (ctxs s2 f) = None -> pre e names [] s2.
Proof. intros [F C N P FR NO] E S0. constructor; rewrite ?C; auto; cbn; try lia; try apply NoDup_nil. intros y []. Qed.

Lemma try_post n x lx names ns b hs fin s r : good n -> sem (S n) x lx names (Try b hs fin) (tr s) (vars s) = Ok r -> pre x names ns s ->
  exists rs s', (let (f, s1) := enter s in try_loop (exec n f) f b hs fin [0; 1; 2] s1) = Ok (rs, s') /\ post names ns s r rs s'.
Proof.
  intros G H PR. cbn [sem] in H.
  destruct (sem n None None names b (tr s) (vars s)) as [r1| | |] eqn:E1; cbn [bind] in H; try discriminate.
  unfold enter. set (f := nctx s). set (s1 := {| ctxs := upd (ctxs s) f _; nctx := S f; cur := f; nodes := nodes s; nprot := nprot s; vars := vars s; tr := tr s |}).
  assert (CU : cur s < f) by (destruct PR; assumption).
  assert (I1 : inner names f s s1).
  { constructor; cbn; auto; try lia. - now rewrite upd_same. - intros g L. now rewrite upd_other by (unfold f; lia). }
  assert (C1 : ctxs s1 f = {| cstate := 0; cex := None; cnext := cur s; cstack := None |}) by (cbn; now rewrite upd_same).
  destruct (G f None None names [] b s1 r1) as (rs1 & sb & X1 & Q1); [exact E1|split; [cbn; lia|intros e; discriminate]|apply pre_inner with f s; auto; now rewrite C1|].
  pose proof (inner_post _ _ _ _ _ _ _ I1 Q1) as I2.
  pose proof (sem_acc _ _ _ _ _ _ _ E1) as AC.
  assert (FZ : (f =? 0) = false) by (apply Nat.eqb_neq; lia).
  cbn [try_loop]. unfold stage_body at 1. rewrite C1. cbn [cstate Nat.eqb andb]. rewrite X1. cbn [bind].
  assert (CF : cur s1 = f) by reflexivity.
  destruct Q1 as [Q11 Q12 Q13 Q14 Q15 Q16]. rewrite CF, C1, AC in Q16.
  destruct (rexn r1) as [[e l]|] eqn:RX.
  - destruct Q16 as (-> & T & C & _). rewrite FZ. rewrite Nat.eqb_refl. rewrite C. cbn [thrown cstate rels]. change (Nat.lor 0 1) with 1.
    cbn [rels] in T. rewrite app_nil_r in T.
    set (s2 := set_state sb f 1). assert (I3 : inner names f s s2) by (apply inner_set; exact I2).
    assert (C2 : ctxs s2 f = {| cstate := 1; cex := Some e; cnext := cur s; cstack := None |}) by (unfold s2, set_state, set_ctx; cbn; rewrite upd_same, C; reflexivity).
    assert (T2 : tr s2 = rtr r1) by exact T. assert (V2 : vars s2 = rv r1) by exact Q14. clearbody s2.
    unfold stage_body at 1. rewrite C2. cbn [cstate cex Nat.eqb andb]. rewrite find_pick.
    destruct (find (takes e) hs) as [[p h]|] eqn:FP.
    + destruct (sem n (Some e) (Some e) names h (rtr r1) (rv r1)) as [r2| | |] eqn:E2; cbn [bind] in H; try discriminate.
      set (s3 := match p with Cond => s2 | _ => set_state s2 f 4 end).
      assert (I4 : inner names f s s3) by (unfold s3; destruct p; auto; apply inner_set; auto).
      assert (C3 : ctxs s3 f = {| cstate := match p with Cond => 1 | _ => 4 end; cex := Some e; cnext := cur s; cstack := None |}).
      { unfold s3; destruct p; auto; unfold set_state, set_ctx; cbn; rewrite upd_same, C2; reflexivity. }
      assert (T3 : tr s3 = rtr r1) by (unfold s3; destruct p; auto). assert (V3 : vars s3 = rv r1) by (unfold s3; destruct p; auto).
      assert (SB : match p with Cond => Some (h, s2) | _ => Some (h, set_state s2 f 4) end = Some (h, s3)) by (unfold s3; destruct p; reflexivity).
      rewrite SB. clear SB. clearbody s3.
      destruct (G f (Some e) (Some e) names [] h s3 r2) as (rs2 & sh & X2 & Q2).
      { rewrite T3, V3. exact E2. }
      { split; [destruct I4; lia|]. intros e0 [= <-]. now rewrite C3. }
      { apply pre_inner with f s; auto; now rewrite C3. }
      pose proof (inner_post _ _ _ _ _ _ _ I4 Q2) as I5. rewrite X2. cbn [bind].
      destruct (match p with Cond => racc r2 | _ => true end) eqn:OKP; [|discriminate].
      assert (ST : (if racc r2 then 4 else match p with Cond => 1 | _ => 4 end) = 4) by (destruct p, (racc r2); cbn in *; congruence).
      destruct Q2 as [Q21 Q22 Q23 Q24 Q25 Q26]. assert (CF3 : cur s3 = f) by (destruct I4; assumption). rewrite CF3, C3 in Q26.
      destruct (rexn r2) as [[e' l']|] eqn:RX2.
      * destruct Q26 as (-> & T4 & C4 & _). rewrite FZ. cbn [bind] in H. rewrite Nat.eqb_refl, C4. cbn [thrown cstate]. rewrite ST. change (Nat.lor 4 1) with 5.
        cbn [rels] in T4. rewrite app_nil_r in T4.
        apply (tail_post n x (Some e') names ns f b hs fin s (set_state sh f 5) (Some e')); auto.
        -- apply inner_set; exact I5.
        -- cbn [pending]. unfold set_state, set_ctx; cbn. rewrite upd_same, C4. cbn. auto.
        -- intros e0 [= <-]. unfold set_state, set_ctx; cbn. rewrite upd_same, C4. reflexivity.
        -- cbn [set_state set_ctx tr vars]. rewrite T4, Q24. exact H.
      * destruct Q26 as (-> & T4 & C4 & _). cbn [bind] in H.
        apply (tail_post n x (Some e) names ns f b hs fin s sh None); auto.
        -- cbn [pending]. right. rewrite C4. cbn. exact ST.
        -- intros e0 [= <-]. rewrite C4. reflexivity.
        -- rewrite T4, Q24. exact H.
    + assert (NB : match fin with Some c' => if false then Some (c', set_cur s2 (cur s)) else None | None => @None (cmd * st) end = None) by (destruct fin; reflexivity).
      cbn [cnext Nat.eqb] in *. rewrite NB. cbn [bind] in H.
      apply (tail_post n x (Some e) names ns f b hs fin s s2 (Some e)); auto.
      * cbn [pending]. rewrite C2. cbn. split; [reflexivity|]. right. split; [reflexivity|]. now rewrite find_pick.
      * intros e0 [= <-]. now rewrite C2.
      * rewrite T2, V2. exact H.
  - destruct Q16 as (-> & T & C & _). cbn [bind] in H. rewrite with_acc_false in C.
    unfold stage_body at 1. rewrite C. cbn [cstate Nat.eqb andb cnext].
    assert (NB : match fin with Some c' => if false then Some (c', set_cur sb (cur s)) else None | None => @None (cmd * st) end = None) by (destruct fin; reflexivity).
    rewrite NB. apply (tail_post n x None names ns f b hs fin s sb None); auto.
    + cbn [pending]. left. now rewrite C.
    + intros e0; discriminate.
    + rewrite T, Q14. exact H.
Qed.

Lemma exec_good : forall n, good n.
Proof.
  induction n as [|n IH]; intros lex x lx names ns c s r H LX PR; [discriminate|].
  destruct c; cbn [exec].
  - cbn [sem] in H. injection H as <-. eexists _, _. split; [reflexivity|]. constructor; cbn; auto. rewrite with_acc_false. auto.
  - cbn [sem] in H. injection H as <-. eexists _, _. split; [reflexivity|]. constructor; cbn; auto. rewrite with_acc_false. auto.
  - cbn [sem] in H. injection H as <-. eapply throw_post; eauto.
  - cbn [sem] in H. destruct lx as [e|]; [|discriminate]. injection H as <-. destruct LX as [_ LX]. rewrite (LX e eq_refl). eapply throw_post; eauto.
  - cbn [sem] in H. destruct (sem n x lx names c1 (tr s) (vars s)) as [r1| | |] eqn:E1; cbn [bind] in H; try discriminate.
    destruct (IH lex x lx names ns c1 s r1 E1 LX PR) as (rs1 & s1 & X1 & Q1). rewrite X1. cbn [bind].
    pose proof (q_res _ _ _ _ _ _ Q1) as QR. destruct (rexn r1) as [[e l]|] eqn:RX.
    + injection H as <-. destruct QR as (-> & _). exists (if cur s =? 0 then Term e else Jmp (cur s)), s1. split; [destruct (cur s =? 0); reflexivity|exact Q1].
    + destruct QR as (-> & T & C & FR).
      destruct (sem n x lx names c2 (rtr r1) (rv r1)) as [r2| | |] eqn:E2; cbn [bind] in H; try discriminate. injection H as <-.
      destruct (IH lex x lx names ns c2 s1 r2) as (rs2 & s2 & X2 & Q2).
      * rewrite T, (q_v _ _ _ _ _ _ Q1). exact E2.
      * destruct Q1. eapply lexok_frame; eauto.
      * destruct Q1. eapply pre_frame; eauto.
      * rewrite X2. exists rs2, s2. split; [reflexivity|]. eapply post_trans; eauto.
  - cbn [sem] in H. destruct (p (tr s)); eauto.
  - cbn [sem] in H. destruct (p (tr s)).
    2: { injection H as <-. eexists _, _. split; [reflexivity|]. constructor; cbn; auto. rewrite with_acc_false. auto. }
    destruct (sem n x lx names c (tr s) (vars s)) as [r1| | |] eqn:E1; cbn [bind] in H; try discriminate.
    destruct (IH lex x lx names ns c s r1 E1 LX PR) as (rs1 & s1 & X1 & Q1). rewrite X1. cbn [bind].
    pose proof (q_res _ _ _ _ _ _ Q1) as QR. destruct (rexn r1) as [[e l]|] eqn:RX.
    + injection H as <-. destruct QR as (-> & _). exists (if cur s =? 0 then Term e else Jmp (cur s)), s1. split; [destruct (cur s =? 0); reflexivity|exact Q1].
    + destruct QR as (-> & T & C & FR).
      destruct (sem n x lx names (While p c) (rtr r1) (rv r1)) as [r2| | |] eqn:E2; cbn [bind] in H; try discriminate. injection H as <-.
      destruct (IH lex x lx names ns (While p c) s1 r2) as (rs2 & s2 & X2 & Q2).
      * rewrite T, (q_v _ _ _ _ _ _ Q1). exact E2.
      * destruct Q1. eapply lexok_frame; eauto.
      * destruct Q1. eapply pre_frame; eauto.
      * rewrite X2. exists rs2, s2. split; [reflexivity|]. eapply post_trans; eauto.
  - cbn [sem] in H. rewrite (p_x _ _ _ _ PR). destruct x as [e'|]; [|eauto]. destruct (e' =? e); [|eauto].
    destruct (sem n (Some e') lx names c1 (tr s) (vars s)) as [r1| | |] eqn:E1; cbn [bind] in H; try discriminate. injection H as <-.
    set (s1 := set_state s (cur s) 4).
    assert (C1 : ctxs s1 (cur s) = with_acc true (ctxs s (cur s))) by (unfold s1, set_state, set_ctx; cbn; now rewrite upd_same).
    assert (Q0 : post names ns s {| rtr := tr s; rv := vars s; rexn := None; racc := true |} Norm s1).
    { constructor; auto; [|cbn; auto]. intros g _ D. cbn. now rewrite upd_other by auto. }
    destruct (IH lex (Some e') lx names ns c1 s1 r1) as (rs1 & s2 & X1 & Q1).
    + exact E1.
    + destruct Q0. eapply lexok_frame; eauto.
    + destruct Q0. eapply (pre_frame _ _ _ s s1 true); eauto.
    + rewrite X1. exists rs1, s2. split; [reflexivity|]. exact (post_trans _ _ _ _ {| rtr := tr s; rv := vars s; rexn := None; racc := true |} _ _ _ _ eq_refl Q0 Q1).
  - rename x0 into y. cbn [sem] in H. destruct (existsb (Nat.eqb y) names) eqn:EX; [discriminate|].
    assert (NY : ~ In y names).
    { intros I. assert (existsb (Nat.eqb y) names = true) by (apply existsb_exists; exists y; split; [exact I|apply Nat.eqb_refl]). congruence. }
    destruct (sem n x lx (y :: names) c (tr s) (vars s)) as [r1| | |] eqn:E1; cbn [bind] in H; try discriminate.
    set (s1 := protect s y).
    assert (C1 : ctxs s1 (cur s) = {| cstate := cstate (ctxs s (cur s)); cex := cex (ctxs s (cur s)); cnext := cnext (ctxs s (cur s)); cstack := Some y |})
      by (unfold s1, protect, set_stack, set_ctx; cbn; now rewrite upd_same).
    assert (O1 : forall g, g <> cur s -> ctxs s1 g = ctxs s g) by (intros g D; unfold s1, protect, set_stack, set_ctx; cbn; now rewrite upd_other by auto).
    assert (N1 : nodes s1 y = {| nnext := cstack (ctxs s (cur s)); nvalid := true |}) by (unfold s1, protect, set_stack, set_ctx; cbn; now rewrite upd_same).
    assert (N2 : forall z, z <> y -> nodes s1 z = nodes s z) by (intros z D; unfold s1, protect, set_stack, set_ctx; cbn; now rewrite upd_other by auto).
    assert (NYN : ~ In y ns) by (intros I; apply NY; apply (p_in _ _ _ _ PR); exact I).
    destruct (IH lex x lx (y :: names) (y :: ns) c s1 r1) as (rs1 & s2 & X1 & Q1).
    + exact E1.
    + destruct LX as [L1 L2]. split; [exact L1|]. intros e E. destruct (Nat.eq_dec lex (cur s)) as [->|D]; [rewrite C1; cbn; auto|rewrite O1; auto].
    + destruct PR as [A1 A2 A3 A4 A5 A6]. constructor.
      * change (cur s1) with (cur s). rewrite C1. exact A1.
      * exact A2.
      * change (cur s1) with (cur s). rewrite C1. cbn [cstack chain]. split; [reflexivity|]. rewrite N1. split; [reflexivity|]. cbn [nnext].
        eapply chain_frame; [|exact A3]. intros z Hz. apply N2. intros ->. contradiction.
      * intros z [->|Z]; [now left|right; auto].
      * constructor; assumption.
      * cbn. lia.
    + rewrite X1. cbn [bind]. destruct Q1 as [B1 B2 B3 B4 B5 B6]. change (cur s1) with (cur s) in *. change (nctx s1) with (nctx s) in *. change (nprot s1) with (S (nprot s)) in *.
      destruct (rexn r1) as [[e l]|] eqn:RX.
      * cbv zeta in H. destruct ((l =? rv r1 y) || (rv r1 y =? 0)) eqn:BR; [discriminate|]. injection H as <-.
        destruct B6 as (-> & T & C & FR). exists (if cur s =? 0 then Term e else Jmp (cur s)), s2. split; [destruct (cur s =? 0); reflexivity|].
        constructor; cbn [rexn rv rtr racc]; auto; try lia.
        -- intros g L D. rewrite B5 by auto. apply O1. exact D.
        -- split; [reflexivity|]. split; [|split].
           ++ rewrite T. cbn [rels]. rewrite B4, BR. rewrite <- app_assoc. reflexivity.
           ++ rewrite C, C1. reflexivity.
           ++ intros z Z1 Z2. rewrite FR; [|now right|intros [->|Z3]; contradiction]. apply N2. intros ->. contradiction.
      * injection H as <-. destruct B6 as (-> & T & C & FR). exists Norm, (unprotect s2 y). split; [reflexivity|].
        unfold unprotect, set_stack, set_ctx. constructor; cbn [rexn rv rtr racc cur nctx nprot vars ctxs tr nodes]; auto; try lia; try congruence.
        -- intros g L D. rewrite B1. rewrite upd_other by auto. rewrite B5 by auto. apply O1. exact D.
        -- rewrite RX. split; [reflexivity|]. split; [exact T|]. split.
           ++ rewrite B1, upd_same, C, FR, N1, C1 by (now left). reflexivity.
           ++ intros z Z. rewrite FR by (now right). apply N2. intros ->. contradiction.
  - discriminate.
  - discriminate.
  - discriminate.
  - eapply try_post; eauto.
Qed.

(* ---- whole programs ---- *)
Lemma pre0 vs : pre None [] [] (st0 vs).
Proof. constructor; cbn; auto; try apply NoDup_nil. intros y []. Qed.
Lemma lex0 vs : lexok None 0 (st0 vs).
Proof. split; [cbn; lia|]. intros e; discriminate. Qed.
Definition ending (q : option (nat * nat)) : res := match q with None => Norm | Some (e, _) => Term e end.
Lemma program_ok n vs c r : sem n None None [] c [] vs = Ok r ->
  exists s', program n vs c = Ok (ending (rexn r), s') /\ tr s' = rtr r /\ vars s' = rv r /\ cur s' = 0.
Proof.
  intros H. destruct (exec_good n 0 None None [] [] c (st0 vs) r H (lex0 vs) (pre0 vs)) as (rs & s' & E & [Q1 _ _ Q4 _ Q6]).
  exists s'. unfold program. rewrite E. cbn [bind fst]. cbn [st0 cur Nat.eqb] in *.
  destruct (rexn r) as [[e l]|]; destruct Q6 as (-> & T & _ & _); cbn [rels] in T; rewrite ?app_nil_r in T; auto.
Qed.

(* programs without conditional handlers, protection or break, with rethrow only in handlers: the specification covers every run *)
Fixpoint plain (inh : bool) (c : cmd) : bool :=
  match c with
  | Do _ | Var _ _ | Throw _ => true
  | Rethrow => inh
  | Seq a b | Test _ a b | Caught _ a b => plain inh a && plain inh b
  | While _ a => plain inh a
  | With _ _ | Protect _ | Unprotect _ | Break => false
  | Try b hs fin => plain false b && (fix go (l : list (pat * cmd)) := match l with [] => true | (p, h) :: k => match p with Cond => false | _ => true end && plain true h && go k end) hs
                    && match fin with None => true | Some c' => plain false c' end
  end.
Lemma plain_find e hs p h : (fix go (l : list (pat * cmd)) := match l with [] => true | (p, h) :: k => match p with Cond => false | _ => true end && plain true h && go k end) hs = true ->
  find (takes e) hs = Some (p, h) -> p <> Cond /\ plain true h = true.
Proof.
  induction hs as [|[p' h'] hs IH]; intros A F; [discriminate|]. apply andb_prop in A. destruct A as [A A3]. apply andb_prop in A. destruct A as [A1 A2].
  cbn [find] in F. destruct (takes e (p', h')); [|auto]. injection F as <- <-. split; [|exact A2]. intros ->. discriminate.
Qed.
Definition defined (o : outcome sres) : Prop := match o with Ok _ | Fuel => True | _ => False end.
Lemma plain_defined n : forall inh c x lx names t vs, plain inh c = true -> (inh = true -> lx <> None) -> defined (sem n x lx names c t vs).
Proof.
  induction n as [|n IH]; intros inh c x lx names t vs P L; [exact I|]. destruct c; cbn [plain] in P; try discriminate; cbn [sem].
  - exact I.
  - exact I.
  - exact I.
  - destruct lx; [exact I|]. now apply L in P.
  - apply andb_prop in P. destruct P as [P1 P2]. pose proof (IH inh c1 x lx names t vs P1 L) as D.
    destruct (sem n x lx names c1 t vs) as [r| | |]; cbn [bind]; auto. destruct (rexn r); [exact I|].
    pose proof (IH inh c2 x lx names (rtr r) (rv r) P2 L) as D2. destruct (sem n x lx names c2 (rtr r) (rv r)); cbn [bind]; auto; exact I.
  - apply andb_prop in P. destruct P as [P1 P2]. destruct (p t); eauto.
  - destruct (p t); [|exact I]. pose proof (IH inh c x lx names t vs P L) as D.
    destruct (sem n x lx names c t vs) as [r| | |]; cbn [bind]; auto. destruct (rexn r); [exact I|].
    pose proof (IH inh (While p c) x lx names (rtr r) (rv r) P L) as D2. destruct (sem n x lx names (While p c) (rtr r) (rv r)); cbn [bind]; auto; exact I.
  - apply andb_prop in P. destruct P as [P1 P2]. destruct x as [e'|]; [|eauto]. destruct (e' =? e); [|eauto].
    pose proof (IH inh c1 (Some e') lx names t vs P1 L) as D. destruct (sem n (Some e') lx names c1 t vs); cbn [bind]; auto; exact I.
  - apply andb_prop in P. destruct P as [P P3]. apply andb_prop in P. destruct P as [P1 P2].
    pose proof (IH false c None None names t vs P1) as D1. destruct (sem n None None names c t vs) as [r1| | |]; cbn [bind]; try (apply D1; discriminate).
    assert (F3 : forall r pend lst, defined (match fin with
      | None => Ok {| rtr := rtr r; rv := rv r; rexn := option_map (fun e => (e, 0)) pend; racc := false |}
      | Some c' => do r3 <- sem n x lst names c' (rtr r) (rv r);
                   match rexn r3 with Some _ => Ok r3 | None => Ok {| rtr := rtr r3; rv := rv r3; rexn := option_map (fun e => (e, 0)) pend; racc := racc r3 |} end
      end)).
    { intros r pend lst. destruct fin as [c'|]; [|exact I]. pose proof (IH false c' x lst names (rtr r) (rv r) P3) as D3.
      destruct (sem n x lst names c' (rtr r) (rv r)) as [r3| | |]; cbn [bind]; try (apply D3; discriminate). destruct (rexn r3); exact I. }
    destruct (rexn r1) as [[e l]|]; [|cbn [bind]; apply F3].
    destruct (find (takes e) hs) as [[p h]|] eqn:F; [|cbn [bind]; apply F3].
    destruct (plain_find e hs p h P2 F) as [PN PH].
    pose proof (IH true h (Some e) (Some e) names (rtr r1) (rv r1) PH) as D2.
    destruct (sem n (Some e) (Some e) names h (rtr r1) (rv r1)) as [r2| | |]; cbn [bind]; try (apply D2; discriminate).
    destruct p; [| |now destruct PN]; destruct (rexn r2) as [[e' l']|]; cbn [bind]; apply F3.
Qed.
(* every plain program behaves as specified, unless the given number of steps does not suffice *)
Lemma plain_program n vs c : plain false c = true ->
  sem n None None [] c [] vs = Fuel \/
  exists r s', sem n None None [] c [] vs = Ok r /\ program n vs c = Ok (ending (rexn r), s') /\ tr s' = rtr r.
Proof.
  intros P. pose proof (plain_defined n false c None None [] [] vs P) as D. destruct (sem n None None [] c [] vs) as [r| | |] eqn:E; [|exfalso; apply D; discriminate|exfalso; apply D; discriminate|now left].
  right. destruct (program_ok n vs c r E) as (s' & A & B & _). eauto.
Qed.

(* ---- conditional handlers ---- *)
Lemma cond_twice n vs b hs h fin r1 e l r2 r3 :
  sem n None None [] b [] vs = Ok r1 -> rexn r1 = Some (e, l) -> find (takes e) hs = Some (Cond, h) ->
  sem n (Some e) (Some e) [] h (rtr r1) (rv r1) = Ok r2 -> rexn r2 = None -> racc r2 = false ->
  sem n (Some e) (Some e) [] h (rtr r2) (rv r2) = Ok r3 -> rexn r3 = None -> racc r3 = false ->
  exists s', program (S n) vs (Try b hs fin) = Ok (Term e, s') /\ tr s' = rtr r3.
Proof.
  intros E1 X1 FP E2 X2 A2 E3 X3 A3. unfold program. cbn [exec]. change (enter (st0 vs)) with (1, snd (enter (st0 vs))). set (s1 := snd (enter (st0 vs))). cbv iota beta.
  assert (I1 : inner [] 1 (st0 vs) s1). { constructor; cbn; auto; try lia. intros g L. now rewrite upd_other by lia. }
  assert (C1 : ctxs s1 1 = {| cstate := 0; cex := None; cnext := 0; cstack := None |}) by reflexivity.
  destruct (exec_good n 1 None None [] [] b s1 r1) as (rs1 & sb & Y1 & Q1); [exact E1|split; [cbn; lia|discriminate]|apply pre_inner with 1 (st0 vs); auto|].
  pose proof (inner_post _ _ _ _ _ _ _ I1 Q1) as I2. pose proof (sem_acc _ _ _ _ _ _ _ E1) as AC.
  clearbody s1.
  cbn [try_loop]. unfold stage_body at 1. rewrite C1. cbn [cstate Nat.eqb andb]. rewrite Y1. cbn [bind].
  destruct Q1 as [Q11 Q12 Q13 Q14 Q15 Q16]. assert (CF : cur s1 = 1) by (destruct I1; assumption). rewrite CF, C1, AC, X1 in Q16.
  destruct Q16 as (-> & T & C & _). cbn [Nat.eqb]. rewrite C. cbn [thrown cstate]. change (Nat.lor 0 1) with 1. cbn [rels] in T. rewrite app_nil_r in T.
  set (s2 := set_state sb 1 1). assert (I3 : inner [] 1 (st0 vs) s2) by (apply inner_set; exact I2).
  assert (C2 : ctxs s2 1 = {| cstate := 1; cex := Some e; cnext := 0; cstack := None |}) by (unfold s2, set_state, set_ctx; cbn; rewrite C; reflexivity).
  assert (T2 : tr s2 = rtr r1) by exact T. assert (V2 : vars s2 = rv r1) by exact Q14. clearbody s2.
  unfold stage_body at 1. rewrite C2. cbn [cstate cex Nat.eqb andb]. rewrite find_pick, FP.
  destruct (exec_good n 1 (Some e) (Some e) [] [] h s2 r2) as (rs2 & s3 & Y2 & Q2).
  { rewrite T2, V2. exact E2. } { split; [destruct I3; lia|]. intros e0 [= <-]. now rewrite C2. } { apply pre_inner with 1 (st0 vs); auto; now rewrite C2. }
  pose proof (inner_post _ _ _ _ _ _ _ I3 Q2) as I4. rewrite Y2. cbn [bind].
  destruct Q2 as [Q21 Q22 Q23 Q24 Q25 Q26]. assert (CF2 : cur s2 = 1) by (destruct I3; assumption). rewrite CF2, C2, X2, A2 in Q26.
  destruct Q26 as (-> & T3 & C3 & _). rewrite with_acc_false in C3.
  unfold stage_body at 1. rewrite C3. cbn [cstate cex Nat.eqb andb]. rewrite find_pick, FP.
  destruct (exec_good n 1 (Some e) (Some e) [] [] h s3 r3) as (rs3 & s4 & Y3 & Q3).
  { rewrite T3, Q24. exact E3. } { split; [destruct I4; lia|]. intros e0 [= <-]. now rewrite C3. } { apply pre_inner with 1 (st0 vs); auto; now rewrite C3. }
  pose proof (inner_post _ _ _ _ _ _ _ I4 Q3) as I5. rewrite Y3. cbn [bind].
  destruct Q3 as [Q31 Q32 Q33 Q34 Q35 Q36]. assert (CF3 : cur s3 = 1) by (destruct I4; assumption). rewrite CF3, C3, X3, A3 in Q36.
  destruct Q36 as (-> & T4 & C4 & _). rewrite with_acc_false in C4.
  pose proof (pre_out _ _ _ _ _ _ (pre0 vs) I5) as PO. unfold finish. assert (CF4 : cur s4 = 1) by (destruct I5; assumption). rewrite CF4, C4. cbn [Nat.eqb cnext set_cur ctxs].
  rewrite C4. cbn [cstate cex]. change (Nat.odd 1) with true. cbv iota.
  destruct (throw_post _ _ _ _ e PO) as (rs & s' & TH & P'). change (cur (st0 vs)) with 0 in TH. rewrite TH. cbn [bind].
  destruct P' as [_ _ _ _ _ P6]. cbn in P6. destruct P6 as (-> & T5 & _). cbn [fst]. exists s'. split; [reflexivity|]. rewrite T5. cbn [rels]. rewrite app_nil_r. exact T4.
Qed.
(* an exception thrown by a conditional handler is offered to the handlers of the same block, and then finally is skipped *)
Lemma cond_sibling n vs b hs h fin r1 e l r2 e2 l2 p k r3 :
  sem n None None [] b [] vs = Ok r1 -> rexn r1 = Some (e, l) -> find (takes e) hs = Some (Cond, h) ->
  sem n (Some e) (Some e) [] h (rtr r1) (rv r1) = Ok r2 -> rexn r2 = Some (e2, l2) -> racc r2 = false ->
  find (takes e2) hs = Some (p, k) -> p <> Cond ->
  sem n (Some e2) (Some e2) [] k (rtr r2) (rv r2) = Ok r3 -> rexn r3 = None ->
  exists s', program (S n) vs (Try b hs fin) = Ok (Norm, s') /\ tr s' = rtr r3.
Proof.
  intros E1 X1 FP E2 X2 A2 FP2 NC E3 X3. unfold program. cbn [exec]. change (enter (st0 vs)) with (1, snd (enter (st0 vs))). set (s1 := snd (enter (st0 vs))). cbv iota beta.
  assert (I1 : inner [] 1 (st0 vs) s1). { constructor; cbn; auto; try lia. intros g L. now rewrite upd_other by lia. }
  assert (C1 : ctxs s1 1 = {| cstate := 0; cex := None; cnext := 0; cstack := None |}) by reflexivity.
  destruct (exec_good n 1 None None [] [] b s1 r1) as (rs1 & sb & Y1 & Q1); [exact E1|split; [cbn; lia|discriminate]|apply pre_inner with 1 (st0 vs); auto|].
  pose proof (inner_post _ _ _ _ _ _ _ I1 Q1) as I2. pose proof (sem_acc _ _ _ _ _ _ _ E1) as AC.
  clearbody s1.
  cbn [try_loop]. unfold stage_body at 1. rewrite C1. cbn [cstate Nat.eqb andb]. rewrite Y1. cbn [bind].
  destruct Q1 as [Q11 Q12 Q13 Q14 Q15 Q16]. assert (CF : cur s1 = 1) by (destruct I1; assumption). rewrite CF, C1, AC, X1 in Q16.
  destruct Q16 as (-> & T & C & _). cbn [Nat.eqb]. rewrite C. cbn [thrown cstate]. change (Nat.lor 0 1) with 1. cbn [rels] in T. rewrite app_nil_r in T.
  set (s2 := set_state sb 1 1). assert (I3 : inner [] 1 (st0 vs) s2) by (apply inner_set; exact I2).
  assert (C2 : ctxs s2 1 = {| cstate := 1; cex := Some e; cnext := 0; cstack := None |}) by (unfold s2, set_state, set_ctx; cbn; rewrite C; reflexivity).
  assert (T2 : tr s2 = rtr r1) by exact T. assert (V2 : vars s2 = rv r1) by exact Q14. clearbody s2.
  unfold stage_body at 1. rewrite C2. cbn [cstate cex Nat.eqb andb]. rewrite find_pick, FP.
  destruct (exec_good n 1 (Some e) (Some e) [] [] h s2 r2) as (rs2 & sc & Y2 & Q2).
  { rewrite T2, V2. exact E2. } { split; [destruct I3; lia|]. intros e0 [= <-]. now rewrite C2. } { apply pre_inner with 1 (st0 vs); auto; now rewrite C2. }
  pose proof (inner_post _ _ _ _ _ _ _ I3 Q2) as I4'. rewrite Y2. cbn [bind].
  destruct Q2 as [Q21 Q22 Q23 Q24 Q25 Q26]. assert (CF2 : cur s2 = 1) by (destruct I3; assumption). rewrite CF2, C2, X2, A2 in Q26.
  destruct Q26 as (-> & T3 & C3 & _). cbn [Nat.eqb]. rewrite C3. cbn [thrown cstate]. change (Nat.lor 1 1) with 1. cbn [rels] in T3. rewrite app_nil_r in T3.
  set (s3 := set_state sc 1 1). assert (I4 : inner [] 1 (st0 vs) s3) by (apply inner_set; exact I4').
  assert (C4 : ctxs s3 1 = {| cstate := 1; cex := Some e2; cnext := 0; cstack := None |}) by (unfold s3, set_state, set_ctx; cbn; rewrite C3; reflexivity).
  assert (T4 : tr s3 = rtr r2) by exact T3. assert (V4 : vars s3 = rv r2) by exact Q24. clearbody s3.
  unfold stage_body at 1. rewrite C4. cbn [cstate cex Nat.eqb andb]. rewrite find_pick, FP2.
  assert (SB : match p with Cond => Some (k, s3) | _ => Some (k, set_state s3 1 4) end = Some (k, set_state s3 1 4)) by (destruct p; [reflexivity|reflexivity|now destruct NC]).
  rewrite SB. set (s4 := set_state s3 1 4). assert (I5 : inner [] 1 (st0 vs) s4) by (apply inner_set; exact I4).
  assert (C5 : ctxs s4 1 = {| cstate := 4; cex := Some e2; cnext := 0; cstack := None |}) by (unfold s4, set_state, set_ctx; cbn; rewrite C4; reflexivity).
  assert (T5 : tr s4 = rtr r2) by exact T4. assert (V5 : vars s4 = rv r2) by exact V4. clearbody s4.
  destruct (exec_good n 1 (Some e2) (Some e2) [] [] k s4 r3) as (rs3 & s5 & Y3 & Q3).
  { rewrite T5, V5. exact E3. } { split; [destruct I5; lia|]. intros e0 [= <-]. now rewrite C5. } { apply pre_inner with 1 (st0 vs); auto; now rewrite C5. }
  pose proof (inner_post _ _ _ _ _ _ _ I5 Q3) as I6. rewrite Y3. cbn [bind].
  destruct Q3 as [Q31 Q32 Q33 Q34 Q35 Q36]. assert (CF4 : cur s4 = 1) by (destruct I5; assumption). rewrite CF4, C5, X3 in Q36.
  destruct Q36 as (-> & T6 & C6 & _). unfold finish. assert (CF5 : cur s5 = 1) by (destruct I6; assumption). rewrite CF5, C6. cbn [Nat.eqb set_cur ctxs cnext with_acc]. rewrite C6.
  cbn [with_acc cstate]. assert (ST : Nat.odd (if racc r3 then 4 else 4) = false) by (destruct (racc r3); reflexivity). rewrite ST. cbn [bind fst]. eexists. split; [reflexivity|]. exact T6.
Qed.

(* ---- nested protection ---- *)
Fixpoint withs (ys : list nat) (c : cmd) : cmd := match ys with [] => c | y :: k => With y (withs k c) end.
Lemma exec_withs lex e ys : forall s, exec (S (length ys)) lex (withs ys (Throw e)) s = throw (fold_left protect ys s) e.
Proof.
  induction ys as [|y ys IH]; intros s; [reflexivity|]. change (exec (S (length (y :: ys))) lex (withs (y :: ys) (Throw e)) s) with
    (do r <- exec (S (length ys)) lex (withs ys (Throw e)) (protect s y); match r with (Norm, s') => Ok (Norm, unprotect s' y) | _ => Ok r end).
  rewrite IH. cbn [fold_left]. unfold throw. destruct (unwind _ _ _ _ _) as [r| | |]; cbn [bind]; try reflexivity. destruct (_ =? 0); reflexivity.
Qed.
Lemma protect_pre x names ns s y : pre x names ns s -> ~ In y names -> pre x (y :: names) (y :: ns) (protect s y).
Proof.
  intros [A1 A2 A3 A4 A5 A6] NY. assert (NYN : ~ In y ns) by (intros I; apply NY, A4; exact I).
  unfold protect, set_stack, set_ctx. constructor; cbn [cur ctxs nctx nodes nprot]; rewrite ?upd_same; cbn [cex cstack]; auto.
  - cbn [chain]. split; [reflexivity|]. rewrite upd_same. split; [reflexivity|]. eapply chain_frame; [|exact A3]. intros z Hz. apply upd_other. intros ->. contradiction.
  - intros z [->|Z]; [now left|right; auto].
  - constructor; assumption.
  - cbn. lia.
Qed.
Lemma protects_pre x ys : forall names ns s, pre x names ns s -> NoDup ys -> (forall y, In y ys -> ~ In y names) ->
  pre x (rev ys ++ names) (rev ys ++ ns) (fold_left protect ys s).
Proof.
  induction ys as [|y ys IH]; intros names ns s P N D; [exact P|]. cbn [fold_left rev]. rewrite <- !app_assoc. cbn [app]. inversion N; subst. apply IH; auto.
  - apply protect_pre; auto. apply D. now left.
  - intros z Z [->|I]; [contradiction|]. apply (D z); auto. now right.
Qed.
Lemma fold_protect ys : forall s, cur (fold_left protect ys s) = cur s /\ vars (fold_left protect ys s) = vars s /\ tr (fold_left protect ys s) = tr s.
Proof. induction ys as [|y ys IH]; intros s; [auto|]. cbn [fold_left]. destruct (IH (protect s y)) as (A & B & C). rewrite A, B, C. auto. Qed.
Lemma withs_throw vs ys e : NoDup ys -> exists s', program (S (length ys)) vs (withs ys (Throw e)) = Ok (Term e, s') /\ tr s' = rels vs (rev ys) 0.
Proof.
  intros N. unfold program. rewrite exec_withs. destruct (fold_protect ys (st0 vs)) as (A & B & C).
  destruct (throw_post None (rev ys ++ []) (rev ys ++ []) (fold_left protect ys (st0 vs)) e) as (rs & s' & T & [_ _ _ Q4 _ Q6]).
  - apply protects_pre; auto. apply pre0.
  - rewrite T. cbn [bind fst]. cbn [rexn rtr rv racc] in *. rewrite A in Q6. cbn in Q6. destruct Q6 as (-> & T6 & _). exists s'. split; [reflexivity|].
    rewrite T6, C, Q4, B, app_nil_r. reflexivity.
Qed.
(* usable pointers, neighbours different: all are released, innermost first *)
Fixpoint usable (vs : nat -> nat) (last : nat) (ys : list nat) : Prop := match ys with [] => True | y :: k => vs y <> 0 /\ vs y <> last /\ usable vs (vs y) k end.
Lemma rels_all vs ys : forall last, usable vs last ys -> rels vs ys last = map (fun y => Rel (vs y)) ys.
Proof.
  induction ys as [|y ys IH]; intros last H; [reflexivity|]. destruct H as (H1 & H2 & H3). cbn [rels map].
  assert (E : (last =? vs y) || (vs y =? 0) = false) by (apply orb_false_iff; split; apply Nat.eqb_neq; auto). rewrite E. now rewrite IH.
Qed.
Lemma withs_released vs ys e : NoDup ys -> usable vs 0 (rev ys) ->
  exists s', program (S (length ys)) vs (withs ys (Throw e)) = Ok (Term e, s') /\ tr s' = map (fun y => Rel (vs y)) (rev ys).
Proof. intros N U. destruct (withs_throw vs ys e N) as (s' & A & B). exists s'. split; [exact A|]. rewrite B. now apply rels_all. Qed.
Lemma rels_null vs y a b : vs y = 0 -> forall last, rels vs (a ++ y :: b) last = rels vs a last.
Proof.
  intros Z. induction a as [|z a IH]; intros last; cbn [app rels].
  - rewrite Z. cbn. now rewrite orb_true_r.
  - destruct ((last =? vs z) || (vs z =? 0)); [reflexivity|]. now rewrite IH.
Qed.
(* a protected variable holding NULL keeps everything protected before it from being released *)
Lemma withs_null vs a y b e : NoDup (a ++ y :: b) -> vs y = 0 ->
  exists s', program (S (length (a ++ y :: b))) vs (withs (a ++ y :: b) (Throw e)) = Ok (Term e, s') /\ tr s' = rels vs (rev b) 0.
Proof.
  intros N Z. destruct (withs_throw vs _ e N) as (s' & A & B). exists s'. split; [exact A|]. rewrite B, rev_app_distr. cbn [rev]. rewrite <- app_assoc. cbn [app]. now rewrite rels_null.
Qed.
Lemma rels_dup vs y z a b : vs y = vs z -> forall last, rels vs (a ++ y :: z :: b) last = rels vs (a ++ [y]) last.
Proof.
  intros Z. induction a as [|x a IH]; intros last; cbn [app rels].
  - destruct ((last =? vs y) || (vs y =? 0)); [reflexivity|]. rewrite <- Z, Nat.eqb_refl. reflexivity.
  - destruct ((last =? vs x) || (vs x =? 0)); [reflexivity|]. now rewrite IH.
Qed.
Lemma withs_dup vs a y z b e : NoDup (a ++ z :: y :: b) -> vs y = vs z ->
  exists s', program (S (length (a ++ z :: y :: b))) vs (withs (a ++ z :: y :: b) (Throw e)) = Ok (Term e, s') /\ tr s' = rels vs (rev (y :: b)) 0.
Proof.
  intros N Z. destruct (withs_throw vs _ e N) as (s' & A & B). exists s'. split; [exact A|]. rewrite B, rev_app_distr. cbn [rev]. rewrite <- !app_assoc. cbn [app]. now rewrite rels_dup.
Qed.
(* removing in a try block the protection set up outside it *)
Definition crossing : cmd := Seq (Protect 0) (Seq (Protect 1) (Seq (Try (Seq (Unprotect 1) (Throw 9)) [(Any, Do 5)] None) (Throw 8))).
Definition two (a b : nat) : nat -> nat := fun y => if y =? 0 then S a else S b.
Lemma crossing_wrong a b : exists s', program 8 (two a b) crossing = Ok (Term 8, s') /\ tr s' = [Rel (S a); Did 5; Rel (S b)].
Proof. eexists. split; [vm_compute; reflexivity|vm_compute; reflexivity]. Qed.
(* leaving a try block by break *)
Lemma break_skips n vs hs fin : exists s', program (S (S n)) vs (Try Break hs fin) = Ok (Norm, s') /\ tr s' = [] /\ cur s' = 1.
Proof. eexists. split; [reflexivity|]. split; reflexivity. Qed.
Lemma break_dangles n vs hs fin e : program (S (S (S n))) vs (Seq (Try Break hs fin) (Throw e)) = UB.
Proof. reflexivity. Qed.

(* memory fenced in a try block *)
Lemma fence_in_try y w b e k : S w <> b -> exists s', program 5 (fun _ => S w) (Try (fenced y (Throw e)) [(Any, Do k)] None) = Ok (Norm, s') /\
  tr s' = [Rel (S w); Did k] /\ ~ In (Rel b) (tr s').
Proof.
  intros N. destruct (program_ok 5 (fun _ => S w) (Try (fenced y (Throw e)) [(Any, Do k)] None) {| rtr := [Rel (S w); Did k]; rv := fun _ => S w; rexn := None; racc := false |} eq_refl) as (s' & A & B & _).
  exists s'. split; [exact A|]. cbn [rtr] in B. rewrite B. split; [reflexivity|]. intros [X|[X|[]]]; [injection X as X; auto|discriminate].
Qed.
