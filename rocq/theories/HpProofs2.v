(* Every access keeps the invariant. *)
From Coq Require Import List Bool Arith Lia.
From Verif Require Import Base HpModel HpProofs.
Import ListNotations.

Ltac places E := rewrite ?E in *; cbn [has crit fits shape owned] in *; unfold holds, owned, keeps_lock in *; simp; rewrite ?E in *;
  cbn [has crit fits shape] in *.

Lemma step_inv : forall s q t c, Inv s q -> exists s' q', step None t c s = Ok s' /\ Inv s' q'.
Proof.
  intros s q t c H. pose proof (V_init _ _ H) as (Hi & Hk). pose proof (V_fits _ _ H t) as Hf. pose proof (V_shape _ _ H t) as Hs.
  unfold step. destruct (at_ s t) as [| | | | | | | | | |o| |h j e|h j e|o|h|h|h|h| |h|h|h|h|h|h| |] eqn:E; cbn [fits shape] in Hf, Hs; try contradiction.
  - (* Idle *)
    destruct c as [|g| | |k|].
    + eexists _, q. split; [reflexivity|]. apply inv_go; auto; places E; tauto.
    + destruct (owner s g) as [u|] eqn:Eo; [|eauto]. destruct (Nat.eqb_spec u t) as [->|]; [|eauto].
      assert (Ho := V_owner _ _ H _ _ Eo). rewrite E in Ho. cbn in Ho.
      eexists _, q. split; [reflexivity|]. apply inv_go; auto; places E; try tauto.
      intros x ->. tauto.
    + eexists _, q. split; [reflexivity|]. apply inv_go; auto; places E; tauto.
    + destruct (tls s t) as [h|] eqn:Et; [|eauto]. eexists _, q. split; [reflexivity|].
      destruct (V_holds _ _ H t h (or_introl Et)) as (Hlt & Hun).
      apply (inv_step s q t); simp; auto; try apply H.
      * others.
      * places E. left. tauto.
      * intros x Hx. destruct (V_queue _ _ H x Hx) as (A & B & C). split; [exact A|]. split; [exact B|]. split; [|auto].
        intros [D|D]; places E; [discriminate|]. subst x. apply (C t). left. exact Et.
      * intros x [D|D]; places E; [discriminate|]. subst x. split; [exact Hlt|]. intros u Hu D. apply Hu, Hun, D.
      * intros x Hx. destruct (V_all _ _ H x Hx) as [A|(u & A)]; [auto|]. destruct (Nat.eq_dec u t) as [->|Ne]; [|right; right; eauto].
        right. left. right. simp. cbn. destruct A as [A|A]; [congruence|]. places E. contradiction.
      * cbn. auto.
      * intros x u Hx. pose proof (V_owner _ _ H x u Hx) as Hw. destruct (Nat.eqb_spec u t) as [->|]; [|exact Hx].
        places E. rewrite Et in Hw. right. destruct Hw as [(Hw & _)|[]]. congruence.
    + eauto.
    + eauto.
  - (* M0 *) rewrite Hi. eexists _, q. split; [reflexivity|]. apply inv_go; auto; places E; tauto.
  - (* M4 *) rewrite Hk. eexists _, q. split; [reflexivity|].
    destruct (tls s t) as [h|] eqn:Et; apply inv_go; auto; places E; rewrite ?Et in *; try tauto.
    intros x ->. auto.
  - (* M5 *) rewrite Hk. eexists _, q. split; [reflexivity|].
    destruct (tls s t) as [h|] eqn:Et; apply inv_go; auto; places E; rewrite ?Et in *; try tauto.
    intros x ->. auto.
  - (* A0 *) destruct (lock s) eqn:El; [eauto|]. eexists _, q. split; [reflexivity|].
    apply (inv_step s q t); simp; auto; try apply H.
    + others.
    + right. left. simp. cbn. auto.
    + intros x Hx. destruct (V_queue _ _ H x Hx) as (A & B & C). split; [exact A|]. split; [exact B|]. split; [|auto].
      intros [D|D]; places E; [congruence|contradiction].
    + intros x [D|D]; places E; [congruence|contradiction].
    + intros x Hx. destruct (V_all _ _ H x Hx) as [A|(u & A)]; [auto|]. destruct (Nat.eq_dec u t) as [->|Ne]; [|right; right; eauto].
      right. left. destruct A as [A|A]; [left; exact A|]. places E. contradiction.
    + intros x u Hx. pose proof (V_owner _ _ H x u Hx) as Hw. destruct (Nat.eqb_spec u t) as [->|]; [|exact Hx].
      places E. exact Hw.
  - (* A1 *) eexists _, q. split; [reflexivity|]. apply inv_go; auto; places E; tauto.
  - (* A2 *) destruct o as [h|].
    + pose proof (V_chain _ _ H) as Hc. rewrite Hs in Hc. destruct q as [|x q]; [discriminate|]. destruct Hc as (Ex & Hc).
      injection Ex as <-. destruct (V_queue _ _ H h (or_introl eq_refl)) as (Hlt & Hon & Hno).
      pose proof (V_nodup _ _ H) as ND. inversion ND as [|? ? Hni ND']; subst.
      eexists _, q. split; [reflexivity|].
      apply (inv_step s (h :: q) t); simp; auto.
      * others.
      * places E. left. tauto.
      * intros x Hx. destruct (V_queue _ _ H x (or_intror Hx)) as (A & B & C). split; [exact A|]. split; [exact B|]. split; [|auto].
        intros [D|D]; places E; [congruence|]. subst x. contradiction.
      * intros x [D|D]; places E; [congruence|]. subst x. split; [exact Hlt|]. intros u _. apply Hno.
      * intros x Hx. destruct (V_all _ _ H x Hx) as [[A|A]|(u & A)]; [subst x|auto|].
        -- right. left. right. simp. reflexivity.
        -- destruct (Nat.eq_dec u t) as [->|Ne]; [|right; right; eauto].
           destruct A as [A|A]; places E; [congruence|contradiction].
      * left. rewrite E. exact I.
      * intros x u Hx. pose proof (V_owner _ _ H x u Hx) as Hw. destruct (Nat.eqb_spec u t) as [->|]; [|exact Hx].
        places E. rewrite Hf in Hw. destruct Hw as [(Hw & _)|[]]. discriminate.
    + pose proof (V_chain _ _ H) as Hc. rewrite Hs in Hc. destruct q as [|x q]; [|destruct Hc; discriminate].
      eexists _, []. split; [reflexivity|].
      apply (inv_step s [] t); simp; auto; try apply H.
      * others.
      * places E. left. tauto.
      * intros x [].
      * intros x [D|D]; places E; [congruence|contradiction].
      * intros x Hx. destruct (V_all _ _ H x Hx) as [[]|(u & A)]. destruct (Nat.eq_dec u t) as [->|Ne]; [|right; right; eauto].
        destruct A as [A|A]; places E; [congruence|contradiction].
      * reflexivity.
      * intros x u Hx. pose proof (V_owner _ _ H x u Hx) as Hw. destruct (Nat.eqb_spec u t) as [->|]; [|exact Hx].
        places E. exact Hw.
  - (* A3 *) destruct c as [|g| | |k|]; eauto.
    + subst q. eexists _, []. split; [reflexivity|].
      assert (Hfr : forall u x, holds s u x -> x < fresh s) by (intros u x Hx; apply (V_holds _ _ H u x Hx)).
      assert (Hnew : forall x, fresh s <= x -> owner s x = None).
      { intros x Hx. destruct (owner s x) as [u|] eqn:Eo; [|reflexivity]. exfalso.
        pose proof (V_owner _ _ H x u Eo) as Hw. assert (Hh : holds s u x).
        { unfold holds. destruct Hw as [(Hw & _)|Hw]; [auto|right]. destruct (at_ s u); try contradiction; cbn; auto. }
        apply Hfr in Hh. lia. }
      apply (inv_step s [] t); simp; auto; try apply H; try lia.
      * others.
      * places E. left. split; [reflexivity|]. destruct (Nat.eqb k 0); cbn; tauto.
      * intros x [].
      * intros x [D|D]; places E; [congruence|].
        assert (Hx : fresh s <= x < fresh s + 1 + k) by (destruct (Nat.eqb_spec k 0); cbn in D; lia).
        split; [lia|]. intros u _ Hu. apply Hfr in Hu. lia.
      * intros x Hx. destruct (Nat.lt_ge_cases x (fresh s)) as [Hl|Hl].
        -- destruct (V_all _ _ H x Hl) as [[]|(u & A)]. destruct (Nat.eq_dec u t) as [->|Ne]; [|right; right; eauto].
           destruct A as [A|A]; places E; [congruence|contradiction].
        -- right. left. right. simp. destruct (Nat.eqb_spec k 0); cbn; lia.
      * destruct (Nat.eqb k 0); exact Hf.
      * destruct (Nat.eqb_spec k 0); cbn; [apply Hnew; lia|]. split; [lia|]. split; [lia|]. apply Hnew. lia.
      * intros x u Hx. pose proof (V_owner _ _ H x u Hx) as Hw. destruct (Nat.eqb_spec u t) as [->|]; [|exact Hx].
        places E. rewrite Hf in Hw. destruct Hw as [(Hw & _)|[]]. discriminate.
    + eexists _, q. split; [reflexivity|]. apply inv_go; auto; places E; tauto.
  - (* A4 *) destruct Hs as (H1 & H2 & H3). eexists _, q. split; [reflexivity|].
    assert (Hj : holds s t j) by (right; rewrite E; cbn; lia).
    assert (Hjq : ~ In j q) by (intros Hq; destruct (V_queue _ _ H j Hq) as (_ & _ & C); exact (C t Hj)).
    apply (inv_step s q t); simp; auto; try apply H.
    + others.
    + places E. left. tauto.
    + apply chain_upd; [apply H|exact Hjq].
    + intros x Hx. destruct (V_queue _ _ H x Hx) as (A & B & C). split; [exact A|]. split; [unfold upd; destruct (Nat.eqb x j); auto|]. split; [|auto].
      intros [D|D]; places E; [congruence|]. apply (C t). right. rewrite E. exact D.
    + intros x [D|D]; places E; [congruence|]. assert (Hx : holds s t x) by (right; rewrite E; exact D).
      destruct (V_holds _ _ H t x Hx) as (A & B). split; [exact A|]. intros u Hu Hu'. apply Hu, B, Hu'.
    + intros x Hx. destruct (V_all _ _ H x Hx) as [A|(u & A)]; [auto|]. destruct (Nat.eq_dec u t) as [->|Ne]; [|right; right; eauto].
      right. left. right. simp. destruct A as [A|A]; places E; [congruence|exact A].
    + cbn. simp. rewrite upd_other by lia. auto.
    + intros u x Hu Hx. unfold upd. destruct (Nat.eqb_spec x j) as [->|]; [|reflexivity].
      exfalso. apply Hu. destruct (V_holds _ _ H u j Hx) as (_ & B). symmetry. apply B, Hj.
    + left. rewrite E. exact I.
    + intros x u Hx. unfold upd in Hx. destruct (Nat.eqb x j); [discriminate|].
      pose proof (V_owner _ _ H x u Hx) as Hw. destruct (Nat.eqb_spec u t) as [->|]; [|exact Hx]. places E. exact Hw.
  - (* A4w *) destruct Hs as (H1 & H2 & H3 & H4). eexists _, (j :: q). split; [reflexivity|].
    assert (Hj : holds s t j) by (right; rewrite E; cbn; lia).
    assert (Hjq : ~ In j q) by (intros Hq; destruct (V_queue _ _ H j Hq) as (_ & _ & C); exact (C t Hj)).
    assert (Hjo : owner s j = None).
    { destruct (owner s j) as [u|] eqn:Eo; [|reflexivity]. exfalso. pose proof (V_owner _ _ H j u Eo) as Hw.
      assert (Hh : holds s u j).
      { unfold holds. destruct Hw as [(Hw & _)|Hw]; [auto|right]. destruct (at_ s u); try contradiction; cbn; auto. }
      destruct (V_holds _ _ H u j Hh) as (_ & B). rewrite <- (B t Hj), E in Hw. places E. rewrite Hf in Hw. destruct Hw as [(Hw & _)|[]]. discriminate. }
    assert (Hhas : forall x, has (if S j <? e then A4 h (S j) e else A5 (Some h)) x <-> has (A4w h j e) x /\ x <> j).
    { intros x. destruct (Nat.ltb_spec (S j) e); cbn; lia. }
    apply (inv_step s q t); simp; auto; try apply H.
    + others.
    + left. simp. rewrite E. split; [reflexivity|]. destruct (S j <? e); cbn; tauto.
    + cbn. split; [reflexivity|]. rewrite H3. apply H.
    + constructor; [exact Hjq|apply H].
    + intros x [<-|Hx].
      * split; [lia|]. split; [exact Hjo|]. split.
        -- intros [D|D]; simp; [congruence|]. apply Hhas in D. destruct D; congruence.
        -- intros u Hu Hu'. apply Hu. destruct (V_holds _ _ H u j Hu') as (_ & B). symmetry. apply B, Hj.
      * destruct (V_queue _ _ H x Hx) as (A & B & C). split; [exact A|]. split; [exact B|]. split; [|auto].
        intros [D|D]; simp; [congruence|]. apply (C t). right. rewrite E. apply Hhas in D. apply D.
    + intros x [D|D]; simp; [congruence|]. assert (Hx : holds s t x) by (right; rewrite E; apply Hhas in D; apply D).
      destruct (V_holds _ _ H t x Hx) as (A & B). split; [exact A|]. intros u Hu Hu'. apply Hu, B, Hu'.
    + intros x Hx. destruct (V_all _ _ H x Hx) as [A|(u & A)]; [left; right; exact A|]. destruct (Nat.eq_dec u t) as [->|Ne]; [|right; right; eauto].
      destruct (Nat.eq_dec x j) as [->|Nj]; [left; left; reflexivity|].
      right. left. right. simp. apply Hhas. destruct A as [A|A]; [congruence|]. rewrite E in A. auto.
    + destruct (S j <? e); exact Hf.
    + destruct (Nat.ltb_spec (S j) e); cbn; simp; [|exact H4]. split; [lia|]. split; [lia|exact H4].
    + left. rewrite E. exact I.
    + intros x u Hx. pose proof (V_owner _ _ H x u Hx) as Hw. destruct (Nat.eqb_spec u t) as [->|]; [|exact Hx].
      places E. rewrite Hf in Hw. destruct Hw as [(Hw & _)|[]]. discriminate.
  - (* A5 *) eexists _, q. split; [reflexivity|].
    apply (inv_step s q t); simp; auto; try apply H.
    + others.
    + right. right. simp. rewrite E. destruct o; cbn; auto.
    + intros x Hx. destruct (V_queue _ _ H x Hx) as (A & B & C). split; [exact A|]. split; [exact B|]. split; [|auto].
      intros [D|D]; simp; [congruence|]. apply (C t). right. rewrite E. destruct o; [exact D|contradiction].
    + intros x [D|D]; simp; [congruence|]. assert (Hx : holds s t x) by (right; rewrite E; destruct o; [exact D|contradiction]).
      destruct (V_holds _ _ H t x Hx) as (A & B). split; [exact A|]. intros u Hu Hu'. apply Hu, B, Hu'.
    + intros x Hx. destruct (V_all _ _ H x Hx) as [A|(u & A)]; [auto|]. destruct (Nat.eq_dec u t) as [->|Ne]; [|right; right; eauto].
      right. left. right. simp. destruct A as [A|A]; [congruence|]. rewrite E in A. destruct o; [exact A|contradiction].
    + destruct o; cbn; auto.
    + destruct o; cbn; auto.
    + intros x u Hx. pose proof (V_owner _ _ H x u Hx) as Hw. destruct (Nat.eqb_spec u t) as [->|]; [|exact Hx].
      places E. rewrite Hf in *. destruct Hw as [(Hw & _)|[]]. discriminate.
  - (* A6 *) eexists _, q. split; [reflexivity|].
    assert (Hh : holds s t h) by (right; rewrite E; reflexivity). destruct (V_holds _ _ H t h Hh) as (Hlt & Hun).
    apply (inv_step s q t); simp; auto; try apply H.
    + others.
    + places E. left. tauto.
    + intros x Hx. destruct (V_queue _ _ H x Hx) as (A & B & C). split; [exact A|]. split; [exact B|]. split; [|auto].
      intros [D|D]; simp; [injection D as <-|cbn in D; subst x]; exact (C t Hh).
    + intros x Hx. assert (x = h) as -> by (destruct Hx as [D|D]; simp; [congruence|exact D]).
      split; [exact Hlt|]. intros u Hu Hu'. apply Hu, Hun, Hu'.
    + intros x Hx. destruct (V_all _ _ H x Hx) as [A|(u & A)]; [auto|]. destruct (Nat.eq_dec u t) as [->|Ne]; [|right; right; eauto].
      right. left. right. simp. destruct A as [A|A]; places E; [congruence|exact A].
    + reflexivity.
    + intros x u Hx. pose proof (V_owner _ _ H x u Hx) as Hw. destruct (Nat.eqb_spec u t) as [->|]; [|exact Hx].
      places E. rewrite Hf in *. destruct Hw as [(Hw & _)|[]]. discriminate.
  - (* A7 *) eexists _, q. split; [reflexivity|].
    assert (Hh : holds s t h) by (right; rewrite E; reflexivity). destruct (V_holds _ _ H t h Hh) as (Hlt & Hun).
    assert (Hq : ~ In h q) by (intros Hq; destruct (V_queue _ _ H h Hq) as (_ & _ & C); exact (C t Hh)).
    apply (inv_step s q t); simp; auto; try apply H.
    + others.
    + places E. left. tauto.
    + intros x Hx. destruct (V_queue _ _ H x Hx) as (A & B & C). split; [exact A|].
      split; [rewrite upd_other by (intros ->; contradiction); exact B|]. split; [|auto].
      intros [D|D]; simp; [rewrite Hf in D; injection D as <-|cbn in D; subst x]; contradiction.
    + intros x Hx. assert (x = h) as -> by (destruct Hx as [D|D]; simp; [congruence|exact D]).
      split; [exact Hlt|]. intros u Hu Hu'. apply Hu, Hun, Hu'.
    + intros x Hx. destruct (V_all _ _ H x Hx) as [A|(u & A)]; [auto|]. destruct (Nat.eq_dec u t) as [->|Ne]; [|right; right; eauto].
      right. left. destruct A as [A|A]; [left; exact A|right]. simp. rewrite E in A. exact A.
    + exact I.
    + intros u x Hu Hx. rewrite upd_other; [reflexivity|]. intros ->. apply Hu, Hun, Hx.
    + intros x u Hx. unfold upd in Hx. destruct (Nat.eqb_spec x h) as [->|Nx].
      * injection Hx as <-. rewrite Nat.eqb_refl. left. simp. auto.
      * pose proof (V_owner _ _ H x u Hx) as Hw. destruct (Nat.eqb_spec u t) as [->|]; [|exact Hx].
        places E. destruct Hw as [(_ & [])|[]].
  - (* Run *) eexists _, q. split; [reflexivity|]. apply inv_go; auto; places E; try tauto.
    intros x ->. auto.
  - (* Dir *) eexists _, q. split; [reflexivity|]. apply inv_go; auto; places E; try tauto.
    intros x ->. auto.
  - (* R0 *) rewrite Hk. eexists _, q. split; [reflexivity|].
    destruct (tls s t) as [h|] eqn:Et; apply inv_go; auto; places E; rewrite ?Et in *; try tauto.
    intros x ->. auto.
  - (* R1 *) eexists _, q. split; [reflexivity|]. apply inv_go; auto; places E; try tauto.
  - (* R2 *) eexists _, q. split; [reflexivity|].
    assert (Hh : holds s t h) by (right; rewrite E; reflexivity). destruct (V_holds _ _ H t h Hh) as (Hlt & Hun).
    set (s1 := match tls s t with Some g => if Nat.eqb g h then set_tls s t None else s | None => s end).
    assert (Hs1 : inited s1 = true /\ key s1 = true /\ lock s1 = lock s /\ hd s1 = hd s /\ nxt s1 = nxt s /\ owner s1 = owner s /\ fresh s1 = fresh s /\
                  at_ s1 = at_ s /\ tls s1 t = None /\ forall u, u <> t -> tls s1 u = tls s u).
    { unfold s1. destruct Hf as [Hf|Hf]; rewrite Hf; [rewrite Nat.eqb_refl|]; cbn; rewrite ?upd_same;
        do 9 (split; [auto|]); intros u Hu; rewrite ?upd_other by exact Hu; reflexivity. }
    destruct Hs1 as (S1 & S2 & S3 & S4 & S5 & S6 & S7 & S8 & S9 & S10). clearbody s1.
    apply (inv_step s q t); simp; rewrite ?S1, ?S2, ?S3, ?S4, ?S5, ?S6, ?S7; auto; try apply H.
    + intros u Hu. rewrite S8, upd_other by exact Hu. auto.
    + left. simp. rewrite E. cbn. tauto.
    + intros x Hx. destruct (V_queue _ _ H x Hx) as (A & B & C). split; [exact A|]. split; [exact B|]. split; [|auto].
      intros [D|D]; simp; [congruence|]. cbn in D. subst x. exact (C t Hh).
    + intros x [D|D]; simp; [congruence|]. cbn in D. subst x. split; [exact Hlt|]. intros u Hu Hu'. apply Hu, Hun, Hu'.
    + intros x Hx. destruct (V_all _ _ H x Hx) as [A|(u & A)]; [auto|]. destruct (Nat.eq_dec u t) as [->|Ne]; [|right; right; eauto].
      right. left. right. simp. cbn. destruct A as [A|A]; places E; [destruct Hf; congruence|exact A].
    + intros x u Hx. pose proof (V_owner _ _ H x u Hx) as Hw. destruct (Nat.eqb_spec u t) as [->|]; [|exact Hx].
      places E. right. destruct Hw as [(Hw & _)|Hw]; [destruct Hf; congruence|exact Hw].
  - (* R3 *) destruct (lock s) eqn:El; [eauto|]. eexists _, q. split; [reflexivity|].
    assert (Hh : holds s t h) by (right; rewrite E; reflexivity). destruct (V_holds _ _ H t h Hh) as (Hlt & Hun).
    apply (inv_step s q t); simp; auto; try apply H.
    + others.
    + right. left. simp. cbn. auto.
    + intros x Hx. destruct (V_queue _ _ H x Hx) as (A & B & C). split; [exact A|]. split; [exact B|]. split; [|auto].
      intros [D|D]; simp; [congruence|]. cbn in D. subst x. exact (C t Hh).
    + intros x [D|D]; simp; [congruence|]. cbn in D. subst x. split; [exact Hlt|]. intros u Hu Hu'. apply Hu, Hun, Hu'.
    + intros x Hx. destruct (V_all _ _ H x Hx) as [A|(u & A)]; [auto|]. destruct (Nat.eq_dec u t) as [->|Ne]; [|right; right; eauto].
      right. left. right. simp. cbn. destruct A as [A|A]; places E; [congruence|exact A].
    + intros x u Hx. pose proof (V_owner _ _ H x u Hx) as Hw. destruct (Nat.eqb_spec u t) as [->|]; [|exact Hx].
      places E. exact Hw.
  - (* R4 *) eexists _, q. split; [reflexivity|].
    assert (Hh : holds s t h) by (right; rewrite E; reflexivity). destruct (V_holds _ _ H t h Hh) as (Hlt & Hun).
    apply (inv_step s q t); simp; auto; try apply H.
    + others.
    + left. simp. rewrite E. cbn. tauto.
    + intros x Hx. destruct (V_queue _ _ H x Hx) as (A & B & C). split; [exact A|]. split; [unfold upd; destruct (Nat.eqb x h); auto|]. split; [|auto].
      intros [D|D]; simp; [congruence|]. cbn in D. subst x. exact (C t Hh).
    + intros x [D|D]; simp; [congruence|]. cbn in D. subst x. split; [exact Hlt|]. intros u Hu Hu'. apply Hu, Hun, Hu'.
    + intros x Hx. destruct (V_all _ _ H x Hx) as [A|(u & A)]; [auto|]. destruct (Nat.eq_dec u t) as [->|Ne]; [|right; right; eauto].
      right. left. right. simp. cbn. destruct A as [A|A]; places E; [congruence|exact A].
    + cbn. simp. reflexivity.
    + intros u x Hu Hx. rewrite upd_other; [reflexivity|]. intros ->. apply Hu, Hun, Hx.
    + intros x u Hx. unfold upd in Hx. destruct (Nat.eqb_spec x h) as [->|Nx]; [discriminate|].
      pose proof (V_owner _ _ H x u Hx) as Hw. destruct (Nat.eqb_spec u t) as [->|]; [|exact Hx].
      places E. rewrite Hf in *. destruct Hw as [(Hw & _)|Hw]; congruence.
  - (* R5 *) eexists _, q. split; [reflexivity|].
    assert (Hh : holds s t h) by (right; rewrite E; reflexivity). destruct (V_holds _ _ H t h Hh) as (Hlt & Hun).
    assert (Hq : ~ In h q) by (intros Hq; destruct (V_queue _ _ H h Hq) as (_ & _ & C); exact (C t Hh)).
    apply (inv_step s q t); simp; auto; try apply H.
    + others.
    + left. simp. rewrite E. cbn. tauto.
    + apply chain_upd; [apply H|exact Hq].
    + intros x Hx. destruct (V_queue _ _ H x Hx) as (A & B & C). split; [exact A|]. split; [exact B|]. split; [|auto].
      intros [D|D]; simp; [congruence|]. cbn in D. subst x. exact (C t Hh).
    + intros x [D|D]; simp; [congruence|]. cbn in D. subst x. split; [exact Hlt|]. intros u Hu Hu'. apply Hu, Hun, Hu'.
    + intros x Hx. destruct (V_all _ _ H x Hx) as [A|(u & A)]; [auto|]. destruct (Nat.eq_dec u t) as [->|Ne]; [|right; right; eauto].
      right. left. right. simp. cbn. destruct A as [A|A]; places E; [congruence|exact A].
    + cbn. simp. auto.
    + left. rewrite E. exact I.
    + intros x u Hx. pose proof (V_owner _ _ H x u Hx) as Hw. destruct (Nat.eqb_spec u t) as [->|]; [|exact Hx].
      places E. rewrite Hf in *. destruct Hw as [(Hw & _)|Hw]; [discriminate|contradiction].
  - (* R6 *) destruct Hs as (Hn & Hon). eexists _, (h :: q). split; [reflexivity|].
    assert (Hh : holds s t h) by (right; rewrite E; reflexivity). destruct (V_holds _ _ H t h Hh) as (Hlt & Hun).
    assert (Hq : ~ In h q) by (intros Hq; destruct (V_queue _ _ H h Hq) as (_ & _ & C); exact (C t Hh)).
    apply (inv_step s q t); simp; auto; try apply H.
    + others.
    + left. simp. rewrite E. cbn. tauto.
    + cbn. split; [reflexivity|]. rewrite Hn. apply H.
    + constructor; [exact Hq|apply H].
    + intros x [<-|Hx].
      * split; [exact Hlt|]. split; [exact Hon|]. split; [intros [D|D]; simp; [congruence|contradiction]|].
        intros u Hu Hu'. apply Hu, Hun, Hu'.
      * destruct (V_queue _ _ H x Hx) as (A & B & C). split; [exact A|]. split; [exact B|]. split; [|auto].
        intros [D|D]; simp; [congruence|contradiction].
    + intros x [D|D]; simp; [congruence|contradiction].
    + intros x Hx. destruct (V_all _ _ H x Hx) as [A|(u & A)]; [left; right; exact A|]. destruct (Nat.eq_dec u t) as [->|Ne]; [|right; right; eauto].
      left. left. destruct A as [A|A]; places E; [congruence|auto].
    + exact I.
    + left. rewrite E. exact I.
    + intros x u Hx. pose proof (V_owner _ _ H x u Hx) as Hw. destruct (Nat.eqb_spec u t) as [->|]; [|exact Hx].
      places E. rewrite Hf in *. destruct Hw as [(Hw & _)|Hw]; [discriminate|contradiction].
  - (* R7 *) eexists _, q. split; [reflexivity|].
    apply (inv_step s q t); simp; auto; try apply H.
    + others.
    + right. right. simp. rewrite E. cbn. auto.
    + intros x Hx. destruct (V_queue _ _ H x Hx) as (A & B & C). split; [exact A|]. split; [exact B|]. split; [|auto].
      intros [D|D]; simp; [congruence|contradiction].
    + intros x [D|D]; simp; [congruence|contradiction].
    + intros x Hx. destruct (V_all _ _ H x Hx) as [A|(u & A)]; [auto|]. destruct (Nat.eq_dec u t) as [->|Ne]; [|right; right; eauto].
      destruct A as [A|A]; places E; [congruence|contradiction].
    + intros x u Hx. pose proof (V_owner _ _ H x u Hx) as Hw. destruct (Nat.eqb_spec u t) as [->|]; [|exact Hx].
      places E. exact Hw.
  - (* R8 *) eexists _, q. split; [reflexivity|].
    apply (inv_step s q t); simp; auto; try apply H.
    + others.
    + left. simp. rewrite E. cbn. tauto.
    + intros x Hx. destruct (V_queue _ _ H x Hx) as (A & B & C). split; [exact A|]. split; [exact B|]. split; [|auto].
      intros [D|D]; simp; [congruence|contradiction].
    + intros x [D|D]; simp; [congruence|contradiction].
    + intros x Hx. destruct (V_all _ _ H x Hx) as [A|(u & A)]; [auto|]. destruct (Nat.eq_dec u t) as [->|Ne]; [|right; right; eauto].
      destruct A as [A|A]; places E; [congruence|contradiction].
    + intros x u Hx. pose proof (V_owner _ _ H x u Hx) as Hw. destruct (Nat.eqb_spec u t) as [->|]; [|exact Hx].
      places E. rewrite Hf in *. destruct Hw as [(Hw & _)|Hw]; [discriminate|contradiction].
Qed.

Lemma run_inv : forall l s q, Inv s q -> exists s' q', run None l s = Ok s' /\ Inv s' q'.
Proof.
  induction l as [|[t c] r IH]; intros s q H; cbn [run]; [eauto|].
  destruct (step_inv s q t c H) as (s1 & q1 & E & H1). rewrite E. cbn [bind]. eauto.
Qed.
