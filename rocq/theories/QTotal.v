(** Executions with positive probability exist. *)
From Coq Require Import InitialRing.
From Verif Require Export QOps.
From stdpp Require Export list.
Open Scope Z_scope.

Section total.
Context {R : Amp}.
Lemma R_ring2 : ring_theory (@a0 R) a1 aadd amul asub aopp eq.
Proof. exact (a_ring R). Qed.
Add Ring Rring2 : R_ring2.

Lemma possible_X q (ψ : state R) : (exists b, ψ b <> a0) -> exists b, gX q ψ b <> a0.
Proof. intros [b Hb]. exists (b ⊕ {[q]}). unfold gX. by rewrite sd_cancel. Qed.
(** With decidable equality of amplitudes a surviving branch can be named. *)
Context (Hdec : forall x : R, x = a0 \/ x <> a0).
Lemma possible_H q (ψ : state R) : (exists b, ψ b <> a0) -> exists b, gH q ψ b <> a0.
Proof.
  intros [b Hb]. destruct (Hdec (gH q ψ (b ∖ {[q]}))) as [H0|]; [|by eexists].
  destruct (Hdec (gH q ψ (b ∪ {[q]}))) as [H1|]; [|by eexists]. exfalso.
  set (b0 := b ∖ {[q]}) in *. set (b1 := b ∪ {[q]}) in *. unfold gH in H0, H1.
  assert (mem q b0 = false) as E0 by (apply mem_false; set_solver).
  assert (mem q b1 = true) as E1 by (apply mem_true; set_solver).
  rewrite E0 in H0. rewrite E1 in H1. cbn [sgn] in H0, H1.
  assert (b0 ∖ {[q]} = b0) as Ea by set_solver. assert (b0 ∪ {[q]} = b1) as Eb.
  { apply set_eq. intros x. unfold b0, b1. rewrite !elem_of_union, elem_of_difference, elem_of_singleton.
    destruct (decide (x = q)); tauto. }
  assert (b1 ∖ {[q]} = b0) as Ec by set_solver. assert (b1 ∪ {[q]} = b1) as Ed by set_solver.
  rewrite Ea, Eb in H0. rewrite Ec, Ed in H1.
  assert (Hx : ψ b0 = a0).
  { apply (a_two R). transitivity (aadd (aadd (ψ b0) (ψ b1)) (aadd (ψ b0) (aopp (ψ b1)))); [ring|]. rewrite H0, H1. ring. }
  assert (Hy : ψ b1 = a0).
  { rewrite Hx in H0. transitivity (aadd a0 (ψ b1)); [ring|done]. }
  apply Hb. destruct (decide (q ∈ b)) as [Hq|Hq].
  - replace b with b1; [done|]. set_solver.
  - replace b with b0; [done|]. set_solver.
Qed.
Lemma step_possible i (k : config R) : proper i -> possible k -> exists k', step i k k' /\ possible k'.
Proof.
  intros Hp Hk. destruct k as [c ψ]. unfold possible in *. cbn [snd] in Hk.
  assert (Hs : forall s (x : R), x <> a0 -> sgn s x <> a0) by (intros s x Hx E; by apply Hx, (sgn_eq_0 s)).
  assert (HZ : forall q, exists b, gZ q ψ b <> a0).
  { intros q. destruct Hk as [b Hb]. exists b. unfold gZ. by apply Hs. }
  destruct i as [q|q|q|q|a t|a t|q|q k|q r v|q r v|].
  - eexists. split; [constructor|]. by apply possible_H.
  - eexists. split; [constructor|]. by apply possible_X.
  - eexists. split; [constructor|]. apply HZ.
  - eexists. split; [constructor|]. done.
  - eexists. split; [constructor|]. destruct Hk as [b Hb]. exists (b ⊕ bitset (mem a b) t). cbn [snd]. rewrite gCX_eq.
    assert (mem a (b ⊕ bitset (mem a b) t) = mem a b) as ->.
    { rewrite mem_sd, mem_bitset. rewrite bool_decide_eq_false_2 by done. by rewrite andb_false_r, xorb_false_r. }
    by rewrite sd_cancel.
  - eexists. split; [constructor|]. destruct Hk as [b Hb]. exists b. cbn [snd]. unfold gCZ. by apply Hs.
  - destruct Hk as [b Hb]. destruct (mem q b) eqn:E.
    + eexists. split; [apply SReset1|]. cbn [snd]. apply possible_X. exists b. unfold proj. by rewrite E.
    + eexists. split; [apply SReset0|]. exists b. cbn [snd]. unfold proj. by rewrite E.
  - destruct Hk as [b Hb]. eexists. split; [apply (SMeas q k (mem q b))|]. exists b. cbn [snd]. unfold proj. by rewrite Bool.eqb_reflx.
  - destruct (decide (cval c r = v)); eexists; (split; [by constructor|]); [by apply possible_X|done].
  - destruct (decide (cval c r = v)); eexists; (split; [by constructor|]); [apply HZ|done].
  - eexists. split; [constructor|]. done.
Qed.
Lemma exec_possible is (k : config R) : (forall i, i ∈ is -> proper i) -> possible k -> exists k', exec is k k' /\ possible k'.
Proof.
  revert k. induction is as [|i is IH]; intros k Hp Hk.
  - exists k. split; [constructor|done].
  - destruct (step_possible i k) as (k1 & Hst & Hk1); [apply Hp; by left|done|].
    destruct (IH k1) as (k2 & He & Hk2); [intros; apply Hp; by right|done|]. exists k2. split; [by eapply EStep|done].
Qed.
End total.

(** Integer amplitudes: enough for every circuit without normalisation. *)
Lemma Z_amp_two (x : Z) : x + x = 0 -> x = 0. Proof. lia. Qed.
Definition ZAmp : Amp := {| amp := Z; a0 := 0; a1 := 1; aadd := Z.add; amul := Z.mul; asub := Z.sub; aopp := Z.opp;
  a_ring := InitialRing.Zth; a_two := Z_amp_two |}.
Lemma ZAmp_dec (x : ZAmp) : Decision (x = a0).
Proof. cbn in *. apply Z.eq_dec. Defined.
Lemma exec_possible_Z is (k : config ZAmp) : (forall i, i ∈ is -> proper i) -> possible k -> exists k', exec is k k' /\ possible k'.
Proof. apply exec_possible. intros x. destruct (ZAmp_dec x); [by left|by right]. Qed.
