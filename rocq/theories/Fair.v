(** Stabilizer states: every measurement is decided or a fair coin (for C60). *)
From Coq Require Import Ring QArith Qcanon.
From Verif Require Export SpecFair Frame P_Quantum.
From stdpp Require Export list.
Open Scope Z_scope.

(** ** Conjugation of Pauli operators *)
Lemma hP_inv q P : hP q (hP q P) = P.
Proof.
  apply pauli_eq; cbn [px pz hP]; apply mem_ext; intros a; rewrite !mem_sd, !mem_bitset;
    rewrite (bool_decide_eq_true_2 (q = q)) by done; destruct (bool_decide (a = q)), (mem a (px P)), (mem a (pz P)), (mem q (px P)), (mem q (pz P)); done.
Qed.
Lemma czP_inv c t P : czP c t (czP c t P) = P.
Proof.
  apply pauli_eq; cbn [px pz czP]; [done|]; apply mem_ext; intros a; rewrite !mem_sd, !mem_bitset;
    destruct (bool_decide (a = c)), (bool_decide (a = t)), (mem a (pz P)), (mem c (px P)), (mem t (px P)); done.
Qed.
Lemma cxP_inv c t P : c <> t -> cxP c t (cxP c t P) = P.
Proof.
  intros Hne. apply pauli_eq; cbn [px pz cxP]; apply mem_ext; intros a; rewrite !mem_sd, !mem_bitset;
    rewrite ?(bool_decide_eq_false_2 (c = t)), ?(bool_decide_eq_false_2 (t = c)) by done; rewrite ?andb_false_r, ?xorb_false_r.
  - destruct (bool_decide (a = t)), (mem a (px P)), (mem c (px P)); done.
  - destruct (bool_decide (a = c)), (mem a (pz P)), (mem t (pz P)); done.
Qed.
Lemma anti_hP q P Q : anti (hP q P) (hP q Q) = anti P Q.
Proof.
  unfold anti. cbn [px pz hP]. rewrite !dot_sd_l, !dot_sd_r, !dot_bitset_l, !dot_bitset_r, ?mem_bitset, ?(bool_decide_eq_true_2 (q = q)) by done.
  destruct (dot (px P) (pz Q)), (dot (pz P) (px Q)), (mem q (px P)), (mem q (pz P)), (mem q (px Q)), (mem q (pz Q)); done.
Qed.
Lemma anti_czP c t P Q : anti (czP c t P) (czP c t Q) = anti P Q.
Proof.
  unfold anti. cbn [px pz czP]. rewrite !dot_sd_l, !dot_sd_r, !dot_bitset_l, !dot_bitset_r.
  destruct (dot (px P) (pz Q)), (dot (pz P) (px Q)), (mem c (px P)), (mem t (px P)), (mem c (px Q)), (mem t (px Q)); done.
Qed.
Lemma anti_cxP c t P Q : c <> t -> anti (cxP c t P) (cxP c t Q) = anti P Q.
Proof.
  intros Hne. unfold anti. cbn [px pz cxP]. rewrite !dot_sd_l, !dot_sd_r, !dot_bitset_l, !dot_bitset_r, ?mem_bitset.
  rewrite ?(bool_decide_eq_false_2 (c = t)), ?(bool_decide_eq_false_2 (t = c)) by done. rewrite ?andb_false_r.
  destruct (dot (px P) (pz Q)), (dot (pz P) (px Q)), (mem c (px P)), (mem t (pz P)), (mem c (px Q)), (mem t (pz Q)); done.
Qed.
Lemma anti_Zq (P : pauli qubit) q : anti P (Zon {[q]}) = mem q (px P).
Proof. by rewrite anti_Zon, dot_singleton_r. Qed.

Section pure.
Context {R : Amp}.
Implicit Types ψ φ χ : state R.
Lemma R_ring_p : ring_theory (@a0 R) a1 aadd amul asub aopp eq.
Proof. exact (a_ring R). Qed.
Add Ring Rring_p : R_ring_p.

(** Every Pauli operator has a definite sign or a completely indefinite one. *)
Definition pure ψ : Prop := forall P, (exists s, stab ψ P s) \/ (exists g s, stab ψ g s /\ anti g P = true).

Lemma stab_ext ψ φ P s : (forall b, ψ b = φ b) -> stab ψ P s -> stab φ P s.
Proof. intros H Hs b. specialize (Hs b). unfold act in *. by rewrite <-!H. Qed.
Lemma pure_ext ψ φ : (forall b, ψ b = φ b) -> pure ψ -> pure φ.
Proof.
  intros H Hp P. destruct (Hp P) as [[s Hs]|(g & s & Hs & Ha)]; [left; exists s|right; exists g, s; split; [|done]]; by eapply stab_ext.
Qed.
Lemma pure_zero : pure zero_state.
Proof.
  intros P. destruct (decide (px P = ∅)) as [E|Hne].
  - left. exists false. intros b. unfold act, zero_state. rewrite E, sd_empty_r. case_bool_decide; [subst; by rewrite dot_empty_r|]. by rewrite sgn_0.
  - apply set_choose_L in Hne as [q Hq]. right. exists (Zon {[q]}), false. split.
    + apply clean_stab. intros b Hb. unfold zero_state. rewrite bool_decide_eq_false_2; [done|]. set_solver.
    + rewrite anti_comm, anti_Zq. by apply mem_true.
Qed.
Lemma pure_conj (f : pauli qubit -> pauli qubit) ψ φ :
  (forall P, f (f P) = P) -> (forall P Q, anti (f P) (f Q) = anti P Q) ->
  (forall P s, stab ψ P s -> exists t, stab φ (f P) t) -> pure ψ -> pure φ.
Proof.
  intros Hi Ha Hs Hp P. destruct (Hp (f P)) as [[s H]|(g & s & H & Hg)].
  - left. rewrite <-(Hi P). by eapply Hs.
  - right. destruct (Hs _ _ H) as [t Ht]. exists (f g), t. split; [done|]. by rewrite <-(Hi P), Ha.
Qed.
Lemma pure_H q ψ : pure ψ -> pure (gH q ψ).
Proof. apply (pure_conj (hP q)); [apply hP_inv|apply anti_hP|]. intros P s H. eexists. by apply stab_H. Qed.
Lemma pure_CX c t ψ : c <> t -> pure ψ -> pure (gCX c t ψ).
Proof. intros Hne. apply (pure_conj (cxP c t)); [intros; by apply cxP_inv|intros; by apply anti_cxP|]. intros P s H. eexists. by apply stab_CX. Qed.
Lemma pure_CZ c t ψ : pure ψ -> pure (gCZ c t ψ).
Proof. apply (pure_conj (czP c t)); [apply czP_inv|apply anti_czP|]. intros P s H. eexists. by apply stab_CZ. Qed.
Lemma pure_X q ψ : pure ψ -> pure (gX q ψ).
Proof. apply (pure_conj id); [done|done|]. intros P s H. eexists. by apply stab_X. Qed.
Lemma pure_Z q ψ : pure ψ -> pure (gZ q ψ).
Proof. apply (pure_conj id); [done|done|]. intros P s H. eexists. by apply stab_Z. Qed.
(** A decided measurement changes nothing or is impossible. *)
Lemma proj_decided q m s ψ : stab ψ (Zon {[q]}) s -> forall b, proj q m ψ b = if Bool.eqb m s then ψ b else a0.
Proof.
  intros Hs b. specialize (Hs b). unfold act in Hs. cbn [px pz Zon] in Hs. rewrite sd_empty_r, dot_singleton_l in Hs. unfold proj.
  assert (H1 : aopp (ψ b) = ψ b -> ψ b = a0) by (intros E; apply (a_two R); rewrite <-E at 1; ring).
  destruct (mem q b), m, s; cbn in *; try done; first [by apply H1|by rewrite H1].
Qed.
Lemma pure_proj q m ψ : pure ψ -> (exists b, proj q m ψ b <> a0) -> pure (proj q m ψ).
Proof.
  intros Hp [b0 Hb0]. destruct (Hp (Zon {[q]})) as [[s Hs]|(g & sg & Hg & Hga)].
  - pose proof (proj_decided q m s ψ Hs) as E. eapply pure_ext; [|exact Hp]. intros b. rewrite E.
    destruct (Bool.eqb m s) eqn:Em; [done|]. by rewrite E, ?Em in Hb0.
  - rewrite anti_Zq in Hga.
    (* a stabilizer times g, if need be *)
    assert (HW : forall h s P, stab ψ h s -> anti h P = true -> (anti g P = false \/ mem q (px h) = false) ->
      exists h' s', stab (proj q m ψ) h' s' /\ anti h' P = true).
    { intros h s P Hh Ha Hor. destruct (mem q (px h)) eqn:Eh.
      - destruct Hor as [Hor|]; [|done]. eexists (pmul h g), _. split; [apply stab_proj; [|by apply stab_mul]|].
        + cbn [px pmul]. rewrite mem_sd, Eh, Hga. done.
        + by rewrite anti_pmul_l, Ha, Hor.
      - exists h, s. split; [|done]. by apply stab_proj. }
    intros P. destruct (mem q (px P)) eqn:EP.
    + right. exists (Zon {[q]}), m. split; [apply stab_proj_Z|]. by rewrite anti_comm, anti_Zq.
    + destruct (Hp P) as [[s Hs]|(h & s & Hh & Hha)]; [left; exists s; by apply stab_proj|].
      destruct (mem q (px h)) eqn:Eh; [|right; eapply (HW h); try done; by right].
      destruct (anti g P) eqn:Eg; [|right; eapply (HW h); try done; by left].
      destruct (Hp (pmul P (Zon {[q]}))) as [[t Ht]|(k & t & Hk & Hka)].
      * left. assert (Hx : mem q (px (pmul P (Zon {[q]}))) = false) by (cbn [px pmul Zon]; by rewrite mem_sd, EP, mem_empty).
        pose proof (stab_proj q m ψ _ _ Hx Ht) as H1.
        pose proof (stab_mul _ _ _ _ _ H1 (stab_proj_Z q m ψ)) as H2. rewrite <-pmul_assoc, pmul_self, pmul_id_r in H2. by eexists.
      * rewrite anti_pmul_r, anti_Zq in Hka. destruct (mem q (px k)) eqn:Ek.
        -- right. eexists (pmul k g), _. split; [apply stab_proj; [|by apply stab_mul]|].
           ++ cbn [px pmul]. by rewrite mem_sd, Ek, Hga.
           ++ rewrite anti_pmul_l, Eg. by destruct (anti k P).
        -- right. exists k, t. split; [by apply stab_proj|]. by rewrite xorb_false_r in Hka.
Qed.

(** ** States that differ by a Pauli operator *)
Definition sim (Q : pauli qubit) ψ φ : Prop := exists s, tied ψ φ Q s.
Lemma sim_refl ψ : sim pid ψ ψ. Proof. exists false. apply tied_id. Qed.
Lemma sim_trans P Q ψ φ χ : sim P ψ φ -> sim Q φ χ -> sim (pmul P Q) ψ χ.
Proof.
  intros [s Hs] [t Ht]. exists (xorb (xorb s t) (dot (pz P) (px Q))). intros b. cbn [px pz pmul].
  rewrite (sd_comm (px P)), sd_assoc, Hs, Ht, <-sgn_xor. f_equal. rewrite dot_sd_l, dot_sd_r.
  destruct s, t, (dot (pz P) b), (dot (pz Q) b), (dot (pz P) (px Q)); done.
Qed.
Lemma stab_sim ψ g s : stab ψ g s -> sim g ψ ψ.
Proof. intros H. exists s. intros b. by apply stab_iff. Qed.
Lemma sim_stab Q ψ φ P s : sim Q ψ φ -> stab ψ P s -> exists t, stab φ P t.
Proof.
  intros [u Hu] Hs. exists (xorb s (anti P Q)). rewrite stab_iff in Hs |- *. intros b.
  assert (H1 := Hu (b ⊕ px P)). assert (H2 := Hu b). assert (H3 := Hs (b ⊕ px Q)).
  replace (b ⊕ px P ⊕ px Q) with (b ⊕ px Q ⊕ px P) in H1 by (by rewrite <-!sd_assoc, (sd_comm (px Q))).
  rewrite H3, H2 in H1. rewrite <-!sgn_xor in H1.
  apply (f_equal (sgn (xorb u (dot (pz Q) (b ⊕ px P))))) in H1. rewrite sgn_inv in H1. rewrite <-H1, <-!sgn_xor. f_equal.
  unfold anti. rewrite !dot_sd_r, (dot_comm (pz Q) (px P)). destruct s, u, (dot (pz Q) b), (dot (pz P) b), (dot (px P) (pz Q)), (dot (pz P) (px Q)); done.
Qed.
Lemma sim_possible Q ψ φ : sim Q ψ φ -> (exists b, ψ b <> a0) -> exists b, φ b <> a0.
Proof.
  intros [s Hs] [b Hb]. exists (b ⊕ px Q). intros E. apply Hb. specialize (Hs (b ⊕ px Q)). rewrite sd_cancel, E in Hs. rewrite Hs. by apply sgn_0.
Qed.
Lemma sim_possible_r Q ψ φ : sim Q ψ φ -> (exists b, φ b <> a0) -> exists b, ψ b <> a0.
Proof. intros [s Hs] [b Hb]. exists (b ⊕ px Q). rewrite Hs. intros E. by apply Hb, (sgn_eq_0 (xorb s (dot (pz Q) b))). Qed.
Lemma sim_X q ψ : sim (Xon {[q]}) (gX q ψ) ψ.
Proof. exists false. intros b. unfold gX. cbn [px pz Xon]. rewrite sd_cancel, dot_empty_l. done. Qed.
Lemma sim_X' q ψ : sim (Xon {[q]}) ψ (gX q ψ).
Proof. exists false. intros b. unfold gX. cbn [px pz Xon]. rewrite dot_empty_l. done. Qed.
Lemma sim_Z q ψ : sim (Zon {[q]}) (gZ q ψ) ψ.
Proof. exists false. intros b. unfold gZ. cbn [px pz Zon]. rewrite sd_empty_r, dot_singleton_l, xorb_false_l. done. Qed.
Lemma sim_Z' q ψ : sim (Zon {[q]}) ψ (gZ q ψ).
Proof. exists false. intros b. unfold gZ. cbn [px pz Zon]. rewrite sd_empty_r, dot_singleton_l, xorb_false_l, sgn_inv. done. Qed.
Lemma sim_proj q m m' Q ψ φ : sim Q ψ φ -> m = xorb m' (mem q (px Q)) -> sim Q (proj q m ψ) (proj q m' φ).
Proof. intros [s Hs] ->. exists s. by apply tied_proj. Qed.
Lemma sim_reset q m m' Q ψ φ : sim Q ψ φ -> m = xorb m' (mem q (px Q)) -> sim (dropP q Q) (reset_to q m ψ) (reset_to q m' φ).
Proof. intros [s Hs] ->. eexists. by apply tied_reset. Qed.

(** Two states differing by a Pauli operator, with possible outcomes of the same measurement: the
    operator can be chosen to take one outcome to the other, and the choice works for every pair of
    states that is related in the same way. *)
Lemma adjust q m1 m2 Q ψ1 ψ2 : pure ψ1 -> sim Q ψ1 ψ2 ->
  (exists b, proj q m1 ψ1 b <> a0) -> (exists b, proj q m2 ψ2 b <> a0) ->
  exists Q', sim Q' ψ1 ψ2 /\ m1 = xorb m2 (mem q (px Q')) /\
    forall P χ1 χ2, sim P ψ1 χ1 -> sim Q χ1 χ2 -> sim Q' χ1 χ2.
Proof.
  intros Hp HQ H1 H2. destruct (Hp (Zon {[q]})) as [[s Hs]|(g & s & Hg & Ha)].
  - exists Q. split_and!; [done| |done].
    assert (Hm : forall m, (exists b, proj q m ψ1 b <> a0) -> m = s).
    { intros m [b Hb]. rewrite (proj_decided q m s ψ1 Hs) in Hb. destruct m, s; done. }
    rewrite (Hm m1 H1). symmetry. apply Hm. eapply sim_possible_r; [|exact H2]. by eapply sim_proj.
  - rewrite anti_Zq in Ha. set (e := xorb (xorb m1 m2) (mem q (px Q))).
    exists (if e then pmul g Q else Q). split_and!.
    + destruct e; [|done]. eapply sim_trans; [by eapply stab_sim|done].
    + unfold e. destruct m1, m2, (mem q (px Q)) eqn:EQ; cbn; rewrite ?mem_sd, ?EQ, ?Ha; done.
    + intros P χ1 χ2 HP Hχ. destruct e; [|done]. destruct (sim_stab _ _ _ _ _ HP Hg) as [t Ht]. eapply sim_trans; [by eapply stab_sim|done].
Qed.
End pure.
