(** Propagation of Pauli eigen-equations through circuits. *)
From Coq Require Import Ring.
From Verif Require Export QSem PauliFacts.
From stdpp Require Export list.
Open Scope Z_scope.

Section facts.
Context {R : Amp}.
Implicit Types ψ : state R.
Lemma R_ring : ring_theory (@a0 R) a1 aadd amul asub aopp eq.
Proof. exact (a_ring R). Qed.
Add Ring Rring : R_ring.

Lemma sgn_xor s t (x : R) : sgn (xorb s t) x = sgn s (sgn t x).
Proof. destruct s, t; cbn; try done. ring. Qed.
Lemma sgn_add s (x y : R) : sgn s (aadd x y) = aadd (sgn s x) (sgn s y).
Proof. destruct s; cbn; [ring|done]. Qed.
Lemma sgn_0 s : sgn s (a0 : R) = a0.
Proof. destruct s; cbn; [ring|done]. Qed.
Lemma sgn_inv s (x : R) : sgn s (sgn s x) = x.
Proof. rewrite <-sgn_xor, xorb_nilpotent. done. Qed.
Lemma sgn_eq_0 s (x : R) : sgn s x = a0 -> x = a0.
Proof. intros Hx. by rewrite <-(sgn_inv s x), Hx, sgn_0. Qed.

(** [P ψ = (-1)^s ψ], where P stands for the operator Z^(pz P) X^(px P). *)
Definition act (P : pauli qubit) ψ : state R := fun b => sgn (dot (pz P) b) (ψ (b ⊕ px P)).
Definition stab ψ (P : pauli qubit) (s : bool) : Prop := forall b, act P ψ b = sgn s (ψ b).

Lemma stab_iff ψ P s : stab ψ P s <-> forall b, ψ (b ⊕ px P) = sgn (xorb s (dot (pz P) b)) (ψ b).
Proof.
  unfold stab, act. split; intros Hs b; specialize (Hs b).
  - rewrite xorb_comm, sgn_xor, <-Hs. by rewrite sgn_inv.
  - rewrite Hs, xorb_comm, sgn_xor. by rewrite sgn_inv.
Qed.
Lemma stab_unique ψ P s t : stab ψ P s -> stab ψ P t -> (exists b, ψ b <> a0) -> s = t.
Proof.
  intros Hs Ht [b Hb]. rewrite stab_iff in Hs, Ht. specialize (Hs b). specialize (Ht b).
  rewrite Hs in Ht. destruct s, t; try done; exfalso; apply Hb, (a_two R);
    destruct (dot (pz P) b); cbn in Ht.
  - rewrite Ht at 1. ring.
  - rewrite <-Ht at 1. ring.
  - rewrite <-Ht at 1. ring.
  - rewrite Ht at 1. ring.
Qed.
Lemma stab_mul ψ P Q s t : stab ψ P s -> stab ψ Q t ->
  stab ψ (pmul P Q) (xorb (xorb s t) (dot (px P) (pz Q))).
Proof.
  rewrite !stab_iff. intros HP HQ b. cbn [px pz pmul].
  rewrite sd_assoc, HQ, HP, <-sgn_xor. f_equal. rewrite dot_sd_l, dot_sd_r, (dot_comm (pz Q) (px P)).
  destruct s, t, (dot (px P) (pz Q)), (dot (pz Q) b), (dot (pz P) b); done.
Qed.
Lemma stab_pid ψ : stab ψ pid false.
Proof. intros b. unfold act. cbn [px pz pid]. by rewrite dot_empty_l, sd_empty_r. Qed.
Lemma clean_stab q ψ : clean q ψ <-> stab ψ (Zon {[q]}) false.
Proof.
  unfold clean. rewrite stab_iff. cbn [px pz Zon]. setoid_rewrite sd_empty_r. setoid_rewrite dot_singleton_l.
  split; intros Hc b.
  - destruct (mem q b) eqn:E; cbn; [|done]. apply mem_true in E. rewrite Hc by done. ring.
  - intros Hb. specialize (Hc b). apply mem_true in Hb. rewrite Hb in Hc. cbn in Hc. apply (a_two R). rewrite Hc at 1. ring.
Qed.

(** ** Gates *)
Definition bitset (s : bool) (q : qubit) : gset qubit := if s then {[q]} else ∅.
Lemma mem_bitset s q a : mem a (bitset s q) = s && bool_decide (a = q).
Proof. destruct s; cbn; [apply mem_singleton|apply mem_empty]. Qed.
Lemma dot_bitset_r s q b : dot b (bitset s q) = s && mem q b.
Proof. destruct s; cbn; [apply dot_singleton_r|apply dot_empty_r]. Qed.
Lemma dot_bitset_l s q b : dot (bitset s q) b = s && mem q b.
Proof. rewrite dot_comm. apply dot_bitset_r. Qed.
Lemma bitset_xor s t q : bitset s q ⊕ bitset t q = bitset (xorb s t) q.
Proof. destruct s, t; cbn; by rewrite ?sd_nilp, ?sd_empty_l, ?sd_empty_r. Qed.

Lemma gCX_eq c t ψ b : gCX c t ψ b = ψ (b ⊕ bitset (mem c b) t).
Proof. unfold gCX. destruct (mem c b); cbn; [done|by rewrite sd_empty_r]. Qed.

Definition cxP (c t : qubit) (P : pauli qubit) : pauli qubit :=
  Pauli (px P ⊕ bitset (mem c (px P)) t) (pz P ⊕ bitset (mem t (pz P)) c).
Definition hP (q : qubit) (P : pauli qubit) : pauli qubit :=
  Pauli (px P ⊕ bitset (xorb (mem q (px P)) (mem q (pz P))) q)
        (pz P ⊕ bitset (xorb (mem q (px P)) (mem q (pz P))) q).
Definition czP (c t : qubit) (P : pauli qubit) : pauli qubit :=
  Pauli (px P) (pz P ⊕ bitset (mem c (px P)) t ⊕ bitset (mem t (px P)) c).

Lemma stab_X q ψ P s : stab ψ P s -> stab (gX q ψ) P (xorb s (mem q (pz P))).
Proof.
  rewrite !stab_iff. intros Hs b. unfold gX.
  rewrite <-sd_assoc, (sd_comm (px P)), sd_assoc, Hs, dot_sd_r, dot_singleton_r. f_equal.
  by rewrite xorb_assoc, (xorb_comm (dot _ _)).
Qed.
Lemma stab_Z q ψ P s : stab ψ P s -> stab (gZ q ψ) P (xorb s (mem q (px P))).
Proof.
  rewrite !stab_iff. intros Hs b. unfold gZ. rewrite mem_sd, Hs, <-!sgn_xor. f_equal.
  destruct (mem q b), (mem q (px P)), s, (dot (pz P) b); done.
Qed.
Lemma stab_CX c t ψ P s : c <> t -> stab ψ P s -> stab (gCX c t ψ) (cxP c t P) s.
Proof.
  intros Hne. rewrite !stab_iff. intros Hs b. rewrite !gCX_eq. cbn [px pz cxP].
  rewrite !mem_sd, mem_bitset, bool_decide_eq_false_2, andb_false_r, xorb_false_r by done.
  rewrite <-bitset_xor.
  transitivity (ψ (b ⊕ bitset (mem c b) t ⊕ px P)).
  - f_equal. apply mem_ext. intros a. rewrite !mem_sd.
    destruct (mem a b), (mem a (px P)), (mem a (bitset (mem c (px P)) t)), (mem a (bitset (mem c b) t)); done.
  - rewrite Hs. f_equal. rewrite dot_sd_r, dot_sd_l, dot_bitset_r, dot_bitset_l.
    by rewrite (andb_comm (mem c b)).
Qed.
Lemma stab_CZ c t ψ P s : stab ψ P s ->
  stab (gCZ c t ψ) (czP c t P) (xorb s (mem c (px P) && mem t (px P))).
Proof.
  rewrite !stab_iff. intros Hs b. unfold gCZ. cbn [px pz czP].
  rewrite !mem_sd, Hs, <-!sgn_xor. f_equal. rewrite !dot_sd_l, !dot_bitset_l.
  destruct (mem c b), (mem t b), (mem c (px P)), (mem t (px P)), s, (dot (pz P) b); done.
Qed.
Lemma gH_eq q ψ b : gH q ψ b = aadd (ψ (b ⊕ bitset (mem q b) q)) (sgn (mem q b) (ψ (b ⊕ bitset (negb (mem q b)) q))).
Proof.
  unfold gH. f_equal; [|f_equal]; f_equal; apply mem_ext; intros a; rewrite mem_sd, mem_bitset;
    destruct (decide (a = q)) as [->|Hne].
  - rewrite (bool_decide_eq_true_2 (q = q)) by done. rewrite andb_true_r, xorb_nilpotent. apply mem_false. set_solver.
  - rewrite (bool_decide_eq_false_2 (a = q)) by done. rewrite andb_false_r, xorb_false_r.
    destruct (mem a b) eqn:E; [apply mem_true in E; apply mem_true|apply mem_false in E; apply mem_false]; set_solver.
  - rewrite (bool_decide_eq_true_2 (q = q)) by done. rewrite andb_true_r.
    replace (xorb (mem q b) (negb (mem q b))) with true by (by destruct (mem q b)). apply mem_true. set_solver.
  - rewrite (bool_decide_eq_false_2 (a = q)) by done. rewrite andb_false_r, xorb_false_r.
    destruct (mem a b) eqn:E; [apply mem_true in E; apply mem_true|apply mem_false in E; apply mem_false]; set_solver.
Qed.
Lemma stab_H q ψ P s : stab ψ P s -> stab (gH q ψ) (hP q P) (xorb s (mem q (px P) && mem q (pz P))).
Proof.
  rewrite !stab_iff. intros Hs b. rewrite !gH_eq. cbn [px pz hP].
  rewrite !mem_sd, !mem_bitset, (bool_decide_eq_true_2 (q = q)), andb_true_r by done.
  set (xq := mem q (px P)). set (zq := mem q (pz P)). set (bq := mem q b).
  set (b0 := b ⊕ bitset bq q).
  assert (H0 : forall u, ψ (b0 ⊕ bitset u q ⊕ px P) = sgn (xorb s (xorb (dot (pz P) b0) (u && zq))) (ψ (b0 ⊕ bitset u q))).
  { intros u. rewrite Hs, dot_sd_r, dot_bitset_r. done. }
  assert (E1 : b ⊕ (px P ⊕ bitset (xorb xq zq) q) ⊕ bitset (xorb bq (xorb xq (xorb xq zq))) q
               = b0 ⊕ bitset xq q ⊕ px P).
  { unfold b0. apply mem_ext. intros a. rewrite !mem_sd, !mem_bitset.
    destruct (mem a b), (mem a (px P)), (bool_decide (a = q)), xq, zq, bq; done. }
  assert (E2 : b ⊕ (px P ⊕ bitset (xorb xq zq) q) ⊕ bitset (negb (xorb bq (xorb xq (xorb xq zq)))) q
               = b0 ⊕ bitset (negb xq) q ⊕ px P).
  { unfold b0. apply mem_ext. intros a. rewrite !mem_sd, !mem_bitset.
    destruct (mem a b), (mem a (px P)), (bool_decide (a = q)), xq, zq, bq; done. }
  rewrite E1, E2, !H0.
  assert (E3 : b ⊕ bitset (negb bq) q = b0 ⊕ bitset true q).
  { unfold b0. rewrite <-sd_assoc, bitset_xor. by destruct bq. }
  rewrite E3. replace (ψ b0) with (ψ (b0 ⊕ bitset false q)) by (cbn; by rewrite sd_empty_r).
  assert (E4 : dot (pz P ⊕ bitset (xorb xq zq) q) b = xorb (dot (pz P) b0) (bq && xq)).
  { unfold b0. rewrite dot_sd_l, dot_sd_r, dot_bitset_l, dot_bitset_r. fold zq bq.
    destruct (dot (pz P) b), xq, zq, bq; done. }
  rewrite E4. destruct s, (dot (pz P) b0), xq, zq, bq; cbn; rewrite ?sd_empty_r; ring.
Qed.
Lemma stab_proj q m ψ P s : mem q (px P) = false -> stab ψ P s -> stab (proj q m ψ) P s.
Proof.
  intros Hq. rewrite !stab_iff. intros Hs b. unfold proj. rewrite mem_sd, Hq, xorb_false_r.
  destruct (Bool.eqb (mem q b) m); [apply Hs|by rewrite sgn_0].
Qed.
Lemma stab_proj_Z q m ψ : stab (proj q m ψ) (Zon {[q]}) m.
Proof.
  rewrite stab_iff. cbn [px pz Zon]. intros b. rewrite sd_empty_r, dot_singleton_l. unfold proj.
  destruct (mem q b), m; cbn; try done; ring.
Qed.

(** ** Circuits *)
(** Effect of an instruction on a Pauli operator, whatever the outcome: None when the
    operator does not survive, or its sign is conditional on a classical value. *)
Definition prop1 (i : instr) (P : pauli qubit) : option (pauli qubit * bool) :=
  match i with
  | IH q => Some (hP q P, mem q (px P) && mem q (pz P))
  | IX q => Some (P, mem q (pz P))
  | IZ q => Some (P, mem q (px P))
  | IId _ | IBarrier => Some (P, false)
  | ICX c t => if bool_decide (c = t) then None else Some (cxP c t P, false)
  | ICZ c t => Some (czP c t P, mem c (px P) && mem t (px P))
  | IMeas q _ => if mem q (px P) then None else Some (P, false)
  | IReset q => if mem q (px P) || mem q (pz P) then None else Some (P, false)
  | IXIf q _ _ => if mem q (pz P) then None else Some (P, false)
  | IZIf q _ _ => if mem q (px P) then None else Some (P, false)
  end.
Fixpoint prop (is : list instr) (P : pauli qubit) : option (pauli qubit * bool) :=
  match is with
  | [] => Some (P, false)
  | i :: is' => match prop1 i P with
                | Some (P', s) => match prop is' P' with Some (P'', t) => Some (P'', xorb s t) | None => None end
                | None => None end
  end.
Lemma prop1_sound i P P' s (k k' : config R) t : prop1 i P = Some (P', s) -> step i k k' ->
  stab k.2 P t -> stab k'.2 P' (xorb t s).
Proof.
  intros Hp Hst Hs. destruct Hst; cbn in Hp, Hs |- *.
  - injection Hp as <- <-. by apply stab_H.
  - injection Hp as <- <-. by apply stab_X.
  - injection Hp as <- <-. by apply stab_Z.
  - injection Hp as <- <-. by rewrite xorb_false_r.
  - injection Hp as <- <-. by rewrite xorb_false_r.
  - case_bool_decide; [done|]. injection Hp as <- <-. rewrite xorb_false_r. by apply stab_CX.
  - injection Hp as <- <-. by apply stab_CZ.
  - destruct (mem q (px P)) eqn:E; [done|]. injection Hp as <- <-. rewrite xorb_false_r. by apply stab_proj.
  - destruct (mem q (px P)) eqn:E, (mem q (pz P)); try done. injection Hp as <- <-. rewrite xorb_false_r. by apply stab_proj.
  - destruct (mem q (px P)) eqn:E, (mem q (pz P)) eqn:E2; try done. injection Hp as <- <-. rewrite <-E2.
    by apply stab_X, stab_proj.
  - destruct (mem q (pz P)) eqn:E; [done|]. injection Hp as <- <-. rewrite <-E. by apply stab_X.
  - destruct (mem q (pz P)) eqn:E; [done|]. injection Hp as <- <-. by rewrite xorb_false_r.
  - destruct (mem q (px P)) eqn:E; [done|]. injection Hp as <- <-. rewrite <-E. by apply stab_Z.
  - destruct (mem q (px P)) eqn:E; [done|]. injection Hp as <- <-. by rewrite xorb_false_r.
Qed.
Lemma prop_sound is P P' s (k k' : config R) t : prop is P = Some (P', s) -> exec is k k' ->
  stab k.2 P t -> stab k'.2 P' (xorb t s).
Proof.
  intros Hp He. revert P P' s t Hp. induction He as [k|i is k k1 k2 Hst He IH]; intros P P' s t Hp Hs.
  - injection Hp as <- <-. by rewrite xorb_false_r.
  - cbn in Hp. destruct (prop1 i P) as [[P1 s1]|] eqn:E1; [|done]. destruct (prop is P1) as [[P2 s2]|] eqn:E2; [|done].
    injection Hp as <- <-. rewrite <-xorb_assoc. eapply IH; [done|]. by eapply prop1_sound.
Qed.
Lemma prop_app is1 is2 P P1 s1 P2 s2 : prop is1 P = Some (P1, s1) -> prop is2 P1 = Some (P2, s2) ->
  prop (is1 ++ is2) P = Some (P2, xorb s1 s2).
Proof.
  revert P P1 s1. induction is1 as [|i is1 IH]; intros P P1 s1 H1 H2.
  - injection H1 as <- <-. rewrite xorb_false_l. exact H2.
  - cbn in H1 |- *. destruct (prop1 i P) as [[P' s]|]; [|done]. destruct (prop is1 P') as [[P'' s']|] eqn:E; [|done].
    injection H1 as <- <-. rewrite (IH _ _ _ E H2). by rewrite xorb_assoc.
Qed.
Lemma prop_mjoin (L : list (list instr)) P : (forall is, is ∈ L -> prop is P = Some (P, false)) -> prop (mjoin L) P = Some (P, false).
Proof.
  induction L as [|is L IH]; intros HL; [done|]. cbn. change false with (xorb false false).
  eapply prop_app; [apply HL; by left|]. apply IH. intros; apply HL; by right.
Qed.
Lemma prop_keep is P : (forall i, i ∈ is -> prop1 i P = Some (P, false)) -> prop is P = Some (P, false).
Proof.
  induction is as [|i is IH]; intros Hi; [done|]. cbn. rewrite Hi by (by left). rewrite IH; [done|]. intros; apply Hi; by right.
Qed.
Lemma exec_app is1 is2 (k k' : config R) : exec (is1 ++ is2) k k' <-> exists k1, exec is1 k k1 /\ exec is2 k1 k'.
Proof.
  split.
  - revert k. induction is1 as [|i is1 IH]; intros k He.
    + exists k. split; [constructor|done].
    + inversion He; subst. destruct (IH _ ltac:(eassumption)) as (k1 & ? & ?). exists k1. split; [by econstructor|done].
  - intros (k1 & H1 & H2). induction H1; [done|]. cbn. econstructor; [eassumption|]. by apply IHexec.
Qed.
(** Measurements record eigenvalues. *)
Definition writes (i : instr) : list clbit := match i with IMeas _ k => [k] | _ => [] end.
Lemma exec_frame is (k k' : config R) b : exec is k k' -> (forall i, i ∈ is -> b ∉ writes i) -> k'.1 b = k.1 b.
Proof.
  induction 1 as [k|i is k k1 k2 Hst He IH]; intros Hw; [done|].
  rewrite IH by (intros; apply Hw; by right).
  specialize (Hw i ltac:(by left)). destruct Hst; try done. cbn in Hw |- *. unfold cupd. rewrite bool_decide_eq_false_2; [done|].
  set_solver.
Qed.
(** After a list of measurements with distinct classical bits every measured qubit has the
    recorded value. *)
Lemma exec_meas (l : list (qubit * clbit)) (k k' : config R) :
  exec ((fun qb => IMeas qb.1 qb.2) <$> l) k k' -> NoDup l.*2 ->
  forall q b, (q, b) ∈ l -> stab k'.2 (Zon {[q]}) (k'.1 b).
Proof.
  revert k. induction l as [|[q0 b0] l IH]; intros k He Hnd q b Hin; [by apply elem_of_nil in Hin|].
  rewrite fmap_cons in He. cbn in Hnd. apply NoDup_cons in Hnd as [Hb0 Hnd]. inversion He as [|? ? ? k1 ? Hst He']; subst.
  apply elem_of_cons in Hin as [[= -> ->]|Hin]; [|by eapply IH].
  assert (Hk1 : stab k1.2 (Zon {[q0]}) (k1.1 b0)).
  { inversion Hst; subst. cbn. unfold cupd. rewrite bool_decide_eq_true_2 by done. apply stab_proj_Z. }
  assert (k'.1 b0 = k1.1 b0) as ->.
  { eapply exec_frame; [done|]. intros i Hi. apply elem_of_list_fmap in Hi as ([q' b'] & -> & Hi). cbn.
    intros ->%elem_of_list_singleton. apply Hb0. apply elem_of_list_fmap. by exists (q', b'). }
  rewrite <-(xorb_false_r (k1.1 b0)). eapply prop_sound; [|done|done].
  apply prop_keep. intros i Hi. apply elem_of_list_fmap in Hi as ([q' b'] & -> & Hi). cbn. by rewrite mem_empty.
Qed.
Lemma exec_resets (l : list qubit) (k k' : config R) : exec (IReset <$> l) k k' -> forall q, q ∈ l -> stab k'.2 (Zon {[q]}) false.
Proof.
  revert k. induction l as [|q0 l IH]; intros k He q Hin; [by apply elem_of_nil in Hin|].
  rewrite fmap_cons in He. inversion He as [|? ? ? k1 ? Hst He']; subst.
  destruct (decide (q ∈ l)) as [Hl|Hl]; [by eapply IH|].
  apply elem_of_cons in Hin as [->|Hin]; [|done].
  assert (Hk1 : stab k1.2 (Zon {[q0]}) false).
  { inversion Hst; subst; cbn.
    - apply stab_proj_Z.
    - pose proof (stab_X q0 _ _ _ (stab_proj_Z q0 true ψ)) as Hx. cbn [pz Zon] in Hx. rewrite mem_singleton, bool_decide_eq_true_2 in Hx; done. }
  change false with (xorb false false). eapply prop_sound; [|done|exact Hk1].
  apply prop_keep. intros i Hi. apply elem_of_list_fmap in Hi as (q' & -> & Hi). cbn.
  rewrite mem_empty, mem_singleton, bool_decide_eq_false_2; [done|]. intros ->. done.
Qed.
End facts.
