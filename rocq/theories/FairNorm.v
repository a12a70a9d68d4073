(** Squared norms of the branches of a circuit (for C60). *)
From Verif Require Export FairRun.
From stdpp Require Export list.
Open Scope Z_scope.

(** ** Sums *)
Lemma zsum_cons x l : zsum (x :: l) = x + zsum l. Proof. done. Qed.
Lemma zsum_app l l' : zsum (l ++ l') = zsum l + zsum l'.
Proof. induction l as [|x l IHl]; [done|]. cbn. fold (zsum (l ++ l')) (zsum l). lia. Qed.
Lemma zsum_perm l l' : l ≡ₚ l' -> zsum l = zsum l'.
Proof. unfold zsum. induction 1; cbn; lia. Qed.
Lemma zsum_ext {A} (f g : A -> Z) l : (forall x, x ∈ l -> f x = g x) -> zsum (f <$> l) = zsum (g <$> l).
Proof. intros H. f_equal. apply list_fmap_ext. intros i x Hx. by eapply H, elem_of_list_lookup_2. Qed.
Lemma zsum_plus {A} (f g : A -> Z) l : zsum ((fun x => f x + g x) <$> l) = zsum (f <$> l) + zsum (g <$> l).
Proof. induction l as [|x l IHl]; [done|]. rewrite !fmap_cons, !zsum_cons, IHl. lia. Qed.
Lemma zsum_scale {A} c (f : A -> Z) l : zsum ((fun x => c * f x) <$> l) = c * zsum (f <$> l).
Proof. induction l as [|x l IHl]; [cbn; lia|]. rewrite !fmap_cons, !zsum_cons, IHl. lia. Qed.
Lemma zsum_nonneg l : (forall x, x ∈ l -> 0 <= x) -> 0 <= zsum l.
Proof. induction l as [|x l IHl]; intros H; cbn; [done|]. fold (zsum l). pose proof (H x ltac:(by left)). pose proof (IHl ltac:(intros; apply H; by right)). lia. Qed.
Lemma zsum_pos l x : (forall x, x ∈ l -> 0 <= x) -> x ∈ l -> x <= zsum l.
Proof.
  intros Hn Hx. apply elem_of_Permutation in Hx as [l' Hl]. rewrite (zsum_perm _ _ Hl), zsum_cons.
  assert (0 <= zsum l'); [|lia]. apply zsum_nonneg. intros y Hy. apply Hn. rewrite Hl. by right.
Qed.
Lemma zsum_zero {A} (f : A -> Z) l : (forall x, x ∈ l -> f x = 0) -> zsum (f <$> l) = 0.
Proof. intros H. rewrite (zsum_ext f (fun _ => 0)) by done. clear. induction l as [|x l IHl]; [done|]. rewrite fmap_cons, zsum_cons, IHl. done. Qed.

(** ** Basis states *)
Section sets.
Implicit Types (b x : gset qubit) (U : list qubit).
Lemma elem_of_subsets U b : b ∈ subsets U <-> b ⊆ list_to_set U.
Proof.
  revert b. induction U as [|q U IHU]; intros b; cbn [subsets list_to_set].
  - rewrite elem_of_list_singleton. set_solver.
  - rewrite elem_of_app, elem_of_list_fmap. setoid_rewrite IHU. split.
    + intros [H|(b' & -> & H)]; set_solver.
    + intros H. destruct (decide (q ∈ b)) as [Hq|Hq].
      * right. exists (b ∖ {[q]}). split; [|set_solver]. apply set_eq. intros y. rewrite elem_of_union, elem_of_difference, elem_of_singleton. destruct (decide (y = q)); naive_solver.
      * left. set_solver.
Qed.
Lemma NoDup_subsets U : NoDup U -> NoDup (subsets U).
Proof.
  induction 1 as [|q U Hq HU IHU]; cbn [subsets]; [apply NoDup_singleton|]. apply NoDup_app. split_and!; [done| |].
  - intros b Hb Hb'. apply elem_of_list_fmap in Hb' as (b' & -> & _). apply elem_of_subsets in Hb. set_solver.
  - apply NoDup_fmap_2_strong; [|done]. intros b b' Hb Hb' E. rewrite elem_of_subsets in Hb, Hb'.
    assert (q ∉ b) by set_solver. assert (q ∉ b') by set_solver. set_solver.
Qed.
Lemma subsets_perm U (f : gset qubit -> gset qubit) : NoDup U -> (forall b b', f b = f b' -> b = b') ->
  (forall b, b ⊆ list_to_set U -> f b ⊆ list_to_set U) -> f <$> subsets U ≡ₚ subsets U.
Proof.
  intros HU Hinj Hin. apply submseteq_Permutation_length_le; [by rewrite fmap_length|].
  apply NoDup_submseteq; [apply NoDup_fmap_2; [done|by apply NoDup_subsets]|].
  intros b Hb. apply elem_of_list_fmap in Hb as (b' & -> & Hb'). rewrite elem_of_subsets in *. by apply Hin.
Qed.
Lemma sum_shift U x (f : gset qubit -> Z) : NoDup U -> x ⊆ list_to_set U ->
  zsum ((fun b => f (b ⊕ x)) <$> subsets U) = zsum (f <$> subsets U).
Proof.
  intros HU Hx. assert (HP : (fun b : gset qubit => b ⊕ x) <$> subsets U ≡ₚ subsets U).
  { apply subsets_perm; [done|intros b b' E; by eapply sd_inj_r|]. intros b Hb y. rewrite elem_of_sd. set_solver. }
  rewrite <-(zsum_perm _ _ (fmap_Permutation f _ _ HP)).
  rewrite <-list_fmap_compose. done.
Qed.
End sets.

(** ** Norms *)
Section norms.
Context (U : list qubit) (HU : NoDup U).
Implicit Types ψ φ : state ZAmp.
Lemma norm2_ext ψ φ : (forall b, ψ b * ψ b = φ b * φ b) -> norm2 U ψ = norm2 U φ.
Proof. intros H. apply zsum_ext. intros b _. apply H. Qed.
Lemma norm2_nonneg ψ : 0 <= norm2 U ψ.
Proof. apply zsum_nonneg. intros x (b & -> & _)%elem_of_list_fmap. nia. Qed.
Lemma sgn_sq s (x : ZAmp) : (sgn s x : Z) * sgn s x = x * x.
Proof. destruct s; cbn; [|done]. lia. Qed.
Lemma norm2_shift ψ (x : gset qubit) : x ⊆ list_to_set U -> norm2 U (fun b => ψ (b ⊕ x)) = norm2 U ψ.
Proof. intros Hx. unfold norm2. exact (sum_shift U x (fun b => ψ b * ψ b) HU Hx). Qed.
Lemma single_in q : q ∈ U -> ({[q]} : gset qubit) ⊆ list_to_set U.
Proof. set_solver. Qed.
Lemma norm2_X q ψ : q ∈ U -> norm2 U (gX q ψ) = norm2 U ψ.
Proof. intros Hq. apply norm2_shift. by apply single_in. Qed.
Lemma norm2_Z q ψ : norm2 U (gZ q ψ) = norm2 U ψ.
Proof. apply norm2_ext. intros b. apply sgn_sq. Qed.
Lemma norm2_CZ c t ψ : norm2 U (gCZ c t ψ) = norm2 U ψ.
Proof. apply norm2_ext. intros b. apply sgn_sq. Qed.
Lemma norm2_CX c t ψ : c <> t -> t ∈ U -> norm2 U (gCX c t ψ) = norm2 U ψ.
Proof.
  intros Hne Ht. unfold norm2. set (f := fun b : gset qubit => b ⊕ bitset (mem c b) t).
  assert (Hmem : forall b, mem c (f b) = mem c b).
  { intros b. unfold f. rewrite mem_sd, mem_bitset, bool_decide_eq_false_2 by done. by rewrite andb_false_r, xorb_false_r. }
  assert (HP : f <$> subsets U ≡ₚ subsets U).
  { apply subsets_perm; [done| |].
    - intros b b' E. assert (Em : mem c b = mem c b') by (by rewrite <-(Hmem b), <-(Hmem b'), E). unfold f in E. rewrite Em in E. by eapply sd_inj_r.
    - intros b Hb y. unfold f. rewrite elem_of_sd. destruct (mem c b); cbn; set_solver. }
  rewrite <-(zsum_perm _ _ (fmap_Permutation (fun b => ψ b * ψ b) _ _ HP)).
  rewrite <-list_fmap_compose. apply zsum_ext. intros b _. unfold compose. by rewrite gCX_eq.
Qed.
Lemma norm2_H q ψ : q ∈ U -> norm2 U (gH q ψ) = 2 * norm2 U ψ.
Proof.
  intros Hq. pose proof (sum_shift U {[q]} (fun b => gH q ψ b * gH q ψ b) HU (single_in q Hq)) as E1.
  pose proof (sum_shift U {[q]} (fun b => ψ b * ψ b) HU (single_in q Hq)) as E2. fold (norm2 U ψ) in E2. fold (norm2 U (gH q ψ)) in E1.
  pose proof (zsum_plus (fun b => gH q ψ b * gH q ψ b) (fun b => gH q ψ (b ⊕ {[q]}) * gH q ψ (b ⊕ {[q]})) (subsets U)) as E3.
  fold (norm2 U (gH q ψ)) in E3.
  rewrite (zsum_ext _ (fun b => 2 * (ψ b * ψ b + ψ (b ⊕ {[q]}) * ψ (b ⊕ {[q]})))), zsum_scale, zsum_plus in E3; [fold (norm2 U ψ) in E3; cbn beta in *; lia|].
  intros b _. rewrite !gH_eq, !mem_sd, mem_singleton, (bool_decide_eq_true_2 (q = q)) by done.
  destruct (mem q b); cbn [xorb negb bitset sgn]; rewrite ?sd_cancel, ?sd_empty_r; cbn; ring.
Qed.
Lemma norm2_proj q ψ : norm2 U (proj q false ψ) + norm2 U (proj q true ψ) = norm2 U ψ.
Proof.
  unfold norm2. rewrite <-zsum_plus. apply zsum_ext. intros b _. unfold proj. destruct (mem q b); cbn; lia.
Qed.

(** States of the qubits [U]. *)
Definition supported ψ : Prop := forall b, ψ b <> 0 -> b ⊆ list_to_set U.
Lemma norm2_possible ψ : supported ψ -> (exists b, ψ b <> 0) <-> 0 < norm2 U ψ.
Proof.
  intros Hs. split.
  - intros [b Hb]. assert (ψ b * ψ b <= norm2 U ψ); [|nia]. apply zsum_pos.
    + intros x (b' & -> & _)%elem_of_list_fmap. nia.
    + apply elem_of_list_fmap. exists b. split; [done|]. apply elem_of_subsets. by apply Hs.
  - intros H. destruct (decide (Exists (fun b => ψ b <> 0) (subsets U))) as [He|He].
    + apply Exists_exists in He as (b & _ & Hb). by exists b.
    + exfalso. apply not_Exists_Forall in He; [|apply _]. unfold norm2 in H. rewrite zsum_zero in H; [done|].
      intros b Hb. rewrite list.Forall_forall in He. specialize (He b Hb). apply dec_stable in He. rewrite He. done.
Qed.
Lemma norm2_sim Q ψ φ : supported ψ -> supported φ -> sim Q ψ φ -> norm2 U ψ = norm2 U φ.
Proof.
  intros Hψ Hφ HQ. destruct (decide (0 < norm2 U ψ)) as [Hp|Hp].
  - apply norm2_possible in Hp as [b Hb]; [|done]. destruct HQ as [s Hs].
    assert (Hx : px Q ⊆ list_to_set U).
    { assert (H1 := Hψ b Hb). assert (H2 : φ (b ⊕ px Q) <> 0).
      { intros E. apply Hb. specialize (Hs (b ⊕ px Q)). rewrite sd_cancel, E in Hs. rewrite Hs. apply (sgn_0 (R := ZAmp)). }
      apply Hφ in H2. intros y Hy. destruct (decide (y ∈ b)) as [Hyb|Hyb]; [by apply H1|]. apply H2. apply elem_of_sd. by right. }
    rewrite <-(norm2_shift ψ (px Q) Hx). apply norm2_ext. intros b'. rewrite Hs. apply sgn_sq.
  - assert (Hp' : ~ 0 < norm2 U φ).
    { intros H. apply Hp, norm2_possible; [done|]. apply norm2_possible in H; [|done]. by apply (sim_possible_r Q ψ φ). }
    pose proof (norm2_nonneg ψ). pose proof (norm2_nonneg φ). lia.
Qed.

Lemma supported_after i m (k : config ZAmp) : (forall q, q ∈ instr_qubits i -> q ∈ U) -> supported k.2 -> supported (after i m k).2.
Proof.
  intros Hi Hs.
  assert (HX : forall q ψ, q ∈ U -> supported ψ -> supported (gX q ψ)).
  { intros q ψ Hq H b Hb. apply H in Hb. intros y Hy. destruct (decide (y = q)) as [->|Hne]; [set_solver|]. apply Hb, elem_of_sd. left. set_solver. }
  assert (HZ : forall q ψ, supported ψ -> supported (gZ q ψ)).
  { intros q ψ H b Hb. apply H. intros E. apply Hb. unfold gZ. rewrite E. apply (sgn_0 (R := ZAmp)). }
  assert (HP : forall q m ψ, supported ψ -> supported (proj q m ψ)).
  { intros q m' ψ H b Hb. apply H. intros E. apply Hb. unfold proj. rewrite E. by destruct (Bool.eqb _ _). }
  destruct i as [q|q|q|q|a t|a t|q|q b0|q r v|q r v|]; cbn [after fst snd] in *; try done; try (apply HX; [apply Hi; by left|done]); try (by apply HZ); try (by apply HP).
  - intros b Hb. unfold gH in Hb. destruct (decide (k.2 (b ∖ {[q]}) = 0)) as [E|E].
    + destruct (decide (k.2 (b ∪ {[q]}) = 0)) as [E'|E']; [|apply Hs in E'; set_solver].
      exfalso. apply Hb. rewrite E, E'. by destruct (mem q b).
    + apply Hs in E. intros y Hy. destruct (decide (y = q)) as [->|Hne]; [|apply E; set_solver]. apply elem_of_list_to_set, Hi. by left.
  - intros b Hb. rewrite gCX_eq in Hb. apply Hs in Hb. intros y Hy. destruct (decide (y = t)) as [->|Hne]; [apply elem_of_list_to_set, Hi; right; by left|].
    apply Hb, elem_of_sd. left. split; [done|]. destruct (mem a b); cbn; set_solver.
  - intros b Hb. apply Hs. intros E. apply Hb. unfold gCZ. rewrite E. apply (sgn_0 (R := ZAmp)).
  - destruct m; [apply HX; [apply Hi; by left|]|]; by apply HP.
  - destruct (bool_decide _); [|done]. apply HX; [apply Hi; by left|done].
  - destruct (bool_decide _); [|done]. by apply HZ.
Qed.
Lemma supported_run is : Forall (well_formed U) is -> forall o k, supported k.2 -> supported (run is o k).2.
Proof.
  induction 1 as [|i is Hi His IHis]; intros o k Hk; [done|]. cbn [run]. destruct Hi as (_ & _ & Hi).
  destruct (random i); [destruct o; [done|]|]; apply IHis; by apply supported_after.
Qed.

(** ** The whole of the probability *)
Lemma elem_of_outcomes n o : o ∈ outcomes n <-> length o = n.
Proof.
  revert o. induction n as [|n IHn]; intros o; cbn [outcomes].
  - rewrite elem_of_list_singleton. by destruct o.
  - rewrite elem_of_app, !elem_of_list_fmap. setoid_rewrite IHn. split; [intros [(? & -> & <-)|(? & -> & <-)]; done|].
    destruct o as [|[] o]; intros H; [done|right|left]; exists o; split; auto with lia.
Qed.
Lemma NoDup_outcomes n : NoDup (outcomes n).
Proof.
  induction n as [|n IHn]; cbn [outcomes]; [apply NoDup_singleton|]. apply NoDup_app. split_and!; [apply NoDup_fmap_2; [|done]; by intros ? ? [= ->]| |apply NoDup_fmap_2; [|done]; by intros ? ? [= ->]].
  intros o (? & -> & _)%elem_of_list_fmap (? & ? & _)%elem_of_list_fmap. done.
Qed.
Lemma norm2_gate i m (k : config ZAmp) : well_formed U i -> random i = false ->
  norm2 U (after i m k).2 = (if match i with IH _ => true | _ => false end then 2 else 1) * norm2 U k.2.
Proof.
  intros (Hp & _ & Hi) Hr. destruct i as [q|q|q|q|a t|a t|q|q b0|q r v|q r v|]; cbn [after fst snd] in *; try done; rewrite ?Z.mul_1_l; try done.
  - apply norm2_H, Hi. by left.
  - apply norm2_X, Hi. by left.
  - apply norm2_Z.
  - apply norm2_CX; [done|]. apply Hi. right. by left.
  - apply norm2_CZ.
  - destruct (bool_decide _); [|done]. apply norm2_X, Hi. by left.
  - destruct (bool_decide _); [|done]. apply norm2_Z.
Qed.
Lemma norm2_choice i (k : config ZAmp) : well_formed U i -> random i = true ->
  norm2 U (after i false k).2 + norm2 U (after i true k).2 = norm2 U k.2.
Proof.
  intros (_ & _ & Hi) Hr. destruct i as [q|q|q|q|a t|a t|q|q b0|q r v|q r v|]; cbn [after fst snd] in *; try done; [|apply norm2_proj].
  rewrite norm2_X by (apply Hi; by left). apply norm2_proj.
Qed.
Lemma total is : Forall (well_formed U) is -> forall k,
  zsum ((fun o => norm2 U (run is o k).2) <$> outcomes (choices is)) = 2 ^ Z.of_nat (hadamards is) * norm2 U k.2.
Proof.
  induction 1 as [|i is Hi His IHis]; intros k; [cbn; lia|]. rewrite choices_cons. cbn [run].
  destruct (random i) eqn:Er.
  - cbn [Nat.add outcomes]. rewrite fmap_app, <-!list_fmap_compose, zsum_app. unfold compose. rewrite !IHis, <-Z.mul_add_distr_l, norm2_choice by done.
    f_equal. f_equal. f_equal. unfold hadamards. rewrite filter_cons. destruct i; try done; by rewrite decide_False.
  - cbn [Nat.add]. rewrite IHis, (norm2_gate i) by done. unfold hadamards. rewrite filter_cons. destruct i; try done; cbn [length]; try (rewrite decide_False by done; lia).
    rewrite decide_True by done. cbn [length]. rewrite Nat2Z.inj_succ, Z.pow_succ_r by lia. lia.
Qed.
End norms.
