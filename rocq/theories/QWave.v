(** The state produced by a parity-measurement circuit (C09). *)
From Coq Require Import Ring.
From Verif Require Export QCirc.
From stdpp Require Export list.
Open Scope Z_scope.

Lemma px_singles l : px (pprod (single false <$> l)) = ∅.
Proof.
  induction l as [|q l IH]; [done|]. rewrite fmap_cons. change (px (pmul (single false q) (pprod (single false <$> l))) = ∅).
  cbn [px pmul]. rewrite IH. apply sd_empty_r.
Qed.
Lemma pz_singles l : pz (pprod (single true <$> l)) = ∅.
Proof.
  induction l as [|q l IH]; [done|]. rewrite fmap_cons. change (pz (pmul (single true q) (pprod (single true <$> l))) = ∅).
  cbn [pz pmul]. rewrite IH. apply sd_empty_r.
Qed.

Section wave.
Context {R : Amp}.
Implicit Types ψ φ : state R.
Lemma R_ring' : ring_theory (@a0 R) a1 aadd amul asub aopp eq.
Proof. exact (a_ring R). Qed.
Add Ring Rring' : R_ring'.

Definition two (x : R) : R := aadd x x.
Fixpoint pow2 (k : nat) (x : R) : R := match k with O => x | S k => two (pow2 k x) end.
Lemma sgn_two s (x : R) : sgn s (two x) = two (sgn s x).
Proof. destruct s; unfold two; cbn; [ring|done]. Qed.
Lemma sgn_pow2 s k (x : R) : sgn s (pow2 k x) = pow2 k (sgn s x).
Proof. induction k as [|k IH]; cbn; [done|]. by rewrite sgn_two, IH. Qed.
Lemma pow2_add k (x y : R) : pow2 k (aadd x y) = aadd (pow2 k x) (pow2 k y).
Proof. induction k as [|k IH]; cbn; [done|]. rewrite IH. unfold two. ring. Qed.
Lemma pow2_plus k j (x : R) : pow2 (k + j) x = pow2 k (pow2 j x).
Proof. induction k as [|k IH]; cbn; [done|]. by rewrite IH. Qed.
Lemma pow2_two k (x : R) : pow2 k (two x) = two (pow2 k x).
Proof. unfold two. apply pow2_add. Qed.

Lemma act_mul P Q ψ b : act P (act Q ψ) b = sgn (dot (px P) (pz Q)) (act (pmul P Q) ψ b).
Proof.
  unfold act. cbn [px pz pmul]. rewrite <-!sgn_xor, sd_assoc. f_equal.
  rewrite dot_sd_r, dot_sd_l, (dot_comm (pz Q) (px P)).
  destruct (dot (pz P) b), (dot (pz Q) b), (dot (px P) (pz Q)); done.
Qed.
Lemma act_ext P ψ φ b : ψ (b ⊕ px P) = φ (b ⊕ px P) -> act P ψ b = act P φ b.
Proof. unfold act. by intros ->. Qed.
Lemma act_pow2 P k ψ b : act P (fun b => pow2 k (ψ b)) b = pow2 k (act P ψ b).
Proof. unfold act. by rewrite sgn_pow2. Qed.

Context (s : qubit).
Definition sm φ : state R := fun b => aadd (φ b) (φ (b ⊕ {[s]})).
Definition df φ : state R := fun b => aadd (φ b) (aopp (φ (b ⊕ {[s]}))).

Lemma in_steps l c φ (k' : config R) : s ∉ l -> exec ((fun q => ICX q s) <$> l) (c, φ) k' ->
  k'.1 = c /\ forall b, s ∉ b -> sm k'.2 b = sm φ b /\ df k'.2 b = act (gprod (false, l)) (df φ) b.
Proof.
  revert φ. induction l as [|q l IH]; intros φ Hs He.
  - inversion He; subst. split; [done|]. intros b _. split; [done|].
    unfold gprod, act. cbn [fst snd fmap list_fmap pprod foldr px pz pid]. by rewrite dot_empty_l, sd_empty_r.
  - apply not_elem_of_cons in Hs as [Hq Hs]. rewrite fmap_cons in He. inversion He as [|? ? ? k1 ? Hst He']; subst.
    inversion Hst; subst. destruct (IH _ Hs He') as [Hc Hb]. split; [done|]. intros b Hsb. destruct (Hb b Hsb) as [-> ->].
    assert (Hm : forall b, mem q (b ⊕ {[s]}) = mem q b).
    { intros b'. rewrite mem_sd, mem_singleton, bool_decide_eq_false_2, xorb_false_r by done. done. }
    assert (Hdf : forall b', df (gCX q s φ) b' = act (single false q) (df φ) b').
    { intros b'. unfold df, gCX, act. rewrite Hm. cbn [px pz single Zon]. rewrite sd_empty_r, dot_singleton_l.
      destruct (mem q b'); [|done]. rewrite sd_cancel. cbn. ring. }
    split.
    + unfold sm, gCX. rewrite Hm. destruct (mem q b); [|done]. rewrite sd_cancel. ring.
    + rewrite (act_ext _ _ (act (single false q) (df φ))) by apply Hdf.
      unfold gprod. cbn [fst snd]. rewrite fmap_cons. cbn [pprod foldr]. rewrite act_mul.
      rewrite px_singles, dot_empty_l. cbn. by rewrite pmul_comm.
Qed.
Lemma out_steps l c φ (k' : config R) : s ∉ l -> exec (ICX s <$> l) (c, φ) k' ->
  k'.1 = c /\ forall b, s ∉ b -> k'.2 b = φ b /\ k'.2 (b ⊕ {[s]}) = φ (b ⊕ {[s]} ⊕ px (gprod (true, l))).
Proof.
  revert φ. induction l as [|q l IH]; intros φ Hs He.
  - inversion He; subst. split; [done|]. intros b _. split; [done|].
    unfold gprod. cbn [fst snd fmap list_fmap pprod foldr px pid]. by rewrite sd_empty_r.
  - apply not_elem_of_cons in Hs as [Hq Hs]. rewrite fmap_cons in He. inversion He as [|? ? ? k1 ? Hst He']; subst.
    inversion Hst; subst. destruct (IH _ Hs He') as [Hc Hb]. split; [done|]. intros b Hsb. destruct (Hb b Hsb) as [-> ->].
    unfold gCX. assert (mem s b = false) as E by (by apply mem_false). rewrite E. split; [done|].
    assert (Hoff : mem s (px (gprod (true, l))) = false) by (by apply off_gprod).
    rewrite !mem_sd, E, mem_singleton, bool_decide_eq_true_2, Hoff by done. cbn [xorb].
    unfold gprod. cbn [fst snd]. rewrite fmap_cons. cbn [pprod foldr px pmul single Xon].
    f_equal. by rewrite <-!sd_assoc, (sd_comm {[q]}).
Qed.
Lemma gH_out φ b : s ∉ b -> gH s φ b = sm φ b /\ gH s φ (b ⊕ {[s]}) = df φ b.
Proof.
  intros Hs. assert (mem s b = false) as E by (by apply mem_false).
  assert (E2 : mem s (b ⊕ {[s]}) = true) by (rewrite mem_sd, E, mem_singleton, bool_decide_eq_true_2; done).
  rewrite !gH_eq, E, E2. cbn [negb bitset sgn]. rewrite sd_cancel, !sd_empty_r. done.
Qed.
Lemma group_steps g c φ (k' : config R) : s ∉ g.2 -> exec (group s g) (c, φ) k' ->
  k'.1 = c /\ forall b, s ∉ b ->
    sm k'.2 b = pow2 (if g.1 then 1 else 0) (sm φ b) /\
    df k'.2 b = pow2 (if g.1 then 1 else 0) (act (gprod g) (df φ) b).
Proof.
  intros Hs He. destruct g as [[|] l]; cbn [group fst snd pow2] in *; [|by apply in_steps].
  inversion He as [|? ? ? k1 ? Hst He']; subst. inversion Hst; subst.
  apply exec_app in He' as ([c2 φ2] & H1 & H2). apply out_steps in H1 as [Hc Hb]; [|done]. cbn in Hc. subst c2.
  inversion H2 as [|? ? ? k3 ? Hst3 He3]; subst. inversion Hst3; subst. inversion He3; subst. split; [done|].
  intros b Hsb. cbn [fst snd] in Hb |- *. destruct (Hb b Hsb) as [Hb1 Hb2].
  destruct (gH_out φ2 b Hsb) as [G1 G2]. destruct (gH_out φ b Hsb) as [F1 _].
  assert (Hoff : mem s (px (gprod (true, l))) = false) by (by apply off_gprod).
  assert (Hsb' : s ∉ b ⊕ px (gprod (true, l))) by (apply mem_false; rewrite mem_sd, Hoff; apply mem_false in Hsb; by rewrite Hsb).
  destruct (gH_out φ _ Hsb') as [_ F2].
  assert (Hact : act (gprod (true, l)) (df φ) b = df φ (b ⊕ px (gprod (true, l)))).
  { unfold act. assert (pz (gprod (true, l)) = ∅) as -> by apply pz_singles.
    by rewrite dot_empty_l. }
  assert (Hre : b ⊕ {[s]} ⊕ px (gprod (true, l)) = b ⊕ px (gprod (true, l)) ⊕ {[s]}) by (by rewrite <-!sd_assoc, (sd_comm {[s]})).
  assert (S3 : sm (gH s φ2) b = two (φ2 b)).
  { unfold sm at 1. rewrite G1, G2. unfold sm, df, two. ring. }
  assert (D3 : df (gH s φ2) b = two (φ2 (b ⊕ {[s]}))).
  { unfold df at 1. rewrite G1, G2. unfold sm, df, two. ring. }
  rewrite S3, D3, Hb1, Hb2, Hact, Hre, F1, F2. done.
Qed.
Definition nX (gs : list (bool * list qubit)) : nat := length (filter (fun g => g.1 = true) gs).
Lemma nX_cons g gs : nX (g :: gs) = ((if g.1 then 1 else 0) + nX gs)%nat.
Proof. unfold nX. rewrite filter_cons. destruct g as [[|] l]; cbn; destruct (decide _); try done; congruence. Qed.
Lemma dot_gprod_disj gs g : NoDup (g.2 ++ gqubits gs) -> dot (px (gpauli gs)) (pz (gprod g)) = false.
Proof.
  intros Hnd. apply dot_disj. intros q H1 H2. apply NoDup_app in Hnd as (_ & Hd & _).
  apply mem_true in H1, H2.
  destruct (decide (q ∈ g.2)) as [Hq|Hq]; [|by rewrite (proj2 (off_gprod q g Hq)) in H2].
  assert (q ∉ gqubits gs) as Hq' by (by apply Hd). by rewrite (proj1 (off_gpauli q gs Hq')) in H1.
Qed.
Lemma compile_steps gs c φ (k' : config R) : s ∉ gqubits gs -> NoDup (gqubits gs) -> exec (compile s gs) (c, φ) k' ->
  k'.1 = c /\ forall b, s ∉ b ->
    sm k'.2 b = pow2 (nX gs) (sm φ b) /\ df k'.2 b = pow2 (nX gs) (act (gpauli gs) (df φ) b).
Proof.
  revert φ. induction gs as [|g gs IH]; intros φ Hs Hnd He.
  - inversion He; subst. split; [done|]. intros b _. cbn. unfold gpauli, act. cbn [fmap list_fmap pprod foldr px pz pid].
    by rewrite dot_empty_l, sd_empty_r.
  - rewrite gqubits_cons in Hs, Hnd. apply not_elem_of_app in Hs as [H1 H2].
    change (compile s (g :: gs)) with (group s g ++ compile s gs) in He. apply exec_app in He as ([c1 φ1] & E1 & E2).
    apply group_steps in E1 as [Hc1 Hb1]; [|done]. cbn in Hc1. subst c1.
    apply IH in E2 as [Hc2 Hb2]; [|done|by apply NoDup_app in Hnd as (_&_&?)]. split; [done|].
    intros b Hsb. destruct (Hb2 b Hsb) as [-> ->]. cbn [fst snd] in Hb1. destruct (Hb1 b Hsb) as [-> _].
    rewrite nX_cons, Nat.add_comm, !pow2_plus. split; [done|].
    assert (Hsb' : s ∉ b ⊕ px (gpauli gs)).
    { apply mem_false. rewrite mem_sd. apply mem_false in Hsb. rewrite Hsb. by rewrite (proj1 (off_gpauli s gs H2)). }
    rewrite (act_ext _ _ (fun b => pow2 (if g.1 then 1 else 0) (act (gprod g) (df φ) b))) by (by apply Hb1).
    rewrite act_pow2, act_mul, dot_gprod_disj by done. cbn [sgn]. f_equal. f_equal.
    unfold gpauli. rewrite fmap_cons. cbn [pprod foldr]. by rewrite pmul_comm.
Qed.
(** The result, for a clean syndrome qubit. *)
Lemma compile_measure gs c ψ k (k' : config R) : s ∉ gqubits gs -> NoDup (gqubits gs) -> clean s ψ ->
  exec (compile s gs ++ [IMeas s k]) (c, ψ) k' ->
  exists m, k'.1 = cupd c k m /\ forall b, s ∉ b ->
    k'.2 (b ⊕ bitset (negb m) s) = a0 /\
    two (k'.2 (b ⊕ bitset m s)) = pow2 (nX gs) (aadd (ψ b) (sgn m (act (gpauli gs) ψ b))).
Proof.
  intros Hs Hnd Hcl He. apply exec_app in He as ([c1 φ] & E1 & E2). inversion E2 as [|? ? ? k1 ? Hst E3]; subst.
  inversion Hst; subst. inversion E3; subst. apply compile_steps in E1 as [Hc1 Hb1]; [|done..]. cbn in Hc1. subst c1.
  exists m. split; [done|]. intros b Hsb. destruct (Hb1 b Hsb) as [Hsm Hdf]. cbn [fst snd] in *.
  assert (Hmb : mem s b = false) by (by apply mem_false).
  assert (Hz : forall b', s ∉ b' -> ψ (b' ⊕ {[s]}) = a0).
  { intros b' Hb'. apply Hcl. apply mem_true. apply mem_false in Hb'. by rewrite mem_sd, Hb', mem_singleton, bool_decide_eq_true_2. }
  assert (Hsb' : s ∉ b ⊕ px (gpauli gs)).
  { apply mem_false. rewrite mem_sd, Hmb. by rewrite (proj1 (off_gpauli s gs Hs)). }
  rewrite (act_ext _ (df ψ) ψ) in Hdf by (unfold df; rewrite Hz by done; ring).
  unfold sm in Hsm at 2. rewrite (Hz b Hsb) in Hsm. replace (aadd (ψ b) a0) with (ψ b) in Hsm by ring.
  unfold sm in Hsm. unfold df in Hdf.
  unfold proj. rewrite !mem_sd, !mem_bitset, (bool_decide_eq_true_2 (s = s)), Hmb by done. split; [by destruct m|].
  replace (Bool.eqb (xorb false (m && true)) m) with true by (by destruct m).
  rewrite pow2_add, <-sgn_pow2, <-Hsm, <-Hdf. destruct m; cbn [bitset sgn]; rewrite ?sd_empty_r; unfold two; ring.
Qed.
End wave.
