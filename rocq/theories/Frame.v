(** Pauli frames: how a Pauli error and the bit flips it causes travel through a circuit. *)
From Coq Require Import Ring.
From Verif Require Export QFacts SpecInject.
From stdpp Require Export list.
Open Scope Z_scope.

(** An error [fp] on the qubits and the set [ff] of classical bits that differ. *)
Record frame := Fr { fp : pauli qubit; ff : clbit -> bool }.
Definition fnone : clbit -> bool := fun _ => false.
Definition dropP (q : qubit) (P : pauli qubit) : pauli qubit := Pauli (px P ∖ {[q]}) (pz P ∖ {[q]}).
Definition push1 (i : instr) (f : frame) : frame :=
  match i with
  | IH q => Fr (hP q (fp f)) (ff f)
  | ICX c t => Fr (cxP c t (fp f)) (ff f)
  | ICZ c t => Fr (czP c t (fp f)) (ff f)
  | IMeas q k => Fr (fp f) (cupd (ff f) k (mem q (px (fp f))))
  | IReset q => Fr (dropP q (fp f)) (ff f)
  | _ => f
  end.
Definition push (is : list instr) (f : frame) : frame := foldl (fun f i => push1 i f) f is.
Definition fadd (f g : frame) : frame := Fr (pmul (fp f) (fp g)) (fun b => xorb (ff f b) (ff g b)).
Definition feq (f g : frame) : Prop := fp f = fp g /\ forall b, ff f b = ff g b.
(** Instructions without classical control. *)
Definition framed (i : instr) : Prop :=
  match i with IXIf _ _ _ | IZIf _ _ _ => False | ICX c t => c <> t | _ => True end.

Lemma push_app is1 is2 f : push (is1 ++ is2) f = push is2 (push is1 f).
Proof. unfold push. apply foldl_app. Qed.
Lemma push_cons i is f : push (i :: is) f = push is (push1 i f).
Proof. done. Qed.
Lemma feq_refl f : feq f f. Proof. done. Qed.
Lemma feq_trans f g h : feq f g -> feq g h -> feq f h.
Proof. intros [A B] [C D]. split; [congruence|]. intros b. by rewrite B. Qed.
Lemma feq_sym f g : feq f g -> feq g f.
Proof. intros [A B]. by split. Qed.
Lemma push1_feq i f g : feq f g -> feq (push1 i f) (push1 i g).
Proof.
  intros [A B]. destruct i; cbn; rewrite ?A; try (split; [done|exact B]); try done.
  - split; [done|]. intros b'. cbn. unfold cupd. by case_bool_decide.
Qed.
Lemma push_feq is f g : feq f g -> feq (push is f) (push is g).
Proof. revert f g. induction is as [|i is IH]; intros f g H; [done|]. rewrite !push_cons. by apply IH, push1_feq. Qed.
Lemma fadd_feq f f' g g' : feq f f' -> feq g g' -> feq (fadd f g) (fadd f' g').
Proof. intros [A B] [C D]. split; cbn; [by rewrite A, C|]. intros b. by rewrite B, D. Qed.

Lemma mem_dropP_x q P a : mem a (px (dropP q P)) = negb (bool_decide (a = q)) && mem a (px P).
Proof. cbn. unfold mem. case_bool_decide; case_bool_decide; case_bool_decide; try done; set_solver. Qed.
Lemma mem_dropP_z q P a : mem a (pz (dropP q P)) = negb (bool_decide (a = q)) && mem a (pz P).
Proof. cbn. unfold mem. case_bool_decide; case_bool_decide; case_bool_decide; try done; set_solver. Qed.
Lemma hP_pmul q P Q : hP q (pmul P Q) = pmul (hP q P) (hP q Q).
Proof.
  apply pauli_eq; cbn [px pz hP pmul]; apply mem_ext; intros a; rewrite !mem_sd, !mem_bitset;
    destruct (bool_decide (a = q)), (mem a (px P)), (mem a (px Q)), (mem a (pz P)), (mem a (pz Q)), (mem q (px P)), (mem q (px Q)), (mem q (pz P)), (mem q (pz Q)); done.
Qed.
Lemma cxP_pmul c t P Q : cxP c t (pmul P Q) = pmul (cxP c t P) (cxP c t Q).
Proof.
  apply pauli_eq; cbn [px pz cxP pmul]; apply mem_ext; intros a; rewrite !mem_sd, !mem_bitset;
    destruct (bool_decide _), (mem a _), (mem a _), (mem _ _), (mem _ _); done.
Qed.
Lemma czP_pmul c t P Q : czP c t (pmul P Q) = pmul (czP c t P) (czP c t Q).
Proof.
  apply pauli_eq; cbn [px pz czP pmul]; [done|]; apply mem_ext; intros a; rewrite !mem_sd, !mem_bitset.
  destruct (bool_decide (a = t)), (bool_decide (a = c)), (mem a (pz P)), (mem a (pz Q)), (mem c (px P)), (mem c (px Q)), (mem t (px P)), (mem t (px Q)); done.
Qed.
Lemma dropP_pmul q P Q : dropP q (pmul P Q) = pmul (dropP q P) (dropP q Q).
Proof.
  apply pauli_eq; apply mem_ext; intros a; cbn [px pz pmul]; rewrite ?mem_sd, ?mem_dropP_x, ?mem_dropP_z; cbn [px pz pmul]; rewrite mem_sd;
    destruct (bool_decide _), (mem a _), (mem a _); done.
Qed.
Lemma push1_add i f g : feq (push1 i (fadd f g)) (fadd (push1 i f) (push1 i g)).
Proof.
  destruct i; try (by apply feq_refl).
  - split; [apply hP_pmul|done].
  - split; [apply cxP_pmul|done].
  - split; [apply czP_pmul|done].
  - split; [apply dropP_pmul|done].
  - split; [done|]. intros b'. cbn. unfold cupd. case_bool_decide; [apply mem_sd|done].
Qed.
Lemma push_add is f g : feq (push is (fadd f g)) (fadd (push is f) (push is g)).
Proof.
  revert f g. induction is as [|i is IH]; intros f g; [done|]. rewrite !push_cons.
  eapply feq_trans; [apply push_feq, push1_add|]. apply IH.
Qed.
(** Bits not written keep their flips; the error does not depend on the flips. *)
Lemma push_fp is P F G : fp (push is (Fr P F)) = fp (push is (Fr P G)).
Proof.
  revert P F G. induction is as [|i is IH]; intros P F G; [done|]. rewrite !push_cons. destruct i; cbn; apply IH.
Qed.
Lemma push_unwritten is P F b : (forall i, i ∈ is -> b ∉ writes i) -> ff (push is (Fr P F)) b = F b.
Proof.
  revert P F. induction is as [|i is IH]; intros P F Hw; [done|]. rewrite push_cons.
  assert (Hw' : forall j, j ∈ is -> b ∉ writes j) by (intros; apply Hw; by right).
  specialize (Hw i ltac:(by left)). destruct i; cbn [push1 fp ff]; rewrite IH by done; try done.
  unfold cupd. cbn in Hw. rewrite bool_decide_eq_false_2; [done|set_solver].
Qed.
Lemma push_written is P F G b : (exists i, i ∈ is /\ b ∈ writes i) -> ff (push is (Fr P F)) b = ff (push is (Fr P G)) b.
Proof.
  revert P F G. induction is as [|i is IH]; intros P F G (j & Hj & Hb); [by apply elem_of_nil in Hj|]. rewrite !push_cons.
  destruct (decide (Exists (fun j => b ∈ writes j) is)) as [Hd|Hd]; rewrite Exists_exists in Hd.
  { destruct i; cbn [push1 fp ff]; by apply IH. }
  assert (Hun : forall j, j ∈ is -> b ∉ writes j) by (intros j' Hj' Hb'; apply Hd; eauto).
  apply elem_of_cons in Hj as [-> |Hj]; [|by exfalso; eapply Hun].
  destruct i; cbn in Hb; try (by apply elem_of_nil in Hb). apply elem_of_list_singleton in Hb as ->.
  cbn [push1 fp ff]. rewrite !push_unwritten by done. unfold cupd. by rewrite bool_decide_eq_true_2.
Qed.

Section sem.
Context {R : Amp}.
Implicit Types ψ φ : state R.
Implicit Types k : config R.
Lemma R_ring_f : ring_theory (@a0 R) a1 aadd amul asub aopp eq.
Proof. exact (a_ring R). Qed.
Add Ring Rring_f : R_ring_f.

(** [ψ] shifted by the error is [φ] up to the sign [s]. *)
Definition tied ψ φ (P : pauli qubit) (s : bool) : Prop := forall b, ψ (b ⊕ px P) = sgn (xorb s (dot (pz P) b)) (φ b).
Definition frel (f : frame) k k' : Prop :=
  (forall b, k'.1 b = xorb (k.1 b) (ff f b)) /\ exists s, tied k.2 k'.2 (fp f) s.

Lemma tied_id ψ : tied ψ ψ pid false.
Proof. intros b. cbn. by rewrite sd_empty_r, dot_empty_l. Qed.
Lemma tied_gX_l q ψ φ P s : tied ψ φ P s -> tied ψ (gX q φ) (pmul P (Xon {[q]})) (xorb s (mem q (pz P))).
Proof.
  intros H b. cbn [px pz pmul Xon]. rewrite sd_empty_r. unfold gX.
  replace (b ⊕ (px P ⊕ {[q]})) with (b ⊕ {[q]} ⊕ px P) by (by rewrite <-!sd_assoc, (sd_comm {[q]})).
  rewrite H, dot_sd_r, dot_singleton_r. f_equal. by destruct s, (mem q (pz P)), (dot (pz P) b).
Qed.
Lemma tied_gZ_l q ψ φ P s : tied ψ φ P s -> tied ψ (gZ q φ) (pmul P (Zon {[q]})) s.
Proof.
  intros H b. cbn [px pz pmul Zon]. rewrite sd_empty_r. unfold gZ. rewrite H, <-sgn_xor, dot_sd_l, dot_singleton_l.
  f_equal. by destruct s, (mem q b), (dot (pz P) b).
Qed.
Lemma tied_X q ψ φ P s : tied ψ φ P s -> tied (gX q ψ) (gX q φ) P (xorb s (mem q (pz P))).
Proof.
  intros Hs b. unfold gX.
  rewrite <-sd_assoc, (sd_comm (px P)), sd_assoc, Hs, dot_sd_r, dot_singleton_r. f_equal.
  by rewrite xorb_assoc, (xorb_comm (dot _ _)).
Qed.
Lemma tied_Z q ψ φ P s : tied ψ φ P s -> tied (gZ q ψ) (gZ q φ) P (xorb s (mem q (px P))).
Proof.
  intros Hs b. unfold gZ. rewrite mem_sd, Hs, <-!sgn_xor. f_equal.
  destruct (mem q b), (mem q (px P)), s, (dot (pz P) b); done.
Qed.
Lemma tied_CX c t ψ φ P s : c <> t -> tied ψ φ P s -> tied (gCX c t ψ) (gCX c t φ) (cxP c t P) s.
Proof.
  intros Hne Hs b. rewrite !gCX_eq. cbn [px pz cxP].
  rewrite !mem_sd, mem_bitset, bool_decide_eq_false_2, andb_false_r, xorb_false_r by done.
  rewrite <-bitset_xor.
  transitivity (ψ (b ⊕ bitset (mem c b) t ⊕ px P)).
  - f_equal. apply mem_ext. intros a. rewrite !mem_sd.
    destruct (mem a b), (mem a (px P)), (mem a (bitset (mem c (px P)) t)), (mem a (bitset (mem c b) t)); done.
  - rewrite Hs. f_equal. rewrite dot_sd_r, dot_sd_l, dot_bitset_r, dot_bitset_l.
    by rewrite (andb_comm (mem c b)).
Qed.
Lemma tied_CZ c t ψ φ P s : tied ψ φ P s ->
  tied (gCZ c t ψ) (gCZ c t φ) (czP c t P) (xorb s (mem c (px P) && mem t (px P))).
Proof.
  intros Hs b. unfold gCZ. cbn [px pz czP].
  rewrite !mem_sd, Hs, <-!sgn_xor. f_equal. rewrite !dot_sd_l, !dot_bitset_l.
  destruct (mem c b), (mem t b), (mem c (px P)), (mem t (px P)), s, (dot (pz P) b); done.
Qed.
Lemma tied_H q ψ φ P s : tied ψ φ P s -> tied (gH q ψ) (gH q φ) (hP q P) (xorb s (mem q (px P) && mem q (pz P))).
Proof.
  intros Hs b. rewrite !gH_eq. cbn [px pz hP].
  rewrite !mem_sd, !mem_bitset, (bool_decide_eq_true_2 (q = q)), andb_true_r by done.
  set (xq := mem q (px P)). set (zq := mem q (pz P)). set (bq := mem q b).
  set (b0 := b ⊕ bitset bq q).
  assert (H0 : forall u, ψ (b0 ⊕ bitset u q ⊕ px P) = sgn (xorb s (xorb (dot (pz P) b0) (u && zq))) (φ (b0 ⊕ bitset u q))).
  { intros u. rewrite Hs, dot_sd_r, dot_bitset_r. done. }
  assert (E1 : b ⊕ (px P ⊕ bitset (xorb xq zq) q) ⊕ bitset (xorb bq (xorb xq (xorb xq zq))) q
               = b0 ⊕ bitset xq q ⊕ px P).
  { unfold b0. apply mem_ext. intros a. rewrite !mem_sd, !mem_bitset.
    destruct (mem a b), (mem a (px P)), (bool_decide (a = q)), xq, zq, bq; done. }
  assert (E2 : b ⊕ (px P ⊕ bitset (xorb xq zq) q) ⊕ bitset (negb (xorb bq (xorb xq (xorb xq zq)))) q
               = b0 ⊕ bitset (negb xq) q ⊕ px P).
  { unfold b0. apply mem_ext. intros a. rewrite !mem_sd, !mem_bitset.
    destruct (mem a b), (mem a (px P)), (bool_decide (a = q)), xq, zq, bq; done. }
  rewrite E1, E2, !H0.
  assert (E3 : b ⊕ bitset (negb bq) q = b0 ⊕ bitset true q).
  { unfold b0. rewrite <-sd_assoc, bitset_xor. by destruct bq. }
  rewrite E3. replace (φ b0) with (φ (b0 ⊕ bitset false q)) by (cbn; by rewrite sd_empty_r).
  assert (E4 : dot (pz P ⊕ bitset (xorb xq zq) q) b = xorb (dot (pz P) b0) (bq && xq)).
  { unfold b0. rewrite dot_sd_l, dot_sd_r, dot_bitset_l, dot_bitset_r. fold zq bq.
    destruct (dot (pz P) b), xq, zq, bq; done. }
  rewrite E4. destruct s, (dot (pz P) b0), xq, zq, bq; cbn; rewrite ?sd_empty_r; ring.
Qed.
Lemma tied_proj q m ψ φ P s : tied ψ φ P s -> tied (proj q (xorb m (mem q (px P))) ψ) (proj q m φ) P s.
Proof.
  intros Hs b. unfold proj. rewrite mem_sd.
  assert (Bool.eqb (xorb (mem q b) (mem q (px P))) (xorb m (mem q (px P))) = Bool.eqb (mem q b) m) as ->
    by (by destruct (mem q b), (mem q (px P)), m).
  destruct (Bool.eqb (mem q b) m); [apply Hs|by rewrite sgn_0].
Qed.
(** Resetting with an outcome. *)
Definition reset_to (q : qubit) (m : bool) ψ : state R := if m then gX q (proj q true ψ) else proj q false ψ.
Lemma reset_to_eq q m ψ b : reset_to q m ψ b = if mem q b then a0 else ψ (b ⊕ bitset m q).
Proof.
  unfold reset_to, gX, proj. destruct m; cbn.
  - rewrite mem_sd, mem_singleton, bool_decide_eq_true_2 by done. by destruct (mem q b).
  - rewrite sd_empty_r. by destruct (mem q b).
Qed.
Lemma tied_reset q m ψ φ P s : tied ψ φ P s ->
  tied (reset_to q (xorb m (mem q (px P))) ψ) (reset_to q m φ) (dropP q P) (xorb s (m && mem q (pz P))).
Proof.
  intros Hs b. rewrite !reset_to_eq, mem_sd, mem_dropP_x, bool_decide_eq_true_2 by done. cbn [negb andb]. rewrite xorb_false_r.
  destruct (mem q b) eqn:Eb; [by rewrite sgn_0|].
  assert (E1 : b ⊕ px (dropP q P) ⊕ bitset (xorb m (mem q (px P))) q = b ⊕ bitset m q ⊕ px P).
  { apply mem_ext. intros a. rewrite !mem_sd, mem_dropP_x, !mem_bitset. destruct (decide (a = q)) as [-> |Hne].
    - rewrite bool_decide_eq_true_2 by done. cbn. destruct m, (mem q b), (mem q (px P)); done.
    - rewrite bool_decide_eq_false_2 by done. cbn. rewrite !andb_false_r. destruct (mem a b), (mem a (px P)); done. }
  rewrite E1, Hs, dot_sd_r, dot_bitset_r.
  assert (E2 : dot (pz (dropP q P)) b = dot (pz P) b).
  { unfold dot. f_equal. apply mem_ext. intros a. rewrite !mem_cap, mem_dropP_z. case_bool_decide as Ha; [subst|done].
    cbn. by rewrite Eb, andb_false_r. }
  rewrite E2. f_equal. by destruct s, (dot (pz P) b), m, (mem q (pz P)).
Qed.

Lemma frel_step i f k k' k1' : framed i -> frel f k k' -> step i k' k1' -> exists k1, step i k k1 /\ frel (push1 i f) k1 k1'.
Proof.
  intros Hi [Hc [s Hs]] Hst. destruct k as [c ψ]. cbn [fst snd] in Hc, Hs.
  destruct Hst as [q c' φ|q c' φ|q c' φ|q c' φ|c' φ|a t c' φ|a t c' φ|q b m c' φ|q c' φ|q c' φ| | | |]; cbn [fst snd push1] in *; try done.
  - eexists. split; [constructor|]. split; [done|]. eexists. by apply tied_H.
  - eexists. split; [constructor|]. split; [done|]. eexists. by apply tied_X.
  - eexists. split; [constructor|]. split; [done|]. eexists. by apply tied_Z.
  - eexists. split; [constructor|]. split; [done|]. by eexists.
  - eexists. split; [constructor|]. split; [done|]. by eexists.
  - eexists. split; [constructor|]. split; [done|]. eexists. by apply tied_CX.
  - eexists. split; [constructor|]. split; [done|]. eexists. by apply tied_CZ.
  - eexists. split; [apply (SMeas q b (xorb m (mem q (px (fp f)))))|]. split.
    + intros b'. cbn. unfold cupd. case_bool_decide; [|done]. by destruct m, (mem q (px (fp f))).
    + eexists. by apply tied_proj.
  - exists (c, reset_to q (xorb false (mem q (px (fp f)))) ψ). split; [destruct (mem q (px (fp f))); constructor|]. split; [done|].
    eexists. by apply (tied_reset q false).
  - exists (c, reset_to q (xorb true (mem q (px (fp f)))) ψ). split; [destruct (mem q (px (fp f))); constructor|]. split; [done|].
    eexists. by apply (tied_reset q true).
Qed.
Lemma frel_feq f g k k' : feq f g -> frel f k k' -> frel g k k'.
Proof. intros [E1 E2] [Hc Hs]. split; [intros b; by rewrite <-E2|]. by rewrite <-E1. Qed.
Definition single_on (q : qubit) (P : pauli qubit) : Prop := forall a, a <> q -> mem a (px P) = false /\ mem a (pz P) = false.
Lemma frel_X f k k' q : frel f k k' -> frel (fadd f (Fr (Xon {[q]}) fnone)) k (k'.1, gX q k'.2).
Proof. intros [Hc [s Hs]]. split; [intros b; cbn; by rewrite xorb_false_r|]. eexists. by apply tied_gX_l. Qed.
Lemma frel_Z f k k' q : frel f k k' -> frel (fadd f (Fr (Zon {[q]}) fnone)) k (k'.1, gZ q k'.2).
Proof. intros [Hc [s Hs]]. split; [intros b; cbn; by rewrite xorb_false_r|]. eexists. by apply tied_gZ_l. Qed.
Lemma single_on_X q : single_on q (Xon {[q]}).
Proof. intros a Ha. cbn. by rewrite mem_empty, mem_singleton, bool_decide_eq_false_2. Qed.
Lemma single_on_Z q : single_on q (Zon {[q]}).
Proof. intros a Ha. cbn. by rewrite mem_empty, mem_singleton, bool_decide_eq_false_2. Qed.
Lemma single_on_pmul q P Q : single_on q P -> single_on q Q -> single_on q (pmul P Q).
Proof.
  intros HP HQ a Ha. destruct (HP a Ha) as [P1 P2], (HQ a Ha) as [Q1 Q2]. cbn [px pz pmul]. by rewrite !mem_sd, P1, P2, Q1, Q2.
Qed.
Lemma frel_germ p q f k k' k1' : frel f k k' -> exec (germ_gates p q) k' k1' ->
  exists P, single_on q P /\ frel (fadd f (Fr P fnone)) k k1'.
Proof.
  intros Hf Hex. destruct p; cbn in Hex.
  - inversion Hex as [|? ? ? ka ? H1 H2]; subst. inversion H2; subst. inversion H1; subst.
    eexists. split; [apply single_on_X|]. apply (frel_X _ _ _ q Hf).
  - inversion Hex as [|? ? ? ka ? H1 H2]; subst. inversion H2 as [|? ? ? kb ? H3 H4]; subst. inversion H4; subst. inversion H1; subst. inversion H3; subst.
    eexists. split; [apply single_on_pmul; [apply single_on_X|apply single_on_Z]|].
    eapply frel_feq; [|apply (frel_Z _ _ _ q (frel_X _ _ _ q Hf))].
    split; cbn; [by rewrite pmul_assoc|]. intros b. by destruct (ff f b).
  - inversion Hex as [|? ? ? ka ? H1 H2]; subst. inversion H2; subst. inversion H1; subst.
    eexists. split; [apply single_on_Z|]. apply (frel_Z _ _ _ q Hf).
Qed.
(** What a fault followed by the code [r] does to the recorded bits. *)
Definition impact (r : list instr) (P : pauli qubit) : clbit -> bool := ff (push r (Fr P fnone)).
Lemma inject_frames is js w f k k' k1' : Forall framed is -> inject is js w -> frel f k k' -> exec js k' k1' ->
  exists k1 g (fl : list (list instr * pauli qubit)), exec is k k1 /\ frel g k1 k1' /\ length fl = w /\
    (forall rP, rP ∈ fl -> rP.1 `suffix_of` is /\ exists q, single_on q rP.2) /\
    (forall b, ff g b = xorb (ff (push is f) b) (xorl ((fun rP => impact rP.1 rP.2 b) <$> fl))).
Proof.
  intros Hfr Hin. revert f k k' Hfr. induction Hin as [|i is js w Hin IH|p q is js w Hin IH]; intros f k k' Hfr Hf Hex.
  - inversion Hex; subst. exists k, f, []. split_and!; [constructor|done|done| |].
    + intros ? []%elem_of_nil.
    + intros b. cbn. by rewrite xorb_false_r.
  - inversion Hex as [|? ? ? ka' ? H1 H2]; subst. apply Forall_cons in Hfr as [Hi Hfr].
    destruct (frel_step _ _ _ _ _ Hi Hf H1) as (ka & Hst & Hfa).
    destruct (IH _ _ _ Hfr Hfa H2) as (k1 & g & fl & He & Hg & Hl & Hs & Hb). exists k1, g, fl. split_and!; try done.
    + by econstructor.
    + intros rP HrP. destruct (Hs rP HrP) as [H3 H4]. split; [|done]. by apply suffix_cons_r.
  - apply exec_app in Hex as (ka' & H1 & H2). destruct (frel_germ _ _ _ _ _ _ Hf H1) as (P & HP & Hfa).
    destruct (IH _ _ _ Hfr Hfa H2) as (k1 & g & fl & He & Hg & Hl & Hs & Hb). exists k1, g, ((is, P) :: fl). split_and!; try done.
    + cbn. by rewrite Hl.
    + intros rP [-> |HrP]%elem_of_cons; [|by apply Hs]. cbn. split; [done|by exists q].
    + intros b. rewrite Hb, fmap_cons, xorl_cons. destruct (push_add is f (Fr P fnone)) as [_ Ha]. rewrite Ha. cbn [ff fadd fst snd].
      unfold impact at 1. by rewrite xorb_assoc.
Qed.
End sem.
