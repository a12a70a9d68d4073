(** Four runs of the same circuit (for C60): the possible outcomes form an affine space. *)
From Verif Require Export Fair.
From stdpp Require Export list.
Open Scope Z_scope.
Implicit Types k : config ZAmp.

Lemma after_possible i m k : possible (after i m k) -> possible k.
Proof.
  assert (HX : forall q ψ, (exists b, (gX q ψ : state ZAmp) b <> a0) -> exists b, ψ b <> a0) by (intros q ψ [b Hb]; by exists (b ⊕ {[q]})).
  assert (HZ : forall q ψ, (exists b, (gZ q ψ : state ZAmp) b <> a0) -> exists b, ψ b <> a0).
  { intros q ψ [b Hb]. exists b. intros E. apply Hb. unfold gZ. rewrite E. apply sgn_0. }
  assert (HP : forall q m ψ, (exists b, (proj q m ψ : state ZAmp) b <> a0) -> exists b, ψ b <> a0).
  { intros q m' ψ [b Hb]. exists b. intros E. apply Hb. unfold proj. rewrite E. by destruct (Bool.eqb (mem q b) m'). }
  destruct k as [c ψ]. unfold possible. destruct i as [q|q|q|q|a t|a t|q|q b0|q r v|q r v|]; cbn [after fst snd]; intros Hp; try done; try (by eapply HX); try (by eapply HZ); try (by eapply HP).
  - destruct Hp as [b Hb]. unfold gH in Hb. destruct (ZAmp_dec (ψ (b ∖ {[q]}))) as [E|]; [|by eexists].
    exists (b ∪ {[q]}). intros E'. apply Hb. rewrite E, E', sgn_0. done.
  - destruct Hp as [b Hb]. rewrite gCX_eq in Hb. by eexists.
  - destruct Hp as [b Hb]. exists b. intros E. apply Hb. unfold gCZ. rewrite E. apply sgn_0.
  - destruct m; [eapply HP, HX, Hp|by eapply HP].
  - destruct (bool_decide _); [by eapply HX|done].
  - destruct (bool_decide _); [by eapply HZ|done].
Qed.
Lemma run_possible is : forall o k, possible (run is o k) -> possible k.
Proof.
  induction is as [|i is IHis]; intros o k Hp; [done|]. cbn in Hp. destruct (random i).
  - destruct o as [|m o]; [done|]. by eapply after_possible, IHis.
  - by eapply after_possible, IHis.
Qed.

Notation xor3 a b c := (xorb (xorb a b) c).
Record quad (k1 k2 k3 k4 : config ZAmp) : Prop := Quad {
  qd_pure : pure k1.2;
  qd_q : exists Q, sim Q k1.2 k2.2 /\ sim Q k3.2 k4.2;
  qd_r : exists P, sim P k1.2 k3.2;
  qd_c : forall b, k4.1 b = xor3 (k1.1 b) (k2.1 b) (k3.1 b) }.
Lemma xor3_swap a b c d : a = xor3 b c d -> xorb b c = xorb d a.
Proof. intros ->. by destruct b, c, d. Qed.
Lemma cval_one c (r : rhandle) : r.2 = 1 -> cval c r = Z.b2z (c (r.1, 0)).
Proof. destruct r as [n z]. cbn [fst snd]. intros ->. unfold cval. cbn [fst snd]. change (seqZ 0 1) with [0]. cbn [foldr]. destruct (c (n, 0)); reflexivity. Qed.
Lemma cond_affine (c1 c2 c3 c4 : cstate) (r : rhandle) v : r.2 = 1 -> (forall b, c4 b = xor3 (c1 b) (c2 b) (c3 b)) ->
  bool_decide (cval c4 r = v) = xor3 (bool_decide (cval c1 r = v)) (bool_decide (cval c2 r = v)) (bool_decide (cval c3 r = v)).
Proof.
  intros Hr Hc. rewrite !(cval_one _ r Hr), Hc. destruct (c1 (r.1, 0)), (c2 (r.1, 0)), (c3 (r.1, 0)); cbn [xorb Z.b2z];
    destruct (decide (v = 0)) as [->|H0]; try done; destruct (decide (v = 1)) as [->|H1]; try done;
    rewrite ?(bool_decide_eq_false_2 (1 = v)), ?(bool_decide_eq_false_2 (0 = v)) by congruence; done.
Qed.
Lemma pow_sim (E : pauli qubit) (g : state ZAmp -> state ZAmp) : (forall ψ, sim E (g ψ) ψ) -> (forall ψ, sim E ψ (g ψ)) ->
  forall (f1 f2 : bool) Q ψ φ, sim Q ψ φ -> sim (if xorb f1 f2 then pmul E Q else Q) (if f1 then g ψ else ψ) (if f2 then g φ else φ).
Proof.
  intros H1 H2 f1 f2 Q ψ φ HQ. destruct f1, f2; cbn.
  - pose proof (sim_trans _ _ _ _ _ (H1 ψ) (sim_trans _ _ _ _ _ HQ (H2 φ))) as H.
    replace (pmul E (pmul Q E)) with Q in H by (by rewrite (pmul_comm Q), pmul_assoc, pmul_self, pmul_id_l). done.
  - by eapply sim_trans.
  - rewrite pmul_comm. by eapply sim_trans.
  - done.
Qed.
Lemma pure_if (g : state ZAmp -> state ZAmp) (f : bool) ψ : (forall ψ, pure ψ -> pure (g ψ)) -> pure ψ -> pure (if f then g ψ else ψ).
Proof. intros H Hp. destruct f; auto. Qed.

Lemma quad_step U i m1 m2 m3 k1 k2 k3 k4 : well_formed U i -> quad k1 k2 k3 k4 ->
  possible (after i m1 k1) -> possible (after i m2 k2) -> possible (after i m3 k3) ->
  quad (after i m1 k1) (after i m2 k2) (after i m3 k3) (after i (xor3 m1 m2 m3) k4).
Proof.
  intros (Hpr & Hob & _) [Hp (Q & HQ & HQ') (P & HP) Hc] P1 P2 P3. destruct k1 as [c1 ψ1], k2 as [c2 ψ2], k3 as [c3 ψ3], k4 as [c4 ψ4]. cbn [fst snd] in *.
  assert (Hclif : forall (g : state ZAmp -> state ZAmp) (f : pauli qubit -> pauli qubit), (forall ψ φ Q, sim Q ψ φ -> sim (f Q) (g ψ) (g φ)) -> pure (g ψ1) ->
    quad (c1, g ψ1) (c2, g ψ2) (c3, g ψ3) (c4, g ψ4)).
  { intros g f Hg Hpg. split; cbn [fst snd]; [done|exists (f Q); split; by apply Hg|exists (f P); by apply Hg|done]. }
  (* both pairs and the diagonal adjusted to the outcomes *)
  assert (Hadj : forall q, (exists b, proj q m1 ψ1 b <> a0) -> (exists b, proj q m2 ψ2 b <> a0) -> (exists b, proj q m3 ψ3 b <> a0) ->
    exists Q' P', sim Q' ψ1 ψ2 /\ sim Q' ψ3 ψ4 /\ sim P' ψ1 ψ3 /\ m1 = xorb m2 (mem q (px Q')) /\ m3 = xorb (xor3 m1 m2 m3) (mem q (px Q')) /\ m1 = xorb m3 (mem q (px P'))).
  { intros q X1 X2 X3. destruct (adjust q m1 m2 Q ψ1 ψ2 Hp HQ X1 X2) as (Q' & HQ1 & E & Hall).
    destruct (adjust q m1 m3 P ψ1 ψ3 Hp HP X1 X3) as (P' & HP1 & E' & _). exists Q', P'. split_and!; try done.
    - by apply (Hall P).
    - rewrite E. destruct m2, m3, (mem q (px Q')); done. }
  destruct i as [q|q|q|q|a t|a t|q|q b0|q r v|q r v|]; cbn [after fst snd] in *; try done.
  - apply (Hclif (gH q) (hP q)); [|by apply pure_H]. intros ψ φ Q0 [s Hs]. eexists. by apply tied_H.
  - apply (Hclif (gX q) id); [|by apply pure_X]. intros ψ φ Q0 [s Hs]. eexists. by apply tied_X.
  - apply (Hclif (gZ q) id); [|by apply pure_Z]. intros ψ φ Q0 [s Hs]. eexists. by apply tied_Z.
  - by apply (Hclif id id).
  - apply (Hclif (gCX a t) (cxP a t)); [|by apply pure_CX]. intros ψ φ Q0 [s Hs]. eexists. by apply tied_CX.
  - apply (Hclif (gCZ a t) (czP a t)); [|by apply pure_CZ]. intros ψ φ Q0 [s Hs]. eexists. by apply tied_CZ.
  - unfold possible in *. cbn [fst snd] in *. change (exists b, reset_to q m1 ψ1 b <> a0) in P1. change (exists b, reset_to q m2 ψ2 b <> a0) in P2. change (exists b, reset_to q m3 ψ3 b <> a0) in P3.
    change (quad (c1, reset_to q m1 ψ1) (c2, reset_to q m2 ψ2) (c3, reset_to q m3 ψ3) (c4, reset_to q (xor3 m1 m2 m3) ψ4)).
    assert (HR : forall m (ψ : state ZAmp), (exists b, reset_to q m ψ b <> a0) -> exists b, proj q m ψ b <> a0).
    { intros m ψ Hb. destruct m; [|done]. destruct Hb as [b Hb]. by exists (b ⊕ {[q]}). }
    destruct (Hadj q) as (Q' & P' & A1 & A2 & A3 & E1 & E2 & E3); [by apply HR..|].
    split; cbn [fst snd]; [|exists (dropP q Q'); split; by eapply sim_reset|exists (dropP q P'); by eapply sim_reset|done].
    apply HR in P1. destruct m1; [apply pure_X|]; by apply pure_proj.
  - unfold possible in *. cbn [fst snd] in *. destruct (Hadj q) as (Q' & P' & A1 & A2 & A3 & E1 & E2 & E3); [done..|].
    split; cbn [fst snd]; [by apply pure_proj|exists Q'; split; by eapply sim_proj|exists P'; by eapply sim_proj|].
    intros b. unfold cupd. by case_bool_decide.
  - pose proof (cond_affine c1 c2 c3 c4 r v Hob Hc) as E. set (f1 := bool_decide (cval c1 r = v)) in *. set (f2 := bool_decide (cval c2 r = v)) in *.
    set (f3 := bool_decide (cval c3 r = v)) in *. set (f4 := bool_decide (cval c4 r = v)) in *.
    split; cbn [fst snd]; [by apply pure_if; [apply pure_X|]| | |done].
    + exists (if xorb f1 f2 then pmul (Xon {[q]}) Q else Q). split; [by apply pow_sim; [apply sim_X|apply sim_X'|]|].
      rewrite (xor3_swap _ _ _ _ E). by apply pow_sim; [apply sim_X|apply sim_X'|].
    + eexists. by apply (pow_sim (Xon {[q]})); [apply sim_X|apply sim_X'|].
  - pose proof (cond_affine c1 c2 c3 c4 r v Hob Hc) as E. set (f1 := bool_decide (cval c1 r = v)) in *. set (f2 := bool_decide (cval c2 r = v)) in *.
    set (f3 := bool_decide (cval c3 r = v)) in *. set (f4 := bool_decide (cval c4 r = v)) in *.
    split; cbn [fst snd]; [by apply pure_if; [apply pure_Z|]| | |done].
    + exists (if xorb f1 f2 then pmul (Zon {[q]}) Q else Q). split; [by apply pow_sim; [apply sim_Z|apply sim_Z'|]|].
      rewrite (xor3_swap _ _ _ _ E). by apply pow_sim; [apply sim_Z|apply sim_Z'|].
    + eexists. by apply (pow_sim (Zon {[q]})); [apply sim_Z|apply sim_Z'|].
  - by apply (Hclif id id).
Qed.
Definition xor_list (o o' : list bool) : list bool := zip_with xorb o o'.
Lemma choices_cons i is : choices (i :: is) = ((if random i then 1 else 0) + choices is)%nat.
Proof. unfold choices. rewrite filter_cons. destruct (random i); [by rewrite decide_True|by rewrite decide_False]. Qed.
Lemma quad_run U is : Forall (well_formed U) is -> forall o1 o2 o3 k1 k2 k3 k4, quad k1 k2 k3 k4 ->
  length o1 = choices is -> length o2 = choices is -> length o3 = choices is ->
  possible (run is o1 k1) -> possible (run is o2 k2) -> possible (run is o3 k3) ->
  quad (run is o1 k1) (run is o2 k2) (run is o3 k3) (run is (xor_list (xor_list o1 o2) o3) k4).
Proof.
  induction 1 as [|i is Hi His IHis]; intros o1 o2 o3 k1 k2 k3 k4 Hq L1 L2 L3 P1 P2 P3; [done|].
  rewrite choices_cons in L1, L2, L3. cbn [run] in *. destruct (random i) eqn:Er.
  - destruct o1 as [|m1 o1]; [done|]. destruct o2 as [|m2 o2]; [done|]. destruct o3 as [|m3 o3]; [done|].
    cbn in L1, L2, L3. cbn [xor_list zip_with]. injection L1 as L1. injection L2 as L2. injection L3 as L3.
    apply IHis; try done. eapply quad_step; try done; by eapply run_possible.
  - apply IHis; try done. change false with (xor3 false false false) at 4. eapply quad_step; try done; by eapply run_possible.
Qed.
