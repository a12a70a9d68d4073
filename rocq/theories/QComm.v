(** Instructions on different qubits and classical bits commute. *)
From Coq Require Import Ring.
From Verif Require Export QTotal.
From stdpp Require Export list.
Open Scope Z_scope.

(** Classical bits the instruction depends on. *)
Definition reads (i : instr) : list clbit := match i with IXIf _ r _ | IZIf _ r _ => pair r.1 <$> seqZ 0 r.2 | _ => [] end.
Record indep (i j : instr) : Prop := {
  in_q : forall q, q ∈ instr_qubits i -> q ∈ instr_qubits j -> False;
  in_ww : forall b, b ∈ writes i -> b ∈ writes j -> False;
  in_wr : forall b, b ∈ writes i -> b ∈ reads j -> False;
  in_rw : forall b, b ∈ reads i -> b ∈ writes j -> False }.
Lemma indep_sym i j : indep i j -> indep j i.
Proof. intros [H1 H2 H3 H4]. split; eauto. Qed.

(** [zs] is an interleaving of [xs] and [ys]. *)
Inductive weave {A} : list A -> list A -> list A -> Prop :=
| MNil : weave [] [] []
| MLeft x xs ys zs : weave xs ys zs -> weave (x :: xs) ys (x :: zs)
| MRight y xs ys zs : weave xs ys zs -> weave xs (y :: ys) (y :: zs).
Section weaving.
Context {A : Type}.
Implicit Types xs ys zs : list A.
Lemma weave_app xs ys zs xs' ys' zs' : weave xs ys zs -> weave xs' ys' zs' -> weave (xs ++ xs') (ys ++ ys') (zs ++ zs').
Proof. intros H H'. induction H; cbn; [done|by constructor..]. Qed.
Lemma weave_l xs : weave xs [] xs. Proof. induction xs; by constructor. Qed.
Lemma weave_r ys : weave [] ys ys. Proof. induction ys; by constructor. Qed.
Lemma weave_elem xs ys zs : weave xs ys zs -> forall i, i ∈ zs <-> i ∈ xs \/ i ∈ ys.
Proof. induction 1 as [|? ? ? ? ? IHm|? ? ? ? ? IHm]; intros i; rewrite ?elem_of_nil, ?elem_of_cons, ?IHm; tauto. Qed.
Lemma weave_filter (P : A -> Prop) `{forall x, Decision (P x)} xs ys zs : weave xs ys zs -> (forall x, x ∈ xs -> P x) -> (forall y, y ∈ ys -> ~ P y) -> filter P zs = xs.
Proof.
  induction 1 as [|x xs ys zs Hm IHm|y xs ys zs Hm IHm]; intros Hx Hy; [done|..].
  - rewrite filter_cons_True by (apply Hx; by left). f_equal. apply IHm; [|done]. intros; apply Hx; by right.
  - rewrite filter_cons_False by (apply Hy; by left). apply IHm; [done|]. intros; apply Hy; by right.
Qed.
Lemma weave_fmap {B} (f : A -> B) xs ys zs : weave xs ys zs -> weave (f <$> xs) (f <$> ys) (f <$> zs).
Proof. induction 1; cbn; by constructor. Qed.
End weaving.

Section comm.
Context {R : Amp}.
Implicit Types (k : config R) (ψ : state R).
Lemma R_ring3 : ring_theory (@a0 R) a1 aadd amul asub aopp eq.
Proof. exact (a_ring R). Qed.
Add Ring Rring3 : R_ring3.

(** Equal configurations (states are functions). *)
Definition keq k k' : Prop := (forall b, k.1 b = k'.1 b) /\ (forall b, k.2 b = k'.2 b).
Lemma keq_refl k : keq k k. Proof. done. Qed.
Lemma keq_sym k k' : keq k k' -> keq k' k. Proof. intros [H1 H2]. split; intros b; by rewrite ?H1, ?H2. Qed.
Lemma keq_trans k k' k'' : keq k k' -> keq k' k'' -> keq k k''.
Proof. intros [H1 H2] [H3 H4]. split; intros b; by rewrite ?H1, ?H3, ?H2, ?H4. Qed.
Lemma keq_possible k k' : keq k k' -> possible k -> possible k'.
Proof. intros [_ H] [b Hb]. exists b. by rewrite <-H. Qed.

(** Every instruction, for an outcome [m] (measurement, reset) and the truth value [v] of its
    condition, sends the state to [f b * ψ b + g b * ψ (b ⊕ S)]. *)
Definition iof (b : bool) : R := if b then a1 else a0.
Definition cf (i : instr) (m v : bool) (b : gset qubit) : R :=
  match i with
  | IH q | IZ q => sgn (mem q b) a1
  | IX _ => a0
  | IId _ | IBarrier => a1
  | ICX c _ => iof (negb (mem c b))
  | ICZ c t => sgn (mem c b && mem t b) a1
  | IMeas q _ => iof (Bool.eqb (mem q b) m)
  | IReset q => if m then a0 else iof (negb (mem q b))
  | IXIf _ _ _ => iof (negb v)
  | IZIf q _ _ => sgn (v && mem q b) a1
  end.
Definition cg (i : instr) (m v : bool) (b : gset qubit) : R :=
  match i with
  | IH _ | IX _ => a1
  | ICX c _ => iof (mem c b)
  | IReset q => iof (m && negb (mem q b))
  | IXIf _ _ _ => iof v
  | _ => a0
  end.
Definition cS (i : instr) : gset qubit := match i with IH q | IX q | IReset q | IXIf q _ _ | ICX _ q => {[q]} | _ => ∅ end.
Definition act (i : instr) (m v : bool) (ψ : state R) : state R := fun b => aadd (amul (cf i m v b) (ψ b)) (amul (cg i m v b) (ψ (b ⊕ cS i))).
Definition cond (i : instr) (c : cstate) : bool := match i with IXIf _ r v | IZIf _ r v => bool_decide (cval c r = v) | _ => false end.
Definition cset (i : instr) (m : bool) (c : cstate) : cstate := match i with IMeas _ k => cupd c k m | _ => c end.
Definition app_i (i : instr) (m : bool) k : config R := (cset i m k.1, act i m (cond i k.1) k.2).

Lemma act_eq i m v ψ b : act i m v ψ b = match i with
  | IH q => gH q ψ b | IX q => gX q ψ b | IZ q => gZ q ψ b | IId _ | IBarrier => ψ b
  | ICX c t => gCX c t ψ b | ICZ c t => gCZ c t ψ b | IMeas q _ => proj q m ψ b
  | IReset q => if m then gX q (proj q true ψ) b else proj q false ψ b
  | IXIf q _ _ => if v then gX q ψ b else ψ b
  | IZIf q _ _ => if v then gZ q ψ b else ψ b end.
Proof.
  unfold act. destruct i as [q|q|q|q|a t|a t|q|q k|q r w|q r w|]; cbn [cf cg cS].
  - rewrite gH_eq. destruct (mem q b); cbn [sgn bitset negb]; rewrite ?sd_empty_r; ring.
  - unfold gX. ring.
  - unfold gZ. destruct (mem q b); cbn [sgn]; ring.
  - ring.
  - unfold gCX. destruct (mem a b); cbn; ring.
  - unfold gCZ. destruct (mem a b && mem t b); cbn [sgn]; ring.
  - destruct m; unfold gX, proj.
    + rewrite mem_sd, mem_singleton, bool_decide_eq_true_2 by done. destruct (mem q b); cbn; ring.
    + destruct (mem q b); cbn; ring.
  - unfold proj. destruct (Bool.eqb (mem q b) m); cbn; ring.
  - unfold gX. destruct v; cbn; ring.
  - unfold gZ. destruct v, (mem q b); cbn; ring.
  - ring.
Qed.
Lemma step_app i k k' : step i k k' -> exists m, keq k' (app_i i m k).
Proof.
  intros Hs. destruct Hs; cbn.
  all: first [exists m | exists true; split; intros b; cbn; [done|]; rewrite act_eq; (done || (cbn; by case_bool_decide)) | exists false; split; intros b; cbn; [done|]; by rewrite act_eq].
  split; intros b; cbn; [done|]. by rewrite act_eq.
Qed.
Lemma app_step i m k : exists k', step i k k' /\ keq k' (app_i i m k).
Proof.
  destruct k as [c ψ]. destruct i as [q|q|q|q|a t|a t|q|q k|q r w|q r w|]; cbn; try (eexists; split; [econstructor|]; split; intros b; cbn; [done|]; by rewrite act_eq).
  - destruct m; [eexists; split; [apply SReset1|]|eexists; split; [apply SReset0|]]; split; intros b; cbn; try done; by rewrite act_eq.
  - destruct (decide (cval c r = w)); eexists; (split; [by econstructor|]); split; intros b; cbn; try done; rewrite act_eq; by case_bool_decide.
  - destruct (decide (cval c r = w)); eexists; (split; [by econstructor|]); split; intros b; cbn; try done; rewrite act_eq; by case_bool_decide.
Qed.
Lemma cval_ext c c' r : (forall j, (r.1, j) ∈ pair r.1 <$> seqZ 0 r.2 -> c (r.1, j) = c' (r.1, j)) -> cval c r = cval c' r.
Proof.
  intros H. unfold cval. assert (HI : forall j, j ∈ seqZ 0 r.2 -> c (r.1, j) = c' (r.1, j)) by (intros j Hj; apply H; by apply elem_of_list_fmap_1).
  clear H. induction (seqZ 0 r.2) as [|j l IHl]; [done|]. cbn. rewrite HI by (by left). rewrite IHl; [done|]. intros; apply HI; by right.
Qed.
Lemma cond_ext i c c' : (forall b, b ∈ reads i -> c b = c' b) -> cond i c = cond i c'.
Proof.
  intros H. destruct i; try done; cbn in *; apply bool_decide_ext; (erewrite cval_ext; [done|]); intros j Hj; by apply H.
Qed.
Lemma app_keq i m k k' : keq k k' -> keq (app_i i m k) (app_i i m k').
Proof.
  intros [H1 H2]. split; intros b.
  - cbn. destruct i; cbn; try done. unfold cupd. by case_bool_decide.
  - cbn. rewrite (cond_ext i k.1 k'.1) by done. unfold act. by rewrite !H2.
Qed.
Lemma step_keq i k0 k1 k0' : keq k0 k0' -> step i k0 k1 -> exists k1', step i k0' k1' /\ keq k1 k1'.
Proof.
  intros Hk [m Hm]%step_app. destruct (app_step i m k0') as (k1' & Hs & Hk'). exists k1'. split; [done|].
  eapply keq_trans; [exact Hm|]. eapply keq_trans; [by apply app_keq|]. by apply keq_sym.
Qed.
Lemma exec_keq is k0 k1 k0' : keq k0 k0' -> exec is k0 k1 -> exists k1', exec is k0' k1' /\ keq k1 k1'.
Proof.
  intros Hk He. revert k0' Hk. induction He as [k|i is k k1 k2 Hs He IHe]; intros k0' Hk.
  - exists k0'. split; [constructor|done].
  - destruct (step_keq _ _ _ _ Hk Hs) as (k1' & Hs' & Hk1). destruct (IHe _ Hk1) as (k2' & He' & Hk2). exists k2'. split; [by econstructor|done].
Qed.

(** The coefficients depend only on the instruction's own qubits. *)
Lemma mem_shift (q : qubit) (b S : gset qubit) : q ∉ S -> mem q (b ⊕ S) = mem q b.
Proof. intros H. rewrite mem_sd. rewrite (proj2 (mem_false q S)) by done. apply xorb_false_r. Qed.
Lemma coef_shift i m v b S : (forall q, q ∈ instr_qubits i -> q ∉ S) -> cf i m v (b ⊕ S) = cf i m v b /\ cg i m v (b ⊕ S) = cg i m v b.
Proof.
  intros H. destruct i as [q|q|q|q|a t|a t|q|q k|q r w|q r w|]; cbn [cf cg] in *; try done;
    rewrite ?(mem_shift q), ?(mem_shift a), ?(mem_shift t) by (apply H; cbn; set_solver); done.
Qed.
Lemma cS_qubits i q : q ∈ cS i -> q ∈ instr_qubits i.
Proof. destruct i; cbn; set_solver. Qed.
Lemma act_comm i j m v m' v' ψ b : (forall q, q ∈ instr_qubits i -> q ∈ instr_qubits j -> False) ->
  act j m' v' (act i m v ψ) b = act i m v (act j m' v' ψ) b.
Proof.
  intros Hd. unfold act.
  destruct (coef_shift i m v b (cS j)) as [-> ->]; [intros q Hq Hq'%cS_qubits; by eapply Hd|].
  destruct (coef_shift j m' v' b (cS i)) as [-> ->]; [intros q Hq Hq'%cS_qubits; by eapply Hd|].
  replace (b ⊕ cS i ⊕ cS j) with (b ⊕ cS j ⊕ cS i); [ring|]. rewrite <-!sd_assoc. f_equal. apply sd_comm.
Qed.
Lemma app_comm i j m m' k : indep i j -> keq (app_i j m' (app_i i m k)) (app_i i m (app_i j m' k)).
Proof.
  intros [Hq Hww Hwr Hrw].
  assert (E1 : cond j (cset i m k.1) = cond j k.1).
  { apply cond_ext. intros b Hb. destruct i; try done. cbn in *. unfold cupd. case_bool_decide; [|done]. subst. exfalso. eapply Hwr; [|exact Hb]. by left. }
  assert (E2 : cond i (cset j m' k.1) = cond i k.1).
  { apply cond_ext. intros b Hb. destruct j; try done. cbn in *. unfold cupd. case_bool_decide; [|done]. subst. exfalso. eapply Hrw; [exact Hb|]. by left. }
  split; intros b; cbn [fst snd app_i].
  - destruct i as [ | | | | | | |q k1| | | ], j as [ | | | | | | |q' k2| | | ]; try done. cbn in *. unfold cupd. repeat case_bool_decide; subst; try done.
    exfalso. eapply Hww; by left.
  - rewrite E1, E2. by apply act_comm.
Qed.
Lemma step_comm i j k0 k1 k2 : indep i j -> step i k0 k1 -> step j k1 k2 -> exists k1' k2', step j k0 k1' /\ step i k1' k2' /\ keq k2 k2'.
Proof.
  intros Hi [m Hm]%step_app [m' Hm']%step_app. destruct (app_step j m' k0) as (k1' & Hs1 & Hk1). destruct (app_step i m k1') as (k2' & Hs2 & Hk2).
  exists k1', k2'. split_and!; [done|done|].
  eapply keq_trans; [exact Hm'|]. eapply keq_trans; [by apply app_keq|]. eapply keq_trans; [by apply app_comm|].
  eapply keq_trans; [apply app_keq, keq_sym; exact Hk1|]. by apply keq_sym.
Qed.
(** An instruction moves over a block. *)
Lemma move_right i js k0 k1 : (forall j, j ∈ js -> indep i j) -> exec (i :: js) k0 k1 -> exists k1', exec (js ++ [i]) k0 k1' /\ keq k1 k1'.
Proof.
  revert k0 k1. induction js as [|j js IHj]; intros k0 k1 Hi He; [exists k1; done|].
  inversion He as [|? ? ? ka ? Hs1 He1]; subst. inversion He1 as [|? ? ? kb ? Hs2 He2]; subst.
  destruct (step_comm i j k0 ka kb) as (ka' & kb' & S1 & S2 & Hk); [apply Hi; by left|done|done|].
  destruct (exec_keq js kb k1 kb' Hk He2) as (k1' & He2' & Hk1).
  destruct (IHj ka' k1') as (k1'' & He' & Hk'); [intros; apply Hi; by right|by econstructor|].
  exists k1''. split; [cbn; by econstructor|]. by eapply keq_trans.
Qed.
Lemma move_left i js k0 k1 : (forall j, j ∈ js -> indep i j) -> exec (js ++ [i]) k0 k1 -> exists k1', exec (i :: js) k0 k1' /\ keq k1 k1'.
Proof.
  revert k0 k1. induction js as [|j js IHj]; intros k0 k1 Hi He; [exists k1; done|].
  cbn in He. inversion He as [|? ? ? ka ? Hs1 He1]; subst.
  destruct (IHj ka k1) as (k1' & He1' & Hk1); [intros; apply Hi; by right|done|].
  inversion He1' as [|? ? ? kb ? Hs2 He2]; subst.
  destruct (step_comm j i k0 ka kb) as (ka' & kb' & S1 & S2 & Hk); [apply indep_sym, Hi; by left|done|done|].
  destruct (exec_keq js kb k1' kb' Hk He2) as (k1'' & He2' & Hk2).
  exists k1''. split; [econstructor; [done|]; by econstructor|]. by eapply keq_trans.
Qed.

Definition all_indep (xs ys : list instr) : Prop := forall x y, x ∈ xs -> y ∈ ys -> indep x y.
Lemma weave_split xs ys is k0 k1 : weave xs ys is -> all_indep xs ys -> exec is k0 k1 -> exists k1', exec (xs ++ ys) k0 k1' /\ keq k1 k1'.
Proof.
  intros Hm. revert k0 k1. induction Hm as [|x xs ys is Hm IHm|y xs ys is Hm IHm]; intros k0 k1 Hi He; [by exists k1|..].
  - inversion He as [|? ? ? ka ? Hs He1]; subst. destruct (IHm ka k1) as (k1' & He' & Hk); [intros ? ? ? ?; apply Hi; [by right|done]|done|].
    exists k1'. split; [cbn; by econstructor|done].
  - inversion He as [|? ? ? ka ? Hs He1]; subst. destruct (IHm ka k1) as (k1' & He' & Hk); [intros ? ? ? ?; apply Hi; [done|by right]|done|].
    apply exec_app in He' as (kb & Hb1 & Hb2).
    destruct (move_right y xs k0 kb) as (kb' & He2 & Hkb); [intros x Hx; apply indep_sym, Hi; [done|by left]|by econstructor|].
    destruct (exec_keq ys kb k1' kb' Hkb Hb2) as (k1'' & Hb2' & Hk1).
    exists k1''. split; [|by eapply keq_trans]. change (y :: ys) with ([y] ++ ys). rewrite app_assoc. apply exec_app. by exists kb'.
Qed.
Lemma weave_join xs ys is k0 k1 : weave xs ys is -> all_indep xs ys -> exec (xs ++ ys) k0 k1 -> exists k1', exec is k0 k1' /\ keq k1 k1'.
Proof.
  intros Hm. revert k0 k1. induction Hm as [|x xs ys is Hm IHm|y xs ys is Hm IHm]; intros k0 k1 Hi He; [by exists k1|..].
  - cbn in He. inversion He as [|? ? ? ka ? Hs He1]; subst. destruct (IHm ka k1) as (k1' & He' & Hk); [intros ? ? ? ?; apply Hi; [by right|done]|done|].
    exists k1'. split; [by econstructor|done].
  - change (y :: ys) with ([y] ++ ys) in He. rewrite app_assoc in He. apply exec_app in He as (kb & Hb1 & Hb2).
    destruct (move_left y xs k0 kb) as (kb' & He2 & Hkb); [intros x Hx; apply indep_sym, Hi; [done|by left]|done|].
    destruct (exec_keq ys kb k1 kb' Hkb Hb2) as (k1' & Hb2' & Hk1).
    inversion He2 as [|? ? ? ka ? Hs He1]; subst.
    destruct (IHm ka k1') as (k1'' & He' & Hk); [intros ? ? ? ?; apply Hi; [done|by right]|apply exec_app; by exists kb'|].
    exists k1''. split; [by econstructor|by eapply keq_trans].
Qed.
(** A possible execution has only possible prefixes. *)
Lemma step_zero i k k' : step i k k' -> (forall b, k.2 b = a0) -> forall b, k'.2 b = a0.
Proof.
  intros [m [_ Hm]]%step_app H b. rewrite Hm. cbn. unfold act. rewrite !H. ring.
Qed.
Lemma exec_zero is k k' : exec is k k' -> (forall b, k.2 b = a0) -> forall b, k'.2 b = a0.
Proof. induction 1 as [|? ? ? ? ? Hs He IHe]; intros Hz; [done|]. apply IHe. by eapply step_zero. Qed.
(** ... and can be traced back, if amplitudes are zero or not zero. *)
Context (Hdec : forall x : R, x = a0 \/ x <> a0).
Lemma step_back i k k' : step i k k' -> possible k' -> possible k.
Proof.
  intros [m [_ Hm]]%step_app [b Hb]. rewrite Hm in Hb. cbn in Hb. unfold act in Hb.
  destruct (Hdec (k.2 b)) as [E1|]; [|by exists b]. destruct (Hdec (k.2 (b ⊕ cS i))) as [E2|]; [|by eexists].
  exfalso. apply Hb. rewrite E1, E2. ring.
Qed.
Lemma exec_back is k k' : exec is k k' -> possible k' -> possible k.
Proof. induction 1 as [|? ? ? ? ? Hs He IHe]; intros Hp; [done|]. by eapply step_back, IHe. Qed.
End comm.
