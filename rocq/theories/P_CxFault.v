(** Property C63: one error inside a cx is a logical error that leaves no trace. *)
From Verif Require Import Par SpecProgram P_Cx P_Multi P_Program Ideal.
From stdpp Require Export list.
Open Scope Z_scope.

(** ** Configurations that agree except on the bit "m1" *)
Definition m1b : clbit := ("m1"%string, 0).
Definition alike {A : Amp} (k k' : config A) : Prop := (forall b, b <> m1b -> k.1 b = k'.1 b) /\ (forall b, k.2 b = k'.2 b).
(** Two circuits that behave alike from every starting point: the same final states, the same
    classical bits. *)
Definition same_runs (A : Amp) (is is' : list instr) : Prop := forall k0 : config A,
  (forall k1, exec is k0 k1 -> exists k1', exec is' k0 k1' /\ alike k1 k1') /\
  (forall k1', exec is' k0 k1' -> exists k1, exec is k0 k1 /\ alike k1 k1').

Section sim.
Context {A : Amp}.
Implicit Types (k : config A).
Definition flip k k' : Prop := alike k k' /\ k.1 m1b = negb (k'.1 m1b).
Lemma alike_refl k : alike k k. Proof. done. Qed.
Lemma alike_sym k k' : alike k k' -> alike k' k. Proof. intros [H1 H2]. split; intros b *; [intros Hb|]; by rewrite ?H1, ?H2. Qed.
Lemma alike_trans k k' k'' : alike k k' -> alike k' k'' -> alike k k''.
Proof. intros [H1 H2] [H3 H4]. split; intros b *; [intros Hb|]; by rewrite ?H1, ?H3, ?H2, ?H4. Qed.
Lemma flip_sym k k' : flip k k' -> flip k' k. Proof. intros [H1 H2]. split; [by apply alike_sym|]. rewrite H2. by rewrite negb_involutive. Qed.
Lemma keq_alike k k' : keq k k' -> alike k k'. Proof. intros [H1 H2]. split; intros; done. Qed.
Lemma flip_keq k k' k1 k1' : flip k k' -> keq k1 k -> keq k1' k' -> flip k1 k1'.
Proof.
  intros [[H1 H2] H3] [E1 E2] [E1' E2']. split; [split; intros b *; [intros Hb|]; by rewrite ?E1, ?E1', ?E2, ?E2', ?H1, ?H2|]. by rewrite E1, E1'.
Qed.
Lemma app_alike i m k k' : m1b ∉ reads i -> alike k k' -> alike (app_i i m k) (app_i i m k').
Proof.
  intros Hr [H1 H2]. split.
  - intros b Hb. cbn. destruct i; cbn; try (by apply H1). unfold cupd. case_bool_decide; [done|by apply H1].
  - intros b. cbn. rewrite (cond_ext i k.1 k'.1) by (intros b' Hb'; apply H1; by intros ->). unfold QComm.act. by rewrite !H2.
Qed.
Lemma step_flip i k k' k1 : m1b ∉ reads i -> m1b ∉ writes i -> flip k k' -> step i k k1 -> exists k1', step i k' k1' /\ flip k1 k1'.
Proof.
  intros Hr Hw [Ha Hf] [m Hm]%step_app. destruct (app_step i m k') as (k1' & Hs & Hk'). exists k1'. split; [done|].
  eapply flip_keq; [|exact Hm|exact Hk']. split; [by apply app_alike|]. cbn. destruct i; cbn in *; try done.
  unfold cupd. rewrite bool_decide_eq_false_2 by set_solver. done.
Qed.
Lemma exec_flip is k k' k1 : (forall i, i ∈ is -> m1b ∉ reads i /\ m1b ∉ writes i) -> flip k k' -> exec is k k1 -> exists k1', exec is k' k1' /\ flip k1 k1'.
Proof.
  intros Hi Hf He. revert k' Hf. induction He as [k|i is k k2 k3 Hs He IHe]; intros k' Hf; [by exists k'; split; [constructor|]|].
  destruct (Hi i) as [H1 H2]; [by left|]. destruct (step_flip i k k' k2 H1 H2 Hf Hs) as (k2' & Hs' & Hf').
  destruct (IHe (fun j Hj => Hi j (elem_of_list_further _ _ _ Hj)) k2' Hf') as (k3' & He' & Hf3). exists k3'. split; [by econstructor|done].
Qed.

(** "m1" is written before it is read. *)
Fixpoint covered (is : list instr) : Prop :=
  match is with [] => True | i :: is' => m1b ∉ reads i /\ (m1b ∈ writes i \/ covered is') end.
Lemma covered_app is js : covered is -> covered js -> covered (is ++ js).
Proof. intros H1 H2. induction is as [|i is IHl]; [done|]. destruct H1 as [H1 [H3|H3]]; (split; [done|]); [by left|right; by apply IHl]. Qed.
Lemma covered_quiet is : (forall i, i ∈ is -> reads i = []) -> covered is.
Proof.
  induction is as [|i is IHl]; intros H; [done|]. split; [rewrite H by (by left); apply not_elem_of_nil|right].
  apply IHl. intros; apply H. by right.
Qed.
Lemma covered_write is q js : (forall i, i ∈ is -> reads i = []) -> covered (is ++ IMeas q m1b :: js).
Proof.
  induction is as [|i is IHl]; intros H; cbn [app].
  - split; [apply not_elem_of_nil|left; by left].
  - split; [rewrite H by (by left); apply not_elem_of_nil|right]. apply IHl. intros; apply H. by right.
Qed.
Lemma exec_alike is k k' k1 : covered is -> alike k k' -> exec is k k1 -> exists k1', exec is k' k1' /\ alike k1 k1'.
Proof.
  intros Hc Ha He. revert k' Ha Hc. induction He as [k|i is k k2 k3 Hs He IHe]; intros k' Ha Hc; [by exists k'; split; [constructor|]|].
  destruct Hc as [Hr Hc]. apply step_app in Hs as [m Hm]. destruct (app_step i m k') as (k2' & Hs' & Hk').
  assert (Ha2 : alike k2 k2').
  { eapply alike_trans; [by apply keq_alike|]. eapply alike_trans; [by apply app_alike|]. by apply alike_sym, keq_alike. }
  destruct Hc as [Hw|Hc].
  - assert (Hq : keq k2 k2').
    { destruct Ha2 as [H1 H2]. split; [|done]. intros b. destruct (decide (b = m1b)) as [->|Hb]; [|by apply H1].
      destruct i; try (by apply elem_of_nil in Hw). apply elem_of_list_singleton in Hw as <-.
      rewrite (proj1 Hm), (proj1 Hk'). cbn. unfold cupd. by rewrite bool_decide_eq_true_2. }
    destruct (exec_keq is k2 k3 k2' Hq He) as (k3' & He' & Hq3). exists k3'. split; [by econstructor|by apply keq_alike].
  - destruct (IHe k2' Ha2 Hc) as (k3' & He' & Ha3). exists k3'. split; [by econstructor|done].
Qed.
Lemma exec_ex is k : exists k1, exec is k k1.
Proof.
  revert k. induction is as [|i is IHl]; intros k; [exists k; constructor|].
  destruct (app_step i true k) as (k1 & Hs & _). destruct (IHl k1) as (k2 & He). exists k2. by econstructor.
Qed.

(** ** The error, and the reset after it *)
Lemma eqb_negb (a b : bool) : Bool.eqb (negb a) (negb b) = Bool.eqb a b. Proof. by destruct a, b. Qed.
Lemma fault_fwd (q : qubit) k k1 : exec [IX q; IMeas q m1b; IReset q] k k1 -> exists k1', exec [IMeas q m1b; IReset q] k k1' /\ flip k1 k1'.
Proof.
  destruct k as [c ψ]. intros He. inversion He as [|? ? ? ka ? Ha He1]; subst. inversion Ha; subst. inversion He1 as [|? ? ? kb ? Hb He2]; subst. inversion Hb; subst.
  inversion He2 as [|? ? ? kc ? Hc He3]; subst. inversion He3; subst.
  assert (HF : forall ψ1 ψ2 : state A, (forall b, ψ1 b = ψ2 b) -> flip (cupd c m1b m, ψ1) (cupd c m1b (negb m), ψ2)).
  { intros ψ1 ψ2 H. split; [split; [|done]|].
    - intros b Hb'. cbn. unfold cupd. by rewrite !bool_decide_eq_false_2.
    - cbn. unfold cupd. rewrite !bool_decide_eq_true_2 by done. by rewrite negb_involutive. }
  assert (HM : forall b, mem q (b ⊕ {[q]}) = negb (mem q b)).
  { intros b. rewrite mem_sd, mem_singleton, bool_decide_eq_true_2 by done. by destruct (mem q b). }
  inversion Hc; subst.
  - exists (cupd c m1b (negb m), gX q (proj q true (proj q (negb m) ψ))). split; [econstructor; [constructor|]; econstructor; [apply SReset1|constructor]|].
    apply HF. intros b. unfold proj, gX. rewrite HM, eqb_negb. by destruct (mem q b).
  - exists (cupd c m1b (negb m), proj q false (proj q (negb m) ψ)). split; [econstructor; [constructor|]; econstructor; [apply SReset0|constructor]|].
    apply HF. intros b. unfold proj, gX. rewrite HM, sd_cancel. destruct (mem q b), m; done.
Qed.
Lemma fault_bwd (q : qubit) k k1 : exec [IMeas q m1b; IReset q] k k1 -> exists k1', exec [IX q; IMeas q m1b; IReset q] k k1' /\ flip k1' k1.
Proof.
  destruct k as [c ψ]. intros He. inversion He as [|? ? ? kb ? Hb He2]; subst. inversion Hb; subst.
  inversion He2 as [|? ? ? kc ? Hc He3]; subst. inversion He3; subst.
  assert (HF : forall ψ1 ψ2 : state A, (forall b, ψ1 b = ψ2 b) -> flip (cupd c m1b (negb m), ψ1) (cupd c m1b m, ψ2)).
  { intros ψ1 ψ2 H. split; [split; [|done]|].
    - intros b Hb'. cbn. unfold cupd. by rewrite !bool_decide_eq_false_2.
    - cbn. unfold cupd. by rewrite !bool_decide_eq_true_2 by done. }
  assert (HM : forall b, mem q (b ⊕ {[q]}) = negb (mem q b)).
  { intros b. rewrite mem_sd, mem_singleton, bool_decide_eq_true_2 by done. by destruct (mem q b). }
  inversion Hc; subst.
  - exists (cupd c m1b (negb m), gX q (proj q true (proj q (negb m) (gX q ψ)))). split.
    { econstructor; [constructor|]. econstructor; [constructor|]. econstructor; [apply SReset1|constructor]. }
    apply HF. intros b. unfold proj, gX. rewrite HM, sd_cancel. destruct (mem q b), m; done.
  - exists (cupd c m1b (negb m), proj q false (proj q (negb m) (gX q ψ))). split.
    { econstructor; [constructor|]. econstructor; [constructor|]. econstructor; [apply SReset0|constructor]. }
    apply HF. intros b. unfold proj, gX. rewrite HM. destruct (mem q b), m; done.
Qed.

(** ** The corrections at the end of the call *)
Section layer.
Context (t : side) (Hv : valid_size (sd_h t) (sd_w t)).
Definition xlayer : list instr := (xgate (sd_c t) (sd_n t) <$> col_list (sd_h t) (sd_w t)).
Definition iflayer (x : string) : list instr := (xifgate (sd_c t) (sd_n t) (x, 1) 1 <$> col_list (sd_h t) (sd_w t)) ++ [IBarrier].
Lemma sLX_xz : dot (px (sLX t)) (pz (sLX t)) = false.
Proof.
  unfold sLX, pmap. cbn [px pz]. rewrite dot_img by apply _. unfold log_x. destruct (sd_c t); [apply dot_empty_r|].
  apply dot_disj. intros q H1 H2. apply mem_true in H1. apply mem_true in H2. rewrite mem_hconj_x in H1. rewrite mem_hconj_z in H2.
  destruct (mem q (even_set _ _)); cbn [px pz Xon] in *; by rewrite mem_empty in *.
Qed.
Lemma act_twice (φ : state A) : peq (QFacts.act (sLX t) (QFacts.act (sLX t) φ)) φ.
Proof. intros b. rewrite act_mul, sLX_xz, pmul_self. cbn. apply act_pid. Qed.
Lemma xlayer_act k k1 : exec xlayer k k1 -> k1.1 = k.1 /\ peq k1.2 (QFacts.act (sLX t) k.2).
Proof.
  intros He. eapply gates_act; [by apply logx_gates| |exact He].
  assert (E : mjoin (instr_qubits <$> (xgate (sd_c t) (sd_n t) <$> col_list (sd_h t) (sd_w t))) = dq (sd_n t) <$> col_list (sd_h t) (sd_w t)).
  { induction (col_list (sd_h t) (sd_w t)) as [|z l IHl]; [done|]. rewrite !fmap_cons.
    match goal with |- mjoin (?x :: ?y) = _ => change (mjoin (x :: y)) with (x ++ mjoin y) end. rewrite IHl.
    unfold xgate at 1. destruct (sd_c t); [done|]. by case_bool_decide. }
  rewrite E. apply NoDup_fmap_2_strong; [|by apply col_list_NoDup]. intros ? ? _ _. apply dq_inj.
Qed.
Lemma iflayer_act x k k1 : exec (iflayer x) k k1 -> k1.1 = k.1 /\ peq k1.2 (if k.1 (x, 0) then QFacts.act (sLX t) k.2 else k.2).
Proof.
  intros He%exec_bar. apply (exec_cond _ (xgate (sd_c t) (sd_n t)) x) in He as [H1 H2].
  - split; [done|]. destruct (k.1 (x, 0)); [by apply xlayer_act|by subst].
  - intros i. unfold xifgate, xgate. destruct (sd_c t); [left; eauto|]. case_bool_decide; [left|right]; eauto.
Qed.
Definition xtimes (b : bool) (φ : state A) : state A := if b then QFacts.act (sLX t) φ else φ.
Lemma xtimes_peq b φ φ' : peq φ φ' -> peq (xtimes b φ) (xtimes b φ').
Proof. destruct b; [apply act_peq|done]. Qed.
Lemma xtimes_xor b b' φ : peq (xtimes b (xtimes b' φ)) (xtimes (xorb b b') φ).
Proof. destruct b, b'; cbn; try done. apply act_twice. Qed.
Definition corr : list instr := iflayer "m1" ++ iflayer "m3".
Lemma corr_act k k1 : exec corr k k1 -> k1.1 = k.1 /\ peq k1.2 (xtimes (xorb (k.1 ("m3"%string, 0)) (k.1 m1b)) k.2).
Proof.
  intros (k2 & H1 & H2)%exec_app. destruct (iflayer_act _ _ _ H1) as [E1 S1]. destruct (iflayer_act _ _ _ H2) as [E2 S2]. split; [congruence|].
  intros b. rewrite S2, E1.
  transitivity (xtimes (k.1 ("m3"%string, 0)) (xtimes (k.1 m1b) k.2) b); [|apply xtimes_xor]. by apply (xtimes_peq (k.1 ("m3"%string, 0)) k2.2).
Qed.
Lemma corrx_act k k1 : exec (corr ++ xlayer ++ [IBarrier]) k k1 -> k1.1 = k.1 /\ peq k1.2 (xtimes (negb (xorb (k.1 ("m3"%string, 0)) (k.1 m1b))) k.2).
Proof.
  intros (k2 & H1 & H2%exec_bar)%exec_app. destruct (corr_act _ _ H1) as [E1 S1]. destruct (xlayer_act _ _ H2) as [E2 S2]. split; [congruence|].
  intros b. rewrite S2. transitivity (xtimes true (xtimes (xorb (k.1 ("m3"%string, 0)) (k.1 m1b)) k.2) b); [by apply (xtimes_peq true)|].
  rewrite xtimes_xor. by rewrite xorb_true_l.
Qed.
Lemma corr_flip k k' k1 k1' : flip k k' -> exec corr k k1 -> exec (corr ++ xlayer ++ [IBarrier]) k' k1' -> alike k1 k1'.
Proof.
  intros [[H1 H2] H3] [E1 S1]%corr_act [E2 S2]%corrx_act. split.
  - intros b Hb. rewrite E1, E2. by apply H1.
  - intros b. rewrite S1, S2, H3, (H1 ("m3"%string, 0)) by done.
    replace (xorb (k'.1 ("m3"%string, 0)) (negb (k'.1 m1b))) with (negb (xorb (k'.1 ("m3"%string, 0)) (k'.1 m1b))) by (by destruct (k'.1 _), (k'.1 _)).
    by apply xtimes_peq.
Qed.
End layer.
End sim.

(** ** One call of cx with the error *)
Section cx.
Context (c t a : side) (Hsep : separate [c; t; a]).
(** Up to the first measurement, and from the first reset to the corrections. *)
Definition cx_head : list instr :=
  rs_x (sd_c a) (sd_n a) (num_data (sd_h a) (sd_w a)) ++ [IReset ro] ++
  (into_z (sd_c c) (sd_n c) (sd_w c) ++ [ICX (ancq (sd_n c)) ro]) ++
  (into_z (sd_c a) (sd_n a) (sd_w a) ++ [ICX (ancq (sd_n a)) ro]).
Definition cx_rest : list instr :=
  [IH ro] ++
  ((cxgate (sd_c t) (sd_n t) ro <$> col_list (sd_h t) (sd_w t)) ++ [IBarrier]) ++
  ((cxgate (sd_c a) (sd_n a) ro <$> col_list (sd_h a) (sd_w a)) ++ [IBarrier]) ++
  [IH ro; IMeas ro ("m2"%string, 0)] ++ rd_z (sd_c a) (sd_n a) (sd_w a) ("m3"%string, 1) ++
  ((zifgate (sd_c c) (sd_n c) ("m2"%string, 1) 1 <$> row_list (sd_w c)) ++ [IBarrier]).
Lemma cx_split : cx_code c t a = cx_head ++ IMeas ro m1b :: IReset ro :: cx_rest ++ corr t.
Proof.
  unfold cx_code, cx_pre, cx_mid, cx_post, cx_head, cx_rest, corr, iflayer. by rewrite <-?app_assoc.
Qed.
Definition silent (i : instr) : Prop := reads i = [] /\ writes i = [].
Lemma into_silent s i : i ∈ into_z (sd_c s) (sd_n s) (sd_w s) -> silent i.
Proof. intros [->|Hi%compile_gate%gate_rw]%elem_of_cons; done. Qed.
Lemma map_silent (f : Z -> instr) (l : list Z) i : (forall z, gate (f z)) -> i ∈ f <$> l -> silent i.
Proof. intros Hf (z & -> & _)%elem_of_list_fmap. by apply gate_rw. Qed.
Lemma qmap_silent (f : qubit -> instr) (l : list qubit) i : (forall z, gate (f z)) -> i ∈ f <$> l -> silent i.
Proof. intros Hf (z & -> & _)%elem_of_list_fmap. by apply gate_rw. Qed.
Lemma head_silent i : i ∈ cx_head -> silent i.
Proof.
  unfold cx_head, rs_x. rewrite !elem_of_app. intros Hi. repeat match goal with H : _ \/ _ |- _ => destruct H as [H|H] end.
  - by eapply (qmap_silent IReset).
  - destruct (sd_c a); [apply elem_of_app in Hi as [Hi| ->%elem_of_list_singleton]; [|done]|]; by eapply (qmap_silent IH).
  - by apply elem_of_list_singleton in Hi as ->.
  - by eapply into_silent.
  - by apply elem_of_list_singleton in Hi as ->.
  - by eapply into_silent.
  - by apply elem_of_list_singleton in Hi as ->.
Qed.
Lemma rest_quiet i : i ∈ cx_rest -> m1b ∉ reads i /\ m1b ∉ writes i.
Proof.
  assert (HS : silent i -> m1b ∉ reads i /\ m1b ∉ writes i) by (intros [-> ->]; split; apply not_elem_of_nil).
  assert (HG : forall d z, gate (cxgate (sd_c d) (sd_n d) ro z)).
  { intros d z. unfold cxgate. destruct (sd_c d); [done|]. by case_bool_decide. }
  unfold cx_rest, rd_z. rewrite !elem_of_app. intros Hi. repeat match goal with H : _ \/ _ |- _ => destruct H as [H|H] end.
  - apply elem_of_list_singleton in Hi as ->. by apply HS.
  - apply HS. eapply map_silent; [|exact Hi]. intros; apply HG.
  - apply elem_of_list_singleton in Hi as ->. by apply HS.
  - apply HS. eapply map_silent; [|exact Hi]. intros; apply HG.
  - apply elem_of_list_singleton in Hi as ->. by apply HS.
  - apply elem_of_cons in Hi as [->|Hi]; [by apply HS|]. apply elem_of_list_singleton in Hi as ->. split; [apply not_elem_of_nil|]. intros [=]%elem_of_list_singleton.
  - apply HS. by eapply into_silent.
  - apply elem_of_list_fmap in Hi as (b & -> & Hb). unfold reg_bits in Hb. apply elem_of_list_fmap in Hb as (z & -> & _).
    split; [apply not_elem_of_nil|]. intros [=]%elem_of_list_singleton.
  - apply elem_of_list_singleton in Hi as ->. by apply HS.
  - apply elem_of_list_fmap in Hi as (z & -> & _). assert (HR : m1b ∉ (pair "m2"%string <$> seqZ 0 1)) by (intros [=]%elem_of_list_singleton).
    unfold zifgate. destruct (sd_c c); [split; [exact HR|apply not_elem_of_nil]|]. case_bool_decide; (split; [exact HR|apply not_elem_of_nil]).
  - apply elem_of_list_singleton in Hi as ->. by apply HS.
Qed.
Lemma cx_covered : covered (cx_code c t a).
Proof. rewrite cx_split. apply covered_write. intros i Hi. by apply head_silent. Qed.
Definition cx_faulty : list instr := cx_head ++ IX ro :: IMeas ro m1b :: IReset ro :: cx_rest ++ corr t.
Lemma cx_same (A : Amp) : same_runs A cx_faulty (cx_code c t a ++ xlayer t ++ [IBarrier]).
Proof.
  pose proof (vt c t a Hsep) as Hv. intros k0. rewrite cx_split. unfold cx_faulty.
  change (IX ro :: IMeas ro m1b :: IReset ro :: cx_rest ++ corr t) with ([IX ro; IMeas ro m1b; IReset ro] ++ cx_rest ++ corr t).
  change (IMeas ro m1b :: IReset ro :: cx_rest ++ corr t) with ([IMeas ro m1b; IReset ro] ++ cx_rest ++ corr t). rewrite <-!app_assoc. split.
  - intros k4 (k1 & H1 & (k2 & H2 & (k3 & H3 & H4)%exec_app)%exec_app)%exec_app.
    destruct (fault_fwd _ _ _ H2) as (k2' & H2' & F2). destruct (exec_flip _ _ _ _ rest_quiet F2 H3) as (k3' & H3' & F3).
    destruct (exec_ex (corr t ++ xlayer t ++ [IBarrier]) k3') as (k4' & H4'). exists k4'. split.
    + apply exec_app. exists k1. split; [done|]. apply exec_app. exists k2'. split; [done|]. apply exec_app. by exists k3'.
    + by eapply (corr_flip t Hv).
  - intros k4' (k1 & H1 & (k2 & H2 & (k3 & H3 & H4)%exec_app)%exec_app)%exec_app.
    destruct (fault_bwd _ _ _ H2) as (k2' & H2' & F2). apply flip_sym in F2. destruct (exec_flip _ _ _ _ rest_quiet F2 H3) as (k3' & H3' & F3). apply flip_sym in F3.
    destruct (exec_ex (corr t) k3') as (k4 & H4'). exists k4. split.
    + apply exec_app. exists k1. split; [done|]. apply exec_app. exists k2'. split; [done|]. apply exec_app. by exists k3'.
    + by eapply (corr_flip t Hv).
Qed.
End cx.
Lemma same_app (A : Amp) is is' js : covered js -> same_runs A is is' -> same_runs A (is ++ js) (is' ++ js).
Proof.
  intros Hc H k0. split.
  - intros k2 (k1 & H1 & H2)%exec_app. destruct (proj1 (H k0) k1 H1) as (k1' & H1' & Ha). destruct (exec_alike _ _ _ _ Hc Ha H2) as (k2' & H2' & Ha'). exists k2'. split; [apply exec_app; by exists k1'|done].
  - intros k2 (k1 & H1 & H2)%exec_app. destruct (proj2 (H k0) k1 H1) as (k1' & H1' & Ha). apply alike_sym in Ha.
    destruct (exec_alike _ _ _ _ Hc Ha H2) as (k2' & H2' & Ha'). exists k2'. split; [apply exec_app; by exists k1'|by apply alike_sym].
Qed.

(** ** What the other calls emit *)
(** The call appends instructions none of which depends on a classical bit. *)
Definition quiet {A} (m : M A) : Prop := forall s, exists is, s_instrs (m s).1 = s_instrs s ++ is /\ forall i, i ∈ is -> reads i = [].
Lemma qt_same {A} (m : M A) : (forall s, s_instrs (m s).1 = s_instrs s) -> quiet m.
Proof. intros H s. exists []. rewrite app_nil_r. split; [done|]. intros i Hi. by apply elem_of_nil in Hi. Qed.
Lemma qt_bind {A B} (m : M A) (f : A -> M B) : quiet m -> (forall a, quiet (f a)) -> quiet (mbind' m f).
Proof.
  intros Hm Hf s. unfold mbind'. destruct (Hm s) as (is & E & Hi). destruct (m s) as [s' [x|e]]; cbn [fst] in *; [|by exists is].
  destruct (Hf x s') as (js & E' & Hj). exists (is ++ js). rewrite E', E, app_assoc. split; [done|]. intros i [?|?]%elem_of_app; [by apply Hi|by apply Hj].
Qed.
Lemma qt_ret {A} (x : A) : quiet (Circ.mret x). Proof. by apply qt_same. Qed.
Lemma qt_raise {A} e : quiet (@mraise A e). Proof. by apply qt_same. Qed.
Lemma qt_lift {A} (r : res A) : quiet (mlift r). Proof. by apply qt_same. Qed.
Lemma qt_key {A} (o : option A) : quiet (key o). Proof. apply qt_same. by destruct o. Qed.
Lemma qt_get l : quiet (get_params l). Proof. apply qt_same. intros s. unfold get_params. by destruct (s_heap s !! l). Qed.
Lemma qt_put l p : quiet (put_params l p). Proof. by apply qt_same. Qed.
Lemma qt_reg r : quiet (add_reg r). Proof. apply qt_same. intros s. unfold add_reg. by repeat case_bool_decide. Qed.
Lemma qt_emit l : (forall i, i ∈ l -> reads i = []) -> quiet (emit l). Proof. intros H s. by exists l. Qed.
Lemma qt_emit1 f l : (forall q, reads (f q) = []) -> quiet (emit1 f l).
Proof. intros H. unfold emit1. destruct l; [apply qt_raise|]. apply qt_emit. intros i (q' & -> & _)%elem_of_list_fmap. apply H. Qed.
Lemma qt_meas qs cs : quiet (emit_meas qs cs).
Proof.
  unfold emit_meas. case_bool_decide; [|destruct qs as [|q [|q2 qs]]; [apply qt_raise| |apply qt_raise]; destruct cs as [|b cs]; [apply qt_raise|]].
  - apply qt_emit. intros i Hi. apply elem_of_lookup_zip_with in Hi as (n & q & b & -> & _). done.
  - apply qt_emit. by intros i (c & -> & _)%elem_of_list_fmap.
Qed.
Lemma qt_mfor {A} (l : list A) f : (forall x, quiet (f x)) -> quiet (mfor l f).
Proof. intros H. induction l; cbn [mfor]; [apply qt_ret|by apply qt_bind]. Qed.
Lemma qt_one i : reads i = [] -> quiet (emit [i]). Proof. intros H. apply qt_emit. by intros j ->%elem_of_list_singleton. Qed.
Ltac qt1 := first
  [ apply qt_ret | apply qt_raise | apply qt_lift | apply qt_key | apply qt_get | apply qt_put | apply qt_reg | apply qt_meas
  | (apply qt_one; first [reflexivity | case_bool_decide; reflexivity]) | (apply qt_emit1; reflexivity) 
  | apply qt_mfor; intros ? | apply qt_bind; [|intros ?]
  | progress unfold get_dim, col_idx, row_idx
  | match goal with |- quiet (match ?b with _ => _ end) => destruct b end ].
Ltac qt := repeat qt1.
Lemma qt_plaq c p is : entangle_plaq c p = Ok is -> forall i, i ∈ is -> reads i = [].
Proof.
  assert (HU : forall (is1 is2 : list instr), is1 = is2 -> (forall i, i ∈ is2 -> reads i = []) -> forall i, i ∈ is1 -> reads i = []) by (intros; subst; eauto).
  destruct p as [s tl tr bl br]. destruct c; cbn [entangle_plaq]; unfold entangle_xxxx, entangle_zzzz, entangle_xzzx; cbn [q_syn q_tl q_tr q_bl q_br].
  all: destruct tl, tr, bl, br; cbn; try done; intros [= <-] i; rewrite ?elem_of_cons, elem_of_nil; intros Hi; repeat destruct Hi as [->|Hi]; done.
Qed.
Lemma qt_op q o : quiet (run_op q o).
Proof.
  assert (HX : quiet (readout_x_into_ancilla q)) by (unfold readout_x_into_ancilla; cbn zeta; qt).
  assert (HZ : quiet (readout_z_into_ancilla q)) by (unfold readout_z_into_ancilla; cbn zeta; qt).
  assert (HR : forall r, quiet (readout_register q r)) by (intros r; unfold readout_register; cbn zeta; qt).
  assert (HM : forall h, quiet (measure_ancilla q h)) by (intros h; apply qt_emit; by intros i (b & -> & _)%elem_of_list_fmap).
  assert (HE : forall (l : list qubit), quiet (emit (IReset <$> l))) by (intros l; apply qt_emit; by intros i (b & -> & _)%elem_of_list_fmap).
  assert (HN : quiet (entangle (tq_lat q) None)).
  { unfold entangle. cbn zeta. apply qt_mfor. intros [cl p]. cbn [fst snd]. intros s. unfold mlift, mbind'. destruct (entangle_plaq cl p) as [is|e] eqn:E.
    - exists (is ++ [IBarrier]). split; [done|]. intros i [Hi| ->%elem_of_list_singleton]%elem_of_app; [by eapply qt_plaq|done].
    - exists []. rewrite app_nil_r. split; [done|]. intros i Hi. by apply elem_of_nil in Hi. }
  destruct o; cbn [run_op].
  - unfold stabilize. cbn zeta. repeat first [exact HN | apply HE | qt1].
  - unfold readout_x. apply qt_bind; [apply HR|intros h]. apply qt_bind; [apply HX|intros _]. apply qt_bind; [apply HM|intros _]. qt.
  - unfold readout_z. apply qt_bind; [apply HR|intros h]. apply qt_bind; [apply HZ|intros _]. apply qt_bind; [apply HM|intros _]. qt.
  - unfold lattice_readout_x, lattice_readout. cbn zeta. qt.
  - unfold lattice_readout_z, lattice_readout. cbn zeta. qt.
  - unfold reset_x. cbn zeta. qt.
  - unfold reset_z. cbn zeta. qt.
  - unfold logical_x. qt.
  - unfold logical_z. qt.
  - unfold id_all. cbn zeta. qt.
  - unfold id_data. qt.
Qed.

Lemma session_covered l : forall s szs n0, weak s szs n0 -> Forall event_ok l -> Forall (eq (Ok tt)) (run_events l s).2 ->
  exists js, s_instrs (run_events l s).1 = s_instrs s ++ js /\ covered js.
Proof.
  induction l as [|e l IHl]; intros s szs n0 Hw Hl Hres; [exists []; by rewrite app_nil_r|].
  apply Forall_cons in Hl as [He Hl]. cbn [run_events fst snd] in *. apply Forall_cons in Hres as [Hr Hres].
  assert (exists is ext, s_instrs (run_event e s).1 = s_instrs s ++ is /\ covered is /\ weak (run_event e s).1 (szs ++ ext) n0) as (is & ext & E & Hc & Hw').
  { destruct e as [i o|i j anc].
    - assert (HQ : quiet (run_call (i, o))) by (unfold run_call; apply qt_bind; [by apply qt_same|intros q; apply qt_op]).
      destruct (HQ s) as (is & E & Hq). exists is, []. rewrite app_nil_r. split_and!; [exact E|by apply covered_quiet|by apply (weak_call _ _ _ (i, o))].
    - destruct (cx_event s szs n0 i j anc Hw He) as (s' & r & ext & E & Hw' & _ & _ & HR). rewrite E in Hr |- *. cbn in Hr. subst r. cbn [fst].
      destruct (HR eq_refl) as (dc & dt & da & k & _ & _ & _ & _ & _ & _ & HI). eexists _, ext. split_and!; [exact HI|apply cx_covered|done]. }
  destruct (IHl _ _ _ Hw' Hl Hres) as (js & E' & Hj). exists (is ++ js). rewrite E', E, app_assoc. split; [done|by apply covered_app].
Qed.

(** The registers that receive the readings. *)
Lemma reading_regs_par l is : forall s, reading_regs l (pre is s) = reading_regs l s.
Proof. induction l as [|e l IHl]; intros s; [done|]. cbn [reading_regs]. rewrite (par_event e is s). cbn [fst]. by rewrite IHl. Qed.
Lemma reading_regs_instrs l s is : reading_regs l (app_instrs s is) = reading_regs l s.
Proof.
  pose (s' := set_instrs s []).
  assert (E1 : s = pre (s_instrs s) s') by (destruct s; unfold pre, s', set_instrs; cbn; by rewrite app_nil_r).
  assert (E2 : app_instrs s is = pre (s_instrs s ++ is) s') by (destruct s; unfold pre, s', set_instrs, app_instrs; cbn; by rewrite app_nil_r).
  rewrite E2, reading_regs_par, E1, reading_regs_par. done.
Qed.
Lemma reading_not_cx rs name l : forall s ext, weak s (request_sizes rs ++ ext) (Z.of_nat (length rs)) -> s_tname s = name ->
  Forall event_ok l -> Forall (on_data (Z.of_nat (length rs))) l -> Forall (eq (Ok tt)) (run_events l s).2 ->
  forall x, x ∈ reading_regs l s -> x ∉ cx_names.
Proof.
  induction l as [|e l IHl]; intros s ext Hw HT Hok Hon Hres x Hx; [by apply elem_of_nil in Hx|].
  apply Forall_cons in Hok as [He Hok]. apply Forall_cons in Hon as [Ho Hon]. cbn [run_events fst snd] in *. apply Forall_cons in Hres as [Hr Hres].
  assert (EE : reading_regs (e :: l) s = reading_regs [e] s ++ reading_regs l (run_event e s).1) by (cbn [reading_regs]; by rewrite app_nil_r).
  rewrite EE in Hx. destruct (run_event e s) as [s1 r1] eqn:E. cbn [fst snd] in *. subst r1. destruct e as [i o|i j anc].
  - destruct (call_step ZAmp rs name _ _ _ _ _ Hw HT Ho E) as (is & H1 & H2 & _ & _ & H3 & _). apply elem_of_app in Hx as [Hx|Hx]; [by apply H3|].
    eapply (IHl s1 ext); try done.
    + pose proof (weak_call _ _ _ (i, o) Hw) as H. cbn [run_event] in E. by rewrite E in H.
    + pose proof (run_call_book (i, o) s) as HB. cbn [run_event] in E. rewrite E in HB. unfold book in HB. injection HB as HB _ _. cbn in HB. congruence.
  - destruct (cx_step ZAmp rs name _ _ _ _ _ _ Hw HT He Ho E) as (is & ext' & _ & _ & HT' & Hw' & _). apply elem_of_app in Hx as [Hx|Hx]; [by apply elem_of_nil in Hx|].
    by eapply (IHl s1 ext').
Qed.

(** ** C63 *)
(** For every register, after any session, for every cx between two of its qubits and every
    further session, all going through without exception: the circuit with one X error on the
    measuring qubit, just before its first measurement in that cx, behaves like the circuit
    of the same session with one more call, x(target), after the cx.  Every classical bit but the
    one of "m1" and every final state are the same, so no syndrome of any round tells the two
    apart, at any distance. *)
Theorem C63_undetectable (A : Amp) rs name s0 l0 i j anc l :
  heap_fresh s0 -> NoDup (rq_params <$> rs) -> Forall (request_ok s0) rs ->
  Forall event_ok l0 -> Forall event_ok (ECx i j anc :: l) -> on_data (Z.of_nat (length rs)) (ECx i j anc) ->
  exists s1, new_treg name (rq_type <$> rs) (rq_params <$> rs) s0 = (s1, Ok tt) /\
  let s := (run_events l0 s1).1 in
  (Forall (eq (Ok tt)) (run_events (ECx i j anc :: l) s).2 ->
   exists before after is,
     emitted s (run_events (ECx i j anc :: l) s).1 (before ++ IMeas ro m1b :: after) /\
     (forall x, x ∈ before -> writes x = []) /\
     Forall (eq (Ok tt)) (run_events (ECx i j anc :: ECall j OX :: l) s).2 /\
     emitted s (run_events (ECx i j anc :: ECall j OX :: l) s).1 is /\
     same_runs A (before ++ IX ro :: IMeas ro m1b :: after) is /\
     reading_regs (ECx i j anc :: ECall j OX :: l) s = reading_regs (ECx i j anc :: l) s).
Proof.
  intros Hhf Hnd Hok Hl0 Hl Hon. destruct (new_treg_weak rs name s0 Hhf Hnd Hok) as (s1 & E & _ & Hw & HT & _). exists s1. split; [done|].
  cbn zeta. intros Hres. destruct (events_weak l0 s1 _ _ Hw Hl0) as (ext & Hw2 & HT2). rewrite HT in HT2. generalize dependent (run_events l0 s1).1. intros s Hres Hw2 HT2.
  apply Forall_cons in Hl as [He Hl]. cbn [run_events fst snd] in *. apply Forall_cons in Hres as [Hr Hres].
  destruct Hon as (Hi & Hj & Hij).
  destruct (cx_event _ _ _ i j anc Hw2 He) as (s2 & r & ext' & E2 & Hw3 & HT3 & HN & HR). rewrite E2 in *. cbn [fst snd] in *. subst r.
  destruct (HR eq_refl) as (dc & dt & da & k & Hdc & Hdt & Hda & Hk & _ & Hjn & HI). clear HR.
  assert (Hsep : separate [dc; dt; da]).
  { eapply (sides_separate s2); [exact Hw3|rewrite HT3; done..|lia|lia|lia]. }
  (* the extra call *)
  assert (EX : run_event (ECall j OX) s2 = (app_instrs s2 (xlayer dt ++ [IBarrier]), Ok tt)).
  { destruct Hdt as (tt' & th & tw & _ & Hsz & ->). destruct (wk_q _ _ _ Hw3 j tt' th tw) as (q & Hq & _ & Hc & Hnm & Hlok & _); [lia|done|].
    cbn [run_event]. unfold run_call. cbn [fst snd]. erewrite mbind_ok by (unfold treg_get; by rewrite Hq). cbn [run_op].
    rewrite (logical_x_ok _ _ _ _ Hlok). unfold xlayer. cbn [sd_c sd_n sd_h sd_w]. rewrite <-HT3, <-Hnm, <-Hc. done. }
  destruct (session_covered l s2 _ _ Hw3 Hl Hres) as (js & EJ & Hjs).
  exists (cx_head dc da), (IReset ro :: cx_rest dc dt da ++ corr dt ++ js), (cx_code dc dt da ++ xlayer dt ++ [IBarrier] ++ js). split_and!.
  - unfold emitted. rewrite EJ, HI, cx_split, <-!app_assoc. cbn [app]. by rewrite <-!app_assoc.
  - intros x Hx. by eapply head_silent.
  - rewrite EX. cbn [fst snd]. constructor; [done|]. constructor; [done|]. by rewrite events_app.
  - rewrite EX. cbn [fst snd]. rewrite events_app. unfold emitted. cbn. rewrite EJ, drop_app, HI. by rewrite <-!app_assoc.
  - pose proof (same_app A _ _ js Hjs (cx_same dc dt da Hsep A)) as H. unfold cx_faulty in H. rewrite <-!app_assoc in H. cbn [app] in H. by rewrite <-!app_assoc in H.
  - cbn [reading_regs is_reading app]. rewrite E2. cbn [fst]. rewrite EX. cbn [fst]. by rewrite reading_regs_instrs.
Qed.
Print Assumptions C63_undetectable.

(** With the error, a session reads what the session with the extra x(target) reads. *)
Theorem C63_readings (A : Amp) rs name s0 l0 i j anc l :
  heap_fresh s0 -> NoDup (rq_params <$> rs) -> Forall (request_ok s0) rs ->
  Forall event_ok l0 -> Forall event_ok (ECx i j anc :: l) -> Forall (on_data (Z.of_nat (length rs))) (ECx i j anc :: l) ->
  exists s1, new_treg name (rq_type <$> rs) (rq_params <$> rs) s0 = (s1, Ok tt) /\
  let s := (run_events l0 s1).1 in
  (Forall (eq (Ok tt)) (run_events (ECx i j anc :: l) s).2 ->
   exists before after,
     emitted s (run_events (ECx i j anc :: l) s).1 (before ++ IMeas ro m1b :: after) /\
     (forall x, x ∈ before -> writes x = []) /\
     forall (k0 k1 : config A) v, exec (before ++ IX ro :: IMeas ro m1b :: after) k0 k1 -> possible k1 -> knows rs name k0.2 v ->
       exists v', classicals (ECx i j anc :: ECall j OX :: l) v ((fun x => k1.1 (x, 0)) <$> reading_regs (ECx i j anc :: l) s) v' /\ knows rs name k1.2 v').
Proof.
  intros Hhf Hnd Hok Hl0 Hl Hon. pose proof Hon as [Hon1 Hon2]%Forall_cons. pose proof Hl as [Hl1 Hl2]%Forall_cons.
  assert (Hev : Forall event_ok (ECx i j anc :: ECall j OX :: l)) by (by repeat constructor).
  assert (Hod : Forall (on_data (Z.of_nat (length rs))) (ECx i j anc :: ECall j OX :: l)) by (constructor; [done|]; constructor; [by destruct Hon1 as (_ & ? & _)|done]).
  destruct (C63_undetectable A rs name s0 l0 i j anc l Hhf Hnd Hok Hl0 Hl Hon1) as (s1 & E & HU). exists s1. split; [done|]. cbn zeta in *. intros Hres.
  destruct (C57_program A rs name s0 l0 _ Hhf Hnd Hok Hl0 Hev Hod) as (s1' & E' & HP). rewrite E in E'. injection E' as <-. cbn zeta in HP.
  destruct (new_treg_weak rs name s0 Hhf Hnd Hok) as (s1' & E' & _ & Hw & HT & _). rewrite E in E'. injection E' as <-.
  destruct (events_weak l0 s1 _ _ Hw Hl0) as (ext & Hw2 & HT2). rewrite HT in HT2.
  destruct (HU Hres) as (before & after & is & H1 & H2 & H3 & H4 & H5 & ER). exists before, after. split_and!; [done..|].
  destruct (HP H3) as (is' & H4' & HC). assert (is' = is) as -> by (unfold emitted in *; rewrite H4 in H4'; by apply app_inv_head in H4').
  intros k0 k1 v Hex Hp Hk. destruct (proj1 (H5 k0) k1 Hex) as (k1' & Hex' & Ha1 & Ha2).
  destruct (HC k0 k1' v Hex') as (v' & Hc & Hk'); [destruct Hp as [b Hb]; exists b; by rewrite <-Ha2|done|]. exists v'. split.
  - rewrite ER in Hc. erewrite list_fmap_ext; [exact Hc|]. intros n x Hx%elem_of_list_lookup_2. apply Ha1.
    intros [= ->]. eapply (reading_not_cx rs name (ECx i j anc :: l)); [exact Hw2|done..|]. apply cx_names_in. by left.
  - intros m rm b Hm Hrm Hb. intros b'. pose proof (Hk' m rm b Hm Hrm Hb b') as HS. unfold QFacts.act in *. by rewrite !Ha2.
Qed.
Print Assumptions C63_readings.

(** In particular, whatever the distances and the number of rounds: cx, then any calls among
    z, id, id_data and stabilize on any qubits, then measure_z(target).  Without error the
    reading is the CNOT of the two values, with the error it is the opposite. *)
Definition mild_call (e : event) : Prop := exists i o, e = ECall i o /\ o ∈ [OZ; OId; OIdData; OStab].
Lemma mild_classicals ms l v out w : Forall mild_call ms -> classicals (ms ++ l) v out w -> classicals l v out w.
Proof.
  intros H. revert out. induction H as [|e ms (i & o & -> & Ho) _ IHl]; intros out Hc; [done|]. cbn [app] in Hc.
  inversion Hc as [|? ? ? r v1 rs' ? H1 H2]; subst.
  assert (r = None /\ v1 = v) as [-> ->]; [|by apply IHl].
  rewrite !elem_of_cons, elem_of_nil in Ho. destruct Ho as [->|[->|[->|[->|[]]]]]; inversion H1 as [| | |? ? ? Hb| |]; subst; try done; rewrite !elem_of_cons, elem_of_nil in Hb; naive_solver.
Qed.
Theorem C63_wrong (A : Amp) rs name s0 l0 i j anc ms (bc bt : bool) (ri rj : request) :
  heap_fresh s0 -> NoDup (rq_params <$> rs) -> Forall (request_ok s0) rs ->
  Forall event_ok l0 -> event_ok (ECx i j anc) -> on_data (Z.of_nat (length rs)) (ECx i j anc) -> rs !! Z.to_nat i = Some ri -> rs !! Z.to_nat j = Some rj ->
  Forall mild_call ms -> Forall (on_data (Z.of_nat (length rs))) ms ->
  exists s1, new_treg name (rq_type <$> rs) (rq_params <$> rs) s0 = (s1, Ok tt) /\
  let s := (run_events l0 s1).1 in let l := ECx i j anc :: ms ++ [ECall j (OReadZ None)] in
  (Forall (eq (Ok tt)) (run_events l s).2 ->
   exists before after x,
     emitted s (run_events l s).1 (before ++ IMeas ro m1b :: after) /\ reading_regs l s = [x] /\
     (forall k0 : config ZAmp, possible k0 -> exists k1, exec (before ++ IX ro :: IMeas ro m1b :: after) k0 k1 /\ possible k1) /\
     forall k0 k1 : config A, stab k0.2 (LZ name i ri) bc -> stab k0.2 (LZ name j rj) bt -> possible k1 ->
       (exec (before ++ IMeas ro m1b :: after) k0 k1 -> k1.1 (x, 0) = xorb bc bt) /\
       (exec (before ++ IX ro :: IMeas ro m1b :: after) k0 k1 -> k1.1 (x, 0) = negb (xorb bc bt))).
Proof.
  intros Hhf Hnd Hok Hl0 Hev Hon Hri Hrj Hms Hmo. set (l := ms ++ [ECall j (OReadZ None)]).
  assert (Hel : Forall event_ok (ECx i j anc :: l)).
  { constructor; [done|]. apply Forall_app. split; [|by repeat constructor]. eapply Forall_impl; [exact Hms|]. by intros e (? & ? & -> & _). }
  assert (Hol : Forall (on_data (Z.of_nat (length rs))) (ECx i j anc :: l)).
  { constructor; [done|]. apply Forall_app. split; [done|]. constructor; [|done]. by destruct Hon as (_ & ? & _). }
  destruct (C63_readings A rs name s0 l0 i j anc l Hhf Hnd Hok Hl0 Hel Hol) as (s1 & E & HU). exists s1. split; [done|]. cbn zeta in *. intros Hres.
  destruct (C57_program A rs name s0 l0 _ Hhf Hnd Hok Hl0 Hel Hol) as (s1' & E' & HP). rewrite E in E'. injection E' as <-. cbn zeta in HP.
  destruct (C57_readings rs name s0 l0 _ Hhf Hnd Hok Hl0 Hel Hol) as (s1' & E' & HF). rewrite E in E'. injection E' as <-. cbn zeta in HF.
  destruct (HU Hres) as (before & after & H1 & _ & H2). destruct (HP Hres) as (is & H1' & H3).
  assert (is = before ++ IMeas ro m1b :: after) as -> by (unfold emitted in *; rewrite H1 in H1'; by apply app_inv_head in H1').
  destruct (HF Hres) as (_ & HL & _).
  assert (HL1 : length (reading_regs (ECx i j anc :: l) (run_events l0 s1).1) = 1%nat).
  { rewrite HL. rewrite filter_cons_False by done. unfold l. rewrite filter_app. assert (filter (fun e => is_reading e = true) ms = []) as ->; [|done].
    clear -Hms. induction Hms as [|e ms (i & o & -> & Ho) _ IHl]; [done|]. rewrite filter_cons_False; [done|].
    rewrite !elem_of_cons, elem_of_nil in Ho. destruct Ho as [->|[->|[->|[->|[]]]]]; done. }
  destruct (reading_regs (ECx i j anc :: l) (run_events l0 s1).1) as [|x [|]] eqn:ER; try done. exists before, after, x. split_and!; [done..| |].
  { destruct (new_treg_weak rs name s0 Hhf Hnd Hok) as (s1' & E' & _ & Hw & HT & _). rewrite E in E'. injection E' as <-.
    destruct (events_weak l0 s1 _ _ Hw Hl0) as (ext & Hw2 & HT2). rewrite HT in HT2.
    destruct (program_run A rs name _ _ ext Hw2 HT2 Hel Hol Hres) as (is & Hem & Hpr & _).
    assert (is = before ++ IMeas ro m1b :: after) as -> by (unfold emitted in *; rewrite H1 in Hem; by apply app_inv_head in Hem).
    intros k0 Hp. apply exec_possible_Z; [|done]. intros y [Hy|[->|Hy]%elem_of_cons]%elem_of_app; [|done|]; apply Hpr, elem_of_app; [by left|by right]. }
  destruct Hon as (Hi & Hj & Hij). pose (v := learn (learn (fun _ => None) i (Some bc)) j (Some bt)).
  assert (Vi : v i = Some bc) by (unfold v; rewrite learn_ne by done; apply learn_eq).
  assert (Vj : v j = Some bt) by (unfold v; apply learn_eq).
  intros k0 k1 Hc Ht Hp.
  assert (Hk : knows rs name k0.2 v).
  { intros m rm b Hm Hrm Hb. destruct (decide (m = j)) as [->|Hmj]; [rewrite Vj in Hb; injection Hb as <-; rewrite Hrj in Hrm; by injection Hrm as <-|].
    destruct (decide (m = i)) as [->|Hmi]; [rewrite Vi in Hb; injection Hb as <-; rewrite Hri in Hrm; by injection Hrm as <-|].
    unfold v in Hb. by rewrite !learn_ne in Hb by done. }
  assert (HCX : forall l' out w, classicals (ECx i j anc :: l') v out w -> classicals l' (learn (learn v i (Some bc)) j (Some (xorb bc bt))) out w).
  { intros l' out w Hcl. inversion Hcl as [|? ? ? r v1 rs' ? K1 K2]; subst. inversion K1 as [| | | | |? ? ? ? b Hb]; subst.
    rewrite Vi, Vj in *. destruct Hb as [|[= <-]]; done. }
  assert (HRD : forall u out w b, u j = Some b -> classicals [ECall j (OReadZ None)] u out w -> out = [b]).
  { intros u out w b Hu Hcl. inversion Hcl as [|? ? ? r v1 rs' ? K1 K2]; subst. inversion K2; subst. inversion K1; subst; try (match goal with H : OReadZ None ∈ _ |- _ => rewrite !elem_of_cons, elem_of_nil in H; naive_solver end).
    match goal with H : u j = None \/ _ |- _ => rewrite Hu in H; destruct H as [|[= ->]]; done end. }
  split; intros Hex.
  - destruct (H3 k0 k1 v Hex Hp Hk) as (w & Hcl & _). cbn [fmap list_fmap] in Hcl. apply HCX in Hcl. unfold l in Hcl. apply mild_classicals in Hcl; [|done].
    eapply HRD in Hcl; [|apply learn_eq]. by injection Hcl.
  - destruct (H2 k0 k1 v Hex Hp Hk) as (w & Hcl & _). cbn [fmap list_fmap] in Hcl. apply HCX in Hcl.
    inversion Hcl as [|? ? ? r v1 rs' ? K1 K2]; subst. 
    assert (r = None /\ v1 = learn (learn (learn v i (Some bc)) j (Some (xorb bc bt))) j (Some (negb (xorb bc bt)))) as [-> ->].
    { inversion K1; subst; try (match goal with H : OX ∈ _ |- _ => rewrite !elem_of_cons, elem_of_nil in H; naive_solver end). by rewrite learn_eq. } unfold l in K2. apply mild_classicals in K2; [|done].
    eapply HRD in K2; [|apply learn_eq]. cbn in *. subst. congruence.
Qed.
Print Assumptions C63_wrong.

(** ** The hypotheses are met: a cx between two distance-3 qubits, rounds, a reading *)
Example C63_ex :
  Forall event_ok (ECx 0 1 None :: [ECall 1 OStab; ECall 1 OStab; ECall 0 OIdData; ECall 1 (OReadZ None)]) /\
  Forall (on_data (Z.of_nat (length ex_rs))) (ECx 0 1 None :: [ECall 1 OStab; ECall 1 OStab; ECall 0 OIdData; ECall 1 (OReadZ None)]) /\
  Forall mild_call [ECall 1 OStab; ECall 1 OStab; ECall 0 OIdData] /\
  Forall (eq (Ok tt)) (run_events (ECx 0 1 None :: [ECall 1 OStab; ECall 1 OStab; ECall 0 OIdData; ECall 1 (OReadZ None)]) ex_reg).2.
Proof.
  split_and!.
  - repeat constructor.
  - repeat constructor; cbn; lia || done.
  - repeat constructor; eexists _, _; (split; [reflexivity|set_solver]).
  - vm_compute. repeat constructor.
Qed.
