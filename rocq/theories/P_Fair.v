(** Property C60: the records of a circuit are equally likely. *)
From Coq Require Import QArith Qcanon.
From Verif Require Import FairNorm SpecRun ParseFacts Parse P_Multi P_Cx SpecInject P_CircuitFaults CxHist SpecProgram P_Program.
From stdpp Require Export list.
Open Scope Z_scope.

(** ** Runs and executions *)
Lemma step_after i (k k' : config ZAmp) : step i k k' -> exists m, k' = after i m k /\ (random i = false -> m = false).
Proof.
  intros Hs. destruct Hs; cbn; try (exists false; done); try (exists true; done).
  - by exists m.
  - exists false. by rewrite bool_decide_eq_true_2.
  - exists false. by rewrite bool_decide_eq_false_2.
  - exists false. by rewrite bool_decide_eq_true_2.
  - exists false. by rewrite bool_decide_eq_false_2.
Qed.
Lemma after_step i m (k : config ZAmp) : step i k (after i m k).
Proof.
  destruct k as [c ψ]. destruct i as [q|q|q|q|a t|a t|q|q b0|q r v|q r v|]; cbn; try constructor.
  - destruct m; constructor.
  - by case_bool_decide; constructor.
  - by case_bool_decide; constructor.
Qed.
Lemma exec_run is : forall k k' : config ZAmp, exec is k k' <-> exists o, length o = choices is /\ k' = run is o k.
Proof.
  induction is as [|i is IHis]; intros k k'.
  - split; [intros He; inversion He; subst; by exists []|]. intros (o & _ & ->). constructor.
  - rewrite choices_cons. split.
    + intros He. inversion He as [|? ? ? k1 ? Hs He']; subst. apply step_after in Hs as (m & -> & Hm). apply IHis in He' as (o & Ho & ->).
      cbn [run]. destruct (random i); [exists (m :: o); split; [cbn; lia|done]|]. rewrite (Hm eq_refl). by exists o.
    + intros (o & Ho & ->). cbn [run]. destruct (random i).
      * destruct o as [|m o]; [done|]. econstructor; [apply (after_step i m)|]. apply IHis. exists o. split; [cbn in Ho; lia|done].
      * econstructor; [apply (after_step i false)|]. apply IHis. by exists o.
Qed.

(** ** Lists of bits *)
Lemma xor_length o o' n : length o = n -> length o' = n -> length (xor_list o o') = n.
Proof. intros H1 H2. unfold xor_list. rewrite zip_with_length. lia. Qed.
Lemma xor_back t : forall a b, length t = length a -> length a = length b -> xor_list (xor_list (xor_list (xor_list t a) b) b) a = t.
Proof.
  induction t as [|x t IHt]; intros [|y a] [|z b]; cbn; try done. intros [= H1] [= H2]. fold (xor_list t a). change (zip_with xorb) with xor_list. f_equal; [by destruct x, y, z|by apply IHt].
Qed.
Lemma parities_xor S (c1 c2 c3 c4 : cstate) : (forall b, c4 b = xor3 (c1 b) (c2 b) (c3 b)) ->
  parities S c1 = parities S c2 -> parities S c4 = parities S c3.
Proof.
  intros Hc. unfold parities. induction S as [|l S IHS]; [done|]. rewrite !fmap_cons. intros [= H1 H2]. f_equal; [|by apply IHS].
  assert (E : xorl (c4 <$> l) = xor3 (xorl (c1 <$> l)) (xorl (c2 <$> l)) (xorl (c3 <$> l))).
  { clear H1. induction l as [|b l IHl]; [done|]. rewrite !fmap_cons, !xorl_cons, IHl, Hc.
    destruct (c1 b), (c2 b), (c3 b), (xorl (c1 <$> l)), (xorl (c2 <$> l)), (xorl (c3 <$> l)); done. }
  rewrite E, H1. by destruct (xorl (c2 <$> l)), (xorl (c3 <$> l)).
Qed.
Lemma parities_length S c : length (parities S c) = length S.
Proof. unfold parities. apply fmap_length. Qed.

(** ** Arithmetic *)
Lemma divides_pow2 h : forall N W, 0 < N -> N * W = 2 ^ Z.of_nat h -> exists j : nat, N = 2 ^ Z.of_nat j.
Proof.
  induction h as [|h IHh]; intros N W HN E.
  - exists O. cbn in *. assert (0 < W) by nia. nia.
  - rewrite Nat2Z.inj_succ, Z.pow_succ_r in E by lia. destruct (Z.Even_or_Odd N) as [[n ->]|[n ->]].
    + destruct (IHh n W) as [j ->]; [lia|nia|]. exists (S j). rewrite Nat2Z.inj_succ, Z.pow_succ_r; lia.
    + destruct (Z.Even_or_Odd W) as [[w ->]|[w ->]]; [|exfalso; nia]. apply (IHh _ w); [done|nia].
Qed.
Lemma class_one {B} `{EqDecision B} (V : list B) y c : NoDup V ->
  zsum ((fun v => if bool_decide (y = v) then c else 0) <$> V) = if bool_decide (y ∈ V) then c else 0.
Proof.
  induction 1 as [|v V Hv HV IHV]; [done|]. rewrite fmap_cons, zsum_cons, IHV. destruct (decide (y = v)) as [->|Hne].
  - rewrite bool_decide_eq_true_2, (bool_decide_eq_false_2 (v ∈ V)), bool_decide_eq_true_2 by (done || by left). lia.
  - rewrite (bool_decide_eq_false_2 (y = v)) by done. rewrite Z.add_0_l. erewrite bool_decide_ext; [done|]. rewrite elem_of_cons. tauto.
Qed.
Lemma class_sum {A B} `{EqDecision B} (g : A -> B) (f : A -> Z) (l : list A) (V : list B) : NoDup V -> (forall x, x ∈ l -> f x <> 0 -> g x ∈ V) ->
  zsum (f <$> l) = zsum ((fun v => zsum ((fun x => if bool_decide (g x = v) then f x else 0) <$> l)) <$> V).
Proof.
  intros HV. induction l as [|x l IHl]; intros Hin; [symmetry; by apply zsum_zero|]. rewrite fmap_cons, zsum_cons, IHl by (intros; apply Hin; [by right|done]).
  transitivity (zsum ((fun v => (if bool_decide (g x = v) then f x else 0) + zsum ((fun x => if bool_decide (g x = v) then f x else 0) <$> l)) <$> V)); [|done].
  rewrite zsum_plus, class_one by done. f_equal. case_bool_decide as Hx; [done|]. destruct (decide (f x = 0)) as [|Hf]; [done|]. exfalso. apply Hx, Hin; [by left|done].
Qed.
Lemma qnat_mul a b : qnat (a * b) = (qnat a * qnat b)%Qc.
Proof. unfold qnat. rewrite inject_Z_mult. apply Qc_is_canon. cbn. by rewrite !Qred_correct. Qed.
Lemma qnat_inj a b : qnat a = qnat b -> a = b.
Proof. intros H. apply (f_equal this) in H. unfold qnat in H. cbn in H. assert (Hq : (inject_Z a == inject_Z b)%Q) by (rewrite <-(Qred_correct (inject_Z a)), <-(Qred_correct (inject_Z b)), H; reflexivity). unfold Qeq in Hq. cbn in Hq. lia. Qed.
Lemma qnat_0 : qnat 0 = 0%Qc. Proof. reflexivity. Qed.
Lemma qnat_1 : qnat 1 = 1%Qc. Proof. reflexivity. Qed.
Lemma qnat_pos z : 0 < z -> qnat z <> 0%Qc.
Proof. intros H E. rewrite <-qnat_0 in E. apply qnat_inj in E. lia. Qed.

(** ** The classes of runs *)
Section circuit.
Context (U : list qubit) (is : list instr) (c0 : cstate) (HU : NoDup U) (His : Forall (well_formed U) is).
Notation k0 := ((c0, zero_state) : config ZAmp).
Lemma zero_supported : supported U (zero_state : state ZAmp).
Proof. intros b Hb. unfold zero_state in Hb. case_bool_decide; [subst; set_solver|done]. Qed.
Lemma zero_norm2 : norm2 U zero_state = 1.
Proof.
  unfold norm2. rewrite (zsum_ext _ (fun b : gset qubit => if bool_decide (∅ = b) then 1 else 0)).
  - rewrite class_one by (by apply NoDup_subsets). rewrite bool_decide_eq_true_2; [done|]. apply elem_of_subsets. set_solver.
  - intros b _. unfold zero_state. destruct (decide (b = ∅)) as [->|Hne]; [done|]. rewrite !bool_decide_eq_false_2 by congruence. done.
Qed.
Lemma quad_zero : FairRun.quad k0 k0 k0 k0.
Proof.
  split; cbn; [apply pure_zero|exists pid; split; apply sim_refl|exists pid; apply sim_refl|]. intros b. by destruct (c0 b).
Qed.
Notation wt o := (norm2 U (run is o k0).2).
Notation n := (choices is).
Lemma wt_possible o : possible (run is o k0) <-> 0 < wt o.
Proof. apply norm2_possible. exact (supported_run U HU is His o k0 zero_supported). Qed.
Lemma wt_nonneg o : 0 <= wt o. Proof. apply norm2_nonneg. Qed.
(** The class of a run moves with the run. *)
Lemma move S t a b : length t = n -> length a = n -> length b = n -> 0 < wt t -> 0 < wt a -> 0 < wt b ->
  parities S (run is t k0).1 = parities S (run is a k0).1 ->
  wt (xor_list (xor_list t a) b) = wt t /\ parities S (run is (xor_list (xor_list t a) b) k0).1 = parities S (run is b k0).1.
Proof.
  intros Lt La Lb Pt Pa Pb Hc. rewrite <-wt_possible in Pt, Pa, Pb.
  destruct (quad_run U is His t a b k0 k0 k0 k0 quad_zero Lt La Lb Pt Pa Pb) as [_ (Q & _ & HQ) (P & HP) Hx]. split; [|by eapply parities_xor].
  symmetry. eapply (norm2_sim U HU); [apply (supported_run U HU is His), zero_supported..|by eapply sim_trans].
Qed.
Notation mass_of S v := (mass U is k0 (fun c => bool_decide (parities S c = v))).
Notation all := (mass U is k0 (fun _ => true)).
Lemma all_eq : all = 2 ^ Z.of_nat (hadamards is).
Proof.
  etransitivity; [exact (FairNorm.total U HU is His k0)|]. cbn [snd]. rewrite zero_norm2. lia.
Qed.
Lemma all_pos : 0 < all. Proof. rewrite all_eq. by apply Z.pow_pos_nonneg; lia. Qed.
Lemma mass_nonneg E : 0 <= mass U is k0 E.
Proof. apply zsum_nonneg. intros x (o & -> & _)%elem_of_list_fmap. destruct (E _); [apply wt_nonneg|done]. Qed.
Lemma mass_pos E : 0 < mass U is k0 E <-> exists o, length o = n /\ 0 < wt o /\ E (run is o k0).1 = true.
Proof.
  split.
  - intros H. destruct (decide (Exists (fun o => 0 < wt o /\ E (run is o k0).1 = true) (outcomes n))) as [He|He].
    + apply Exists_exists in He as (o & Ho & H1 & H2). exists o. by rewrite elem_of_outcomes in Ho.
    + exfalso. unfold mass in H. rewrite zsum_zero in H; [done|]. intros o Ho. destruct (E _) eqn:Eo; [|done].
      pose proof (wt_nonneg o). destruct (decide (0 < wt o)); [|lia]. exfalso. apply He, Exists_exists. by exists o.
  - intros (o & Lo & Po & Eo). assert (wt o <= mass U is k0 E); [|lia]. apply zsum_pos.
    + intros x (o' & -> & _)%elem_of_list_fmap. destruct (E (run is o' k0).1); [apply wt_nonneg|done].
    + apply elem_of_list_fmap. exists o. rewrite Eo. split; [done|]. by apply elem_of_outcomes.
Qed.
Lemma mass_eq S v v' : 0 < mass_of S v -> 0 < mass_of S v' -> mass_of S v = mass_of S v'.
Proof.
  intros (a & La & Pa & Ea%bool_decide_eq_true)%mass_pos (b & Lb & Pb & Eb%bool_decide_eq_true)%mass_pos.
  set (f := fun t => xor_list (xor_list t a) b).
  assert (HP : f <$> outcomes n ≡ₚ outcomes n).
  { apply submseteq_Permutation_length_le; [by rewrite fmap_length|]. apply NoDup_submseteq.
    - apply NoDup_fmap_2_strong; [|apply NoDup_outcomes]. intros t t' Ht Ht' E. rewrite elem_of_outcomes in Ht, Ht'.
      rewrite <-(xor_back t a b), <-(xor_back t' a b) by lia. fold (f t) (f t'). by rewrite E.
    - intros t (t' & -> & Ht')%elem_of_list_fmap. rewrite elem_of_outcomes in *. unfold f. by repeat apply xor_length. }
  unfold mass. set (w' := fun o => if bool_decide (parities S (run is o k0).1 = v') then wt o else 0).
  rewrite <-(zsum_perm _ _ (fmap_Permutation w' _ _ HP)). rewrite <-list_fmap_compose. apply zsum_ext. intros t Ht%elem_of_outcomes. unfold compose, w'.
  destruct (decide (0 < wt t /\ parities S (run is t k0).1 = v)) as [[Pt Et]|Hn].
  - rewrite (bool_decide_eq_true_2 (parities S (run is t k0).1 = v)) by done. destruct (move S t a b Ht La Lb Pt Pa Pb) as [E1 E2]; [congruence|]. fold (f t) in E1, E2.
    rewrite (bool_decide_eq_true_2 (parities S (run is (f t) k0).1 = v')) by congruence. done.
  - transitivity 0.
    + case_bool_decide as E; [|done]. pose proof (wt_nonneg t). destruct (decide (0 < wt t)) as [Hlt|]; [exfalso; by apply Hn|lia].
    + symmetry. case_bool_decide as E; [|done]. pose proof (wt_nonneg (f t)) as H0. destruct (decide (0 < wt (f t))) as [Hlt|]; [exfalso|lia].
      assert (Lf : length (f t) = n) by (by repeat apply xor_length).
      destruct (move S (f t) b a Lf Lb La Hlt Pb Pa) as [E1 E2]; [congruence|]. unfold f in E1, E2. rewrite xor_back in E1, E2 by lia. fold (f t) in E1. apply Hn. split; [lia|congruence].
Qed.
Lemma uniform S : exists j : nat, forall v, 0 < mass_of S v -> mass_of S v * 2 ^ Z.of_nat j = all.
Proof.
  set (V := filter (fun v => 0 < mass_of S v) (remove_dups ((fun o => parities S (run is o k0).1) <$> outcomes n))).
  assert (HV : NoDup V) by (apply NoDup_filter, NoDup_remove_dups).
  assert (HVin : forall v, 0 < mass_of S v -> v ∈ V).
  { intros v Hv. apply elem_of_list_filter. split; [done|]. apply elem_of_remove_dups, elem_of_list_fmap. apply mass_pos in Hv as (o & Lo & _ & E%bool_decide_eq_true).
    exists o. split; [done|]. by apply elem_of_outcomes. }
  assert (HS : all = zsum ((fun v => mass_of S v) <$> V)).
  { apply (class_sum (fun o => parities S (run is o k0).1)); [done|].
    intros o Ho%elem_of_outcomes Hw. apply HVin, mass_pos. exists o. pose proof (wt_nonneg o). rewrite bool_decide_eq_true. split_and!; [done|lia|done]. }
  destruct V as [|v0 V'] eqn:EV.
  { exists O. intros v Hv. exfalso. apply HVin in Hv. by apply elem_of_nil in Hv. }
  rewrite <-EV in *. assert (Hv0 : 0 < mass_of S v0) by (assert (H : v0 ∈ V) by (rewrite EV; by left); by apply elem_of_list_filter in H as [? _]).
  assert (HN : all = Z.of_nat (length V) * mass_of S v0).
  { rewrite HS, (zsum_ext _ (fun _ => mass_of S v0)).
    - clear. induction V as [|v V IHV]; [done|]. rewrite fmap_cons, zsum_cons, IHV. cbn [length]. lia.
    - intros v [Hv _]%elem_of_list_filter. by apply mass_eq. }
  destruct (divides_pow2 (hadamards is) (Z.of_nat (length V)) (mass_of S v0)) as [j Hj].
  - rewrite EV. cbn. lia.
  - by rewrite <-HN, all_eq.
  - exists j. intros v Hv. rewrite (mass_eq S v v0 Hv Hv0), HN, Hj. lia.
Qed.
End circuit.

(** ** C60 *)
(** The squared norms of all branches together are 2^(number of Hadamard gates): with the factor
    1/sqrt 2 of each Hadamard gate the norms are the probabilities, and these add up to 1. *)
Theorem C60_normalised U is c0 : NoDup U -> Forall (well_formed U) is ->
  mass U is (c0, zero_state) (fun _ => true) = 2 ^ Z.of_nat (hadamards is).
Proof. intros HU His. by apply all_eq. Qed.
Print Assumptions C60_normalised.

(** What happens in every execution has probability 1, what happens in none has probability 0. *)
Theorem C60_certain U is c0 (E : cstate -> bool) : NoDup U -> Forall (well_formed U) is ->
  (prob U is (c0, zero_state) E = 1%Qc <-> forall k1 : config ZAmp, exec is (c0, zero_state) k1 -> possible k1 -> E k1.1 = true) /\
  (prob U is (c0, zero_state) E = 0%Qc <-> forall k1 : config ZAmp, exec is (c0, zero_state) k1 -> possible k1 -> E k1.1 = false).
Proof.
  intros HU His. pose proof (all_pos U is c0 HU His) as Hall. set (k0 := ((c0, zero_state) : config ZAmp)) in *.
  assert (H0 : forall E, prob U is k0 E = 0%Qc <-> forall k1 : config ZAmp, exec is k0 k1 -> possible k1 -> E k1.1 = false).
  { intros F. transitivity (mass U is k0 F = 0).
    - unfold prob, Qcdiv. split.
      + intros H. apply qnat_inj. rewrite qnat_0. destruct (Qcmult_integral _ _ H) as [|Hi]; [done|]. exfalso.
        pose proof (Qcmult_inv_r _ (qnat_pos _ Hall)) as H1. rewrite Hi, Qcmult_0_r in H1. done.
      + intros ->. rewrite qnat_0. apply Qcmult_0_l.
    - pose proof (mass_nonneg U is c0 F) as Hn. fold k0 in Hn. split.
      + intros H k1 (o & Lo & ->)%exec_run Hp. destruct (F _) eqn:EF; [|done]. exfalso.
        assert (0 < mass U is k0 F); [|lia]. apply (mass_pos U is c0 F). exists o. rewrite <-(wt_possible U is c0 HU His). done.
      + intros H. destruct (decide (0 < mass U is k0 F)) as [Hp|]; [|lia]. exfalso.
        apply (mass_pos U is c0 F) in Hp as (o & Lo & Po & Eo). fold k0 in Eo, Po. assert (Ef : F (run is o k0).1 = false); [|congruence]. apply H; [apply exec_run; by exists o|]. by apply (wt_possible U is c0 HU His). }
  split; [|apply H0].
  transitivity (prob U is k0 (fun c => negb (E c)) = 0%Qc).
  - assert (HE : (prob U is k0 E + prob U is k0 (fun c => negb (E c)) = 1)%Qc).
    { unfold prob, Qcdiv. rewrite <-Qcmult_plus_distr_l, <-qnat_add. replace (mass U is k0 E + mass U is k0 (fun c => negb (E c))) with (mass U is k0 (fun _ => true)).
      - by apply Qcmult_inv_r, qnat_pos.
      - unfold mass. rewrite <-zsum_plus. apply zsum_ext. intros o _. destruct (E _); cbn; lia. }
    split; intros H; rewrite H in HE.
    + replace (prob U is k0 (fun c => negb (E c))) with (1 + prob U is k0 (fun c => negb (E c)) - 1)%Qc by ring. rewrite HE. ring.
    + rewrite <-HE. ring.
  - rewrite H0. split; intros H k1 He Hp; specialize (H k1 He Hp); by destruct (E k1.1).
Qed.
Print Assumptions C60_certain.

(** All records that can occur are equally likely, and their number is a power of two: for any
    list of bits, or parities of bits, there is a [j] such that each list of values is impossible
    or has probability 1/2^j. *)
Theorem C60_uniform U is c0 (S : list (list clbit)) : NoDup U -> Forall (well_formed U) is ->
  exists j : nat, forall v,
    prob U is (c0, zero_state) (fun c => bool_decide (parities S c = v)) = 0%Qc \/
    prob U is (c0, zero_state) (fun c => bool_decide (parities S c = v)) = (1 / qnat (2 ^ Z.of_nat j))%Qc.
Proof.
  intros HU His. destruct (uniform U is c0 HU His S) as [j Hj]. exists j. intros v. unfold prob.
  pose proof (all_pos U is c0 HU His) as Hall. pose proof (mass_nonneg U is c0 (fun c => bool_decide (parities S c = v))) as Hn.
  set (m := mass U is (c0, zero_state) (fun c => bool_decide (parities S c = v))) in *. destruct (decide (0 < m)) as [Hp|Hp].
  - right. specialize (Hj v Hp). fold m in Hj. rewrite <-Hj, qnat_mul.
    assert (H1 : qnat m <> 0%Qc) by (by apply qnat_pos). assert (H2 : qnat (2 ^ Z.of_nat j) <> 0%Qc) by (apply qnat_pos, Z.pow_pos_nonneg; lia). field. done.
  - left. replace m with 0 by lia. unfold Qcdiv. rewrite qnat_0. apply Qcmult_0_l.
Qed.
Print Assumptions C60_uniform.

(** A bit, or a parity of bits, is the same in all shots or a fair coin. *)
Theorem C60_coin U is c0 (l : list clbit) : NoDup U -> Forall (well_formed U) is ->
  let p := prob U is (c0, zero_state) (fun c => xorl (c <$> l)) in
  p = 0%Qc \/ p = 1%Qc \/ p = (1 / (1 + 1))%Qc.
Proof.
  intros HU His p. set (k0 := ((c0, zero_state) : config ZAmp)) in *. pose proof (all_pos U is c0 HU His) as Hall. fold k0 in Hall.
  pose proof (mass_nonneg U is c0) as Hn. fold k0 in Hn.
  set (m1 := mass U is k0 (fun c => bool_decide (parities [l] c = [true]))). set (m0 := mass U is k0 (fun c => bool_decide (parities [l] c = [false]))).
  assert (E1 : mass U is k0 (fun c => xorl (c <$> l)) = m1).
  { apply zsum_ext. intros o _. change (parities [l] ?c) with [xorl (c <$> l)]. by destruct (xorl _). }
  assert (E2 : mass U is k0 (fun _ => true) = m0 + m1).
  { unfold m0, m1, mass. rewrite <-zsum_plus. apply zsum_ext. intros o _. assert (H : parities [l] (run is o k0).1 = [xorl ((run is o k0).1 <$> l)]) by done. rewrite H. generalize (norm2 U (run is o k0).2). intros z. destruct (xorl _); [change (z = 0 + z)|change (z = z + 0)]; lia. }
  unfold p, prob. rewrite E1. pose proof (Hn (fun c => bool_decide (parities [l] c = [true]))) as H1. pose proof (Hn (fun c => bool_decide (parities [l] c = [false]))) as H0.
  fold m1 in H1. fold m0 in H0. destruct (decide (0 < m1)) as [P1|]; [|left; replace m1 with 0 by lia; unfold Qcdiv; rewrite qnat_0; apply Qcmult_0_l]. right.
  assert (HQ : qnat m1 <> 0%Qc) by (by apply qnat_pos). rewrite E2. destruct (decide (0 < m0)) as [P0|].
  - right. pose proof (mass_eq U is c0 HU His [l] [false] [true] P0 P1) as E. fold k0 in E. fold m1 m0 in E. rewrite E, qnat_add. field. split_and?; first [done|discriminate|rewrite <-qnat_add; apply qnat_pos; lia].
  - left. replace m0 with 0 by lia. rewrite Z.add_0_l. by apply Qcmult_inv_r.
Qed.
Print Assumptions C60_coin.

(** ** Counts *)
Definition reg_singles (regs : list (string * Z)) : list (list clbit) :=
  regs ≫= fun r => (fun i => [(r.1, i)]) <$> seqZ 0 r.2.
Lemma key_parities (c c' : cstate) regs : counts_key c regs = counts_key c' regs <-> parities (reg_singles regs) c = parities (reg_singles regs) c'.
Proof.
  assert (HP : parities (reg_singles regs) c = parities (reg_singles regs) c' <-> Forall (fun r => creg_string c r = creg_string c' r) regs).
  { unfold parities, reg_singles. induction regs as [|r regs IHr]; [done|]. rewrite bind_cons, !fmap_app, Forall_cons, <-IHr. clear IHr.
    assert (Hr : creg_string c r = creg_string c' r <-> (fun l => xorl (c <$> l)) <$> ((fun i => [(r.1, i)]) <$> seqZ 0 r.2) = (fun l => xorl (c' <$> l)) <$> ((fun i => [(r.1, i)]) <$> seqZ 0 r.2)).
    { rewrite <-!list_fmap_compose.
      assert (E : forall d : cstate, ((fun l => xorl (d <$> l)) ∘ (fun i => [(r.1, i)])) <$> seqZ 0 r.2 = (fun i => d (r.1, i)) <$> seqZ 0 r.2).
      { intros d. apply list_fmap_ext. intros _ i _. cbn. by rewrite xorb_false_r. }
      rewrite !E. unfold creg_string. split; [|by intros ->]. intros H. apply (f_equal bits_of_string) in H. rewrite !bits_sob in H. injection H as H. by apply (inj reverse) in H. }
    rewrite Hr. split; [|by intros [-> ->]]. intros H. apply app_inj_1 in H; [done|]. by rewrite !fmap_length. }
  rewrite HP. unfold counts_key. split.
  - intros H. apply Forall_lookup. intros k r Hk. destruct regs as [|r0 regs]; [done|].
    apply (f_equal py_split) in H. rewrite !split_join in H.
    + apply (inj reverse) in H. apply (f_equal (lookup k)) in H. rewrite !list_lookup_fmap, Hk in H. by injection H.
    + rewrite fmap_cons, reverse_cons. by intros [_ ?]%app_nil.
    + apply Forall_reverse, Forall_fmap, list.Forall_forall. intros x _. apply sob_no_blank.
    + rewrite fmap_cons, reverse_cons. by intros [_ ?]%app_nil.
    + apply Forall_reverse, Forall_fmap, list.Forall_forall. intros x _. apply sob_no_blank.
  - intros H. do 2 f_equal. clear HP. induction H as [|r regs Hr H IHr]; [done|]. rewrite !fmap_cons. by f_equal.
Qed.
(** The keys of the counts dictionary: all that occur are equally likely. *)
Theorem C60_counts U is c0 regs : NoDup U -> Forall (well_formed U) is ->
  exists j : nat, forall key,
    prob U is (c0, zero_state) (fun c => bool_decide (counts_key c regs = key)) = 0%Qc \/
    prob U is (c0, zero_state) (fun c => bool_decide (counts_key c regs = key)) = (1 / qnat (2 ^ Z.of_nat j))%Qc.
Proof.
  intros HU His. destruct (C60_uniform U is c0 (reg_singles regs) HU His) as [j Hj]. exists j. intros key.
  destruct (decide (0 < mass U is (c0, zero_state) (fun c => bool_decide (counts_key c regs = key)))) as [Hp|Hp].
  - apply (mass_pos U is c0) in Hp as (o & Lo & Po & Eo%bool_decide_eq_true).
    specialize (Hj (parities (reg_singles regs) (run is o (c0, zero_state)).1)).
    assert (E : mass U is (c0, zero_state) (fun c => bool_decide (counts_key c regs = key)) =
      mass U is (c0, zero_state) (fun c => bool_decide (parities (reg_singles regs) c = parities (reg_singles regs) (run is o (c0, zero_state)).1))).
    { apply zsum_ext. intros t _. erewrite bool_decide_ext; [reflexivity|]. rewrite <-Eo. apply key_parities. }
    unfold prob in *. by rewrite E.
  - left. unfold prob. pose proof (mass_nonneg U is c0 (fun c => bool_decide (counts_key c regs = key))) as Hn.
    replace (mass U is (c0, zero_state) (fun c => bool_decide (counts_key c regs = key))) with 0 by lia. unfold Qcdiv. rewrite qnat_0. apply Qcmult_0_l.
Qed.
Print Assumptions C60_counts.

(** ** Circuits built through the API *)
Definition unconditional (i : instr) : Prop := match i with IXIf _ _ _ | IZIf _ _ _ => False | _ => True end.
Lemma unconditional_one i : unconditional i -> one_bit i. Proof. by destruct i. Qed.
Lemma gate_unconditional i : gate i -> unconditional i. Proof. by destruct i. Qed.
Local Ltac hl HL Hi := eapply HL; [|exact Hi]; done.
Lemma op_unconditional c name dh dw n o i : valid_size dh dw -> i ∈ op_code c name dh dw n o -> unconditional i.
Proof.
  intros Hv Hi.
  assert (HL : forall (A : Type) (f : A -> instr) (l : list A), (forall a, unconditional (f a)) -> i ∈ f <$> l -> unconditional i).
  { intros A f l Hf (q & -> & _)%elem_of_list_fmap. apply Hf. }
  assert (HB : i ∈ [IBarrier] -> unconditional i) by (intros ->%elem_of_list_singleton; done).
  assert (HC : forall q gs, i ∈ IReset q :: compile q gs -> unconditional i) by (intros q gs [->|?%compile_gate%gate_unconditional]%elem_of_cons; done).
  destruct o as [|r|r| | | | | | | |]; cbn [op_code] in Hi.
  - unfold round_instrs in Hi. rewrite meas_instrs_eq, reset_instrs_eq, lat_stabs_syns, ent_instrs_eq in Hi.
    apply elem_of_app in Hi as [Hi|[Hi|[Hi|Hi]%elem_of_app]%elem_of_app]; [|hl HL Hi|hl HL Hi|by apply HB].
    apply elem_of_list_join in Hi as (is & Hi & (k & -> & Hk%elem_of_syns)%elem_of_list_fmap).
    unfold ent_k in Hi. apply elem_of_app in Hi as [Hi|Hi]; [|by apply HB]. rewrite ent_compile in Hi by done. by eapply gate_unconditional, compile_gate.
  - unfold rd_x in Hi. apply elem_of_app in Hi as [Hi|[Hi|Hi]%elem_of_app]; [by eapply HC|hl HL Hi|by apply HB].
  - unfold rd_z in Hi. apply elem_of_app in Hi as [Hi|[Hi|Hi]%elem_of_app]; [by eapply HC|hl HL Hi|by apply HB].
  - unfold lr_x in Hi. apply elem_of_app in Hi as [Hi|[Hi|Hi]%elem_of_app]; [destruct c; hl HL Hi|hl HL Hi|by apply HB].
  - unfold lr_z in Hi. apply elem_of_app in Hi as [Hi|[Hi|Hi]%elem_of_app]; [destruct c; [by apply elem_of_nil in Hi|hl HL Hi]|hl HL Hi|by apply HB].
  - unfold rs_x in Hi. apply elem_of_app in Hi as [Hi|Hi]; [hl HL Hi|]. destruct c; [apply elem_of_app in Hi as [Hi|Hi]; [hl HL Hi|by apply HB]|hl HL Hi].
  - unfold rs_z in Hi. apply elem_of_app in Hi as [Hi|Hi]; [hl HL Hi|]. destruct c; [by apply HB|hl HL Hi].
  - unfold logx_instrs in Hi. apply elem_of_app in Hi as [Hi|Hi]; [|by apply HB]. eapply HL; [|exact Hi]. intros z. unfold xgate. destruct c; [done|]. by case_bool_decide.
  - unfold logz_instrs in Hi. apply elem_of_app in Hi as [Hi|Hi]; [|by apply HB]. eapply HL; [|exact Hi]. intros z. unfold zgate. destruct c; [done|]. by case_bool_decide.
  - unfold id_instrs in Hi. apply elem_of_app in Hi as [Hi|Hi]; [|by apply HB]. apply elem_of_list_join in Hi as (is & Hi & (h & -> & _)%elem_of_list_fmap). hl HL Hi.
  - unfold id_data_instrs in Hi. apply elem_of_app in Hi as [Hi|Hi]; [hl HL Hi|by apply HB].
Qed.
Lemma cx_one_bit c t a : separate [c; t; a] -> forall i, i ∈ cx_code c t a -> one_bit i.
Proof.
  intros Hsep.
  assert (HO : forall d o i, d ∈ [c; t; a] -> i ∈ op_code (sd_c d) (sd_n d) (sd_h d) (sd_w d) (Cnt 0 0 0) o -> one_bit i).
  { intros d o i Hd Hi. apply unconditional_one. eapply op_unconditional; [|exact Hi]. by apply (proj1 Hsep d). }
  assert (HR : forall d i h, d ∈ [c; t; a] -> i ∈ rd_z (sd_c d) (sd_n d) (sd_w d) h -> one_bit i).
  { intros d i h Hd Hi. unfold rd_z in Hi. apply elem_of_app in Hi as [[->|Hi%compile_gate]%elem_of_cons|[Hi|Hi%elem_of_list_singleton]%elem_of_app].
    - done.
    - by destruct i.
    - by apply elem_of_list_fmap in Hi as (b' & -> & _).
    - by subst. }
  assert (HI : forall d i, d ∈ [c; t; a] -> i ∈ into_z (sd_c d) (sd_n d) (sd_w d) -> one_bit i).
  { intros d i Hd Hi. apply (HR d i ("p"%string, 1) Hd). unfold rd_z. apply elem_of_app. by left. }
  assert (HS : forall i, i ∈ rs_x (sd_c a) (sd_n a) (num_data (sd_h a) (sd_w a)) -> one_bit i).
  { intros i Hi. eapply (HO a OResetX); [right; right; by left|done]. }
  assert (HX : forall (f : Z -> instr) (l : list Z) i, (forall z, one_bit (f z)) -> i ∈ f <$> l -> one_bit i).
  { intros f l i Hf (z & -> & _)%elem_of_list_fmap. apply Hf. }
  assert (HG : forall d z, one_bit (cxgate (sd_c d) (sd_n d) ro z)).
  { intros d z. unfold cxgate. destruct (sd_c d); [done|]. by case_bool_decide. }
  assert (HI1 : forall d s z, one_bit (zifgate (sd_c d) (sd_n d) (s, 1) 1 z)) by (intros d h z; unfold zifgate; destruct (sd_c d); [done|]; by case_bool_decide).
  assert (HI2 : forall d s z, one_bit (xifgate (sd_c d) (sd_n d) (s, 1) 1 z)) by (intros d h z; unfold xifgate; destruct (sd_c d); [done|]; by case_bool_decide).
  intros i. unfold cx_code, cx_pre, cx_mid, cx_post. rewrite !elem_of_app.
  intros Hi. repeat match goal with H : _ \/ _ |- _ => destruct H as [H|H] end;
    try (by apply HS); try (by eapply HI; [|exact Hi]; set_solver); try (by eapply HR; [|exact Hi]; set_solver);
    try (by eapply HX; [|exact Hi]; intros z; first [apply HG|apply HI1|apply HI2]);
    repeat (apply elem_of_cons in Hi as [->|Hi]; [done|]); by apply elem_of_nil in Hi.
Qed.
(** Any calls on any qubits; cx on two different data qubits. *)
Definition on_pair (n : Z) (e : event) : Prop := match e with ECall _ _ => True | ECx i j _ => 0 <= i < n /\ 0 <= j < n /\ i <> j end.
Lemma session_formed name l N : forall s szs, weak s szs N -> s_tname s = name ->
  Forall event_ok l -> Forall (on_pair N) l -> Forall (eq (Ok tt)) (run_events l s).2 ->
  exists is, s_instrs (run_events l s).1 = s_instrs s ++ is /\ forall i, i ∈ is -> proper i /\ one_bit i.
Proof.
  induction l as [|e l IHl]; intros s szs Hw HT Hok Hon Hres.
  - exists []. rewrite app_nil_r. split; [done|]. intros i Hi. by apply elem_of_nil in Hi.
  - apply Forall_cons in Hok as [He Hok]. apply Forall_cons in Hon as [Ho Hon]. cbn [run_events fst snd] in *. apply Forall_cons in Hres as [Hr Hres].
    destruct (run_event e s) as [s1 r1] eqn:E. cbn [fst snd] in *. subst r1.
    assert (exists is szs', s_instrs s1 = s_instrs s ++ is /\ s_tname s1 = name /\ weak s1 szs' N /\ forall i, i ∈ is -> proper i /\ one_bit i) as (is1 & szs1 & HI1 & HT1 & Hw1 & HP1).
    { destruct e as [i o|i j anc].
      - pose proof (run_call_book (i, o) s) as HB. pose proof (weak_call _ _ _ (i, o) Hw) as Hw'. cbn [run_event] in E. rewrite E in HB, Hw'. unfold book in HB. injection HB as HB _ _. cbn in HB.
        unfold run_call, mbind', treg_get in E. cbn [fst snd] in E. destruct (treg_lookup (s_tq s) i) as [q|] eqn:Eq; [|done].
        destruct (weak_get _ _ _ i Hw (lookup_bound _ _ _ _ _ Hw Eq)) as (t & dh & dw & q' & p & Hsz & Hq & Ht & Hc & Hnm & Hlok & Hp & Ha). rewrite Eq in Hq. injection Hq as <-.
        destruct (lat_ok_cnt _ _ _ _ Hlok) as [n Hn]. destruct (run_op_inv _ _ _ _ _ _ _ Hlok Hn E) as (_ & _ & HP). pose proof (lo_valid _ _ _ _ Hlok) as Hv.
        eexists _, szs. split; [exact (po_code _ _ _ _ _ _ _ _ HP)|]. split_and!; [congruence|done|]. intros x Hx. split; [by destruct (op_touch _ _ _ _ _ _ _ Hv Hx)|]. apply unconditional_one. by eapply op_unconditional.
      - destruct Ho as (Hi & Hj & Hij). destruct (cx_event _ _ _ i j anc Hw He) as (s'' & r & ext' & E' & Hw' & HT' & _ & HR). rewrite E in E'. injection E' as <- <-.
        destruct (HR eq_refl) as (dc & dt & da & k & Hdc & Hdt & Hda & Hk & _ & _ & HI).
        assert (Hsep : separate [dc; dt; da]) by (eapply (sides_separate s1); [exact Hw'|rewrite HT'; done..|lia|lia|lia]).
        eexists _, _. split; [exact HI|]. split_and!; [congruence|exact Hw'|]. intros x Hx. split; [by eapply cx_proper|by eapply cx_one_bit]. }
    destruct (IHl s1 szs1 Hw1 HT1 Hok Hon Hres) as (is2 & HI2 & HP2).
    exists (is1 ++ is2). rewrite HI2, HI1, app_assoc. split; [done|]. intros i [Hi|Hi]%elem_of_app; auto.
Qed.
Lemma inject_formed is js w : inject is js w -> (forall i, i ∈ is -> proper i /\ one_bit i) -> forall i, i ∈ js -> proper i /\ one_bit i.
Proof.
  induction 1 as [|i is js w H IHi|p q is js w H IHi]; intros Hp j Hj; [by apply elem_of_nil in Hj| |].
  - apply elem_of_cons in Hj as [-> |Hj]; [apply Hp; by left|]. apply IHi; [intros; apply Hp; by right|done].
  - apply elem_of_app in Hj as [Hj|Hj]; [|by apply IHi]. destruct p; cbn in Hj; repeat (apply elem_of_cons in Hj as [-> |Hj]; [done|]); by apply elem_of_nil in Hj.
Qed.

(** For every register of topological qubits, every session of calls and cx that goes through
    without exception, and any Pauli faults anywhere in the circuit: a shot from |0...0> gives
    every key it can give with the same probability, a power of 1/2; and every bit, or parity of
    bits, is constant or a fair coin. *)
Theorem C60_session rs name s0 l :
  heap_fresh s0 -> NoDup (rq_params <$> rs) -> Forall (request_ok s0) rs ->
  Forall event_ok l -> Forall (on_pair (Z.of_nat (length rs))) l ->
  exists s1, new_treg name (rq_type <$> rs) (rq_params <$> rs) s0 = (s1, Ok tt) /\
  let s := (run_events l s1).1 in
  (Forall (eq (Ok tt)) (run_events l s1).2 ->
   exists is, emitted s1 s is /\ forall js w U c0, inject is js w -> NoDup U -> (forall i q, i ∈ js -> q ∈ instr_qubits i -> q ∈ U) ->
     (exists j : nat, forall key,
        prob U js (c0, zero_state) (fun c => bool_decide (counts_key c (cregs s) = key)) = 0%Qc \/
        prob U js (c0, zero_state) (fun c => bool_decide (counts_key c (cregs s) = key)) = (1 / qnat (2 ^ Z.of_nat j))%Qc) /\
     (forall bs, prob U js (c0, zero_state) (fun c => xorl (c <$> bs)) ∈ [0; 1; 1 / (1 + 1)]%Qc) /\
     forall k1 : config ZAmp, exec js (c0, zero_state) k1 -> possible k1 ->
        prob U js (c0, zero_state) (fun c => bool_decide (counts_key c (cregs s) = counts_key k1.1 (cregs s))) <> 0%Qc).
Proof.
  intros Hhf Hnd Hok Hl Hon. destruct (new_treg_weak rs name s0 Hhf Hnd Hok) as (s1 & E & _ & Hw & HT & _). exists s1. split; [done|].
  cbn zeta. intros Hres. destruct (session_formed name l _ s1 _ Hw HT Hl Hon Hres) as (is & HI & HP). exists is. split; [exact HI|].
  intros js w U c0 Hinj HU Hin.
  assert (Hf : Forall (well_formed U) js).
  { apply list.Forall_forall. intros i Hi. destruct (inject_formed _ _ _ Hinj HP i Hi) as [H1 H2]. split_and!; [done|done|]. intros q. by apply Hin. }
  split_and!; [by apply C60_counts| |].
  - intros bs. destruct (C60_coin U js c0 bs HU Hf) as [->|[->| ->]]; set_solver.
  - intros k1 He Hp H0. apply (proj2 (C60_certain U js c0 _ HU Hf)) with (k1 := k1) in H0; [|done..]. by apply bool_decide_eq_false in H0.
Qed.
Print Assumptions C60_session.

(** The program of [C57_ex] is one of these sessions; and reading X of the first qubit of its
    register, still in |0...0>, is a fair coin: the keys "0" and "1" have probability 1/2 each. *)
Definition ex_read : list event := [ECall 0 (OReadX None)].
Definition ex_circuit : list instr := s_instrs (run_events ex_read ex_reg).1.
Definition ex_qubits : list qubit := remove_dups (mjoin (instr_qubits <$> ex_circuit)).
Example C60_ex :
  Forall (on_pair (Z.of_nat (length ex_rs))) ex_program /\
  Forall (on_pair (Z.of_nat (length ex_rs))) ex_read /\ Forall event_ok ex_read /\ Forall (eq (Ok tt)) (run_events ex_read ex_reg).2 /\
  s_instrs ex_reg = [] /\ length ex_qubits = 4%nat /\
  let key k := prob ex_qubits ex_circuit (fun _ => false, zero_state) (fun c => bool_decide (counts_key c (cregs (run_events ex_read ex_reg).1) = k)) in
  key "0"%string = (1 / (1 + 1))%Qc /\ key "1"%string = (1 / (1 + 1))%Qc.
Proof.
  split_and!.
  - repeat constructor; cbn; lia || done.
  - repeat constructor.
  - repeat constructor.
  - vm_compute. repeat constructor.
  - vm_compute. reflexivity.
  - vm_compute. reflexivity.
  - cbn zeta. split; apply Qc_is_canon; vm_compute; reflexivity.
Qed.
