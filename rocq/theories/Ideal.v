(** A circuit refines the ideal machine of SpecIdeal.v (for C56). *)
From Coq Require Import Ring.
From Verif Require Export SpecIdeal QWave QComm.
From stdpp Require Export list.
Open Scope Z_scope.
Notation act := QFacts.act.

(** ** The ideal machine is linear and local *)
Section ideal.
Context {A : Amp}.
Implicit Types (φ ψ : state A).
Lemma A_ring : ring_theory (@a0 A) a1 aadd amul asub aopp eq.
Proof. exact (a_ring A). Qed.
Add Ring Aring : A_ring.
Definition peq φ ψ : Prop := forall b, φ b = ψ b.
Lemma ideal1_ext o φ ψ : peq φ ψ -> peq (ideal1 o φ) (ideal1 o ψ).
Proof. intros H b. destruct o; cbn; unfold act; by rewrite ?H. Qed.
Lemma ideal_ext l φ ψ : peq φ ψ -> peq (ideal l φ) (ideal l ψ).
Proof. revert φ ψ. induction l as [|o l IHl]; intros φ ψ H; [done|]. cbn. by apply IHl, ideal1_ext. Qed.
Lemma ideal1_pow2 o k φ : peq (ideal1 o (fun b => pow2 k (φ b))) (fun b => pow2 k (ideal1 o φ b)).
Proof. intros b. destruct o; cbn; rewrite act_pow2; [done|]. by rewrite pow2_add, sgn_pow2. Qed.
Lemma ideal_pow2 l k φ : peq (ideal l (fun b => pow2 k (φ b))) (fun b => pow2 k (ideal l φ b)).
Proof.
  revert φ. induction l as [|o l IHl]; intros φ b; [done|]. cbn.
  rewrite (ideal_ext l _ _ (ideal1_pow2 o k φ)). apply IHl.
Qed.
Lemma ideal_app l1 l2 φ : ideal (l1 ++ l2) φ = ideal l2 (ideal l1 φ).
Proof. revert φ. induction l1 as [|o l1 IHl]; intros φ; [done|]. cbn. apply IHl. Qed.
Definition null_state : state A := fun _ => a0.
Lemma ideal1_zero o : peq (ideal1 o null_state) null_state.
Proof. intros b. destruct o; cbn; unfold act, null_state; rewrite ?sgn_0; [done|ring]. Qed.
Lemma ideal_zero l φ : peq φ null_state -> peq (ideal l φ) null_state.
Proof.
  revert φ. induction l as [|o l IHl]; intros φ H; [done|]. cbn. apply IHl. intros b.
  rewrite (ideal1_ext o _ _ H). apply ideal1_zero.
Qed.
Lemma pow2_zero k (x : A) : pow2 k x = a0 -> x = a0.
Proof. induction k as [|k IHk]; cbn; [done|]. intros H. by apply IHk, (a_two A). Qed.
Lemma pow2_0 k : pow2 k (a0 : A) = a0.
Proof. induction k as [|k IHk]; cbn; [done|]. rewrite IHk. unfold two. ring. Qed.

(** Operators of the ideal machine that do not touch a qubit. *)
Definition iop_pauli (o : iop) : pauli qubit := match o with Apply P | Project P _ => P end.
Definition offs (s : qubit) (l : list iop) : Prop := forall o, o ∈ l -> off s (iop_pauli o).
Lemma offs_cons s o l : offs s (o :: l) -> off s (iop_pauli o) /\ offs s l.
Proof. intros H. split; [apply H; by left|]. intros o' Ho'. apply H. by right. Qed.
Lemma ideal1_local o s φ ψ v : off s (iop_pauli o) -> (forall b, mem s b = v -> φ b = ψ b) ->
  forall b, mem s b = v -> ideal1 o φ b = ideal1 o ψ b.
Proof.
  intros [Hx Hz] H b Hb. assert (Hb' : mem s (b ⊕ px (iop_pauli o)) = v) by (by rewrite mem_sd, Hx, xorb_false_r).
  destruct o; cbn in *; unfold act; by rewrite ?(H _ Hb'), ?(H _ Hb).
Qed.
Lemma ideal_local l s φ ψ v : offs s l -> (forall b, mem s b = v -> φ b = ψ b) ->
  forall b, mem s b = v -> ideal l φ b = ideal l ψ b.
Proof.
  revert φ ψ. induction l as [|o l IHl]; intros φ ψ Ho H; [done|]. apply offs_cons in Ho as [H1 H2]. cbn. apply IHl; [done|].
  by apply ideal1_local.
Qed.
(** Removing or flipping a qubit that is not touched. *)
Lemma ideal1_map (o : iop) (f : gset qubit -> gset qubit) φ :
  (forall b : gset qubit, f (b ⊕ px (iop_pauli o)) = f b ⊕ px (iop_pauli o)) -> (forall b : gset qubit, dot (pz (iop_pauli o)) (f b) = dot (pz (iop_pauli o)) b) ->
  forall b : gset qubit, ideal1 o (fun b => φ (f b)) b = ideal1 o φ (f b).
Proof. intros Hx Hz b. destruct o; cbn in *; unfold act; by rewrite Hx, Hz. Qed.
Lemma ideal_map (l : list iop) (f : gset qubit -> gset qubit) φ :
  (forall o : iop, o ∈ l -> (forall b : gset qubit, f (b ⊕ px (iop_pauli o)) = f b ⊕ px (iop_pauli o)) /\ (forall b : gset qubit, dot (pz (iop_pauli o)) (f b) = dot (pz (iop_pauli o)) b)) ->
  forall b, ideal l (fun b => φ (f b)) b = ideal l φ (f b).
Proof.
  revert φ. induction l as [|o l IHl]; intros φ Hl b; [done|]. cbn.
  destruct (Hl o ltac:(by left)) as [Hx Hz]. rewrite (ideal_ext l _ _ (ideal1_map o f φ Hx Hz)).
  apply IHl. intros o' Ho'. apply Hl. by right.
Qed.
Lemma ideal_remove l s φ : offs s l -> forall b, ideal l (fun b => φ (b ∖ {[s]})) b = ideal l φ (b ∖ {[s]}).
Proof.
  intros Ho. apply (ideal_map l (fun b => b ∖ {[s]})). intros o Hl. destruct (Ho o Hl) as [Hx Hz]. split; intros b.
  - apply mem_ext. intros x. rewrite mem_sd.
    assert (Hd : forall c : gset qubit, mem x (c ∖ {[s]}) = mem x c && negb (bool_decide (x = s))).
    { intros c. unfold mem. destruct (decide (x ∈ c)), (decide (x = s)); rewrite ?(bool_decide_eq_true_2 (x ∈ c)), ?(bool_decide_eq_false_2 (x ∈ c)),
        ?(bool_decide_eq_true_2 (x = s)), ?(bool_decide_eq_false_2 (x = s)) by done; cbn; first [apply bool_decide_eq_true_2|apply bool_decide_eq_false_2]; set_solver. }
    rewrite !Hd, mem_sd. destruct (decide (x = s)) as [->|Hn]; [rewrite Hx, bool_decide_eq_true_2 by done; by rewrite !andb_false_r|].
    rewrite bool_decide_eq_false_2 by done. cbn. by rewrite !andb_true_r.
  - unfold dot. f_equal. apply mem_false in Hz. set_solver.
Qed.
Lemma ideal_shift l s a φ : offs s l -> forall b, ideal l (fun b => φ (b ⊕ bitset a s)) b = ideal l φ (b ⊕ bitset a s).
Proof.
  intros Ho. apply (ideal_map l (fun b => b ⊕ bitset a s)). intros o Hl. destruct (Ho o Hl) as [Hx Hz]. split; intros b.
  - by rewrite <-!sd_assoc, (sd_comm (px _)).
  - by rewrite dot_sd_r, dot_bitset_r, Hz, andb_false_r, xorb_false_r.
Qed.
Lemma ideal_clean l s φ : offs s l -> clean s φ -> clean s (ideal l φ).
Proof.
  intros Ho Hc b Hb. rewrite (ideal_local l s φ null_state true Ho); [by apply ideal_zero| |by apply mem_true].
  intros b' Hb'%mem_true. by apply Hc.
Qed.

(** Projections on commuting operators commute. *)
Lemma act_comm P Q φ b : commute P Q -> act P (act Q φ) b = act Q (act P φ) b.
Proof.
  intros Hc. rewrite !act_mul, (pmul_comm Q P). f_equal. unfold commute, anti in Hc.
  rewrite (dot_comm (px Q)). by destruct (dot (px P) (pz Q)), (dot (pz P) (px Q)).
Qed.
Lemma act_add P φ ψ b : act P (fun b => aadd (φ b) (ψ b)) b = aadd (act P φ b) (act P ψ b).
Proof. unfold act. apply sgn_add. Qed.
Lemma act_sgn P s φ b : act P (fun b => sgn s (φ b)) b = sgn s (act P φ b).
Proof. unfold act. rewrite <-!sgn_xor, xorb_comm. done. Qed.
Lemma sgn_comm s t (x : A) : sgn s (sgn t x) = sgn t (sgn s x).
Proof. by rewrite <-!sgn_xor, xorb_comm. Qed.
Lemma project_comm P m Q n φ : commute P Q -> peq (ideal1 (Project P m) (ideal1 (Project Q n) φ)) (ideal1 (Project Q n) (ideal1 (Project P m) φ)).
Proof.
  intros Hc b. cbn. rewrite !act_add, !(act_sgn _ _ (act _ φ)), !sgn_add, (act_comm P Q φ b Hc), (sgn_comm m n). ring.
Qed.
Definition projects (l : list (pauli qubit * bool)) : list iop := (fun pm => Project pm.1 pm.2) <$> l.
Lemma projects_perm l l' φ : l ≡ₚ l' -> (forall P Q, P ∈ l.*1 -> Q ∈ l.*1 -> commute P Q) ->
  peq (ideal (projects l) φ) (ideal (projects l') φ).
Proof.
  intros Hp. revert φ. induction Hp as [|x l l' Hp IHp|x y l|l l' l'' H1 IHp1 H2 IHp2]; intros φ Hc b.
  - done.
  - cbn. apply IHp. intros P Q HP HQ. apply Hc; by right.
  - cbn. apply ideal_ext. intros b'. apply project_comm. apply Hc; [right; left|left]; done.
  - rewrite IHp1 by done. apply IHp2. intros P Q HP HQ. apply Hc; by rewrite H1.
Qed.

(** ** Gates *)
Lemma gX_act q φ : peq (gX q φ) (act (Xon {[q]}) φ).
Proof. intros b. unfold gX, act. cbn [px pz Xon]. by rewrite dot_empty_l. Qed.
Lemma gZ_act q φ : peq (gZ q φ) (act (Zon {[q]}) φ).
Proof. intros b. unfold gZ, act. cbn [px pz Zon]. by rewrite dot_singleton_l, sd_empty_r. Qed.
Lemma act_pid φ : peq (act pid φ) φ.
Proof. intros b. unfold act. cbn [px pz pid]. by rewrite dot_empty_l, sd_empty_r. Qed.
Lemma act_peq P φ ψ : peq φ ψ -> peq (act P φ) (act P ψ).
Proof. intros H b. unfold act. by rewrite H. Qed.
Lemma gate_act i E (k0 k1 : config A) : gate_pauli i = Some E -> step i k0 k1 -> k1.1 = k0.1 /\ peq k1.2 (act E k0.2).
Proof.
  intros Hg Hs. destruct Hs; cbn in Hg; try done; injection Hg as <-; (split; [done|]); cbn [snd].
  - apply gX_act.
  - apply gZ_act.
  - intros b. by rewrite act_pid.
  - intros b. by rewrite act_pid.
Qed.
Lemma gate_supp i E q : gate_pauli i = Some E -> q ∉ instr_qubits i -> off q E.
Proof.
  destruct i; cbn; intros [= <-] Hq; try apply off_pid.
  - apply (off_single q true). intros ->. apply Hq. by left.
  - apply (off_single q false). intros ->. apply Hq. by left.
Qed.
Lemma gates_supp is E q : gates_pauli is = Some E -> q ∉ mjoin (instr_qubits <$> is) -> off q E.
Proof.
  revert E. induction is as [|i is IHl]; intros E; cbn [gates_pauli]; [intros [= <-] _; apply off_pid|].
  destruct (gate_pauli i) as [E1|] eqn:E1'; [|done]. cbn [mbind option_bind].
  destruct (gates_pauli is) as [E2|]; [|done]. cbn [mbind option_bind]. intros [= <-] Hq.
  rewrite fmap_cons in Hq. change (mjoin (instr_qubits i :: (instr_qubits <$> is))) with (instr_qubits i ++ mjoin (instr_qubits <$> is)) in Hq.
  apply not_elem_of_app in Hq as [H1 H2]. apply off_pmul; [by eapply gate_supp|by apply IHl].
Qed.
Lemma gates_act is E (k0 k1 : config A) : gates_pauli is = Some E -> NoDup (mjoin (instr_qubits <$> is)) -> exec is k0 k1 ->
  k1.1 = k0.1 /\ peq k1.2 (act E k0.2).
Proof.
  revert E k0. induction is as [|i is IHl]; intros E k0; cbn [gates_pauli].
  - intros [= <-] _ He. inversion He; subst. split; [done|]. intros b. by rewrite act_pid.
  - destruct (gate_pauli i) as [E1|] eqn:E1'; [|done]. cbn [mbind option_bind].
    destruct (gates_pauli is) as [E2|] eqn:E2'; [|done]. cbn [mbind option_bind]. intros [= <-] Hnd He.
    rewrite fmap_cons in Hnd. change (mjoin (instr_qubits i :: (instr_qubits <$> is))) with (instr_qubits i ++ mjoin (instr_qubits <$> is)) in Hnd.
    apply NoDup_app in Hnd as (_ & Hd & Hnd).
    inversion He as [|? ? ? k ? Hst He']; subst. destruct (gate_act _ _ _ _ E1' Hst) as [Ec Hs].
    destruct (IHl E2 k eq_refl Hnd He') as [Ec2 Hs2]. split; [by rewrite Ec2|]. intros b. rewrite Hs2.
    rewrite (act_peq E2 _ _ Hs), act_mul, (pmul_comm E2 E1).
    assert (dot (px E2) (pz E1) = false) as ->; [|done].
    apply dot_disj. intros q Hq2 Hq1. destruct (decide (q ∈ instr_qubits i)) as [Hi|Hi].
    + destruct (gates_supp is E2 q E2' (Hd q Hi)) as [Hx _]. apply mem_false in Hx. done.
    + destruct (gate_supp i E1 q E1' Hi) as [_ Hz]. apply mem_false in Hz. done.
Qed.

(** ** Measurements and resets of a list of qubits *)
Lemma measured (l : list (qubit * clbit)) (k0 k1 : config A) : exec ((fun qb => IMeas qb.1 qb.2) <$> l) k0 k1 -> NoDup l.*2 ->
  (forall b, b ∉ l.*2 -> k1.1 b = k0.1 b) /\
  forall b, ((forall q k, (q, k) ∈ l -> mem q b = k1.1 k) -> k1.2 b = k0.2 b) /\
            ((exists q k, (q, k) ∈ l /\ mem q b <> k1.1 k) -> k1.2 b = a0).
Proof.
  revert k0. induction l as [|[q0 b0] l IHl]; intros k0 He Hnd.
  - inversion He; subst. split; [done|]. intros b. split; [done|]. intros (q & k & Hn & _). by apply elem_of_nil in Hn.
  - rewrite fmap_cons in He. cbn [fmap list_fmap] in Hnd. apply NoDup_cons in Hnd as [Hb0 Hnd]. inversion He as [|? ? ? k ? Hst He']; subst.
    destruct (IHl k He' Hnd) as [Hf Hb]. assert (Em : exists m, k = (cupd k0.1 b0 m, proj q0 m k0.2)).
    { cbn in Hst. inversion Hst; subst. by exists m. }
    destruct Em as [m ->]. cbn [fst snd] in *.
    assert (E0 : k1.1 b0 = m) by (rewrite Hf by done; unfold cupd; by rewrite bool_decide_eq_true_2).
    split.
    + intros b Hb'. apply not_elem_of_cons in Hb' as [Hn Hb']. rewrite Hf by done. unfold cupd. by rewrite bool_decide_eq_false_2.
    + intros b. destruct (Hb b) as [H1 H2]. split.
      * intros Hall. rewrite H1 by (intros q k Hk; apply Hall; by right). unfold proj. rewrite (Hall q0 b0) by (by left). rewrite E0. by rewrite Bool.eqb_reflx.
      * intros (q & k & Hin & Hne). destruct (decide (Forall (fun qk => mem qk.1 b = k1.1 qk.2) l)) as [Hd|Hd].
        -- rewrite H1 by (intros q' k' Hk'; by apply (proj1 (list.Forall_forall _ _) Hd (q', k'))).
           apply elem_of_cons in Hin as [[= -> ->]|Hin]; [|exfalso; apply Hne; by apply (proj1 (list.Forall_forall _ _) Hd (q, k))].
           unfold proj. rewrite E0 in Hne. destruct (mem q0 b), m; done.
        -- apply H2. apply not_Forall_Exists in Hd; [|intros ?; apply _]. apply Exists_exists in Hd as ([q' k'] & Hin' & Hn). by exists q', k'.
Qed.
Lemma measure_any (l : list (qubit * clbit)) (m : cstate) (k0 : config A) : NoDup l.*2 ->
  exists k1, exec ((fun qb => IMeas qb.1 qb.2) <$> l) k0 k1 /\ forall q k, (q, k) ∈ l -> k1.1 k = m k.
Proof.
  revert k0. induction l as [|[q0 b0] l IHl]; intros [c0 ψ] Hnd.
  - eexists. split; [constructor|]. intros q k Hn. by apply elem_of_nil in Hn.
  - cbn [fmap list_fmap] in Hnd. apply NoDup_cons in Hnd as [Hb0 Hnd].
    destruct (IHl (cupd c0 b0 (m b0), proj q0 (m b0) ψ) Hnd) as (k1 & He & Hk). exists k1. split.
    + rewrite fmap_cons. eapply EStep; [constructor|exact He].
    + intros q k Hin. destruct (measured _ _ _ He Hnd) as [Hf _].
      apply elem_of_cons in Hin as [[= -> ->]|Hin]; [|by eapply Hk]. rewrite Hf by done. cbn. unfold cupd. by rewrite bool_decide_eq_true_2.
Qed.
Definition rset (r : qubit -> bool) (l : list qubit) : gset qubit := xsum ((fun q => bitset (r q) q) <$> l).
Lemma mem_rset r l q : NoDup l -> mem q (rset r l) = bool_decide (q ∈ l) && r q.
Proof.
  induction l as [|q0 l IHl]; intros Hnd; [unfold rset; cbn; rewrite mem_empty, bool_decide_eq_false_2; [done|apply not_elem_of_nil]|].
  apply NoDup_cons in Hnd as [H0 Hnd]. unfold rset in *. rewrite fmap_cons. cbn [xsum foldr]. rewrite mem_sd, mem_bitset. unfold xsum in IHl. rewrite IHl by done.
  destruct (decide (q = q0)) as [->|Hn].
  - rewrite (bool_decide_eq_true_2 (q0 = q0)), (bool_decide_eq_false_2 (q0 ∈ l)), (bool_decide_eq_true_2 (q0 ∈ q0 :: l)) by (done || by left).
    cbn. by rewrite andb_true_r, xorb_false_r.
  - rewrite (bool_decide_eq_false_2 (q = q0)) by done. rewrite andb_false_r, xorb_false_l. f_equal. apply bool_decide_ext. rewrite elem_of_cons. tauto.
Qed.
Lemma reset_all (l : list qubit) (k0 k1 : config A) : exec (IReset <$> l) k0 k1 -> NoDup l ->
  k1.1 = k0.1 /\ exists r, forall b, ((exists q, q ∈ l /\ q ∈ b) -> k1.2 b = a0) /\
                                     ((forall q, q ∈ l -> q ∉ b) -> k1.2 b = k0.2 (b ⊕ rset r l)).
Proof.
  revert k0. induction l as [|q0 l IHl]; intros k0 He Hnd.
  - inversion He; subst. split; [done|]. exists (fun _ => false). intros b. split; [intros (q & Hn & _); by apply elem_of_nil in Hn|].
    intros _. unfold rset. cbn. by rewrite sd_empty_r.
  - apply NoDup_cons in Hnd as [H0 Hnd]. rewrite fmap_cons in He. inversion He as [|? ? ? k ? Hst He']; subst.
    destruct (IHl k He' Hnd) as (Hc & r & Hr).
    assert (Em : exists m, k.1 = k0.1 /\ forall b, (q0 ∈ b -> k.2 b = a0) /\ (q0 ∉ b -> k.2 b = k0.2 (b ⊕ bitset m q0))).
    { inversion Hst; subst; cbn.
      - exists false. split; [done|]. intros b. unfold proj. split; intros Hb; [apply mem_true in Hb as ->|apply mem_false in Hb as ->]; [done|].
        cbn. by rewrite sd_empty_r.
      - exists true. split; [done|]. intros b. unfold gX, proj.
        split; intros Hb; rewrite mem_sd, mem_singleton, bool_decide_eq_true_2 by done; [apply mem_true in Hb as ->|apply mem_false in Hb as ->]; done. }
    destruct Em as (m & Hkc & Hm). split; [by rewrite Hc|].
    exists (fun q => if bool_decide (q = q0) then m else r q). intros b. destruct (Hr b) as [Hr1 Hr2].
    assert (Hrs : forall c : gset qubit, rset (fun q => if bool_decide (q = q0) then m else r q) (q0 :: l) = bitset m q0 ⊕ rset r l).
    { intros _. apply mem_ext. intros x. rewrite mem_rset by (by apply NoDup_cons). rewrite mem_sd, mem_bitset, mem_rset by done.
      destruct (decide (x = q0)) as [->|Hn].
      - rewrite !(bool_decide_eq_true_2 (q0 = q0)), (bool_decide_eq_false_2 (q0 ∈ l)), (bool_decide_eq_true_2 (q0 ∈ q0 :: l)) by (done || by left).
        cbn. by rewrite andb_true_r, xorb_false_r.
      - rewrite !(bool_decide_eq_false_2 (x = q0)) by done. rewrite andb_false_r, xorb_false_l. f_equal. apply bool_decide_ext. rewrite elem_of_cons. tauto. }
    assert (Hq0 : mem q0 (rset r l) = false) by (rewrite mem_rset, bool_decide_eq_false_2; done).
    split.
    + intros (q & Hin & Hqb). destruct (decide (Exists (fun q' => q' ∈ b) l)) as [Hd|Hd].
      * apply Exists_exists in Hd as (q' & ? & ?). apply Hr1. by exists q'.
      * assert (Hno : forall q', q' ∈ l -> q' ∉ b) by (intros q' Hq' Hb'; apply Hd, Exists_exists; by exists q').
        apply elem_of_cons in Hin as [->|Hin]; [|exfalso; by eapply Hno]. rewrite Hr2 by done. apply Hm. apply mem_true. rewrite mem_sd, Hq0, xorb_false_r. by apply mem_true.
    + intros Hno. rewrite Hr2 by (intros q Hq; apply Hno; by right).
      destruct (Hm (b ⊕ rset r l)) as [_ Hm2]. rewrite Hm2.
      * rewrite (Hrs b). f_equal. by rewrite <-sd_assoc, (sd_comm (rset r l)).
      * apply mem_false. rewrite mem_sd, Hq0, xorb_false_r. apply mem_false, Hno. by left.
Qed.
Lemma reset_any (l : list qubit) (r : qubit -> bool) (k0 : config A) : NoDup l -> exists k1, exec (IReset <$> l) k0 k1 /\ k1.1 = k0.1 /\
  forall b, (forall q, q ∈ l -> q ∉ b) -> k1.2 b = k0.2 (b ⊕ rset r l).
Proof.
  revert k0. induction l as [|q0 l IHl]; intros [c0 ψ] Hnd.
  - eexists. split; [constructor|]. split; [done|]. intros b _. unfold rset. cbn. by rewrite sd_empty_r.
  - apply NoDup_cons in Hnd as [H0 Hnd].
    set (k := if r q0 then (c0, gX q0 (proj q0 true ψ)) else (c0, proj q0 false ψ)).
    destruct (IHl k Hnd) as (k1 & He & Hc & Hk). exists k1. split_and!.
    + rewrite fmap_cons. eapply EStep; [|exact He]. unfold k. destruct (r q0); constructor.
    + rewrite Hc. unfold k. by destruct (r q0).
    + intros b Hno. rewrite Hk by (intros q Hq; apply Hno; by right).
      assert (Hq0 : mem q0 (b ⊕ rset r l) = false).
      { rewrite mem_sd, mem_rset by done. rewrite (bool_decide_eq_false_2 (q0 ∈ l)) by done. rewrite xorb_false_r. apply mem_false, Hno. by left. }
      assert (E : b ⊕ rset r (q0 :: l) = b ⊕ rset r l ⊕ bitset (r q0) q0).
      { unfold rset. rewrite fmap_cons. cbn [xsum foldr]. by rewrite <-sd_assoc, (sd_comm (bitset _ _)). }
      rewrite E. unfold k. destruct (r q0); cbn [snd bitset].
      * unfold gX, proj. by rewrite mem_sd, Hq0, mem_singleton, bool_decide_eq_true_2.
      * unfold proj. by rewrite Hq0, sd_empty_r.
Qed.

(** A list of gates always runs. *)
Definition unitary (i : instr) : bool := match i with IH _ | IX _ | IZ _ | IId _ | IBarrier | ICX _ _ | ICZ _ _ => true | _ => false end.
Lemma unitary_runs is (k0 : config A) : (forall i, i ∈ is -> unitary i = true) -> exists k1, exec is k0 k1.
Proof.
  revert k0. induction is as [|i is IHl]; intros [c0 ψ] Hu; [eexists; constructor|].
  assert (exists k, step i (c0, ψ) k) as [k Hk] by (specialize (Hu i ltac:(by left)); destruct i; try done; eexists; constructor).
  destruct (IHl k) as [k1 He]; [intros; apply Hu; by right|]. exists k1. by eapply EStep.
Qed.
Lemma unitary_bits is (k0 k1 : config A) : (forall i, i ∈ is -> unitary i = true) -> exec is k0 k1 -> forall b, k1.1 b = k0.1 b.
Proof.
  intros Hu He b. eapply exec_frame; [exact He|]. intros i Hi. specialize (Hu i Hi). destruct i; try done; apply not_elem_of_nil.
Qed.
Lemma compile_unitary s gs i : i ∈ compile s gs -> unitary i = true.
Proof.
  intros Hi. unfold compile in Hi. apply elem_of_list_join in Hi as (l & Hi & (g & -> & _)%elem_of_list_fmap). unfold group in Hi. destruct g.1.
  - apply elem_of_app in Hi as [->%elem_of_list_singleton|[(q & -> & _)%elem_of_list_fmap| ->%elem_of_list_singleton]%elem_of_app]; done.
  - by apply elem_of_list_fmap in Hi as (q & -> & _).
Qed.

(** ** A parity measurement circuit on a clean qubit, before the measurement *)
Lemma compile_state s gs c0 ψ (k1 : config A) : s ∉ gqubits gs -> NoDup (gqubits gs) -> clean s ψ -> exec (compile s gs) (c0, ψ) k1 ->
  forall b, two (k1.2 b) = pow2 (nX gs) (ideal1 (Project (gpauli gs) (mem s b)) ψ (b ∖ {[s]})).
Proof.
  intros Hs Hnd Hc He b. set (k := (""%string, 0) : clbit).
  assert (He' : exec (compile s gs ++ [IMeas s k]) (c0, ψ) (cupd k1.1 k (mem s b), proj s (mem s b) k1.2)).
  { apply exec_app. exists k1. split; [done|]. destruct k1. eapply EStep; [constructor|constructor]. }
  destruct (compile_measure s gs c0 ψ k _ Hs Hnd Hc He') as (m & E & H).
  assert (Em : m = mem s b).
  { assert (Ek : cupd k1.1 k (mem s b) k = cupd c0 k m k) by (by rewrite <-E). unfold cupd in Ek. rewrite !bool_decide_eq_true_2 in Ek by done. by rewrite Ek. }
  subst m. destruct (H (b ∖ {[s]})) as [_ H2]; [set_solver|].
  assert (Eb : b ∖ {[s]} ⊕ bitset (mem s b) s = b).
  { apply mem_ext. intros x. rewrite mem_sd, mem_bitset. destruct (decide (x = s)) as [->|Hn].
    - rewrite bool_decide_eq_true_2, andb_true_r by done. assert (mem s (b ∖ {[s]}) = false) as -> by (apply mem_false; set_solver). apply xorb_false_l.
    - rewrite bool_decide_eq_false_2, andb_false_r, xorb_false_r by done. unfold mem. apply bool_decide_ext. set_solver. }
  rewrite Eb in H2. cbn [snd] in H2. unfold proj in H2. rewrite Bool.eqb_reflx in H2. exact H2.
Qed.
End ideal.
