(** Syndrome values along a run. *)
From Verif Require Export SpecRun P_Logical Names.
From stdpp Require Export list.
Open Scope Z_scope.

(** ** Faults and their types *)
Lemma fault_type x i isx c dh dw : 0 <= i < dh * dw ->
  fault_of (Fault x i) = if bool_decide (fault_of (Fault x i) = err_at isx c dh dw i) then err_at isx c dh dw i else err_at (negb isx) c dh dw i.
Proof.
  intros Hi. apply elem_of_data_set in Hi. case_bool_decide as Hd; [done|]. revert Hd. unfold err_at, fault_of, cconj.
  destruct c.
  - destruct x, isx; cbn; done.
  - destruct (decide (i ∈ even_set dh dw)) as [He|He].
    + assert (E1 : hconj (even_set dh dw) (Xon {[i]}) = Zon {[i]}) by (apply pauli_eq; cbn; set_solver).
      assert (E2 : hconj (even_set dh dw) (Zon {[i]}) = Xon {[i]}) by (apply pauli_eq; cbn; set_solver).
      destruct x, isx; cbn [negb]; rewrite ?E1, ?E2; done.
    + assert (E1 : hconj (even_set dh dw) (Xon {[i]}) = Xon {[i]}) by (apply pauli_eq; cbn; set_solver).
      assert (E2 : hconj (even_set dh dw) (Zon {[i]}) = Zon {[i]}) by (apply pauli_eq; cbn; set_solver).
      destruct x, isx; cbn [negb]; rewrite ?E1, ?E2; done.
Qed.
(** Operators of one type commute with errors of the other type. *)
Definition of_type (isx : bool) (c : code) (dh dw : Z) (P : pauli Z) : Prop :=
  exists A, P = cconj c (even_set dh dw) (if isx then Xon A else Zon A).
Lemma of_type_stab isx c dh dw loc : valid_size dh dw -> 0 <= loc < nsyn isx dh dw -> of_type isx c dh dw (stabk isx c dh dw loc).
Proof.
  intros Hv Hl. unfold stabk, nsyn in *. destruct isx.
  - eexists. assert (E : stab_x c dh dw loc = cconj c (even_set dh dw) (stab_x XXZZ dh dw loc)) by (destruct c; [done|by apply stab_x_hconj]).
    rewrite E, stab_x_XXZZ by done. done.
  - eexists. assert (E : stab_z c dh dw loc = cconj c (even_set dh dw) (stab_z XXZZ dh dw loc)) by (destruct c; [done|by apply stab_z_hconj]).
    rewrite E, stab_z_XXZZ by done. done.
Qed.
Lemma of_type_log isx c dh dw : of_type isx c dh dw (logk isx c dh dw).
Proof. destruct isx; eexists; by destruct c. Qed.
Lemma of_type_other isx c dh dw P i : of_type isx c dh dw P -> 0 <= i < dh * dw -> anti P (err_at (negb isx) c dh dw i) = false.
Proof.
  intros [A ->] Hi. unfold err_at. rewrite anti_cconj. destruct isx; cbn [negb].
  - rewrite anti_Xon. cbn. apply dot_empty_l.
  - rewrite anti_Zon. cbn. apply dot_empty_l.
Qed.
Lemma anti_fault isx c dh dw P x i : of_type isx c dh dw P -> 0 <= i < dh * dw ->
  anti P (fault_of (Fault x i)) = bool_decide (fault_of (Fault x i) = err_at isx c dh dw i) && anti (err_at isx c dh dw i) P.
Proof.
  intros HP Hi. rewrite (fault_type x i isx c dh dw Hi) at 1. case_bool_decide; cbn [andb].
  - apply anti_comm.
  - by apply of_type_other.
Qed.
Lemma anti_faults isx c dh dw P t l : of_type isx c dh dw P -> Forall (body_ev dh dw) l ->
  anti P (faults l) = xorl ((fun f => anti (err_at isx c dh dw f.2) P) <$> flips_of isx c dh dw t l).
Proof.
  intros HP Hl. revert t. induction Hl as [|e l He Hl IH]; intros t; [unfold faults; cbn; by rewrite anti_pid_r|].
  rewrite faults_cons. destruct e as [o|x i]; cbn [flips_of].
  - cbn [fault_of]. rewrite anti_pid_r, xorb_false_l. apply IH.
  - rewrite (anti_fault isx c dh dw P x i HP He), (IH t). case_bool_decide; cbn [andb]; [by rewrite fmap_cons, xorl_cons|by rewrite xorb_false_l].
Qed.

(** ** Uniqueness of values in executions that can happen *)
Section amp.
Context {R : Amp}.
Implicit Types (k : config R).
Lemma R_ring3 : ring_theory (@a0 R) a1 aadd amul asub aopp eq.
Proof. apply a_ring. Qed.
Add Ring Rring3 : R_ring3.
Lemma step_zero i k k' : step i k k' -> (forall b, k.2 b = a0) -> forall b, k'.2 b = a0.
Proof.
  assert (Hopp : forall s, sgn s (@a0 R) = a0) by (intros []; cbn; ring).
  intros Hs Hz b. destruct Hs; cbn [fst snd] in *; unfold gH, gX, gZ, gCX, gCZ, proj; rewrite ?Hz, ?Hopp; try done; try ring.
  all: repeat case_match; try done; try ring.
Qed.
Lemma exec_zero is k k' : exec is k k' -> (forall b, k.2 b = a0) -> forall b, k'.2 b = a0.
Proof. induction 1 as [|i is k k' k'' Hs He IH]; intros Hz; [done|]. apply IH. by eapply step_zero. Qed.
Lemma stab_unique_later is k k' P s t : stab k.2 P s -> stab k.2 P t -> exec is k k' -> possible k' -> s = t.
Proof.
  intros Hs Ht He [b Hb]. destruct (decide (s = t)) as [|Hne]; [done|]. exfalso. apply Hb. eapply exec_zero; [exact He|].
  clear b Hb. intros b. rewrite stab_iff in Hs, Ht. specialize (Hs b). specialize (Ht b). rewrite Hs in Ht.
  apply (a_two R). destruct s, t; try done; destruct (dot (pz P) b); cbn in Ht.
  - rewrite Ht at 1. ring.
  - rewrite <-Ht at 1. ring.
  - rewrite <-Ht at 1. ring.
  - rewrite Ht at 1. ring.
Qed.

(** ** What a history writes *)
Lemma cname_inj name a b : cname name a = cname name b -> a = b.
Proof. unfold cname. intros H. apply (inj (String.append name)) in H. injection H as H. by apply py_str_inj. Qed.
Lemma rdname_cname name a b : rdname name a <> cname name b.
Proof. unfold rdname, cname. intros H. apply (inj (String.append name)) in H. discriminate H. Qed.
Lemma lrname_cname name a b : lrname name a <> cname name b.
Proof. unfold lrname, cname. intros H. apply (inj (String.append name)) in H. discriminate H. Qed.

Context (c : code) (name : string) (dh dw : Z) (Hv : valid_size dh dw).
Lemma plain_code n o i : body_ev dh dw (Call o) -> is_stab o = false -> i ∈ op_code c name dh dw n o -> forall (q : qubit) (b : clbit), i <> IMeas q b.
Proof.
  intros Hb Hs Hi q b ->. destruct o; cbn [op_code] in Hi; try done.
  - unfold logx_instrs in Hi. apply elem_of_app in Hi as [(j & Hj & _)%elem_of_list_fmap|Hi%elem_of_list_singleton]; [|done].
    unfold xgate in Hj. by repeat case_match.
  - unfold logz_instrs in Hi. apply elem_of_app in Hi as [(j & Hj & _)%elem_of_list_fmap|Hi%elem_of_list_singleton]; [|done].
    unfold zgate in Hj. by repeat case_match.
  - unfold id_instrs in Hi. apply elem_of_app in Hi as [Hi|Hi%elem_of_list_singleton]; [|done].
    apply elem_of_list_join in Hi as (is & Hi & (h & -> & _)%elem_of_list_fmap). by apply elem_of_list_fmap in Hi as (? & ? & _).
  - unfold id_data_instrs in Hi. apply elem_of_app in Hi as [Hi|Hi%elem_of_list_singleton]; [|done].
    by apply elem_of_list_fmap in Hi as (? & ? & _).
Qed.
Lemma body_frame l n k0 k1 b : Forall (body_ev dh dw) l -> exec (evs_code c name dh dw n l) k0 k1 -> syn_clean name dh dw k0.2 ->
  (forall T, cT n < T -> b.1 <> cname name T) -> k1.1 b = k0.1 b.
Proof.
  intros Hl. revert n k0. induction Hl as [|e l He Hl IH]; intros n k0 Hex Hc Hb; cbn [evs_code] in Hex.
  - by inversion Hex; subst.
  - apply exec_app in Hex as (ka & He1 & He2).
    assert (Hca : syn_clean name dh dw ka.2).
    { apply (clean_evs c name dh dw Hv [e] n k0 ka); [|done]. cbn [evs_code]. by rewrite app_nil_r. }
    rewrite (IH _ _ He2 Hca).
    + destruct e as [o|x i]; cbn [ev_code] in He1.
      * destruct (is_stab o) eqn:Es.
        -- destruct o; try done. cbn [op_code] in He1. destruct (round_spec _ _ _ _ Hv _ _ _ Hc He1) as (_ & _ & _ & H4). apply H4.
           intros k _ ->. by apply (Hb (cT n + 1)); [lia|].
        -- eapply exec_frame; [exact He1|]. apply writes_plain. intros j Hj. by eapply plain_code.
      * eapply exec_frame; [exact He1|]. apply writes_plain. intros j Hj%elem_of_list_singleton. subst j. by destruct x.
    + intros T HT. apply Hb. destruct e as [o|x i]; cbn [ev_next] in HT; [|done]. destruct o; cbn in HT; try lia; done.
Qed.
Lemma body_gentle l : Forall (body_ev dh dw) l -> Forall (fun e => safe_ev gentle e = true) l.
Proof. intros H. eapply Forall_impl; [exact H|]. intros [o|x i]; [|done]. by destruct o. Qed.
Lemma cbit_off T isx loc : cbit name dh dw T (isx, loc) = (cname name T, syn_off isx dh dw + loc).
Proof. unfold cbit, syn_off. by destruct isx. Qed.
Lemma count_step f o l : count f (o :: l) = ((if f o then 1 else 0) + count f l)%nat.
Proof. unfold count. rewrite filter_cons. destruct (f o) eqn:E; by case_decide. Qed.
Lemma flips_time isx t l f : f ∈ flips_of isx c dh dw t l -> t <= f.1 <= t + Z.of_nat (count is_stab (calls l)).
Proof.
  revert t. induction l as [|e l IH]; intros t Hf; [by apply elem_of_nil in Hf|]. rewrite calls_cons. destruct e as [o|x i]; cbn [flips_of] in Hf.
  - apply IH in Hf. rewrite count_step. destruct (is_stab o); lia.
  - case_bool_decide; [apply elem_of_cons in Hf as [-> |Hf]; cbn; [lia|]|]; by apply IH.
Qed.
Lemma flips_range isx t l f : Forall (body_ev dh dw) l -> f ∈ flips_of isx c dh dw t l -> 0 <= f.2 < dh * dw.
Proof.
  intros Hl. revert t. induction Hl as [|e l He Hl IH]; intros t Hf; [by apply elem_of_nil in Hf|]. destruct e as [o|x i]; cbn [flips_of] in Hf.
  - by eapply IH.
  - case_bool_decide; [apply elem_of_cons in Hf as [-> |Hf]|]; [done|by eapply IH..].
Qed.
(** The value recorded for a stabilizer in each round. *)
Lemma run_values isx l n t k0 k1 k2 is2 loc b j : Forall (body_ev dh dw) l -> exec (evs_code c name dh dw n l) k0 k1 ->
  exec is2 k1 k2 -> possible k2 -> syn_clean name dh dw k0.2 -> 0 <= loc < nsyn isx dh dw ->
  stab k0.2 (pmap (dq name) (stabk isx c dh dw loc)) b -> 0 <= j < Z.of_nat (count is_stab (calls l)) ->
  k1.1 (cname name (cT n + 1 + j), syn_off isx dh dw + loc) =
  xorb b (xorl ((fun f => bool_decide (f.1 < t + 1 + j) && anti (err_at isx c dh dw f.2) (stabk isx c dh dw loc)) <$> flips_of isx c dh dw t l)).
Proof.
  intros Hl Hex Hex2 Hp Hc Hloc Hb. assert (Hsyn : is_syn dh dw (isx, loc)) by (unfold is_syn; by destruct isx).
  assert (Hst : stabk isx c dh dw loc = stabP c dh dw (isx, loc)) by (by destruct isx).
  revert n t k0 b j Hex Hc Hb. induction Hl as [|e l He Hl IH]; intros n t k0 b j Hex Hc Hb Hj; [cbn in Hj; lia|].
  cbn [evs_code] in Hex. apply exec_app in Hex as (ka & He1 & He2).
  assert (Hca : syn_clean name dh dw ka.2).
  { apply (clean_evs c name dh dw Hv [e] n k0 ka); [|done]. cbn [evs_code]. by rewrite app_nil_r. }
  rewrite calls_cons in Hj. destruct e as [o|x i]; cbn [ev_code ev_next flips_of] in *.
  - assert (Hg : gentle o = true) by (by destruct o).
    assert (Hba : stab ka.2 (pmap (dq name) (stabk isx c dh dw loc)) b) by (rewrite Hst in *; by eapply PK_op).
    rewrite count_step in Hj. destruct (is_stab o) eqn:Es.
    + destruct o; try done. cbn [op_code op_next] in *. destruct (decide (j = 0)) as [-> |Hj0].
      * rewrite (body_frame l (bump_T n) ka k1); [|done|done|done|].
        2:{ intros T HT E. cbn [fst] in E. apply cname_inj in E. cbn in HT. lia. }
        destruct (round_spec _ _ _ _ Hv _ _ _ Hc He1) as (H1 & _). specialize (H1 _ Hsyn). rewrite cbit_off in H1.
        rewrite Z.add_0_r. rewrite Hst in Hba.
        assert (Hall : exec (evs_code c name dh dw (bump_T n) l ++ is2) ka k2) by (apply exec_app; eauto).
        rewrite (stab_unique_later _ _ _ _ _ _ H1 Hba Hall Hp). rewrite xorl_false; [by rewrite xorb_false_r|].
        apply Forall_fmap, list.Forall_forall. intros f Hf%flips_time. cbn. rewrite bool_decide_eq_false_2 by lia. done.
      * replace (cT n + 1 + j) with (cT (bump_T n) + 1 + (j - 1)) by (cbn; lia).
        rewrite (IH (bump_T n) (t + 1) ka b (j - 1) He2 Hca Hba) by lia.
        f_equal. f_equal. apply list_fmap_ext. intros ? f _. cbn. f_equal. apply bool_decide_ext. lia.
    + assert (Hn : op_next n o = n) by (by destruct o). rewrite Hn in *. by apply IH with (k0 := ka).
  - pose proof (fault_step name x i (stabk isx c dh dw loc) k0 ka b He1 Hb) as Hba.
    rewrite (IH n t ka _ j He2 Hca Hba Hj). rewrite (anti_fault isx c dh dw _ x i) by (done || by apply of_type_stab).
    case_bool_decide; cbn [andb]; [|by rewrite xorb_false_r].
    rewrite fmap_cons, xorl_cons. cbn [fst snd]. rewrite bool_decide_eq_true_2 by lia. cbn [andb]. by rewrite xorb_assoc_reverse.
Qed.
(** ... and the value of the stabilizer afterwards. *)
Lemma run_end isx l n t k0 k1 P b : of_type isx c dh dw P -> Forall (body_ev dh dw) l -> exec (evs_code c name dh dw n l) k0 k1 ->
  (forall loc, 0 <= loc < nsyn isx dh dw -> P = stabk isx c dh dw loc -> 
  stab k0.2 (pmap (dq name) P) b ->
  stab k1.2 (pmap (dq name) P) (xorb b (xorl ((fun f => anti (err_at isx c dh dw f.2) P) <$> flips_of isx c dh dw t l)))).
Proof.
  intros HP Hl Hex loc Hloc E Hb. rewrite <- (anti_faults isx c dh dw P t l HP Hl). assert (Hst : P = stabP c dh dw (isx, loc)) by (rewrite E; by destruct isx).
  rewrite Hst in *. eapply PK_evs; [done|by apply body_gentle|unfold is_syn; by destruct isx|done|done].
Qed.
(** ** Registers created *)
Lemma body_regs l n : Forall (body_ev dh dw) l ->
  evs_reg name dh dw n l = ((fun j => Reg false (cname name (cT n + 1 + j)) (num_syn_x dh dw + num_syn_z dh dw)) <$> seqZ 0 (Z.of_nat (count is_stab (calls l)))) /\ cT (evs_next n l) = cT n + Z.of_nat (count is_stab (calls l)) /\ cR (evs_next n l) = cR n /\ cL (evs_next n l) = cL n.
Proof.
  intros Hl.
  revert n. induction Hl as [|e l He Hl IH]; intros n; [cbn; split; [done|split; [lia|done]]|].
  rewrite calls_cons. cbn [evs_reg evs_next]. destruct e as [o|x i]; cbn [ev_reg ev_next].
  - rewrite count_step. destruct (is_stab o) eqn:Es.
    + destruct o; try done. cbn [op_reg op_next]. destruct (IH (bump_T n)) as (E1 & E2 & E3 & E4). rewrite E1, E2, E3, E4. cbn [bump_T cT cR cL].
      split; [|split; [lia|done]].
      replace (Z.of_nat (1 + count is_stab (calls l))) with (Z.succ (Z.of_nat (count is_stab (calls l)))) by lia.
      rewrite (seqZ_cons 0 (Z.succ (Z.of_nat (count is_stab (calls l))))) by lia. rewrite fmap_cons. cbn [app]. f_equal.
      * do 2 f_equal. lia.
      * rewrite Z.pred_succ. change (Z.succ 0) with (1 + 0). rewrite <- (fmap_add_seqZ 1 0 (Z.of_nat (count is_stab (calls l)))), <- list_fmap_compose.
        apply list_fmap_ext. intros ? j _. cbn. do 2 f_equal. lia.
    + assert (op_next n o = n /\ op_reg name dh dw n o = []) as [-> ->] by (by destruct o). cbn [app]. apply IH.
  - apply IH.
Qed.
End amp.
