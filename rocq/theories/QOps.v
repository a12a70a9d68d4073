(** Effect of each method call on the state. *)
From Verif Require Export QRound Hist.
From stdpp Require Export list.
Open Scope Z_scope.

Lemma gate1_prop (i : instr) (E : pauli qubit) (Q : pauli qubit) : gate_pauli i = Some E -> prop1 i Q = Some (Q, anti Q E).
Proof.
  destruct i; cbn; intros [= <-]; try done; f_equal; f_equal.
  - by rewrite anti_Xon, dot_singleton_r.
  - by rewrite anti_Zon, dot_singleton_r.
  - by rewrite anti_pid_r.
  - by rewrite anti_pid_r.
Qed.
Lemma gates_prop (is : list instr) (E : pauli qubit) (Q : pauli qubit) : gates_pauli is = Some E -> prop is Q = Some (Q, anti Q E).
Proof.
  revert E. induction is as [|i is IH]; intros E; cbn [gates_pauli prop].
  - intros [= <-]. by rewrite anti_pid_r.
  - destruct (gate_pauli i) as [E1|] eqn:E1'; [|done]. cbn [mbind option_bind].
    destruct (gates_pauli is) as [E2|]; [|done]. cbn [mbind option_bind]. intros [= <-].
    rewrite (gate1_prop _ _ _ E1'), (IH E2 eq_refl). by rewrite anti_pmul_r.
Qed.

(** A layer of Hadamards. *)
Lemma hP_hconj (q : qubit) (Q : pauli qubit) : hP q Q = hconj {[q]} Q.
Proof.
  apply pauli_eq; apply mem_ext; intros a.
  - rewrite mem_hconj_x, mem_singleton. cbn. rewrite mem_sd, mem_bitset. case_bool_decide; subst; [|by rewrite andb_false_r, xorb_false_r].
    rewrite andb_true_r. by destruct (mem q (px Q)), (mem q (pz Q)).
  - rewrite mem_hconj_z, mem_singleton. cbn. rewrite mem_sd, mem_bitset. case_bool_decide; subst; [|by rewrite andb_false_r, xorb_false_r].
    rewrite andb_true_r. by destruct (mem q (px Q)), (mem q (pz Q)).
Qed.
Lemma hconj_empty {A} `{Countable A} (Q : pauli A) : hconj ∅ Q = Q.
Proof. apply pauli_eq; cbn; set_solver. Qed.
Lemma hconj_insert (q : qubit) (S : gset qubit) (Q : pauli qubit) : q ∉ S -> hconj S (hconj {[q]} Q) = hconj ({[q]} ∪ S) Q.
Proof.
  intros HS. apply mem_false in HS. apply pauli_eq; apply mem_ext; intros a; rewrite ?mem_hconj_x, ?mem_hconj_z, ?mem_hconj_x;
  (assert (mem a ({[q]} ∪ S) = bool_decide (a = q) || mem a S) as ->
    by (unfold mem; rewrite <-!bool_decide_or; apply bool_decide_ext; set_solver));
  rewrite mem_singleton; case_bool_decide; subst; rewrite ?HS; done.
Qed.
Lemma prop_H_layer (l : list qubit) (Q : pauli qubit) : NoDup l -> px Q ## pz Q ->
  prop (IH <$> l) Q = Some (hconj (list_to_set l) Q, false).
Proof.
  revert Q. induction l as [|q l IH]; intros Q Hnd Hd.
  - cbn. by rewrite hconj_empty.
  - apply NoDup_cons in Hnd as [Hq Hnd]. rewrite fmap_cons. cbn [prop prop1].
    rewrite hP_hconj, IH; [|done|].
    + rewrite hconj_insert by set_solver. cbn [list_to_set].
      assert (mem q (px Q) && mem q (pz Q) = false) as ->; [|done].
      destruct (mem q (px Q)) eqn:E1, (mem q (pz Q)) eqn:E2; try done. apply mem_true in E1. apply mem_true in E2. set_solver.
    + cbn. set_solver.
Qed.

Section z.
Context {R : Amp}.
Lemma stab_Zon_list (ψ : state R) (f : qubit -> bool) l : NoDup l -> (forall q, q ∈ l -> stab ψ (Zon {[q]}) (f q)) ->
  stab ψ (Zon (list_to_set l)) (xorl (f <$> l)).
Proof.
  induction l as [|q l IH]; intros Hnd Hf; cbn [list_to_set].
  - apply stab_pid.
  - apply NoDup_cons in Hnd as [Hq Hnd]. rewrite fmap_cons, xorl_cons.
    assert (Zon ({[q]} ∪ list_to_set l) = pmul (Zon {[q]}) (Zon (list_to_set l))) as ->.
    { apply pauli_eq; cbn [px pz pmul Zon]; [by rewrite sd_empty_l|]. rewrite sd_insert; [done|]. set_solver. }
    replace (xorb (f q) _) with (xorb (xorb (f q) (xorl (f <$> l))) (dot (px (Zon {[q]})) (pz (Zon (list_to_set l))))).
    + apply stab_mul; [apply Hf; by left|]. apply IH; [done|]. intros; apply Hf; by right.
    + cbn [px Zon]. by rewrite dot_empty_l, xorb_false_r.
Qed.
End z.

(** The Pauli acts on data qubits of [name] only. *)
Definition data_only (name : string) (Q : pauli qubit) : Prop := forall q, (forall i, q <> dq name i) -> off q Q.
Lemma data_only_pmap name (P : pauli Z) : data_only name (pmap (dq name) P).
Proof.
  intros q Hq. split; apply mem_false; cbn; intros (i & -> & _)%elem_of_map; by apply (Hq i).
Qed.
Lemma pmap_hconj name (S : gset Z) P : pmap (dq name) (hconj S P) = hconj (img (dq name) S) (pmap (dq name) P).
Proof.
  assert (Inj (=) (=) (dq name)) by (intros ? ?; apply dq_inj).
  apply pauli_eq; cbn; unfold img; apply set_eq; intros x; rewrite elem_of_map; set_unfold; split.
  - intros (y & -> & [[? ?]|[? ?]]); [left|right]; split; eauto. intros (z & [= ->]%dq_inj & ?); done.
  - intros [[(y & -> & ?) Hn]|[(y & -> & ?) (z & E & ?)]].
    + exists y. split; [done|]. left. split; [done|]. intros ?. apply Hn. eauto.
    + apply dq_inj in E as ->. eauto.
  - intros (y & -> & [[? ?]|[? ?]]); [left|right]; split; eauto. intros (z & [= ->]%dq_inj & ?); done.
  - intros [[(y & -> & ?) Hn]|[(y & -> & ?) (z & E & ?)]].
    + exists y. split; [done|]. left. split; [done|]. intros ?. apply Hn. eauto.
    + apply dq_inj in E as ->. eauto.
Qed.

Section ops.
Context (c : code) (name : string) (dh dw : Z) (Hv : valid_size dh dw).
Let P (k : bool * Z) : pauli qubit := pmap (dq name) (stabP c dh dw k).
Let LX : pauli qubit := pmap (dq name) (log_x c dh dw).
Let LZ : pauli qubit := pmap (dq name) (log_z c dh dw).

Lemma data_only_syn Q : data_only name Q -> synd_off name dh dw Q.
Proof. intros HQ k _. apply HQ. intros i. apply synq_dq. Qed.
Lemma data_only_anc Q : data_only name Q -> off (ancq name) Q.
Proof. intros HQ. apply HQ. intros i. apply ancq_dq. Qed.

(** Operators measured by a readout, and the sign changes of logical operators. *)
Definition op_comm (o : op) (Q : pauli qubit) : Prop :=
  match o with
  | OReadX _ => commute Q LX | OReadZ _ => commute Q LZ
  | OLatX | OLatZ | OResetX | OResetZ => False
  | OStab => synd_comm c name dh dw Q
  | _ => True end.
Definition op_flip (o : op) (Q : pauli qubit) : bool :=
  match o with OX => anti Q LX | OZ => anti Q LZ | _ => false end.

Lemma anc_notin_row : ancq name ∉ gqubits (glz c name (row_list dw)).
Proof. rewrite glz_qubits. intros (i & E & _)%elem_of_list_fmap. by eapply ancq_dq. Qed.
Lemma anc_notin_col : ancq name ∉ gqubits (glx c name (col_list dh dw)).
Proof. rewrite glx_qubits. intros (i & E & _)%elem_of_list_fmap. by eapply ancq_dq. Qed.
Lemma row_nodup : NoDup (gqubits (glz c name (row_list dw))).
Proof. rewrite glz_qubits. apply NoDup_fmap_2_strong; [|apply row_list_NoDup]. intros ? ? _ _. apply dq_inj. Qed.
Lemma col_nodup : NoDup (gqubits (glx c name (col_list dh dw))).
Proof. rewrite glx_qubits. apply NoDup_fmap_2_strong; [|by apply col_list_NoDup]. intros ? ? _ _. apply dq_inj. Qed.

Lemma prop_meas_anc (h : rhandle) (Q : pauli qubit) : mem (ancq name) (px Q) = false ->
  prop (IMeas (ancq name) <$> reg_bits h) Q = Some (Q, false).
Proof. intros HQ. apply prop_keep. intros i (b & -> & _)%elem_of_list_fmap. cbn. by rewrite HQ. Qed.
Lemma prop_into gs Q : ancq name ∉ gqubits gs -> off (ancq name) Q -> commute Q (gpauli gs) ->
  prop (IReset (ancq name) :: compile (ancq name) gs) Q = Some (Q, false).
Proof. intros Hn [H1 H2] Hc. cbn [prop prop1]. rewrite H1, H2. cbn. by rewrite prop_compile_commute. Qed.
Lemma prop_rd gs h Q : ancq name ∉ gqubits gs -> off (ancq name) Q -> commute Q (gpauli gs) ->
  prop ((IReset (ancq name) :: compile (ancq name) gs) ++ (IMeas (ancq name) <$> reg_bits h) ++ [IBarrier]) Q = Some (Q, false).
Proof.
  intros Hn Ho Hc. change false with (xorb false (xorb false false)). eapply prop_app; [by apply prop_into|].
  eapply prop_app; [apply prop_meas_anc, Ho|]. done.
Qed.

Lemma op_prop n o Q : data_only name Q -> op_comm o Q ->
  prop (op_code c name dh dw n o) Q = Some (Q, op_flip o Q).
Proof.
  intros HQ Hc. pose proof (data_only_syn _ HQ) as Hso. pose proof (data_only_anc _ HQ) as Hao.
  destruct o as [|r|r| | | | | | | |]; cbn [op_code op_comm op_flip] in *; try done.
  - by apply round_keep.
  - unfold rd_x, into_x. apply prop_rd; [apply anc_notin_col|done|]. by rewrite gpauli_col.
  - unfold rd_z, into_z. apply prop_rd; [apply anc_notin_row|done|]. by rewrite (gpauli_row _ _ dh dw).
  - apply gates_prop. by apply logx_pauli.
  - apply gates_prop. by apply logz_pauli.
  - apply prop_keep. unfold id_instrs. intros i [Hi|Hi]%elem_of_app.
    + apply elem_of_list_join in Hi as (is & Hi & (h & -> & _)%elem_of_list_fmap). by apply elem_of_list_fmap in Hi as (b & -> & _).
    + apply elem_of_list_singleton in Hi as ->. done.
  - apply prop_keep. unfold id_data_instrs. intros i [Hi|Hi]%elem_of_app.
    + by apply elem_of_list_fmap in Hi as (b & -> & _).
    + apply elem_of_list_singleton in Hi as ->. done.
Qed.
End ops.

(** ** Instructions that do not touch an operator *)
Definition proper (i : instr) : Prop := match i with ICX a b => a <> b | _ => True end.
Lemma prop1_untouched (i : instr) (Q : pauli qubit) : proper i -> (forall q, q ∈ instr_qubits i -> off q Q) -> prop1 i Q = Some (Q, false).
Proof.
  intros Hp Ho.
  assert (H1 : forall q, [q] = instr_qubits i -> off q Q) by (intros q E; apply Ho; rewrite <-E; by left).
  assert (H2 : forall a b, [a; b] = instr_qubits i -> off a Q /\ off b Q).
  { intros a b E; split; apply Ho; rewrite <-E; [by left|right; by left]. }
  destruct i as [q|q|q|q|a b|a b|q|q k|q r v|q r v|]; cbn in *; try done;
    try (destruct (H1 q eq_refl) as [Ex Ez]; rewrite ?Ex, ?Ez; cbn; try done);
    try (destruct (H2 a b eq_refl) as [[Ax Az] [Bx Bz]]).
  - rewrite hP_hconj. f_equal. f_equal. apply pauli_eq; apply mem_ext; intros a; rewrite ?mem_hconj_x, ?mem_hconj_z, mem_singleton;
      case_bool_decide; subst; congruence.
  - rewrite bool_decide_eq_false_2 by done. unfold cxP. rewrite Ax, Bz. cbn. rewrite !sd_empty_r. by destruct Q.
  - unfold czP. rewrite Ax, Bx. cbn. rewrite !sd_empty_r. by destruct Q.
Qed.
Lemma prop_untouched (is : list instr) (Q : pauli qubit) : (forall i, i ∈ is -> proper i) ->
  (forall i q, i ∈ is -> q ∈ instr_qubits i -> off q Q) -> prop is Q = Some (Q, false).
Proof. intros Hp Ho. apply prop_keep. intros i Hi. apply prop1_untouched; [by apply Hp|]. intros q. by apply Ho. Qed.

Definition within (name : string) (q : qubit) : Prop :=
  q.1 = (name +:+ "_data")%string \/ q.1 = (name +:+ "_mz")%string \/ q.1 = (name +:+ "_mx")%string \/ q.1 = (name +:+ "_ancilla")%string.
Definition on_data_anc (name : string) (q : qubit) : Prop := (exists i, q = dq name i) \/ q = ancq name.
Lemma on_data_anc_within name q : on_data_anc name q -> within name q.
Proof. intros [[i ->]| ->]; [by left|by right; right; right]. Qed.

Lemma compile_touch s gs i : i ∈ compile s gs -> s ∉ gqubits gs -> proper i /\ forall q, q ∈ instr_qubits i -> q = s \/ q ∈ gqubits gs.
Proof.
  intros Hi Hs. unfold compile in Hi. apply elem_of_list_join in Hi as (is & Hi & (g & -> & Hg)%elem_of_list_fmap).
  assert (HG : forall q, q ∈ g.2 -> q ∈ gqubits gs).
  { intros q Hq. unfold gqubits. apply elem_of_list_join. exists g.2. split; [done|]. apply elem_of_list_fmap. eauto. }
  unfold group in Hi. destruct g.1.
  - apply elem_of_app in Hi as [Hi%elem_of_list_singleton|Hi]; [subst; cbn; split; [done|]; intros q Hq%elem_of_list_singleton; by left|].
    apply elem_of_app in Hi as [Hi|Hi%elem_of_list_singleton]; [|subst; cbn; split; [done|]; intros q Hq%elem_of_list_singleton; by left].
    apply elem_of_list_fmap in Hi as (q & -> & Hq). cbn. split; [intros ->; by apply Hs, HG|].
    intros q' [->|Hq'%elem_of_list_singleton]%elem_of_cons; [by left|]. subst. right. by apply HG.
  - apply elem_of_list_fmap in Hi as (q & -> & Hq). cbn. split; [intros ->; by apply Hs, HG|].
    intros q' [->|Hq'%elem_of_list_singleton]%elem_of_cons; [right; by apply HG|]. subst. by left.
Qed.
Lemma op_touch c name dh dw n o i : valid_size dh dw -> i ∈ op_code c name dh dw n o -> proper i /\ forall q, q ∈ instr_qubits i -> within name q.
Proof.
  intros Hv Hi.
  assert (HB : forall i, i = IBarrier -> proper i /\ forall q, q ∈ instr_qubits i -> within name q)
    by (intros ? ->; split; [done|]; intros q Hq; by apply elem_of_nil in Hq).
  assert (H1 : forall (f : qubit -> instr) q, within name q -> (instr_qubits (f q) = [q] /\ proper (f q)) ->
     proper (f q) /\ forall q', q' ∈ instr_qubits (f q) -> within name q').
  { intros f q Hw [E ?]. split; [done|]. rewrite E. by intros q' ->%elem_of_list_singleton. }
  assert (Hd : forall i, within name (dq name i)) by (intros; by left).
  assert (Ha : within name (ancq name)) by (right; right; by right).
  assert (Hs : forall k, within name (synq name k)) by (intros [[] ?]; [by right; right; left|by right; left]).
  assert (HC : forall gs i, ancq name ∉ gqubits gs -> (forall q, q ∈ gqubits gs -> exists j, q = dq name j) -> i ∈ IReset (ancq name) :: compile (ancq name) gs ->
     proper i /\ forall q, q ∈ instr_qubits i -> within name q).
  { intros gs j Hn Hg [->|Hj]%elem_of_cons; [by apply (H1 IReset)|].
    destruct (compile_touch _ _ _ Hj Hn) as [Hp Hq]. split; [done|]. intros q [->|Hq']%Hq; [done|]. destruct (Hg _ Hq') as [? ->]. done. }
  assert (HL : forall (f : qubit -> instr) (l : list Z), (forall q, instr_qubits (f q) = [q] /\ proper (f q)) -> i ∈ f <$> (dq name <$> l) ->
     proper i /\ forall q, q ∈ instr_qubits i -> within name q).
  { intros f l Hf (q & -> & (j & -> & _)%elem_of_list_fmap)%elem_of_list_fmap. by apply (H1 f). }
  assert (HR : forall gs h, ancq name ∉ gqubits gs -> (forall q, q ∈ gqubits gs -> exists j, q = dq name j) ->
    i ∈ (IReset (ancq name) :: compile (ancq name) gs) ++ (IMeas (ancq name) <$> reg_bits h) ++ [IBarrier] ->
     proper i /\ forall q, q ∈ instr_qubits i -> within name q).
  { intros gs h Hn Hg [Hj|[Hj|Hj%elem_of_list_singleton]%elem_of_app]%elem_of_app; [by eapply HC| |by apply HB].
    apply elem_of_list_fmap in Hj as (b & -> & _). by apply (H1 (fun q => IMeas q b)). }
  assert (HM : forall f, i ∈ (fun j => IMeas (dq name j) (f j)) <$> seqZ 0 (num_data dh dw) -> proper i /\ forall q, q ∈ instr_qubits i -> within name q).
  { intros f (j & -> & _)%elem_of_list_fmap. by apply (H1 (fun q => IMeas q (f j))). }
  destruct o as [|r|r| | | | | | | |]; cbn [op_code] in Hi.
  - unfold round_instrs in Hi. rewrite meas_instrs_eq, reset_instrs_eq, lat_stabs_syns, ent_instrs_eq in Hi.
    apply elem_of_app in Hi as [Hi|Hi].
    { apply elem_of_list_join in Hi as (is & Hi & (k & -> & Hk%elem_of_syns)%elem_of_list_fmap).
      unfold ent_k in Hi. apply elem_of_app in Hi as [Hi|Hi%elem_of_list_singleton]; [|by apply HB].
      rewrite ent_compile in Hi by done. apply compile_touch in Hi as [? Hq].
      - split; [done|]. intros q [->|Hq']%Hq; [done|]. fold (gsP c name dh dw k) in Hq'. rewrite gsP_qubits in Hq'. apply elem_of_list_fmap in Hq' as (? & -> & _). done.
      - fold (gsP c name dh dw k). apply gsP_off. intros j. apply synq_dq. }
    apply elem_of_app in Hi as [Hi|Hi].
    { apply elem_of_list_fmap in Hi as ([q b] & -> & (k & [= -> ->] & _)%elem_of_list_fmap). apply (H1 (fun q => IMeas q (cbit name dh dw (cT n + 1) k))); [apply Hs|done]. }
    apply elem_of_app in Hi as [Hi|Hi%elem_of_list_singleton]; [|by apply HB].
    apply elem_of_list_fmap in Hi as (q & -> & (k & -> & _)%elem_of_list_fmap). by apply (H1 IReset).
  - eapply HR; [apply anc_notin_col|..|exact Hi]. intros q. rewrite glx_qubits. intros (j & -> & _)%elem_of_list_fmap. eauto.
  - eapply HR; [apply anc_notin_row|..|exact Hi]. intros q. rewrite glz_qubits. intros (j & -> & _)%elem_of_list_fmap. eauto.
  - unfold lr_x in Hi. apply elem_of_app in Hi as [Hi|[Hi|Hi%elem_of_list_singleton]%elem_of_app]; [|by eapply HM|by apply HB].
    destruct c; eapply HL; try done; intros; done.
  - unfold lr_z in Hi. apply elem_of_app in Hi as [Hi|[Hi|Hi%elem_of_list_singleton]%elem_of_app]; [|by eapply HM|by apply HB].
    destruct c; [by apply elem_of_nil in Hi|]. eapply HL; try done; intros; done.
  - unfold rs_x in Hi. apply elem_of_app in Hi as [Hi|Hi]; [eapply HL; try done; intros; done|].
    destruct c; [apply elem_of_app in Hi as [Hi|Hi%elem_of_list_singleton]; [|by apply HB]|]; (eapply HL; try done; intros; done).
  - unfold rs_z in Hi. apply elem_of_app in Hi as [Hi|Hi]; [eapply HL; try done; intros; done|].
    destruct c; [apply elem_of_list_singleton in Hi; by apply HB|]. eapply HL; try done; intros; done.
  - unfold logx_instrs in Hi. apply elem_of_app in Hi as [Hi|Hi%elem_of_list_singleton]; [|by apply HB].
    apply elem_of_list_fmap in Hi as (j & -> & _). unfold xgate. destruct c; [by apply (H1 IX)|]. case_bool_decide; [by apply (H1 IX)|by apply (H1 IZ)].
  - unfold logz_instrs in Hi. apply elem_of_app in Hi as [Hi|Hi%elem_of_list_singleton]; [|by apply HB].
    apply elem_of_list_fmap in Hi as (j & -> & _). unfold zgate. destruct c; [by apply (H1 IZ)|]. case_bool_decide; [by apply (H1 IX)|by apply (H1 IZ)].
  - unfold id_instrs in Hi. apply elem_of_app in Hi as [Hi|Hi%elem_of_list_singleton]; [|by apply HB].
    apply elem_of_list_join in Hi as (is & Hi & (h & -> & Hh)%elem_of_list_fmap). apply elem_of_list_fmap in Hi as (b & -> & Hb).
    apply (H1 IId); [|done]. unfold reg_bits in Hb. apply elem_of_list_fmap in Hb as (j & -> & _).
    unfold lattice_regs in Hh. unfold within. cbn.
    repeat (apply elem_of_app in Hh as [Hh|Hh]); try (apply elem_of_list_singleton in Hh as ->; cbn; tauto);
    (unfold opt_reg in Hh; case_bool_decide; cbn in Hh; [apply elem_of_list_singleton in Hh as ->; cbn; tauto|by apply elem_of_nil in Hh]).
  - unfold id_data_instrs in Hi. apply elem_of_app in Hi as [Hi|Hi%elem_of_list_singleton]; [|by apply HB]. eapply HL; try done; intros; done.
Qed.

Section ops2.
Context (c : code) (name : string) (dh dw : Z) (Hv : valid_size dh dw) {R : Amp}.
Local Notation LX := (pmap (dq name) (log_x c dh dw)).
Local Notation LZ := (pmap (dq name) (log_z c dh dw)).
Definition syn_clean (ψ : state R) : Prop := forall k, is_syn dh dw k -> clean (synq name k) ψ.

(** Every call leaves the syndrome qubits in |0>. *)
Lemma op_syn_clean n o (k0 k1 : config R) : exec (op_code c name dh dw n o) k0 k1 -> syn_clean k0.2 -> syn_clean k1.2.
Proof.
  intros He Hc. assert ((o = OStab \/ o = OId) \/ ~ (o = OStab \/ o = OId)) as [[->| ->]|Hne] by (destruct o; naive_solver).
  - cbn [op_code] in He. by apply round_spec in He as (_ & H & _).
  - intros k Hk. apply clean_stab. rewrite <-(xorb_false_r false). eapply prop_sound; [|exact He|apply clean_stab, Hc, Hk].
    apply prop_keep. cbn [op_code]. unfold id_instrs. intros i [Hi|Hi]%elem_of_app.
    + apply elem_of_list_join in Hi as (is & Hi & (h & -> & _)%elem_of_list_fmap). by apply elem_of_list_fmap in Hi as (b & -> & _).
    + apply elem_of_list_singleton in Hi as ->. done.
  - intros k Hk. apply clean_stab. rewrite <-(xorb_false_r false). eapply prop_sound; [|exact He|apply clean_stab, Hc, Hk].
    apply prop_untouched; [intros i Hi; by eapply op_touch|]. intros i q0 Hi Hq0. revert q0 Hq0.
    assert (on_data_anc name (synq name k) -> False) as Hno.
    { intros [[j E']|E']; [by eapply synq_dq|by eapply ancq_synq]. }
    assert (forall q, on_data_anc name q -> off q (Zon {[synq name k]})) as Hoff.
    { intros q Hq. apply off_Z. intros ->. by apply Hno. }
    assert (HL : forall (f : qubit -> instr) (l : list Z), (forall q, instr_qubits (f q) = [q]) -> i ∈ f <$> (dq name <$> l) ->
       forall q, q ∈ instr_qubits i -> on_data_anc name q).
    { intros f l Hf (q & -> & (j & -> & _)%elem_of_list_fmap)%elem_of_list_fmap. rewrite Hf. intros q ->%elem_of_list_singleton. left; eauto. }
    assert (HC : forall gs h, ancq name ∉ gqubits gs -> (forall q, q ∈ gqubits gs -> exists j, q = dq name j) ->
      i ∈ (IReset (ancq name) :: compile (ancq name) gs) ++ (IMeas (ancq name) <$> reg_bits h) ++ [IBarrier] ->
      forall q, q ∈ instr_qubits i -> on_data_anc name q).
    { intros gs h Hn Hg [[->|Hj]%elem_of_cons|[Hj|Hj%elem_of_list_singleton]%elem_of_app]%elem_of_app.
      - intros q ->%elem_of_list_singleton. by right.
      - destruct (compile_touch _ _ _ Hj Hn) as [_ Hq]. intros q [->|Hq']%Hq; [by right|]. left. by apply Hg.
      - apply elem_of_list_fmap in Hj as (b & -> & _). intros q ->%elem_of_list_singleton. by right.
      - subst. intros q Hq. by apply elem_of_nil in Hq. }
    assert (HM : forall f, i ∈ (fun j => IMeas (dq name j) (f j)) <$> seqZ 0 (num_data dh dw) -> forall q, q ∈ instr_qubits i -> on_data_anc name q).
    { intros f (j & -> & _)%elem_of_list_fmap q ->%elem_of_list_singleton. left. eauto. }
    assert (HB : i = IBarrier -> forall q, q ∈ instr_qubits i -> on_data_anc name q).
    { intros -> q Hq. by apply elem_of_nil in Hq. }
    intros q Hq. apply Hoff. revert q Hq. destruct o as [|r|r| | | | | | | |]; cbn [op_code] in Hi; try (exfalso; tauto).
    + eapply HC; [apply anc_notin_col|..|exact Hi]. intros q. rewrite glx_qubits. intros (j & -> & _)%elem_of_list_fmap. eauto.
    + eapply HC; [apply anc_notin_row|..|exact Hi]. intros q. rewrite glz_qubits. intros (j & -> & _)%elem_of_list_fmap. eauto.
    + unfold lr_x in Hi. apply elem_of_app in Hi as [Hi|[Hi|Hi%elem_of_list_singleton]%elem_of_app]; [|by eapply HM|by apply HB].
      destruct c; by eapply HL; [|exact Hi].
    + unfold lr_z in Hi. apply elem_of_app in Hi as [Hi|[Hi|Hi%elem_of_list_singleton]%elem_of_app]; [|by eapply HM|by apply HB].
      destruct c; [by apply elem_of_nil in Hi|]. by eapply HL; [|exact Hi].
    + unfold rs_x in Hi. apply elem_of_app in Hi as [Hi|Hi]; [by eapply HL; [|exact Hi]|].
      destruct c; [apply elem_of_app in Hi as [Hi|Hi%elem_of_list_singleton]; [|by apply HB]|]; (by eapply HL; [|exact Hi]).
    + unfold rs_z in Hi. apply elem_of_app in Hi as [Hi|Hi]; [by eapply HL; [|exact Hi]|].
      destruct c; [apply elem_of_list_singleton in Hi; by apply HB|]. by eapply HL; [|exact Hi].
    + unfold logx_instrs in Hi. apply elem_of_app in Hi as [Hi|Hi%elem_of_list_singleton]; [|by apply HB].
      apply elem_of_list_fmap in Hi as (j & -> & _). unfold xgate. intros q Hq. left. exists j. destruct c; [by apply elem_of_list_singleton in Hq|].
      case_bool_decide; by apply elem_of_list_singleton in Hq.
    + unfold logz_instrs in Hi. apply elem_of_app in Hi as [Hi|Hi%elem_of_list_singleton]; [|by apply HB].
      apply elem_of_list_fmap in Hi as (j & -> & _). unfold zgate. intros q Hq. left. exists j. destruct c; [by apply elem_of_list_singleton in Hq|].
      case_bool_decide; by apply elem_of_list_singleton in Hq.
    + unfold id_data_instrs in Hi. apply elem_of_app in Hi as [Hi|Hi%elem_of_list_singleton]; [|by apply HB]. by eapply HL; [|exact Hi].
Qed.

(** Measuring the ancilla into the bits of a register. *)
Lemma meas_anc_bits (h : rhandle) (k0 k1 : config R) : exec (IMeas (ancq name) <$> reg_bits h) k0 k1 ->
  forall i, 0 <= i < h.2 -> stab k1.2 (Zon {[ancq name]}) (k1.1 (h.1, i)).
Proof.
  intros He i Hi.
  assert ((IMeas (ancq name) <$> reg_bits h) = (fun qb => IMeas qb.1 qb.2) <$> ((fun b => (ancq name, b)) <$> reg_bits h)) as E'
    by (rewrite <-list_fmap_compose; done).
  rewrite E' in He. eapply exec_meas; [exact He|..].
  - rewrite <-list_fmap_compose. apply NoDup_fmap_2_strong; [intros ? ? _ _; done|].
    unfold reg_bits. apply NoDup_fmap_2_strong; [intros ? ? _ _; congruence|]. apply NoDup_seqZ.
  - apply elem_of_list_fmap. exists (h.1, i). split; [done|]. unfold reg_bits. apply elem_of_list_fmap. exists i. split; [done|].
    apply elem_of_seqZ. lia.
Qed.
Lemma rd_spec gs h (k0 k1 : config R) : ancq name ∉ gqubits gs -> NoDup (gqubits gs) ->
  exec ((IReset (ancq name) :: compile (ancq name) gs) ++ (IMeas (ancq name) <$> reg_bits h) ++ [IBarrier]) k0 k1 ->
  (forall i, 0 <= i < h.2 -> stab k1.2 (gpauli gs) (k1.1 (h.1, i))) /\
  (forall b, b ∉ reg_bits h -> k1.1 b = k0.1 b).
Proof.
  intros Hn Hnd He. split.
  - intros i Hi. apply exec_app in He as (ka & He1 & He). apply exec_app in He as (kb & He2 & He3).
    assert (kb = k1) as ->.
    { inversion He3 as [|? ? ? k' ? Hst He']; subst. inversion He'; subst. by inversion Hst; subst. }
    inversion He1 as [|? ? ? kr ? Hst Hc]; subst.
    assert (Hr : stab kr.2 (Zon {[ancq name]}) false).
    { eapply (exec_resets [ancq name] k0 kr); [|by left]. eapply EStep; [exact Hst|constructor]. }
    assert (Ha : stab ka.2 (pmul (Zon {[ancq name]}) (gpauli gs)) false).
    { rewrite <-(xorb_false_r false). eapply prop_sound; [by apply prop_measured|exact Hc|exact Hr]. }
    assert (Hb : stab k1.2 (pmul (Zon {[ancq name]}) (gpauli gs)) false).
    { rewrite <-(xorb_false_r false). eapply prop_sound; [apply prop_meas_anc|exact He2|exact Ha].
      cbn. rewrite sd_empty_l. by apply off_gpauli. }
    pose proof (meas_anc_bits _ _ _ He2 i Hi) as Hm.
    pose proof (stab_mul _ _ _ _ _ Hm Hb) as HP. rewrite pmul_assoc, pmul_self, pmul_id_l in HP.
    cbn [px Zon] in HP. by rewrite dot_empty_l, !xorb_false_r in HP.
  - intros b Hb. eapply exec_frame; [exact He|]. intros i [[->|Hi]%elem_of_cons|[Hi|Hi%elem_of_list_singleton]%elem_of_app]%elem_of_app.
    + by apply not_elem_of_nil.
    + pose proof (compile_plain _ _ _ Hi). destruct i; try by apply not_elem_of_nil. exfalso. by eapply H.
    + apply elem_of_list_fmap in Hi as (b' & -> & Hb'). cbn. intros ->%elem_of_list_singleton. done.
    + subst. by apply not_elem_of_nil.
Qed.
(** A readout records the eigenvalue of the logical operator. *)
Lemma readz_spec n r (k0 k1 : config R) : exec (op_code c name dh dw n (OReadZ r)) k0 k1 ->
  (forall i, 0 <= i < (rd_target name n r).2 -> stab k1.2 LZ (k1.1 ((rd_target name n r).1, i))) /\
  (forall b, b ∉ reg_bits (rd_target name n r) -> k1.1 b = k0.1 b).
Proof. intros He. rewrite <-(gpauli_row c name dh dw) by done. eapply rd_spec; [apply anc_notin_row|apply row_nodup|exact He]. Qed.
Lemma readx_spec n r (k0 k1 : config R) : exec (op_code c name dh dw n (OReadX r)) k0 k1 ->
  (forall i, 0 <= i < (rd_target name n r).2 -> stab k1.2 LX (k1.1 ((rd_target name n r).1, i))) /\
  (forall b, b ∉ reg_bits (rd_target name n r) -> k1.1 b = k0.1 b).
Proof. intros He. rewrite <-(gpauli_col c name dh dw) by done. eapply rd_spec; [apply anc_notin_col|by apply col_nodup|exact He]. Qed.

(** ** Resets and lattice readouts *)
Definition evens_set : gset Z := list_to_set (even_ix (seqZ 0 (num_data dh dw))).
Definition odds_set : gset Z := list_to_set (odd_ix (seqZ 0 (num_data dh dw))).
Lemma data_set_nd : data_set dh dw = list_to_set (seqZ 0 (num_data dh dw)).
Proof. done. Qed.
Lemma evens_eq : evens_set = even_set dh dw.
Proof.
  apply set_eq. intros x. unfold evens_set, even_ix. rewrite elem_of_list_to_set, elem_of_list_filter.
  unfold even_set. rewrite elem_of_filter, data_set_nd, elem_of_list_to_set, even_mod2. done.
Qed.
Lemma hconj_all (A : gset Z) : A ⊆ data_set dh dw -> hconj (data_set dh dw) (Zon A) = Xon A.
Proof. intros HA. apply pauli_eq; cbn; set_solver. Qed.
Lemma hconj_odds (A : gset Z) : A ⊆ data_set dh dw -> hconj odds_set (Zon A) = hconj (even_set dh dw) (Xon A).
Proof.
  intros HA. assert (HO : forall x, x ∈ odds_set <-> x ∈ data_set dh dw /\ x ∉ even_set dh dw).
  { intros x. unfold odds_set, odd_ix. rewrite elem_of_list_to_set, elem_of_list_filter. unfold even_set.
    rewrite elem_of_filter, data_set_nd, elem_of_list_to_set, even_mod2. destruct (mod2_cases x); intuition lia. }
  revert HO HA. generalize (even_set dh dw), (data_set dh dw), odds_set. intros Ev D O HO HA.
  apply pauli_eq; cbn; apply set_eq; intros x; specialize (HO x); specialize (HA x);
    rewrite !elem_of_union, !elem_of_difference, !elem_of_intersection, ?elem_of_empty; destruct (decide (x ∈ Ev)); tauto.
Qed.
Definition zside (isx : bool) (A : gset Z) : pauli Z := cconj c (even_set dh dw) (if isx then Xon A else Zon A).
Definition hset (isx : bool) : gset Z :=
  match c, isx with XXZZ, true => data_set dh dw | XXZZ, false => ∅ | XZZX, true => odds_set | XZZX, false => evens_set end.
Definition hlist (isx : bool) : list Z :=
  match c, isx with
  | XXZZ, true => seqZ 0 (num_data dh dw) | XXZZ, false => []
  | XZZX, true => odd_ix (seqZ 0 (num_data dh dw)) | XZZX, false => even_ix (seqZ 0 (num_data dh dw)) end.
Lemma hlist_set isx : list_to_set (hlist isx) = hset isx.
Proof. unfold hlist, hset. destruct c, isx; done. Qed.
Lemma hlist_NoDup isx : NoDup (hlist isx).
Proof. unfold hlist. destruct c, isx; [apply NoDup_seqZ|constructor|apply NoDup_filter, NoDup_seqZ..]. Qed.
Lemma hset_conj isx A : A ⊆ data_set dh dw -> hconj (hset isx) (Zon A) = zside isx A.
Proof.
  intros HA. unfold hset, zside. destruct c, isx; cbn [cconj].
  - by apply hconj_all.
  - apply hconj_empty.
  - by apply hconj_odds.
  - by rewrite evens_eq.
Qed.
Lemma img_list name' (l : list Z) : (list_to_set (dq name' <$> l) : gset qubit) = img (dq name') (list_to_set l).
Proof. apply list_to_set_img. Qed.
Lemma hlayer_data isx : NoDup (dq name <$> hlist isx).
Proof. apply NoDup_fmap_2_strong; [intros ? ? _ _; apply dq_inj|apply hlist_NoDup]. Qed.
Lemma pmap_Zon (A : gset Z) : pmap (dq name) (Zon A) = Zon (img (dq name) A).
Proof. apply pauli_eq; cbn; [apply img_empty|done]. Qed.

Definition reset_op (isx : bool) : op := if isx then OResetX else OResetZ.
Lemma reset_code n isx : exists bs, (bs = [] \/ bs = [IBarrier]) /\ op_code c name dh dw n (reset_op isx) =
  (IReset <$> (dq name <$> seqZ 0 (num_data dh dw))) ++ (IH <$> (dq name <$> hlist isx)) ++ bs.
Proof.
  unfold reset_op, hlist. destruct c, isx; cbn [op_code]; unfold rs_x, rs_z.
  - exists [IBarrier]. split; [by right|]. done.
  - exists [IBarrier]. split; [by right|]. done.
  - exists []. split; [by left|]. by rewrite app_nil_r.
  - exists []. split; [by left|]. by rewrite app_nil_r.
Qed.
Lemma prop_bs (bs : list instr) (Q : pauli qubit) : bs = [] \/ bs = [IBarrier] -> prop bs Q = Some (Q, false).
Proof. by intros [->| ->]. Qed.
Lemma reset_spec n isx (k0 k1 : config R) A : A ⊆ data_set dh dw ->
  exec (op_code c name dh dw n (reset_op isx)) k0 k1 -> stab k1.2 (pmap (dq name) (zside isx A)) false.
Proof.
  intros HA He. destruct (reset_code n isx) as (bs & Hbs & E'). rewrite E' in He.
  apply exec_app in He as (ka & He1 & He2).
  rewrite <-hset_conj by done. rewrite pmap_hconj, <-hlist_set, <-img_list.
  rewrite <-(xorb_false_r false). eapply prop_sound; [|exact He2|].
  - change false with (xorb false false). eapply prop_app; [apply prop_H_layer|by apply prop_bs].
    + apply hlayer_data.
    + cbn. rewrite img_empty. set_solver.
  - assert (exists l, NoDup l /\ A = list_to_set l /\ (forall i, i ∈ l -> i ∈ seqZ 0 (num_data dh dw))) as (l & Hnd & -> & Hl).
    { exists (elements A). split_and!; [apply NoDup_elements|by rewrite list_to_set_elements_L|].
      intros i Hi%elem_of_elements%HA. rewrite data_set_nd in Hi. by apply elem_of_list_to_set in Hi. }
    rewrite pmap_Zon, <-img_list.
    replace false with (xorl ((fun _ : qubit => false) <$> (dq name <$> l))).
    + apply stab_Zon_list; [apply NoDup_fmap_2_strong; [intros ? ? _ _; apply dq_inj|done]|].
      intros q Hq. apply elem_of_list_fmap in Hq as (i & -> & Hi). eapply exec_resets; [exact He1|].
      apply elem_of_list_fmap. exists i. split; [done|]. by apply Hl.
    + apply xorl_false. apply Forall_fmap, list.Forall_forall. done.
Qed.

Definition lat_op (isx : bool) : op := if isx then OLatX else OLatZ.
Lemma lat_code_eq n isx : op_code c name dh dw n (lat_op isx) =
  (IH <$> (dq name <$> hlist isx)) ++ ((fun i => IMeas (dq name i) (lrname name (cL n + 1), i)) <$> seqZ 0 (num_data dh dw)) ++ [IBarrier].
Proof. unfold lat_op, hlist. destruct c, isx; cbn [op_code]; unfold lr_x, lr_z; done. Qed.
(** A lattice readout records, over any set A of data qubits, the eigenvalue of the operator
    Z (X) on A of the unconjugated code. *)
Lemma lat_spec n isx (k0 k1 : config R) (l : list Z) t : NoDup l -> (forall i, i ∈ l -> 0 <= i < dh * dw) ->
  exec (op_code c name dh dw n (lat_op isx)) k0 k1 -> possible k1 ->
  stab k0.2 (pmap (dq name) (zside isx (list_to_set l))) t ->
  xorl ((fun i => k1.1 (lrname name (cL n + 1), i)) <$> l) = t.
Proof.
  intros Hnd Hl He Hp Hs. rewrite lat_code_eq in He.
  assert (HA : list_to_set l ⊆ data_set dh dw).
  { intros i Hi%elem_of_list_to_set. apply elem_of_data_set. by apply Hl. }
  apply exec_app in He as (ka & He1 & He). apply exec_app in He as (kb & He2 & He3).
  assert (kb = k1) as ->.
  { inversion He3 as [|? ? ? k' ? Hst He']; subst. inversion He'; subst. by inversion Hst; subst. }
  assert (Ha : stab ka.2 (Zon (list_to_set (dq name <$> l))) t).
  { rewrite <-(xorb_false_r t). eapply prop_sound; [|exact He1|exact Hs].
    rewrite prop_H_layer.
    - rewrite img_list, hlist_set, <-pmap_hconj, <-hset_conj, hconj_inv, pmap_Zon by done. by rewrite img_list.
    - apply hlayer_data.
    - unfold zside. destruct c, isx; cbn; rewrite ?img_empty; try set_solver;
      unfold img; intros x; rewrite !elem_of_map; intros (y & -> & Hy) (z & Ez%dq_inj & Hz); subst; set_solver. }
  assert (Hb : stab k1.2 (Zon (list_to_set (dq name <$> l))) t).
  { rewrite <-(xorb_false_r t). eapply prop_sound; [|exact He2|exact Ha].
    apply prop_keep. intros i (j & -> & _)%elem_of_list_fmap. cbn. by rewrite mem_empty. }
  eapply stab_unique; [|exact Hb|exact Hp].
  assert (Hbit : forall i, i ∈ l -> stab k1.2 (Zon {[dq name i]}) (k1.1 (lrname name (cL n + 1), i))).
  { intros i Hi. assert (((fun i => IMeas (dq name i) (lrname name (cL n + 1), i)) <$> seqZ 0 (num_data dh dw)) =
      (fun qb => IMeas qb.1 qb.2) <$> ((fun i => (dq name i, (lrname name (cL n + 1), i))) <$> seqZ 0 (num_data dh dw))) as E'
      by (rewrite <-list_fmap_compose; done).
    rewrite E' in He2. eapply exec_meas; [exact He2|..].
    - rewrite <-list_fmap_compose. apply NoDup_fmap_2_strong; [intros ? ? _ _ E2; cbn in E2; congruence|apply NoDup_seqZ].
    - apply elem_of_list_fmap. exists i. split; [done|]. apply elem_of_seqZ. specialize (Hl i Hi). unfold num_data. lia. }
  pose proof (stab_Zon_list k1.2 (fun q => k1.1 (lrname name (cL n + 1), q.2)) (dq name <$> l)) as HZ.
  rewrite <-list_fmap_compose in HZ. apply HZ.
  - apply NoDup_fmap_2_strong; [intros ? ? _ _; apply dq_inj|done].
  - intros q (i & -> & Hi)%elem_of_list_fmap. by apply Hbit.
Qed.
Lemma log_z_side : log_z c dh dw = zside false (row_set dh dw 0).
Proof. unfold zside, log_z. by destruct c. Qed.
Lemma log_x_side : log_x c dh dw = zside true (col_set dh dw 0).
Proof. unfold zside, log_x. by destruct c. Qed.
End ops2.
