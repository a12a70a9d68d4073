(** Closed forms of the reset, readout, conditional and cx methods. *)
From Verif Require Export QCirc ConstructFacts.
From stdpp Require Export list.
Open Scope Z_scope.

(** ** The groups of gates coupling the ancilla to a list of data qubits *)
Definition odd_ix (l : list Z) : list Z := filter (fun i => i mod 2 = 1) l.
Definition even_ix (l : list Z) : list Z := filter (fun i => i mod 2 = 0) l.
Definition glz (c : code) (name : string) (l : list Z) : list (bool * list qubit) :=
  match c with
  | XXZZ => [(false, dq name <$> l)]
  | XZZX => [(true, dq name <$> even_ix l); (false, dq name <$> odd_ix l)] end.
Definition glx (c : code) (name : string) (l : list Z) : list (bool * list qubit) :=
  match c with
  | XXZZ => [(true, dq name <$> l)]
  | XZZX => [(true, dq name <$> odd_ix l); (false, dq name <$> even_ix l)] end.

Lemma pprod_cons {A} `{Countable A} (P : pauli A) l : pprod (P :: l) = pmul P (pprod l).
Proof. done. Qed.
Lemma gprod_cons x q l : gprod (x, q :: l) = pmul (single x q) (gprod (x, l)).
Proof. done. Qed.
Lemma pmap_single name x k : single x (dq name k) = pmap (dq name) (if x then Xon {[k]} else Zon {[k]}).
Proof. destruct x; [by rewrite pmap_Xon1|by rewrite pmap_Zon1]. Qed.
Lemma pmul_swap4 {A} `{Countable A} (a b c d : pauli A) : pmul (pmul a b) (pmul c d) = pmul (pmul a c) (pmul b d).
Proof. by rewrite <-!pmul_assoc, (pmul_assoc b), (pmul_comm b c), <-!pmul_assoc. Qed.

Lemma gpauli_1 g : gpauli [g] = gprod g.
Proof. unfold gpauli. cbn. apply pmul_id_r. Qed.
Lemma gpauli_2 g h : gpauli [g; h] = pmul (gprod g) (gprod h).
Proof. unfold gpauli. cbn. by rewrite pmul_id_r. Qed.
Lemma gpauli_glz c name (l : list Z) (S : gset Z) : NoDup l -> (forall k, k ∈ l -> k ∈ S <-> k mod 2 = 0) ->
  gpauli (glz c name l) = pmap (dq name) (cconj c S (Zon (list_to_set l))).
Proof.
  induction 1 as [|k l Hk Hn IH]; intros HS.
  - change (Zon (list_to_set [])) with (pid : pauli Z). rewrite cconj_pid, pmap_pid.
    destruct c; [apply gpauli_1|]. etrans; [apply gpauli_2|apply (pmul_id_l (A := qubit))].
  - rewrite Zon_cons, cconj_pmul, pmap_pmul, <-IH by (done || apply _ || (intros; apply HS; by right)).
    specialize (HS k ltac:(by left)). destruct c; cbn [glz cconj].
    + rewrite !gpauli_1, fmap_cons, gprod_cons. by rewrite pmap_single.
    + rewrite !gpauli_2. destruct (hconj_single S k) as [_ ->]. unfold even_ix, odd_ix. rewrite !filter_cons.
      destruct (mod2_cases k) as [E|E].
      * rewrite decide_True, decide_False by lia. rewrite fmap_cons, gprod_cons, <-pmul_assoc.
        assert (mem k S = true) as -> by (apply mem_true; tauto). by rewrite pmap_single.
      * rewrite decide_False, decide_True by lia. rewrite fmap_cons, gprod_cons, pmul_assoc.
        rewrite (pmul_comm _ (single false (dq name k))), <-pmul_assoc.
        assert (mem k S = false) as -> by (apply mem_false; rewrite HS; lia). by rewrite pmap_single.
Qed.
Lemma gpauli_glx c name (l : list Z) (S : gset Z) : NoDup l -> (forall k, k ∈ l -> k ∈ S <-> k mod 2 = 0) ->
  gpauli (glx c name l) = pmap (dq name) (cconj c S (Xon (list_to_set l))).
Proof.
  induction 1 as [|k l Hk Hn IH]; intros HS.
  - change (Xon (list_to_set [])) with (pid : pauli Z). rewrite cconj_pid, pmap_pid.
    destruct c; [apply gpauli_1|]. etrans; [apply gpauli_2|apply (pmul_id_l (A := qubit))].
  - rewrite Xon_cons, cconj_pmul, pmap_pmul, <-IH by (done || apply _ || (intros; apply HS; by right)).
    specialize (HS k ltac:(by left)). destruct c; cbn [glx cconj].
    + rewrite !gpauli_1, fmap_cons, gprod_cons. by rewrite pmap_single.
    + rewrite !gpauli_2. destruct (hconj_single S k) as [-> _]. unfold even_ix, odd_ix. rewrite !filter_cons.
      destruct (mod2_cases k) as [E|E].
      * rewrite decide_False, decide_True by lia. rewrite fmap_cons, gprod_cons, pmul_assoc.
        rewrite (pmul_comm _ (single false (dq name k))), <-pmul_assoc.
        assert (mem k S = true) as -> by (apply mem_true; tauto). by rewrite pmap_single.
      * rewrite decide_True, decide_False by lia. rewrite fmap_cons, gprod_cons, <-pmul_assoc.
        assert (mem k S = false) as -> by (apply mem_false; rewrite HS; lia). by rewrite pmap_single.
Qed.
Lemma glz_qubits c name l : gqubits (glz c name l) ≡ₚ dq name <$> l.
Proof.
  unfold gqubits. destruct c; cbn; rewrite ?app_nil_r; [done|]. rewrite <-fmap_app. apply fmap_Permutation.
  induction l as [|k l IH]; [done|]. unfold even_ix, odd_ix in *. rewrite !filter_cons.
  destruct (mod2_cases k) as [E|E].
  - rewrite decide_True, decide_False by lia. cbn. by constructor.
  - rewrite decide_False, decide_True by lia. rewrite <-Permutation_middle. by constructor.
Qed.
Lemma glx_qubits c name l : gqubits (glx c name l) ≡ₚ dq name <$> l.
Proof.
  unfold gqubits. destruct c; cbn; rewrite ?app_nil_r; [done|]. rewrite <-fmap_app. apply fmap_Permutation.
  induction l as [|k l IH]; [done|]. unfold even_ix, odd_ix in *. rewrite !filter_cons.
  destruct (mod2_cases k) as [E|E].
  - rewrite decide_False, decide_True by lia. rewrite <-Permutation_middle. by constructor.
  - rewrite decide_True, decide_False by lia. cbn. by constructor.
Qed.
Lemma col_list_NoDup dh dw : valid_size dh dw -> NoDup (col_list dh dw).
Proof. intros Hv. unfold col_list. apply NoDup_fmap_2_strong; [|apply NoDup_seqZ]. intros a b _ _ ?. unfold valid_size in Hv. nia. Qed.
Lemma row_list_NoDup dw : NoDup (row_list dw).
Proof. apply NoDup_seqZ. Qed.
Lemma gpauli_row c name dh dw : valid_size dh dw -> gpauli (glz c name (row_list dw)) = pmap (dq name) (log_z c dh dw).
Proof.
  intros Hv. rewrite (gpauli_glz c name _ (even_set dh dw)).
  - rewrite (row_list_set dh dw) by done. by destruct c.
  - apply row_list_NoDup.
  - intros k Hk. apply even_set_mod. apply elem_of_data_set. by eapply row_list_range.
Qed.
Lemma gpauli_col c name dh dw : valid_size dh dw -> gpauli (glx c name (col_list dh dw)) = pmap (dq name) (log_x c dh dw).
Proof.
  intros Hv. rewrite (gpauli_glx c name _ (even_set dh dw)).
  - rewrite col_list_set by done. by destruct c.
  - by apply col_list_NoDup.
  - intros k Hk. apply even_set_mod. apply elem_of_data_set. by eapply col_list_range.
Qed.

(** ** When the list-indexing of XZZX does not raise *)
Definition can_x (c : code) (dh : Z) : bool := match c with XXZZ => true | XZZX => bool_decide (3 <= dh) end.
Definition can_z (c : code) (dw : Z) : bool := match c with XXZZ => true | XZZX => bool_decide (3 <= dw) end.
Lemma odd_row_1 : odd_ix (row_list 1) = [].
Proof. done. Qed.
Lemma odd_col_1 dw : odd_ix (col_list 1 dw) = [].
Proof. unfold col_list, odd_ix. change (seqZ 0 1) with [0]. rewrite fmap_cons, filter_cons, decide_False by done. done. Qed.
Lemma odd_row_ne dw : 3 <= dw -> odd_ix (row_list dw) <> [].
Proof.
  intros Hw He. assert (1 ∈ odd_ix (row_list dw)) as Hin; [|rewrite He in Hin; by apply elem_of_nil in Hin].
  apply elem_of_list_filter. split; [done|]. apply elem_of_seqZ. lia.
Qed.
Lemma even_row_ne dw : 1 <= dw -> even_ix (row_list dw) <> [].
Proof.
  intros Hw He. assert (0 ∈ even_ix (row_list dw)) as Hin; [|rewrite He in Hin; by apply elem_of_nil in Hin].
  apply elem_of_list_filter. split; [done|]. apply elem_of_seqZ. lia.
Qed.
Lemma odd_col_ne dh dw : valid_size dh dw -> 3 <= dh -> odd_ix (col_list dh dw) <> [].
Proof.
  intros Hv Hw He. assert (dw ∈ odd_ix (col_list dh dw)) as Hin; [|rewrite He in Hin; by apply elem_of_nil in Hin].
  apply elem_of_list_filter. split.
  - destruct Hv as (_ & _ & _ & Ho). rewrite Zmod_odd, Ho. done.
  - apply elem_of_list_fmap. exists 1. split; [lia|]. apply elem_of_seqZ. lia.
Qed.
Lemma even_col_ne dh dw : 1 <= dh -> even_ix (col_list dh dw) <> [].
Proof.
  intros Hw He. assert (0 ∈ even_ix (col_list dh dw)) as Hin; [|rewrite He in Hin; by apply elem_of_nil in Hin].
  apply elem_of_list_filter. split; [done|]. apply elem_of_list_fmap. exists 0. split; [lia|]. apply elem_of_seqZ. lia.
Qed.
Lemma odd_size_1_3 d : 0 < d -> Z.odd d = true -> d = 1 \/ 3 <= d.
Proof. intros Hp Ho. destruct (decide (d = 1)); [by left|]. right. destruct (decide (d = 2)) as [->|]; [done|lia]. Qed.

Lemma reg_list_ok s q dh dw (l : list Z) : lat_ok s q dh dw -> (forall k, k ∈ l -> 0 <= k < dh * dw) -> l <> [] ->
  reg_list (lat_data (tq_lat q)) l = Ok (dq (lat_name (tq_lat q)) <$> l).
Proof.
  intros Hok Hl Hne.
  assert (reg_list (lat_data (tq_lat q)) l =
    if bool_decide (Forall (fun i => i < (lat_data (tq_lat q)).2) l) then rmap (reg_get (lat_data (tq_lat q))) l
    else Err CircuitError) as -> by (by destruct l).
  rewrite bool_decide_eq_true_2.
  - apply rmap_ok. intros x Hx. eapply data_get; [done|by apply Hl].
  - apply Forall_forall. intros x Hx. rewrite (data_of _ _ _ _ Hok). cbn. unfold num_data. apply Hl in Hx. lia.
Qed.
Lemma emit1_ok f (l : list qubit) s : l <> [] -> emit1 f l s = (app_instrs s (f <$> l), Ok tt).
Proof. intros. unfold emit1. destruct l; [done|]. apply emit_eq. Qed.
Definition ancq (name : string) : qubit := ((name +:+ "_ancilla")%string, 0).
Lemma anc_ok s q dh dw : lat_ok s q dh dw -> anc q = ancq (lat_name (tq_lat q)).
Proof. intros Hok. unfold anc. by rewrite (lo_lat _ _ _ _ Hok). Qed.

Definition into_z (c : code) (name : string) (dw : Z) : list instr :=
  IReset (ancq name) :: compile (ancq name) (glz c name (row_list dw)).
Definition into_x (c : code) (name : string) (dh dw : Z) : list instr :=
  IReset (ancq name) :: compile (ancq name) (glx c name (col_list dh dw)).

Lemma readout_z_into_ok s q dh dw : lat_ok s q dh dw -> can_z (lat_code (tq_lat q)) dw = true ->
  readout_z_into_ancilla q s = (app_instrs s (into_z (lat_code (tq_lat q)) (lat_name (tq_lat q)) dw), Ok tt).
Proof.
  intros Hok Hc. pose proof (lo_valid _ _ _ _ Hok) as Hv. unfold readout_z_into_ancilla.
  erewrite mbind_ok by apply emit_eq.
  set (n := lat_name (tq_lat q)) in *. rewrite (anc_ok _ _ _ _ Hok). fold n. cbn zeta.
  set (s1 := app_instrs s _). assert (Hok1 : lat_ok s1 q dh dw) by (by apply lat_ok_app).
  destruct (lat_code (tq_lat q)) eqn:Ecode.
  - erewrite mbind_ok by (by eapply row_idx_ok).
    rewrite (for_idx q s1 dh dw (row_list dw) (fun _ d => [ICX d (ancq n)])); [|done|].
    + unfold s1. rewrite app_instrs_app. f_equal. f_equal. rewrite mjoin_singletons. unfold into_z, compile. cbn.
      rewrite app_nil_r, <-list_fmap_compose. done.
    + intros k Hk. by eapply row_list_range.
  - apply bool_decide_eq_true in Hc.
    erewrite mbind_ok by (by eapply row_idx_ok). erewrite mbind_ok by apply emit_eq.
    assert (HR : forall k, k ∈ row_list dw -> 0 <= k < dh * dw) by (intros; by eapply row_list_range).
    erewrite mbind_ok.
    2:{ apply mlift_ok. eapply (reg_list_ok _ _ dh dw); [exact Hok|..].
        - intros k [_ Hk]%elem_of_list_filter. by apply HR.
        - apply even_row_ne. lia. }
    erewrite mbind_ok by (apply emit1_ok; intros E%fmap_nil_inv; revert E; apply even_row_ne; lia).
    erewrite mbind_ok by apply emit_eq.
    erewrite mbind_ok.
    2:{ apply mlift_ok. eapply (reg_list_ok _ _ dh dw); [exact Hok|..].
        - intros k [_ Hk]%elem_of_list_filter. by apply HR.
        - apply odd_row_ne. lia. }
    rewrite emit1_ok by (intros E%fmap_nil_inv; revert E; apply odd_row_ne; lia).
    unfold s1. rewrite !app_instrs_app. f_equal. f_equal. unfold into_z, compile. cbn -[row_list filter].
    fold n. rewrite !app_nil_r, <-!app_assoc. done.
Qed.
Lemma readout_x_into_ok s q dh dw : lat_ok s q dh dw -> can_x (lat_code (tq_lat q)) dh = true ->
  readout_x_into_ancilla q s = (app_instrs s (into_x (lat_code (tq_lat q)) (lat_name (tq_lat q)) dh dw), Ok tt).
Proof.
  intros Hok Hc. pose proof (lo_valid _ _ _ _ Hok) as Hv. unfold readout_x_into_ancilla.
  erewrite mbind_ok by apply emit_eq.
  set (n := lat_name (tq_lat q)) in *. rewrite (anc_ok _ _ _ _ Hok). fold n. cbn zeta.
  set (s1 := app_instrs s _). assert (Hok1 : lat_ok s1 q dh dw) by (by apply lat_ok_app).
  assert (HR : forall k, k ∈ col_list dh dw -> 0 <= k < dh * dw) by (intros; by eapply col_list_range).
  destruct (lat_code (tq_lat q)) eqn:Ecode.
  - erewrite mbind_ok by apply emit_eq. set (s2 := app_instrs s1 _). assert (Hok2 : lat_ok s2 q dh dw) by (by apply lat_ok_app).
    erewrite mbind_ok by (by eapply col_idx_ok).
    erewrite mbind_ok by (eapply (for_idx q s2 dh dw (col_list dh dw) (fun _ d => [ICX (ancq n) d])); done).
    rewrite emit_eq. unfold s2, s1. rewrite !app_instrs_app. f_equal. f_equal. rewrite mjoin_singletons. unfold into_x, compile. cbn -[col_list].
    rewrite app_nil_r, <-list_fmap_compose. done.
  - apply bool_decide_eq_true in Hc.
    erewrite mbind_ok by (by eapply col_idx_ok). erewrite mbind_ok by apply emit_eq.
    erewrite mbind_ok.
    2:{ apply mlift_ok. eapply (reg_list_ok _ _ dh dw); [exact Hok|..].
        - intros k [_ Hk]%elem_of_list_filter. by apply HR.
        - by apply odd_col_ne. }
    erewrite mbind_ok by (apply emit1_ok; intros E%fmap_nil_inv; revert E; by apply odd_col_ne).
    erewrite mbind_ok by apply emit_eq.
    erewrite mbind_ok.
    2:{ apply mlift_ok. eapply (reg_list_ok _ _ dh dw); [exact Hok|..].
        - intros k [_ Hk]%elem_of_list_filter. by apply HR.
        - apply even_col_ne. lia. }
    rewrite emit1_ok by (intros E%fmap_nil_inv; revert E; apply even_col_ne; lia).
    unfold s1. rewrite !app_instrs_app. f_equal. f_equal. unfold into_x, compile. cbn -[col_list filter].
    fold n. rewrite !app_nil_r, <-!app_assoc. done.
Qed.

(** ** Every second data qubit *)
Lemma evens_cons2 {A} (x y : A) l : evens (x :: y :: l) = x :: evens l.
Proof. done. Qed.
Lemma evens_fmap {A B} (f : A -> B) (l : list A) : evens (f <$> l) = f <$> evens l.
Proof.
  assert (forall n (l : list A), (length l <= n)%nat -> evens (f <$> l) = f <$> evens l) as HG; [|by eapply HG].
  clear l. induction n as [|n IH]; intros [|x [|y l]] Hl; cbn [length] in Hl; try done; try lia.
  rewrite !fmap_cons, !evens_cons2, fmap_cons. rewrite IH by lia. done.
Qed.
Lemma seqZ_S a n : 0 <= n -> seqZ a (n + 1) = a :: seqZ (a + 1) n.
Proof. intros. replace (n + 1) with (Z.succ n) by lia. rewrite <-Z.add_1_r. rewrite seqZ_cons by lia. f_equal. f_equal; lia. Qed.
Lemma evens_seqZ a n : 0 <= n -> evens (seqZ a n) = filter (fun i => i mod 2 = a mod 2) (seqZ a n).
Proof.
  intros Hn. revert a. assert (forall k n a, (Z.to_nat n <= k)%nat -> 0 <= n -> evens (seqZ a n) = filter (fun i => i mod 2 = a mod 2) (seqZ a n)) as HG; [|by intros; eapply HG].
  clear n Hn. induction k as [|k IH]; intros n a Hk Hn.
  - assert (n = 0) as -> by lia. done.
  - destruct (decide (n = 0)) as [->|]; [done|]. destruct (decide (n = 1)) as [->|].
    + change 1 with (0 + 1). rewrite seqZ_S by lia. change (seqZ (a + 1) 0) with (@nil Z).
      rewrite filter_cons, decide_True by done. done.
    + replace n with ((n - 2) + 1 + 1) by lia. rewrite !seqZ_S by lia. rewrite evens_cons2.
      rewrite !filter_cons. rewrite (decide_True (P := a mod 2 = a mod 2)) by done.
      rewrite (decide_False (P := (a + 1) mod 2 = a mod 2)) by (rewrite Zplus_mod; destruct (mod2_cases a) as [-> | ->]; done).
      f_equal. rewrite IH by lia. replace ((a + 1 + 1) mod 2) with (a mod 2); [done|].
      replace (a + 1 + 1) with (a + 1 * 2) by lia. by rewrite Z.mod_add.
Qed.
Lemma data_bits s q dh dw : lat_ok s q dh dw ->
  reg_bits (lat_data (tq_lat q)) = dq (lat_name (tq_lat q)) <$> seqZ 0 (num_data dh dw).
Proof. intros Hok. rewrite (data_of _ _ _ _ Hok). done. Qed.
Lemma evens_data name nd : 0 <= nd -> evens (dq name <$> seqZ 0 nd) = dq name <$> even_ix (seqZ 0 nd).
Proof. intros. rewrite evens_fmap, evens_seqZ by done. done. Qed.
Lemma odds_data name nd : 0 < nd -> odds (dq name <$> seqZ 0 nd) = dq name <$> odd_ix (seqZ 0 nd).
Proof.
  intros. replace nd with (nd - 1 + 1) by lia. rewrite seqZ_S by lia. rewrite fmap_cons. cbn [odds].
  rewrite evens_fmap, evens_seqZ by lia. unfold odd_ix. rewrite filter_cons, decide_False by done. done.
Qed.
Lemma even_data_ne nd : 0 < nd -> even_ix (seqZ 0 nd) <> [].
Proof. intros. apply even_row_ne. lia. Qed.

(** ** Resets *)
Definition rs_z (c : code) (name : string) (nd : Z) : list instr :=
  (IReset <$> (dq name <$> seqZ 0 nd)) ++
  match c with XXZZ => [IBarrier] | XZZX => IH <$> (dq name <$> even_ix (seqZ 0 nd)) end.
Definition rs_x (c : code) (name : string) (nd : Z) : list instr :=
  (IReset <$> (dq name <$> seqZ 0 nd)) ++
  match c with XXZZ => (IH <$> (dq name <$> seqZ 0 nd)) ++ [IBarrier] | XZZX => IH <$> (dq name <$> odd_ix (seqZ 0 nd)) end.
Definition can_rx (c : code) (nd : Z) : bool := match c with XXZZ => true | XZZX => bool_decide (2 <= nd) end.

Lemma seqZ_ne nd : 0 < nd -> seqZ 0 nd <> [].
Proof. intros ? E. pose proof (seqZ_length 0 nd) as HL. rewrite E in HL. cbn in HL. lia. Qed.
Lemma odd_data_ne nd : 2 <= nd -> odd_ix (seqZ 0 nd) <> [].
Proof.
  intros Hw He. assert (1 ∈ odd_ix (seqZ 0 nd)) as Hin; [|rewrite He in Hin; by apply elem_of_nil in Hin].
  apply elem_of_list_filter. split; [done|]. apply elem_of_seqZ. lia.
Qed.
Lemma fmap_ne {A B} (f : A -> B) l : l <> [] -> f <$> l <> [].
Proof. by destruct l. Qed.
Lemma reset_z_ok s q dh dw : lat_ok s q dh dw ->
  reset_z q s = (app_instrs s (rs_z (lat_code (tq_lat q)) (lat_name (tq_lat q)) (num_data dh dw)), Ok tt).
Proof.
  intros Hok. pose proof (valid_counts _ _ (lo_valid _ _ _ _ Hok)) as (Hnd & _).
  unfold reset_z. rewrite (data_bits _ _ _ _ Hok). rewrite evens_data by lia. unfold rs_z.
  destruct (lat_code (tq_lat q)).
  - erewrite mbind_ok by (by apply emit1_ok, fmap_ne, seqZ_ne). by rewrite emit_eq, app_instrs_app.
  - erewrite mbind_ok by (by apply emit1_ok, fmap_ne, seqZ_ne).
    rewrite emit1_ok by (by apply fmap_ne, even_data_ne). by rewrite app_instrs_app.
Qed.
Lemma reset_x_ok s q dh dw : lat_ok s q dh dw -> can_rx (lat_code (tq_lat q)) (num_data dh dw) = true ->
  reset_x q s = (app_instrs s (rs_x (lat_code (tq_lat q)) (lat_name (tq_lat q)) (num_data dh dw)), Ok tt).
Proof.
  intros Hok Hc. pose proof (valid_counts _ _ (lo_valid _ _ _ _ Hok)) as (Hnd & _).
  unfold reset_x. rewrite (data_bits _ _ _ _ Hok). rewrite odds_data by lia. unfold rs_x.
  destruct (lat_code (tq_lat q)).
  - erewrite mbind_ok by (by apply emit1_ok, fmap_ne, seqZ_ne).
    erewrite mbind_ok by (by apply emit1_ok, fmap_ne, seqZ_ne). by rewrite emit_eq, !app_instrs_app.
  - apply bool_decide_eq_true in Hc. erewrite mbind_ok by (by apply emit1_ok, fmap_ne, seqZ_ne).
    rewrite emit1_ok by (by apply fmap_ne, odd_data_ne). by rewrite app_instrs_app.
Qed.

(** ** Readouts *)
Definition rdname (name : string) (n : Z) : string := (name +:+ "_readout_" +:+ py_str n)%string.
Definition lrname (name : string) (n : Z) : string := (name +:+ "_lattice_readout_" +:+ py_str n)%string.
Definition rd_z (c : code) (name : string) (dw : Z) (h : rhandle) : list instr :=
  into_z c name dw ++ (IMeas (ancq name) <$> reg_bits h) ++ [IBarrier].
Definition rd_x (c : code) (name : string) (dh dw : Z) (h : rhandle) : list instr :=
  into_x c name dh dw ++ (IMeas (ancq name) <$> reg_bits h) ++ [IBarrier].
Definition lr_z (c : code) (name : string) (nd : Z) (n : Z) : list instr :=
  match c with XXZZ => [] | XZZX => IH <$> (dq name <$> even_ix (seqZ 0 nd)) end ++
  ((fun i => IMeas (dq name i) (lrname name n, i)) <$> seqZ 0 nd) ++ [IBarrier].
Definition lr_x (c : code) (name : string) (nd : Z) (n : Z) : list instr :=
  match c with XXZZ => IH <$> (dq name <$> seqZ 0 nd) | XZZX => IH <$> (dq name <$> odd_ix (seqZ 0 nd)) end ++
  ((fun i => IMeas (dq name i) (lrname name n, i)) <$> seqZ 0 nd) ++ [IBarrier].

Definition put_p (s : st) (q : tqubit) (p : params) : st :=
  set_heap s (<[lat_params (tq_lat q) := p]> (s_heap s)).
Lemma lat_ok_rupd s q dh dw p n : lat_ok s q dh dw -> s_heap s !! lat_params (tq_lat q) = Some p ->
  lat_ok (put_p s q (upd_num_readout p n)) q dh dw.
Proof.
  intros [Hv Hl (p' & dl & T' & a & b & Hp & ?)] Hp'. constructor; [done|done|].
  rewrite Hp in Hp'. injection Hp' as ->. exists (upd_num_readout p n), dl, T', n, b. cbn. rewrite lookup_insert.
  naive_solver.
Qed.
Lemma lat_ok_lupd s q dh dw p n : lat_ok s q dh dw -> s_heap s !! lat_params (tq_lat q) = Some p ->
  lat_ok (put_p s q (upd_num_lattice_readout p n)) q dh dw.
Proof.
  intros [Hv Hl (p' & dl & T' & a & b & Hp & ?)] Hp'. constructor; [done|done|].
  rewrite Hp in Hp'. injection Hp' as ->. exists (upd_num_lattice_readout p n), dl, T', a, n. cbn. rewrite lookup_insert.
  naive_solver.
Qed.

Lemma readout_register_given q h s : h.2 <> 0 -> readout_register q (Some h) s = (s, Ok h).
Proof. intros. unfold readout_register. rewrite bool_decide_eq_false_2 by done. done. Qed.
Definition rd_pre (s : st) (q : tqubit) (p : params) (n : Z) : st :=
  app_regs (put_p s q (upd_num_readout p (n + 1))) [Reg false (rdname (lat_name (tq_lat q)) (n + 1)) 1].
Lemma readout_register_fresh q s p n : s_heap s !! lat_params (tq_lat q) = Some p -> num_readout_of p = Some n ->
  rdname (lat_name (tq_lat q)) (n + 1) ∉ names s ->
  readout_register q None s = (rd_pre s q p n, Ok (rdname (lat_name (tq_lat q)) (n + 1), 1)).
Proof.
  intros Hp Hn Hf. unfold readout_register. erewrite mbind_ok by (by apply get_params_ok).
  rewrite Hn. cbn [key]. erewrite mbind_ok by done. erewrite mbind_ok by done. cbn zeta. cbn [fst snd].
  erewrite mbind_ok by (apply add_reg_ok; [cbn; lia|exact Hf]). done.
Qed.
Lemma lat_ok_rd_pre s q dh dw p n : lat_ok s q dh dw -> s_heap s !! lat_params (tq_lat q) = Some p -> lat_ok (rd_pre s q p n) q dh dw.
Proof. intros. by apply lat_ok_regs, lat_ok_rupd. Qed.

Lemma readout_z_rest s q dh dw h : lat_ok s q dh dw -> can_z (lat_code (tq_lat q)) dw = true ->
  (readout_z_into_ancilla q ;;; measure_ancilla q h ;;; emit [IBarrier]) s =
  (app_instrs s (rd_z (lat_code (tq_lat q)) (lat_name (tq_lat q)) dw h), Ok tt).
Proof.
  intros Hok Hc. erewrite mbind_ok by (by eapply readout_z_into_ok). unfold measure_ancilla. rewrite (anc_ok _ _ _ _ Hok).
  erewrite mbind_ok by apply emit_eq. by rewrite emit_eq, !app_instrs_app.
Qed.
Lemma readout_x_rest s q dh dw h : lat_ok s q dh dw -> can_x (lat_code (tq_lat q)) dh = true ->
  (readout_x_into_ancilla q ;;; measure_ancilla q h ;;; emit [IBarrier]) s =
  (app_instrs s (rd_x (lat_code (tq_lat q)) (lat_name (tq_lat q)) dh dw h), Ok tt).
Proof.
  intros Hok Hc. erewrite mbind_ok by (by apply readout_x_into_ok). unfold measure_ancilla. rewrite (anc_ok _ _ _ _ Hok).
  erewrite mbind_ok by apply emit_eq. by rewrite emit_eq, !app_instrs_app.
Qed.
Lemma readout_z_given s q dh dw h : lat_ok s q dh dw -> can_z (lat_code (tq_lat q)) dw = true -> h.2 <> 0 ->
  readout_z q (Some h) s = (app_instrs s (rd_z (lat_code (tq_lat q)) (lat_name (tq_lat q)) dw h), Ok tt).
Proof. intros. unfold readout_z. erewrite mbind_ok by (by apply readout_register_given). by eapply readout_z_rest. Qed.
Lemma readout_x_given s q dh dw h : lat_ok s q dh dw -> can_x (lat_code (tq_lat q)) dh = true -> h.2 <> 0 ->
  readout_x q (Some h) s = (app_instrs s (rd_x (lat_code (tq_lat q)) (lat_name (tq_lat q)) dh dw h), Ok tt).
Proof. intros. unfold readout_x. erewrite mbind_ok by (by apply readout_register_given). by apply readout_x_rest. Qed.
Lemma readout_z_fresh s q dh dw p n : lat_ok s q dh dw -> can_z (lat_code (tq_lat q)) dw = true ->
  s_heap s !! lat_params (tq_lat q) = Some p -> num_readout_of p = Some n ->
  rdname (lat_name (tq_lat q)) (n + 1) ∉ names s ->
  readout_z q None s = (app_instrs (rd_pre s q p n)
    (rd_z (lat_code (tq_lat q)) (lat_name (tq_lat q)) dw (rdname (lat_name (tq_lat q)) (n + 1), 1)), Ok tt).
Proof.
  intros. unfold readout_z. erewrite mbind_ok by (by apply readout_register_fresh).
  apply readout_z_rest with dh; [|done]. by apply lat_ok_rd_pre.
Qed.
Lemma readout_x_fresh s q dh dw p n : lat_ok s q dh dw -> can_x (lat_code (tq_lat q)) dh = true ->
  s_heap s !! lat_params (tq_lat q) = Some p -> num_readout_of p = Some n ->
  rdname (lat_name (tq_lat q)) (n + 1) ∉ names s ->
  readout_x q None s = (app_instrs (rd_pre s q p n)
    (rd_x (lat_code (tq_lat q)) (lat_name (tq_lat q)) dh dw (rdname (lat_name (tq_lat q)) (n + 1), 1)), Ok tt).
Proof.
  intros. unfold readout_x. erewrite mbind_ok by (by apply readout_register_fresh).
  apply readout_x_rest; [|done]. by apply lat_ok_rd_pre.
Qed.

Definition lr_pre (s : st) (q : tqubit) (p : params) (n nd : Z) : st :=
  app_regs (put_p s q (upd_num_lattice_readout p (n + 1))) [Reg false (lrname (lat_name (tq_lat q)) (n + 1)) nd].
Lemma lattice_readout_ok s q dh dw p n bc : lat_ok s q dh dw -> (forall l, bc = Some l -> l <> []) ->
  s_heap s !! lat_params (tq_lat q) = Some p -> num_lattice_readout_of p = Some n ->
  lrname (lat_name (tq_lat q)) (n + 1) ∉ names s ->
  lattice_readout q bc s = (app_instrs (lr_pre s q p n (num_data dh dw))
    (match bc with Some l => IH <$> l | None => [] end ++
     ((fun i => IMeas (dq (lat_name (tq_lat q)) i) (lrname (lat_name (tq_lat q)) (n + 1), i)) <$> seqZ 0 (num_data dh dw)) ++
     [IBarrier]), Ok tt).
Proof.
  intros Hok Hbc Hp Hn Hf. pose proof Hok as [Hv Hl (p' & dl & T' & a & b & Hp' & _ & _ & _ & _ & _ & _ & Hnd & _)].
  rewrite Hp in Hp'. injection Hp' as <-. pose proof (valid_counts _ _ Hv) as (Hc1 & _).
  unfold lattice_readout. erewrite mbind_ok by (by apply get_params_ok).
  rewrite Hn. cbn [key]. erewrite mbind_ok by done. erewrite mbind_ok by done.
  rewrite Hnd. cbn [key]. erewrite mbind_ok by done. cbn zeta. cbn [fst snd].
  erewrite mbind_ok by (apply add_reg_ok; [cbn; lia|exact Hf]). fold (put_p s q (upd_num_lattice_readout p (n + 1))).
  fold (lrname (lat_name (tq_lat q)) (n + 1)).
  change (app_regs _ _) with (lr_pre s q p n (num_data dh dw)).
  assert (HB : match bc with Some qs => emit1 IH qs | None => Circ.mret tt end (lr_pre s q p n (num_data dh dw)) =
    (app_instrs (lr_pre s q p n (num_data dh dw)) (match bc with Some l => IH <$> l | None => [] end), Ok tt)).
  { destruct bc as [l|]; [apply emit1_ok; by apply Hbc|]. by rewrite app_instrs_nil. }
  destruct bc as [l|].
  all: erewrite mbind_ok by exact HB.
  all: rewrite emit_meas_eq by (rewrite (data_bits _ _ _ _ Hok), reg_bits_eq, !fmap_length; done); erewrite mbind_ok by apply emit_eq; rewrite emit_eq, !app_instrs_app; rewrite (data_bits _ _ _ _ Hok), reg_bits_eq, zip_with_fmap2; done.
Qed.
Lemma lattice_readout_z_ok s q dh dw p n : lat_ok s q dh dw ->
  s_heap s !! lat_params (tq_lat q) = Some p -> num_lattice_readout_of p = Some n ->
  lrname (lat_name (tq_lat q)) (n + 1) ∉ names s ->
  lattice_readout_z q s = (app_instrs (lr_pre s q p n (num_data dh dw))
    (lr_z (lat_code (tq_lat q)) (lat_name (tq_lat q)) (num_data dh dw) (n + 1)), Ok tt).
Proof.
  intros Hok Hp Hn Hf. pose proof (valid_counts _ _ (lo_valid _ _ _ _ Hok)) as (Hc1 & _). unfold lattice_readout_z.
  rewrite (data_bits _ _ _ _ Hok), evens_data by lia.
  erewrite lattice_readout_ok; [|done| |done..].
  - unfold lr_z. by destruct (lat_code (tq_lat q)).
  - intros l. destruct (lat_code (tq_lat q)); intros [=]; subst. by apply fmap_ne, even_data_ne.
Qed.
Lemma lattice_readout_x_ok s q dh dw p n : lat_ok s q dh dw -> can_rx (lat_code (tq_lat q)) (num_data dh dw) = true ->
  s_heap s !! lat_params (tq_lat q) = Some p -> num_lattice_readout_of p = Some n ->
  lrname (lat_name (tq_lat q)) (n + 1) ∉ names s ->
  lattice_readout_x q s = (app_instrs (lr_pre s q p n (num_data dh dw))
    (lr_x (lat_code (tq_lat q)) (lat_name (tq_lat q)) (num_data dh dw) (n + 1)), Ok tt).
Proof.
  intros Hok Hc Hp Hn Hf. pose proof (valid_counts _ _ (lo_valid _ _ _ _ Hok)) as (Hc1 & _). unfold lattice_readout_x.
  rewrite (data_bits _ _ _ _ Hok), odds_data by lia.
  erewrite lattice_readout_ok; [|done| |done..].
  - unfold lr_x. by destruct (lat_code (tq_lat q)).
  - intros l. destruct (lat_code (tq_lat q)); intros [=]; subst; apply fmap_ne; [by apply seqZ_ne|].
    apply odd_data_ne. by apply bool_decide_eq_true in Hc.
Qed.

(** ** Conditional logical operators and cx *)
Definition xifgate (c : code) (name : string) (h : rhandle) (v : Z) (k : Z) : instr :=
  match c with
  | XXZZ => IXIf (dq name k) h v
  | XZZX => if bool_decide (k mod 2 = 1) then IXIf (dq name k) h v else IZIf (dq name k) h v end.
Definition zifgate (c : code) (name : string) (h : rhandle) (v : Z) (k : Z) : instr :=
  match c with
  | XXZZ => IZIf (dq name k) h v
  | XZZX => if bool_decide (k mod 2 = 0) then IXIf (dq name k) h v else IZIf (dq name k) h v end.
Definition cxgate (c : code) (name : string) (ctl : qubit) (k : Z) : instr :=
  match c with
  | XXZZ => ICX ctl (dq name k)
  | XZZX => if bool_decide (k mod 2 = 1) then ICX ctl (dq name k) else ICZ ctl (dq name k) end.
Lemma x_c_if_ok s q dh dw h v : lat_ok s q dh dw ->
  x_c_if q h v s = (app_instrs s ((xifgate (lat_code (tq_lat q)) (lat_name (tq_lat q)) h v <$> col_list dh dw) ++ [IBarrier]), Ok tt).
Proof.
  intros Hok. unfold x_c_if. erewrite mbind_ok by (by eapply col_idx_ok).
  erewrite mbind_ok.
  2:{ erewrite mfor_ext.
      - eapply (for_idx q s dh dw (col_list dh dw)
          (fun i d => match lat_code (tq_lat q) with
             | XXZZ => [IXIf d h v] | XZZX => [if bool_decide (i mod 2 = 1) then IXIf d h v else IZIf d h v] end)); [done|].
        intros k Hk. eapply col_list_range; [apply Hok|done].
      - intros x s'. destruct (lat_code (tq_lat q)); done. }
  cbn beta. rewrite emit_eq, app_instrs_app. f_equal. f_equal. f_equal.
  unfold xifgate. destruct (lat_code (tq_lat q)); apply mjoin_singletons.
Qed.
Lemma z_c_if_ok s q dh dw h v : lat_ok s q dh dw ->
  z_c_if q h v s = (app_instrs s ((zifgate (lat_code (tq_lat q)) (lat_name (tq_lat q)) h v <$> row_list dw) ++ [IBarrier]), Ok tt).
Proof.
  intros Hok. unfold z_c_if. erewrite mbind_ok by (by eapply row_idx_ok).
  erewrite mbind_ok.
  2:{ erewrite mfor_ext.
      - eapply (for_idx q s dh dw (row_list dw)
          (fun i d => match lat_code (tq_lat q) with
             | XXZZ => [IZIf d h v] | XZZX => [if bool_decide (i mod 2 = 0) then IXIf d h v else IZIf d h v] end)); [done|].
        intros k Hk. eapply row_list_range; [apply Hok|done].
      - intros x s'. destruct (lat_code (tq_lat q)); done. }
  cbn beta. rewrite emit_eq, app_instrs_app. f_equal. f_equal. f_equal.
  unfold zifgate. destruct (lat_code (tq_lat q)); apply mjoin_singletons.
Qed.
Lemma tq_cx_control_ok s q dh dw ctl : lat_ok s q dh dw ->
  tq_cx q (Some ctl) None s = (app_instrs s ((cxgate (lat_code (tq_lat q)) (lat_name (tq_lat q)) ctl <$> col_list dh dw) ++ [IBarrier]), Ok tt).
Proof.
  intros Hok. unfold tq_cx. erewrite mbind_ok by (by eapply col_idx_ok).
  erewrite mbind_ok.
  2:{ erewrite mfor_ext.
      - eapply (for_idx q s dh dw (col_list dh dw)
          (fun i d => match lat_code (tq_lat q) with
             | XXZZ => [ICX ctl d] | XZZX => [if bool_decide (i mod 2 = 1) then ICX ctl d else ICZ ctl d] end)); [done|].
        intros k Hk. eapply col_list_range; [apply Hok|done].
      - intros x s'. destruct (lat_code (tq_lat q)); done. }
  cbn beta. rewrite emit_eq, app_instrs_app. f_equal. f_equal. f_equal.
  unfold cxgate. destruct (lat_code (tq_lat q)); apply mjoin_singletons.
Qed.
Lemma tq_cx_target_ok s q dh dw t : lat_ok s q dh dw -> can_z (lat_code (tq_lat q)) dw = true ->
  tq_cx q None (Some t) s = (app_instrs s (into_z (lat_code (tq_lat q)) (lat_name (tq_lat q)) dw ++ [ICX (ancq (lat_name (tq_lat q))) t]), Ok tt).
Proof.
  intros Hok Hc. unfold tq_cx. erewrite mbind_ok by (by eapply readout_z_into_ok).
  by rewrite (anc_ok _ _ _ _ Hok), emit_eq, app_instrs_app.
Qed.

(** ** Identity gates *)
Definition id_instrs (name : string) (dh dw : Z) : list instr :=
  mjoin ((fun h => IId <$> reg_bits h) <$> lattice_regs name dh dw) ++ [IBarrier].
Definition id_data_instrs (name : string) (nd : Z) : list instr := (IId <$> (dq name <$> seqZ 0 nd)) ++ [IBarrier].
Lemma id_data_ok s q dh dw : lat_ok s q dh dw ->
  id_data q s = (app_instrs s (id_data_instrs (lat_name (tq_lat q)) (num_data dh dw)), Ok tt).
Proof.
  intros Hok. pose proof (valid_counts _ _ (lo_valid _ _ _ _ Hok)) as (Hc1 & _). unfold id_data.
  rewrite (data_bits _ _ _ _ Hok). erewrite mbind_ok by (by apply emit1_ok, fmap_ne, seqZ_ne). by rewrite emit_eq, app_instrs_app.
Qed.
Lemma id_all_ok s q dh dw : lat_ok s q dh dw ->
  id_all q s = (app_instrs s (id_instrs (lat_name (tq_lat q)) dh dw), Ok tt).
Proof.
  intros Hok. pose proof (valid_counts _ _ (lo_valid _ _ _ _ Hok)) as (Hc1 & _). unfold id_all.
  assert (Hr : [lat_data (tq_lat q)] ++ option_list (lat_mz (tq_lat q)) ++ option_list (lat_mx (tq_lat q)) ++ [lat_ancilla (tq_lat q)]
    = lattice_regs (lat_name (tq_lat q)) dh dw) by (by rewrite (lo_lat _ _ _ _ Hok) at 1 2 3 4).
  rewrite Hr. erewrite mbind_ok.
  2:{ apply (mfor_emit _ _ (fun h => IId <$> reg_bits h)). intros h s' Hh. apply emit1_ok, fmap_ne, seqZ_ne.
      revert Hh. unfold lattice_regs, opt_reg. do 2 case_bool_decide; cbn; rewrite ?elem_of_cons, ?elem_of_nil; intros Hx; destruct_or?; subst; cbn in *; try done; lia. }
  cbn beta. by rewrite emit_eq, app_instrs_app.
Qed.
