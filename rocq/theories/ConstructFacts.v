(** Constructing qubits. *)
From Verif Require Export SyndromeFacts.
Open Scope Z_scope.

(** Height and width denoted by the value of "d". *)
Definition dims (d : option dval) : option (Z * Z) :=
  match d with
  | None => Some (3, 3)
  | Some (DNum z) => Some (z, z)
  | Some (DTup (h :: w :: _)) => Some (h, w)
  | _ => None
  end.
Lemma py_index_0 {A} (x : A) l : py_index (x :: l) 0 = Ok x.
Proof.
  unfold py_index. rewrite (bool_decide_eq_false_2 (0 < 0)) by lia.
  rewrite bool_decide_eq_true_2 by (cbn [length]; lia). done.
Qed.
Lemma py_index_1 {A} (x y : A) l : py_index (x :: y :: l) 1 = Ok y.
Proof.
  unfold py_index. rewrite (bool_decide_eq_false_2 (1 < 0)) by lia.
  rewrite bool_decide_eq_true_2 by (cbn [length]; lia). done.
Qed.
Lemma dims_norm d dh dw : dims d = Some (dh, dw) ->
  exists dl, norm_d d = Ok dl /\ py_index dl 0 = Ok dh /\ py_index dl 1 = Ok dw.
Proof.
  destruct d as [[z|[|h [|w l]]|]|]; cbn; intros [=]; subst.
  - exists [dw; dw]. done.
  - exists (dh :: dw :: l). split; [done|]. by rewrite py_index_0, py_index_1.
  - exists [3; 3]. done.
Qed.

Lemma or_new_keep l p s : s_heap s !! l = Some p -> params_empty p = false -> or_new (Some l) s = (s, Ok l).
Proof. intros Hp He. unfold or_new. erewrite mbind_ok by (by apply get_params_ok). by rewrite He. Qed.
Lemma d_not_empty p d : d_of p = Some d -> params_empty p = false.
Proof. destruct p as [[]]; done. Qed.

(** Surface codes: successful construction with an explicit dictionary. *)
Lemma new_surface_ok t l name s p d dh dw : t <> TRepetition ->
  s_heap s !! l = Some p -> d_of p = Some d -> dims (Some d) = Some (dh, dw) -> valid_size dh dw -> fresh_lattice s name ->
  exists dl, py_index dl 0 = Ok dh /\ py_index dl 1 = Ok dw /\
  new_tqubit t (Some l) name s =
    (app_regs (set_heap s (<[l := new_params_of p dl dh dw]> (s_heap s)))
              ((fun h => Reg true h.1 h.2) <$> lattice_regs name dh dw),
     Ok (TQubit t (the_lattice (code_of t) name l dh dw))).
Proof.
  intros Ht Hp Hd Hdim Hv Hf. destruct (dims_norm _ _ _ Hdim) as (dl & Hn & H0 & H1). exists dl. split_and!; [done..|].
  unfold new_tqubit. erewrite mbind_ok by (eapply or_new_keep; [done|by eapply d_not_empty]).
  assert (forall (m : M unit), (match t with TRepetition => m | _ => mret tt end) s = (s, Ok tt)) as Hm by (by destruct t).
  erewrite mbind_ok by apply Hm.
  erewrite mbind_ok by (eapply new_lattice_ok; [done|by rewrite Hd|done|done|done|done]).
  done.
Qed.
(** An even dimension raises LatticeError. *)
Lemma new_surface_even t l name s p d dh dw : t <> TRepetition ->
  s_heap s !! l = Some p -> d_of p = Some d -> dims (Some d) = Some (dh, dw) ->
  Z.odd dh = false \/ Z.odd dw = false ->
  (new_tqubit t (Some l) name s).2 = Err LatticeError.
Proof.
  intros Ht Hp Hd Hdim He. destruct (dims_norm _ _ _ Hdim) as (dl & Hn & H0 & H1).
  unfold new_tqubit. erewrite mbind_ok by (eapply or_new_keep; [done|by eapply d_not_empty]).
  assert (forall (m : M unit), (match t with TRepetition => m | _ => mret tt end) s = (s, Ok tt)) as Hm by (by destruct t).
  erewrite mbind_ok by apply Hm.
  erewrite mbind_err; [done|]. unfold new_lattice. apply mbind_err.
  unfold params_validate_and_generate. erewrite mbind_ok by (by apply get_params_ok).
  erewrite mbind_ok by (apply mlift_ok; by rewrite Hd). erewrite mbind_ok by done.
  apply mbind_err. unfold mlift, check_d. rewrite H0, H1.
  pose proof (Zmod_odd dh). pose proof (Zmod_odd dw).
  destruct He as [He|He]; rewrite He in *.
  - rewrite (bool_decide_eq_true_2 (dh mod 2 <> 1)) by lia. done.
  - rewrite (bool_decide_eq_true_2 (dw mod 2 <> 1)) by lia. by rewrite orb_true_r.
Qed.

Lemma new_params_lat_ok t c l name s p dl dh dw : valid_size dh dw ->
  py_index dl 0 = Ok dh -> py_index dl 1 = Ok dw ->
  lat_ok (app_regs (set_heap s (<[l := new_params_of p dl dh dw]> (s_heap s)))
              ((fun h => Reg true h.1 h.2) <$> lattice_regs name dh dw))
    (TQubit t (the_lattice c name l dh dw)) dh dw.
Proof.
  intros. constructor; [done|done|]. cbn. eexists _, dl, (-1), (-1), (-1). rewrite lookup_insert. done.
Qed.

(** Repetition codes. *)
Lemma rep_d_dims b d dl dh dw : rep_d b d = Ok dl -> py_index dl 0 = Ok dh -> py_index dl 1 = Ok dw ->
  (if b then dh = 1 else dw = 1).
Proof.
  destruct d as [[z|l|]|]; [| |done|].
  - cbn. intros [= <-]. destruct b; rewrite py_index_0, py_index_1; congruence.
  - destruct b; unfold rep_d; intros He H0 H1.
    + destruct (py_index l 0) as [h|] eqn:E; cbn in He; [|done]. case_bool_decide as Hb; [done|]. injection He as ->.
      rewrite E in H0. injection H0 as ->. destruct (decide (dh = 1)); [done|tauto].
    + destruct (py_index l 1) as [h|] eqn:E; cbn in He; [|done]. case_bool_decide as Hb; [done|]. injection He as ->.
      rewrite E in H1. injection H1 as ->. destruct (decide (dw = 1)); [done|tauto].
  - cbn. intros [= <-]. destruct b; rewrite py_index_0, py_index_1; congruence.
Qed.
Lemma new_rep_unfold l name s p : s_heap s !! l = Some p -> params_empty p = false ->
  new_tqubit TRepetition (Some l) name s =
    match rep_d (default false (pfp_of p)) (d_of p) with
    | Err e => (set_heap s (<[l := set_pfp p (default false (pfp_of p))]> (s_heap s)), Err e)
    | Ok dl =>
        match new_lattice XXZZ l name
                (set_heap s (<[l := set_d (set_pfp p (default false (pfp_of p))) (Some (DTup dl))]> (s_heap s))) with
        | (s', Ok lat) => (s', Ok (TQubit TRepetition lat))
        | (s', Err e) => (s', Err e)
        end
    end.
Proof.
  intros Hp He. unfold new_tqubit. erewrite mbind_ok by (by eapply or_new_keep).
  unfold rep_validate. destruct (rep_d (default false (pfp_of p)) (d_of p)) as [dl|e] eqn:E.
  - erewrite mbind_ok.
    2:{ erewrite mbind_ok by (by apply get_params_ok). erewrite mbind_ok by done.
        erewrite mbind_ok by (apply mlift_ok; exact E). reflexivity. }
    unfold set_heap; cbn. rewrite insert_insert. unfold mbind'. cbn [code_of].
    destruct (new_lattice _ _ _ _) as [s' [lat|e]]; done.
  - erewrite mbind_err; [done|]. erewrite mbind_ok by (by apply get_params_ok). erewrite mbind_ok by done.
    apply mbind_err. unfold mlift. by rewrite E.
Qed.

(** The gates applied by x() and z(). *)
Lemma gates_pauli_app l1 l2 P Q : gates_pauli l1 = Some P -> gates_pauli l2 = Some Q ->
  gates_pauli (l1 ++ l2) = Some (pmul P Q).
Proof.
  revert P. induction l1 as [|i l1 IH]; intros P; cbn.
  - intros [= <-] HQ. by rewrite pmul_id_l.
  - destruct (gate_pauli i) as [R|]; [|done]. cbn. destruct (gates_pauli l1) as [P'|] eqn:E; [|done].
    cbn. intros [= <-] HQ. rewrite (IH P') by done. cbn. by rewrite pmul_assoc.
Qed.
Global Instance dq_inj name : Inj (=) (=) (dq name).
Proof. by intros a b [=]. Qed.
Lemma pmap_Xon1 name k : pmap (dq name) (Xon {[k]}) = Xon {[dq name k]}.
Proof. apply pauli_eq; cbn; unfold img; set_solver. Qed.
Lemma pmap_Zon1 name k : pmap (dq name) (Zon {[k]}) = Zon {[dq name k]}.
Proof. apply pauli_eq; cbn; unfold img; set_solver. Qed.
Lemma Xon_cons (k : Z) l : k ∉ l -> Xon (list_to_set (k :: l)) = pmul (Xon {[k]}) (Xon (list_to_set l) : pauli Z).
Proof.
  intros. apply pauli_eq; cbn; [|by rewrite sd_empty_l]. rewrite sd_insert; [done|]. by rewrite elem_of_list_to_set.
Qed.
Lemma Zon_cons (k : Z) l : k ∉ l -> Zon (list_to_set (k :: l)) = pmul (Zon {[k]}) (Zon (list_to_set l) : pauli Z).
Proof.
  intros. apply pauli_eq; cbn; [by rewrite sd_empty_l|]. rewrite sd_insert; [done|]. by rewrite elem_of_list_to_set.
Qed.
Definition cconj (c : code) (S : gset Z) (P : pauli Z) : pauli Z := match c with XXZZ => P | XZZX => hconj S P end.
Lemma cconj_pmul c S P Q : cconj c S (pmul P Q) = pmul (cconj c S P) (cconj c S Q).
Proof. destruct c; [done|apply hconj_pmul]. Qed.
Lemma cconj_pid c S : cconj c S pid = pid.
Proof. destruct c; [done|apply hconj_pid]. Qed.
Lemma gates_pauli_x c name (l : list Z) (S : gset Z) : NoDup l -> (forall k, k ∈ l -> k ∈ S <-> k mod 2 = 0) ->
  gates_pauli (xgate c name <$> l) = Some (pmap (dq name) (cconj c S (Xon (list_to_set l)))).
Proof.
  induction 1 as [|k l Hk Hn IH]; intros HS.
  - cbn. f_equal. change (Xon ∅) with (pid : pauli Z). by rewrite cconj_pid, pmap_pid.
  - rewrite fmap_cons. cbn [gates_pauli]. rewrite IH by (intros; apply HS; by right).
    rewrite Xon_cons, cconj_pmul, pmap_pmul by (done || apply _).
    assert (gate_pauli (xgate c name k) = Some (pmap (dq name) (cconj c S (Xon {[k]})))) as ->; [|done].
    unfold xgate, cconj. destruct c; [by rewrite pmap_Xon1|].
    specialize (HS k ltac:(by left)). destruct (hconj_single S k) as [-> _].
    destruct (mem k S) eqn:E.
    + apply mem_true, HS in E. rewrite bool_decide_eq_false_2 by lia. by rewrite pmap_Zon1.
    + apply mem_false in E. destruct (mod2_cases k) as [Em|Em]; [tauto|].
      rewrite bool_decide_eq_true_2 by done. by rewrite pmap_Xon1.
Qed.
Lemma gates_pauli_z c name (l : list Z) (S : gset Z) : NoDup l -> (forall k, k ∈ l -> k ∈ S <-> k mod 2 = 0) ->
  gates_pauli (zgate c name <$> l) = Some (pmap (dq name) (cconj c S (Zon (list_to_set l)))).
Proof.
  induction 1 as [|k l Hk Hn IH]; intros HS.
  - cbn. f_equal. change (Zon ∅) with (pid : pauli Z). by rewrite cconj_pid, pmap_pid.
  - rewrite fmap_cons. cbn [gates_pauli]. rewrite IH by (intros; apply HS; by right).
    rewrite Zon_cons, cconj_pmul, pmap_pmul by (done || apply _).
    assert (gate_pauli (zgate c name k) = Some (pmap (dq name) (cconj c S (Zon {[k]})))) as ->; [|done].
    unfold zgate, cconj. destruct c; [by rewrite pmap_Zon1|].
    specialize (HS k ltac:(by left)). destruct (hconj_single S k) as [_ ->].
    destruct (mem k S) eqn:E.
    + apply mem_true, HS in E. rewrite bool_decide_eq_true_2 by lia. by rewrite pmap_Xon1.
    + apply mem_false in E. destruct (mod2_cases k) as [Em|Em]; [tauto|].
      rewrite bool_decide_eq_false_2 by lia. by rewrite pmap_Zon1.
Qed.
Lemma col_list_set dh dw : valid_size dh dw -> list_to_set (col_list dh dw) = col_set dh dw 0.
Proof.
  intros Hv. unfold valid_size in Hv. apply set_eq. intros k.
  unfold col_list. rewrite elem_of_list_to_set, elem_of_col_set, elem_of_list_fmap. split.
  - intros (i & -> & Hi%elem_of_seqZ). replace (i * dw) with (i * dw + 0) by lia.
    rewrite idx_mod by lia. split; [apply idx_in_data; lia|done].
  - intros [Hd Hm]. apply data_set_coord in Hd as (?&?&?); [|lia]. exists (k / dw). split; [lia|]. apply elem_of_seqZ. lia.
Qed.
Lemma row_list_set dh dw : valid_size dh dw -> list_to_set (row_list dw) = row_set dh dw 0.
Proof.
  intros Hv. unfold valid_size in Hv. apply set_eq. intros k.
  rewrite elem_of_list_to_set, elem_of_row_set. unfold row_list. rewrite elem_of_seqZ. split.
  - intros Hk. replace k with (0 * dw + k) by lia. rewrite idx_div by lia. split; [apply idx_in_data; lia|done].
  - intros [Hd Hm]. apply data_set_coord in Hd as (?&?&?); lia.
Qed.
Lemma even_set_mod dh dw k : k ∈ data_set dh dw -> k ∈ even_set dh dw <-> k mod 2 = 0.
Proof. intros. unfold even_set. rewrite elem_of_filter, even_mod2. tauto. Qed.
Lemma logx_pauli c name dh dw : valid_size dh dw ->
  gates_pauli (logx_instrs c name dh dw) = Some (pmap (dq name) (log_x c dh dw)).
Proof.
  intros Hv. unfold logx_instrs. erewrite gates_pauli_app; [|apply (gates_pauli_x c name _ (even_set dh dw))|done].
  - cbn [gate_pauli mbind option_bind]. rewrite !pmul_id_r, col_list_set by done. by destruct c.
  - unfold col_list. apply NoDup_fmap; [|apply NoDup_seqZ]. intros a b ?. unfold valid_size in Hv. nia.
  - intros k Hk. apply even_set_mod. apply elem_of_data_set. by eapply col_list_range.
Qed.
Lemma logz_pauli c name dh dw : valid_size dh dw ->
  gates_pauli (logz_instrs c name dw) = Some (pmap (dq name) (log_z c dh dw)).
Proof.
  intros Hv. unfold logz_instrs. erewrite gates_pauli_app; [|apply (gates_pauli_z c name _ (even_set dh dw))|done].
  - cbn [gate_pauli mbind option_bind]. rewrite !pmul_id_r, (row_list_set dh dw) by done. by destruct c.
  - apply NoDup_seqZ.
  - intros k Hk. apply even_set_mod. apply elem_of_data_set. by eapply row_list_range.
Qed.

Lemma stab_cconj c dh dw P : valid_size dh dw ->
  P ∈ stabilizers XXZZ dh dw -> cconj c (even_set dh dw) P ∈ stabilizers c dh dw.
Proof. intros Hv HP. destruct c; [done|]. rewrite stabilizers_XZZX by done. apply elem_of_list_fmap. eauto. Qed.
Lemma anti_cconj c S P Q : anti (cconj c S P) (cconj c S Q) = anti P Q.
Proof. destruct c; [done|apply anti_hconj]. Qed.
Lemma cconj_inv c S P : cconj c S (cconj c S P) = P.
Proof. destruct c; [done|apply hconj_inv]. Qed.

(** The qubits an instruction acts on. *)
Definition instr_qubits (i : instr) : list qubit :=
  match i with
  | IH q | IX q | IZ q | IId q | IReset q | IMeas q _ | IXIf q _ _ | IZIf q _ _ => [q]
  | ICX a b | ICZ a b => [a; b]
  | IBarrier => []
  end.
Definition only_on (regs : list string) (is : list instr) : Prop :=
  forall i q, i ∈ is -> q ∈ instr_qubits i -> q.1 ∈ regs.
Lemma lift_q name sreg p (q : qubit) l :
  entangle_plaq SXXXX (lift_plaq name sreg p) = Ok l \/ entangle_plaq SZZZZ (lift_plaq name sreg p) = Ok l \/
  entangle_plaq SXZZX (lift_plaq name sreg p) = Ok l ->
  forall i, i ∈ l -> q ∈ instr_qubits i -> q.1 = sreg \/ q.1 = (name +:+ "_data")%string.
Proof.
  destruct p as [syn [tl|] [tr|] [bl|] [br|]]; cbn; intros HE i Hi Hq;
    (destruct HE as [HE|[HE|HE]]; [try discriminate HE; injection HE as <-..]);
    repeat (apply elem_of_cons in Hi as [->|Hi];
      [cbn in Hq; repeat (apply elem_of_cons in Hq as [->|Hq]; [cbn; tauto|]); by apply elem_of_nil in Hq|]);
    by apply elem_of_nil in Hi.
Qed.
Lemma ent_only cls name sreg p : only_on [(name +:+ "_data")%string; sreg] (ent cls (lift_plaq name sreg p)).
Proof.
  intros i q Hi Hq. unfold ent in Hi. destruct (entangle_plaq _ _) as [l|e] eqn:E; [|by apply elem_of_nil in Hi].
  assert (q.1 = sreg \/ q.1 = (name +:+ "_data")%string); [|set_solver].
  eapply lift_q; [|done..]. destruct cls; eauto.
Qed.
Lemma ent_instrs_only cls name sreg (l : list plaq) :
  only_on [(name +:+ "_data")%string; sreg] (ent_instrs (pair cls <$> (lift_plaq name sreg <$> l))).
Proof.
  intros i q Hi Hq. unfold ent_instrs in Hi. apply elem_of_list_join in Hi as (is & Hi & Hin).
  apply elem_of_list_fmap in Hin as ([c p] & -> & Hin).
  apply elem_of_list_fmap in Hin as (p' & [= -> ->] & Hin). apply elem_of_list_fmap in Hin as (p & -> & _).
  apply elem_of_app in Hi as [Hi|Hi]; [by eapply ent_only|].
  apply elem_of_list_singleton in Hi as ->. by apply elem_of_nil in Hq.
Qed.

