(** Property C73: a look-up table filled with shots of the two logical values. *)
From Coq Require Import Ascii QArith Qcanon.
From Verif Require Import P_Tests SpecTests Noise Parse P_Parse ParseFacts RxRef P_Decode P_EndToEnd Lookup P_Lookup FaultFacts RunFacts P_Logical.
From stdpp Require Export list sorting.
Open Scope Z_scope.

(** [ky] is the string of a shot of a memory experiment that prepares a logical basis state, makes
    [K] further rounds, has the logical value [v] at the end and is read out in the same basis, with
    at most [(d-1)/2] data-qubit errors and misread syndrome bits (see C27). *)
Definition shot (R : Amp) (isx : bool) (c : code) (dh dw : Z) (K : nat) (v : bool) (ky : string) : Prop :=
  exists s q l s' is (k0 k1 : config R) rs rd misread cs',
    (lat_ok s q dh dw /\ lat_code (tq_lat q) = c /\ cregs s = []) /\
    run_evs q (Call (reset_op isx) :: Call OStab :: l ++ [Call OStab; Call (read_op isx)]) s = (s', Ok tt) /\
    (emitted s s' is /\ Forall (body_ev dh dw) l /\ count is_stab (calls l) = K) /\
    Nat.odd (count (inverts isx) (calls l)) = v /\
    (syndromes_clean q k0.2 /\ exec is k0 k1 /\ possible k1) /\
    (cregs s' = rs ++ [rd] /\ observed isx dh dw rs.*1 misread k1.1 cs' /\ cs' (rd.1, 0) = k1.1 (rd.1, 0)) /\
    (forall m, m ∈ misread -> 1 <= m.1 < Z.of_nat (length rs) - 1 /\ 0 <= m.2 < nsyn isx dh dw) /\
    Z.of_nat (length (flips_of isx c dh dw 0 l) + length misread) <= (extent isx dh dw - 1) / 2 /\
    ky = counts_key cs' (cregs s').

Lemma shot_decodes R isx c dh dw K v ky T D rx ep : 1 < dh * dw -> shot R isx c dh dw K v ky ->
  decoder_for isx dh dw T D -> 1 + Z.of_nat K <= T -> rx_ok rx -> correct_readout rx D ep ky isx = Ok (Z.b2z v).
Proof.
  intros H1 (s & q & l & s' & is & k0 & k1 & rs & rd & misread & cs' & (Hok & Hc & Hcr) & Hr & (Hem & Hl & HK) & Hval & (Hcl & He & Hp) & (Hrs & Hobs & Hrd) & Hmis & Hw & ->) HD HT Hrx.
  subst c. destruct (lat_ok_cnt _ _ _ _ Hok) as [n Hn].
  destruct (logical_record R isx s q dh dw l s' is k0 k1 rs rd misread cs' n Hok Hn Hcr Hr Hem Hl Hcl He Hp Hrs Hobs Hrd Hmis) as (HN & _).
  destruct (C27_end_to_end R isx s q dh dw l s' is k0 k1 rs rd T D rx ep misread cs' Hok H1 Hcr Hr Hem Hl Hcl He Hp Hrs Hobs Hrd Hmis Hw HD ltac:(lia) Hrx) as [_ ->].
  by rewrite Hval.
Qed.

Lemma total_nonneg m : map_Forall (fun (_ : string) n => 0 < n) m -> (0 <= sum_counts m) /\ forall s n, m !! s = Some n -> 0 < sum_counts m.
Proof.
  rewrite <- total_sum. unfold dict_total. induction m as [|s n m Hs IHm] using map_ind; intros HF.
  - split; [by rewrite map_fold_empty|]. intros s n. by rewrite lookup_empty.
  - apply map_Forall_insert in HF as [Hn HF]; [|done]. rewrite map_fold_insert_L; [|intros; lia|done]. destruct (IHm HF) as [I1 _]. split; [lia|]. intros; lia.
Qed.
Lemma frequency_of st ty v m k s f : tabled st ty v m k -> frequency st ty v s f ->
  (m !! s = None /\ f = 0%Qc) \/ exists n, m !! s = Some n /\ k <> 0 /\ (f * qz k = qz n)%Qc.
Proof. intros T1 (m' & k' & T2 & H). by destruct (tabled_fun _ _ _ _ _ _ _ T1 T2) as [-> ->]. Qed.
Lemma freq_pos (f : Qc) n k : 0 < n -> 0 < k -> (f * qz k = qz n)%Qc -> (0 < f)%Qc.
Proof.
  intros Hn Hk E. apply qz_pos in Hn, Hk. destruct (Qclt_le_dec 0 f) as [|Hle]; [done|]. exfalso.
  assert (H : (f * qz k <= 0 * qz k)%Qc) by (by apply Qcmult_le_compat_r; [|apply Qclt_le_weak]). rewrite E, Qcmult_0_l in H. by apply Qcle_not_lt in H.
Qed.
(** A string listed with one value only is decoded to that value. *)
Lemma one_sided h os ty s m0 m1 : known_type ty -> let st := lrun os (h, lut_reset) in
  tabled st ty 0 m0 (sum_counts m0) -> tabled st ty 1 m1 (sum_counts m1) ->
  map_Forall (fun _ n => 0 < n) m0 -> map_Forall (fun _ n => 0 < n) m1 ->
  (forall n, m0 !! s = Some n -> m1 !! s = None -> correct_look_up st.1 st.2 s ty = Ok 0) /\
  (forall n, m1 !! s = Some n -> m0 !! s = None -> correct_look_up st.1 st.2 s ty = Ok 1).
Proof.
  intros Hty st T0 T1 P0 P1. destruct (total_nonneg m0 P0) as [_ Q0]. destruct (total_nonneg m1 P1) as [_ Q1].
  assert (HS : (exists n, 0 < n /\ (m0 !! s = Some n \/ m1 !! s = Some n)) -> exists v, correct_look_up st.1 st.2 s ty = Ok v).
  { apply (C34_seen h os s ty m0 _ m1 _ Hty T0 T1).
    - intros n Hn. split; [apply Z.lt_le_incl; exact (P0 _ _ Hn)|by eapply Q0].
    - intros n Hn. split; [apply Z.lt_le_incl; exact (P1 _ _ Hn)|by eapply Q1]. }
  split; intros n Hn Hno.
  - destruct HS as [v Ev]; [exists n; split; [exact (P0 _ _ Hn)|by left]|]. rewrite Ev. f_equal.
    destruct (C33_decision h os s ty v Hty Ev) as (f0 & f1 & F0 & F1 & _ & Hv). fold st in F0, F1.
    destruct (frequency_of _ _ _ _ _ _ _ T0 F0) as [[E0 _]|(n0 & E0 & _ & G0)]; [congruence|]. destruct (frequency_of _ _ _ _ _ _ _ T1 F1) as [[_ ->]|(n1 & E1 & _)]; [|congruence].
    assert (0 < f0)%Qc by (eapply freq_pos; [exact (P0 _ _ E0)|by eapply Q0|exact G0]). apply Hv; first [by apply Qclt_le_weak|apply Qcle_refl].
  - destruct HS as [v Ev]; [exists n; split; [exact (P1 _ _ Hn)|by right]|]. rewrite Ev. f_equal.
    destruct (C33_decision h os s ty v Hty Ev) as (f0 & f1 & F0 & F1 & Hor & Hv). fold st in F0, F1.
    destruct (frequency_of _ _ _ _ _ _ _ T1 F1) as [[E1 _]|(n1 & E1 & _ & G1)]; [congruence|]. destruct (frequency_of _ _ _ _ _ _ _ T0 F0) as [[_ ->]|(n0 & E0 & _)]; [|congruence].
    assert (HP : (0 < f1)%Qc) by (eapply freq_pos; [exact (P1 _ _ E1)|by eapply Q1|exact G1]).
    destruct Hor as [Hz| ->]; [|done]. exfalso. apply Hv in Hz; [|apply Qcle_refl|by apply Qclt_le_weak]. by apply Qcle_not_lt in Hz.
Qed.

(** * C73 *)
(** [decoder] as the caller fills it: the dictionaries [m0] and [m1] are passed to
    set_look_up_table for the two values, after any earlier use of the decoder. *)
Definition filled (h : dict_heap) (os : list lop) (ty : string) (l0 l1 : nat) : dict_heap * lut :=
  lrun (os ++ [LSet ty 0 l0; LSet ty 1 l1]) (h, lut_reset).
Lemma filled_tabled h os ty l0 l1 m0 m1 : known_type ty -> caller os h !! l0 = Some m0 -> caller os h !! l1 = Some m1 ->
  tabled (filled h os ty l0 l1) ty 0 m0 (sum_counts m0) /\ tabled (filled h os ty l0 l1) ty 1 m1 (sum_counts m1).
Proof.
  intros Hty E0 E1. unfold filled. split.
  - destruct (C35_consistent h os ty 0 l0 [LSet ty 1 l1] Hty) as (m & HT & ->).
    + constructor; [|constructor]. intros [_ [=]].
    + by repeat constructor.
    + by rewrite E0 in HT.
  - destruct (C35_consistent h (os ++ [LSet ty 0 l0]) ty 1 l1 [] Hty (Forall_nil_2 _) (Forall_nil_2 _)) as (m & HT & ->).
    rewrite <-(assoc_L (++)) in HT. cbn [app] in HT. unfold caller in HT, E1. rewrite foldl_app in HT. cbn [foldl] in HT. by rewrite E1 in HT.
Qed.
(** Every string seen while filling the tables is decoded to the value that was prepared, the
    same as a decoder for the code returns with matching; any other string raises. *)
Theorem C73_trained (R : Amp) isx c dh dw K h os l0 l1 m0 m1 :
  valid_size dh dw -> 1 < dh * dw ->
  caller os h !! l0 = Some m0 -> caller os h !! l1 = Some m1 ->
  map_Forall (fun ky n => 0 < n /\ shot R isx c dh dw K false ky) m0 ->
  map_Forall (fun ky n => 0 < n /\ shot R isx c dh dw K true ky) m1 ->
  let ty := type_string isx in let st := filled h os ty l0 l1 in
  (forall s n, m0 !! s = Some n -> correct_look_up st.1 st.2 s ty = Ok 0 /\ m1 !! s = None) /\
  (forall s n, m1 !! s = Some n -> correct_look_up st.1 st.2 s ty = Ok 1 /\ m0 !! s = None) /\
  (forall s, m0 !! s = None -> m1 !! s = None -> correct_look_up st.1 st.2 s ty = Err ZeroDivisionError) /\
  (forall s v D rx ep T, decoder_for isx dh dw T D -> 1 + Z.of_nat K <= T -> rx_ok rx ->
     correct_look_up st.1 st.2 s ty = Ok v -> correct_readout rx D ep s isx = Ok v).
Proof.
  intros Hv H1 E0 E1 S0 S1 ty st.
  assert (Hty : known_type ty) by (unfold ty, known_type; destruct isx; auto).
  destruct (filled_tabled h os ty l0 l1 m0 m1 Hty E0 E1) as [T0 T1]. fold st in T0, T1.
  assert (P0 : map_Forall (fun _ n => 0 < n) m0) by (intros ky n Hk; apply (S0 _ _ Hk)).
  assert (P1 : map_Forall (fun _ n => 0 < n) m1) by (intros ky n Hk; apply (S1 _ _ Hk)).
  assert (HX : forall s n0 n1, m0 !! s = Some n0 -> m1 !! s = Some n1 -> False).
  { intros s n0 n1 Hs0 Hs1. apply S0 in Hs0 as [_ Hs0]. apply S1 in Hs1 as [_ Hs1].
    assert (HD : exists D, decoder_for isx dh dw (1 + Z.of_nat K) D) by (destruct (decoder_for_rotated isx dh dw (1 + Z.of_nat K) Hv) as (D & _ & HD); by exists D).
    destruct HD as [D HD]. pose proof (shot_decodes R isx c dh dw K false s _ D rx_ref EPNone H1 Hs0 HD ltac:(lia) rx_ref_ok) as F0.
    pose proof (shot_decodes R isx c dh dw K true s _ D rx_ref EPNone H1 Hs1 HD ltac:(lia) rx_ref_ok) as F1. rewrite F0 in F1. done. }
  assert (HN0 : forall s n, m0 !! s = Some n -> m1 !! s = None) by (intros s n Hs; destruct (m1 !! s) eqn:Es; [exfalso; by eapply HX|done]).
  assert (HN1 : forall s n, m1 !! s = Some n -> m0 !! s = None) by (intros s n Hs; destruct (m0 !! s) eqn:Es; [exfalso; by eapply HX|done]).
  assert (A0 : forall s n, m0 !! s = Some n -> correct_look_up st.1 st.2 s ty = Ok 0) by (intros s n Hs; eapply (proj1 (one_sided h _ ty s m0 m1 Hty T0 T1 P0 P1)); eauto).
  assert (A1 : forall s n, m1 !! s = Some n -> correct_look_up st.1 st.2 s ty = Ok 1) by (intros s n Hs; eapply (proj2 (one_sided h _ ty s m0 m1 Hty T0 T1 P0 P1)); eauto).
  assert (AN : forall s, m0 !! s = None -> m1 !! s = None -> correct_look_up st.1 st.2 s ty = Err ZeroDivisionError).
  { intros s N0 N1. apply (C34_unseen h _ s ty None m0 _ m1 _ Hty T0 T1 N0 N1). done. }
  split; [intros s n Hs; eauto|]. split; [intros s n Hs; eauto|]. split; [exact AN|].
  intros s v D rx ep T HD HT Hrx Hlu. destruct (m0 !! s) as [n|] eqn:Es0.
  - rewrite (A0 _ _ Es0) in Hlu. injection Hlu as <-. apply (shot_decodes R isx c dh dw K false s T D rx ep H1); try done. by apply (S0 _ _ Es0).
  - destruct (m1 !! s) as [n|] eqn:Es1; [|by rewrite AN in Hlu].
    rewrite (A1 _ _ Es1) in Hlu. injection Hlu as <-. apply (shot_decodes R isx c dh dw K true s T D rx ep H1); try done. by apply (S1 _ _ Es1).
Qed.
Print Assumptions C73_trained.

(** ** A concrete case *)
(** The 5x3 XZZX lattice of C27_ex with and without x(), an X and a Z error on data qubit 7. *)
Definition train_hist (v : bool) : list ev := [Fault true 7; Call OStab] ++ (if v then [Call OX] else []) ++ [Fault false 7; Call OStab; Call OIdData].
Lemma train_shot v : exists ky, shot ZAmp false XZZX 5 3 2 v ky.
Proof.
  destruct e2e_ok as (q & Hq & Hok & Hc).
  assert (Hrun : run_ok e2e_q (Call OResetZ :: Call OStab :: train_hist v ++ [Call OStab; Call (OReadZ None)]) = true) by (destruct v; vm_compute; reflexivity).
  destruct (run_ok_inv _ _ _ _ _ Hq Hok Hrun) as (s' & is & Hr & Hem).
  destruct (evs_possible _ _ _ _ _ _ _ ((fun _ => false), zero_state) Hok Hr Hem (zero_possible _)) as (k1 & He & Hp).
  assert (Hregs : cregs s' = ((., 14) <$> e2e_names) ++ [("tq_readout_0"%string, 1)]).
  { rewrite <-(run_regs_eq _ _ _ _ Hq Hr). destruct v; vm_compute; reflexivity. }
  exists (counts_key k1.1 (cregs s')), e2e_q.1, q, (train_hist v), s', is, (fun _ => false, zero_state), k1, ((., 14) <$> e2e_names), ("tq_readout_0"%string, 1), [], k1.1.
  split; [split; [exact Hok|split; [exact Hc|exact e2e_empty]]|]. split; [exact Hr|].
  split; [split; [exact Hem|split; [destruct v; repeat constructor; cbn; lia|destruct v; reflexivity]]|]. split; [destruct v; reflexivity|].
  split; [split; [apply C10_initially_clean|split; [exact He|exact Hp]]|]. split; [split; [exact Hregs|split; [|reflexivity]]|].
  - intros a nm loc _ _. change (xorl (_ <$> [])) with false. by rewrite xorb_false_r.
  - split; [intros m Hm; destruct (not_elem_of_nil _ Hm)|]. split; [clear; destruct v; vm_compute; discriminate|exact eq_refl].
Qed.
Example C73_ex : exists ky0 ky1, let st := filled ∅ [LWrite 0 ky0 60; LWrite 1 ky1 40] "Z" 0 1 in
  correct_look_up st.1 st.2 ky0 "Z" = Ok 0 /\ correct_look_up st.1 st.2 ky1 "Z" = Ok 1 /\ correct_look_up st.1 st.2 "" "Z" = Err ZeroDivisionError.
Proof.
  destruct (train_shot false) as [ky0 S0]. destruct (train_shot true) as [ky1 S1]. exists ky0, ky1.
  assert (HF : forall v ky, shot ZAmp false XZZX 5 3 2 v ky -> ky <> ""%string).
  { intros v ky HS ->. destruct (decoder_for_rotated false 5 3 3 v53) as (D & _ & HD).
    pose proof (shot_decodes ZAmp false XZZX 5 3 2 v "" 3 D rx_ref EPNone eq_refl HS HD ltac:(lia) rx_ref_ok) as E.
    unfold correct_readout in E. destruct (decoder_inv false 5 3 3 D HD) as (Eh & Ew & _). rewrite Eh, Ew in E.
    assert (EP : exists e, parse_readout 5 3 "" (Some (type_string false)) = Err e) by (eexists; vm_compute; reflexivity). destruct EP as [e EP]. by rewrite EP in E. }
  destruct (C73_trained ZAmp false XZZX 5 3 2 ∅ [LWrite 0 ky0 60; LWrite 1 ky1 40] 0 1 {[ky0 := 60]} {[ky1 := 40]} v53 eq_refl) as (A0 & A1 & A2 & _).
  - reflexivity.
  - reflexivity.
  - apply map_Forall_singleton. split; [lia|exact S0].
  - apply map_Forall_singleton. split; [lia|exact S1].
  - cbn zeta. cbn [type_string] in A0, A1, A2. split; [apply (A0 ky0 60), lookup_singleton|]. split; [apply (A1 ky1 40), lookup_singleton|].
    apply A2; apply lookup_singleton_ne; [exact (HF _ _ S0)|exact (HF _ _ S1)].
Qed.
