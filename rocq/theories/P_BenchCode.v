(** Property C36 continued: logical error rates of a benchmark of a rotated surface code. *)
From Coq Require Import Ascii QArith Qcanon Qreals Rdefinitions Raxioms.
From Verif Require Import FaultFacts Parse P_Parse DegenDecode RxRef P_Decode P_DegenDecode Bench BenchFacts P_Bench.
From stdpp Require Export list sorting.
Open Scope Z_scope.

(** The string [s] is what a memory experiment with logical value [v] reports if at most
    [(d-1)/2] data qubits flipped and syndrome bits were misread (see C26). *)
Definition few_faults (c : code) (dh dw T : Z) (v : bool) (s : string) : Prop :=
  exists cs names last base flips misread,
    let N := Z.of_nat (length names) in
    s = counts_key cs (((., dh * dw - 1) <$> names) ++ [(last, 1)]) /\
    N - 1 <= T /\ faults_within false dh dw N flips misread /\
    reported false c dh dw base flips misread (recorded cs names) /\
    cs (last, 0) = xorb v (logical_flip false c dh dw flips) /\
    Z.of_nat (length flips + length misread) <= (extent false dh dw - 1) / 2.

Lemma bound_by_rest decode correct ep (good bad : list (string * Z)) x :
  Forall (fun kv => 0 <= kv.2) bad -> Forall (fun kv => decode ep kv.1 = Ok correct) good ->
  logical_error_rate decode correct (good ++ bad) ep = Ok x -> (x * qz (shots (good ++ bad)) <= qz (shots bad))%Qc.
Proof.
  intros Hn Hg (Hc & Hs & E)%ler_ok. rewrite E. apply qz_le. unfold wrong. rewrite sum_if_app, (sum_if_0 _ good), Z.add_0_l.
  - apply (wrong_shots decode correct ep bad Hn).
  - eapply Forall_impl; [exact Hg|]. cbn. tauto.
Qed.
(** Shots with few faults do not count as errors; the error rate is at most the fraction of
    the other shots, and 0 if there are none.  Without degeneracy weighting: *)
Theorem C36_code c dh dw T D rx v good bad x :
  valid_size dh dw -> 1 < dh * dw -> decoder_for false dh dw T D -> rx_ok rx ->
  Forall (fun kv => few_faults c dh dw T v kv.1) good -> Forall (fun kv => 0 <= kv.2) bad ->
  logical_error_rate (bench_decode rx D) (Z.b2z v) (good ++ bad) None = Ok x ->
  (x * qz (shots (good ++ bad)) <= qz (shots bad))%Qc.
Proof.
  intros Hv H1 HD Hrx Hg Hb. apply bound_by_rest; [done|]. eapply Forall_impl; [exact Hg|]. intros [s n] (cs & names & last & base & flips & misread & -> & HN & Hf & Hr & Hl & Hw).
  cbn [fst]. unfold bench_decode. change ((fun q : Qc => Q2R q) <$> None) with (@None R).
  destruct (C45_plain rx D false 0 [] (counts_key cs (((., dh * dw - 1) <$> names) ++ [(last, 1)]))) as (_ & _ & -> & _).
  by eapply (C26_corrects c false dh dw T).
Qed.
Print Assumptions C36_code.
(** With degeneracy weighting: the same for physical error rates that are rare enough (see C46). *)
Theorem C36_code_weighted c dh dw T D g rx rho v (r : Qc) good bad x :
  valid_size dh dw -> 1 < dh * dw -> decoder_for false dh dw T D -> dec_graph D false = Some g -> rx_ok rx ->
  (0 < Q2R r < / 2)%R -> degeneracy_bound false g (virtual_nodes false dh dw) rho -> rare rho (Q2R r) (extent false dh dw) ->
  Forall (fun kv => few_faults c dh dw T v kv.1) good -> Forall (fun kv => 0 <= kv.2) bad ->
  logical_error_rate (bench_decode rx D) (Z.b2z v) (good ++ bad) (Some r) = Ok x ->
  (x * qz (shots (good ++ bad)) <= qz (shots bad))%Qc.
Proof.
  intros Hv H1 HD Hgr Hrx Hp Hbd Hrare Hg Hb. apply bound_by_rest; [done|]. eapply Forall_impl; [exact Hg|]. intros [s n] (cs & names & last & base & flips & misread & -> & HN & Hf & Hr & Hl & Hw).
  cbn [fst]. unfold bench_decode. change ((fun q : Qc => Q2R q) <$> Some r) with (Some (Q2R r)).
  by eapply (C46_corrects c false dh dw T D g rx (Q2R r) rho).
Qed.
Print Assumptions C36_code_weighted.

(** * Examples *)
(** A decoder that returns the readout bit; 12 of 60 shots are wrong. *)
Definition ex_decode (ep : option Qc) (s : string) : res Z := match s with String "1"%char _ => Ok 1 | _ => Ok 0 end.
Definition ex_counts : list (string * Z) := [("0 00000000", 48); ("1 00100000", 12)]%string.
Example C36_ex : decodable ex_decode None ex_counts /\ shots ex_counts = 60 /\ wrong ex_decode 0 None ex_counts = 12 /\
  logical_error_rate ex_decode 0 ex_counts None = Ok (qz 1 / qz 5)%Qc.
Proof.
  split; [repeat constructor; by eexists|]. split; [done|]. split; [done|]. apply ler_ok. split; [repeat constructor; by eexists|]. split; [done|].
  change (shots ex_counts) with 60. change (wrong _ _ _ _) with 12. apply Qc_is_canon. by vm_compute.
Qed.
(** A string of C26_ex has few faults. *)
Example C36_ex_few : few_faults XZZX 3 3 2 true "1 00001001 00001001 00000000".
Proof.
  pose proof C26_ex as H. cbn zeta in H. destruct H as (_ & _ & Hf & Hr & Hl & Hk & _).
  exists ex_bits, ["a0"; "a1"; "a2"]%string, "r"%string, (fun _ => false), [(0, 4)], []. cbn zeta.
  split; [symmetry; exact Hk|]. split; [done|]. split; [exact Hf|]. split; [exact Hr|]. split; [exact Hl|]. by vm_compute.
Qed.
(** A sweep of three rates with one simulated string each. *)
Definition ex_sim (k : nat) (r : Qc) : res (list (string * Z)) := Ok (match k with 0%nat => [("1"%string, 3)] | _ => [("0"%string, 5)] end).
Example C37_ex : let b := Bench (3, 3) 2 0 [] [] in
  exists b' fs', sweep np_ref ex_decode ex_sim (Some [qz 1; qz 3; qz 2]) true false b ∅ = (b', fs', Ok tt) /\ (qz 1 / qz 1)%Qc ∈ b_log b'.
Proof.
  intros b. assert (Hr0 : true = true -> readable ((∅ : files) !! b_filename b)) by done. destruct (C37_succeeds np_ref np_ref_ok ex_decode ex_sim (Some [qz 1; qz 3; qz 2]) true false b ∅) as (b' & fs' & E).
  - done.
  - intros k r _. unfold measured. destruct k as [|k]; [exists 1%Qc|exists 0%Qc]; eexists; (split; [done|]); apply ler_ok; (split; [repeat constructor; by eexists|]); (split; [done|]); apply Qc_is_canon; by vm_compute.
  - exists b', fs'. split; [done|]. destruct (C37_success np_ref np_ref_ok _ _ _ _ _ _ _ _ _ Hr0 E) as (desc & meas & Hd & _ & Hlen & Hm & _ & _ & _ & Hl & Hz & _).
    pose proof (Permutation_length Hd) as Hd3. cbn in Hd3. destruct desc as [|r desc]; [done|]. destruct meas as [|m meas]; [done|].
    destruct (Hm 0%nat r m eq_refl eq_refl) as (cts & [= <-] & Hr). apply ler_ok in Hr as (_ & _ & Hr).
    assert (m = (qz 1 / qz 1)%Qc) as ->.
    { apply (Qcmult_inj_r _ _ (qz 3)); [by vm_compute|]. change (shots _) with 3 in Hr. rewrite Hr. apply Qc_is_canon. by vm_compute. }
    assert (Hin : (r, (qz 1 / qz 1)%Qc) ∈ zip (b_phys b') (b_log b')) by (rewrite Hz; cbn; left).
    by apply elem_of_zip_r in Hin.
Qed.
(** A file with two appended points. *)
Example C38_ex : let b := Bench (3, 3) 2 0 [] [] in
  b_filename b = "d_(3, 3)_T_2.npz"%string /\
  holds b (appends np_ref [(b, (qz 2, qz 0)); (b, (qz 1, qz 1))] ∅ !! b_filename b) [(qz 2, qz 0); (qz 1, qz 1)].
Proof.
  intros b. split; [by vm_compute|]. assert (Hr0 : readable ((∅ : files) !! b_filename b)) by (by rewrite lookup_empty). destruct (C38_appends np_ref np_ref_ok [(b, (qz 2, qz 0)); (b, (qz 1, qz 1))] ∅ (b_filename b) Hr0) as [_ H]. exact (H b (qz 1, qz 1) eq_refl).
Qed.
