(** A single fault anywhere in a round of stabilizer measurements. *)
From Verif Require Export FrameCode.
From stdpp Require Export list.
Open Scope Z_scope.

Lemma hP_off s P : off s P -> hP s P = P.
Proof.
  intros [H1 H2]. apply pauli_eq; cbn [px pz hP]; rewrite H1, H2; cbn; apply sd_empty_r.
Qed.
Lemma hP_single q P : single_on q P -> single_on q (hP q P).
Proof.
  intros Hs a Ha. destruct (Hs a Ha) as [H1 H2]. cbn [px pz hP]. rewrite !mem_sd, !mem_bitset, bool_decide_eq_false_2, H1, H2, andb_false_r by done. done.
Qed.
Lemma cpar_plain s G P : mem s (pz P) = false -> cpar s G P = pmul P (Xon (bitset (anti P G) s)).
Proof. intros Hs. unfold cpar. rewrite Hs. cbn [pwhen]. by rewrite pmul_id_r. Qed.
Lemma Xon_empty : Xon (∅ : gset qubit) = pid.
Proof. done. Qed.
Lemma cpar_trivial s G P : mem s (pz P) = false -> anti P G = false -> cpar s G P = P.
Proof. intros Hs Ha. rewrite cpar_plain, Ha by done. cbn [bitset]. by rewrite Xon_empty, pmul_id_r. Qed.
Lemma single_off q q' P : single_on q P -> q' <> q -> off q' P.
Proof. intros Hs Hne. by apply Hs. Qed.

Section round.
Context (c : code) (name : string) (dh dw : Z) (Hv : valid_size dh dw).
Notation PK k := (pmap (dq name) (stabP c dh dw k)).
Notation typ isx A := (pmap (dq name) (typed c dh dw isx A)).
Notation entk := (ent_k c name dh dw).

Lemma mem_pmap_x i Q : mem (dq name i) (px (pmap (dq name) Q)) = mem i (px Q).
Proof. apply (mem_img (dq name)). Qed.
Lemma mem_pmap_z i Q : mem (dq name i) (pz (pmap (dq name) Q)) = mem i (pz Q).
Proof. apply (mem_img (dq name)). Qed.
Lemma dq_cases (a : qubit) : (exists i, a = dq name i) \/ (forall i, a <> dq name i).
Proof.
  destruct a as [s i]. destruct (decide (s = (dq name 0).1)) as [-> |Hn]; [left; by exists i|right].
  intros j E. apply Hn. exact (f_equal fst E).
Qed.
Lemma synq_cases (a : qubit) : (exists k, is_syn dh dw k /\ a = synq name k) \/ (forall k, is_syn dh dw k -> a <> synq name k).
Proof.
  destruct (decide (a ∈ synq name <$> syns dh dw)) as [Hd|Hd].
  - apply elem_of_list_fmap in Hd as (k & -> & Hk%elem_of_syns). left. eauto.
  - right. intros k Hk ->. apply Hd, elem_of_list_fmap. exists k. split; [done|]. by apply elem_of_syns.
Qed.
(** ** Rounds, as maps on errors *)
Definition pars (L : list (bool * Z)) (P : pauli qubit) : pauli qubit := foldl (fun P k => cpar (synq name k) (PK k) P) P L.
Lemma push_ent_k k P F : is_syn dh dw k -> push (entk k) (Fr P F) = Fr (cpar (synq name k) (PK k) P) F.
Proof.
  intros Hk. unfold ent_k. rewrite ent_compile by done. change (groups_of _ _) with (gsP c name dh dw k).
  rewrite push_app, push_compile.
  - rewrite gsP_pauli by done. done.
  - apply gsP_off. intros i. apply synq_dq.
  - by apply gsP_nodup.
Qed.
Lemma push_ents L P F : (forall k, k ∈ L -> is_syn dh dw k) -> push (mjoin (entk <$> L)) (Fr P F) = Fr (pars L P) F.
Proof.
  revert P. induction L as [|k L IH]; intros P HL; [done|]. change (mjoin (entk <$> k :: L)) with (entk k ++ mjoin (entk <$> L)).
  rewrite push_app, push_ent_k by (apply HL; by left). apply IH. intros; apply HL; by right.
Qed.
Lemma eprod_suffix l1 l2 : NoDup (l1 ++ l2).*2 -> forall a,
  mem a (px (eprod l2)) = bool_decide (a ∈ l2.*2) && mem a (px (eprod (l1 ++ l2))) /\
  mem a (pz (eprod l2)) = bool_decide (a ∈ l2.*2) && mem a (pz (eprod (l1 ++ l2))).
Proof.
  intros Hnd a. rewrite fmap_app in Hnd. apply NoDup_app in Hnd as (_ & Hd & _). case_bool_decide as Ha; cbn [andb].
  - assert (Ho : off a (eprod l1)) by (apply off_eprod; intros H; by eapply Hd). destruct Ho as [H1 H2].
    rewrite eprod_app. cbn [px pz pmul]. by rewrite !mem_sd, H1, H2, !xorb_false_l.
  - by destruct (off_eprod a l2 Ha) as [-> ->].
Qed.
(** A suffix of a plaquette circuit measures a part of the stabilizer. *)
Lemma push_ent_suffix k r : is_syn dh dw k -> r `suffix_of` entk k ->
  exists B1 B2 t, B1 ++ B2 ≡ₚ plaq_data (geomP dh dw k) /\
    forall P F, push r (Fr P F) = Fr (cpar (synq name k) (typ k.1 (list_to_set B2)) (if t : bool then hP (synq name k) P else P)) F.
Proof.
  intros Hk Hr. unfold ent_k in Hr. rewrite ent_compile in Hr by done. change (groups_of _ _) with (gsP c name dh dw k) in Hr.
  assert (Hs : synq name k ∉ gqubits (gsP c name dh dw k)) by (apply gsP_off; intros i; apply synq_dq).
  assert (Hnd : NoDup (els (gsP c name dh dw k)).*2) by (rewrite els_snd; by apply gsP_nodup).
  assert (Hl : exists l2 t, l2 `suffix_of` els (gsP c name dh dw k) /\ forall P F, push r (Fr P F) = Fr (pares (synq name k) l2 (if t : bool then hP (synq name k) P else P)) F).
  { apply suffix_app_cases in Hr as [Hr|(r1 & -> & Hr)].
    - exists [], false. split; [apply suffix_nil|]. intros P F. apply suffix_singleton_inv in Hr as [-> | ->]; done.
    - destruct (push_compile_suffix _ _ _ Hr Hs) as (l2 & t & Hl & HP). exists l2, t. split; [done|]. intros P F. by rewrite push_app, HP. }
  destruct Hl as (l2 & t & [l1 Hl] & HP). pose proof (gsP_qubits c name dh dw k) as Hq. rewrite <-els_snd, Hl in Hq.
  assert (HB : exists B, (l1 ++ l2).*2 = dq name <$> B /\ B ≡ₚ plaq_data (geomP dh dw k)).
  { apply (Permutation_map_inv (dq name)) in Hq as (B & EB & HB). exists B. split; [exact EB|done]. }
  destruct HB as (B & EB & HB). rewrite fmap_app in EB. symmetry in EB. apply fmap_app_inv in EB as (B1 & B2 & EB1 & EB2 & ->).
  exists B1, B2, t. split; [done|]. intros P F. rewrite HP. f_equal.
  rewrite Hl, fmap_app in Hnd. assert (Hnd2 := Hnd). apply NoDup_app in Hnd2 as (_ & _ & Hnd2).
  rewrite pares_prod; [|rewrite <-els_snd, Hl, fmap_app in Hs; set_solver|done]. f_equal.
  rewrite <-fmap_app in Hnd. pose proof (eprod_suffix l1 l2 Hnd) as He. rewrite <-Hl, eprod_els, gsP_pauli, stabP_typed in He by done.
  assert (Hset : typed c dh dw k.1 (tset dh dw k) = pmul (typed c dh dw k.1 (list_to_set B1)) (typed c dh dw k.1 (list_to_set B2))).
  { rewrite <-typed_sd. f_equal. unfold tset. assert (HndB : NoDup (B1 ++ B2)) by (rewrite HB; by apply plaq_nodup).
    apply NoDup_app in HndB as (_ & Hd & _). rewrite sd_disj by set_solver. rewrite <-list_to_set_app_L. apply set_eq. intros a. rewrite !elem_of_list_to_set. by rewrite HB. }
  assert (HndB : NoDup (B1 ++ B2)) by (rewrite HB; by apply plaq_nodup). apply NoDup_app in HndB as (_ & Hd & _).
  apply pauli_eq; apply mem_ext; intros a; destruct (He a) as [Hx Hz].
  - rewrite Hx, EB2. destruct (decide (a ∈ dq name <$> B2)) as [Ha|Ha]; [rewrite bool_decide_eq_true_2 by done|rewrite bool_decide_eq_false_2 by done]; cbn [andb].
    + apply elem_of_list_fmap in Ha as (i & -> & Hi). rewrite !mem_pmap_x, Hset. cbn [px pmul]. rewrite mem_sd.
      assert (H1 : i ∉ (list_to_set B1 : gset Z)) by (rewrite elem_of_list_to_set; intros H1; by eapply Hd).
      destruct (mem_typed_off c dh dw k.1 (list_to_set B1) i H1) as [-> _]. apply xorb_false_l.
    + symmetry. destruct (dq_cases a) as [[i ->]|Hn].
      * rewrite mem_pmap_x. apply mem_typed_off. rewrite elem_of_list_to_set. intros H. apply Ha, elem_of_list_fmap. eauto.
      * apply (off_data name a (typed c dh dw k.1 (list_to_set B2))). done.
  - rewrite Hz, EB2. destruct (decide (a ∈ dq name <$> B2)) as [Ha|Ha]; [rewrite bool_decide_eq_true_2 by done|rewrite bool_decide_eq_false_2 by done]; cbn [andb].
    + apply elem_of_list_fmap in Ha as (i & -> & Hi). rewrite !mem_pmap_z, Hset. cbn [pz pmul]. rewrite mem_sd.
      assert (H1 : i ∉ (list_to_set B1 : gset Z)) by (rewrite elem_of_list_to_set; intros H1; by eapply Hd).
      destruct (mem_typed_off c dh dw k.1 (list_to_set B1) i H1) as [_ ->]. apply xorb_false_l.
    + symmetry. destruct (dq_cases a) as [[i ->]|Hn].
      * rewrite mem_pmap_z. apply mem_typed_off. rewrite elem_of_list_to_set. intros H. apply Ha, elem_of_list_fmap. eauto.
      * apply (off_data name a (typed c dh dw k.1 (list_to_set B2))). done.
Qed.

Lemma anti_Xsyn k u Q : anti (Xon (bitset u (synq name k))) (pmap (dq name) Q) = false.
Proof. apply anti_off_Xs, off_data. intros i. apply synq_dq. Qed.
Lemma anti_mul_Xsyn P k u Q : anti (pmul P (Xon (bitset u (synq name k)))) (pmap (dq name) Q) = anti P (pmap (dq name) Q).
Proof. by rewrite anti_pmul_l, anti_Xsyn, xorb_false_r. Qed.
(** Without phase errors on the syndrome qubits to come. *)
Lemma pars_plain L P : NoDup L -> (forall k, k ∈ L -> mem (synq name k) (pz P) = false) ->
  (forall k, k ∈ L -> mem (synq name k) (px (pars L P)) = xorb (mem (synq name k) (px P)) (anti P (PK k))) /\
  (forall a, (forall k, k ∈ L -> a <> synq name k) -> mem a (px (pars L P)) = mem a (px P)) /\
  pz (pars L P) = pz P /\ (forall Q, anti (pars L P) (pmap (dq name) Q) = anti P (pmap (dq name) Q)).
Proof.
  revert P. induction L as [|k L IH]; intros P Hnd Hz.
  { split_and!; try done. intros k Hk. by apply elem_of_nil in Hk. }
  apply NoDup_cons in Hnd as [Hk Hnd]. cbn [pars foldl]. change (foldl _ ?p L) with (pars L p).
  rewrite cpar_plain by (apply Hz; by left). set (P1 := pmul P (Xon (bitset (anti P (PK k)) (synq name k)))).
  assert (Hz1 : pz P1 = pz P) by (cbn; apply sd_empty_r).
  destruct (IH P1 Hnd) as (H1 & H2 & H3 & H4).
  { intros k' Hk'. rewrite Hz1. apply Hz. by right. }
  assert (Hx1 : forall a, mem a (px P1) = xorb (mem a (px P)) (anti P (PK k) && bool_decide (a = synq name k))).
  { intros a. unfold P1. cbn [px pmul Xon]. by rewrite mem_sd, mem_bitset. }
  assert (HA : forall Q, anti P1 (pmap (dq name) Q) = anti P (pmap (dq name) Q)) by (intros Q; apply anti_mul_Xsyn).
  split_and!.
  - intros k' [-> |Hk']%elem_of_cons.
    + rewrite H2 by (intros k' Hk' E; apply synq_inj in E as ->; done). rewrite Hx1, bool_decide_eq_true_2, andb_true_r by done. done.
    + rewrite H1 by done. rewrite Hx1, HA, bool_decide_eq_false_2, andb_false_r, xorb_false_r; [done|].
      intros E. apply synq_inj in E as ->. done.
  - intros a Ha. rewrite H2 by (intros k' Hk'; apply Ha; by right). rewrite Hx1, bool_decide_eq_false_2, andb_false_r, xorb_false_r; [done|].
    apply Ha. by left.
  - by rewrite H3.
  - intros Q. by rewrite H4.
Qed.
Lemma pars_app L1 L2 P : pars (L1 ++ L2) P = pars L2 (pars L1 P).
Proof. apply foldl_app. Qed.
Lemma pars_trivial L P : (forall k, k ∈ L -> mem (synq name k) (pz P) = false /\ anti P (PK k) = false) -> pars L P = P.
Proof.
  induction L as [|k L IH]; intros Hz; [done|]. cbn [pars foldl]. change (foldl _ ?p L) with (pars L p).
  destruct (Hz k ltac:(by left)). rewrite cpar_trivial by done. apply IH. intros; apply Hz; by right.
Qed.

(** ** Measurements and resets *)
Definition meas_of (T : Z) (M : list (bool * Z)) : list instr := (fun k => IMeas (synq name k) (cbit name dh dw T k)) <$> M.
Definition reset_of (M : list (bool * Z)) : list instr := (fun k => IReset (synq name k)) <$> M.
Lemma round_instrs_of T : round_instrs c name dh dw T =
  mjoin (entk <$> syns dh dw) ++ meas_of T (syn_order dh dw) ++ reset_of (syn_order dh dw) ++ [IBarrier].
Proof.
  unfold round_instrs. rewrite lat_stabs_syns, ent_instrs_eq, meas_instrs_eq, reset_instrs_eq. unfold meas_of, reset_of.
  by rewrite <-!list_fmap_compose.
Qed.
Lemma push_meas T M P F : NoDup M -> (forall k, k ∈ M -> is_syn dh dw k) ->
  exists F', push (meas_of T M) (Fr P F) = Fr P F' /\
    (forall k, k ∈ M -> F' (cbit name dh dw T k) = mem (synq name k) (px P)) /\
    (forall b, (forall k, k ∈ M -> b <> cbit name dh dw T k) -> F' b = F b).
Proof.
  revert F. induction M as [|k M IH]; intros F Hnd HM.
  { exists F. split_and!; try done. intros k Hk. by apply elem_of_nil in Hk. }
  apply NoDup_cons in Hnd as [Hk Hnd]. unfold meas_of. rewrite fmap_cons, push_cons. change (_ <$> M) with (meas_of T M). cbn [push1 fp ff].
  destruct (IH (cupd F (cbit name dh dw T k) (mem (synq name k) (px P))) Hnd) as (F' & E & H1 & H2); [intros; apply HM; by right|].
  exists F'. split; [done|]. split.
  - intros k' [-> |Hk']%elem_of_cons; [|by apply H1]. rewrite H2.
    + unfold cupd. by rewrite bool_decide_eq_true_2.
    + intros k' Hk' E'. apply cbit_inj in E' as ->; [done|apply HM; by left|apply HM; by right].
  - intros b Hb. rewrite H2 by (intros; apply Hb; by right). unfold cupd. rewrite bool_decide_eq_false_2; [done|]. apply Hb. by left.
Qed.
Lemma push_reset M P F : exists P', push (reset_of M) (Fr P F) = Fr P' F /\
  (forall k, k ∈ M -> off (synq name k) P') /\
  (forall a, (forall k, k ∈ M -> a <> synq name k) -> mem a (px P') = mem a (px P) /\ mem a (pz P') = mem a (pz P)) /\
  (forall a, off a P -> off a P').
Proof.
  revert P. induction M as [|k M IH]; intros P.
  { exists P. split_and!; try done. intros k Hk. by apply elem_of_nil in Hk. }
  unfold reset_of. rewrite fmap_cons, push_cons. change (_ <$> M) with (reset_of M). cbn [push1 fp ff].
  destruct (IH (dropP (synq name k) P)) as (P' & E & H1 & H2 & H3). exists P'.
  assert (Hd : forall a, off a P -> off a (dropP (synq name k) P)).
  { intros a [Ha1 Ha2]. split; rewrite ?mem_dropP_x, ?mem_dropP_z, ?Ha1, ?Ha2; apply andb_false_r. }
  split; [done|]. split_and!.
  - intros k' [-> |Hk']%elem_of_cons; [|by apply H1]. apply H3. split; rewrite ?mem_dropP_x, ?mem_dropP_z, bool_decide_eq_true_2; done.
  - intros a Ha. destruct (H2 a) as [-> ->]; [intros; apply Ha; by right|]. rewrite mem_dropP_x, mem_dropP_z, bool_decide_eq_false_2; [done|].
    apply Ha. by left.
  - intros a Ha. by apply H3, Hd.
Qed.
Lemma anti_data_agree P P' Q : (forall a, (forall k, is_syn dh dw k -> a <> synq name k) -> mem a (px P') = mem a (px P) /\ mem a (pz P') = mem a (pz P)) ->
  anti P' (pmap (dq name) Q) = anti P (pmap (dq name) Q).
Proof.
  intros Ha. apply anti_agree. intros a. destruct (dq_cases a) as [[i ->]|Hn]; [right|left; by apply off_data].
  apply Ha. intros k _ E. symmetry in E. by apply synq_dq in E.
Qed.
(** The end of a round. *)
Lemma push_tail T M P : M `suffix_of` syn_order dh dw ->
  exists P' F', push (meas_of T M ++ reset_of (syn_order dh dw) ++ [IBarrier]) (Fr P fnone) = Fr P' F' /\
    synd_off name dh dw P' /\ (forall Q, anti P' (pmap (dq name) Q) = anti P (pmap (dq name) Q)) /\
    (forall k, is_syn dh dw k -> F' (cbit name dh dw T k) = bool_decide (k ∈ M) && mem (synq name k) (px P)) /\
    (synd_off name dh dw P -> P' = P).
Proof.
  intros [M1 HM]. pose proof (syn_order_NoDup dh dw) as Hnd. pose proof (syn_order_elem c name dh dw) as Hel. rewrite HM in Hnd. apply NoDup_app in Hnd as (_ & _ & Hnd).
  assert (HMs : forall k, k ∈ M -> is_syn dh dw k) by (intros k Hk; apply Hel; rewrite HM; apply elem_of_app; by right).
  destruct (push_meas T M P fnone Hnd HMs) as (F' & E1 & H1 & H2). destruct (push_reset (syn_order dh dw) P F') as (P' & E2 & H3 & H4 & H5).
  exists P', F'. rewrite !push_app, E1, E2. split; [done|]. split_and!.
  - intros k Hk. apply H3. by apply Hel.
  - intros Q. apply anti_data_agree. intros a Ha. apply H4. intros k Hk. by apply Ha, Hel.
  - intros k Hk. case_bool_decide as Hd; [by apply H1|]. apply H2. intros k' Hk' E. apply cbit_inj in E as ->; [done|done|by apply HMs].
  - intros Ho. apply pauli_eq; apply mem_ext; intros a; (destruct (synq_cases a) as [(k & Hk & ->)|Hn];
      [destruct (H3 k) as [E5 E6]; [by apply Hel|]; destruct (Ho k Hk) as [E7 E8]; congruence|apply H4; intros k Hk; by apply Hn, Hel]).
Qed.
(** A round seen by an error that is off the syndrome qubits. *)
Lemma push_round T P F : synd_off name dh dw P -> exists F', push (round_instrs c name dh dw T) (Fr P F) = Fr P F' /\
  (forall k, is_syn dh dw k -> F' (cbit name dh dw T k) = anti P (PK k)) /\
  (forall b, (forall k, is_syn dh dw k -> b <> cbit name dh dw T k) -> F' b = F b).
Proof.
  intros Ho. rewrite round_instrs_of, push_app, push_ents by (intros k Hk; by apply elem_of_syns).
  destruct (pars_plain (syns dh dw) P (syns_NoDup dh dw)) as (H1 & H2 & H3 & H4); [intros k Hk%elem_of_syns; by apply Ho|].
  assert (Hel := syn_order_elem c name dh dw).
  destruct (push_meas T (syn_order dh dw) (pars (syns dh dw) P) F) as (F' & E1 & H5 & H6); [apply syn_order_NoDup|intros k Hk; by apply Hel|].
  destruct (push_reset (syn_order dh dw) (pars (syns dh dw) P) F') as (P' & E2 & H7 & H8 & H9).
  exists F'. rewrite !push_app, E1, E2. cbn [push foldl push1]. split_and!.
  - f_equal. apply pauli_eq; apply mem_ext; intros a; (destruct (synq_cases a) as [(k & Hk & ->)|Hn];
      [destruct (H7 k) as [E5 E6]; [by apply Hel|]; destruct (Ho k Hk) as [E7 E8]; congruence|]).
    + destruct (H8 a) as [-> _]; [intros k Hk; by apply Hn, Hel|]. apply H2. intros k Hk. by apply Hn, elem_of_syns.
    + destruct (H8 a) as [_ ->]; [intros k Hk; by apply Hn, Hel|]. by rewrite H3.
  - intros k Hk. rewrite H5 by (by apply Hel). rewrite H1 by (by apply elem_of_syns). destruct (Ho k Hk) as [-> _]. apply xorb_false_l.
  - intros b Hb. apply H6. intros k Hk. by apply Hb, Hel.
Qed.
Lemma round_suffix T r : r `suffix_of` round_instrs c name dh dw T ->
  (exists L1 k L2 r1, syns dh dw = L1 ++ k :: L2 /\ r1 `suffix_of` entk k /\
     r = r1 ++ mjoin (entk <$> L2) ++ meas_of T (syn_order dh dw) ++ reset_of (syn_order dh dw) ++ [IBarrier]) \/
  (exists M, M `suffix_of` syn_order dh dw /\ r = meas_of T M ++ reset_of (syn_order dh dw) ++ [IBarrier]) \/
  (exists M, M `suffix_of` syn_order dh dw /\ r = reset_of M ++ [IBarrier]) \/ r = [].
Proof.
  rewrite round_instrs_of. intros Hr. apply suffix_app_cases in Hr as [Hr|(r1 & -> & Hr)].
  - apply suffix_app_cases in Hr as [Hr|(r1 & -> & Hr)].
    + right. right. apply suffix_app_cases in Hr as [Hr|(r1 & -> & Hr)].
      * apply suffix_singleton_inv in Hr as [-> | ->]; [by right|]. left. exists []. split; [apply suffix_nil|done].
      * apply suffix_fmap_inv in Hr as (M & -> & HM). left. by exists M.
    + apply suffix_fmap_inv in Hr as (M & -> & HM). right. left. by exists M.
  - apply suffix_mjoin_inv in Hr as [-> |(L1 & k & L2 & r1' & HL & -> & Hr)].
    + right. left. by exists (syn_order dh dw).
    + left. exists L1, k, L2, r1'. split_and!; [done|done|]. by rewrite <-app_assoc.
Qed.
End round.
