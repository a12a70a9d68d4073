(** Errors with a given syndrome, and the outcomes of the first round (for C74). *)
From Verif Require Import P_Code DecodeFacts RunFacts P_Decode P_EndToEnd FrameRound FrameRun FrameAcct P_CircuitHalf P_Tests.
From stdpp Require Export list.
Open Scope Z_scope.

(** ** Chains of data qubits from a boundary to a stabilizer *)
Section chain.
Context (isx : bool) (c : code) (dh dw : Z) (Hv : valid_size dh dw).
(** The qubit at distance [t] from the boundary in line [o]: a column for Z, a row for X. *)
Definition link (o t : Z) : Z := if isx then o * dw + t else t * dw + o.
Definition near (o t : Z) : Z * Z :=
  if isx then (if Z.even (o + t) then (2*o+1, 2*t-1) else (2*o-1, 2*t-1)) else (if Z.even (t + o) then (2*t-1, 2*o-1) else (2*t-1, 2*o+1)).
Definition lines : Z := if isx then dh else dw.
Lemma link_range o t : 0 <= o < lines -> 0 <= t < extent isx dh dw -> 0 <= link o t < dh * dw.
Proof. unfold lines, extent, link. destruct isx; intros; nia. Qed.
Lemma link_ends o t p : 0 <= o < lines -> 0 <= t < extent isx dh dw ->
  p = (ends isx dw (link o t)).1 \/ p = (ends isx dw (link o t)).2 <-> p = near o t \/ p = near o (t + 1).
Proof.
  intros Ho Ht. unfold lines, extent, link, near, ends in *. destruct isx.
  - assert (E1 : (o * dw + t) / dw = o) by (rewrite Z.div_add_l, Z.div_small by lia; lia).
    assert (E2 : (o * dw + t) mod dw = t) by (rewrite Z.add_comm, Z.mod_add, Z.mod_small by lia; lia).
    rewrite E1, E2. replace (o + (t + 1)) with (Z.succ (o + t)) by lia. rewrite Z.even_succ, <-Z.negb_even. cbn [xorb].
    destruct (Z.even (o + t)); cbn [negb xorb fst snd]; replace (2 * (t + 1) - 1) with (2 * t + 1) by lia; tauto.
  - assert (E1 : (t * dw + o) / dw = t) by (rewrite Z.div_add_l, Z.div_small by lia; lia).
    assert (E2 : (t * dw + o) mod dw = o) by (rewrite Z.add_comm, Z.mod_add, Z.mod_small by lia; lia).
    rewrite E1, E2. replace (t + 1 + o) with (Z.succ (t + o)) by lia. rewrite Z.even_succ, <-Z.negb_even.
    destruct (Z.even (t + o)); cbn [negb xorb fst snd]; replace (2 * (t + 1) - 1) with (2 * t + 1) by lia; tauto.
Qed.
Lemma near_level o t : level isx (near o t) = 2 * t - 1.
Proof. unfold level, near. destruct isx, (Z.even _); done. Qed.
Definition detects (k loc : Z) : bool := anti (err_at isx c dh dw k) (stabk isx c dh dw loc).
Lemma link_detects o t loc : 0 <= o < lines -> 0 <= t < extent isx dh dw -> 0 <= loc < nsyn isx dh dw ->
  detects (link o t) loc = xorb (bool_decide (coordk isx dw loc = near o t)) (bool_decide (coordk isx dw loc = near o (t + 1))).
Proof.
  intros Ho Ht Hl. pose proof (anti_err isx c dh dw (link o t) loc Hv (link_range _ _ Ho Ht) Hl) as HA. rewrite (link_ends _ _ _ Ho Ht) in HA.
  fold (detects (link o t) loc) in HA.
  assert (Hne : near o t <> near o (t + 1)) by (intros E; apply (f_equal (level isx)) in E; rewrite !near_level in E; lia).
  destruct (detects _ _), (bool_decide_reflect (coordk isx dw loc = near o t)), (bool_decide_reflect (coordk isx dw loc = near o (t + 1))); cbn; naive_solver congruence.
Qed.
Definition chain (o : Z) (m : nat) : list Z := link o <$> seqZ 0 (Z.of_nat m).
Lemma chain_detects o m loc : 0 <= o < lines -> Z.of_nat m <= extent isx dh dw -> 0 <= loc < nsyn isx dh dw ->
  xorl ((fun k => detects k loc) <$> chain o m) = xorb (bool_decide (coordk isx dw loc = near o 0)) (bool_decide (coordk isx dw loc = near o (Z.of_nat m))).
Proof.
  intros Ho Hm Hl. unfold chain. induction m as [|m IHm]; [by rewrite xorb_nilpotent|].
  replace (Z.of_nat (S m)) with (Z.of_nat m + 1) by lia.
  rewrite seqZ_app, !fmap_app, xorl_app, IHm by lia. change (seqZ (0 + Z.of_nat m) 1) with [Z.of_nat 0 + (0 + Z.of_nat m)]. change (Z.of_nat 0) with 0. cbn [fmap list_fmap]. rewrite xorl_cons, !Z.add_0_l, link_detects by (done || lia). change (xorl []) with false.
  by destruct (bool_decide (_ = near o 0)), (bool_decide (_ = near o (Z.of_nat m))), (bool_decide (_ = near o (Z.of_nat m + 1))).
Qed.
Lemma loc_chain loc : 0 <= loc < nsyn isx dh dw -> exists o m, 0 <= o < lines /\ Z.of_nat m <= extent isx dh dw /\ coordk isx dw loc = near o (Z.of_nat m).
Proof.
  intros Hl. destruct (proj1 (coordk_cell isx dh dw (coordk isx dw loc) Hv)) as [Hc Hi]; [by exists loc|].
  pose proof (size_pos dh dw Hv) as (P1 & P2 & _). revert Hc Hi. generalize (coordk isx dw loc). clear Hl. intros [y x] (C1 & C2 & C3 & C4 & C5) Hi. cbn [fst snd] in *.
  unfold inside, level, extent, near, lines in *. destruct isx; cbn [fst snd] in *.
  - exists (if decide (y = 2 * dh - 1) then dh - 1 else (y + 1) / 2), (Z.to_nat ((x + 1) / 2)). rewrite Z2Nat.id by zmod.
    case_decide as Ey; split_and!; try zmod.
    + pose proof (even_mod2 (dh - 1 + (x + 1) / 2)) as He. destruct (Z.even _); [assert ((dh - 1 + (x + 1) / 2) mod 2 = 0) by (by apply He)|assert ((dh - 1 + (x + 1) / 2) mod 2 <> 0) by (intros ?; assert (false = true) by (by apply He); done)]; f_equal; zmod.
    + pose proof (even_mod2 ((y + 1) / 2 + (x + 1) / 2)) as He. destruct (Z.even _); [assert (((y + 1) / 2 + (x + 1) / 2) mod 2 = 0) by (by apply He)|assert (((y + 1) / 2 + (x + 1) / 2) mod 2 <> 0) by (intros ?; assert (false = true) by (by apply He); done)]; f_equal; zmod.
  - exists (if decide (x = 2 * dw - 1) then dw - 1 else (x + 1) / 2), (Z.to_nat ((y + 1) / 2)). rewrite Z2Nat.id by zmod.
    case_decide as Ey; split_and!; try zmod.
    + pose proof (even_mod2 ((y + 1) / 2 + (dw - 1))) as He. destruct (Z.even _); [assert (((y + 1) / 2 + (dw - 1)) mod 2 = 0) by (by apply He)|assert (((y + 1) / 2 + (dw - 1)) mod 2 <> 0) by (intros ?; assert (false = true) by (by apply He); done)]; f_equal; zmod.
    + pose proof (even_mod2 ((y + 1) / 2 + (x + 1) / 2)) as He. destruct (Z.even _); [assert (((y + 1) / 2 + (x + 1) / 2) mod 2 = 0) by (by apply He)|assert (((y + 1) / 2 + (x + 1) / 2) mod 2 <> 0) by (intros ?; assert (false = true) by (by apply He); done)]; f_equal; zmod.
Qed.
(** Errors that invert one stabilizer only, and any set of stabilizers. *)
Lemma one_syndrome loc0 : 0 <= loc0 < nsyn isx dh dw -> exists L, (forall k, k ∈ L -> 0 <= k < dh * dw) /\
  forall loc, 0 <= loc < nsyn isx dh dw -> xorl ((fun k => detects k loc) <$> L) = bool_decide (loc = loc0).
Proof.
  intros H0. destruct (loc_chain loc0 H0) as (o & m & Ho & Hm & E). exists (chain o m). split.
  - intros k (t & -> & Ht%elem_of_seqZ)%elem_of_list_fmap. apply link_range; lia.
  - intros loc Hl. rewrite chain_detects by done. rewrite <-E. rewrite (bool_decide_eq_false_2 (coordk isx dw loc = near o 0)).
    + rewrite xorb_false_l. apply bool_decide_ext. split; [by apply (coordk_inj isx dh dw)|by intros ->].
    + intros E0. destruct (proj1 (coordk_cell isx dh dw (coordk isx dw loc) Hv)) as [_ Hi]; [by exists loc|]. rewrite E0 in Hi. unfold inside in Hi. rewrite near_level in Hi. lia.
Qed.
Lemma any_syndrome (v : Z -> bool) : exists L, (forall k, k ∈ L -> 0 <= k < dh * dw) /\
  forall loc, 0 <= loc < nsyn isx dh dw -> xorl ((fun k => detects k loc) <$> L) = v loc.
Proof.
  assert (HG : forall m : nat, Z.of_nat m <= nsyn isx dh dw -> exists L, (forall k, k ∈ L -> 0 <= k < dh * dw) /\
    forall loc, 0 <= loc < nsyn isx dh dw -> xorl ((fun k => detects k loc) <$> L) = bool_decide (loc < Z.of_nat m) && v loc).
  { induction m as [|m IHm]; intros Hm.
    - exists []. split; [intros k Hk; by apply elem_of_nil in Hk|]. intros loc Hl. rewrite bool_decide_eq_false_2 by lia. done.
    - destruct IHm as (L & HL & HD); [lia|]. destruct (one_syndrome (Z.of_nat m)) as (L1 & HL1 & HD1); [lia|].
      exists (L ++ (if v (Z.of_nat m) then L1 else [])). split.
      + intros k [Hk|Hk]%elem_of_app; [by apply HL|]. destruct (v _); [by apply HL1|by apply elem_of_nil in Hk].
      + intros loc Hl. rewrite fmap_app, xorl_app, HD by done.
        destruct (decide (loc = Z.of_nat m)) as [->|Hne].
        * rewrite bool_decide_eq_false_2, bool_decide_eq_true_2 by lia. cbn [andb]. rewrite xorb_false_l. destruct (v _); [|done]. rewrite HD1 by done. by apply bool_decide_eq_true.
        * rewrite (bool_decide_ext (loc < Z.of_nat (S m)) (loc < Z.of_nat m)) by lia.
          assert (xorl ((fun k => detects k loc) <$> (if v (Z.of_nat m) then L1 else [])) = false) as ->; [|by rewrite xorb_false_r].
          destruct (v (Z.of_nat m)); [|done]. rewrite HD1 by done. by apply bool_decide_eq_false. }
  destruct (HG (Z.to_nat (nsyn isx dh dw))) as (L & HL & HD).
  { pose proof (valid_counts dh dw Hv) as (_ & V1 & V2 & _). unfold nsyn. destruct isx; lia. }
  exists L. split; [done|]. intros loc Hl. rewrite HD by done. by rewrite bool_decide_eq_true_2 by lia.
Qed.
End chain.

(** ** The first round after a reset *)
Section first.
Context {R : Amp}.
Context (c : code) (name : string) (dh dw : Z) (Hv : valid_size dh dw).
Notation PK k := (pmap (dq name) (stabP c dh dw k)).
Lemma zside_sd isx (A B : gset Z) : zside c dh dw isx (A ⊕ B) = pmul (zside c dh dw isx A) (zside c dh dw isx B).
Proof.
  unfold zside. rewrite <-cconj_pmul. f_equal. destruct isx; apply pauli_eq; cbn; by rewrite ?sd_empty_l.
Qed.
Lemma zside_errors isx L : zside c dh dw isx (xsum ((fun k => {[k]}) <$> L)) = pprod (err_at (negb isx) c dh dw <$> L).
Proof.
  induction L as [|k L IHl].
  - unfold zside. cbn. transitivity (cconj c (even_set dh dw) pid); [by destruct isx|apply cconj_pid].
  - rewrite !fmap_cons. change (zside c dh dw isx ({[k]} ⊕ xsum ((fun k => {[k]}) <$> L)) = pmul (err_at (negb isx) c dh dw k) (pprod (err_at (negb isx) c dh dw <$> L))).
    rewrite zside_sd, IHl. f_equal. unfold zside, err_at. by destruct isx.
Qed.
Lemma xsum_data L : (forall k, k ∈ L -> 0 <= k < dh * dw) -> xsum ((fun k => {[k]}) <$> L) ⊆ data_set dh dw.
Proof.
  intros HL. induction L as [|k L IHl]; [apply empty_subseteq|]. rewrite fmap_cons. change ({[k]} ⊕ xsum ((fun k => {[k]}) <$> L) ⊆ data_set dh dw).
  assert (H1 : {[k]} ⊆ data_set dh dw) by (apply singleton_subseteq_l, elem_of_data_set, HL; by left).
  assert (H2 : xsum ((fun k => {[k]}) <$> L) ⊆ data_set dh dw) by (apply IHl; intros; apply HL; by right).
  unfold sd. set_solver.
Qed.
(** Every combination of outcomes of the stabilizers of the other type is possible. *)
Lemma first_round_any isx n T (k0 kr ka : config R) (v : Z -> bool) :
  exec (op_code c name dh dw n (reset_op isx)) k0 kr -> exec (round_instrs c name dh dw T) kr ka -> possible ka ->
  exists ka', exec (round_instrs c name dh dw T) kr ka' /\ possible ka' /\
    forall loc, 0 <= loc < P_Graph.nsyn (negb isx) dh dw -> ka'.1 (cbit name dh dw T (negb isx, loc)) = v loc.
Proof.
  intros Hre Hrd Hp. set (isy := negb isx).
  destruct (any_syndrome isy c dh dw Hv (fun loc => xorb (ka.1 (cbit name dh dw T (isy, loc))) (v loc))) as (L & HL & HD).
  set (A := xsum ((fun k => {[k]}) <$> L)). set (E := pmap (dq name) (zside c dh dw isx A)).
  pose proof (reset_spec c name dh dw Hv n isx k0 kr A (xsum_data L HL) Hre) as HS. fold E in HS.
  assert (Hf : frel (Fr E fnone) kr kr).
  { split; [intros b; cbn; by rewrite xorb_false_r|]. exists false. intros b. by apply stab_iff. }
  destruct (exec_frel _ _ _ _ _ (round_framed c name dh dw Hv T) Hf Hrd) as (ka' & He' & Hf').
  assert (Ho : synd_off name dh dw E) by (intros k _; apply off_data; intros i; apply synq_dq).
  destruct (push_round c name dh dw Hv T E fnone Ho) as (F' & EF & HF & _). rewrite EF in Hf'.
  exists ka'. split; [done|]. split; [by eapply frel_possible|].
  intros loc Hl. destruct Hf' as [Hbits _]. specialize (Hbits (cbit name dh dw T (isy, loc))). cbn [ff] in Hbits.
  assert (Hsyn : is_syn dh dw (isy, loc)) by (unfold is_syn; by destruct isy).
  rewrite HF in Hbits by done.
  assert (HA : anti E (PK (isy, loc)) = xorb (ka.1 (cbit name dh dw T (isy, loc))) (v loc)).
  { unfold E. rewrite (anti_pmap (dq name)). rewrite <-(HD loc Hl). unfold A. rewrite zside_errors. fold isy. rewrite anti_comm, anti_pprod_r, <-list_fmap_compose.
    f_equal. apply list_fmap_ext. intros ? k _. unfold compose, detects. rewrite anti_comm. f_equal. }
  rewrite HA in Hbits. destruct (ka.1 _), (ka'.1 _), (v loc); done.
Qed.
(** ... while those of the prepared type are all 0. *)
Lemma first_round_own isx n n' (k0 kr ka k2 : config R) is2 loc : syn_clean name dh dw kr.2 ->
  exec (op_code c name dh dw n' (reset_op isx)) k0 kr -> exec (op_code c name dh dw n OStab) kr ka -> exec is2 ka k2 -> possible k2 ->
  0 <= loc < P_Graph.nsyn isx dh dw -> ka.1 (cbit name dh dw (cT n + 1) (isx, loc)) = false.
Proof.
  intros Hc Hre Hrd He2 Hp Hl.
  assert (Hsyn : is_syn dh dw (isx, loc)) by (unfold is_syn; by destruct isx).
  pose proof (proj1 (round_spec _ _ _ _ Hv _ _ _ Hc Hrd) _ Hsyn) as H1.
  eapply stab_unique_later; [exact H1| |exact He2|exact Hp].
  assert (Hst : stabP c dh dw (isx, loc) = stabk isx c dh dw loc) by (by destruct isx). rewrite Hst.
  assert (Hk : exec (evs_code c name dh dw n [Call OStab]) kr ka) by (cbn [evs_code ev_code]; by rewrite app_nil_r).
  refine (run_end c name dh dw Hv isx [Call OStab] n 0 kr ka (stabk isx c dh dw loc) false (of_type_stab _ _ _ _ _ Hv Hl) _ Hk loc Hl eq_refl _); [by repeat constructor|].
  rewrite (stabk_typed c dh dw Hv isx loc Hl). eapply reset_spec; [done| |exact Hre]. by apply tset_data.
Qed.
End first.
