(** Property C83: a quarter turn of the h x w lattice is the w x h lattice with X and Z exchanged,
    for both codes. *)
From Verif Require Import F2 SpecCode PauliFacts GeometryFacts CodeFacts SyndromeFacts DistanceFacts.
From stdpp Require Export list.
Open Scope Z_scope.

(** The qubit in row i, column j goes to row j, column h - 1 - i of the lattice with w rows. *)
Definition turn (dh dw k : Z) : Z := (k mod dw) * dh + (dh - 1 - k / dw).
(** Turned, and X and Z exchanged. *)
Definition turn_pauli (dh dw : Z) (P : pauli Z) : pauli Z := Pauli (set_map (turn dh dw) (pz P)) (set_map (turn dh dw) (px P)).

Lemma elem_of_data dh dw k : k ∈ data_set dh dw <-> 0 <= k < dh * dw.
Proof. unfold data_set. rewrite elem_of_list_to_set, elem_of_seqZ. lia. Qed.
Lemma turn_in dh dw k : 0 < dh -> 0 < dw -> k ∈ data_set dh dw ->
  turn dh dw k ∈ data_set dw dh /\ turn dh dw k / dh = k mod dw /\ turn dh dw k mod dh = dh - 1 - k / dw.
Proof.
  intros Hh Hw Hk%elem_of_data. pose proof (Z.mod_pos_bound k dw Hw). pose proof (Z.div_mod k dw ltac:(lia)).
  assert (0 <= k / dw < dh) by nia. unfold turn. rewrite elem_of_data.
  assert (E : (k mod dw * dh + (dh - 1 - k / dw)) / dh = k mod dw) by (symmetry; apply (Z.div_unique _ _ _ (dh - 1 - k / dw)); [lia|nia]).
  split; [nia|]. split; [done|]. rewrite Z.mod_eq, E by lia. nia.
Qed.
Lemma turn_surj dh dw k' : 0 < dh -> 0 < dw -> k' ∈ data_set dw dh -> exists k, k ∈ data_set dh dw /\ turn dh dw k = k'.
Proof.
  intros Hh Hw Hk%elem_of_data. pose proof (Z.mod_pos_bound k' dh Hh). pose proof (Z.div_mod k' dh ltac:(lia)).
  assert (0 <= k' / dh < dw) by nia. set (k := (dh - 1 - k' mod dh) * dw + k' / dh). exists k.
  assert (E : k / dw = dh - 1 - k' mod dh) by (symmetry; apply (Z.div_unique _ _ _ (k' / dh)); [lia|unfold k; nia]).
  assert (E' : k mod dw = k' / dh) by (rewrite Z.mod_eq, E by lia; unfold k; nia).
  split; [apply elem_of_data; unfold k; nia|]. unfold turn. rewrite E, E'. lia.
Qed.
Lemma turn_twice dh dw k : 0 < dh -> 0 < dw -> k ∈ data_set dh dw -> turn dw dh (turn dh dw k) = dh * dw - 1 - k.
Proof.
  intros Hh Hw Hk. destruct (turn_in dh dw k Hh Hw Hk) as (_ & E1 & E2). unfold turn at 1. rewrite E1, E2.
  pose proof (Z.div_mod k dw ltac:(lia)). nia.
Qed.
Lemma turn_eq dh dw (A B : gset Z) : 0 < dh -> 0 < dw -> A ⊆ data_set dh dw -> B ⊆ data_set dw dh ->
  (forall k, k ∈ data_set dh dw -> k ∈ A <-> turn dh dw k ∈ B) -> set_map (turn dh dw) A = B.
Proof.
  intros Hh Hw HA HB H. apply set_eq. intros k'. rewrite elem_of_map. split.
  - intros (k & -> & Hk). by apply H; [apply HA|].
  - intros Hk. destruct (turn_surj dh dw k' Hh Hw (HB _ Hk)) as (k & Hd & <-). exists k. split; [done|]. by apply H.
Qed.
Lemma box_data dh dw r c : 0 < dw -> box dh dw r c ⊆ data_set dh dw.
Proof. intros Hw k Hk. apply elem_of_box in Hk; [|done]. apply Hk. Qed.
Lemma turn_box dh dw r c : 0 < dh -> 0 < dw -> set_map (turn dh dw) (box dh dw r c) = box dw dh c (dh - 2 - r).
Proof.
  intros Hh Hw. apply turn_eq; [done..|by apply box_data|by apply box_data|]. intros k Hk.
  destruct (turn_in dh dw k Hh Hw Hk) as (Hd & E1 & E2). rewrite !elem_of_box by done. rewrite E1, E2. intuition lia.
Qed.
Lemma turn_empty dh dw : set_map (turn dh dw) (∅ : gset Z) = (∅ : gset Z).
Proof. apply set_eq. intros k. rewrite elem_of_map. set_solver. Qed.
Lemma turn_corner dh dw r c : Z.odd dh = true -> x_corner dh dw r c <-> z_corner dw dh c (dh - 2 - r).
Proof. intros (h & ->)%Zodd_bool_iff%Zodd_ex. unfold x_corner, z_corner. pose proof (Z.div_mod (r + c) 2 ltac:(lia)). pose proof (Z.mod_pos_bound (r + c) 2 ltac:(lia)).
  pose proof (Z.div_mod (c + (2 * h + 1 - 2 - r)) 2 ltac:(lia)). pose proof (Z.mod_pos_bound (c + (2 * h + 1 - 2 - r)) 2 ltac:(lia)). intuition lia. Qed.
Lemma turn_corner' dh dw r c : Z.odd dh = true -> z_corner dh dw r c <-> x_corner dw dh c (dh - 2 - r).
Proof. intros (h & ->)%Zodd_bool_iff%Zodd_ex. unfold x_corner, z_corner. pose proof (Z.div_mod (r + c) 2 ltac:(lia)). pose proof (Z.mod_pos_bound (r + c) 2 ltac:(lia)).
  pose proof (Z.div_mod (c + (2 * h + 1 - 2 - r)) 2 ltac:(lia)). pose proof (Z.mod_pos_bound (c + (2 * h + 1 - 2 - r)) 2 ltac:(lia)). intuition lia. Qed.

(** The stabilizers of XXZZ by corners. *)
Lemma stabs_corner dh dw P : valid_size dh dw -> P ∈ stabilizers XXZZ dh dw <->
  exists r c, (x_corner dh dw r c /\ P = Xon (box dh dw r c)) \/ (z_corner dh dw r c /\ P = Zon (box dh dw r c)).
Proof.
  intros Hv. rewrite elem_of_stabilizers. split.
  - intros [(loc & Hl & ->)|(loc & Hl & ->)].
    + exists (xr dw loc), (xc dw loc). left. split; [by apply x_loc_corner|by apply stab_x_XXZZ].
    + exists (zr dw loc), (zc dw loc). right. split; [by apply z_loc_corner|by apply stab_z_XXZZ].
  - intros (r & c & [[Hc ->]|[Hc ->]]).
    + left. destruct (corner_x_loc _ _ _ _ Hv Hc) as (Hl & Hr & Hcc). exists (xloc dw r c). split; [done|]. by rewrite stab_x_XXZZ, Hr, Hcc.
    + right. destruct (corner_z_loc _ _ _ _ Hv Hc) as (Hl & Hr & Hcc). exists (zloc dw r c). split; [done|]. by rewrite stab_z_XXZZ, Hr, Hcc.
Qed.
Definition on_data (dh dw : Z) (P : pauli Z) : Prop := px P ⊆ data_set dh dw /\ pz P ⊆ data_set dh dw.
Lemma stabs_on_data c dh dw P : valid_size dh dw -> P ∈ stabilizers c dh dw -> on_data dh dw P.
Proof.
  intros Hv. assert (Hw : 0 < dw) by (unfold valid_size in Hv; lia).
  assert (HX : forall P, P ∈ stabilizers XXZZ dh dw -> on_data dh dw P).
  { intros Q HQ. apply (stabs_corner dh dw Q Hv) in HQ as (r & cc & [[_ ->]|[_ ->]]); split; cbn [Xon Zon px pz]; try apply empty_subseteq; by apply box_data. }
  destruct c; [apply HX|]. rewrite stabilizers_XZZX by done. intros (Q & -> & HQ)%elem_of_list_fmap. destruct (HX Q HQ). unfold on_data, hconj. cbn [px pz]. set_solver.
Qed.
Lemma turn_even dh dw k : valid_size dh dw -> k ∈ data_set dh dw -> k ∈ even_set dh dw <-> turn dh dw k ∈ even_set dw dh.
Proof.
  intros (Hh & Hw & Oh & Ow) Hk. destruct (turn_in dh dw k Hh Hw Hk) as (Hd & _ & _). unfold even_set. rewrite !elem_of_filter.
  assert (E : Z.even (turn dh dw k) = Z.even k); [|rewrite E; tauto].
  rewrite (Z.div_mod k dw) at 2 by lia. unfold turn. rewrite !Z.even_add, !Z.even_sub, !Z.even_mul. rewrite <-!Z.negb_odd, Oh, Ow. cbn.
  by destruct (Z.odd (k mod dw)), (Z.odd (k / dw)).
Qed.
Lemma turn_hconj dh dw P : valid_size dh dw -> on_data dh dw P ->
  turn_pauli dh dw (hconj (even_set dh dw) P) = hconj (even_set dw dh) (turn_pauli dh dw P).
Proof.
  intros Hv [HX HZ]. pose proof Hv as (Hh & Hw & _).
  assert (M : forall A k, A ⊆ data_set dh dw -> k ∈ data_set dh dw -> turn dh dw k ∈ (set_map (turn dh dw) A : gset Z) <-> k ∈ A).
  { intros A k HA Hk. rewrite elem_of_map. split; [|by exists k]. intros (j & E & Hj).
    assert (EE := turn_twice dh dw k Hh Hw Hk). rewrite E, (turn_twice dh dw j Hh Hw (HA _ Hj)) in EE. by replace k with j by lia. }
  assert (I : forall A, A ⊆ data_set dh dw -> (set_map (turn dh dw) A : gset Z) ⊆ data_set dw dh).
  { intros A HA k' (k & -> & Hk)%elem_of_map. apply turn_in; auto. }
  unfold turn_pauli, hconj. cbn [px pz]. f_equal.
  - apply turn_eq; [done|done|set_solver|pose proof (I _ HX); pose proof (I _ HZ); set_solver|]. intros k Hk.
    pose proof (turn_even dh dw k Hv Hk). rewrite !elem_of_union, !elem_of_difference, !elem_of_intersection, !M by done. tauto.
  - apply turn_eq; [done|done|set_solver|pose proof (I _ HX); pose proof (I _ HZ); set_solver|]. intros k Hk.
    pose proof (turn_even dh dw k Hv Hk). rewrite !elem_of_union, !elem_of_difference, !elem_of_intersection, !M by done. tauto.
Qed.
Lemma valid_turn dh dw : valid_size dh dw -> valid_size dw dh.
Proof. unfold valid_size. tauto. Qed.

(** The stabilizers of the turned lattice are the turned stabilizers. *)
Theorem C83_stabilizers c dh dw Q : valid_size dh dw ->
  Q ∈ stabilizers c dw dh <-> exists P, P ∈ stabilizers c dh dw /\ Q = turn_pauli dh dw P.
Proof.
  intros Hv. pose proof Hv as (Hh & Hw & Oh & Ow). pose proof (valid_turn _ _ Hv) as Hv'.
  assert (TX : forall r cc, turn_pauli dh dw (Xon (box dh dw r cc)) = Zon (box dw dh cc (dh - 2 - r))).
  { intros r cc. unfold turn_pauli. cbn [Xon px pz]. by rewrite turn_empty, turn_box. }
  assert (TZ : forall r cc, turn_pauli dh dw (Zon (box dh dw r cc)) = Xon (box dw dh cc (dh - 2 - r))).
  { intros r cc. unfold turn_pauli. cbn [Zon px pz]. by rewrite turn_empty, turn_box. }
  assert (HX : forall Q, Q ∈ stabilizers XXZZ dw dh <-> exists P, P ∈ stabilizers XXZZ dh dw /\ Q = turn_pauli dh dw P).
  { clear Q. intros Q. rewrite stabs_corner by done. split.
    - intros (r & cc & [[Hc ->]|[Hc ->]]).
      + exists (Zon (box dh dw (dh - 2 - cc) r)). rewrite TZ. replace (dh - 2 - (dh - 2 - cc)) with cc by lia. split; [|done].
        apply stabs_corner; [done|]. eexists _, _. right. split; [|reflexivity]. apply turn_corner'; [done|]. by replace (dh - 2 - (dh - 2 - cc)) with cc by lia.
      + exists (Xon (box dh dw (dh - 2 - cc) r)). rewrite TX. replace (dh - 2 - (dh - 2 - cc)) with cc by lia. split; [|done].
        apply stabs_corner; [done|]. eexists _, _. left. split; [|reflexivity]. apply turn_corner; [done|]. by replace (dh - 2 - (dh - 2 - cc)) with cc by lia.
    - intros (P & HP & ->). apply (stabs_corner dh dw P Hv) in HP as (r & cc & [[Hc ->]|[Hc ->]]).
      + exists cc, (dh - 2 - r). right. split; [by apply turn_corner|apply TX].
      + exists cc, (dh - 2 - r). left. split; [by apply turn_corner'|apply TZ]. }
  destruct c; [apply HX|]. rewrite !stabilizers_XZZX by done. split.
  - intros (Q' & -> & HQ)%elem_of_list_fmap. apply HX in HQ as (P & HP & ->). exists (hconj (even_set dh dw) P).
    split; [by apply elem_of_list_fmap_1|]. symmetry. apply turn_hconj; [done|]. by apply (stabs_on_data XXZZ).
  - intros (P' & HP & ->). apply elem_of_list_fmap in HP as (P & -> & HP). rewrite turn_hconj; [|done|by apply (stabs_on_data XXZZ)].
    apply elem_of_list_fmap_1, HX. eauto.
Qed.
Print Assumptions C83_stabilizers.
(** Logical X becomes logical Z. *)
Theorem C83_logical c dh dw : valid_size dh dw -> turn_pauli dh dw (log_x c dh dw) = log_z c dw dh.
Proof.
  intros Hv. pose proof Hv as (Hh & Hw & Oh & Ow).
  assert (E : turn_pauli dh dw (Xon (col_set dh dw 0)) = Zon (row_set dw dh 0)).
  { unfold turn_pauli. cbn [Xon px pz]. rewrite turn_empty. unfold Zon. f_equal. apply turn_eq; [done|done| | |].
    - intros k Hk. apply elem_of_filter in Hk. apply Hk.
    - intros k Hk. apply elem_of_filter in Hk. apply Hk.
    - intros k Hk. destruct (turn_in dh dw k Hh Hw Hk) as (Hd & E1 & E2). unfold col_set, row_set. rewrite !elem_of_filter, E1. tauto. }
  destruct c; [exact E|]. unfold log_x, log_z. rewrite <-E. apply turn_hconj; [done|]. split; cbn [Xon px pz]; [|apply empty_subseteq].
  intros k Hk. apply elem_of_filter in Hk. apply Hk.
Qed.
Print Assumptions C83_logical.
(** What parse_readout reports: an X event at (y, x) of the one is a Z event at (x, 2(h-1) - y) of
    the other (coordinates doubled). *)
Theorem C83_places dh dw y x : valid_size dh dw ->
  (exists loc, 0 <= loc < num_syn_x dh dw /\ coord_x dw loc = (y, x)) <->
  (exists loc, 0 <= loc < num_syn_z dw dh /\ coord_z dh loc = (x, 2 * (dh - 1) - y)).
Proof.
  intros Hv. pose proof Hv as (Hh & Hw & Oh & Ow). pose proof (valid_turn _ _ Hv) as Hv'. split.
  - intros (loc & Hl & E). rewrite (coord_x_corner dh) in E by done. injection E as <- <-.
    destruct (coord_z_surj dw dh (xc dw loc) (dh - 2 - xr dw loc) Hv') as (l' & Hl' & E).
    { apply turn_corner; [done|]. by apply x_loc_corner. }
    exists l'. split; [done|]. rewrite E. f_equal. lia.
  - intros (loc & Hl & E). rewrite (coord_z_corner dw) in E by done. injection E as E1 E2.
    destruct (coord_x_surj dh dw (dh - 2 - zc dh loc) (zr dh loc) Hv) as (l' & Hl' & E).
    { apply turn_corner; [done|]. replace (dh - 2 - (dh - 2 - zc dh loc)) with (zc dh loc) by lia. by apply z_loc_corner. }
    exists l'. split; [done|]. rewrite E. f_equal; lia.
Qed.
Print Assumptions C83_places.
(** Twice: numbering the qubits backwards maps each code to itself. *)
Theorem C83_half_turn c dh dw P : valid_size dh dw -> P ∈ stabilizers c dh dw ->
  Pauli (set_map (fun k => dh * dw - 1 - k) (px P)) (set_map (fun k => dh * dw - 1 - k) (pz P)) ∈ stabilizers c dh dw.
Proof.
  intros Hv HP. pose proof Hv as (Hh & Hw & Oh & Ow). pose proof (valid_turn _ _ Hv) as Hv'.
  assert (H : turn_pauli dw dh (turn_pauli dh dw P) ∈ stabilizers c dh dw).
  { apply C83_stabilizers; [done|]. eexists. split; [|reflexivity]. apply C83_stabilizers; [done|]. eauto. }
  destruct (stabs_on_data c dh dw P Hv HP) as [HX HZ].
  assert (E : forall A, A ⊆ data_set dh dw -> (set_map (turn dw dh) (set_map (turn dh dw) A : gset Z) : gset Z) = set_map (fun k => dh * dw - 1 - k) A).
  { intros A HA. apply set_eq. intros k. rewrite !elem_of_map. split.
    - intros (j & -> & Hj). apply elem_of_map in Hj as (i & -> & Hi). exists i. split; [|done]. apply turn_twice; auto.
    - intros (i & -> & Hi). exists (turn dh dw i). rewrite turn_twice by auto. split; [done|]. apply elem_of_map. eauto. }
  unfold turn_pauli in H. cbn [px pz] in H. rewrite !E in H by done. exact H.
Qed.
Print Assumptions C83_half_turn.
(** Turning keeps commutation, so what errors do to the one lattice they do, turned, to the other. *)
Theorem C83_commutation dh dw P Q : valid_size dh dw -> on_data dh dw P -> on_data dh dw Q ->
  anti (turn_pauli dh dw P) (turn_pauli dh dw Q) = anti P Q.
Proof.
  intros Hv [PX PZ] [QX QZ]. pose proof Hv as (Hh & Hw & Oh & Ow).
  assert (Inj : forall i j, i ∈ data_set dh dw -> j ∈ data_set dh dw -> turn dh dw i = turn dh dw j -> i = j).
  { intros i j Hi Hj E. assert (EE := turn_twice dh dw i Hh Hw Hi). rewrite E, turn_twice in EE by done. lia. }
  assert (HD : forall A B, A ⊆ data_set dh dw -> B ⊆ data_set dh dw -> dot (set_map (turn dh dw) A : gset Z) (set_map (turn dh dw) B) = dot A B).
  { intros A B HA HB. unfold dot.
    assert ((set_map (turn dh dw) A : gset Z) ∩ set_map (turn dh dw) B = set_map (turn dh dw) (A ∩ B)) as ->.
    { apply set_eq. intros k. rewrite elem_of_intersection, !elem_of_map. split.
      - intros [(i & -> & Hi) (j & E & Hj)]. assert (i = j) as -> by (apply Inj; auto). exists j. split; [done|]. by apply elem_of_intersection.
      - intros (i & -> & [Hi Hj]%elem_of_intersection). split; exists i; done. }
    unfold par. f_equal. unfold set_map. rewrite size_list_to_set; [by rewrite fmap_length|].
    apply NoDup_fmap_2_strong; [|apply NoDup_elements]. intros i j Hi Hj E. apply elem_of_elements, elem_of_intersection in Hi as [Hi _].
    apply elem_of_elements, elem_of_intersection in Hj as [Hj _]. apply Inj; auto. }
  unfold anti, turn_pauli. cbn [px pz]. rewrite !HD by done. apply xorb_comm.
Qed.
Print Assumptions C83_commutation.
(** Logical Z becomes a logical X, on the last column. *)
Theorem C83_logical_z c dh dw : valid_size dh dw ->
  (forall Q, Q ∈ stabilizers c dw dh -> commute (turn_pauli dh dw (log_z c dh dw)) Q) /\
  anti (turn_pauli dh dw (log_z c dh dw)) (log_z c dw dh) = true.
Proof.
  intros Hv.
  assert (DL : on_data dh dw (log_x c dh dw) /\ on_data dh dw (log_z c dh dw)).
  { assert (R : row_set dh dw 0 ⊆ data_set dh dw) by (intros k Hk; apply elem_of_filter in Hk; apply Hk).
    assert (C : col_set dh dw 0 ⊆ data_set dh dw) by (intros k Hk; apply elem_of_filter in Hk; apply Hk).
    unfold on_data, log_x, log_z. destruct c; unfold hconj; cbn [Xon Zon px pz]; set_solver. }
  destruct DL as [DX DZ]. split.
  - intros Q HQ. apply (C83_stabilizers c dh dw Q Hv) in HQ as (P & HP & ->). unfold commute. rewrite C83_commutation; [|done|done|by apply (stabs_on_data c)].
    rewrite anti_comm. apply logical_commute; done.
  - rewrite <-(C83_logical c dh dw Hv). rewrite C83_commutation, anti_comm by done. by apply logical_anticommute.
Qed.
Print Assumptions C83_logical_z.

Definition shown (P : pauli Z) := (elements (px P), elements (pz P)).
(** The 3 x 5 lattice: 14 stabilizers, the qubit 7 (row 1, column 2) goes to row 2, column 1 of the 5 x 3 one. *)
Example C83_ex : valid_size 3 5 /\ turn 3 5 7 = 7 /\ turn 3 5 <$> seqZ 0 15 = [2; 5; 8; 11; 14; 1; 4; 7; 10; 13; 0; 3; 6; 9; 12] /\
  length (stabilizers XZZX 3 5) = 14%nat /\ num_syn_x 3 5 = 8 /\ num_syn_z 5 3 = 8 /\
  (shown <$> stabilizers XZZX 5 3) ≡ₚ (shown ∘ turn_pauli 3 5 <$> stabilizers XZZX 3 5) /\ ~ (shown <$> stabilizers XZZX 5 3) ≡ₚ (shown <$> stabilizers XZZX 3 5).
Proof.
  split; [done|]. split_and!; [vm_compute; reflexivity..| |].
  - apply (bool_decide_unpack _). vm_compute. exact I.
  - apply (bool_decide_unpack _). vm_compute. exact I.
Qed.
