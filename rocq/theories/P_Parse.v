(** Properties C14 and C21: from the classical registers of a circuit, through the counts
    key, to the logical value and the events reported by [parse_readout]. *)
From Verif Require Import SyndromeFacts Parse ParseFacts.
From Coq Require Import Ascii.
From stdpp Require Export list.
Open Scope Z_scope.

(** The rounds recorded in registers [names]: bit i of round t is bit i of the t-th register.
    (By [stabilize], bits 0 .. nz-1 are the Z stabilizers and bits nz .. nz+nx-1 the X ones:
    theorem [C12_syndrome_change] of P_Logical.v ties each bit to its stabilizer.) *)
Definition recorded (cs : clbit -> bool) (names : list string) : list (Z -> bool) :=
  (fun nm i => cs (nm, i)) <$> names.
Lemma creg_bits cs nm n : creg_string cs (nm, n) = bits_str n (fun i => cs (nm, i)).
Proof. done. Qed.
Lemma key_split cs names n last m : counts_key cs (((., n) <$> names) ++ [(last, m)]) =
  py_join (bits_str m (fun i => cs (last, i)) :: reverse (bits_str n <$> recorded cs names)).
Proof.
  unfold counts_key, recorded. rewrite fmap_app, reverse_app. cbn [fmap list_fmap]. rewrite creg_bits.
  change (reverse [?x]) with [x]. cbn [app]. do 3 f_equal. rewrite <-!list_fmap_compose. by apply list_fmap_ext.
Qed.
Lemma rounds_no_blank n (rounds : list (Z -> bool)) m f : Forall no_blank (bits_str m f :: reverse (bits_str n <$> rounds)).
Proof.
  constructor; [apply bits_no_blank|]. apply Forall_reverse, Forall_fmap, list.Forall_forall. intros; apply bits_no_blank.
Qed.

(** * C21 *)
(** T+1 rounds in registers [names] of dh*dw-1 bits, then a one-bit readout: the logical value
    is the bit read, and the events are exactly the changes between consecutive rounds, each
    listed once.  [changes rounds n off coord (t, y, x)]: some stabilizer, located at (y, x), has
    different bits in rounds t and t+1. *)
Theorem C21_round_trip dh dw cs names last ty : valid_size dh dw -> 1 < dh * dw ->
  exists X Z, parse_readout dh dw (counts_key cs (((., dh * dw - 1) <$> names) ++ [(last, 1)])) ty =
      Ok (Z.b2z (cs (last, 0)), (X, Z)) /\
    NoDup X /\ NoDup Z /\
    (forall e, e ∈ X <-> changes (recorded cs names) (num_syn_x dh dw) (num_syn_z dh dw) (coord_x dw) e) /\
    (forall e, e ∈ Z <-> changes (recorded cs names) (num_syn_z dh dw) 0 (coord_z dw) e).
Proof.
  intros Hv H1. rewrite key_split. unfold parse_readout. rewrite split_join by (done || apply rounds_no_blank).
  rewrite bool_decide_eq_false_2 by (rewrite bits_len; cbn; lia).
  assert (E : py_int_short (bits_str 1 (fun i => cs (last, i))) = Ok (Z.b2z (cs (last, 0)))).
  { unfold bits_str. change (seqZ 0 1) with [0]. cbn. apply digit_sob. }
  rewrite E. apply (tail_part_ok dh dw _ (recorded cs names) Hv H1).
Qed.
Print Assumptions C21_round_trip.
(** 3x3 lattice, three rounds; bit 0 (Z stabilizer at row 1/2, column 1/2) is set in the
    second round only, bit 5 (second X stabilizer) from the third round on. *)
Example C21_ex : let cs : clbit -> bool := fun b => bool_decide (b = ("a1", 0)%string \/ b = ("a2", 5)%string \/ b = ("r", 0)%string) in
  counts_key cs (((., 8) <$> ["a0"; "a1"; "a2"]%string) ++ [("r", 1)]%string) = "1 00100000 00000001 00000000"%string /\
  parse_readout 3 3 "1 00100000 00000001 00000000" None = Ok (1, ([(1, 1, 3)], [(0, 1, 1); (1, 1, 1)])).
Proof. split; vm_compute; reflexivity. Qed.

(** * C14 *)
Lemma values_bits n f : readout_values (bits_str n f) = Ok ((fun i => Z.b2z (f i)) <$> seqZ 0 n).
Proof.
  unfold readout_values, bits_str. rewrite sob_list.
  rewrite (rmap_ok _ (fun c => if Ascii.eqb c "1"%char then 1 else 0)).
  - f_equal. rewrite <-list_fmap_compose, <-fmap_reverse, reverse_involutive, <-list_fmap_compose. apply list_fmap_ext. intros k i _. cbn. by destruct (f i).
  - intros c (b & -> & _)%elem_of_list_fmap. rewrite digit_sob. by destruct b.
Qed.
Lemma index_values n f i : 0 <= i < n -> py_index ((fun i => Z.b2z (f i)) <$> seqZ 0 n) i = Ok (Z.b2z (f i)).
Proof.
  intros Hi. unfold py_index. rewrite fmap_length, seqZ_length. rewrite (bool_decide_eq_false_2 (i < 0)) by lia. rewrite bool_decide_eq_true_2 by lia.
  rewrite list_lookup_fmap, lookup_seqZ_lt by lia. cbn. by rewrite Z2Nat.id by lia.
Qed.
Lemma b2z_xor a b : Z.b2z (xorb a b) = (Z.b2z a + Z.b2z b) mod 2.
Proof. by destruct a, b. Qed.
Lemma sum_parity l : foldr Z.add 0 (Z.b2z <$> l) mod 2 = Z.b2z (xorl l).
Proof.
  induction l as [|b l IH]; [done|]. rewrite xorl_cons, b2z_xor. cbn [fmap list_fmap foldr]. rewrite <-IH.
  by rewrite Zplus_mod_idemp_r.
Qed.
Lemma plaq_value_bits n f p : (forall i, i ∈ plaq_data p -> 0 <= i < n) ->
  plaq_value ((fun i => Z.b2z (f i)) <$> seqZ 0 n) p = Ok (Z.b2z (xorl (f <$> plaq_data p))).
Proof.
  intros Hp. unfold plaq_value. rewrite (rmap_ok _ (fun o => match o with Some i => Z.b2z (f i) | None => 0 end)).
  - f_equal. rewrite <-sum_parity. f_equal. unfold plaq_data. clear Hp. induction (plaq_idx p) as [|[i|] l IH]; [done| |done].
    cbn in *. by f_equal.
  - intros [i|] Hi; [|done]. apply index_values. apply Hp. unfold plaq_data. apply elem_of_list_omap. by exists (Some i).
Qed.
Lemma sapp_assoc (a b c : string) : (a +:+ (b +:+ c) = (a +:+ b) +:+ c)%string.
Proof. induction a as [|x a IH]; [done|]. change (String x (a +:+ (b +:+ c)) = String x ((a +:+ b) +:+ c))%string. by rewrite IH. Qed.
Lemma stabilizer_string_bits n f (l : list plaq) acc : (forall p i, p ∈ l -> i ∈ plaq_data p -> 0 <= i < n) ->
  rfold (fun acc p => match plaq_value ((fun i => Z.b2z (f i)) <$> seqZ 0 n) p with Ok v => Ok (py_str v +:+ acc)%string | Err e => Err e end) acc l =
  Ok (string_of_bits (reverse ((fun p => xorl (f <$> plaq_data p)) <$> l)) +:+ acc)%string.
Proof.
  revert acc. induction l as [|p l IH]; intros acc Hp; [done|]. cbn [rfold].
  rewrite plaq_value_bits by (intros; eapply Hp; [by left|done]). rewrite IH by (intros; eapply Hp; [by right|done]).
  f_equal. rewrite fmap_cons, reverse_cons, sob_app, str_bit. by rewrite sapp_assoc.
Qed.
Lemma parity_of_bits n f l acc : (forall i, i ∈ l -> 0 <= i < n) ->
  rfold (fun acc i => match py_index ((fun i => Z.b2z (f i)) <$> seqZ 0 n) i with Ok v => Ok ((acc + v) mod 2) | Err e => Err e end) (Z.b2z acc) l =
  Ok (Z.b2z (xorb acc (xorl (f <$> l)))).
Proof.
  revert acc. induction l as [|i l IH]; intros acc Hl; cbn [rfold]; [by rewrite xorb_false_r|].
  rewrite index_values by (apply Hl; by left). rewrite <-b2z_xor. rewrite IH by (intros; apply Hl; by right).
  rewrite fmap_cons, xorl_cons. by rewrite xorb_assoc.
Qed.
(** The round deduced from the data bits f: parities over the plaquettes for the Z
    stabilizers; the X stabilizers keep their last value g. *)
Definition final_round (dh dw : Z) (f g : Z -> bool) (i : Z) : bool :=
  if bool_decide (i < num_syn_z dh dw) then xorl (f <$> plaq_data (geom_z dh dw i)) else g i.
Lemma extract_z_bits dh dw f g : valid_size dh dw -> 1 < dh * dw ->
  extract_z dh dw (bits_str (dh * dw) f) (bits_str (dh * dw - 1) g) =
  Ok (Z.b2z (xorl (f <$> seqZ 0 dw)), bits_str (dh * dw - 1) (final_round dh dw f g)).
Proof.
  intros Hv H1. destruct (counts_pos dh dw Hv H1) as (Hx & Hz & Hs). unfold extract_z. rewrite values_bits.
  unfold stabilizer_string. rewrite stabilizer_string_bits.
  2:{ intros p i Hp. apply elem_of_list_fmap in Hp as (loc & -> & Hl). apply elem_of_seqZ in Hl. apply plaq_data_z; [done|lia]. }
  assert (EP : parity_of ((fun i => Z.b2z (f i)) <$> seqZ 0 (dh * dw)) (py_range dw) = Ok (Z.b2z (xorl (f <$> seqZ 0 dw)))).
  { pose proof (parity_of_bits (dh * dw) f (py_range dw) false) as HP. rewrite xorb_false_l in HP. apply HP. intros i Hi%elem_of_seqZ. unfold valid_size in Hv. nia. }
  rewrite EP. f_equal. f_equal.
  replace (dh * dw - 1) with (num_syn_z dh dw + num_syn_x dh dw) by lia. rewrite !bits_split by done.
  f_equal.
  - unfold bits_str at 1 2. rewrite <-sob_app, sob_take.
    rewrite take_app_alt by (rewrite reverse_length, fmap_length, seqZ_length; done).
    apply bits_ext. intros i Hi. unfold final_round. by rewrite bool_decide_eq_false_2 by lia.
  - unfold bits_str. unfold geometry_mz. rewrite <-list_fmap_compose.
    assert (E : forall l : list Z, (forall i, i ∈ l -> 0 <= i < num_syn_z dh dw) -> ((fun p => xorl (f <$> plaq_data p)) ∘ geom_z dh dw <$> l) = (final_round dh dw f g <$> l)).
    { intros l Hl. apply list_fmap_ext. intros k i Hi. cbn. unfold final_round. rewrite bool_decide_eq_true_2; [done|]. apply Hl. by eapply elem_of_list_lookup_2. }
    rewrite E; [|intros i Hi%elem_of_seqZ; lia]. unfold py_range. set (x := string_of_bits _). clearbody x. clear. induction x as [|c x IH]; [done|].
    change (String c x +:+ "")%string with (String c (x +:+ "")%string). by rewrite IH.
Qed.
(** A Z-basis lattice readout after at least one round (the last one recorded in register
    [nm]): the logical value is the parity of the top row, and the events are the changes
    between consecutive rounds, the last round being deduced from the data bits. *)
Theorem C14_lattice_z dh dw cs names nm last : valid_size dh dw -> 1 < dh * dw ->
  exists X Z, parse_readout dh dw (counts_key cs (((., dh * dw - 1) <$> names ++ [nm]) ++ [(last, dh * dw)])) (Some "Z"%string) =
      Ok (Z.b2z (xorl ((fun j => cs (last, j)) <$> seqZ 0 dw)), (X, Z)) /\
    NoDup X /\ NoDup Z /\
    let rounds := recorded cs (names ++ [nm]) ++ [final_round dh dw (fun j => cs (last, j)) (fun i => cs (nm, i))] in
    (forall e, e ∈ X <-> changes rounds (num_syn_x dh dw) (num_syn_z dh dw) (coord_x dw) e) /\
    (forall e, e ∈ Z <-> changes rounds (num_syn_z dh dw) 0 (coord_z dw) e).
Proof.
  intros Hv H1. rewrite key_split. unfold parse_readout. rewrite split_join by (done || apply rounds_no_blank).
  rewrite bool_decide_eq_true_2 by (rewrite bits_len; lia).
  set (R := recorded cs (names ++ [nm])).
  assert (ER : reverse (bits_str (dh * dw - 1) <$> R) = bits_str (dh * dw - 1) (fun i => cs (nm, i)) :: reverse (bits_str (dh * dw - 1) <$> recorded cs names)).
  { unfold R, recorded. by rewrite !fmap_app, reverse_app. }
  rewrite ER. unfold extract. cbn [String.eqb Ascii.eqb Bool.eqb]. rewrite extract_z_bits by done. rewrite <-ER.
  destruct (tail_part_ok dh dw (Z.b2z (xorl ((fun j => cs (last, j)) <$> seqZ 0 dw))) (R ++ [final_round dh dw (fun j => cs (last, j)) (fun i => cs (nm, i))]) Hv H1)
    as (X & Z & E & HH). exists X, Z. split; [|exact HH]. rewrite fmap_app, reverse_app in E. exact E.
Qed.
Print Assumptions C14_lattice_z.
(** The X events of a Z-basis lattice readout are those of the recorded rounds. *)
Corollary C14_no_new_x_events dh dw cs names nm f e : valid_size dh dw -> 1 < dh * dw ->
  changes (recorded cs (names ++ [nm]) ++ [final_round dh dw f (fun i => cs (nm, i))]) (num_syn_x dh dw) (num_syn_z dh dw) (coord_x dw) e <->
  changes (recorded cs (names ++ [nm])) (num_syn_x dh dw) (num_syn_z dh dw) (coord_x dw) e.
Proof.
  intros Hv H1. destruct (counts_pos dh dw Hv H1) as (Hx & Hz & Hs). split.
  - intros (k & r & r' & loc & Hr & Hr' & Hl & Hne & ->). exists k, r, r', loc.
    destruct (decide (S k < length (recorded cs (names ++ [nm])))%nat) as [HL|HL].
    + rewrite lookup_app_l in Hr, Hr' by lia. done.
    + exfalso. apply lookup_app_Some in Hr' as [Hr'%lookup_lt_Some|[HL' Hr']]; [lia|].
      destruct (S k - length (recorded cs (names ++ [nm])))%nat as [|m] eqn:Em; [|done]. injection Hr' as <-.
      rewrite lookup_app_l in Hr by lia. unfold recorded in Hr. rewrite fmap_app in Hr.
      rewrite lookup_app_r in Hr by (unfold recorded in *; rewrite fmap_app, app_length in HL'; cbn in HL'; lia).
      replace (k - _)%nat with 0%nat in Hr.
      2:{ unfold recorded in *. rewrite fmap_app, app_length in HL', Em. cbn in *. lia. }
      injection Hr as <-. destruct Hne. unfold final_round. by rewrite bool_decide_eq_false_2 by lia.
  - intros (k & r & r' & loc & Hr & Hr' & H). exists k, r, r', loc. split_and!; [by apply lookup_app_l_Some..|apply H|apply H|apply H|apply H].
Qed.
Print Assumptions C14_no_new_x_events.
(** X-basis lattice readouts cannot be parsed at all: whatever the string, as soon as its
    first word has more than one character, the call raises; on the strings that circuits
    produce, it raises AttributeError. *)
Theorem C14_lattice_x_attribute_error dh dw cs names nm last : valid_size dh dw -> 1 < dh * dw ->
  parse_readout dh dw (counts_key cs (((., dh * dw - 1) <$> names ++ [nm]) ++ [(last, dh * dw)])) (Some "X"%string) = Err AttributeError.
Proof.
  intros Hv H1. destruct (counts_pos dh dw Hv H1) as (Hx & Hz & Hs).
  rewrite key_split. unfold parse_readout. rewrite split_join by (done || apply rounds_no_blank).
  rewrite bool_decide_eq_true_2 by (rewrite bits_len; lia).
  unfold recorded. rewrite !fmap_app, reverse_app. cbn [fmap list_fmap]. change (reverse [?x]) with [x]. cbn [app].
  unfold extract. cbn [String.eqb Ascii.eqb Bool.eqb]. unfold extract_x. rewrite values_bits. unfold stabilizer_string. rewrite stabilizer_string_bits; [done|].
  intros p i Hp. apply elem_of_list_fmap in Hp as (loc & -> & Hl). apply elem_of_seqZ in Hl. apply plaq_data_x; [done|lia].
Qed.
Theorem C14_lattice_x_never dh dw s w ws : py_split s = w :: ws -> (1 < String.length w)%nat ->
  exists e, parse_readout dh dw s (Some "X"%string) = Err e.
Proof.
  intros E Hw. unfold parse_readout. rewrite E. rewrite bool_decide_eq_true_2 by done.
  destruct ws as [|c1 ws]; [by eexists|]. unfold extract. cbn [String.eqb Ascii.eqb Bool.eqb]. unfold extract_x.
  destruct (readout_values w); [|by eexists]. destruct (stabilizer_string a (geometry_mx dh dw)); by eexists.
Qed.
Print Assumptions C14_lattice_x_attribute_error.
Print Assumptions C14_lattice_x_never.
(** 3x3, one round with X bit 4 set, then data qubits 0 and 4 read as 1: Z plaquette
    {0,1,3,4} has parity 0, {4,5,7,8} parity 1, so one Z event at row 3/2, column 3/2. *)
Example C14_ex : parse_readout 3 3 "000010001 00010000" (Some "Z"%string) = Ok (1, ([], [(0, 3, 3)])) /\
  parse_readout 3 3 "000010001 00010000" (Some "X"%string) = Err AttributeError /\
  parse_readout 3 3 "000010001 00010000" None = Err AssertionError.
Proof. split_and!; vm_compute; reflexivity. Qed.
