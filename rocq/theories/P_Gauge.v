(** Property C82: decoding sees the events and the raw value only. Random outcomes that stay the same
    from round to round do not matter, and flipping the raw value flips the result. *)
From Verif Require Import F2 SpecCode PauliFacts DistanceFacts SyndromeFacts Parse ParseFacts P_Parse DecodeFacts Degen RxRef P_Decode P_Linear.
From stdpp Require Export list.
Open Scope Z_scope.

(** The other logical value; exceptions stay. *)
Definition flip_if (b : bool) (r : res Z) : res Z := match r with Ok v => Ok (if b then 1 - v else v) | Err e => Err e end.

Lemma fold_flip {A} (f : A -> bool) l v : v = 0 \/ v = 1 ->
  let g := foldl (fun v m => if f m then (v + 1) mod 2 else v) in g (1 - v) l = 1 - g v l.
Proof.
  revert v. induction l as [|m l IHl]; intros v Hv; [done|]. cbn. destruct (f m); [|by apply IHl].
  replace ((1 - v + 1) mod 2) with (1 - (v + 1) mod 2) by (destruct Hv as [-> | ->]; done). apply IHl. destruct Hv as [-> | ->]; cbn; auto.
Qed.
Lemma decode_flip rx D ep isx s s' (b b' : bool) X Y : 
  parse_readout (dec_h D) (dec_w D) s (Some (type_string isx)) = Ok (Z.b2z b, (X, Y)) ->
  parse_readout (dec_h D) (dec_w D) s' (Some (type_string isx)) = Ok (Z.b2z b', (X, Y)) ->
  correct_readout_p rx D ep s' isx = flip_if (xorb b b') (correct_readout_p rx D ep s isx).
Proof.
  intros E E'. unfold correct_readout_p. rewrite E, E'. unfold correct_events_p. cbn [snd].
  destruct (corrections_p rx D ep isx _).2 as [ms|e]; [|done]. cbn [flip_if]. f_equal.
  destruct b, b'; cbn [xorb Z.b2z]; try done.
  - apply (fold_flip _ _ 1). by right.
  - apply (fold_flip _ _ 0). by left.
Qed.

(** Logical readouts: shots whose stabilizer bits differ in all rounds or in none, each
    stabilizer by itself, decode alike, up to the difference of the bits read. *)
Theorem C82_decode rx D ep isx cs cs' names last : let dh := dec_h D in let dw := dec_w D in
  valid_size dh dw -> 1 < dh * dw ->
  (forall a b i, a ∈ names -> b ∈ names -> 0 <= i < dh * dw - 1 -> differ cs cs' (a, i) = differ cs cs' (b, i)) ->
  let decode c := correct_readout_p rx D ep (counts_key c (((., dh * dw - 1) <$> names) ++ [(last, 1)])) isx in
  decode cs' = flip_if (differ cs cs' (last, 0)) (decode cs).
Proof.
  intros dh dw Hv H1 H decode. unfold decode.
  destruct (C21_round_trip dh dw cs names last (Some (type_string isx)) Hv H1) as (X & Y & E & _).
  destruct (C21_round_trip dh dw cs' names last (Some (type_string isx)) Hv H1) as (X' & Y' & E' & _).
  destruct (C81_alike dh dw cs cs' names last (Some (type_string isx)) Hv H1) as (v & X1 & Y1 & v' & X1' & Y1' & F & F' & _ & HH).
  rewrite E in F. rewrite E' in F'. injection F as <- <- <-. injection F' as <- <- <-. apply HH in H as [-> ->].
  by eapply decode_flip.
Qed.
Print Assumptions C82_decode.
(** Lattice readouts in the Z basis. *)
Theorem C82_decode_lattice rx D ep cs cs' names nm last : let dh := dec_h D in let dw := dec_w D in let B := differ cs cs' in
  valid_size dh dw -> 1 < dh * dw ->
  (forall a i, a ∈ names -> 0 <= i < dh * dw - 1 -> B (a, i) = B (nm, i)) ->
  (forall i, 0 <= i < num_syn_z dh dw -> xorl ((fun j => B (last, j)) <$> plaq_data (geom_z dh dw i)) = B (nm, i)) ->
  let decode c := correct_readout_p rx D ep (counts_key c (((., dh * dw - 1) <$> names ++ [nm]) ++ [(last, dh * dw)])) false in
  decode cs' = flip_if (xorl ((fun j => B (last, j)) <$> seqZ 0 dw)) (decode cs).
Proof.
  intros dh dw B Hv H1 Ha Hb decode. unfold decode.
  destruct (C14_lattice_z dh dw cs names nm last Hv H1) as (X & Y & E & _).
  destruct (C14_lattice_z dh dw cs' names nm last Hv H1) as (X' & Y' & E' & _).
  destruct (C81_alike_lattice dh dw cs cs' names nm last Hv H1) as (v & X1 & Y1 & v' & X1' & Y1' & F & F' & _ & HH).
  rewrite E in F. rewrite E' in F'. injection F as <- <- <-. injection F' as <- <- <-.
  destruct HH as [_ HH]. destruct (HH (conj Ha Hb)) as [-> ->].
  rewrite (decode_flip rx D ep false _ _ _ _ _ _ E E'). unfold B, differ. by rewrite <-xorl_xor.
Qed.
Print Assumptions C82_decode_lattice.

(** Rounds at the end without changes do not matter. *)
Lemma changes_idle cs names nm more n off coord e N : 0 <= off -> off + n <= N ->
  (forall a i, a ∈ more -> 0 <= i < N -> cs (a, i) = cs (nm, i)) ->
  changes (recorded cs (names ++ nm :: more)) n off coord e <-> changes (recorded cs (names ++ [nm])) n off coord e.
Proof.
  intros Ho HN H.
  assert (P : forall k a, (names ++ [nm]) !! k = Some a -> (names ++ nm :: more) !! k = Some a).
  { intros k a E. change (nm :: more) with ([nm] ++ more). rewrite app_assoc. by apply lookup_app_l_Some. }
  unfold changes, recorded. split; intros (k & r & r' & loc & Hr & Hr' & Hl & Hne & ->); exists k, r, r', loc.
  - rewrite list_lookup_fmap in Hr, Hr'. rewrite !list_lookup_fmap.
    destruct ((names ++ nm :: more) !! k) as [a|] eqn:Ea; [|done]. destruct ((names ++ nm :: more) !! S k) as [b|] eqn:Eb; [|done].
    injection Hr as <-. injection Hr' as <-. destruct (decide (S k <= length names)%nat) as [Hk|Hk].
    + assert (Q : forall j a, (j <= length names)%nat -> (names ++ nm :: more) !! j = Some a -> (names ++ [nm]) !! j = Some a).
      { intros j x Hj. change (nm :: more) with ([nm] ++ more). rewrite app_assoc, lookup_app_l; [done|]. rewrite app_length. cbn. lia. }
      rewrite (Q k a ltac:(lia) Ea), (Q (S k) b ltac:(lia) Eb). done.
    + exfalso. apply Hne.
      assert (Q : forall j a, (length names <= j)%nat -> (names ++ nm :: more) !! j = Some a -> cs (a, off + loc) = cs (nm, off + loc)).
      { intros j x Hj. rewrite lookup_app_r by done. destruct (j - length names)%nat as [|m]; cbn; [by intros [= ->]|]. intros Hx%elem_of_list_lookup_2. apply H; [done|lia]. }
      rewrite (Q k a ltac:(lia) Ea). symmetry. by apply (Q (S k) b ltac:(lia)).
  - rewrite list_lookup_fmap in Hr, Hr'. rewrite !list_lookup_fmap.
    destruct ((names ++ [nm]) !! k) as [a|] eqn:Ea; [|done]. destruct ((names ++ [nm]) !! S k) as [b|] eqn:Eb; [|done].
    by rewrite (P _ _ Ea), (P _ _ Eb).
Qed.
Theorem C82_idle rx D ep isx cs names nm more last : let dh := dec_h D in let dw := dec_w D in
  valid_size dh dw -> 1 < dh * dw ->
  (forall a i, a ∈ more -> 0 <= i < dh * dw - 1 -> cs (a, i) = cs (nm, i)) ->
  let decode l := correct_readout_p rx D ep (counts_key cs (((., dh * dw - 1) <$> l) ++ [(last, 1)])) isx in
  decode (names ++ nm :: more) = decode (names ++ [nm]).
Proof.
  intros dh dw Hv H1 H decode. unfold decode. destruct (counts_pos dh dw Hv H1) as (Hx & Hz & Hs).
  destruct (C21_round_trip dh dw cs (names ++ nm :: more) last (Some (type_string isx)) Hv H1) as (X & Y & E & _ & _ & HX & HY).
  destruct (C21_round_trip dh dw cs (names ++ [nm]) last (Some (type_string isx)) Hv H1) as (X' & Y' & E' & _ & _ & HX' & HY').
  destruct (C81_order _ _ _ _ _ _ _ _ _ _ _ _ Hv E E') as [OX OY].
  rewrite OX in E by (intros e; rewrite HX, HX'; apply (changes_idle _ _ _ _ _ _ _ _ (dh * dw - 1)); [lia|lia|exact H]).
  rewrite OY in E by (intros e; rewrite HY, HY'; apply (changes_idle _ _ _ _ _ _ _ _ (dh * dw - 1)); [lia|lia|exact H]).
  rewrite (decode_flip rx D ep isx _ _ _ _ _ _ E' E), xorb_nilpotent. fold dh dw. by destruct (correct_readout_p _ _ _ _ _).
Qed.
Print Assumptions C82_idle.

(** A lattice readout with the data bits of A flipped. *)
Definition flipped (last : string) (A : gset Z) (cs : clbit -> bool) (c : clbit) : bool := xorb (cs c) (bool_decide (c.1 = last) && mem c.2 A).
Lemma differ_flipped last A cs a i : differ cs (flipped last A cs) (a, i) = bool_decide (a = last) && mem i A.
Proof. unfold differ, flipped. cbn [fst snd]. by rewrite <-xorb_assoc, xorb_nilpotent, xorb_false_l. Qed.
Lemma row_seq dh dw : valid_size dh dw -> row_set dh dw 0 = list_to_set (seqZ 0 dw).
Proof.
  intros Hv. unfold valid_size in Hv. apply set_eq. intros k. unfold row_set, data_set.
  rewrite elem_of_filter, !elem_of_list_to_set, !elem_of_seqZ. split.
  - intros [H ?]. apply Z.div_small_iff in H; [|lia]. lia.
  - intros ?. split; [apply Z.div_small; lia|nia].
Qed.
(** X errors on the data qubits of A just before they are read, A such that no Z stabilizer
    notices: the result of decoding flips if A crosses the top row an odd number of times. *)
Theorem C82_operator rx D ep cs names nm last (A : gset Z) : let dh := dec_h D in let dw := dec_w D in
  valid_size dh dw -> 1 < dh * dw -> last ∉ names -> last <> nm ->
  (forall Q, Q ∈ stabilizers XXZZ dh dw -> commute (Xon A) Q) ->
  let decode c := correct_readout_p rx D ep (counts_key c (((., dh * dw - 1) <$> names ++ [nm]) ++ [(last, dh * dw)])) false in
  decode (flipped last A cs) = flip_if (anti (Xon A) (log_z XXZZ dh dw)) (decode cs).
Proof.
  intros dh dw Hv H1 Hl Hn HA decode. unfold decode, dh, dw.
  assert (EX : forall l : list Z, NoDup l -> xorl ((fun j => differ cs (flipped last A cs) (last, j)) <$> l) = dot A (list_to_set l)).
  { intros l Hd. rewrite dot_list by done. apply xorl_ext. intros j _. rewrite differ_flipped. by rewrite bool_decide_eq_true_2. }
  rewrite (C82_decode_lattice rx D ep cs (flipped last A cs) names nm last Hv H1).
  - f_equal. rewrite EX by apply NoDup_seqZ. unfold log_z. by rewrite anti_Xon_Zon, row_seq.
  - intros a i Ha Hi. rewrite !differ_flipped, !bool_decide_eq_false_2; [done|congruence|]. by intros ->.
  - intros i Hi. rewrite differ_flipped, bool_decide_eq_false_2 by congruence. destruct (plaq_data_z dh dw i Hv Hi) as (_ & Hd & _).
    rewrite EX by done. assert (HQ : stab_z XXZZ dh dw i ∈ stabilizers XXZZ dh dw).
    { apply elem_of_app. right. apply elem_of_list_fmap. eexists. split; [reflexivity|]. apply elem_of_list_fmap. exists i. split; [done|]. apply elem_of_seqZ. rewrite Z.add_0_l. exact Hi. }
    specialize (HA _ HQ). unfold commute in HA. change (stab_z XXZZ dh dw i) with (Zon (oset (plaq_idx (geom_z dh dw i)))) in HA. by rewrite anti_Xon_Zon in HA.
Qed.
Print Assumptions C82_operator.
(** The X stabilizers of XXZZ: nothing changes. The logical X: the result flips. *)
Corollary C82_stabilizer rx D ep cs names nm last A : let dh := dec_h D in let dw := dec_w D in
  valid_size dh dw -> 1 < dh * dw -> last ∉ names -> last <> nm -> Xon A ∈ stabilizers XXZZ dh dw ->
  let decode c := correct_readout_p rx D ep (counts_key c (((., dh * dw - 1) <$> names ++ [nm]) ++ [(last, dh * dw)])) false in
  decode (flipped last A cs) = decode cs.
Proof.
  intros dh dw Hv H1 Hl Hn HA decode. unfold decode, dh, dw. rewrite C82_operator; [|done..|by intros Q HQ; eapply (stabilizers_commute XXZZ dh dw)].
  destruct (logical_commute XXZZ dh dw _ Hv HA) as [_ E]. unfold commute, dh, dw in E. rewrite E. by destruct (correct_readout_p _ _ _ _ _).
Qed.
Print Assumptions C82_stabilizer.
Corollary C82_logical rx D ep cs names nm last : let dh := dec_h D in let dw := dec_w D in
  valid_size dh dw -> 1 < dh * dw -> last ∉ names -> last <> nm ->
  let decode c := correct_readout_p rx D ep (counts_key c (((., dh * dw - 1) <$> names ++ [nm]) ++ [(last, dh * dw)])) false in
  decode (flipped last (col_set dh dw 0) cs) = flip_if true (decode cs).
Proof.
  intros dh dw Hv H1 Hl Hn decode. unfold decode, dh, dw. rewrite C82_operator; [|done..|].
  - pose proof (logical_anticommute XXZZ dh dw Hv) as E. unfold log_x, dh, dw in E. by rewrite E.
  - intros Q HQ. destruct (logical_commute XXZZ dh dw Q Hv HQ) as [E _]. unfold commute in *. rewrite anti_comm. exact E.
Qed.
Print Assumptions C82_logical.

(** 3x3, a decoder for two rounds.  The Z stabilizer 0 changes; the X stabilizer 2 (bit 6) is 1 in both
    rounds of the second shot, and its bit read is the other one. *)
Example C82_ex : let names := ["a0"; "a1"]%string in
  let a : clbit -> bool := fun b => bool_decide (b = ("a1", 0)%string) in
  let b : clbit -> bool := fun b => bool_decide (b ∈ [("a1", 0); ("a0", 6); ("a1", 6); ("r", 0)]%string) in
  let key c := counts_key c (((., 8) <$> names) ++ [("r", 1)]%string) in
  key a = "0 00000001 00000000"%string /\ key b = "1 01000001 01000000"%string /\
  correct_readout_p rx_ref ex_dec None (key a) false = Ok 1 /\ correct_readout_p rx_ref ex_dec None (key b) false = Ok 0 /\
  (forall x y i, x ∈ names -> y ∈ names -> 0 <= i < 8 -> differ a b (x, i) = differ a b (y, i)).
Proof.
  split_and!; [vm_compute; reflexivity..|]. intros x y i Hx Hy Hi.
  assert (H : forall z, z ∈ ["a0"; "a1"]%string -> differ (fun b => bool_decide (b = ("a1", 0)%string)) (fun b => bool_decide (b ∈ [("a1", 0); ("a0", 6); ("a1", 6); ("r", 0)]%string)) (z, i) = bool_decide (i = 6)).
  { intros z Hz. rewrite !elem_of_cons, elem_of_nil in Hz.
    assert (i = 0 \/ i = 1 \/ i = 2 \/ i = 3 \/ i = 4 \/ i = 5 \/ i = 6 \/ i = 7) as Hc by lia.
    destruct Hz as [-> |[-> |[]]]; repeat destruct Hc as [-> |Hc]; try (vm_compute; reflexivity); subst; vm_compute; reflexivity. }
  rewrite (H x Hx). symmetry. exact (H y Hy).
Qed.
(** A lattice readout: qubit 4 wrong, then also the qubits of the X stabilizer 0, or the left column. *)
Example C82_ex_lattice : let key c := counts_key c (((., 8) <$> [] ++ ["a0"]%string) ++ [("f", 9)]%string) in
  let a : clbit -> bool := fun b => bool_decide (b = ("f", 4)%string) in
  let decode c := correct_readout_p rx_ref ex_dec None (key c) false in
  Xon (list_to_set (plaq_data (geom_x 3 3 0))) ∈ stabilizers XXZZ 3 3 /\
  decode a = Ok 0 /\ decode (flipped "f" (list_to_set (plaq_data (geom_x 3 3 0))) a) = Ok 0 /\
  decode (flipped "f" (col_set 3 3 0) a) = Ok 1.
Proof. split; [apply elem_of_app; left; left|]. split_and!; vm_compute; reflexivity. Qed.
(** Two more rounds like the second. *)
Example C82_ex_idle : let cs : clbit -> bool := fun b => bool_decide (b.1 <> "a0" /\ b.1 <> "r" /\ b.2 = 0)%string in
  let key (l : list string) := counts_key cs (((., 8) <$> l) ++ [("r", 1)]%string) in
  key ["a0"; "a1"; "b"; "c"]%string = "0 00000001 00000001 00000001 00000000"%string /\
  correct_readout_p rx_ref ex_dec None (key ["a0"; "a1"; "b"; "c"]%string) false = Ok 1 /\
  correct_readout_p rx_ref ex_dec None (key ["a0"; "a1"]%string) false = Ok 1.
Proof. split_and!; vm_compute; reflexivity. Qed.
