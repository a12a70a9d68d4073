(** Property C81: what [parse_readout] does to the bits of a shot is linear: the events of two shots
    add up, two shots look alike exactly when they differ by the same bits in every round, and
    every set of events is reported by some shot. *)
From Verif Require Import SyndromeFacts Parse ParseFacts P_Parse DecodeFacts.
From stdpp Require Export list.
Open Scope Z_scope.

(** The bits in which two shots differ. *)
Definition differ (a b : clbit -> bool) (c : clbit) : bool := xorb (a c) (b c).
(** In one list but not in both. *)
Definition in_one {A} (e : A) (l m : list A) : Prop := (e ∈ l /\ e ∉ m) \/ (e ∉ l /\ e ∈ m).

Lemma changes_at R n off coord k loc :
  (forall l1 l2, 0 <= l1 < n -> 0 <= l2 < n -> coord l1 = coord l2 -> l1 = l2) -> 0 <= loc < n ->
  changes R n off coord (Z.of_nat k, (coord loc).1, (coord loc).2) <->
  exists r r', R !! k = Some r /\ R !! S k = Some r' /\ r (off + loc) <> r' (off + loc).
Proof.
  intros Hi Hl. split.
  - intros (k' & r & r' & loc' & H1 & H2 & Hl' & Hne & E). injection E as Ek E1 E2. apply Nat2Z.inj in Ek as <-.
    assert (loc = loc') as <-; [|by exists r, r']. apply Hi; [done..|]. rewrite (surjective_pairing (coord loc)), (surjective_pairing (coord loc')). congruence.
  - intros (r & r' & H1 & H2 & Hne). by exists k, r, r', loc.
Qed.
(** The rounds R'' are the sums of the rounds R and R'. *)
Definition adds (R R' R'' : list (Z -> bool)) : Prop :=
  length R = length R'' /\ length R' = length R'' /\
  forall k r r' r'', R !! k = Some r -> R' !! k = Some r' -> R'' !! k = Some r'' -> forall i, r'' i = xorb (r i) (r' i).
Lemma changes_add R R' R'' n off coord e :
  (forall l1 l2, 0 <= l1 < n -> 0 <= l2 < n -> coord l1 = coord l2 -> l1 = l2) -> adds R R' R'' ->
  changes R'' n off coord e <-> (changes R n off coord e /\ ~ changes R' n off coord e) \/ (~ changes R n off coord e /\ changes R' n off coord e).
Proof.
  intros Hi (L & L' & HR).
  assert (Core : forall k loc, 0 <= loc < n -> (S k < length R'')%nat ->
    let P R := changes R n off coord (Z.of_nat k, (coord loc).1, (coord loc).2) in P R'' <-> (P R /\ ~ P R') \/ (~ P R /\ P R')).
  { intros k loc Hl Hk P. unfold P. rewrite !changes_at by done.
    destruct (lookup_lt_is_Some_2 R k) as [r Er]; [lia|]. destruct (lookup_lt_is_Some_2 R (S k)) as [s Es]; [lia|].
    destruct (lookup_lt_is_Some_2 R' k) as [r' Er']; [lia|]. destruct (lookup_lt_is_Some_2 R' (S k)) as [s' Es']; [lia|].
    destruct (lookup_lt_is_Some_2 R'' k) as [r'' Er'']; [lia|]. destruct (lookup_lt_is_Some_2 R'' (S k)) as [s'' Es'']; [lia|].
    pose proof (HR _ _ _ _ Er Er' Er'' (off + loc)) as E1. pose proof (HR _ _ _ _ Es Es' Es'' (off + loc)) as E2.
    assert (HH : forall (l : list (Z -> bool)) (a b : Z -> bool), l !! k = Some a -> l !! S k = Some b ->
      (exists x y, l !! k = Some x /\ l !! S k = Some y /\ x (off + loc) <> y (off + loc)) <-> a (off + loc) <> b (off + loc)).
    { intros l a b Ha Hb. split; [intros (x & y & Hx & Hy & Hn); congruence|]. intros Hn. by exists a, b. }
    rewrite (HH R r s), (HH R' r' s'), (HH R'' r'' s'') by done. rewrite E1, E2.
    destruct (r (off + loc)), (s (off + loc)), (r' (off + loc)), (s' (off + loc)); cbn; intuition congruence. }
  split.
  - intros H. pose proof H as (k & r & r' & loc & H1 & H2 & Hl & _ & ->). apply lookup_lt_Some in H2. by apply (Core k loc Hl H2).
  - intros [[H H']|[H' H]]; pose proof H as (k & r & r' & loc & H1 & H2 & Hl & _ & ->); apply lookup_lt_Some in H2; apply (Core k loc Hl); auto; lia.
Qed.
Lemma adds_recorded cs cs' names : adds (recorded cs names) (recorded cs' names) (recorded (differ cs cs') names).
Proof.
  unfold adds, recorded. rewrite !fmap_length. split_and!; [done..|]. intros k r r' r''.
  rewrite !list_lookup_fmap. destruct (names !! k); cbn; [|done]. intros E1 E2 E3 i. injection E1 as <-. injection E2 as <-. by injection E3 as <-.
Qed.
Lemma adds_app R R' R'' f f' f'' : adds R R' R'' -> (forall i, f'' i = xorb (f i) (f' i)) -> adds (R ++ [f]) (R' ++ [f']) (R'' ++ [f'']).
Proof.
  intros (L & L' & HR) Hf. unfold adds. rewrite !app_length. split_and!; [cbn; lia..|]. intros k r r' r'' E1 E2 E3.
  destruct (decide (k < length R'')%nat) as [Hk|Hk].
  - rewrite lookup_app_l in E1, E2, E3 by lia. eauto.
  - rewrite lookup_app_r in E1, E2, E3 by lia. rewrite L in E1. rewrite L' in E2.
    destruct (k - length R'')%nat; [|done]. injection E1 as <-. injection E2 as <-. by injection E3 as <-.
Qed.

(** A one-bit readout: the value and the events of the bits in which two shots differ. *)
Theorem C81_add dh dw cs cs' names last ty : valid_size dh dw -> 1 < dh * dw ->
  let parse c := parse_readout dh dw (counts_key c (((., dh * dw - 1) <$> names) ++ [(last, 1)])) ty in
  exists v X Z v' X' Z' X'' Z'',
    parse cs = Ok (v, (X, Z)) /\ parse cs' = Ok (v', (X', Z')) /\
    parse (differ cs cs') = Ok ((v + v') mod 2, (X'', Z'')) /\ NoDup X'' /\ NoDup Z'' /\
    (forall e, e ∈ X'' <-> in_one e X X') /\ (forall e, e ∈ Z'' <-> in_one e Z Z').
Proof.
  intros Hv H1 parse. unfold parse.
  destruct (C21_round_trip dh dw cs names last ty Hv H1) as (X & Z & E & _ & _ & HX & HZ).
  destruct (C21_round_trip dh dw cs' names last ty Hv H1) as (X' & Z' & E' & _ & _ & HX' & HZ').
  destruct (C21_round_trip dh dw (differ cs cs') names last ty Hv H1) as (X'' & Z'' & E'' & N1 & N2 & HX'' & HZ'').
  eexists _, X, Z, _, X', Z', X'', Z''. split_and!; [exact E|exact E'| |done|done| |].
  - rewrite E''. do 2 f_equal. unfold differ. apply b2z_xor.
  - intros e. unfold in_one. rewrite HX, HX', HX''. apply changes_add; [|apply adds_recorded]. intros; by eapply (coord_x_inj dh).
  - intros e. unfold in_one. rewrite HZ, HZ', HZ''. apply changes_add; [|apply adds_recorded]. intros; by eapply (coord_z_inj dh).
Qed.
Print Assumptions C81_add.

(** A lattice readout in the Z basis after at least one round. *)
Theorem C81_add_lattice dh dw cs cs' names nm last : valid_size dh dw -> 1 < dh * dw ->
  let parse c := parse_readout dh dw (counts_key c (((., dh * dw - 1) <$> names ++ [nm]) ++ [(last, dh * dw)])) (Some "Z"%string) in
  exists v X Z v' X' Z' X'' Z'',
    parse cs = Ok (v, (X, Z)) /\ parse cs' = Ok (v', (X', Z')) /\
    parse (differ cs cs') = Ok ((v + v') mod 2, (X'', Z'')) /\ NoDup X'' /\ NoDup Z'' /\
    (forall e, e ∈ X'' <-> in_one e X X') /\ (forall e, e ∈ Z'' <-> in_one e Z Z').
Proof.
  intros Hv H1 parse. unfold parse.
  destruct (C14_lattice_z dh dw cs names nm last Hv H1) as (X & Z & E & _ & _ & HX & HZ).
  destruct (C14_lattice_z dh dw cs' names nm last Hv H1) as (X' & Z' & E' & _ & _ & HX' & HZ').
  destruct (C14_lattice_z dh dw (differ cs cs') names nm last Hv H1) as (X'' & Z'' & E'' & N1 & N2 & HX'' & HZ'').
  match type of HX with forall e, _ <-> changes ?a _ _ _ _ => match type of HX' with forall e, _ <-> changes ?b _ _ _ _ => match type of HX'' with forall e, _ <-> changes ?c _ _ _ _ =>
    assert (A : adds a b c) end end end.
  { apply adds_app; [apply adds_recorded|]. intros i. unfold final_round. case_bool_decide; [|done].
    symmetry. apply xorl_xor. }
  eexists _, X, Z, _, X', Z', X'', Z''. split_and!; [exact E|exact E'| |done|done| |].
  - rewrite E''. do 2 f_equal. rewrite <-b2z_xor. f_equal. symmetry. apply xorl_xor.
  - intros e. unfold in_one. rewrite HX, HX', HX''. apply changes_add; [|done]. intros; by eapply (coord_x_inj dh).
  - intros e. unfold in_one. rewrite HZ, HZ', HZ''. apply changes_add; [|done]. intros; by eapply (coord_z_inj dh).
Qed.
Print Assumptions C81_add_lattice.

(** The order of the events is determined by the set of events. *)
Lemma hits_same n coord : (forall l1 l2, 0 <= l1 < n -> 0 <= l2 < n -> coord l1 = coord l2 -> l1 = l2) ->
  forall xs ys T, (forall e, e ∈ hits_from T xs n coord <-> e ∈ hits_from T ys n coord) -> hits_from T xs n coord = hits_from T ys n coord.
Proof.
  intros Hi. induction xs as [|x xs IH]; intros ys T H.
  - destruct (hits_from T ys n coord) as [|e l]; [done|]. destruct (not_elem_of_nil e). apply H. left.
  - destruct ys as [|y ys].
    + destruct (hits_from T (x :: xs) n coord) as [|e l]; [done|]. destruct (not_elem_of_nil e). apply (H e). left.
    + assert (B : forall loc, 0 <= loc < n -> Z.testbit x loc = Z.testbit y loc).
      { intros loc Hl. assert (K : forall z zs, (T, (coord loc).1, (coord loc).2) ∈ hits_from T (z :: zs) n coord <-> Z.testbit z loc = true).
        { intros z zs. rewrite elem_of_hits. split.
          - intros (k & syn & loc' & Hk & Hl' & Hb & Ht & Hc). assert (k = 0%nat) as -> by lia. injection Hk as ->.
            assert (loc = loc') as ->; [|done]. apply Hi; [done..|]. rewrite Hc. apply surjective_pairing.
          - intros Hb. exists 0%nat, z, loc. split_and!; try done; try lia. apply surjective_pairing. }
        specialize (H (T, (coord loc).1, (coord loc).2)). rewrite !K in H. destruct (Z.testbit x loc), (Z.testbit y loc); intuition congruence. }
      assert (HT : forall e, e ∈ hits_from (T + 1) xs n coord <-> e ∈ hits_from (T + 1) ys n coord).
      { assert (K : forall z zs t a b, (t, a, b) ∈ hits_from (T + 1) zs n coord <-> t <> T /\ (t, a, b) ∈ hits_from T (z :: zs) n coord).
        { intros z zs t a b. rewrite !elem_of_hits. split.
          - intros (k & syn & loc & Hk & Hl & Hb & Ht & Hc). split; [lia|]. exists (S k), syn, loc. split_and!; try done; lia.
          - intros (Hne & [|k] & syn & loc & Hk & Hl & Hb & Ht & Hc); [lia|]. exists k, syn, loc. split_and!; try done; lia. }
        intros [[t a] b]. rewrite (K x), (K y), H. done. }
      cbn [hits_from]. f_equal; [|by apply IH]. f_equal.
      assert (K : forall l : list Z, (forall i, i ∈ l -> 0 <= i < n) ->
        filter (fun loc => Z.land x (Z.shiftl 1 loc) <> 0) l = filter (fun loc => Z.land y (Z.shiftl 1 loc) <> 0) l).
      { induction l as [|i l IHl]; intros Hl; [done|]. pose proof (Hl i ltac:(left)) as Hb. rewrite !filter_cons.
        assert (D : (Z.land x (Z.shiftl 1 i) <> 0) <-> (Z.land y (Z.shiftl 1 i) <> 0)) by (rewrite !land_bit, B by lia; done).
        rewrite IHl by (intros; apply Hl; by right). do 2 case_decide; tauto || done. }
      apply K. intros i Hin%elem_of_seqZ. lia.
Qed.
Lemma parse_shape dh dw s ty v X Y : parse_readout dh dw s ty = Ok (v, (X, Y)) ->
  exists xs ys, X = hits xs (num_syn_x dh dw) (coord_x dw) /\ Y = hits ys (num_syn_z dh dw) (coord_z dw).
Proof.
  unfold parse_readout. destruct (match py_split s with [] => _ | _ :: _ => _ end) as [[lr chunks]|]; [|done].
  destruct (rmap py_int2 (reverse chunks)) as [ints|]; [|done]. cbv zeta.
  destruct (rmap _ (zip_with Z.lxor ints (tail ints))) as [xs|]; [|done].
  destruct (if bool_decide _ then _ else _) as [zs|]; [|done]. intros E. injection E as <- <- <-. eauto.
Qed.
(** Whatever the strings. *)
Theorem C81_order dh dw s s' ty ty' v v' X X' Y Y' : valid_size dh dw ->
  parse_readout dh dw s ty = Ok (v, (X, Y)) -> parse_readout dh dw s' ty' = Ok (v', (X', Y')) ->
  ((forall e, e ∈ X <-> e ∈ X') -> X = X') /\ ((forall e, e ∈ Y <-> e ∈ Y') -> Y = Y').
Proof.
  intros Hv (xs & ys & -> & ->)%parse_shape (xs' & ys' & -> & ->)%parse_shape. split; apply hits_same; intros.
  - by eapply (coord_x_inj dh).
  - by eapply (coord_z_inj dh).
Qed.
Print Assumptions C81_order.

(** No events and a value of 0: the rounds are all the same. *)
Lemma changes_none R n off coord : (forall e, ~ changes R n off coord e) ->
  forall j k r r', R !! j = Some r -> R !! k = Some r' -> forall loc, 0 <= loc < n -> r (off + loc) = r' (off + loc).
Proof.
  intros H. assert (Z0 : forall k r r0, R !! 0%nat = Some r0 -> R !! k = Some r -> forall loc, 0 <= loc < n -> r0 (off + loc) = r (off + loc)).
  { induction k as [|k IHk]; intros r r0 E0 E loc Hl; [congruence|].
    destruct (lookup_lt_is_Some_2 R k) as [s Es]; [apply lookup_lt_Some in E; lia|]. rewrite (IHk s r0 E0 Es loc Hl).
    destruct (decide (s (off + loc) = r (off + loc))) as [|Hn]; [done|]. destruct (H (Z.of_nat k, (coord loc).1, (coord loc).2)). by exists k, s, r, loc. }
  intros j k r r' Ej Ek loc Hl. destruct (lookup_lt_is_Some_2 R 0%nat) as [s Es]; [apply lookup_lt_Some in Ek; lia|].
  by rewrite <-(Z0 j r s Es Ej loc Hl), <-(Z0 k r' s Es Ek loc Hl).
Qed.
(** Two shots give the same value and the same events exactly when the bits read are equal and
    the bits in which they differ are the same in every round. *)
Theorem C81_alike dh dw cs cs' names last ty : valid_size dh dw -> 1 < dh * dw ->
  let parse c := parse_readout dh dw (counts_key c (((., dh * dw - 1) <$> names) ++ [(last, 1)])) ty in
  exists v X Z v' X' Z',
    parse cs = Ok (v, (X, Z)) /\ parse cs' = Ok (v', (X', Z')) /\
    (v = v' <-> cs (last, 0) = cs' (last, 0)) /\
    ((X = X' /\ Z = Z') <->
     forall a b i, a ∈ names -> b ∈ names -> 0 <= i < dh * dw - 1 -> differ cs cs' (a, i) = differ cs cs' (b, i)).
Proof.
  intros Hv H1 parse. unfold parse. destruct (counts_pos dh dw Hv H1) as (Hx & Hz & Hs).
  destruct (C21_round_trip dh dw cs names last ty Hv H1) as (X & Z & E & D1 & D2 & HX & HZ).
  destruct (C21_round_trip dh dw cs' names last ty Hv H1) as (X' & Z' & E' & D1' & D2' & HX' & HZ').
  eexists _, X, Z, _, X', Z'. split_and!; [exact E|exact E'|by destruct (cs (last, 0)), (cs' (last, 0))|].
  destruct (C81_order _ _ _ _ _ _ _ _ _ _ _ _ Hv E E') as [OX OZ].
  pose proof (adds_recorded cs cs' names) as A.
  assert (CX := fun e => changes_add _ _ _ (num_syn_x dh dw) (num_syn_z dh dw) (coord_x dw) e (fun l1 l2 p q => coord_x_inj dh dw l1 l2 Hv p q) A).
  assert (CZ := fun e => changes_add _ _ _ (num_syn_z dh dw) 0 (coord_z dw) e (fun l1 l2 p q => coord_z_inj dh dw l1 l2 Hv p q) A).
  split.
  - intros (PX & PZ) a b i [j Ha]%elem_of_list_lookup [k Hb]%elem_of_list_lookup Hi.
    assert (Ra : recorded (differ cs cs') names !! j = Some (fun i => differ cs cs' (a, i))) by (unfold recorded; by rewrite list_lookup_fmap, Ha).
    assert (Rb : recorded (differ cs cs') names !! k = Some (fun i => differ cs cs' (b, i))) by (unfold recorded; by rewrite list_lookup_fmap, Hb).
    destruct (decide (i < num_syn_z dh dw)) as [Hn|Hn].
    + refine (changes_none _ (num_syn_z dh dw) 0 (coord_z dw) _ j k _ _ Ra Rb i _); [|lia].
      intros e. rewrite CZ, <-HZ, <-HZ', PZ. tauto.
    + assert (EQ := changes_none _ (num_syn_x dh dw) (num_syn_z dh dw) (coord_x dw) ltac:(intros e; rewrite CX, <-HX, <-HX', PX; tauto) j k _ _ Ra Rb (i - num_syn_z dh dw) ltac:(lia)).
      cbn beta in EQ. by replace (num_syn_z dh dw + (i - num_syn_z dh dw)) with i in EQ by lia.
  - intros Hc.
    assert (NC : forall n off coord e, 0 <= off -> off + n <= dh * dw - 1 -> ~ changes (recorded (differ cs cs') names) n off coord e).
    { intros n off coord e Ho Hn (k & r & r' & loc & Hr & Hr' & Hl & Hne & _). unfold recorded in Hr, Hr'. rewrite list_lookup_fmap in Hr, Hr'.
      destruct (names !! k) as [a|] eqn:Ea; [|done]. destruct (names !! S k) as [b|] eqn:Eb; [|done]. injection Hr as <-. injection Hr' as <-.
      apply Hne, Hc; [by eapply elem_of_list_lookup_2..|lia]. }
    split; [apply OX|apply OZ]; intros e.
    + specialize (CX e). rewrite <-HX, <-HX' in CX. pose proof (NC (num_syn_x dh dw) (num_syn_z dh dw) (coord_x dw) e ltac:(lia) ltac:(lia)) as N.
      destruct (decide (e ∈ X)), (decide (e ∈ X')); tauto.
    + specialize (CZ e). rewrite <-HZ, <-HZ' in CZ. pose proof (NC (num_syn_z dh dw) 0 (coord_z dw) e ltac:(lia) ltac:(lia)) as N.
      destruct (decide (e ∈ Z)), (decide (e ∈ Z')); tauto.
Qed.
Print Assumptions C81_alike.

(** The same for a lattice readout in the Z basis.  The last round is deduced from the data bits: the
    parity of the differing data bits around a Z stabilizer must be its difference in the rounds
    before; other data bits are not seen, except for the parity of the top row. *)
Theorem C81_alike_lattice dh dw cs cs' names nm last : valid_size dh dw -> 1 < dh * dw ->
  let parse c := parse_readout dh dw (counts_key c (((., dh * dw - 1) <$> names ++ [nm]) ++ [(last, dh * dw)])) (Some "Z"%string) in
  let D := differ cs cs' in
  exists v X Z v' X' Z',
    parse cs = Ok (v, (X, Z)) /\ parse cs' = Ok (v', (X', Z')) /\
    (v = v' <-> xorl ((fun j => D (last, j)) <$> seqZ 0 dw) = false) /\
    ((X = X' /\ Z = Z') <->
     (forall a i, a ∈ names -> 0 <= i < dh * dw - 1 -> D (a, i) = D (nm, i)) /\
     (forall i, 0 <= i < num_syn_z dh dw -> xorl ((fun j => D (last, j)) <$> plaq_data (geom_z dh dw i)) = D (nm, i))).
Proof.
  intros Hv H1 parse D. unfold parse. destruct (counts_pos dh dw Hv H1) as (Hx & Hz & Hs).
  destruct (C14_lattice_z dh dw cs names nm last Hv H1) as (X & Z & E & D1 & D2 & HX & HZ).
  destruct (C14_lattice_z dh dw cs' names nm last Hv H1) as (X' & Z' & E' & D1' & D2' & HX' & HZ').
  set (F := final_round dh dw (fun j => D (last, j)) (fun i => D (nm, i))). set (R := recorded D (names ++ [nm]) ++ [F]).
  match type of HX with forall e, _ <-> changes ?a _ _ _ _ => match type of HX' with forall e, _ <-> changes ?b _ _ _ _ => assert (A : adds a b R) end end.
  { apply adds_app; [apply adds_recorded|]. intros i. unfold F, final_round. case_bool_decide; [|done]. symmetry. apply xorl_xor. }
  assert (EV : Z.b2z (xorl ((fun j => cs (last, j)) <$> seqZ 0 dw)) = Z.b2z (xorl ((fun j => cs' (last, j)) <$> seqZ 0 dw)) <-> xorl ((fun j => D (last, j)) <$> seqZ 0 dw) = false).
  { unfold D, differ. rewrite <-xorl_xor. destruct (xorl ((fun j => cs (last, j)) <$> seqZ 0 dw)), (xorl ((fun j => cs' (last, j)) <$> seqZ 0 dw)); done. }
  eexists _, X, Z, _, X', Z'. split_and!; [exact E|exact E'|exact EV|].
  destruct (C81_order _ _ _ _ _ _ _ _ _ _ _ _ Hv E E') as [OX OZ].
  assert (CX := fun e => changes_add _ _ _ (num_syn_x dh dw) (num_syn_z dh dw) (coord_x dw) e (fun l1 l2 p q => coord_x_inj dh dw l1 l2 Hv p q) A).
  assert (CZ := fun e => changes_add _ _ _ (num_syn_z dh dw) 0 (coord_z dw) e (fun l1 l2 p q => coord_z_inj dh dw l1 l2 Hv p q) A).
  assert (RN : forall a, a ∈ names ++ [nm] -> exists j, R !! j = Some (fun i => D (a, i))).
  { intros a [j Ha]%elem_of_list_lookup. exists j. unfold R. rewrite lookup_app_l by (unfold recorded; rewrite fmap_length; by eapply lookup_lt_Some).
    unfold recorded. by rewrite list_lookup_fmap, Ha. }
  assert (RF : exists j, R !! j = Some F) by (exists (length (recorded D (names ++ [nm]))); unfold R; by rewrite lookup_app_r, Nat.sub_diag by lia).
  assert (Hnm : nm ∈ names ++ [nm]) by (apply elem_of_app; right; by apply elem_of_list_singleton).
  split.
  - intros (PX & PZ).
    assert (SX := changes_none R (num_syn_x dh dw) (num_syn_z dh dw) (coord_x dw) ltac:(intros e; rewrite CX, <-HX, <-HX', PX; tauto)).
    assert (SZ := changes_none R (num_syn_z dh dw) 0 (coord_z dw) ltac:(intros e; rewrite CZ, <-HZ, <-HZ', PZ; tauto)).
    destruct (RN nm Hnm) as [m Em]. split.
    + intros a i Ha Hi. destruct (RN a) as [j Ej]; [apply elem_of_app; by left|]. destruct (decide (i < num_syn_z dh dw)).
      * exact (SZ j m _ _ Ej Em i ltac:(lia)).
      * assert (EQ := SX j m _ _ Ej Em (i - num_syn_z dh dw) ltac:(lia)). cbn beta in EQ. by replace (num_syn_z dh dw + (i - num_syn_z dh dw)) with i in EQ by lia.
    + intros i Hi. destruct RF as [j Ej]. assert (EQ := SZ j m _ _ Ej Em i ltac:(lia)). cbn beta in EQ. unfold F, final_round in EQ.
      rewrite Z.add_0_l in EQ. by rewrite bool_decide_eq_true_2 in EQ by lia.
  - intros (HN & HF).
    assert (All : forall j r, R !! j = Some r -> forall i, 0 <= i < dh * dw - 1 -> r i = D (nm, i)).
    { intros j r Hr i Hi. unfold R in Hr. apply lookup_app_Some in Hr as [Hr|[_ Hr]].
      - unfold recorded in Hr. rewrite list_lookup_fmap in Hr. destruct ((names ++ [nm]) !! j) as [a|] eqn:Ea; [|done]. injection Hr as <-.
        apply elem_of_list_lookup_2, elem_of_app in Ea as [Ha|Ha]; [by apply HN|]. apply elem_of_list_singleton in Ha. by subst.
      - destruct (j - _)%nat; [|done]. injection Hr as <-. unfold F, final_round. case_bool_decide; [apply HF; lia|done]. }
    assert (NC : forall n off coord e, 0 <= off -> off + n <= dh * dw - 1 -> ~ changes R n off coord e).
    { intros n off coord e Ho Hn (k & r & r' & loc & Hr & Hr' & Hl & Hne & _). destruct Hne. rewrite (All _ _ Hr), (All _ _ Hr') by lia. done. }
    split; [apply OX|apply OZ]; intros e.
    + specialize (CX e). rewrite <-HX, <-HX' in CX. pose proof (NC (num_syn_x dh dw) (num_syn_z dh dw) (coord_x dw) e ltac:(lia) ltac:(lia)) as N.
      destruct (decide (e ∈ X)), (decide (e ∈ X')); tauto.
    + specialize (CZ e). rewrite <-HZ, <-HZ' in CZ. pose proof (NC (num_syn_z dh dw) 0 (coord_z dw) e ltac:(lia) ltac:(lia)) as N.
      destruct (decide (e ∈ Z)), (decide (e ∈ Z')); tauto.
Qed.
Print Assumptions C81_alike_lattice.

(** Shots with given events. *)
Fixpoint wanted (dh dw : Z) (X Y : list event_loc) (k : nat) (i : Z) : bool :=
  match k with
  | O => false
  | S k => xorb (wanted dh dw X Y k i)
      (if bool_decide (i < num_syn_z dh dw) then bool_decide ((Z.of_nat k, (coord_z dw i).1, (coord_z dw i).2) ∈ Y)
       else bool_decide ((Z.of_nat k, (coord_x dw (i - num_syn_z dh dw)).1, (coord_x dw (i - num_syn_z dh dw)).2) ∈ X))
  end.
Definition wanted_shot (dh dw : Z) (X Y : list event_loc) (names : list string) (v : bool) (c : clbit) : bool :=
  match list_find (eq c.1) names with Some (k, _) => wanted dh dw X Y k c.2 | None => v end.
Lemma wanted_rounds dh dw X Y names v : NoDup names ->
  forall k a, names !! k = Some a -> forall i, wanted_shot dh dw X Y names v (a, i) = wanted dh dw X Y k i.
Proof.
  intros Hn k a Ha i. unfold wanted_shot. cbn [fst snd].
  assert (list_find (eq a) names = Some (k, a)) as ->; [|done]. apply list_find_Some. split_and!; [done..|].
  intros j y Hj Hl <-. assert (j = k) by (by eapply NoDup_lookup). lia.
Qed.
(** Every value and every two lists of events at the places of stabilizers, between rounds that
    were recorded, are reported for some shot. *)
Theorem C81_any dh dw names last ty (v : bool) (X Y : list event_loc) : valid_size dh dw -> 1 < dh * dw ->
  NoDup names -> last ∉ names ->
  (forall e, e ∈ X -> exists k loc, (S k < length names)%nat /\ 0 <= loc < num_syn_x dh dw /\ e = (Z.of_nat k, (coord_x dw loc).1, (coord_x dw loc).2)) ->
  (forall e, e ∈ Y -> exists k loc, (S k < length names)%nat /\ 0 <= loc < num_syn_z dh dw /\ e = (Z.of_nat k, (coord_z dw loc).1, (coord_z dw loc).2)) ->
  exists cs X' Z', parse_readout dh dw (counts_key cs (((., dh * dw - 1) <$> names) ++ [(last, 1)])) ty = Ok (Z.b2z v, (X', Z')) /\
    NoDup X' /\ NoDup Z' /\ (forall e, e ∈ X' <-> e ∈ X) /\ (forall e, e ∈ Z' <-> e ∈ Y).
Proof.
  intros Hv H1 Hn Hl WX WZ. destruct (counts_pos dh dw Hv H1) as (Hx & Hz & Hs). set (cs := wanted_shot dh dw X Y names v).
  destruct (C21_round_trip dh dw cs names last ty Hv H1) as (X' & Z' & E & D1 & D2 & HX & HZ).
  exists cs, X', Z'. assert (Ev : cs (last, 0) = v).
  { unfold cs, wanted_shot. cbn [fst]. destruct (list_find (eq last) names) as [[k a]|] eqn:El; [|done].
    apply list_find_Some in El as (Hk & -> & _). destruct Hl. by eapply elem_of_list_lookup_2. }
  rewrite Ev in E.
  assert (RR : forall k r, recorded cs names !! k = Some r -> forall i, r i = wanted dh dw X Y k i).
  { intros k r Hr i. unfold recorded in Hr. rewrite list_lookup_fmap in Hr. destruct (names !! k) as [a|] eqn:Ea; [|done]. injection Hr as <-. by apply wanted_rounds. }
  assert (RL : forall k, (S k < length names)%nat -> exists r r', recorded cs names !! k = Some r /\ recorded cs names !! S k = Some r').
  { intros k Hk. unfold recorded. destruct (lookup_lt_is_Some_2 names k) as [a Ha]; [lia|]. destruct (lookup_lt_is_Some_2 names (S k)) as [b Hb]; [lia|].
    rewrite !list_lookup_fmap, Ha, Hb. by eexists _, _. }
  split_and!; [exact E|done|done| |]; intros e.
  - rewrite HX. split.
    + intros (k & r & r' & loc & Hr & Hr' & Hloc & Hne & ->). rewrite (RR _ _ Hr), (RR _ _ Hr') in Hne. cbn [wanted] in Hne.
      rewrite (bool_decide_eq_false_2 (_ < _)) in Hne by lia. replace (num_syn_z dh dw + loc - num_syn_z dh dw) with loc in Hne by lia.
      case_bool_decide as B; [done|]. rewrite xorb_false_r in Hne. done.
    + intros He. destruct (WX e He) as (k & loc & Hk & Hloc & ->). destruct (RL k Hk) as (r & r' & Hr & Hr'). exists k, r, r', loc. split_and!; try done; try lia.
      rewrite (RR _ _ Hr), (RR _ _ Hr'). cbn [wanted].
      rewrite (bool_decide_eq_false_2 (_ < _)) by lia. replace (num_syn_z dh dw + loc - num_syn_z dh dw) with loc by lia.
      rewrite bool_decide_eq_true_2 by done. by destruct (wanted _ _ _ _ _ _).
  - rewrite HZ. split.
    + intros (k & r & r' & loc & Hr & Hr' & Hloc & Hne & ->). rewrite (RR _ _ Hr), (RR _ _ Hr') in Hne. cbn [wanted] in Hne.
      rewrite (bool_decide_eq_true_2 (_ < _)) in Hne by lia. rewrite Z.add_0_l in Hne.
      case_bool_decide as B; [done|]. rewrite xorb_false_r in Hne. done.
    + intros He. destruct (WZ e He) as (k & loc & Hk & Hloc & ->). destruct (RL k Hk) as (r & r' & Hr & Hr'). exists k, r, r', loc. split_and!; try done; try lia.
      rewrite (RR _ _ Hr), (RR _ _ Hr'). cbn [wanted].
      rewrite (bool_decide_eq_true_2 (_ < _)) by lia. rewrite Z.add_0_l.
      rewrite bool_decide_eq_true_2 by done. by destruct (wanted _ _ _ _ _ _).
Qed.
Print Assumptions C81_any.

(** 3x3, three rounds.  The first shot has events (0,1,1) and (1,1,1) for a misread Z stabilizer,
    the second (1,1,1) and (1,1,3); together (0,1,1) and (1,1,3) remain, and the values 1, 1 cancel. *)
Definition shot_a (b : clbit) : bool := bool_decide (b ∈ [("a1", 0); ("r", 0)]%string).
Definition shot_b (b : clbit) : bool := bool_decide (b ∈ [("a2", 0); ("a2", 5); ("r", 0)]%string).
Example C81_ex_add :
  let parse c := parse_readout 3 3 (counts_key c (((., 8) <$> ["a0"; "a1"; "a2"]%string) ++ [("r", 1)]%string)) None in
  valid_size 3 3 /\ parse shot_a = Ok (1, ([], [(0, 1, 1); (1, 1, 1)])) /\ parse shot_b = Ok (1, ([(1, 1, 3)], [(1, 1, 1)])) /\
  parse (differ shot_a shot_b) = Ok (0, ([(1, 1, 3)], [(0, 1, 1)])).
Proof. split; [unfold valid_size; cbn; lia|]. split_and!; vm_compute; reflexivity. Qed.
(** Bit 6, an X stabilizer, random but the same in every round: alike. *)
Definition shot_c (b : clbit) : bool := xorb (shot_a b) (bool_decide (b ∈ [("a0", 6); ("a1", 6); ("a2", 6)]%string)).
Example C81_ex_alike :
  let parse c := parse_readout 3 3 (counts_key c (((., 8) <$> ["a0"; "a1"; "a2"]%string) ++ [("r", 1)]%string)) None in
  (counts_key shot_c (((., 8) <$> ["a0"; "a1"; "a2"]%string) ++ [("r", 1)]%string) = "1 01000000 01000001 01000000")%string /\
  parse shot_c = parse shot_a.
Proof. split; vm_compute; reflexivity. Qed.
Example C81_ex_any :
  let names := ["a0"; "a1"; "a2"]%string in let X := [(1, 1, 3)] in let Y := [(0, 1, 1)] in
  parse_readout 3 3 (counts_key (wanted_shot 3 3 X Y names true) (((., 8) <$> names) ++ [("r", 1)]%string)) None = Ok (1, (X, Y)) /\
  (exists k loc, (S k < length names)%nat /\ 0 <= loc < num_syn_x 3 3 /\ (1, 1, 3) = (Z.of_nat k, (coord_x 3 loc).1, (coord_x 3 loc).2)).
Proof. split; [vm_compute; reflexivity|]. exists 1%nat, 1. split_and!; [cbn; lia|vm_compute; done|vm_compute; done|vm_compute; reflexivity]. Qed.
(** A lattice readout: the middle qubit flipped, and the qubit above it. *)
Example C81_ex_lattice :
  let parse c := parse_readout 3 3 (counts_key c (((., 8) <$> ["a0"; "a1"]%string) ++ [("f", 9)]%string)) (Some "Z"%string) in
  let a : clbit -> bool := fun b => bool_decide (b = ("f", 4)%string) in
  let b : clbit -> bool := fun b => bool_decide (b = ("f", 1)%string) in
  parse a = Ok (0, ([], [(1, 1, 1); (1, 3, 3)])) /\ parse b = Ok (1, ([], [(1, 1, 1)])) /\ parse (differ a b) = Ok (1, ([], [(1, 3, 3)])).
Proof. split_and!; vm_compute; reflexivity. Qed.
(** Both qubits of an X stabilizer of the boundary, and a Z stabilizer in both rounds with a
    qubit that only it has: not seen. *)
Example C81_ex_alike_lattice :
  let parse c := parse_readout 3 3 (counts_key c (((., 8) <$> ["a0"; "a1"]%string) ++ [("f", 9)]%string)) (Some "Z"%string) in
  let a : clbit -> bool := fun b => bool_decide (b = ("f", 4)%string) in
  let b : clbit -> bool := fun b => bool_decide (b ∈ [("f", 4); ("f", 0); ("f", 1); ("a0", 2); ("a1", 2); ("f", 6)]%string) in
  parse a = Ok (0, ([], [(1, 1, 1); (1, 3, 3)])) /\ parse b = parse a.
Proof. split; vm_compute; reflexivity. Qed.
