(** Facts about strings, binary numerals and [parse_readout]. *)
From Verif Require Import Parse SyndromeFacts.
From Coq Require Import Ascii.
From stdpp Require Export list.
Open Scope Z_scope.

(** ** Strings of bits *)
Lemma sob_app a b : string_of_bits (a ++ b) = (string_of_bits a +:+ string_of_bits b)%string.
Proof. induction a as [|x a IH]; [done|]. cbn [app string_of_bits]. by rewrite IH. Qed.
Lemma sob_take n l : str_take n (string_of_bits l) = string_of_bits (take n l).
Proof. revert l. induction n as [|n IH]; intros [|x l]; cbn; try done. by rewrite IH. Qed.
Lemma sob_len l : String.length (string_of_bits l) = length l.
Proof. induction l; cbn; congruence. Qed.
Lemma rep_sob n (b : bool) : str_rep n (char_of_bit b) = string_of_bits (replicate n b).
Proof. induction n as [|n IH]; [done|]. cbn. by rewrite IH. Qed.
Lemma sob_list l : String.list_ascii_of_string (string_of_bits l) = char_of_bit <$> l.
Proof. induction l as [|x l IH]; [done|]. cbn. by rewrite IH. Qed.
Lemma bits_sob l : bits_of_string (string_of_bits l) = Ok l.
Proof. induction l as [|x l IH]; [done|]. cbn. destruct x; cbn; by rewrite IH. Qed.
Lemma digit_sob b : py_digit (char_of_bit b) = Ok (Z.b2z b).
Proof. destruct b; vm_compute; reflexivity. Qed.
Lemma str_bit b : py_str (Z.b2z b) = string_of_bits [b].
Proof. destruct b; vm_compute; reflexivity. Qed.

(** ** [rmap] *)
Lemma rmap_ok {A B} (f : A -> res B) (g : A -> B) l : (forall x, x ∈ l -> f x = Ok (g x)) -> rmap f l = Ok (g <$> l).
Proof.
  induction l as [|x l IH]; intros H; [done|]. cbn. rewrite H by (by left). rewrite IH; [done|]. intros y Hy. apply H. by right.
Qed.

(** ** Splitting *)
Definition no_blank (s : string) : Prop := forall c, c ∈ String.list_ascii_of_string s -> c <> " "%char.
Lemma sob_no_blank l : no_blank (string_of_bits l).
Proof. intros c. rewrite sob_list. intros (b & -> & _)%elem_of_list_fmap. by destruct b. Qed.
Lemma split_word w s : no_blank w -> py_split (w +:+ String " " s)%string = w :: py_split s.
Proof.
  induction w as [|c w IH]; intros H; [done|]. change (String c w +:+ String " " s)%string with (String c (w +:+ String " " s)%string).
  cbn [py_split]. destruct (Ascii.eqb_spec c " ") as [->|Hc]; [by destruct (H " "%char (elem_of_list_here _ _))|].
  rewrite IH; [done|]. intros c' Hc'. apply H. by right.
Qed.
Lemma split_one w : no_blank w -> py_split w = [w].
Proof.
  induction w as [|c w IH]; intros H; [done|]. cbn [py_split].
  destruct (Ascii.eqb_spec c " ") as [->|Hc]; [by destruct (H " "%char (elem_of_list_here _ _))|].
  rewrite IH; [done|]. intros c' Hc'. apply H. by right.
Qed.
Lemma split_join l : l <> [] -> Forall no_blank l -> py_split (py_join l) = l.
Proof.
  induction l as [|w l IH]; intros Hl HF; [done|]. apply Forall_cons in HF as [Hw HF]. destruct l as [|w' l].
  - by apply split_one.
  - change (py_join (w :: w' :: l)) with (w +:+ String " " (py_join (w' :: l)))%string. rewrite split_word by done. by rewrite IH.
Qed.

(** ** Binary numerals *)
Lemma zob_app bs b : Z_of_bits (bs ++ [b]) = 2 * Z_of_bits bs + Z.b2z b.
Proof. unfold Z_of_bits. rewrite fold_left_app. cbn. by destruct b. Qed.
Lemma zob_testbit bs i : 0 <= i -> Z.testbit (Z_of_bits bs) i = default false (reverse bs !! Z.to_nat i).
Proof.
  revert i. induction bs as [|b bs IH] using rev_ind; intros i Hi; [by rewrite Z.testbit_0_l|].
  rewrite zob_app, reverse_app. cbn [reverse app rev_append]. change (rev_append [b] []) with [b]. cbn [app].
  destruct (decide (i = 0)) as [->|Hn]; [by rewrite Z.testbit_0_r|].
  replace i with (Z.succ (i - 1)) at 1 by lia. rewrite Z.testbit_succ_r by lia. rewrite IH by lia.
  by replace (Z.to_nat i) with (S (Z.to_nat (i - 1))) by lia.
Qed.
(** The register holding bits f 0 .. f (n-1), most significant first. *)
Definition bits_str (n : Z) (f : Z -> bool) : string := string_of_bits (reverse (f <$> seqZ 0 n)).
Definition bits_val (n : Z) (f : Z -> bool) : Z := Z_of_bits (reverse (f <$> seqZ 0 n)).
Lemma bits_testbit n f i : 0 <= i -> Z.testbit (bits_val n f) i = bool_decide (i < n) && f i.
Proof.
  intros Hi. unfold bits_val. rewrite zob_testbit by done. rewrite reverse_involutive, list_lookup_fmap.
  destruct (decide (i < n)) as [Hn|Hn].
  - rewrite lookup_seqZ_lt by lia. rewrite bool_decide_eq_true_2 by done. cbn. f_equal. lia.
  - rewrite lookup_seqZ_ge by lia. by rewrite bool_decide_eq_false_2.
Qed.
Lemma int_digits_sob us bs : (us = true -> bs <> []) -> int_digits us (string_of_bits bs) = Some (bs, EmptyString).
Proof.
  revert us. induction bs as [|b bs IHl]; intros us H; [destruct us; [by destruct (H eq_refl)|done]|].
  cbn [string_of_bits int_digits]. rewrite IHl by done. by destruct b.
Qed.
Lemma py_int2_sob bs : bs <> [] -> py_int2 (string_of_bits bs) = Ok (Z_of_bits bs).
Proof.
  intros Hb. unfold py_int2. assert (E : int_sign (int_lstrip (string_of_bits bs)) = (1, string_of_bits bs)) by (destruct bs as [|[] ?]; done).
  rewrite E. assert (E2 : int_prefix (string_of_bits bs) = string_of_bits bs) by (destruct bs as [|[] [|[] ?]]; done).
  rewrite E2, int_digits_sob by done. cbn [int_blank]. by rewrite Z.mul_1_l.
Qed.
Lemma py_int2_bits n f : 0 < n -> py_int2 (bits_str n f) = Ok (bits_val n f).
Proof.
  intros Hn. apply py_int2_sob. intros E. apply (f_equal length) in E. rewrite reverse_length, fmap_length, seqZ_length in E. cbn in E. lia.
Qed.
Lemma bits_len n f : String.length (bits_str n f) = Z.to_nat n.
Proof. unfold bits_str. by rewrite sob_len, reverse_length, fmap_length, seqZ_length. Qed.
Lemma bits_no_blank n f : no_blank (bits_str n f).
Proof. apply sob_no_blank. Qed.
Lemma bits_ext n f g : (forall i, 0 <= i < n -> f i = g i) -> bits_str n f = bits_str n g.
Proof.
  intros H. unfold bits_str. do 2 f_equal. apply list_fmap_ext. intros k i Hi. apply H.
  apply lookup_seqZ in Hi. lia.
Qed.
Lemma seqZ_split a m n : 0 <= m -> 0 <= n -> seqZ a (m + n) = seqZ a m ++ seqZ (a + m) n.
Proof. intros. apply seqZ_app; lia. Qed.
Lemma bits_split m n f : 0 <= m -> 0 <= n ->
  bits_str (m + n) f = (bits_str n (fun i => f (m + i)%Z) +:+ bits_str m f)%string.
Proof.
  intros. unfold bits_str. rewrite seqZ_split, fmap_app, reverse_app, sob_app by lia. do 3 f_equal.
  rewrite Z.add_0_l. rewrite <-(Z.add_0_r m) at 1. rewrite <-fmap_add_seqZ. by rewrite <-list_fmap_compose.
Qed.
Lemma rep_bits n b : str_rep (Z.to_nat n) (char_of_bit b) = bits_str n (fun _ => b).
Proof.
  rewrite rep_sob. unfold bits_str. f_equal. apply replicate_as_Forall. split.
  - by rewrite reverse_length, fmap_length, seqZ_length.
  - apply Forall_reverse, Forall_fmap, list.Forall_forall. done.
Qed.

(** ** Event lists *)
Lemma land_bit a n : 0 <= n -> Z.land a (Z.shiftl 1 n) <> 0 <-> Z.testbit a n = true.
Proof.
  intros Hn. rewrite Z.shiftl_1_l.
  destruct (Z.testbit a n) eqn:E; split; try done; intros H.
  - intros HE. apply (f_equal (fun z => Z.testbit z n)) in HE. rewrite Z.land_spec, E, Z.pow2_bits_true, Z.testbit_0_l in HE by done. done.
  - destruct H. apply Z.bits_inj'. intros m Hm. rewrite Z.land_spec, Z.testbit_0_l, Z.pow2_bits_eqb by done.
    destruct (Z.eqb_spec n m) as [->|]; [by rewrite E|by rewrite andb_false_r].
Qed.
Lemma elem_of_hits T syns n coord t y x : (t, y, x) ∈ hits_from T syns n coord <->
  exists k syn loc, syns !! k = Some syn /\ 0 <= loc < n /\ Z.testbit syn loc = true /\ t = T + Z.of_nat k /\ coord loc = (y, x).
Proof.
  revert T. induction syns as [|syn syns IH]; intros T; cbn [hits_from].
  - split; [by intros ?%elem_of_nil|]. intros (k & ? & ? & ? & _). done.
  - rewrite elem_of_app, IH. split.
    + intros [H|(k & s & loc & H1 & H2 & H3 & H4 & H5)].
      * apply elem_of_list_fmap in H as (loc & E & H). apply elem_of_list_filter in H as [H1 H2].
        apply elem_of_seqZ in H2. apply land_bit in H1; [|lia]. injection E as -> -> ->.
        exists 0%nat, syn, loc. split_and!; try done; try lia. by destruct (coord loc).
      * exists (S k), s, loc. split_and!; try done; lia.
    + intros ([|k] & s & loc & H1 & H2 & H3 & H4 & H5).
      * left. injection H1 as ->. apply elem_of_list_fmap. exists loc. rewrite H5. split; [cbn; f_equal; f_equal; lia|].
        apply elem_of_list_filter. split; [apply land_bit; [lia|done]|]. apply elem_of_seqZ. lia.
      * right. exists k, s, loc. split_and!; try done; lia.
Qed.
Lemma hits_NoDup T syns n coord :
  (forall l1 l2, 0 <= l1 < n -> 0 <= l2 < n -> coord l1 = coord l2 -> l1 = l2) -> NoDup (hits_from T syns n coord).
Proof.
  intros Hinj. revert T. induction syns as [|syn syns IH]; intros T; cbn [hits_from]; [constructor|].
  apply NoDup_app. split_and!; [| |apply IH].
  - apply NoDup_fmap_2_strong; [|apply NoDup_filter, NoDup_seqZ].
    intros l1 l2 [_ H1]%elem_of_list_filter [_ H2]%elem_of_list_filter E. apply elem_of_seqZ in H1, H2.
    injection E as E1 E2. apply Hinj; [lia..|]. by rewrite (surjective_pairing (coord l1)), (surjective_pairing (coord l2)), E1, E2.
  - intros [[t y] x] (loc & E & _)%elem_of_list_fmap. injection E as -> _ _. rewrite elem_of_hits.
    intros (k & ? & ? & _ & _ & _ & E & _). lia.
Qed.

(** ** The common part: from the list of rounds to the events *)
(** Event (t, y, x) of a stabilizer type: the stabilizer at (y, x) changes between rounds t
    and t + 1. *)
Definition changes (rounds : list (Z -> bool)) (n off : Z) (coord : Z -> Z * Z) (e : event_loc) : Prop :=
  exists k r r' loc, rounds !! k = Some r /\ rounds !! S k = Some r' /\ 0 <= loc < n /\ r (off + loc) <> r' (off + loc) /\
    e = (Z.of_nat k, (coord loc).1, (coord loc).2).
Lemma counts_pos dh dw : valid_size dh dw -> 1 < dh * dw ->
  0 <= num_syn_x dh dw /\ 0 <= num_syn_z dh dw /\ num_syn_x dh dw + num_syn_z dh dw = dh * dw - 1.
Proof.
  intros Hv H. destruct (valid_size_inv _ _ Hv) as (h & w & -> & -> & Hh & Hw). unfold num_syn_x, num_syn_z.
  replace ((2 * h + 1 + 1) / 2) with (h + 1) by (rewrite <-(Z.div_mul (h + 1) 2) by lia; f_equal; lia).
  replace ((2 * w + 1 + 1) / 2) with (w + 1) by (rewrite <-(Z.div_mul (w + 1) 2) by lia; f_equal; lia). nia.
Qed.
Definition tail_part (dh dw lr : Z) (chunks : list string) : res (Z * (list event_loc * list event_loc)) :=
    match rmap py_int2 (reverse chunks) with
    | Err e => Err e
    | Ok ints =>
      let xors := zip_with Z.lxor ints (tail ints) in
      let nx := num_syn_x dh dw in let nz := num_syn_z dh dw in
      let mask_z := str_rep (Z.to_nat nz) "1" in
      let mask_x := (str_rep (Z.to_nat nx) "1" +:+ str_rep (Z.to_nat nz) "0")%string in
      match rmap (fun x => match py_int2 mask_x with Ok m => Ok (Z.shiftr (Z.land x m) nz) | Err e => Err e end) xors with
      | Err e => Err e
      | Ok xs =>
        match (if bool_decide (mask_z = EmptyString) then Ok []
               else rmap (fun x => match py_int2 mask_z with Ok m => Ok (Z.land x m) | Err e => Err e end) xors) with
        | Err e => Err e
        | Ok zs => Ok (lr, (hits xs nx (coord_x dw), hits zs nz (coord_z dw)))
        end
      end
    end.
Lemma elem_of_xors_lookup (l : list Z) k x : zip_with Z.lxor l (tail l) !! k = Some x <->
  exists a b, l !! k = Some a /\ l !! S k = Some b /\ x = Z.lxor a b.
Proof.
  rewrite lookup_zip_with_Some. split.
  - intros (a & b & -> & H1 & H2). exists a, b. split_and!; try done. by rewrite <-lookup_tail.
  - intros (a & b & H1 & H2 & ->). exists a, b. split_and!; try done. by rewrite lookup_tail.
Qed.
Lemma tail_part_ok dh dw lr (rounds : list (Z -> bool)) : valid_size dh dw -> 1 < dh * dw ->
  exists X Z, tail_part dh dw lr (reverse (bits_str (dh * dw - 1) <$> rounds)) = Ok (lr, (X, Z)) /\
    NoDup X /\ NoDup Z /\
    (forall e, e ∈ X <-> changes rounds (num_syn_x dh dw) (num_syn_z dh dw) (coord_x dw) e) /\
    (forall e, e ∈ Z <-> changes rounds (num_syn_z dh dw) 0 (coord_z dw) e).
Proof.
  intros Hv H1. destruct (counts_pos dh dw Hv H1) as (Hx & Hz & Hs). unfold tail_part. rewrite reverse_involutive.
  set (n := dh * dw - 1) in *. set (nx := num_syn_x dh dw) in *. set (nz := num_syn_z dh dw) in *.
  assert (E1 : rmap py_int2 (bits_str n <$> rounds) = Ok (bits_val n <$> rounds)).
  { clear -H1. assert (0 < n) by lia. induction rounds as [|r l IH]; [done|]. cbn. rewrite py_int2_bits by done. by rewrite IH. }
  rewrite E1. clear E1.
  set (xors := zip_with Z.lxor (bits_val n <$> rounds) (tail (bits_val n <$> rounds))). cbv zeta.
  assert (EX : py_int2 (str_rep (Z.to_nat nx) "1" +:+ str_rep (Z.to_nat nz) "0")%string =
    Ok (bits_val n (fun i => bool_decide (nz <= i)))).
  { change "1"%char with (char_of_bit true). change "0"%char with (char_of_bit false). rewrite !rep_bits.
    rewrite <-(py_int2_bits n) by lia. f_equal. replace n with (nz + nx) by lia. rewrite bits_split by done. f_equal; apply bits_ext.
    - intros i Hi. by rewrite bool_decide_eq_true_2 by lia.
    - intros i Hi. by rewrite bool_decide_eq_false_2 by lia. }
  rewrite (rmap_ok _ (fun x => Z.shiftr (Z.land x (bits_val n (fun i => bool_decide (nz <= i)))) nz)) by (intros; by rewrite EX).
  assert (HX : forall e, e ∈ hits ((fun x => Z.shiftr (Z.land x (bits_val n (fun i => bool_decide (nz <= i)))) nz) <$> xors) nx (coord_x dw) <->
    changes rounds nx nz (coord_x dw) e).
  { intros [[t y] x]. unfold hits. rewrite elem_of_hits. unfold changes. split.
    - intros (k & syn & loc & Hk & Hl & Hb & -> & Hc). apply list_lookup_fmap_Some in Hk as (v & Hk & ->).
      apply elem_of_xors_lookup in Hk as (a & b & Ha & Hb' & ->).
      apply list_lookup_fmap_Some in Ha as (r & Hr & ->). apply list_lookup_fmap_Some in Hb' as (r' & Hr' & ->).
      exists k, r, r', loc. rewrite Hc. split_and!; try done; try lia.
      rewrite Z.shiftr_spec, Z.land_spec, Z.lxor_spec, !bits_testbit in Hb by lia.
      rewrite (Z.add_comm nz). rewrite !bool_decide_eq_true_2 in Hb by lia. cbn in Hb. intros E. rewrite E in Hb. by destruct (r' (loc + nz)).
    - intros (k & r & r' & loc & Hr & Hr' & Hl & Hne & E). injection E as -> -> ->.
      eexists k, _, loc. split_and!; try done; try lia.
      + apply list_lookup_fmap_Some. eexists. split; [|reflexivity]. apply elem_of_xors_lookup. eexists _, _. split_and!; [| |reflexivity].
        * rewrite list_lookup_fmap, Hr. reflexivity.
        * rewrite list_lookup_fmap, Hr'. reflexivity.
      + rewrite Z.shiftr_spec, Z.land_spec, Z.lxor_spec, !bits_testbit by lia.
        rewrite !bool_decide_eq_true_2 by lia. cbn. rewrite (Z.add_comm loc). destruct (r (nz + loc)), (r' (nz + loc)); done.
 }
  assert (HDX : forall l, NoDup (hits l nx (coord_x dw))) by (intros l; apply hits_NoDup; intros; by eapply (coord_x_inj dh)).
  assert (HDZ : forall l, NoDup (hits l nz (coord_z dw))) by (intros l; apply hits_NoDup; intros; by eapply (coord_z_inj dh)).
  case_bool_decide as Em.
  - eexists _, _. split; [reflexivity|]. split_and!; try done. intros e.
    assert (nz = 0) as ->.
    { change "1"%char with (char_of_bit true) in Em. rewrite rep_bits in Em. apply (f_equal String.length) in Em. rewrite bits_len in Em. cbn in Em. lia. }
    cbn. split; [by intros ?%elem_of_nil|]. intros (? & ? & ? & ? & _ & _ & ? & _). lia.
  - assert (Hnz : 0 < nz).
    { destruct (decide (nz = 0)) as [E|]; [|lia]. by rewrite E in Em. }
    assert (EZ : py_int2 (str_rep (Z.to_nat nz) "1") = Ok (bits_val nz (fun _ => true))).
    { change "1"%char with (char_of_bit true). rewrite rep_bits. by apply py_int2_bits. }
    rewrite (rmap_ok _ (fun x => Z.land x (bits_val nz (fun _ => true)))) by (intros; by rewrite EZ).
    eexists _, _. split; [reflexivity|]. split_and!; try done.
    intros [[t y] x]. unfold hits. rewrite elem_of_hits. unfold changes. split.
    + intros (k & syn & loc & Hk & Hl & Hb & -> & Hc). apply list_lookup_fmap_Some in Hk as (v & Hk & ->).
      apply elem_of_xors_lookup in Hk as (a & b & Ha & Hb' & ->).
      apply list_lookup_fmap_Some in Ha as (r & Hr & ->). apply list_lookup_fmap_Some in Hb' as (r' & Hr' & ->).
      exists k, r, r', loc. rewrite Hc. split_and!; try done; try lia.
      rewrite Z.land_spec, Z.lxor_spec, !bits_testbit in Hb by lia.
      rewrite Z.add_0_l. rewrite !bool_decide_eq_true_2 in Hb by lia. cbn in Hb. intros E. rewrite E in Hb. by destruct (r' loc).
    + intros (k & r & r' & loc & Hr & Hr' & Hl & Hne & E). injection E as -> -> ->.
      eexists k, _, loc. split_and!; try done; try lia.
      * apply list_lookup_fmap_Some. eexists. split; [|reflexivity]. apply elem_of_xors_lookup. eexists _, _. split_and!; [| |reflexivity].
        -- rewrite list_lookup_fmap, Hr. reflexivity.
        -- rewrite list_lookup_fmap, Hr'. reflexivity.
      * rewrite Z.land_spec, Z.lxor_spec, !bits_testbit by lia. rewrite Z.add_0_l in Hne.
        rewrite !bool_decide_eq_true_2 by lia. cbn. destruct (r loc), (r' loc); done.

Qed.
