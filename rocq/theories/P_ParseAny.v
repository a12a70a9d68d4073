(** Property C62: what [parse_readout] answers on ANY string, and which words it takes for
    syndrome registers. *)
From Verif Require Import SyndromeFacts Parse ParseFacts P_Parse SpecInt.
From Coq Require Import Ascii.
From stdpp Require Export list.
Open Scope Z_scope.

(** ** Reading a number in base 2 *)
Lemma sapp_nil (s : string) : (s +:+ "" = s)%string.
Proof. induction s as [|c s IHl]; [done|]. change (String c (s +:+ "") = String c s)%string. by rewrite IHl. Qed.
Lemma sapp_cons c (a b : string) : (String c a +:+ b = String c (a +:+ b))%string.
Proof. done. Qed.
Lemma all_white_cons c s : all_white (String c s) <-> is_space c = true /\ all_white s.
Proof.
  unfold all_white. cbn [String.list_ascii_of_string]. rewrite Forall_cons. apply and_iff_compat_r. split.
  - intros H. unfold white in H. repeat (apply elem_of_cons in H as [->|H]; [done|]). by apply elem_of_nil in H.
  - intros H. unfold is_space in H. destruct c as [[] [] [] [] [] [] [] []]; try done; unfold white; set_solver.
Qed.
Lemma int_blank_spec s : int_blank s = true <-> all_white s.
Proof. induction s as [|c s IHl]; [split; [constructor|done]|]. cbn [int_blank]. rewrite andb_true_iff, IHl. by rewrite all_white_cons. Qed.
Lemma lstrip_split s : exists w, all_white w /\ s = (w +:+ int_lstrip s)%string.
Proof.
  induction s as [|c s (w & Hw & E)]; [exists ""%string; split; [constructor|done]|]. cbn [int_lstrip]. destruct (is_space c) eqn:Ec.
  - exists (String c w). split; [by apply all_white_cons|]. rewrite sapp_cons. by f_equal.
  - exists ""%string. split; [constructor|done].
Qed.
Lemma lstrip_white w s : all_white w -> int_lstrip (w +:+ s)%string = int_lstrip s.
Proof. induction w as [|c w IHl]; [done|]. rewrite all_white_cons. intros [Hc Hw]. rewrite sapp_cons. cbn [int_lstrip]. rewrite Hc. by apply IHl. Qed.
Lemma bit_of_char_ok c b : bit_of_char c = Ok b -> c = char_of_bit b.
Proof. unfold bit_of_char. destruct (Ascii.eqb_spec c "0") as [->|]; [by intros [= <-]|]. destruct (Ascii.eqb_spec c "1") as [->|]; [by intros [= <-]|done]. Qed.
Lemma bit_text_eq b s : (bit_text b +:+ s = String (char_of_bit b) s)%string.
Proof. by destruct b. Qed.
Lemma bit_of_char_bit b : bit_of_char (char_of_bit b) = Ok b.
Proof. by destruct b. Qed.
(** What can follow the digits. *)
Lemma int_digits_spec s : forall us bs r, int_digits us s = Some (bs, r) ->
  (us = false -> exists l, bs = l.*2 /\ s = (more_digits l +:+ r)%string) /\
  (us = true -> exists b l, bs = b :: l.*2 /\ s = (bit_text b +:+ more_digits l +:+ r)%string).
Proof.
  induction s as [|c s IHl]; intros us bs r H; cbn [int_digits] in H.
  - destruct us; [done|]. injection H as <- <-. split; [|done]. intros _. by exists [].
  - destruct (bit_of_char c) as [b|] eqn:Ec.
    + apply bit_of_char_ok in Ec as ->. destruct (int_digits false s) as [[bs' r']|] eqn:E; [|done]. injection H as <- <-.
      destruct (IHl _ _ _ E) as [H1 _]. destruct (H1 eq_refl) as (l & -> & ->). split; intros _.
      * exists ((false, b) :: l). split; [done|]. cbn [more_digits]. rewrite sapp_cons || idtac.
        change ("" +:+ bit_text b +:+ more_digits l)%string with (bit_text b +:+ more_digits l)%string. by rewrite !bit_text_eq.
      * exists b, l. split; [done|]. by rewrite bit_text_eq.
    + destruct us; [done|]. destruct (Ascii.eqb_spec c "_") as [->|Hc].
      * destruct (IHl _ _ _ H) as [_ H2]. destruct (H2 eq_refl) as (b & l & -> & ->). split; [|done]. intros _.
        exists ((true, b) :: l). split; [done|]. cbn [more_digits]. by rewrite !bit_text_eq.
      * injection H as <- <-. split; [|done]. intros _. by exists [].
Qed.
Lemma horner_zob v bs : horner v bs = fold_left (fun a (b : bool) => 2 * a + (if b then 1 else 0)) bs v.
Proof. revert v. induction bs as [|b bs IHl]; intros v; [done|]. apply IHl. Qed.
Lemma horner_Z bs : horner 0 bs = Z_of_bits bs.
Proof. rewrite horner_zob. reflexivity. Qed.
Lemma int_sign_spec s : exists sg k, (sg, k) ∈ signs /\ (int_sign s).1 = k /\ s = (sg +:+ (int_sign s).2)%string.
Proof.
  unfold int_sign, signs. destruct s as [|c s]; [exists "", 1; split; [left|done]|].
  destruct (Ascii.eqb_spec c "+") as [->|]; [exists "+"%string, 1; split; [right; left|done]|].
  destruct (Ascii.eqb_spec c "-") as [->|]; [exists "-"%string, (-1); split; [right; right; left|done]|].
  exists "", 1. split; [left|done].
Qed.
Lemma int_prefix_spec s : exists pre, pre ∈ prefixes /\ s = (pre +:+ int_prefix s)%string.
Proof.
  assert (D : forall s : string, exists pre, pre ∈ prefixes /\ s = (pre +:+ s)%string) by (intros s'; exists ""; split; [left|done]).
  unfold int_prefix. destruct s as [|z [|c s]]; [apply D..|].
  destruct (Ascii.eqb_spec z "0") as [->|]; [|apply D]. cbn [andb].
  destruct (Ascii.eqb_spec c "b") as [->|].
  - cbn [orb]. destruct s as [|u s]; [exists "0b"%string; split; [right; left|done]|].
    destruct (Ascii.eqb_spec u "_") as [->|]; [exists "0b_"%string|exists "0b"%string]; (split; [|done]); unfold prefixes; [do 3 right; left|right; left].
  - cbn [orb]. destruct (Ascii.eqb_spec c "B") as [->|]; [|apply D]. destruct s as [|u s]; [exists "0B"%string; split; [right; right; left|done]|].
    destruct (Ascii.eqb_spec u "_") as [->|]; [exists "0B_"%string|exists "0B"%string]; (split; [|done]); unfold prefixes; [do 4 right; left|do 2 right; left].
Qed.
Lemma int_sound s v : py_int2 s = Ok v -> binary s v.
Proof.
  unfold py_int2. destruct (lstrip_split s) as (w1 & Hw1 & E1). destruct (int_sign_spec (int_lstrip s)) as (sg & k & Hs & Ek & E2).
  destruct (int_sign (int_lstrip s)) as [k' s1]. cbn in Ek, E2. subst k'. destruct (int_prefix_spec s1) as (pre & Hp & E3).
  destruct (int_digits true (int_prefix s1)) as [[bs r]|] eqn:Ed; [|done]. destruct (int_digits_spec _ _ _ _ Ed) as [_ H].
  destruct (H eq_refl) as (b & l & -> & E4). destruct (int_blank r) eqn:Eb; [|done]. intros [= <-].
  exists w1, sg, k, pre, b, l, r. split_and!; try done; [by apply int_blank_spec| |].
  - rewrite E1. f_equal. rewrite E2. f_equal. rewrite E3. f_equal. exact E4.
  - by rewrite horner_Z.
Qed.
Lemma more_digits_parse l r : all_white r -> int_digits false (more_digits l +:+ r)%string = Some (l.*2, r).
Proof.
  intros Hr. induction l as [|[u b] l IHl].
  - change (more_digits [] +:+ r)%string with r. cbn. destruct r as [|c r]; [done|]. apply all_white_cons in Hr as [Hc _]. cbn [int_digits].
    assert (bit_of_char c = Err ValueError /\ Ascii.eqb c "_" = false) as [-> ->]; [|done].
    destruct c as [[] [] [] [] [] [] [] []]; try done.
  - cbn [more_digits]. destruct u; rewrite <-!sapp_assoc, bit_text_eq.
    + change ("_" +:+ ?x)%string with (String "_" x). cbn [int_digits bit_of_char Ascii.eqb Bool.eqb].
      change (if Ascii.eqb _ _ then _ else _) with (@Err bool ValueError). cbn [int_digits]. rewrite bit_of_char_bit, IHl. done.
    + change ("" +:+ ?x)%string with x. cbn [int_digits]. rewrite bit_of_char_bit, IHl. done.
Qed.
Lemma int_complete s v : binary s v -> py_int2 s = Ok v.
Proof.
  intros (w1 & sg & k & pre & b & l & w2 & Hw1 & Hs & Hp & Hw2 & -> & ->). unfold py_int2. rewrite lstrip_white by done.
  set (body := (bit_text b +:+ more_digits l +:+ w2)%string).
  assert (D : int_digits true body = Some (b :: l.*2, w2)).
  { unfold body. rewrite bit_text_eq. cbn [int_digits]. by rewrite bit_of_char_bit, more_digits_parse. }
  assert (P : int_prefix (pre +:+ body)%string = body).
  { unfold prefixes in Hp. rewrite !elem_of_cons in Hp. unfold body. rewrite bit_text_eq.
    destruct Hp as [->|[->|[->|[->|[->|Hp]]]]]; [|destruct b; done..|by apply elem_of_nil in Hp].
    change ("" +:+ ?x)%string with x. cbn [int_prefix]. destruct (more_digits l +:+ w2)%string as [|c t] eqn:Et; [done|].
    assert ((Ascii.eqb c "b" || Ascii.eqb c "B")%bool = false) as ->; [|by rewrite andb_false_r].
    destruct l as [|[[] b'] l].
    - change (more_digits [] +:+ w2)%string with w2 in Et. subst w2. apply all_white_cons in Hw2 as [Hc _]. destruct c as [[] [] [] [] [] [] [] []]; done.
    - by injection Et as <- <-.
    - cbn [more_digits] in Et. rewrite <-!sapp_assoc, bit_text_eq in Et. injection Et as <- <-. by destruct b'. }
  assert (S : int_sign (int_lstrip (sg +:+ pre +:+ body)%string) = (k, (pre +:+ body)%string)).
  { unfold signs in Hs. rewrite !elem_of_cons in Hs. unfold prefixes in Hp. rewrite !elem_of_cons in Hp. unfold body. rewrite bit_text_eq.
    destruct Hs as [[= -> ->]|[[= -> ->]|[[= -> ->]|Hs]]]; [| | |by apply elem_of_nil in Hs];
      destruct Hp as [->|[->|[->|[->|[->|Hp]]]]]; try (by apply elem_of_nil in Hp); by destruct b. }
  rewrite S, P, D. assert (int_blank w2 = true) as -> by (by apply int_blank_spec). by rewrite horner_Z.
Qed.
(** The numbers a word can write, exactly; every other text is a ValueError. *)
Theorem C62_int s v : py_int2 s = Ok v <-> binary s v.
Proof. split; [apply int_sound|apply int_complete]. Qed.
Lemma int_err s e : py_int2 s = Err e -> e = ValueError.
Proof. unfold py_int2. destruct (int_sign _) as [k s1]. destruct (int_digits _ _) as [[bs r]|]; [destruct (int_blank r)|]; congruence. Qed.
Theorem C62_int_else s : (forall v, ~ binary s v) -> py_int2 s = Err ValueError.
Proof. intros H. destruct (py_int2 s) as [v|e] eqn:E; [by destruct (H v); apply C62_int|]. by rewrite (int_err _ _ E). Qed.
Print Assumptions C62_int.
Print Assumptions C62_int_else.
Example C62_int_ex : py_int2 "	-0b_10_1 " = Ok (-5) /\ py_int2 "0b" = Err ValueError /\ py_int2 "1__0" = Err ValueError /\
  py_int2 "_1" = Err ValueError /\ py_int2 "1_" = Err ValueError /\ py_int2 "" = Err ValueError /\ py_int2 "+ 1" = Err ValueError /\ py_int2 "0_1" = Ok 1.
Proof. by vm_compute. Qed.

(** ** Words *)
Lemma is_word_no_blank s : is_word s <-> no_blank s.
Proof.
  unfold is_word, no_blank. split; [intros H c Hc ->; by apply H|]. intros H Hb. by destruct (H _ Hb).
Qed.
Lemma spaced_join w ws : spaced w ws = py_join (w :: ws).
Proof. revert w. induction ws as [|w' ws IHl]; intros w; [done|]. cbn [spaced]. rewrite IHl. done. Qed.
Lemma split_spaced w ws : is_word w -> Forall is_word ws -> py_split (spaced w ws) = w :: ws.
Proof.
  intros Hw Hws. rewrite spaced_join. apply split_join; [done|]. constructor; [by apply is_word_no_blank|].
  eapply Forall_impl; [exact Hws|]. intros x Hx. by apply is_word_no_blank.
Qed.
(** Every string is one or more words, uniquely. *)
Theorem C62_words s : exists w ws, s = spaced w ws /\ is_word w /\ Forall is_word ws /\
  forall w' ws', s = spaced w' ws' -> is_word w' -> Forall is_word ws' -> w' = w /\ ws' = ws.
Proof.
  assert (E : exists w ws, s = spaced w ws /\ is_word w /\ Forall is_word ws).
  { induction s as [|c s (w & ws & -> & Hw & Hws)]; [exists "", []; split_and!; [done|by intros ?%elem_of_nil|constructor]|].
    destruct (Ascii.eqb_spec c " ") as [->|Hc].
    - exists "", (w :: ws). split_and!; [done|by intros ?%elem_of_nil|by constructor].
    - exists (String c w), ws. split_and!; [by destruct ws| |done]. unfold is_word in *. cbn. apply not_elem_of_cons. split; [congruence|done]. }
  destruct E as (w & ws & E & Hw & Hws). exists w, ws. split_and!; try done. intros w' ws' E' Hw' Hws'. rewrite E in E'.
  apply (f_equal py_split) in E'. rewrite !split_spaced in E' by done. by injection E' as -> ->.
Qed.
Print Assumptions C62_words.

(** ** The syndrome words *)
Lemma ints_ok l vals : rmap py_int2 l = Ok vals <-> Forall2 binary l vals.
Proof.
  revert vals. induction l as [|s l IHl]; intros vals; cbn [rmap].
  - split; [intros [= <-]; constructor|intros H; inversion H; done].
  - split.
    + destruct (py_int2 s) as [v|] eqn:E; [|done]. destruct (rmap py_int2 l) as [vs|] eqn:El; [|done]. intros [= <-].
      constructor; [by apply C62_int|by apply IHl].
    + intros H. inversion H as [|? v ? vs Hb Hl]; subst. apply C62_int in Hb as ->. by apply IHl in Hl as ->.
Qed.
Lemma ints_err l e : rmap py_int2 l = Err e -> e = ValueError.
Proof.
  revert e. induction l as [|s l IHl]; intros e; cbn [rmap]; [done|]. destruct (py_int2 s) eqn:E; [|intros [= <-]; by eapply int_err].
  destruct (rmap py_int2 l); [done|]. intros [= <-]. by apply IHl.
Qed.
(** The events of the rounds written by the words (first word last): each change of a bit of an
    X or a Z stabilizer between two consecutive rounds, listed once. *)
Definition events (dh dw : Z) (vals : list Z) (X Zs : list event_loc) : Prop :=
  NoDup X /\ NoDup Zs /\
  (forall e, e ∈ X <-> changes (Z.testbit <$> reverse vals) (num_syn_x dh dw) (num_syn_z dh dw) (coord_x dw) e) /\
  (forall e, e ∈ Zs <-> changes (Z.testbit <$> reverse vals) (num_syn_z dh dw) 0 (coord_z dw) e).
Lemma tail_vals dh dw lr chunks vals : valid_size dh dw -> 1 < dh * dw -> Forall2 binary chunks vals ->
  exists X Zs, tail_part dh dw lr chunks = Ok (lr, (X, Zs)) /\ events dh dw vals X Zs.
Proof.
  intros Hv H1 Hb. destruct (counts_pos dh dw Hv H1) as (Hx & Hz & Hs). unfold tail_part.
  assert (E1 : rmap py_int2 (reverse chunks) = Ok (reverse vals)).
  { apply ints_ok. clear -Hb. induction Hb as [|s v l vs H _ IHl]; [constructor|]. rewrite !reverse_cons. apply Forall2_app; [done|]. by repeat constructor. }
  rewrite E1. clear E1. set (n := dh * dw - 1) in *. unfold events. set (nx := num_syn_x dh dw) in *. set (nz := num_syn_z dh dw) in *.
  set (xors := zip_with Z.lxor (reverse vals) (tail (reverse vals))). cbv zeta.
  assert (EX : py_int2 (str_rep (Z.to_nat nx) "1" +:+ str_rep (Z.to_nat nz) "0")%string =
    Ok (bits_val n (fun i => bool_decide (nz <= i)))).
  { change "1"%char with (char_of_bit true). change "0"%char with (char_of_bit false). rewrite !rep_bits.
    rewrite <-(py_int2_bits n) by lia. f_equal. replace n with (nz + nx) by lia. rewrite bits_split by done. f_equal; apply bits_ext.
    - intros i Hi. by rewrite bool_decide_eq_true_2 by lia.
    - intros i Hi. by rewrite bool_decide_eq_false_2 by lia. }
  rewrite (rmap_ok _ (fun x => Z.shiftr (Z.land x (bits_val n (fun i => bool_decide (nz <= i)))) nz)) by (intros; by rewrite EX).
  assert (HX : forall e, e ∈ hits ((fun x => Z.shiftr (Z.land x (bits_val n (fun i => bool_decide (nz <= i)))) nz) <$> xors) nx (coord_x dw) <->
    changes (Z.testbit <$> reverse vals) nx nz (coord_x dw) e).
  { intros [[t y] x]. unfold hits. rewrite elem_of_hits. unfold changes. split.
    - intros (k & syn & loc & Hk & Hl & Hb' & -> & Hc). apply list_lookup_fmap_Some in Hk as (v & Hk & ->).
      apply elem_of_xors_lookup in Hk as (a & b & Ha & Hb2 & ->).
      exists k, (Z.testbit a), (Z.testbit b), loc. rewrite !list_lookup_fmap, Ha, Hb2, Hc. split_and!; try done; try lia.
      rewrite Z.shiftr_spec, Z.land_spec, Z.lxor_spec in Hb' by lia.
      rewrite (Z.add_comm nz). apply andb_true_iff in Hb' as [Hb' _]. intros E. rewrite E in Hb'. by destruct (Z.testbit b (loc + nz)).
    - intros (k & r & r' & loc & Hr & Hr' & Hl & Hne & E). injection E as -> -> ->.
      apply list_lookup_fmap_Some in Hr as (a & Ha & ->). apply list_lookup_fmap_Some in Hr' as (b & Hb' & ->).
      exists k, (Z.shiftr (Z.land (Z.lxor a b) (bits_val n (fun i => bool_decide (nz <= i)))) nz), loc. split_and!; try done; try lia.
      + apply list_lookup_fmap_Some. eexists. split; [|reflexivity]. apply elem_of_xors_lookup. by exists a, b.
      + rewrite Z.shiftr_spec, Z.land_spec, Z.lxor_spec, bits_testbit by lia.
        rewrite !bool_decide_eq_true_2 by lia. cbn. rewrite andb_true_r, (Z.add_comm loc). destruct (Z.testbit a (nz + loc)), (Z.testbit b (nz + loc)); done. }
  assert (HDX : forall l, NoDup (hits l nx (coord_x dw))) by (intros l; apply hits_NoDup; intros; by eapply (coord_x_inj dh)).
  assert (HDZ : forall l, NoDup (hits l nz (coord_z dw))) by (intros l; apply hits_NoDup; intros; by eapply (coord_z_inj dh)).
  case_bool_decide as Em.
  - eexists _, _. split; [reflexivity|]. split_and!; try done. intros e.
    assert (nz = 0) as ->.
    { change "1"%char with (char_of_bit true) in Em. rewrite rep_bits in Em. apply (f_equal String.length) in Em. rewrite bits_len in Em. cbn in Em. lia. }
    cbn. split; [by intros ?%elem_of_nil|]. intros (? & ? & ? & ? & _ & _ & ? & _). lia.
  - assert (Hnz : 0 < nz).
    { destruct (decide (nz = 0)) as [E|]; [|lia]. by rewrite E in Em. }
    assert (EZ : py_int2 (str_rep (Z.to_nat nz) "1") = Ok (bits_val nz (fun _ => true))).
    { change "1"%char with (char_of_bit true). rewrite rep_bits. by apply py_int2_bits. }
    rewrite (rmap_ok _ (fun x => Z.land x (bits_val nz (fun _ => true)))) by (intros; by rewrite EZ).
    eexists _, _. split; [reflexivity|]. split_and!; try done.
    intros [[t y] x]. unfold hits. rewrite elem_of_hits. unfold changes. split.
    + intros (k & syn & loc & Hk & Hl & Hb' & -> & Hc). apply list_lookup_fmap_Some in Hk as (v & Hk & ->).
      apply elem_of_xors_lookup in Hk as (a & b & Ha & Hb2 & ->).
      exists k, (Z.testbit a), (Z.testbit b), loc. rewrite !list_lookup_fmap, Ha, Hb2, Hc. split_and!; try done; try lia.
      rewrite Z.land_spec, Z.lxor_spec in Hb' by lia.
      rewrite Z.add_0_l. apply andb_true_iff in Hb' as [Hb' _]. intros E. rewrite E in Hb'. by destruct (Z.testbit b loc).
    + intros (k & r & r' & loc & Hr & Hr' & Hl & Hne & E). injection E as -> -> ->.
      apply list_lookup_fmap_Some in Hr as (a & Ha & ->). apply list_lookup_fmap_Some in Hr' as (b & Hb' & ->).
      exists k, (Z.land (Z.lxor a b) (bits_val nz (fun _ => true))), loc. split_and!; try done; try lia.
      * apply list_lookup_fmap_Some. eexists. split; [|reflexivity]. apply elem_of_xors_lookup. by exists a, b.
      * rewrite Z.land_spec, Z.lxor_spec, !bits_testbit by lia. rewrite Z.add_0_l in Hne.
        rewrite !bool_decide_eq_true_2 by lia. cbn. destruct (Z.testbit a loc), (Z.testbit b loc); done.
Qed.
Lemma tail_bad dh dw lr chunks : (forall vals, ~ Forall2 binary chunks vals) -> tail_part dh dw lr chunks = Err ValueError.
Proof.
  intros H. unfold tail_part. destruct (rmap py_int2 (reverse chunks)) as [vals|e] eqn:E; [|by rewrite (ints_err _ _ E)].
  destruct (H (reverse vals)). apply ints_ok in E. clear -E. revert E. rewrite <-(reverse_involutive chunks) at 2. generalize (reverse chunks). clear chunks.
  intros l E. induction E as [|s v l vs H _ IHl]; [constructor|]. rewrite !reverse_cons. apply Forall2_app; [done|]. by repeat constructor.
Qed.

(** ** Readings of one character *)
Lemma py_digit_spec c d : py_digit c = Ok d <-> digit_of c d.
Proof.
  unfold py_digit, digit_of. split.
  - case_bool_decide; [|done]. intros [= <-]. lia.
  - intros [H1 H2]. rewrite H2. rewrite Z2Nat.id by lia. rewrite bool_decide_eq_true_2 by lia. f_equal. lia.
Qed.
Lemma py_digit_err c e : py_digit c = Err e -> e = ValueError.
Proof. unfold py_digit. case_bool_decide; congruence. Qed.
Theorem C62_logical dh dw w ws ty : valid_size dh dw -> 1 < dh * dw -> is_word w -> Forall is_word ws -> (String.length w <= 1)%nat ->
  (forall d vals, digits_of w [d] -> Forall2 binary ws vals ->
     exists X Zs, parse_readout dh dw (spaced w ws) ty = Ok (d, (X, Zs)) /\ events dh dw vals X Zs) /\
  ((forall d vals, ~ (digits_of w [d] /\ Forall2 binary ws vals)) -> parse_readout dh dw (spaced w ws) ty = Err ValueError).
Proof.
  intros Hv H1 Hw Hws Hl. unfold parse_readout. rewrite split_spaced by done. rewrite bool_decide_eq_false_2 by lia. split.
  - intros d vals Hd Hb. assert (py_int_short w = Ok d) as ->.
    { destruct w as [|c w]; [inversion Hd|]. cbn. inversion Hd; subst. by apply py_digit_spec. }
    by apply tail_vals.
  - intros H. destruct (py_int_short w) as [d|e] eqn:E.
    + assert (Hd : digits_of w [d]).
      { destruct w as [|c [|? ?]]; [done| |cbn in Hl; lia]. constructor; [by apply py_digit_spec|constructor]. }
      apply tail_bad. intros vals Hb. by destruct (H d vals).
    + f_equal. destruct w as [|c w]; cbn in E; [congruence|]. by eapply py_digit_err.
Qed.
Print Assumptions C62_logical.

(** ** Readings of every data qubit *)
(** The data bits written by a word of decimal digits: data qubit 0 is the last character; a digit
    counts by its parity. *)
Definition data_bit (ds : list Z) (i : Z) : bool := Z.odd (default 0 (reverse ds !! Z.to_nat i)).
(** The word for the last round: the first characters of the word before it, then the parities of
    the Z stabilizers. *)
Definition last_word (dh dw : Z) (f : Z -> bool) (prev : string) : string :=
  (String.substring 0 (Z.to_nat (num_syn_x dh dw)) prev +:+
   bits_str (num_syn_z dh dw) (fun loc => xorl (f <$> plaq_data (geom_z dh dw loc))))%string.
Lemma str_take_substring n s : str_take n s = String.substring 0 n s.
Proof. revert s. induction n as [|n IHl]; intros [|c s]; cbn; try done. by rewrite IHl. Qed.
Lemma digits_word w ds : digits_of w ds <-> readout_values w = Ok (reverse ds).
Proof.
  assert (G : forall l ds, Forall2 digit_of l ds <-> rmap py_digit l = Ok ds).
  { induction l as [|c l IHl]; intros ds'; cbn [rmap].
    - split; [intros H; by inversion H|intros [= <-]; constructor].
    - split.
      + intros H. inversion H as [|? d ? ds2 Hd Hl]; subst. apply py_digit_spec in Hd as ->. by apply IHl in Hl as ->.
      + destruct (py_digit c) eqn:E; [|done]. destruct (rmap py_digit l) eqn:El; [|done]. intros [= <-]. constructor; [by apply py_digit_spec|by apply IHl]. }
  unfold digits_of, readout_values. rewrite G. destruct (rmap py_digit _); split; try done; [by intros [= ->]|]. intros [= H].
  f_equal. by rewrite <-(reverse_involutive a), H, reverse_involutive.
Qed.
Lemma digits_err w e : readout_values w = Err e -> e = ValueError.
Proof.
  unfold readout_values. generalize (String.list_ascii_of_string w). intros l. revert e. induction l as [|c l IHl]; intros e; cbn [rmap]; [done|].
  destruct (py_digit c) eqn:E; [|intros [= <-]; by eapply py_digit_err]. destruct (rmap py_digit l); [done|]. intros [= <-]. by apply IHl.
Qed.
Section values.
  Context (ds : list Z).
  Let rv := reverse ds.
  Lemma index_any i : 0 <= i -> if bool_decide (i < Z.of_nat (length ds)) then exists v, py_index rv i = Ok v /\ data_bit ds i = Z.odd v
    else py_index rv i = Err IndexError.
  Proof.
    intros Hi. unfold py_index, data_bit, rv. rewrite reverse_length. rewrite (bool_decide_eq_false_2 (i < 0)) by lia. case_bool_decide as H.
    - rewrite bool_decide_eq_true_2 by lia. destruct (reverse ds !! Z.to_nat i) as [v|] eqn:E; [by exists v|].
      apply lookup_ge_None in E. rewrite reverse_length in E. lia.
    - by rewrite bool_decide_eq_false_2 by lia.
  Qed.
  Lemma rmap_values l : (forall i, Some i ∈ l -> 0 <= i) ->
    ((forall i, Some i ∈ l -> i < Z.of_nat (length ds)) ->
       exists vs, rmap (fun o => match o with Some i => py_index rv i | None => Ok 0 end) l = Ok vs /\
         foldr Z.add 0 vs mod 2 = Z.b2z (xorl (data_bit ds <$> omap id l))) /\
    ((exists i, Some i ∈ l /\ Z.of_nat (length ds) <= i) -> rmap (fun o => match o with Some i => py_index rv i | None => Ok 0 end) l = Err IndexError).
  Proof.
    induction l as [|o l IHl]; intros Hp; [split; [intros _; by exists []|by intros (i & Hi%elem_of_nil & _)]|].
    destruct IHl as [I1 I2]; [intros i Hi; apply Hp; by right|]. cbn [rmap]. split.
    - intros Hlt. destruct I1 as (vs & -> & Es); [intros i Hi; apply Hlt; by right|]. destruct o as [i|].
      + pose proof (index_any i (Hp i (elem_of_list_here _ _))) as HI. rewrite bool_decide_eq_true_2 in HI by (apply Hlt; left).
        destruct HI as (v & -> & Ev). eexists. split; [reflexivity|]. cbn [foldr]. change (omap id (Some i :: l)) with (i :: omap id l). rewrite fmap_cons, xorl_cons, b2z_xor, Ev.
        assert (Z.b2z (Z.odd v) = v mod 2) as -> by (rewrite Zmod_odd; by destruct (Z.odd v)).
        rewrite <-Es. by rewrite Zplus_mod_idemp_l, Zplus_mod_idemp_r.
      + eexists. split; [reflexivity|]. exact Es.
    - intros (i & Hi & Hge). apply elem_of_cons in Hi as [<-|Hi].
      + pose proof (index_any i (Hp i (elem_of_list_here _ _))) as HI. rewrite bool_decide_eq_false_2 in HI by lia. by rewrite HI.
      + rewrite I2 by (by exists i). destruct o as [j|]; [|done]. pose proof (index_any j (Hp j (elem_of_list_here _ _))) as HI.
        case_bool_decide; [by destruct HI as (v & -> & _)|by rewrite HI].
  Qed.
End values.
Lemma data_of_idx p i : Some i ∈ plaq_idx p <-> i ∈ plaq_data p.
Proof.
  unfold plaq_data. rewrite elem_of_list_omap. split; [intros H; by exists (Some i)|]. by intros ([j|] & H & [= ->]).
Qed.
Lemma stabs_any ds (l : list plaq) acc : (forall p i, p ∈ l -> i ∈ plaq_data p -> 0 <= i) ->
  let F := rfold (fun acc p => match plaq_value (reverse ds) p with Ok v => Ok (py_str v +:+ acc)%string | Err e => Err e end) acc l in
  ((forall p i, p ∈ l -> i ∈ plaq_data p -> i < Z.of_nat (length ds)) ->
     F = Ok (string_of_bits (reverse ((fun p => xorl (data_bit ds <$> plaq_data p)) <$> l)) +:+ acc)%string) /\
  ((exists p i, p ∈ l /\ i ∈ plaq_data p /\ Z.of_nat (length ds) <= i) -> F = Err IndexError).
Proof.
  cbv zeta. revert acc. induction l as [|p l IHl]; intros acc Hp; [split; [done|by intros (? & ? & ?%elem_of_nil & _)]|].
  assert (IHl' : forall acc, _) by (intros acc'; apply (IHl acc'); intros; eapply Hp; [by right|done]). clear IHl. cbn [rfold].
  assert (HP := rmap_values ds (plaq_idx p)). destruct HP as [P1 P2]; [intros i Hi%data_of_idx; eapply Hp; [by left|done]|].
  split.
  - intros Hlt. destruct P1 as (vs & E & Es); [intros i Hi%data_of_idx; eapply Hlt; [by left|done]|].
    unfold plaq_value at 1. rewrite E, Es. destruct (IHl' (py_str (Z.b2z (xorl (data_bit ds <$> omap id (plaq_idx p)))) +:+ acc)%string) as [I _].
    rewrite I by (intros; eapply Hlt; [by right|done]). f_equal. rewrite fmap_cons, reverse_cons, sob_app, str_bit. by rewrite sapp_assoc.
  - intros (q & i & Hq & Hi & Hge). destruct (decide (Forall (fun j => j < Z.of_nat (length ds)) (plaq_data p))) as [Hj|Hj].
    + rewrite list.Forall_forall in Hj. destruct P1 as (vs & E & Es); [intros j Hj'%data_of_idx; by apply Hj|].
      unfold plaq_value at 1. rewrite E. apply IHl'. apply elem_of_cons in Hq as [->|Hq]; [|by exists q, i].
      specialize (Hj _ Hi). cbn in Hj. lia.
    + unfold plaq_value at 1. rewrite P2; [done|]. apply not_Forall_Exists in Hj; [|apply _]. apply list.Exists_exists in Hj as (j & Hj & Hn).
      exists j. split; [by apply data_of_idx|]. cbn in Hn. lia.
Qed.
Lemma parity_any ds l acc : (forall i, i ∈ l -> 0 <= i) ->
  let F := rfold (fun acc i => match py_index (reverse ds) i with Ok v => Ok ((acc + v) mod 2) | Err e => Err e end) (Z.b2z acc) l in
  ((forall i, i ∈ l -> i < Z.of_nat (length ds)) -> F = Ok (Z.b2z (xorb acc (xorl (data_bit ds <$> l))))) /\
  ((exists i, i ∈ l /\ Z.of_nat (length ds) <= i) -> F = Err IndexError).
Proof.
  cbv zeta. revert acc. induction l as [|i l IHl]; intros acc Hp; cbn [rfold].
  - split; [intros _; by rewrite xorb_false_r|by intros (? & ?%elem_of_nil & _)].
  - pose proof (index_any ds i (Hp i (elem_of_list_here _ _))) as HI. case_bool_decide as Hi.
    + destruct HI as (v & -> & Ev).
      assert (E : (Z.b2z acc + v) mod 2 = Z.b2z (xorb acc (data_bit ds i))).
      { rewrite Ev, b2z_xor. assert (Z.b2z (Z.odd v) = v mod 2) as -> by (rewrite Zmod_odd; by destruct (Z.odd v)). by rewrite Zplus_mod_idemp_r. }
      rewrite E. destruct (IHl (xorb acc (data_bit ds i))) as [I1 I2]; [intros; apply Hp; by right|]. split.
      * intros Hl. rewrite I1 by (intros; apply Hl; by right). by rewrite fmap_cons, xorl_cons, xorb_assoc.
      * intros (j & Hj & Hge). apply I2. apply elem_of_cons in Hj as [->|Hj]; [lia|]. by exists j.
    + rewrite HI. split; [|done]. intros Hl. specialize (Hl i (elem_of_list_here _ _)). lia.
Qed.
Lemma last_in_z dh dw : valid_size dh dw -> 1 < dh -> exists p, p ∈ geometry_mz dh dw /\ dh * dw - 1 ∈ plaq_data p.
Proof.
  intros Hv H1. destruct (valid_size_inv _ _ Hv) as (h & w & -> & -> & Hh & Hw).
  exists (geom_z (2 * h + 1) (2 * w + 1) ((w + 1) * (2 * h - 1) + w)). split.
  - apply elem_of_list_fmap. eexists. split; [reflexivity|]. apply elem_of_seqZ. unfold num_syn_z.
    replace ((2 * w + 1 + 1) / 2) with (w + 1) by (rewrite <-(Z.div_mul (w + 1) 2) by lia; f_equal; lia). nia.
  - unfold geom_z. replace ((2 * w + 1 + 1) / 2) with (w + 1) by (rewrite <-(Z.div_mul (w + 1) 2) by lia; f_equal; lia).
    replace (((w + 1) * (2 * h - 1) + w) / (w + 1)) with (2 * h - 1) by (apply Z.div_unique with w; lia).
    replace (((w + 1) * (2 * h - 1) + w) mod (w + 1)) with w by (apply Z.mod_unique with (2 * h - 1); lia).
    replace ((2 * h - 1) mod 2) with 1 by (apply Z.mod_unique with (h - 1); lia).
    rewrite (bool_decide_eq_false_2 (1 = 0)) by done. cbn [andb]. rewrite (bool_decide_eq_true_2 (1 = 1)) by done. cbn [andb].
    apply data_of_idx. unfold plaq_idx. case_bool_decide; cbn [top_l top_r bot_l bot_r]; do 3 right; apply elem_of_list_singleton; f_equal; lia.
Qed.
Lemma last_in_x dh dw : valid_size dh dw -> 1 < dw -> exists p, p ∈ geometry_mx dh dw /\ dh * dw - 1 ∈ plaq_data p.
Proof.
  intros Hv H1. destruct (valid_size_inv _ _ Hv) as (h & w & -> & -> & Hh & Hw).
  exists (geom_x (2 * h + 1) (2 * w + 1) (w * (2 * h + 1) + (w - 1))). split.
  - apply elem_of_list_fmap. eexists. split; [reflexivity|]. apply elem_of_seqZ. unfold num_syn_x.
    replace ((2 * h + 1 + 1) / 2) with (h + 1) by (rewrite <-(Z.div_mul (h + 1) 2) by lia; f_equal; lia). nia.
  - unfold geom_x. replace ((2 * w + 1 - 1) / 2) with w by (apply Z.div_unique with 0; lia).
    replace ((w * (2 * h + 1) + (w - 1)) / w) with (2 * h + 1) by (apply Z.div_unique with (w - 1); lia).
    replace ((w * (2 * h + 1) + (w - 1)) mod w) with (w - 1) by (apply Z.mod_unique with (2 * h + 1); lia).
    rewrite (bool_decide_eq_false_2 (2 * h + 1 = 0)) by lia. rewrite (bool_decide_eq_true_2 (2 * h + 1 = 2 * h + 1)) by done.
    apply data_of_idx. unfold plaq_idx. cbn [top_l top_r bot_l bot_r]. right. apply elem_of_cons. left. f_equal. lia.
Qed.
Lemma z_nonneg dh dw p i : valid_size dh dw -> p ∈ geometry_mz dh dw -> i ∈ plaq_data p -> 0 <= i < dh * dw.
Proof. intros Hv (loc & -> & Hl)%elem_of_list_fmap. apply elem_of_seqZ in Hl. apply plaq_data_z; [done|lia]. Qed.
Lemma x_nonneg dh dw p i : valid_size dh dw -> p ∈ geometry_mx dh dw -> i ∈ plaq_data p -> 0 <= i < dh * dw.
Proof. intros Hv (loc & -> & Hl)%elem_of_list_fmap. apply elem_of_seqZ in Hl. apply plaq_data_x; [done|lia]. Qed.
Lemma extract_z_any dh dw w w1 ds : valid_size dh dw -> 1 < dh * dw -> digits_of w ds -> dh * dw <= Z.of_nat (length ds) ->
  extract dh dw w w1 "Z" = Ok (Z.b2z (xorl (data_bit ds <$> seqZ 0 dw)), last_word dh dw (data_bit ds) w1).
Proof.
  intros Hv H1 Hd Hn. unfold extract. cbn [String.eqb Ascii.eqb Bool.eqb]. unfold extract_z. apply digits_word in Hd as ->.
  unfold stabilizer_string. destruct (stabs_any ds (geometry_mz dh dw) "") as [F _]; [intros p i Hp Hi; by destruct (z_nonneg dh dw p i Hv Hp Hi)|].
  rewrite F by (intros p i Hp Hi; destruct (z_nonneg dh dw p i Hv Hp Hi); lia). clear F.
  destruct (parity_any ds (py_range dw) false) as [P _]; [intros i Hi%elem_of_seqZ; lia|]. unfold parity_of. cbn [Z.b2z] in P.
  rewrite P by (intros i Hi%elem_of_seqZ; unfold valid_size in Hv; nia). rewrite xorb_false_l. f_equal. f_equal. unfold last_word. rewrite str_take_substring.
  f_equal. rewrite sapp_nil. unfold bits_str, geometry_mz. by rewrite <-list_fmap_compose.
Qed.
Lemma extract_z_short dh dw w w1 ds : valid_size dh dw -> 1 < dh * dw -> digits_of w ds -> Z.of_nat (length ds) < dh * dw ->
  extract dh dw w w1 "Z" = Err IndexError.
Proof.
  intros Hv H1 Hd Hn. unfold extract. cbn [String.eqb Ascii.eqb Bool.eqb]. unfold extract_z. apply digits_word in Hd as ->.
  unfold stabilizer_string. destruct (stabs_any ds (geometry_mz dh dw) "") as [F1 F2]; [intros p i Hp Hi; by destruct (z_nonneg dh dw p i Hv Hp Hi)|].
  destruct (decide (1 < dh)) as [H|H].
  - rewrite F2; [done|]. destruct (last_in_z dh dw Hv H) as (p & Hp & Hi). exists p, (dh * dw - 1). split_and!; [done..|lia].
  - assert (dh = 1) by (unfold valid_size in Hv; lia). subst dh. assert (E : geometry_mz 1 dw = []).
    { unfold geometry_mz, num_syn_z. replace ((dw + 1) / 2 * (1 - 1)) with 0 by lia. done. }
    rewrite F1 by (rewrite E; intros ? ? ?%elem_of_nil; done). clear F1 F2.
    destruct (parity_any ds (py_range dw) false) as [_ P]; [intros i Hi%elem_of_seqZ; lia|]. unfold parity_of. cbn [Z.b2z] in P. rewrite P; [done|].
    exists (dw - 1). split; [apply elem_of_seqZ; lia|lia].
Qed.
Lemma extract_x_any dh dw w w1 ds : valid_size dh dw -> 1 < dh * dw -> digits_of w ds ->
  extract dh dw w w1 "X" = Err (if bool_decide (dw = 1 \/ dh * dw <= Z.of_nat (length ds)) then AttributeError else IndexError).
Proof.
  intros Hv H1 Hd. unfold extract. cbn [String.eqb Ascii.eqb Bool.eqb]. unfold extract_x. apply digits_word in Hd as ->.
  unfold stabilizer_string. destruct (stabs_any ds (geometry_mx dh dw) "") as [F1 F2]; [intros p i Hp Hi; by destruct (x_nonneg dh dw p i Hv Hp Hi)|].
  case_bool_decide as H.
  - rewrite F1; [done|]. intros p i Hp Hi. destruct H as [->|H]; [|destruct (x_nonneg dh dw p i Hv Hp Hi); lia].
    exfalso. revert Hp. unfold geometry_mx, num_syn_x. replace ((dh + 1) / 2 * (1 - 1)) with 0 by lia. by intros ?%elem_of_nil.
  - rewrite F2; [done|]. assert (1 < dw) as H2 by (unfold valid_size in Hv; lia).
    destruct (last_in_x dh dw Hv H2) as (p & Hp & Hi). exists p, (dh * dw - 1). split_and!; [done..|lia].
Qed.
(** A first word of two or more characters is taken for the readings of all data qubits, read as
    type Z: which words are accepted, and what is then reported. *)
Theorem C62_lattice_z dh dw w w1 ws : valid_size dh dw -> 1 < dh * dw -> is_word w -> is_word w1 -> Forall is_word ws ->
  (2 <= String.length w)%nat -> let r := parse_readout dh dw (spaced w (w1 :: ws)) (Some "Z"%string) in
  (forall ds, digits_of w ds -> dh * dw <= Z.of_nat (length ds) -> let words := last_word dh dw (data_bit ds) w1 :: w1 :: ws in
     (forall vals, Forall2 binary words vals ->
        exists X Zs, r = Ok (Z.b2z (xorl (data_bit ds <$> seqZ 0 dw)), (X, Zs)) /\ events dh dw vals X Zs) /\
     ((forall vals, ~ Forall2 binary words vals) -> r = Err ValueError)) /\
  (forall ds, digits_of w ds -> Z.of_nat (length ds) < dh * dw -> r = Err IndexError) /\
  ((forall ds, ~ digits_of w ds) -> r = Err ValueError).
Proof.
  intros Hv H1 Hw Hw1 Hws Hl. cbv zeta. unfold parse_readout. rewrite split_spaced by (done || by constructor). rewrite bool_decide_eq_true_2 by lia. split_and!.
  - intros ds Hd Hn. rewrite (extract_z_any dh dw w w1 ds) by done. split; [intros vals Hb; by apply tail_vals|]. intros H. by apply tail_bad.
  - intros ds Hd Hn. by rewrite (extract_z_short dh dw w w1 ds).
  - intros H. unfold extract. cbn [String.eqb Ascii.eqb Bool.eqb]. unfold extract_z. destruct (readout_values w) as [rv|e] eqn:E.
    + destruct (H (reverse rv)). apply digits_word. by rewrite reverse_involutive.
    + by rewrite (digits_err _ _ E).
Qed.
(** Read as type X such a word is never accepted; without a type, with an unknown type or with no
    syndrome word after it neither. *)
Theorem C62_lattice_errors dh dw w ws : valid_size dh dw -> 1 < dh * dw -> is_word w -> Forall is_word ws -> (2 <= String.length w)%nat ->
  parse_readout dh dw (spaced w ws) None = Err AssertionError /\
  (forall ty, parse_readout dh dw w (Some ty) = Err IndexError) /\
  (ws <> [] -> forall ty, ty <> "X"%string -> ty <> "Z"%string -> parse_readout dh dw (spaced w ws) (Some ty) = Err TypeError) /\
  (ws <> [] -> (forall ds, ~ digits_of w ds) -> parse_readout dh dw (spaced w ws) (Some "X"%string) = Err ValueError) /\
  (ws <> [] -> forall ds, digits_of w ds -> parse_readout dh dw (spaced w ws) (Some "X"%string) =
     Err (if bool_decide (dw = 1 \/ dh * dw <= Z.of_nat (length ds)) then AttributeError else IndexError)).
Proof.
  intros Hv H1 Hw Hws Hl. unfold parse_readout. rewrite split_spaced by done. pose proof (split_spaced w [] Hw ltac:(constructor)) as Ew. cbn [spaced] in Ew.
  rewrite Ew. rewrite bool_decide_eq_true_2 by lia. split_and!; try done; intros Hne; destruct ws as [|w1 ws]; try done.
  - intros ty HX HZ. unfold extract. apply String.eqb_neq in HX as ->. by apply String.eqb_neq in HZ as ->.
  - intros H. unfold extract. cbn [String.eqb Ascii.eqb Bool.eqb]. unfold extract_x. destruct (readout_values w) as [rv|e] eqn:E.
    + destruct (H (reverse rv)). apply digits_word. by rewrite reverse_involutive.
    + by rewrite (digits_err _ _ E).
  - intros ds Hd. by rewrite (extract_x_any dh dw w w1 ds).
Qed.
Print Assumptions C62_lattice_z.
Print Assumptions C62_lattice_errors.
(** 3x3: words of other lengths and notations than a circuit writes are accepted; nine digits are
    needed in front; the word of the previous round is copied character by character, so a short
    one shifts. *)
Example C62_ex : parse_readout 3 3 "7 0b1_0 +1 1100000001" None = Ok (7, ([], [(1, 1, 1); (1, 1, 5)])) /\
  parse_readout 3 3 "7" None = Ok (7, ([], [])) /\ parse_readout 3 3 " 0 1" None = Err ValueError /\
  parse_readout 3 3 "0 00000000  00000000" None = Err ValueError /\
  parse_readout 3 3 "9000020001 0b0" (Some "Z"%string) = Ok (1, ([], [(0, 1, 1)])) /\
  parse_readout 3 3 "000000001 10" (Some "Z"%string) = Ok (1, ([(0, 1, 3)], [(0, 1, 1); (0, 1, 5)])) /\
  parse_readout 3 3 "00000000 00000000" (Some "Z"%string) = Err IndexError /\
  parse_readout 3 3 "00000000 00000000" (Some "X"%string) = Err IndexError.
Proof. split_and!; vm_compute; reflexivity. Qed.
(** The hypotheses of the theorems on such texts. *)
Example C62_ex_words : valid_size 3 3 /\ is_word "7" /\ Forall is_word ["0b1_0"; "+1"; "1100000001"]%string /\ digits_of "7" [7] /\
  Forall2 binary ["0b1_0"; "+1"; "1100000001"]%string [2; 1; 769] /\ digits_of "9000020001" [9; 0; 0; 0; 0; 2; 0; 0; 0; 1] /\
  last_word 3 3 (data_bit [9; 0; 0; 0; 0; 2; 0; 0; 0; 1]) "0b0" = "0b00001"%string.
Proof.
  split_and!; try by vm_compute.
  - unfold is_word. cbn. rewrite !not_elem_of_cons. split; [done|by intros ?%elem_of_nil].
  - repeat constructor; unfold is_word; cbn; rewrite !not_elem_of_cons; split_and!; try done; by intros ?%elem_of_nil.
  - unfold digits_of. repeat constructor; cbn; lia.
  - repeat constructor; apply C62_int; reflexivity.
  - unfold digits_of. repeat constructor; cbn; lia.
Qed.
(** Leading, doubled or trailing blanks make an empty word, and no string with one is accepted. *)
Theorem C62_blanks dh dw w ws ty : valid_size dh dw -> 1 < dh * dw -> is_word w -> Forall is_word ws -> ""%string ∈ w :: ws ->
  exists e, parse_readout dh dw (spaced w ws) ty = Err e.
Proof.
  intros Hv H1 Hw Hws He.
  assert (B : forall l vals, ""%string ∈ l -> ~ Forall2 binary l vals).
  { intros l vals Hl HF. apply elem_of_list_lookup in Hl as (k & Hk). destruct (Forall2_lookup_l _ _ _ _ _ HF Hk) as (v & _ & Hb).
    apply C62_int in Hb. done. }
  destruct (decide (String.length w <= 1)%nat) as [Hl|Hl].
  - destruct (C62_logical dh dw w ws ty Hv H1 Hw Hws Hl) as [_ E]. eexists. apply E. intros d vals [Hd Hb].
    apply elem_of_cons in He as [<-|He]; [inversion Hd|]. by eapply B.
  - assert (Hl2 : (2 <= String.length w)%nat) by lia. destruct (C62_lattice_errors dh dw w ws Hv H1 Hw Hws Hl2) as (E1 & E2 & E3 & E4 & E5).
    destruct ty as [ty|]; [|by eexists]. apply elem_of_cons in He as [<-|He]; [cbn in Hl; lia|]. destruct ws as [|w1 ws]; [by apply elem_of_nil in He|].
    assert (D : (exists ds, digits_of w ds) \/ forall ds, ~ digits_of w ds).
    { destruct (readout_values w) as [rv|e] eqn:E; [left; exists (reverse rv); apply digits_word; by rewrite reverse_involutive|].
      right. intros ds Hd%digits_word. congruence. }
    destruct (decide (ty = "X"%string)) as [->|HX].
    { destruct D as [(ds & Hd)|D]; eexists; [by apply E5|by apply E4]. }
    destruct (decide (ty = "Z"%string)) as [->|HZ]; [|eexists; by apply E3].
    apply Forall_cons in Hws as [Hw1 Hws]. destruct (C62_lattice_z dh dw w w1 ws Hv H1 Hw Hw1 Hws Hl2) as (Z1 & Z2 & Z3).
    destruct D as [(ds & Hd)|D]; [|eexists; by apply Z3]. destruct (decide (dh * dw <= Z.of_nat (length ds))) as [Hn|Hn]; [|eexists; apply (Z2 ds); [done|lia]].
    eexists. apply (Z1 ds Hd Hn). intros vals Hb. by eapply (B (last_word dh dw (data_bit ds) w1 :: w1 :: ws)); [by right|].
Qed.
Print Assumptions C62_blanks.
Example C62_blanks_ex : parse_readout 3 3 "0  00000000" None = Err ValueError /\ spaced "0" [""; "00000000"]%string = "0  00000000"%string.
Proof. by vm_compute. Qed.
