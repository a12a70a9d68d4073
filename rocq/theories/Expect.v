(** Independent identically distributed Pauli errors: expectations and binomial tails, in exact
    rational numbers.  Vocabulary and facts for property C55. *)
From Coq Require Import QArith Qcanon.
From Verif Require Export Py.
From stdpp Require Export list.
Open Scope Z_scope.

(** A Pauli operator on one qubit up to phase: does it contain X, does it contain Z. *)
Notation pauli1 := (bool * bool)%type.
Definition pauli1s : list pauli1 := [(false, false); (false, true); (true, false); (true, true)].
Definition qsum (l : list Qc) : Qc := foldr Qcplus 0%Qc l.
(** The probability of each operator, as passed to Aer's [pauli_error]. *)
Definition noise := pauli1 -> Qc.
Definition is_noise (mu : noise) : Prop := (forall a, 0 <= mu a)%Qc /\ qsum (mu <$> pauli1s) = 1%Qc.
(** All ways of choosing an error for each of [n] places, their probabilities, and the expected
    value of a number that depends on them. *)
Fixpoint patterns (n : nat) : list (list pauli1) :=
  match n with O => [[]] | S n => a ← pauli1s; cons a <$> patterns n end.
Definition weight (mu : noise) (l : list pauli1) : Qc := foldr Qcmult 1%Qc (mu <$> l).
Definition expected (mu : noise) (n : nat) (f : list pauli1 -> Qc) : Qc := qsum ((fun l => (weight mu l * f l)%Qc) <$> patterns n).
(** The probability that an error contains X, or Z. *)
Definition marginal (mu : noise) (x : bool) : Qc := if x then (mu (true, false) + mu (true, true))%Qc else (mu (false, true) + mu (true, true))%Qc.

(** Binomial coefficients and the probability that at least [m] of [n] independent events of
    probability [q] happen. *)
Fixpoint binom (n k : nat) : Z :=
  match n, k with _, O => 1 | O, S _ => 0 | S n, S k => binom n k + binom n (S k) end.
Definition qnat (z : Z) : Qc := Q2Qc (inject_Z z).
Definition binom_term (n : nat) (q : Qc) (j : nat) : Qc := (qnat (binom n j) * q ^ j * (1 - q) ^ (n - j))%Qc.
Definition binom_tail (n m : nat) (q : Qc) : Qc := qsum (binom_term n q <$> seq m (S n - m)).

(** ** Sums *)
Lemma qsum_nil : qsum [] = 0%Qc. Proof. done. Qed.
Lemma qsum_cons x l : qsum (x :: l) = (x + qsum l)%Qc. Proof. done. Qed.
Lemma qsum_app l1 l2 : qsum (l1 ++ l2) = (qsum l1 + qsum l2)%Qc.
Proof. induction l1 as [|x l IHl]; [change (qsum ([] ++ l2)) with (qsum l2); change (qsum []) with 0%Qc; ring|]. cbn [app qsum foldr]. fold (qsum (l ++ l2)) (qsum l). rewrite IHl. ring. Qed.
Lemma qsum_ext {A} (f g : A -> Qc) l : (forall x, x ∈ l -> f x = g x) -> qsum (f <$> l) = qsum (g <$> l).
Proof. intros E. f_equal. apply list_fmap_ext. intros ? x Hx. apply E. by eapply elem_of_list_lookup_2. Qed.
Lemma qsum_scale {A} (c : Qc) (f : A -> Qc) l : qsum ((fun x => (c * f x)%Qc) <$> l) = (c * qsum (f <$> l))%Qc.
Proof. induction l as [|x l IHl]; rewrite ?fmap_nil, ?fmap_cons, ?qsum_nil, ?qsum_cons; [ring|]. rewrite IHl. ring. Qed.
Lemma qsum_plus {A} (f g : A -> Qc) l : qsum ((fun x => (f x + g x)%Qc) <$> l) = (qsum (f <$> l) + qsum (g <$> l))%Qc.
Proof. induction l as [|x l IHl]; rewrite ?fmap_nil, ?fmap_cons, ?qsum_nil, ?qsum_cons; [ring|]. rewrite IHl. ring. Qed.
Lemma qsum_le {A} (f g : A -> Qc) l : (forall x, x ∈ l -> f x <= g x)%Qc -> (qsum (f <$> l) <= qsum (g <$> l))%Qc.
Proof.
  induction l as [|x l IHl]; intros H; [apply Qcle_refl|]. change ((f x + qsum (f <$> l) <= g x + qsum (g <$> l))%Qc).
  apply Qcplus_le_compat; [apply H; left|]. apply IHl. intros y Hy. apply H. by right.
Qed.

(** ** Expectations *)
Lemma expected_0 mu f : expected mu 0 f = f [].
Proof. change (expected mu 0 f) with (1 * f [] + 0)%Qc. ring. Qed.
Lemma expected_cons mu n f a : qsum ((fun l => (weight mu l * f l)%Qc) <$> (cons a <$> patterns n)) = (mu a * expected mu n (fun l => f (a :: l)))%Qc.
Proof.
  rewrite <-list_fmap_compose. unfold expected. rewrite <-qsum_scale. apply qsum_ext. intros l _. unfold compose. change (weight mu (a :: l)) with (mu a * weight mu l)%Qc. ring.
Qed.
Lemma expected_S mu n f : expected mu (S n) f =
  (mu (false, false) * expected mu n (fun l => f ((false, false) :: l)) + mu (false, true) * expected mu n (fun l => f ((false, true) :: l)) +
   mu (true, false) * expected mu n (fun l => f ((true, false) :: l)) + mu (true, true) * expected mu n (fun l => f ((true, true) :: l)))%Qc.
Proof.
  unfold expected at 1. cbn [patterns pauli1s mbind list_bind]. rewrite app_nil_r, !fmap_app, !qsum_app, !expected_cons. ring.
Qed.
Lemma patterns_length n l : l ∈ patterns n -> length l = n.
Proof.
  revert l. induction n as [|n IHn]; intros l Hl; cbn in Hl; [by apply elem_of_list_singleton in Hl as ->|].
  rewrite !elem_of_app in Hl.
  assert (H : exists a, l ∈ cons a <$> patterns n) by (destruct Hl as [Hl|[Hl|[Hl|[Hl|Hl]]]]; [eauto..|by apply elem_of_nil in Hl]).
  destruct H as (a & Ha). apply elem_of_list_fmap in Ha as (l' & -> & Hl'). cbn. by rewrite (IHn _ Hl').
Qed.
Lemma weight_nonneg mu l : is_noise mu -> (0 <= weight mu l)%Qc.
Proof.
  intros [H _]. induction l as [|a l IHl]; [discriminate|]. change (weight mu (a :: l)) with (mu a * weight mu l)%Qc.
  replace 0%Qc with (0 * weight mu l)%Qc by ring. apply Qcmult_le_compat_r; [apply H|done].
Qed.
Lemma expected_le mu n f g : is_noise mu -> (forall l, length l = n -> f l <= g l)%Qc -> (expected mu n f <= expected mu n g)%Qc.
Proof.
  intros Hm H. apply qsum_le. intros l Hl%patterns_length. rewrite !(Qcmult_comm (weight mu l)). apply Qcmult_le_compat_r; [by apply H|by apply weight_nonneg].
Qed.
Lemma expected_ext mu n f g : (forall l, length l = n -> f l = g l) -> expected mu n f = expected mu n g.
Proof. intros H. apply qsum_ext. intros l Hl%patterns_length. by rewrite H. Qed.
Lemma marginal_range mu x : is_noise mu -> (0 <= marginal mu x <= 1)%Qc.
Proof.
  intros [H E]. cbn [pauli1s fmap list_fmap] in E. rewrite !qsum_cons, qsum_nil in E.
  assert (P : forall a b : Qc, (0 <= a -> 0 <= b -> 0 <= a + b)%Qc).
  { intros a b Ha Hb. replace 0%Qc with (0 + 0)%Qc by ring. by apply Qcplus_le_compat. }
  split; [destruct x; cbn [marginal]; apply P; apply H|].
  rewrite <-E. destruct x; cbn [marginal]; rewrite Qcle_minus_iff.
  - match goal with |- (0 <= ?e)%Qc => replace e with (mu (false, false) + mu (false, true))%Qc by ring end. apply P; apply H.
  - match goal with |- (0 <= ?e)%Qc => replace e with (mu (false, false) + mu (true, false))%Qc by ring end. apply P; apply H.
Qed.

(** Only one of the two kinds of error matters at each place: X where [ss] is true, Z where it
    is false. *)
Definition relevant (ss : list bool) (l : list pauli1) : list bool := zip_with (fun (x : bool) (a : pauli1) => if x then a.1 else a.2) ss l.
Fixpoint bexp (qs : list Qc) (g : list bool -> Qc) : Qc :=
  match qs with [] => g [] | q :: qs => (q * bexp qs (fun b => g (true :: b)) + (1 - q) * bexp qs (fun b => g (false :: b)))%Qc end.
Lemma bexp_ext qs f g : (forall b, f b = g b) -> bexp qs f = bexp qs g.
Proof. revert f g. induction qs as [|q qs IHl]; intros f g H; cbn [bexp]; [apply H|]. f_equal; f_equal; apply IHl; intros b; apply H. Qed.
Lemma expected_relevant mu ss g : is_noise mu -> expected mu (length ss) (fun l => g (relevant ss l)) = bexp (marginal mu <$> ss) g.
Proof.
  intros Hm. revert g. induction ss as [|x ss IHl]; intros g; cbn [length].
  - by rewrite expected_0.
  - rewrite expected_S. cbn [fmap list_fmap bexp]. rewrite <-(IHl (fun b => g (true :: b))), <-(IHl (fun b => g (false :: b))).
    unfold relevant. cbn [zip_with fst snd]. fold (relevant ss).
    destruct Hm as [_ E]. cbn [pauli1s fmap list_fmap] in E. rewrite !qsum_cons, qsum_nil in E.
    set (A := expected mu (length ss) (fun l => g (true :: relevant ss l))). set (B := expected mu (length ss) (fun l => g (false :: relevant ss l))).
    assert (E1 : (1 - (mu (true, false) + mu (true, true)) = mu (false, false) + mu (false, true))%Qc) by (rewrite <-E; ring).
    assert (E2 : (1 - (mu (false, true) + mu (true, true)) = mu (false, false) + mu (true, false))%Qc) by (rewrite <-E; ring).
    destruct x; cbn [marginal]; [rewrite E1|rewrite E2]; ring.
Qed.

(** ** How many of the events happen *)
Definition ntrue (b : list bool) : nat := length (filter (fun x => x = true) b).
Lemma ntrue_cons x b : ntrue (x :: b) = ((if x then 1 else 0) + ntrue b)%nat.
Proof. unfold ntrue. rewrite filter_cons. by destruct x. Qed.
Definition ind (b : bool) : Qc := if b then 1%Qc else 0%Qc.
Definition at_least (qs : list Qc) (m : nat) : Qc := bexp qs (fun b => ind (m <=? ntrue b)%nat).
Lemma tail_nil m : at_least [] m = ind (m =? 0)%nat.
Proof. by destruct m. Qed.
Lemma bexp_const qs c : bexp qs (fun _ => c) = c.
Proof. induction qs as [|q qs IHl]; cbn [bexp]; [done|]. rewrite IHl. ring. Qed.
Lemma tail_0 qs : at_least qs 0 = 1%Qc.
Proof. unfold at_least. rewrite (bexp_ext _ _ (fun _ => 1%Qc)); [apply bexp_const|done]. Qed.
Lemma tail_cons q qs m : at_least (q :: qs) (S m) = (q * at_least qs m + (1 - q) * at_least qs (S m))%Qc.
Proof. unfold at_least. cbn [bexp]. f_equal; f_equal; apply bexp_ext; intros b; by rewrite ntrue_cons. Qed.

(** ** Binomial form *)
Lemma qnat_add a b : qnat (a + b) = (qnat a + qnat b)%Qc.
Proof. unfold qnat. rewrite inject_Z_plus. apply Qc_is_canon. cbn. by rewrite !Qred_correct. Qed.
Lemma binom_0 n : binom n 0 = 1. Proof. by destruct n. Qed.
Lemma binom_big n : forall k, (n < k)%nat -> binom n k = 0.
Proof. induction n as [|n IHn]; intros [|k] Hk; cbn; try lia. rewrite !IHn by lia. done. Qed.
Lemma binom_nonneg n : forall k, 0 <= binom n k.
Proof. induction n as [|n IHn]; intros [|k]; cbn; try lia. pose proof (IHn k). pose proof (IHn (S k)). lia. Qed.
Lemma binom_nn n : binom n n = 1.
Proof. induction n as [|n IHn]; [done|]. cbn. by rewrite IHn, binom_big by lia. Qed.
Lemma term_S n q j : (S j <= n)%nat -> binom_term (S n) q (S j) = (q * binom_term n q j + (1 - q) * binom_term n q (S j))%Qc.
Proof.
  intros Hj. unfold binom_term. cbn [binom]. rewrite qnat_add. replace (S n - S j)%nat with (n - j)%nat by lia.
  replace (n - j)%nat with (S (n - S j)) by lia. cbn [Qcpower]. ring.
Qed.
Lemma term_n n q : binom_term n q n = (q ^ n)%Qc.
Proof. unfold binom_term. rewrite binom_nn, Nat.sub_diag. change (qnat 1) with 1%Qc. cbn [Qcpower]. ring. Qed.
Lemma tail_step n q m : (m <= n)%nat -> binom_tail n m q = (binom_term n q m + binom_tail n (S m) q)%Qc.
Proof. intros Hm. unfold binom_tail. replace (S n - m)%nat with (S (S n - S m)) by lia. cbn [seq fmap list_fmap]. apply qsum_cons. Qed.
Lemma tail_end n q m : (n < m)%nat -> binom_tail n m q = 0%Qc.
Proof. intros Hm. unfold binom_tail. by replace (S n - m)%nat with 0%nat by lia. Qed.
Lemma binom_tail_S n q m : binom_tail (S n) (S m) q = (q * binom_tail n m q + (1 - q) * binom_tail n (S m) q)%Qc.
Proof.
  destruct (decide (n < m)%nat) as [H|H]; [rewrite !tail_end by lia; ring|].
  remember (n - m)%nat as k eqn:Ek. revert m H Ek. induction k as [|k IHk]; intros m H Ek.
  - assert (m = n) as -> by lia. rewrite (tail_step n q n), (tail_step (S n) q (S n)), !tail_end, !term_n by lia. cbn [Qcpower]. ring.
  - rewrite (tail_step (S n) q (S m)), (tail_step n q m), (tail_step n q (S m)), term_S by lia.
    rewrite IHk by lia. rewrite (tail_step n q (S m)) by lia. ring.
Qed.
Lemma binom_tail_0 n q : binom_tail n 0 q = 1%Qc.
Proof.
  induction n as [|n IHn].
  - rewrite tail_step, tail_end, term_n by lia. cbn [Qcpower]. ring.
  - rewrite tail_step by lia. rewrite binom_tail_S, IHn. rewrite tail_step in IHn by lia.
    assert (E : binom_term (S n) q 0 = ((1 - q) * binom_term n q 0)%Qc).
    { unfold binom_term. rewrite !binom_0, !Nat.sub_0_r. cbn [Qcpower]. ring. }
    rewrite E. replace (binom_tail n 1 q) with (1 - binom_term n q 0)%Qc by (rewrite <-IHn; ring). ring.
Qed.
(** With equal probabilities the number of events is binomially distributed. *)
Lemma tail_binom n m q : at_least (replicate n q) m = binom_tail n m q.
Proof.
  revert m. induction n as [|n IHn]; intros [|m]; cbn [replicate].
  1,3: by rewrite tail_0, binom_tail_0.
  - rewrite tail_nil. by rewrite tail_end by lia.
  - by rewrite tail_cons, !IHn, binom_tail_S.
Qed.
Lemma qnat_nonneg z : 0 <= z -> (0 <= qnat z)%Qc.
Proof. intros H. unfold qnat, Qcle. unfold Q2Qc. cbn [this]. rewrite !Qred_correct. unfold Qle. cbn [Qnum Qden inject_Z]. lia. Qed.
Lemma Qcmult_nonneg a b : (0 <= a -> 0 <= b -> 0 <= a * b)%Qc.
Proof. intros Ha Hb. replace 0%Qc with (0 * b)%Qc by ring. by apply Qcmult_le_compat_r. Qed.
Lemma Qcmult_le_l a b c : (0 <= c -> a <= b -> c * a <= c * b)%Qc.
Proof. intros Hc H. rewrite !(Qcmult_comm c). by apply Qcmult_le_compat_r. Qed.
Lemma Qcpow_nonneg q n : (0 <= q -> 0 <= q ^ n)%Qc.
Proof. intros H. induction n as [|n IHn]; cbn [Qcpower]; [discriminate|by apply Qcmult_nonneg]. Qed.
Lemma Qcminus_nonneg q : (q <= 1 -> 0 <= 1 - q)%Qc.
Proof. intros H. apply Qcle_minus_iff in H. exact H. Qed.
Lemma tail_nonneg qs m : Forall (fun q => 0 <= q <= 1)%Qc qs -> (0 <= at_least qs m)%Qc.
Proof.
  intros H. revert m. induction H as [|q qs [H0 H1] H IHl]; intros [|m]; rewrite ?tail_0, ?tail_nil, ?tail_cons; try discriminate.
  replace 0%Qc with (0 + 0)%Qc by ring. apply Qcplus_le_compat; apply Qcmult_nonneg; auto using Qcminus_nonneg.
Qed.
(** At least [m] events: at most the number of sets of [m] events times the probability that all
    of them happen. *)
Lemma tail_bound qs m q : Forall (fun p => 0 <= p <= 1)%Qc qs -> Forall (fun p => p <= q)%Qc qs -> (0 <= q)%Qc ->
  (at_least qs m <= qnat (binom (length qs) m) * q ^ m)%Qc.
Proof.
  intros H Hq Hq0. revert m. induction H as [|p qs [H0 H1] H IHl]; intros [|m].
  - rewrite tail_0. cbn [length binom Qcpower]. change (qnat 1) with 1%Qc. rewrite Qcmult_1_l. apply Qcle_refl.
  - rewrite tail_nil. cbn [length binom]. change (qnat 0) with 0%Qc. cbn [ind Nat.eqb]. replace (0 * q ^ S m)%Qc with 0%Qc by ring. apply Qcle_refl.
  - rewrite tail_0. cbn [length binom Qcpower]. change (qnat 1) with 1%Qc. rewrite Qcmult_1_l. apply Qcle_refl.
  - apply Forall_cons_1 in Hq as [Hpq Hq]. specialize (IHl Hq). rewrite tail_cons. cbn [length binom]. rewrite qnat_add.
    replace ((qnat (binom (length qs) m) + qnat (binom (length qs) (S m))) * q ^ S m)%Qc with
      (q * (qnat (binom (length qs) m) * q ^ m) + qnat (binom (length qs) (S m)) * q ^ S m)%Qc by (cbn [Qcpower]; ring).
    apply Qcplus_le_compat.
    + eapply Qcle_trans; [apply Qcmult_le_compat_r; [exact Hpq|by apply tail_nonneg]|]. by apply Qcmult_le_l.
    + eapply Qcle_trans; [|apply IHl]. replace (at_least qs (S m)) with (1 * at_least qs (S m))%Qc at 2 by ring. apply Qcmult_le_compat_r; [|by apply tail_nonneg].
      apply Qcle_minus_iff. match goal with |- (0 <= ?e)%Qc => replace e with p by ring end. done.
Qed.
(** ** Events confined to some places *)
Definition confined (mask b : list bool) : bool := forallb id (zip_with implb b mask).
Lemma confined_tail mask qs m : length mask = length qs ->
  bexp qs (fun b => ind (confined mask b && (m <=? ntrue b)%nat)) =
  (foldr Qcmult 1 ((fun q => 1 - q) <$> (snd <$> filter (fun p => p.1 = false) (zip mask qs))) * at_least (snd <$> filter (fun p => p.1 = true) (zip mask qs)) m)%Qc.
Proof.
  revert qs m. induction mask as [|x mask IHl]; intros [|q qs] m HL; try done.
  - cbn. destruct m; done.
  - injection HL as HL. cbn [bexp zip zip_with]. rewrite !filter_cons. cbn [fst].
    assert (E0 : bexp qs (fun b => ind (confined (x :: mask) (false :: b) && (m <=? ntrue (false :: b))%nat)) = bexp qs (fun b => ind (confined mask b && (m <=? ntrue b)%nat))).
    { apply bexp_ext. intros b. by rewrite ntrue_cons. }
    rewrite E0, IHl by done. destruct x; cbn [decide].
    + rewrite decide_False, decide_True by done. cbn [fmap list_fmap snd]. destruct m as [|m].
      * rewrite (bexp_ext _ _ (fun b => ind (confined mask b && (0 <=? ntrue b)%nat))) by done. rewrite IHl, !tail_0 by done. ring.
      * rewrite (bexp_ext _ _ (fun b => ind (confined mask b && (m <=? ntrue b)%nat))) by (intros b; by rewrite ntrue_cons). rewrite IHl, tail_cons by done. ring.
    + rewrite decide_True, decide_False by done. cbn [fmap list_fmap snd foldr].
      rewrite (bexp_ext _ _ (fun _ => 0%Qc)) by done. rewrite bexp_const. ring.
Qed.
Lemma ntrue_filter (mask : list bool) {A} (x : A) : length (filter (fun p => p.1 = true) (zip mask (replicate (length mask) x))) = ntrue mask.
Proof. induction mask as [|b mask IHl]; [done|]. cbn [length replicate zip zip_with]. rewrite filter_cons, ntrue_cons. destruct b; cbn [fst]; [rewrite decide_True|rewrite decide_False]; cbn; by rewrite ?IHl. Qed.
(** The same with equal probabilities. *)
Lemma confined_binom mask q m :
  bexp (replicate (length mask) q) (fun b => ind (confined mask b && (m <=? ntrue b)%nat)) =
  ((1 - q) ^ (length mask - ntrue mask) * binom_tail (ntrue mask) m q)%Qc.
Proof.
  rewrite confined_tail by (by rewrite replicate_length). rewrite <-tail_binom. f_equal; [|f_equal].
  - induction mask as [|x mask IHl]; [done|]. cbn [length replicate zip zip_with]. rewrite filter_cons, ntrue_cons. destruct x; cbn [fst].
    + rewrite decide_False by done. by rewrite IHl.
    + rewrite decide_True by done. cbn [fmap list_fmap snd foldr]. rewrite IHl. assert (ntrue mask <= length mask)%nat by apply filter_length.
      replace (S (length mask) - (0 + ntrue mask))%nat with (S (length mask - ntrue mask)) by lia. done.
  - induction mask as [|x mask IHl]; [done|]. cbn [length replicate zip zip_with]. rewrite filter_cons, ntrue_cons. destruct x; cbn [fst].
    + rewrite decide_True by done. cbn [fmap list_fmap snd]. by rewrite IHl.
    + rewrite decide_False by done. by rewrite IHl.
Qed.
