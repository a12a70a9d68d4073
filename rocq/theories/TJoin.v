(** Parities of nodes in lists of pairs, pairings of odd nodes, and the cut argument. *)
From Verif Require Export F2 SpecRx.
From stdpp Require Export list.
Open Scope Z_scope.

Section parity.
Context {A : Type} `{EqDecision A}.
Implicit Types (l : list A) (Q : list (A * A)).
Definition lpar l (n : A) : bool := xorl ((fun m => bool_decide (m = n)) <$> l).
Lemma lpar_nil n : lpar [] n = false. Proof. done. Qed.
Lemma lpar_cons x l n : lpar (x :: l) n = xorb (bool_decide (x = n)) (lpar l n). Proof. done. Qed.
Lemma lpar_app l1 l2 n : lpar (l1 ++ l2) n = xorb (lpar l1 n) (lpar l2 n).
Proof. unfold lpar. by rewrite fmap_app, xorl_app. Qed.
Lemma lpar_perm l1 l2 n : l1 ≡ₚ l2 -> lpar l1 n = lpar l2 n.
Proof. intros H. unfold lpar. apply xorl_perm. by rewrite H. Qed.
Lemma lpar_not_in l n : n ∉ l -> lpar l n = false.
Proof.
  induction l as [|x l IH]; [done|]. intros [Hx Hl]%not_elem_of_cons. rewrite lpar_cons, IH by done.
  by rewrite bool_decide_eq_false_2 by congruence.
Qed.
Lemma lpar_NoDup l n : NoDup l -> lpar l n = bool_decide (n ∈ l).
Proof.
  induction 1 as [|x l Hx Hn IH]; [by rewrite bool_decide_eq_false_2 by apply not_elem_of_nil|].
  rewrite lpar_cons. destruct (decide (x = n)) as [->|Hne].
  - rewrite lpar_not_in by done. rewrite !bool_decide_eq_true_2; [done|left|done].
  - rewrite bool_decide_eq_false_2 by done. rewrite IH, xorb_false_l. apply bool_decide_ext. rewrite elem_of_cons. naive_solver.
Qed.
Lemma lpar_true_in l n : lpar l n = true -> n ∈ l.
Proof. intros H. destruct (decide (n ∈ l)); [done|]. by rewrite lpar_not_in in H. Qed.

Lemma pends_cons p Q : pends (p :: Q) = p.1 :: p.2 :: pends Q. Proof. done. Qed.
Lemma pends_app Q1 Q2 : pends (Q1 ++ Q2) = pends Q1 ++ pends Q2. Proof. apply bind_app. Qed.
Lemma pends_perm Q1 Q2 : Q1 ≡ₚ Q2 -> pends Q1 ≡ₚ pends Q2.
Proof. intros H. unfold pends. by rewrite H. Qed.
Lemma elem_of_pends Q n : n ∈ pends Q <-> exists p, p ∈ Q /\ (n = p.1 \/ n = p.2).
Proof.
  unfold pends. rewrite elem_of_list_bind. split; intros (p & H1 & H2); exists p.
  - split; [done|]. apply elem_of_cons in H1 as [?|?%elem_of_list_singleton]; auto.
  - split; [|done]. destruct H2 as [-> | ->]; [left|right; left].
Qed.
Lemma pends_length Q : length (pends Q) = (2 * length Q)%nat.
Proof. induction Q as [|p Q IH]; [done|]. rewrite pends_cons. cbn [length]. lia. Qed.

(** If every node satisfying [P] occurs an even number of times, [P] holds an even number of
    times. *)
Lemma xorl_even (P : A -> bool) l : (forall n, P n = true -> lpar l n = false) -> xorl (P <$> l) = false.
Proof.
  remember (length l) as k eqn:Ek. revert l Ek. induction (lt_wf k) as [k _ IH]. intros l -> H.
  destruct l as [|x l]; [done|].
  rewrite fmap_cons, xorl_cons. destruct (P x) eqn:Ex.
  - pose proof (H x Ex) as Hx. rewrite lpar_cons, bool_decide_eq_true_2 in Hx by done.
    assert (Hin : x ∈ l) by (apply lpar_true_in; revert Hx; by destruct (lpar l x)).
    apply elem_of_Permutation in Hin as [l' Hl'].
    rewrite (xorl_perm (P <$> l) (P <$> x :: l')) by (apply fmap_Permutation; exact Hl'). rewrite fmap_cons, xorl_cons, Ex.
    rewrite (IH (length l')); [done| |done|].
    + apply Permutation_length in Hl'. cbn in *. lia.
    + intros n Hn. specialize (H n Hn). rewrite lpar_cons, (lpar_perm l _ n Hl'), lpar_cons in H.
      revert H. by destruct (bool_decide (x = n)), (lpar l' n).
  - cbn. rewrite (IH (length l)); [done|cbn; lia|done|].
    intros n Hn. specialize (H n Hn). rewrite lpar_cons, bool_decide_eq_false_2, xorb_false_l in H by congruence. done.
Qed.

(** ** Pairings with distinct ends *)
Section pairing.
Context (D : A -> A -> Z) (dom : A -> Prop).
Hypothesis D_nonneg : forall a b, dom a -> dom b -> 0 <= D a b.
Hypothesis D_sym : forall a b, dom a -> dom b -> D a b = D b a.
Hypothesis D_tri : forall a b c, dom a -> dom b -> dom c -> D a c <= D a b + D b c.
Definition cost Q : Z := foldr Z.add 0 ((fun p => D p.1 p.2) <$> Q).
Lemma cost_cons p Q : cost (p :: Q) = D p.1 p.2 + cost Q. Proof. done. Qed.
Lemma cost_app Q1 Q2 : cost (Q1 ++ Q2) = cost Q1 + cost Q2.
Proof. induction Q1 as [|p Q1 IH]; [done|]. cbn [app]. rewrite !cost_cons, IH. lia. Qed.
Lemma cost_perm Q1 Q2 : Q1 ≡ₚ Q2 -> cost Q1 = cost Q2.
Proof. induction 1; rewrite ?cost_cons; lia. Qed.
Definition all_dom Q : Prop := forall n, n ∈ pends Q -> dom n.

(** Take the pair that holds a node out of a pairing. *)
Lemma extract_pair Q a : all_dom Q -> NoDup (pends Q) -> a ∈ pends Q ->
  exists w R, pends Q ≡ₚ a :: w :: pends R /\ D a w + cost R <= cost Q /\ (length R < length Q)%nat.
Proof.
  intros Hd Hn Ha. pose proof Ha as (p & Hp & Hor)%elem_of_pends.
  apply elem_of_Permutation in Hp as [R HR]. destruct p as [u v]. cbn in Hor.
  pose proof (pends_perm _ _ HR) as HP. rewrite pends_cons in HP. cbn [fst snd] in HP.
  assert (Hdu : dom u /\ dom v).
  { split; apply Hd; rewrite HP; [left|right; left]. }
  assert (HL : (length R < length Q)%nat) by (apply Permutation_length in HR; cbn in HR; lia).
  apply cost_perm in HR. rewrite cost_cons in HR. cbn in HR.
  destruct Hor as [-> | ->].
  - exists v, R. split_and!; [done|lia|done].
  - exists u, R. split_and!; [rewrite HP; constructor|rewrite D_sym by tauto; lia|done].
Qed.

Lemma reduce Q : all_dom Q ->
  exists Q', all_dom Q' /\ NoDup (pends Q') /\ (forall n, n ∈ pends Q' -> n ∈ pends Q) /\ (forall n, lpar (pends Q') n = lpar (pends Q) n) /\ cost Q' <= cost Q.
Proof.
  induction Q as [|[a b] Q IH]; intros Hd.
  - exists []. split_and!; try done. constructor.
  - destruct IH as (Q' & Hd' & Hn & Hsub & Hp & Hc).
    { intros n Hn. apply Hd. rewrite pends_cons. by right; right. }
    assert (Ha : dom a) by (apply Hd; rewrite pends_cons; left).
    assert (Hb : dom b) by (apply Hd; rewrite pends_cons; right; left).
    assert (Hsub2 : forall n, n = a \/ n = b \/ n ∈ pends Q' -> n ∈ pends ((a, b) :: Q)).
    { intros n [-> | [-> | H]]; rewrite pends_cons; [left|right; left|right; right; by apply Hsub]. }
    assert (Hpar : forall n, lpar (pends ((a, b) :: Q)) n = xorb (bool_decide (a = n)) (xorb (bool_decide (b = n)) (lpar (pends Q') n))).
    { intros n. rewrite pends_cons, !lpar_cons, Hp. done. }
    assert (Hcost : cost ((a, b) :: Q) = D a b + cost Q) by done.
    destruct (decide (a = b)) as [->|Hab].
    { exists Q'. split_and!; [done|done|auto|..].
      - intros n. rewrite Hpar. by destruct (bool_decide (b = n)), (lpar (pends Q') n).
      - rewrite Hcost. specialize (D_nonneg b b Hb Hb). lia. }
    (* build a pairing from a permutation of its ends *)
    assert (Hfin : forall Q2, (exists l, pends Q2 ≡ₚ l /\ NoDup l /\ (forall n, n ∈ l -> dom n) /\ (forall n, n ∈ l -> n ∈ pends ((a, b) :: Q)) /\
        (forall n, lpar l n = lpar (pends ((a, b) :: Q)) n)) -> cost Q2 <= cost ((a, b) :: Q) ->
      exists Q', all_dom Q' /\ NoDup (pends Q') /\ (forall n, n ∈ pends Q' -> n ∈ pends ((a, b) :: Q)) /\
        (forall n, lpar (pends Q') n = lpar (pends ((a, b) :: Q)) n) /\ cost Q' <= cost ((a, b) :: Q)).
    { intros Q2 (l & Hl & Hnl & Hdl & Hsl & Hpl) Hc2. exists Q2. split_and!.
      - intros n Hn2. apply Hdl. by rewrite <- Hl.
      - by rewrite Hl.
      - intros n Hn2. apply Hsl. by rewrite <- Hl.
      - intros n. rewrite <- Hpl. by apply lpar_perm.
      - done. }
    destruct (decide (a ∈ pends Q')) as [HaQ|HaQ].
    + destruct (extract_pair Q' a Hd' Hn HaQ) as (w & R & HR & HcR & HLR).
      assert (HnR : NoDup (a :: w :: pends R)) by (by rewrite <- HR).
      assert (HdR : forall n, n ∈ a :: w :: pends R -> dom n) by (intros n H; apply Hd'; by rewrite HR).
      assert (HsR : forall n, n ∈ a :: w :: pends R -> n ∈ pends ((a, b) :: Q)) by (intros n H; apply Hsub2; right; right; by rewrite HR).
      assert (HpR : forall n, lpar (pends Q') n = xorb (bool_decide (a = n)) (xorb (bool_decide (w = n)) (lpar (pends R) n))).
      { intros n. by rewrite (lpar_perm _ _ n HR), !lpar_cons. }
      apply NoDup_cons in HnR as [Hna HnR]. apply NoDup_cons in HnR as [Hnw HnR].
      assert (Hw : dom w) by (apply HdR; right; left).
      apply not_elem_of_cons in Hna as [Haw Hna].
      destruct (decide (b = w)) as [->|Hbw].
      { apply (Hfin R).
        - exists (pends R). split_and!; [done|done| | |].
          + intros n H. apply HdR. by right; right.
          + intros n H. apply HsR. by right; right.
          + intros n. rewrite Hpar, HpR. by destruct (bool_decide (a = n)), (bool_decide (w = n)), (lpar (pends R) n).
        - rewrite Hcost. specialize (D_nonneg a w Ha Hw). lia. }
      destruct (decide (b ∈ pends R)) as [HbR|HbR].
      * destruct (extract_pair R b) as (z & R' & HR' & HcR' & _).
        { intros n H. apply HdR. by right; right. }
        { done. }
        { done. }
        assert (HnR' : NoDup (b :: z :: pends R')) by (by rewrite <- HR').
        apply NoDup_cons in HnR' as [Hnb HnR']. apply NoDup_cons in HnR' as [Hnz HnR'].
        assert (Hz : dom z). { apply HdR. right; right. rewrite HR'. right; left. }
        apply (Hfin ((w, z) :: R')).
        -- exists (w :: z :: pends R'). split_and!; [done| | | |].
           ++ constructor; [|by constructor]. rewrite HR' in Hnw. by apply not_elem_of_cons in Hnw as [_ ?].
           ++ intros n [-> | H]%elem_of_cons; [done|]. apply HdR. right; right. rewrite HR'. by right.
           ++ intros n [-> | H]%elem_of_cons; [apply HsR; right; left|]. apply HsR. right; right. rewrite HR'. by right.
           ++ intros n. rewrite Hpar, HpR, (lpar_perm _ _ n HR'), !lpar_cons.
              by destruct (bool_decide (a = n)), (bool_decide (w = n)), (bool_decide (b = n)), (bool_decide (z = n)), (lpar (pends R') n).
        -- rewrite Hcost, cost_cons. cbn. pose proof (D_tri w a z Hw Ha Hz). pose proof (D_tri a b z Ha Hb Hz).
           rewrite (D_sym w a Hw Ha) in *. lia.
      * apply (Hfin ((w, b) :: R)).
        -- exists (w :: b :: pends R). split_and!; [done| | | |].
           ++ constructor; [|by constructor]. apply not_elem_of_cons. split; [congruence|done].
           ++ intros n [-> | [-> | H]%elem_of_cons]%elem_of_cons; [done|done|]. apply HdR. by right; right.
           ++ intros n [-> | [-> | H]%elem_of_cons]%elem_of_cons; [apply HsR; right; left|apply Hsub2; tauto|]. apply HsR. by right; right.
           ++ intros n. rewrite Hpar, HpR, !lpar_cons.
              by destruct (bool_decide (a = n)), (bool_decide (w = n)), (bool_decide (b = n)), (lpar (pends R) n).
        -- rewrite Hcost, cost_cons. cbn. pose proof (D_tri w a b Hw Ha Hb).
           rewrite (D_sym w a Hw Ha) in *. lia.
    + destruct (decide (b ∈ pends Q')) as [HbQ|HbQ].
      * destruct (extract_pair Q' b Hd' Hn HbQ) as (z & R & HR & HcR & HLR).
        assert (HnR : NoDup (b :: z :: pends R)) by (by rewrite <- HR).
        apply NoDup_cons in HnR as [Hnb HnR]. apply NoDup_cons in HnR as [Hnz HnR].
        assert (Hz : dom z). { apply Hd'. rewrite HR. right; left. }
        rewrite HR in HaQ. apply not_elem_of_cons in HaQ as [_ HaQ].
        apply (Hfin ((a, z) :: R)).
        -- exists (a :: z :: pends R). split_and!; [done| | | |].
           ++ constructor; [done|by constructor].
           ++ intros n [-> | H]%elem_of_cons; [done|]. apply Hd'. rewrite HR. by right.
           ++ intros n [-> | H]%elem_of_cons; [apply Hsub2; tauto|]. apply Hsub2. right; right. rewrite HR. by right.
           ++ intros n. rewrite Hpar, (lpar_perm _ _ n HR), !lpar_cons.
              by destruct (bool_decide (a = n)), (bool_decide (b = n)), (bool_decide (z = n)), (lpar (pends R) n).
        -- rewrite Hcost, cost_cons. cbn. pose proof (D_tri a b z Ha Hb Hz). lia.
      * apply (Hfin ((a, b) :: Q')).
        -- exists (a :: b :: pends Q'). split_and!; [done| | | |].
           ++ constructor; [|by constructor]. by apply not_elem_of_cons.
           ++ intros n [-> | [-> | H]%elem_of_cons]%elem_of_cons; [done..|]. by apply Hd'.
           ++ intros n [-> | [-> | H]%elem_of_cons]%elem_of_cons; apply Hsub2; tauto.
           ++ intros n. by rewrite Hpar, !lpar_cons.
        -- rewrite Hcost, cost_cons. cbn. lia.
Qed.
End pairing.

(** ** Distinct cuts need distinct edges *)
Lemma cuts_need_edges {B} (cr : B -> Z -> bool) (E : list B) (S : list Z) :
  NoDup S -> (forall e s s', e ∈ E -> cr e s = true -> cr e s' = true -> s = s') ->
  (forall s, s ∈ S -> exists e, e ∈ E /\ cr e s = true) -> (length S <= length E)%nat.
Proof.
  revert S. induction E as [|e E IH]; intros S HS Hu Hex.
  - destruct S as [|s S]; [done|]. destruct (Hex s) as (e & He & _); [left|]. by apply elem_of_nil in He.
  - assert (Hsp : (length S <= 1 + length (filter (fun s => cr e s = false) S))%nat).
    { assert (Hle : (length (filter (fun s => cr e s = true) S) <= 1)%nat).
      { destruct (filter (fun s => cr e s = true) S) as [|s1 [|s2 r]] eqn:Ef; cbn; [lia|lia|].
        assert (H1 : s1 ∈ filter (fun s => cr e s = true) S) by (rewrite Ef; left).
        assert (H2 : s2 ∈ filter (fun s => cr e s = true) S) by (rewrite Ef; right; left).
        apply elem_of_list_filter in H1 as [H1 _], H2 as [H2 _].
        assert (s1 = s2) as -> by (apply (Hu e); [left|done..]).
        assert (Hnd : NoDup (s2 :: s2 :: r)) by (rewrite <- Ef; by apply NoDup_filter).
        apply NoDup_cons in Hnd as [Hni _]. destruct Hni. left. }
      assert (Hsum : (length (filter (fun s => cr e s = true) S) + length (filter (fun s => cr e s = false) S) = length S)%nat).
      { clear. induction S as [|s S IH]; [done|]. rewrite !filter_cons.
        destruct (cr e s); [rewrite decide_True, decide_False by done|rewrite decide_False, decide_True by done]; cbn; lia. }
      lia. }
    specialize (IH (filter (fun s => cr e s = false) S)). cbn [length].
    enough (length (filter (fun s => cr e s = false) S) <= length E)%nat by lia.
    apply IH.
    + by apply NoDup_filter.
    + intros e' s s' He'. apply Hu. by right.
    + intros s [Hs1 Hs2]%elem_of_list_filter. destruct (Hex s Hs2) as (e' & [-> | He']%elem_of_cons & Hc); [congruence|]. by exists e'.
Qed.
End parity.
