(** An executable implementation of the contract of retworkx: exhaustive search.  It shows
    that [rx_ok] can be met and lets the decoder be run in examples. *)
From Verif Require Export SpecRx TJoin Mwpm.
From stdpp Require Export list.
Open Scope Z_scope.

Section walks.
Context {N W : Type} (g : pygraph N W).
Hypothesis Hwf : pg_wf g.
Local Notation n := (length (pg_nodes g)).
Lemma ekey_wf i j : is_Some (pg_edges g !! ekey i j) -> (i < n)%nat /\ (j < n)%nat.
Proof. intros [w Hw]. unfold ekey in Hw. apply Hwf in Hw. lia. Qed.
Lemma walk_end k i j : walk g k i j -> (i < n)%nat /\ (j < n)%nat.
Proof. induction 1 as [|k i j l He Hw IH]; [done|]. apply ekey_wf in He. tauto. Qed.
Lemma walk_trans k1 k2 i j l : walk g k1 i j -> walk g k2 j l -> walk g (k1 + k2) i l.
Proof. induction 1; [done|]. intros. cbn. econstructor; eauto. Qed.
Lemma elem_neighbours i j : j ∈ neighbours g i <-> is_Some (pg_edges g !! ekey i j).
Proof.
  unfold neighbours. rewrite elem_of_list_filter, elem_of_seq. split; [tauto|]. intros H. pose proof (ekey_wf i j H). split; [done|lia].
Qed.
Lemma nwalks_nonneg k i j : 0 <= nwalks g k i j.
Proof.
  revert i. induction k as [|k IH]; intros i; cbn; [by case_bool_decide|].
  induction (neighbours g i) as [|x l IHl]; cbn; [done|]. specialize (IH x). change (list_fmap _ _ ?f ?l) with (f <$> l). lia.
Qed.
Lemma nwalks_walk k i j : (i < n)%nat -> nwalks g k i j <> 0 <-> walk g k i j.
Proof.
  revert i. induction k as [|k IH]; intros i Hi; cbn.
  - case_bool_decide as E; split; [subst; by constructor|done|done|]. intros H. inversion H; subst. done.
  - assert (Hsum : forall l, foldr Z.add 0 ((fun x => nwalks g k x j) <$> l) <> 0 <-> exists x, x ∈ l /\ nwalks g k x j <> 0).
    { intros l. induction l as [|x l IHl]; cbn.
      - split; [done|]. intros (x & Hx & _). by apply elem_of_nil in Hx.
      - change (list_fmap _ _ ?f ?l) with (f <$> l) in *. pose proof (nwalks_nonneg k x j).
        assert (0 <= foldr Z.add 0 ((fun x => nwalks g k x j) <$> l)).
        { clear. induction l as [|y l IH]; cbn; [done|]. pose proof (nwalks_nonneg k y j). change (list_fmap _ _ ?f ?l) with (f <$> l) in *. lia. }
        split.
        + intros Hs. destruct (decide (nwalks g k x j = 0)) as [E|E].
          * destruct (proj1 IHl ltac:(lia)) as (y & Hy & Ey). exists y. split; [by right|done].
          * exists x. split; [left|done].
        + intros (y & [-> | Hy]%elem_of_cons & Ey); [lia|]. assert (foldr Z.add 0 ((fun x => nwalks g k x j) <$> l) <> 0) by (apply IHl; eauto). lia. }
    rewrite Hsum. split.
    + intros (x & Hx & Ex). apply elem_neighbours in Hx. apply IH in Ex; [|by apply (ekey_wf i)]. by econstructor.
    + intros H. inversion H as [|k' i' x j' He Hw']; subst. exists x. split; [by apply elem_neighbours|]. apply IH; [|done]. by apply (ekey_wf i).
Qed.
Lemma walk_vertices k i j : walk g k i j -> exists vs, length vs = S k /\
  forall m v, vs !! m = Some v -> walk g m i v /\ walk g (k - m) v j.
Proof.
  induction 1 as [i Hi|k i x j He Hw (vs & HL & Hvs)].
  - exists [i]. split; [done|]. intros [|m] v Hv; cbn in Hv; [|done]. injection Hv as <-. split; by constructor.
  - exists (i :: vs). split; [cbn; lia|]. intros [|m] v Hv; cbn in Hv.
    + injection Hv as <-. split; [constructor; by apply (ekey_wf _ x)|]. cbn. by econstructor.
    + destruct (Hvs m v Hv) as [H1 H2]. split; [by econstructor|done].
Qed.
Lemma shortest_lt k i j : shortest g i j k -> (k < n)%nat.
Proof.
  intros [Hw Hmin]. destruct (walk_vertices k i j Hw) as (vs & HL & Hvs).
  assert (HN : NoDup vs).
  { apply NoDup_alt. assert (Hgo : forall m m' v, (m < m')%nat -> vs !! m = Some v -> vs !! m' = Some v -> False).
    { intros m m' v Hlt H1 H2. destruct (Hvs _ _ H1) as [G1 _]. destruct (Hvs _ _ H2) as [_ G2].
      pose proof (Hmin _ (walk_trans _ _ _ _ _ G1 G2)). apply lookup_lt_Some in H2. lia. }
    intros m m' v H1 H2. destruct (Nat.lt_trichotomy m m') as [H|[H|H]]; [|done|]; exfalso; eauto. }
  assert (Hsub : vs ⊆+ seq 0 n).
  { apply NoDup_submseteq; [done|]. intros v [m Hv]%elem_of_list_lookup. apply Hvs in Hv as [H _]. apply walk_end in H. apply elem_of_seq. lia. }
  apply submseteq_length in Hsub. rewrite seq_length in Hsub. lia.
Qed.
(** The first number from [a] on, among [b] numbers, that satisfies [P]. *)
Fixpoint first_from (P : nat -> Prop) {HP : forall x, Decision (P x)} (a b : nat) : option nat :=
  match b with O => None | S b' => if decide (P a) then Some a else first_from P (S a) b' end.
Definition ref_dist_nat (i j : nat) : option nat := first_from (fun k => nwalks g k i j <> 0) 0 n.
Lemma first_from_ok (P : nat -> Prop) `{forall x, Decision (P x)} a b :
  match first_from P a b with
  | Some k => P k /\ (a <= k < a + b)%nat /\ forall k', (a <= k' < k)%nat -> ~ P k'
  | None => forall k, (a <= k < a + b)%nat -> ~ P k
  end.
Proof.
  revert a. induction b as [|b IH]; intros a; cbn [first_from]; [intros; cbn; lia|].
  destruct (decide (P a)) as [Ha|Ha].
  - split; [done|]. split; [lia|]. intros. lia.
  - specialize (IH (S a)). destruct (first_from P (S a) b) as [k|].
    + destruct IH as (H1 & H2 & H3). split; [done|]. split; [lia|]. intros k' Hk'. destruct (decide (k' = a)) as [-> |]; [done|]. apply H3. lia.
    + intros k Hk. destruct (decide (k = a)) as [-> |]; [done|]. apply IH. lia.
Qed.
Lemma ref_dist_ok i j : (i < n)%nat ->
  match ref_dist_nat i j with Some k => shortest g i j k | None => forall k, ~ walk g k i j end.
Proof.
  intros Hi. pose proof (first_from_ok (fun k => nwalks g k i j <> 0) 0 n) as H. unfold ref_dist_nat.
  destruct (first_from _ _ _) as [k|].
  - destruct H as (H1 & H2 & H3). split; [by apply nwalks_walk|]. intros k' Hk'. apply nwalks_walk in Hk'; [|done].
    destruct (decide (k <= k')%nat); [done|]. destruct (H3 k'); [lia|done].
  - intros k Hk. 
    assert (Hex : exists k0, shortest g i j k0).
    { revert Hk. induction (lt_wf k) as [k _ IH]. intros Hk.
      destruct (first_from (fun k' => nwalks g k' i j <> 0) 0 k) as [k'|] eqn:E.
      - pose proof (first_from_ok (fun k' => nwalks g k' i j <> 0) 0 k) as Hh. rewrite E in Hh. destruct Hh as (H1 & H2 & _).
        apply (IH k'); [lia|]. by apply nwalks_walk.
      - pose proof (first_from_ok (fun k' => nwalks g k' i j <> 0) 0 k) as Hh. rewrite E in Hh. exists k. split; [done|].
        intros k' Hk'. apply nwalks_walk in Hk'; [|done]. destruct (decide (k <= k')%nat); [done|]. destruct (Hh k'); [lia|done]. }
    destruct Hex as [k0 Hk0]. pose proof (shortest_lt _ _ _ Hk0). apply (H k0); [lia|]. apply nwalks_walk; [done|]. apply Hk0.
Qed.
End walks.

(** All matchings made of edges of a list, avoiding the nodes in [used]. *)
Fixpoint all_matchings (used : list nat) (es : list (nat * nat)) : list (list (nat * nat)) :=
  match es with
  | [] => [[]]
  | e :: es' =>
      all_matchings used es' ++
      (if bool_decide (e.1 <> e.2 /\ e.1 ∉ used /\ e.2 ∉ used) then (e ::.) <$> all_matchings (e.1 :: e.2 :: used) es' else [])
  end.
Lemma all_matchings_sound es : forall used M, M ∈ all_matchings used es ->
  NoDup (pends M) /\ (forall p, p ∈ M -> p ∈ es) /\ (forall v, v ∈ pends M -> v ∉ used).
Proof.
  induction es as [|e es IH]; intros used M; cbn [all_matchings].
  - intros ->%elem_of_list_singleton. split; [constructor|]. split; intros ? H; by apply elem_of_nil in H.
  - intros [HM|HM]%elem_of_app.
    + destruct (IH _ _ HM) as (H1 & H2 & H3). split; [done|]. split; [|done]. intros p Hp. right. auto.
    + case_bool_decide as Hc; [|by apply elem_of_nil in HM]. apply elem_of_list_fmap in HM as (M' & -> & HM').
      destruct (IH _ _ HM') as (H1 & H2 & H3). destruct Hc as (Hc1 & Hc2 & Hc3). split; [|split].
      * rewrite pends_cons. constructor; [|constructor; [|done]].
        -- intros [?|H]%elem_of_cons; [done|]. apply H3 in H. apply H. left.
        -- intros H. apply H3 in H. apply H. right; left.
      * intros p [-> | Hp]%elem_of_cons; [left|right; auto].
      * intros v. rewrite pends_cons. intros [-> | [-> | Hv]%elem_of_cons]%elem_of_cons; [done|done|]. apply H3 in Hv. intros Hu. apply Hv. right; by right.
Qed.
Lemma all_matchings_complete (P : nat * nat -> Prop) `{forall x, Decision (P x)} es : forall used,
  NoDup (pends (filter P es)) -> (forall v, v ∈ pends (filter P es) -> v ∉ used) -> filter P es ∈ all_matchings used es.
Proof.
  induction es as [|e es IH]; intros used HN Hu; cbn [all_matchings].
  - by apply elem_of_list_singleton.
  - rewrite filter_cons in *. apply elem_of_app. destruct (decide (P e)) as [He|He].
    + right. rewrite pends_cons in HN, Hu. apply NoDup_cons in HN as [H1 HN]. apply NoDup_cons in HN as [H2 HN].
      apply not_elem_of_cons in H1 as [H1 H1'].
      rewrite bool_decide_eq_true_2.
      2:{ split; [done|]. split; apply Hu; [left|right; left]. }
      apply elem_of_list_fmap. eexists. split; [done|]. apply IH; [done|].
      intros v Hv [-> | [-> | Hv']%elem_of_cons]%elem_of_cons; [done|done|]. revert Hv'. apply Hu. right; by right.
    + left. by apply IH.
Qed.

(** The better of two matchings: larger, or as large and heavier. *)
Definition better (es : gmap (nat * nat) Z) (A B : list (nat * nat)) : list (nat * nat) :=
  if bool_decide ((length A < length B)%nat \/ (length A = length B /\ mweight es A < mweight es B)) then B else A.
Definition best (es : gmap (nat * nat) Z) (l : list (list (nat * nat))) : list (nat * nat) := foldr (better es) [] l.
Definition dominates es (A B : list (nat * nat)) : Prop :=
  (length B <= length A)%nat /\ (length B = length A -> mweight es B <= mweight es A).
Lemma better_ok es A B : (better es A B = A \/ better es A B = B) /\ dominates es (better es A B) A /\ dominates es (better es A B) B.
Proof. unfold better, dominates. case_bool_decide as E; split_and!; auto; lia. Qed.
Lemma best_ok es l : (best es l = [] \/ best es l ∈ l) /\ forall A, A ∈ l -> dominates es (best es l) A.
Proof.
  induction l as [|A l [IH1 IH2]]; [split; [by left|intros A HA; by apply elem_of_nil in HA]|].
  cbn [best foldr]. fold (best es l). destruct (better_ok es A (best es l)) as (H1 & H2 & H3). split.
  - destruct H1 as [-> | ->]; [right; left|]. destruct IH1; [by left|right; by right].
  - intros B [-> | HB]%elem_of_cons; [done|]. specialize (IH2 B HB). unfold dominates in *. lia.
Qed.

Definition rx_ref : retworkx := {|
  rx_dist := fun g i j => Z.of_nat <$> ref_dist_nat g i j;
  rx_paths := fun g i => list_to_map (omap (fun j => if bool_decide (i = j) then None else (fun k => (j, nwalks g k i j)) <$> ref_dist_nat g i j) (seq 0 (length (pg_nodes g))));
  rx_match := fun n es => best es (all_matchings [] (map_to_list es).*1) |}.

Lemma ekey_idem p : ekey (ekey p.1 p.2).1 (ekey p.1 p.2).2 = ekey p.1 p.2.
Proof. unfold ekey. cbn. f_equal; lia. Qed.
Lemma mweight_perm es M1 M2 : M1 ≡ₚ M2 -> mweight es M1 = mweight es M2.
Proof. unfold mweight. induction 1; cbn; change (list_fmap _ _ ?f ?l) with (f <$> l) in *; lia. Qed.
Lemma pends_ekey (M : list (nat * nat)) : pends ((fun p => ekey p.1 p.2) <$> M) ≡ₚ pends M.
Proof.
  induction M as [|p M IH]; [done|]. rewrite fmap_cons, !pends_cons, IH. unfold ekey. cbn [fst snd].
  destruct (Nat.min_dec p.1 p.2) as [E|E]; rewrite E.
  - rewrite Nat.max_r by lia. done.
  - rewrite Nat.max_l by lia. apply perm_swap.
Qed.
Theorem rx_ref_ok : rx_ok rx_ref.
Proof.
  split.
  - intros g i j Hwf Hi Hj. cbn. pose proof (ref_dist_ok g Hwf i j Hi) as H. destruct (ref_dist_nat g i j); cbn; eauto.
  - intros g i j k Hwf Hi Hij Hs. cbn.
    assert (Ed : ref_dist_nat g i j = Some k).
    { pose proof (ref_dist_ok g Hwf i j Hi) as H. destruct (ref_dist_nat g i j) as [k'|].
      - f_equal. destruct H as [H1 H2], Hs as [G1 G2]. apply Nat.le_antisymm; auto.
      - destruct (H k). apply Hs. }
    apply elem_of_list_to_map_1.
    + assert (HG : forall l, NoDup l -> NoDup (omap (fun j0 => if bool_decide (i = j0) then None else (fun k0 => (j0, nwalks g k0 i j0)) <$> ref_dist_nat g i j0) l).*1 /\
        forall x, x ∈ (omap (fun j0 => if bool_decide (i = j0) then None else (fun k0 => (j0, nwalks g k0 i j0)) <$> ref_dist_nat g i j0) l).*1 -> x ∈ l).
      { induction l as [|x l IH]; intros HN; [split; [constructor|done]|]. apply NoDup_cons in HN as [Hx HN]. destruct (IH HN) as [IH1 IH2].
        cbn. case_bool_decide; [split; [done|]; intros y Hy; right; by apply IH2|].
        destruct (ref_dist_nat g i x); cbn; [|split; [done|]; intros y Hy; right; by apply IH2].
        change (list_fmap _ _ ?f ?l) with (f <$> l) in *. change (list_omap _ _ ?f ?l) with (omap f l) in *. split.
        - constructor; [|done]. intros Hin. by apply Hx, IH2.
        - intros y [-> | Hy]%elem_of_cons; [left|right; by apply IH2]. }
      apply HG. apply NoDup_seq.
    + apply elem_of_list_omap. exists j. split; [apply elem_of_seq; destruct Hs as [Hw _]; apply (walk_end g Hwf) in Hw; lia|].
      rewrite bool_decide_eq_false_2 by done. by rewrite Ed.
  - intros n es Hes. cbn. set (L := (map_to_list es).*1).
    assert (HL : forall k, k ∈ L <-> is_Some (es !! k)).
    { intros k. unfold L. rewrite elem_of_list_fmap. split.
      - intros ([k' w] & -> & Hk). apply elem_of_map_to_list in Hk. by eexists.
      - intros [w Hw]. exists (k, w). split; [done|]. by apply elem_of_map_to_list. }
    assert (HLN : NoDup L) by apply NoDup_fst_map_to_list.
    destruct (best_ok es (all_matchings [] L)) as [H1 H2]. split.
    + destruct H1 as [-> | Hin]; [split; [constructor|intros p Hp; by apply elem_of_nil in Hp]|].
      destruct (all_matchings_sound _ _ _ Hin) as (G1 & G2 & _). split; [done|]. intros p Hp. apply G2, HL in Hp as Hp'.
      assert (ekey p.1 p.2 = p) as ->; [|done]. destruct Hp' as [w Hw]. destruct p as [a b]. apply Hes in Hw. unfold ekey. cbn. f_equal; lia.
    + intros M' [HN HM]. set (K := (fun p => ekey p.1 p.2) <$> M').
      assert (HKN : NoDup (pends K)) by (unfold K; rewrite pends_ekey; done).
      assert (HKL : forall k, k ∈ K -> k ∈ L).
      { intros k (p & -> & Hp)%elem_of_list_fmap. apply HL. by apply HM. }
      assert (HK1 : NoDup K).
      { clear -HKN. induction K as [|k K IH]; [constructor|]. rewrite pends_cons in HKN. apply NoDup_cons in HKN as [H1 HKN].
        apply NoDup_cons in HKN as [H2 HKN]. constructor; [|by apply IH]. intros Hin. apply H2. apply elem_of_pends. exists k. split; [done|by right]. }
      assert (HP : filter (fun e => e ∈ K) L ≡ₚ K).
      { apply NoDup_Permutation; [by apply NoDup_filter|done|]. intros k. rewrite elem_of_list_filter. pose proof (HKL k). tauto. }
      assert (Hin : filter (fun e => e ∈ K) L ∈ all_matchings [] L).
      { apply all_matchings_complete; [|intros v _; apply not_elem_of_nil]. by rewrite (pends_perm _ _ HP). }
      destruct (H2 _ Hin) as [G1 G2]. rewrite (Permutation_length HP) in G1, G2. rewrite (mweight_perm es _ _ HP) in G2.
      assert (HKl : length K = length M') by apply fmap_length.
      assert (HKw : mweight es K = mweight es M').
      { unfold mweight, K. rewrite <- list_fmap_compose. f_equal. apply list_fmap_ext. intros i p _. unfold compose. by rewrite ekey_idem. }
      rewrite HKl, HKw in *. done.
Qed.
Print Assumptions rx_ref_ok.
