(** Sorting by index, sums of counts. *)
From Coq Require Import QArith Qcanon.
From Verif Require Import Bench.
From stdpp Require Export list sorting.
Open Scope Z_scope.

(** The contract of [np.argsort]: a permutation of the indices that sorts the array. *)
Definition argsort_ok {A} (R : relation A) (f : list A -> list nat) : Prop :=
  forall l, f l ≡ₚ seq 0 (length l) /\ Sorted R (omap (l !!.) (f l)).
Definition np_ok (np : numpy) : Prop := argsort_ok Qcle (argsort_q np) /\ argsort_ok Z.le (argsort_z np).

Lemma omap_lookup_seq {A} (l : list A) : omap (l !!.) (seq 0 (length l)) = l.
Proof.
  assert (E : forall x (l : list A) (is : list nat), omap ((x :: l) !!.) (S <$> is) = omap (l !!.) is).
  { intros x k is. induction is as [|i is IH]; [done|]. cbn. by destruct (k !! i); rewrite <- IH. }
  induction l as [|x l IH]; [done|]. cbn [length seq]. rewrite <- fmap_S_seq. change (x :: omap ((x :: l) !!.) (S <$> seq 0 (length l)) = x :: l). by rewrite E, IH.
Qed.
Lemma take_idx_ok {A} (l : list A) (is : list nat) : Forall (fun i => (i < length l)%nat) is -> take_idx l is = Ok (omap (l !!.) is).
Proof.
  unfold take_idx. induction 1 as [|i is Hi His IH]; [done|]. cbn. apply lookup_lt_is_Some_2 in Hi as [x Hx]. by rewrite Hx, IH.
Qed.
Lemma omap_zip {A B} (l : list A) (m : list B) (is : list nat) : length l = length m ->
  zip (omap (l !!.) is) (omap (m !!.) is) = omap (zip l m !!.) is.
Proof.
  intros Hlen. induction is as [|i is IH]; [done|]. cbn. rewrite lookup_zip_with.
  destruct (l !! i) as [x|] eqn:E1; cbn.
  - assert (Hi : (i < length m)%nat) by (rewrite <- Hlen; by eapply lookup_lt_Some). apply lookup_lt_is_Some_2 in Hi as [y Hy]. rewrite Hy. cbn. by rewrite IH.
  - assert (m !! i = None) as ->; [|done]. apply lookup_ge_None. rewrite <- Hlen. by apply lookup_ge_None.
Qed.
Lemma perm_indices is n : is ≡ₚ seq 0 n -> Forall (fun i => (i < n)%nat) is.
Proof. intros H. apply Forall_forall. intros i Hi. rewrite H in Hi. apply elem_of_seq in Hi. lia. Qed.
(** Reordering two arrays of the same length by the argsort of the first. *)
Lemma argsort_pair {B} (R : relation Qc) f (l : list Qc) (m : list B) : argsort_ok R f -> length m = length l ->
  exists l' m', take_idx l (f l) = Ok l' /\ take_idx m (f l) = Ok m' /\ Sorted R l' /\ l' ≡ₚ l /\ length m' = length l' /\ zip l' m' ≡ₚ zip l m.
Proof.
  intros Hf Hlen. destruct (Hf l) as [Hp Hs]. pose proof (perm_indices _ _ Hp) as Hi.
  exists (omap (l !!.) (f l)), (omap (m !!.) (f l)). split; [by apply take_idx_ok|]. split; [apply take_idx_ok; by rewrite Hlen|]. split; [done|].
  split; [by rewrite Hp, omap_lookup_seq|]. split.
  - assert (E : forall {C} (k : list C) (is : list nat), Forall (fun i => (i < length k)%nat) is -> length (omap (k !!.) is) = length is).
    { intros C k is. induction 1 as [|i is' Hi' _ IH]; [done|]. cbn. apply lookup_lt_is_Some_2 in Hi' as [x ->]. cbn. by rewrite IH. }
    rewrite !E by (by rewrite ?Hlen). done.
  - rewrite omap_zip by done. rewrite Hp. assert (E : length l = length (zip l m)) by (rewrite zip_with_length; lia). rewrite E. by rewrite omap_lookup_seq.
Qed.
Lemma argsort_one {A} (R : relation Z) f (l : list A) (key : A -> Z) : argsort_ok R f ->
  exists l', take_idx l (f (key <$> l)) = Ok l' /\ l' ≡ₚ l /\ Sorted R (key <$> l').
Proof.
  intros Hf. destruct (Hf (key <$> l)) as [Hp Hs]. rewrite fmap_length in Hp. pose proof (perm_indices _ _ Hp) as Hi.
  exists (omap (l !!.) (f (key <$> l))). split; [by apply take_idx_ok|]. split; [by rewrite Hp, omap_lookup_seq|].
  assert (E : forall is : list nat, key <$> omap (l !!.) is = omap ((key <$> l) !!.) is); [|by rewrite E].
  induction is as [|i is IH]; [done|]. cbn. rewrite list_lookup_fmap. destruct (l !! i); cbn; by rewrite <- IH.
Qed.

(** The contract can be met. *)
Definition argsort_ref {A} `{Inhabited A} (R : relation A) `{!forall x y, Decision (R x y)} (l : list A) : list nat :=
  merge_sort (fun i j => R (l !!! i) (l !!! j)) (seq 0 (length l)).
Lemma argsort_ref_ok {A} `{Inhabited A} (R : relation A) `{HR : !forall x y, Decision (R x y)} `{!Total R} : argsort_ok R (argsort_ref R).
Proof.
  intros l. unfold argsort_ref. set (R' := fun i j => R (l !!! i) (l !!! j)).
  assert (Total R') by (intros i j; apply (total R)). pose proof (merge_sort_Permutation R' (seq 0 (length l))) as Hp. split; [done|].
  pose proof (Sorted_merge_sort R' (seq 0 (length l))) as Hs. apply perm_indices in Hp. revert Hp Hs. generalize (merge_sort R' (seq 0 (length l))) as is.
  induction 1 as [|i is Hi His IH]; intros Hs; [constructor|]. apply Sorted_inv in Hs as [Hs Hd]. specialize (IH Hs). cbn.
  pose proof Hi as Hi'. apply lookup_lt_is_Some_2 in Hi' as [x Hx]. rewrite Hx. cbn. constructor; [done|].
  destruct Hd as [|j is Hij]; [constructor|]. inversion_clear His as [|? ? Hj _]. apply lookup_lt_is_Some_2 in Hj as [y Hy]. cbn. rewrite Hy. cbn. constructor.
  unfold R' in Hij. by rewrite !list_lookup_total_alt, Hx, Hy in Hij.
Qed.
Global Instance Qc_inhabited' : Inhabited Qc := populate 0%Qc.
Definition np_ref : numpy := Np (argsort_ref Qcle) (argsort_ref Z.le).
Lemma np_ref_ok : np_ok np_ref.
Proof. split; [apply (argsort_ref_ok Qcle)|apply (argsort_ref_ok Z.le)]. Qed.

(** ** Sums *)
Definition zsum (l : list Z) : Z := foldr Z.add 0 l.
Lemma zsum_cons x l : zsum (x :: l) = x + zsum l.
Proof. done. Qed.
Lemma zsum_app l k : zsum (l ++ k) = zsum l + zsum k.
Proof. induction l as [|x l IH]; [done|]. cbn [app]. rewrite !zsum_cons, IH. lia. Qed.
Lemma zsum_perm l k : l ≡ₚ k -> zsum l = zsum k.
Proof. induction 1; rewrite ?zsum_cons; try done; lia. Qed.
Lemma zsum_nonneg l : Forall (fun x => 0 <= x) l -> 0 <= zsum l.
Proof. induction 1; rewrite ?zsum_cons; try done; lia. Qed.
(** The counts of a string, and of the strings with a property, in a list of counts. *)
Definition sum_if (P : string -> Prop) `{!forall s, Decision (P s)} (c : list (string * Z)) : Z := zsum (snd <$> filter (fun kv => P kv.1) c).
Lemma sum_if_cons P `{!forall s, Decision (P s)} kv c : sum_if P (kv :: c) = (if decide (P kv.1) then kv.2 else 0) + sum_if P c.
Proof. unfold sum_if. rewrite filter_cons. case_decide; [by rewrite fmap_cons, zsum_cons|done]. Qed.
Lemma sum_if_app P `{!forall s, Decision (P s)} c c' : sum_if P (c ++ c') = sum_if P c + sum_if P c'.
Proof. unfold sum_if. by rewrite filter_app, fmap_app, zsum_app. Qed.
Lemma sum_if_perm P `{!forall s, Decision (P s)} c c' : c ≡ₚ c' -> sum_if P c = sum_if P c'.
Proof. intros Hp. unfold sum_if. apply zsum_perm. by rewrite Hp. Qed.
Lemma sum_if_mono P Q `{!forall s, Decision (P s)} `{!forall s, Decision (Q s)} c :
  Forall (fun kv => 0 <= kv.2) c -> Forall (fun kv => P kv.1 -> Q kv.1) c -> sum_if P c <= sum_if Q c.
Proof. induction 1 as [|kv c Hc _ IH]; intros HP; [done|]. apply Forall_cons in HP as [HP HPc]. specialize (IH HPc). rewrite !sum_if_cons. repeat case_decide; tauto || lia. Qed.
Lemma sum_if_0 P `{!forall s, Decision (P s)} c : Forall (fun kv => ~ P kv.1) c -> sum_if P c = 0.
Proof. induction 1 as [|kv c Hc _ IH]; [done|]. rewrite sum_if_cons. case_decide; tauto || lia. Qed.
Lemma sum_if_nonneg P `{!forall s, Decision (P s)} c : Forall (fun kv => 0 <= kv.2) c -> 0 <= sum_if P c.
Proof. induction 1 as [|kv c Hc _ IH]; [done|]. rewrite sum_if_cons. case_decide; lia. Qed.
Lemma sum_if_ext P Q `{!forall s, Decision (P s)} `{!forall s, Decision (Q s)} c : (forall s, P s <-> Q s) -> sum_if P c = sum_if Q c.
Proof. intros Heq. induction c as [|kv c IH]; [done|]. rewrite !sum_if_cons, IH. pose proof (Heq kv.1). repeat case_decide; tauto. Qed.
(** Sums depend only on the count of every string. *)
Lemma sum_if_by_key P `{!forall s, Decision (P s)} ks c : NoDup ks -> Forall (fun kv => kv.1 ∈ ks) c ->
  sum_if P c = zsum ((fun s => if decide (P s) then sum_if (eq s) c else 0) <$> ks).
Proof.
  intros Hnd Hc. induction c as [|[s n] c IH].
  { clear Hnd Hc. induction ks as [|k ks IH]; [done|]. rewrite fmap_cons, zsum_cons, <- IH. by case_decide. }
  apply Forall_cons in Hc as [Hs Hc]. rewrite sum_if_cons, (IH Hc). cbn [fst snd] in *. clear IH Hc.
  assert (E : forall l, s ∉ l -> zsum ((fun s' => if decide (P s') then sum_if (eq s') ((s, n) :: c) else 0) <$> l) = zsum ((fun s' => if decide (P s') then sum_if (eq s') c else 0) <$> l)).
  { induction l as [|k l IH]; intros Hl; [done|]. apply not_elem_of_cons in Hl as [Hk Hl]. rewrite !fmap_cons, !zsum_cons, (IH Hl), sum_if_cons. cbn [fst snd]. f_equal.
    destruct (decide (P k)); [|done]. destruct (decide (k = s)); [congruence|lia]. }
  induction Hnd as [|k ks Hk Hnd IH]; [by apply elem_of_nil in Hs|]. rewrite !fmap_cons, !zsum_cons. destruct (decide (k = s)) as [-> |Hne].
  - rewrite (E ks Hk), sum_if_cons. cbn [fst snd]. destruct (decide (P s)); [|done]. destruct (decide (s = s)); [lia|done].
  - apply elem_of_cons in Hs as [Hs|Hs]; [congruence|]. specialize (IH Hs). rewrite sum_if_cons. cbn [fst snd]. destruct (decide (k = s)); [done|]. rewrite Z.add_0_l. destruct (decide (P s)); [|rewrite Z.add_0_l in *; lia]. lia.
Qed.
