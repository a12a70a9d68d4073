(** Linear algebra over GF(2): finite sets under symmetric difference, parities. *)
From stdpp Require Export prelude gmap numbers.
From stdpp Require Export list.
Open Scope Z_scope.

Section f2.
Context {A : Type} `{Countable A}.
Implicit Types X Y Z : gset A.

Definition sd (X Y : gset A) : gset A := (X ∖ Y) ∪ (Y ∖ X).
Definition mem (x : A) (X : gset A) : bool := bool_decide (x ∈ X).
Definition par (X : gset A) : bool := Nat.odd (size X).
Definition dot (X Y : gset A) : bool := par (X ∩ Y).
Definition xsum (l : list (gset A)) : gset A := foldr sd ∅ l.
End f2.
Infix "⊕" := sd (at level 50, left associativity).
Definition xorl (l : list bool) : bool := foldr xorb false l.

Lemma xorl_nil : xorl [] = false. Proof. done. Qed.
Lemma xorl_cons b l : xorl (b :: l) = xorb b (xorl l). Proof. done. Qed.
Lemma xorl_app l1 l2 : xorl (l1 ++ l2) = xorb (xorl l1) (xorl l2).
Proof.
  induction l1 as [|b l1 IH]; rewrite ?app_nil_l, <-?app_comm_cons, ?xorl_cons, ?xorl_nil.
  - by rewrite xorb_false_l.
  - by rewrite IH, xorb_assoc.
Qed.
Lemma xorl_false l : Forall (fun b => b = false) l -> xorl l = false.
Proof. induction 1; [done|]. subst. by rewrite xorl_cons, IHForall. Qed.
Lemma xorl_perm l1 l2 : l1 ≡ₚ l2 -> xorl l1 = xorl l2.
Proof.
  induction 1; rewrite ?xorl_cons; [done|by f_equal| |congruence].
  rewrite <-!xorb_assoc, (xorb_comm x y). done.
Qed.

Section f2.
Context {A : Type} `{Countable A}.
Implicit Types X Y Z : gset A.

Lemma mem_true x X : mem x X = true <-> x ∈ X.
Proof. unfold mem. by rewrite bool_decide_eq_true. Qed.
Lemma mem_false x X : mem x X = false <-> x ∉ X.
Proof. unfold mem. by rewrite bool_decide_eq_false. Qed.
Lemma mem_ext X Y : (forall x, mem x X = mem x Y) -> X = Y.
Proof. intros He. apply set_eq. intros x. rewrite <-!mem_true, He. done. Qed.

Lemma elem_of_sd x X Y : x ∈ X ⊕ Y <-> (x ∈ X /\ x ∉ Y) \/ (x ∈ Y /\ x ∉ X).
Proof. unfold sd. rewrite elem_of_union, !elem_of_difference. done. Qed.
Lemma mem_sd x X Y : mem x (X ⊕ Y) = xorb (mem x X) (mem x Y).
Proof.
  destruct (mem x (X ⊕ Y)) eqn:E1, (mem x X) eqn:E2, (mem x Y) eqn:E3; try done; exfalso;
  rewrite ?mem_true, ?mem_false in *; rewrite elem_of_sd in E1; tauto.
Qed.
Lemma mem_empty x : mem x (∅ : gset A) = false.
Proof. apply mem_false. set_solver. Qed.
Lemma mem_cap x X Y : mem x (X ∩ Y) = mem x X && mem x Y.
Proof. unfold mem. rewrite <-bool_decide_and. apply bool_decide_ext. set_solver. Qed.
Lemma mem_singleton x y : mem x ({[ y ]} : gset A) = bool_decide (x = y).
Proof. unfold mem. apply bool_decide_ext. set_solver. Qed.

Lemma sd_comm X Y : X ⊕ Y = Y ⊕ X.
Proof. apply mem_ext. intros x. rewrite !mem_sd. apply xorb_comm. Qed.
Lemma sd_assoc X Y Z : X ⊕ (Y ⊕ Z) = X ⊕ Y ⊕ Z.
Proof. apply mem_ext. intros x. rewrite !mem_sd. by rewrite xorb_assoc. Qed.
Lemma sd_empty_l X : ∅ ⊕ X = X.
Proof. apply mem_ext. intros x. rewrite mem_sd, mem_empty. by destruct (mem x X). Qed.
Lemma sd_empty_r X : X ⊕ ∅ = X.
Proof. by rewrite sd_comm, sd_empty_l. Qed.
Lemma sd_nilp X : X ⊕ X = ∅.
Proof. apply mem_ext. intros x. rewrite mem_sd, mem_empty. by destruct (mem x X). Qed.
Lemma sd_cancel X Y : X ⊕ Y ⊕ Y = X.
Proof. by rewrite <-sd_assoc, sd_nilp, sd_empty_r. Qed.
Lemma sd_cancel_l X Y : Y ⊕ (Y ⊕ X) = X.
Proof. by rewrite sd_assoc, sd_nilp, sd_empty_l. Qed.
Lemma sd_inj_r X Y Z : X ⊕ Z = Y ⊕ Z -> X = Y.
Proof. intros He. rewrite <-(sd_cancel X Z), He. apply sd_cancel. Qed.
Lemma sd_eq_empty X Y : X ⊕ Y = ∅ -> X = Y.
Proof. intros He. apply (sd_inj_r _ _ Y). by rewrite He, sd_nilp. Qed.
Lemma cap_sd_l X Y Z : (X ⊕ Y) ∩ Z = (X ∩ Z) ⊕ (Y ∩ Z).
Proof. apply mem_ext. intros x. rewrite mem_cap, !mem_sd, !mem_cap. by destruct (mem x X), (mem x Y), (mem x Z). Qed.
Lemma sd_disj X Y : X ## Y -> X ⊕ Y = X ∪ Y.
Proof. intros. apply set_eq. intros x. rewrite elem_of_sd. set_solver. Qed.

Lemma par_empty : par (∅ : gset A) = false.
Proof. unfold par. by rewrite size_empty. Qed.
Lemma par_singleton x : par ({[ x ]} : gset A) = true.
Proof. unfold par. by rewrite size_singleton. Qed.
Lemma par_union_disj X Y : X ## Y -> par (X ∪ Y) = xorb (par X) (par Y).
Proof. intros. unfold par. rewrite size_union by done. apply Nat.odd_add. Qed.
Lemma par_sd X Y : par (X ⊕ Y) = xorb (par X) (par Y).
Proof.
  assert (HX : X = (X ∖ Y) ∪ (X ∩ Y)).
  { apply set_eq. intros x. destruct (decide (x ∈ Y)); set_solver. }
  assert (HY : Y = (Y ∖ X) ∪ (X ∩ Y)).
  { apply set_eq. intros x. destruct (decide (x ∈ X)); set_solver. }
  unfold sd. rewrite par_union_disj by set_solver.
  assert (par X = xorb (par (X ∖ Y)) (par (X ∩ Y))) as ->
    by (rewrite HX at 1; apply par_union_disj; set_solver).
  assert (par Y = xorb (par (Y ∖ X)) (par (X ∩ Y))) as ->
    by (rewrite HY at 1; apply par_union_disj; set_solver).
  destruct (par (X ∖ Y)), (par (Y ∖ X)), (par (X ∩ Y)); done.
Qed.

Lemma dot_comm X Y : dot X Y = dot Y X.
Proof. unfold dot. f_equal. set_solver. Qed.
Lemma dot_sd_l X Y Z : dot (X ⊕ Y) Z = xorb (dot X Z) (dot Y Z).
Proof. unfold dot. by rewrite cap_sd_l, par_sd. Qed.
Lemma dot_sd_r X Y Z : dot X (Y ⊕ Z) = xorb (dot X Y) (dot X Z).
Proof. rewrite (dot_comm X (Y ⊕ Z)), dot_sd_l, (dot_comm X Y), (dot_comm X Z). done. Qed.
Lemma dot_empty_l X : dot ∅ X = false.
Proof. unfold dot. replace (∅ ∩ X) with (∅ : gset A) by set_solver. apply par_empty. Qed.
Lemma dot_empty_r X : dot X ∅ = false.
Proof. by rewrite dot_comm, dot_empty_l. Qed.
Lemma dot_singleton_l x X : dot {[ x ]} X = mem x X.
Proof.
  unfold dot, mem. destruct (decide (x ∈ X)).
  - rewrite bool_decide_eq_true_2 by done. replace ({[x]} ∩ X) with ({[x]} : gset A) by set_solver.
    apply par_singleton.
  - rewrite bool_decide_eq_false_2 by done. replace ({[x]} ∩ X) with (∅ : gset A) by set_solver.
    apply par_empty.
Qed.
Lemma dot_singleton_r x X : dot X {[ x ]} = mem x X.
Proof. by rewrite dot_comm, dot_singleton_l. Qed.
Lemma dot_disj X Y : X ## Y -> dot X Y = false.
Proof. intros. unfold dot. replace (X ∩ Y) with (∅ : gset A) by set_solver. apply par_empty. Qed.

Lemma dot_xsum_r X l : dot X (xsum l) = xorl (dot X <$> l).
Proof. induction l as [|Y l IH]; [apply dot_empty_r|]. rewrite fmap_cons, xorl_cons, <-IH. apply dot_sd_r. Qed.
Lemma dot_xsum_l X l : dot (xsum l) X = xorl ((fun Y => dot Y X) <$> l).
Proof. induction l as [|Y l IH]; [apply dot_empty_l|]. rewrite fmap_cons, xorl_cons, <-IH. apply dot_sd_l. Qed.
Lemma mem_xsum (x : A) l : mem x (xsum l) = xorl (mem x <$> l).
Proof. induction l as [|Y l IH]; [apply mem_empty|]. rewrite fmap_cons, xorl_cons, <-IH. apply mem_sd. Qed.
Lemma xsum_app (l1 l2 : list (gset A)) : xsum (l1 ++ l2) = xsum l1 ⊕ xsum l2.
Proof. apply mem_ext. intros x. by rewrite mem_sd, !mem_xsum, fmap_app, xorl_app. Qed.
Lemma xsum_perm (l1 l2 : list (gset A)) : l1 ≡ₚ l2 -> xsum l1 = xsum l2.
Proof. intros Hp. apply mem_ext. intros x. rewrite !mem_xsum. apply xorl_perm. by rewrite Hp. Qed.

(** Parity of a set given as a duplicate-free list. *)
Lemma par_list l : NoDup l -> par (list_to_set l : gset A) = Nat.odd (length l).
Proof. intros. unfold par. by rewrite size_list_to_set. Qed.
Lemma sd_insert x X : x ∉ X -> {[x]} ⊕ X = {[x]} ∪ X.
Proof. intros. apply sd_disj. set_solver. Qed.
Lemma dot_list X l : NoDup l -> dot X (list_to_set l) = xorl ((fun x => mem x X) <$> l).
Proof.
  induction 1 as [|x l Hx Hl IH]; [apply dot_empty_r|]. rewrite fmap_cons, xorl_cons, list_to_set_cons.
  rewrite <-sd_insert by (by rewrite elem_of_list_to_set).
  by rewrite dot_sd_r, dot_singleton_r, IH.
Qed.

(** A set with a fixed-point-free involution has even size. *)
Lemma par_involution (f : A -> A) X :
  (forall x, x ∈ X -> f x ∈ X) -> (forall x, x ∈ X -> f (f x) = x) -> (forall x, x ∈ X -> f x <> x) ->
  par X = false.
Proof.
  remember (size X) as n eqn:Hn. revert X Hn.
  induction n as [n IH] using lt_wf_ind. intros X -> Hin Hinv Hfix.
  destruct (decide (X = ∅)) as [->|Hne]; [apply par_empty|].
  apply set_choose_L in Hne as [x Hx].
  set (Y := X ∖ {[x; f x]}).
  assert (HX : X = {[x]} ⊕ ({[f x]} ⊕ Y)).
  { pose proof (Hfix x Hx). rewrite (sd_disj {[f x]}) by (unfold Y; set_solver).
    rewrite sd_disj by (unfold Y; set_solver).
    apply set_eq. intros y. unfold Y.
    rewrite !elem_of_union, elem_of_difference, elem_of_union, !elem_of_singleton.
    split; [|intros [->|[->|[? _]]]; auto].
    destruct (decide (y = x)); [auto|]. destruct (decide (y = f x)); [auto|]. intros; right; right; tauto. }
  assert (HY : par Y = false).
  { apply (IH (size Y)); [|done|..].
    - apply subset_size. split; [set_solver|]. intros Hs. specialize (Hs x Hx). unfold Y in Hs. set_solver.
    - intros y Hy. unfold Y in *. apply elem_of_difference in Hy as [Hy Hyn].
      apply elem_of_difference. split; [by apply Hin|]. intros Hc. apply Hyn.
      apply elem_of_union in Hc as [Hc|Hc]; apply elem_of_singleton in Hc.
      + rewrite <-Hc, (Hinv y Hy). set_solver.
      + assert (y = x) by (rewrite <-(Hinv y Hy), Hc; apply Hinv; done). set_solver.
    - intros y Hy. apply Hinv. unfold Y in Hy. set_solver.
    - intros y Hy. apply Hfix. unfold Y in Hy. set_solver. }
  rewrite HX, !par_sd, !par_singleton, HY. done.
Qed.

Lemma par_true_nonempty X : par X = true -> X <> ∅.
Proof. intros Hp ->. by rewrite par_empty in Hp. Qed.
Lemma dot_true_elem X Y : dot X Y = true -> exists x, x ∈ X /\ x ∈ Y.
Proof.
  intros Hd. apply par_true_nonempty in Hd. apply set_choose_L in Hd as [x Hx]. exists x. set_solver.
Qed.
End f2.

(** Images under injections. *)
Section image.
Context {A B : Type} `{Countable A} `{Countable B} (f : A -> B) `{!Inj (=) (=) f}.
Implicit Types X Y : gset A.
Definition img (X : gset A) : gset B := set_map f X.
Lemma mem_img x X : mem (f x) (img X) = mem x X.
Proof. unfold mem, img. apply bool_decide_ext. set_solver. Qed.
Lemma img_sd X Y : img (X ⊕ Y) = img X ⊕ img Y.
Proof.
  apply set_eq. intros y. unfold img. rewrite elem_of_sd, !elem_of_map. setoid_rewrite elem_of_sd.
  split.
  - intros (x & -> & [[]|[]]); [left|right]; (split; [by eauto|]); intros (x' & Heq & ?);
    apply (inj f) in Heq as ->; done.
  - intros [[(x & -> & ?) Hn]|[(x & -> & ?) Hn]]; exists x; (split; [done|]); [left|right]; (split; [done|]); intros ?; apply Hn; eauto.
Qed.
Lemma img_empty : img ∅ = ∅.
Proof. unfold img. set_solver. Qed.
Lemma img_cap X Y : img X ∩ img Y = img (X ∩ Y).
Proof.
  unfold img. apply set_eq. intros y. rewrite elem_of_intersection, !elem_of_map. setoid_rewrite elem_of_intersection.
  split; [|naive_solver]. intros [(x & -> & ?) (x' & Heq & ?)]. apply (inj f) in Heq as ->. eauto.
Qed.
Lemma size_img X : size (img X) = size X.
Proof.
  unfold img, set_map. rewrite size_list_to_set.
  - by rewrite fmap_length.
  - apply NoDup_fmap; [done|]. apply NoDup_elements.
Qed.
Lemma par_img X : par (img X) = par X.
Proof. unfold par. by rewrite size_img. Qed.
Lemma dot_img X Y : dot (img X) (img Y) = dot X Y.
Proof. unfold dot. by rewrite img_cap, par_img. Qed.
Lemma img_xsum (l : list (gset A)) : img (xsum l) = xsum (img <$> l).
Proof. induction l as [|X l IH]; [apply img_empty|]. rewrite fmap_cons. change (img (X ⊕ xsum l) = img X ⊕ xsum (img <$> l)). by rewrite img_sd, IH. Qed.
Lemma img_inj X Y : img X = img Y -> X = Y.
Proof. intros He. apply mem_ext. intros x. by rewrite <-!mem_img, He. Qed.
End image.
