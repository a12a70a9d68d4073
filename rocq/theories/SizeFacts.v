(** Numbers of instructions in the closed forms of Hist.v. *)
From Verif Require Import QRound.
From Verif Require Export SpecSize.
From stdpp Require Export list.
Open Scope Z_scope.

(** ** Sums *)
Definition zs {A} (f : A -> Z) (l : list A) : Z := foldr (fun x n => f x + n) 0 l.
Lemma zs_cons {A} (f : A -> Z) x l : zs f (x :: l) = f x + zs f l. Proof. done. Qed.
Lemma zs_app {A} (f : A -> Z) l1 l2 : zs f (l1 ++ l2) = zs f l1 + zs f l2.
Proof. induction l1 as [|x l1 IHl]; [done|]. cbn [app]. rewrite !zs_cons, IHl. lia. Qed.
Lemma zs_fmap {A B} (f : B -> Z) (g : A -> B) l : zs f (g <$> l) = zs (fun x => f (g x)) l.
Proof. induction l as [|x l IHl]; [done|]. cbn [fmap list_fmap]. rewrite !zs_cons. by rewrite IHl. Qed.
Lemma zs_ext {A} (f g : A -> Z) l : (forall x, x ∈ l -> f x = g x) -> zs f l = zs g l.
Proof. induction l as [|x l IHl]; intros H; [done|]. rewrite !zs_cons, (H x) by left. rewrite IHl; [done|]. intros; apply H; by right. Qed.
Lemma zs_const {A} (k : Z) (l : list A) : zs (fun _ => k) l = k * Z.of_nat (length l).
Proof. induction l as [|x l IHl]; [cbn; lia|]. rewrite zs_cons, IHl. cbn [length]. lia. Qed.
Lemma zs_plus {A} (f g : A -> Z) l : zs (fun x => f x + g x) l = zs f l + zs g l.
Proof. induction l as [|x l IHl]; [done|]. rewrite !zs_cons, IHl. lia. Qed.
Lemma number_zs f is : number f is = zs (fun i => if f i then 1 else 0) is. Proof. done. Qed.
Lemma number_app f l1 l2 : number f (l1 ++ l2) = number f l1 + number f l2.
Proof. rewrite !number_zs. apply zs_app. Qed.
Lemma number_fmap {A} f (g : A -> instr) l : number f (g <$> l) = zs (fun x => if f (g x) then 1 else 0) l.
Proof. rewrite number_zs. apply zs_fmap. Qed.
Lemma number_mjoin {A} f (g : A -> list instr) l : number f (mjoin (g <$> l)) = zs (fun x => number f (g x)) l.
Proof. induction l as [|x l IHl]; [done|]. cbn [fmap list_fmap]. change (mjoin (g x :: (g <$> l))) with (g x ++ mjoin (g <$> l)). by rewrite number_app, zs_cons, IHl. Qed.
Lemma number_cons f i is : number f (i :: is) = (if f i then 1 else 0) + number f is.
Proof. done. Qed.
Lemma number_all {A} f (g : A -> instr) l : (forall x, f (g x) = true) -> number f (g <$> l) = Z.of_nat (length l).
Proof. intros H. rewrite number_fmap. rewrite (zs_ext _ (fun _ => 1)), zs_const; [lia|]. intros x _. by rewrite H. Qed.
Lemma number_none {A} f (g : A -> instr) l : (forall x, f (g x) = false) -> number f (g <$> l) = 0.
Proof. intros H. rewrite number_fmap. rewrite (zs_ext _ (fun _ => 0)), zs_const; [lia|]. intros x _. by rewrite H. Qed.

(** Rows of p elements. *)
Lemma seqZ_S n : 0 <= n -> seqZ 0 (n + 1) = seqZ 0 n ++ [n].
Proof. intros. rewrite seqZ_app by lia. done. Qed.
Lemma zs_rows (p : Z) (f : Z -> Z -> Z) (n : nat) : 0 < p ->
  zs (fun i => f (i / p) (i mod p)) (seqZ 0 (Z.of_nat n * p)) = zs (fun r => zs (f r) (seqZ 0 p)) (seqZ 0 (Z.of_nat n)).
Proof.
  intros Hp. induction n as [|n IHn]; [done|]. rewrite Nat2Z.inj_succ. unfold Z.succ.
  rewrite seqZ_S by lia. rewrite zs_app, <-IHn. replace ((Z.of_nat n + 1) * p) with (Z.of_nat n * p + p) by lia.
  rewrite seqZ_app by lia. rewrite zs_app. f_equal. rewrite zs_cons. cbn [zs foldr]. rewrite Z.add_0_r.
  rewrite Z.add_0_l. rewrite seqZ_shift, zs_fmap. apply zs_ext. intros x Hx%elem_of_seqZ.
  rewrite idx_div, idx_mod by lia. done.
Qed.
(** All but one element have the same value. *)
Lemma zs_but (a b k : Z) n : 0 <= k < n -> zs (fun o => if bool_decide (o = k) then b else a) (seqZ 0 n) = a * (n - 1) + b.
Proof.
  intros Hk. replace n with (k + (1 + (n - k - 1))) by lia. rewrite seqZ_app by lia. rewrite seqZ_app by lia. rewrite !zs_app.
  rewrite (zs_ext _ (fun _ => a) (seqZ 0 k)), zs_const, seqZ_length.
  2:{ intros x Hx%elem_of_seqZ. by rewrite bool_decide_eq_false_2 by lia. }
  change (seqZ (0 + k) 1) with [0 + k]. rewrite zs_cons. cbn [zs foldr]. rewrite bool_decide_eq_true_2 by lia.
  rewrite (zs_ext _ (fun _ => a) (seqZ (0 + k + 1) _)), zs_const, seqZ_length.
  2:{ intros x Hx%elem_of_seqZ. by rewrite bool_decide_eq_false_2 by lia. }
  rewrite !Z2Nat.id by lia. lia.
Qed.

(** ** Plaquettes *)
Definition some1 {A} (o : option A) : Z := match o with Some _ => 1 | None => 0 end.
Definition weight (p : plaq) : Z := some1 (top_l p) + some1 (top_r p) + some1 (bot_l p) + some1 (bot_r p).
Definition flips (p : plaq) : Z := some1 (top_l p) + some1 (bot_r p).
Lemma zs_mul {A} k (f : A -> Z) l : zs (fun x => k * f x) l = k * zs f l.
Proof. induction l as [|x l IHl]; [cbn; lia|]. rewrite !zs_cons, IHl. lia. Qed.
Lemma sum_x dh dw (g : plaq -> Z) (u m v : Z) : valid_size dh dw ->
  (forall i a b, g (Plaq i None None (Some a) (Some b)) = u) -> (forall i a b, g (Plaq i (Some a) (Some b) None None) = v) ->
  (forall i a b c d, g (Plaq i (Some a) (Some b) (Some c) (Some d)) = m) ->
  2 * zs (fun i => g (geom_x dh dw i)) (seqZ 0 (num_syn_x dh dw)) = (dw - 1) * (u + v + m * (dh - 1)).
Proof.
  intros Hv Hu Hvv Hm. destruct (valid_size_inv _ _ Hv) as (a & b & -> & -> & Ha & Hb).
  assert (Ep : (2 * b + 1 - 1) / 2 = b) by (symmetry; apply Z.div_unique with 0; lia).
  assert (En : num_syn_x (2 * a + 1) (2 * b + 1) = (2 * a + 2) * b).
  { unfold num_syn_x. replace ((2 * a + 1 + 1) / 2) with (a + 1) by (apply Z.div_unique with 0; lia). lia. }
  rewrite En. destruct (decide (b = 0)) as [->|Hb0]; [replace ((2 * a + 2) * 0) with 0 by lia; change (zs _ (seqZ 0 0)) with 0; ring|].
  set (F := fun r _ : Z => if bool_decide (r = 0) then u else if bool_decide (r = 2 * a + 1) then v else m).
  rewrite (zs_ext _ (fun i => F (i / b) (i mod b))).
  2:{ intros i _. unfold F, geom_x. rewrite Ep. cbn zeta. repeat case_bool_decide; auto. }
  replace (2 * a + 2) with (Z.of_nat (Z.to_nat (2 * a + 2))) by lia.
  etransitivity; [apply (f_equal (Z.mul 2)), (zs_rows b F); lia|]. rewrite Z2Nat.id by lia.
  rewrite (zs_ext _ (fun r => b * (if bool_decide (r = 0) then u else if bool_decide (r = 2 * a + 1) then v else m))).
  2:{ intros r _. unfold F. rewrite zs_const, seqZ_length, Z2Nat.id by lia. apply Z.mul_comm. }
  replace (2 * a + 2) with (1 + (2 * a + 1)) by lia. rewrite seqZ_app by lia. rewrite zs_app.
  change (seqZ 0 1) with [0]. rewrite zs_cons. cbn [zs foldr]. rewrite bool_decide_eq_true_2 by done.
  rewrite zs_mul. rewrite (zs_ext _ (fun o => if bool_decide (o = 2 * a + 1) then v else m)).
  2:{ intros r Hr%elem_of_seqZ. by rewrite bool_decide_eq_false_2 by lia. }
  change (0 + 1) with 1. rewrite (seqZ_shift 1), zs_fmap.
  rewrite (zs_ext _ (fun o => if bool_decide (o = 2 * a) then v else m)).
  2:{ intros r _. apply (f_equal (fun c : bool => if c then v else m)). apply bool_decide_ext. lia. }
  rewrite zs_but by lia. lia.
Qed.
Lemma sum_z dh dw (g : plaq -> Z) (u m : Z) : valid_size dh dw ->
  (forall i a b, g (Plaq i None (Some a) None (Some b)) = u) -> (forall i a b, g (Plaq i (Some a) None (Some b) None) = u) ->
  (forall i a b c d, g (Plaq i (Some a) (Some b) (Some c) (Some d)) = m) ->
  2 * zs (fun i => g (geom_z dh dw i)) (seqZ 0 (num_syn_z dh dw)) = (dh - 1) * (2 * u + m * (dw - 1)).
Proof.
  intros Hv Hu Hvv Hm. destruct (valid_size_inv _ _ Hv) as (a & b & -> & -> & Ha & Hb).
  assert (Ep : (2 * b + 1 + 1) / 2 = b + 1) by (symmetry; apply Z.div_unique with 0; lia).
  assert (En : num_syn_z (2 * a + 1) (2 * b + 1) = Z.of_nat (Z.to_nat (2 * a)) * (b + 1)).
  { unfold num_syn_z. rewrite Ep. lia. }
  rewrite En.
  set (F := fun r o : Z => if bool_decide (o = if bool_decide (r mod 2 = 0) then b else 0) then u else m).
  rewrite (zs_ext _ (fun i => F (i / (b + 1)) (i mod (b + 1)))).
  2:{ intros i _. unfold F, geom_z. rewrite Ep. cbn zeta. set (r := i / (b + 1)). set (o := i mod (b + 1)).
      pose proof (Z.mod_pos_bound r 2 ltac:(lia)). replace (b + 1 - 1) with b by lia.
      destruct (decide (r mod 2 = 0)) as [E|E].
      - rewrite (bool_decide_eq_true_2 (r mod 2 = 0)) by done. rewrite (bool_decide_eq_false_2 (r mod 2 = 1)) by lia. cbn [andb]. case_bool_decide; auto.
      - rewrite (bool_decide_eq_false_2 (r mod 2 = 0)) by done. rewrite (bool_decide_eq_true_2 (r mod 2 = 1)) by lia. cbn [andb]. case_bool_decide; auto. }
  etransitivity; [apply (f_equal (Z.mul 2)), (zs_rows (b + 1) F); lia|].
  rewrite (zs_ext _ (fun _ => m * b + u)).
  2:{ intros r _. unfold F. rewrite zs_but; [lia|]. case_bool_decide; lia. }
  rewrite zs_const, seqZ_length, Nat2Z.id, Z2Nat.id by lia. ring.
Qed.

(** ** One plaquette *)
Lemma number_ent c name dh dw k : valid_size dh dw -> is_syn dh dw k ->
  let e := ent (entry c name dh dw k).1 (entry c name dh dw k).2 in let p := geomP dh dw k in
  number is_two e = weight p /\ number is_measure e = 0 /\ number is_reset e = 0 /\
  number is_had e = match c with XXZZ => if k.1 then 2 else 0 | XZZX => 2 * flips p end /\
  number (fun _ => true) e = number is_two e + number is_had e.
Proof.
  intros Hv Hk e p. unfold e. rewrite ent_compile by done. unfold entry. cbn [fst snd]. change (geomP dh dw k) with p.
  destruct p as [i [tl|] [tr|] [bl|] [br|]]; destruct c, k as [[] l]; vm_compute; auto.
Qed.
Lemma zs_syns (f : bool * Z -> Z) dh dw : zs f (syns dh dw) = zs (fun i => f (true, i)) (seqZ 0 (num_syn_x dh dw)) + zs (fun i => f (false, i)) (seqZ 0 (num_syn_z dh dw)).
Proof. unfold syns. by rewrite zs_app, !zs_fmap. Qed.
(** ** One round *)
Lemma size_round c name dh dw T : valid_size dh dw ->
  number is_two (round_instrs c name dh dw T) = two_cost dh dw OStab /\
  number is_had (round_instrs c name dh dw T) = had_cost c dh dw OStab /\
  number is_measure (round_instrs c name dh dw T) = dh * dw - 1 /\
  number is_reset (round_instrs c name dh dw T) = dh * dw - 1 /\
  zs (fun k => number (fun _ => true) (ent (entry c name dh dw k).1 (entry c name dh dw k).2)) (syns dh dw) = two_cost dh dw OStab + had_cost c dh dw OStab.
Proof.
  intros Hv. assert (HE : forall f, number f [IBarrier] = 0 -> number f (ent_instrs (lat_stabs (the_lattice c name 0 dh dw))) =
    zs (fun k => number f (ent (entry c name dh dw k).1 (entry c name dh dw k).2)) (syns dh dw)).
  { intros f Hf. rewrite lat_stabs_syns, ent_instrs_eq, number_mjoin. apply zs_ext. intros k _. unfold ent_k. rewrite number_app, Hf. lia. }
  assert (HM : forall f, (forall q b, f (IMeas q b) = true) -> (forall q, f (IReset q) = false) -> number f (meas_instrs name dh dw T ++ reset_instrs name dh dw) = dh * dw - 1).
  { intros f H1 H2. unfold meas_instrs, reset_instrs. rewrite !number_app. rewrite (number_none f _ _ (fun x => H2 _)), (number_none f _ _ (fun x => H2 _)), !number_all by done.
    rewrite !seqZ_length. destruct (valid_size_inv _ _ Hv) as (a & b & -> & -> & Ha & Hb). unfold num_syn_x, num_syn_z.
    replace ((2 * a + 1 + 1) / 2) with (a + 1) by (apply Z.div_unique with 0; lia). replace ((2 * b + 1 + 1) / 2) with (b + 1) by (apply Z.div_unique with 0; lia). lia. }
  assert (HR : forall f, (forall q b, f (IMeas q b) = false) -> (forall q, f (IReset q) = true) -> number f (meas_instrs name dh dw T ++ reset_instrs name dh dw) = dh * dw - 1).
  { intros f H1 H2. unfold meas_instrs, reset_instrs. rewrite !number_app. rewrite (number_none f _ _ (fun x => H1 _ _)), (number_none f _ _ (fun x => H1 _ _)), !number_all by done.
    rewrite !seqZ_length. destruct (valid_size_inv _ _ Hv) as (a & b & -> & -> & Ha & Hb). unfold num_syn_x, num_syn_z.
    replace ((2 * a + 1 + 1) / 2) with (a + 1) by (apply Z.div_unique with 0; lia). replace ((2 * b + 1 + 1) / 2) with (b + 1) by (apply Z.div_unique with 0; lia). lia. }
  assert (HN : forall f, (forall q b, f (IMeas q b) = false) -> (forall q, f (IReset q) = false) -> number f (meas_instrs name dh dw T ++ reset_instrs name dh dw) = 0).
  { intros f H1 H2. unfold meas_instrs, reset_instrs. rewrite !number_app. rewrite !(number_none f _ _ (fun x => H1 _ _)), !(number_none f _ _ (fun x => H2 _)). done. }
  assert (HW : zs (fun k => number is_two (ent (entry c name dh dw k).1 (entry c name dh dw k).2)) (syns dh dw) = two_cost dh dw OStab).
  { rewrite (zs_ext _ (fun k => weight (geomP dh dw k))) by (intros k Hk%elem_of_syns; by apply number_ent).
    rewrite zs_syns. unfold geomP. cbn [fst snd].
    pose proof (sum_x dh dw weight 2 4 2 Hv ltac:(done) ltac:(done) ltac:(done)). pose proof (sum_z dh dw weight 2 4 Hv ltac:(done) ltac:(done) ltac:(done)).
    cbn [two_cost]. lia. }
  assert (HHad : zs (fun k => number is_had (ent (entry c name dh dw k).1 (entry c name dh dw k).2)) (syns dh dw) = had_cost c dh dw OStab).
  { rewrite (zs_ext _ (fun k : bool * Z => match c with XXZZ => if k.1 then 2 else 0 | XZZX => 2 * flips (geomP dh dw k) end)) by (intros k Hk%elem_of_syns; by apply number_ent).
    rewrite zs_syns. unfold geomP. cbn [fst snd]. destruct c.
    - rewrite !zs_const, !seqZ_length. cbn [had_cost]. destruct (valid_size_inv _ _ Hv) as (a & b & -> & -> & Ha & Hb). unfold num_syn_x.
      replace ((2 * a + 1 + 1) / 2) with (a + 1) by (apply Z.div_unique with 0; lia). lia.
    - rewrite !zs_mul. pose proof (sum_x dh dw flips 1 2 1 Hv ltac:(done) ltac:(done) ltac:(done)). pose proof (sum_z dh dw flips 1 2 Hv ltac:(done) ltac:(done) ltac:(done)).
      cbn [had_cost]. lia. }
  unfold round_instrs. rewrite !number_app, !HE by done. 
  pose proof (HM is_measure ltac:(done) ltac:(done)) as M1. pose proof (HR is_reset ltac:(done) ltac:(done)) as R1.
  pose proof (HN is_two ltac:(done) ltac:(done)) as N1. pose proof (HN is_had ltac:(done) ltac:(done)) as N2. rewrite number_app in M1, R1, N1, N2.
  rewrite HW, HHad. change (number is_two [IBarrier]) with 0. change (number is_had [IBarrier]) with 0. change (number is_measure [IBarrier]) with 0. change (number is_reset [IBarrier]) with 0.
  rewrite (zs_ext (fun k => number is_measure _) (fun _ => 0)) by (intros k Hk%elem_of_syns; by apply number_ent).
  rewrite (zs_ext (fun k => number is_reset _) (fun _ => 0)) by (intros k Hk%elem_of_syns; by apply number_ent).
  rewrite (zs_ext (fun k => number (fun _ => true) _) (fun k => number is_two (ent (entry c name dh dw k).1 (entry c name dh dw k).2) + number is_had (ent (entry c name dh dw k).1 (entry c name dh dw k).2))) by (intros k Hk%elem_of_syns; by apply number_ent).
  rewrite zs_plus, HW, HHad, !zs_const. lia.
Qed.

(** ** The other calls *)
Lemma parity_split l : Z.of_nat (length (even_ix l)) + Z.of_nat (length (odd_ix l)) = Z.of_nat (length l).
Proof.
  induction l as [|x l IHl]; [done|]. unfold even_ix, odd_ix in *. rewrite !filter_cons.
  pose proof (Z.mod_pos_bound x 2 ltac:(lia)). repeat case_decide; cbn [length]; lia.
Qed.
Lemma even_number (m : nat) : Z.of_nat (length (even_ix (seqZ 0 (2 * Z.of_nat m + 1)))) = Z.of_nat m + 1.
Proof.
  induction m as [|m IHm]; [done|]. replace (2 * Z.of_nat (S m) + 1) with (2 * Z.of_nat m + 1 + 1 + 1) by lia.
  rewrite (seqZ_S (2 * Z.of_nat m + 1 + 1)), (seqZ_S (2 * Z.of_nat m + 1)) by lia. unfold even_ix in *. rewrite !filter_app, !app_length, !Nat2Z.inj_add, IHm.
  rewrite (filter_cons_False _ (2 * Z.of_nat m + 1)), (filter_cons_True _ (2 * Z.of_nat m + 1 + 1)).
  - rewrite !filter_nil. cbn [length]. lia.
  - replace (2 * Z.of_nat m + 1 + 1) with (0 + (Z.of_nat m + 1) * 2) by lia. by rewrite Z.mod_add.
  - replace (2 * Z.of_nat m + 1) with (1 + Z.of_nat m * 2) by lia. by rewrite Z.mod_add.
Qed.
Lemma evens_of n : 0 < n -> Z.odd n = true -> Z.of_nat (length (even_ix (seqZ 0 n))) = (n + 1) / 2 /\ Z.of_nat (length (odd_ix (seqZ 0 n))) = (n - 1) / 2.
Proof.
  intros Hn [m ->]%Z.odd_spec. pose proof (parity_split (seqZ 0 (2 * m + 1))) as H. rewrite seqZ_length in H.
  pose proof (even_number (Z.to_nat m)) as E. rewrite Z2Nat.id in E by lia.
  replace ((2 * m + 1 + 1) / 2) with (m + 1) by (apply Z.div_unique with 0; lia). replace ((2 * m + 1 - 1) / 2) with m by (apply Z.div_unique with 0; lia). lia.
Qed.
Lemma valid_area dh dw : valid_size dh dw -> 0 < dh * dw /\ Z.odd (dh * dw) = true.
Proof. intros (?&?&Hh&Hw). split; [nia|]. by rewrite Z.odd_mul, Hh, Hw. Qed.
Lemma number_compile f s gs : number f (compile s gs) = zs (fun g : bool * list qubit =>
  if g.1 then 2 * (if f (IH s) then 1 else 0) + zs (fun q => if f (ICX s q) then 1 else 0) g.2 else zs (fun q => if f (ICX q s) then 1 else 0) g.2) gs.
Proof.
  unfold compile. rewrite number_mjoin. apply zs_ext. intros [[] l] _; unfold group; cbn [fst snd].
  - rewrite !number_app, number_fmap. cbn [number foldr]. lia.
  - by rewrite number_fmap.
Qed.
Lemma count_compile s gs : number is_two (compile s gs) = zs (fun g => Z.of_nat (length g.2)) gs /\
  number is_had (compile s gs) = zs (fun g : bool * list qubit => if g.1 then 2 else 0) gs /\
  number is_measure (compile s gs) = 0 /\ number is_reset (compile s gs) = 0.
Proof.
  rewrite !number_compile. split_and!.
  - apply zs_ext. intros [[] l] _; cbn [fst snd is_two is_had is_measure is_reset]; rewrite zs_const; lia.
  - apply zs_ext. intros [[] l] _; cbn [fst snd is_two is_had is_measure is_reset]; rewrite zs_const; lia.
  - rewrite (zs_ext _ (fun _ => 0)), zs_const; [lia|]. intros [[] l] _; cbn [fst snd is_two is_had is_measure is_reset]; rewrite zs_const; lia.
  - rewrite (zs_ext _ (fun _ => 0)), zs_const; [lia|]. intros [[] l] _; cbn [fst snd is_two is_had is_measure is_reset]; rewrite zs_const; lia.
Qed.
Lemma glx_length c name l : zs (fun g => Z.of_nat (length g.2)) (glx c name l) = Z.of_nat (length l).
Proof. pose proof (parity_split l). destruct c; unfold glx; rewrite !zs_cons; cbn [zs foldr snd]; rewrite !fmap_length; lia. Qed.
Lemma glz_length c name l : zs (fun g => Z.of_nat (length g.2)) (glz c name l) = Z.of_nat (length l).
Proof. pose proof (parity_split l). destruct c; unfold glz; rewrite !zs_cons; cbn [zs foldr snd]; rewrite !fmap_length; lia. Qed.
Lemma target_width name n r : Z.of_nat (length (reg_bits (rd_target name n r))) = width r.
Proof.
  unfold rd_target, width, eff, reg_bits. destruct r as [[nm h]|]; cbn [snd]; [case_bool_decide|]; rewrite fmap_length; unfold py_range; rewrite seqZ_length; cbn [fst snd]; lia.
Qed.

Lemma size_op c name dh dw n o : valid_size dh dw ->
  number is_two (op_code c name dh dw n o) = two_cost dh dw o /\
  number is_had (op_code c name dh dw n o) = had_cost c dh dw o /\
  number is_measure (op_code c name dh dw n o) = measure_cost dh dw o /\
  number is_reset (op_code c name dh dw n o) = reset_cost dh dw o.
Proof.
  intros Hv. destruct (valid_area dh dw Hv) as [Ha Ho]. destruct (evens_of _ Ha Ho) as [HE HO].
  assert (Hvv := Hv). destruct Hvv as (Hh & Hw & _).
  destruct o as [|r|r| | | | | | | |]; cbn [op_code].
  - destruct (size_round c name dh dw (cT n + 1) Hv) as (?&?&?&?&_). done.
  - unfold rd_x, into_x. rewrite !number_app, !number_cons. rewrite (number_all is_measure), !(number_none _ (IMeas (ancq name))), target_width by done.
    destruct (count_compile (ancq name) (glx c name (col_list dh dw))) as (E1 & E2 & E3 & E4).
    rewrite E1, E2, E3, E4, glx_length. unfold col_list. rewrite fmap_length, seqZ_length. cbn [two_cost had_cost measure_cost reset_cost is_two is_had is_measure is_reset number foldr]. destruct c; cbn [glx zs foldr fst]; lia.
  - unfold rd_z, into_z. rewrite !number_app, !number_cons. rewrite (number_all is_measure), !(number_none _ (IMeas (ancq name))), target_width by done.
    destruct (count_compile (ancq name) (glz c name (row_list dw))) as (E1 & E2 & E3 & E4).
    rewrite E1, E2, E3, E4, glz_length. unfold row_list. rewrite seqZ_length. cbn [two_cost had_cost measure_cost reset_cost is_two is_had is_measure is_reset number foldr]. destruct c; cbn [glz zs foldr fst]; lia.
  - unfold lr_x. rewrite !number_app. rewrite (number_all is_measure), !(number_none _ (fun i => IMeas (dq name i) _)), seqZ_length by done. unfold num_data in *.
    destruct c; rewrite (number_all is_had), !(number_none _ IH), !fmap_length by done; rewrite ?seqZ_length, ?HO; cbn; lia.
  - unfold lr_z. rewrite !number_app. rewrite (number_all is_measure), !(number_none _ (fun i => IMeas (dq name i) _)), seqZ_length by done. unfold num_data in *.
    destruct c; [cbn; lia|]. rewrite (number_all is_had), !(number_none _ IH), !fmap_length by done; rewrite ?HE; cbn; lia.
  - unfold rs_x. rewrite !number_app. rewrite (number_all is_reset), !(number_none _ IReset), fmap_length, seqZ_length by done. unfold num_data in *.
    destruct c; rewrite ?number_app; rewrite (number_all is_had), !(number_none _ IH), !fmap_length by done; rewrite ?seqZ_length, ?HO; cbn; lia.
  - unfold rs_z. rewrite !number_app. rewrite (number_all is_reset), !(number_none _ IReset), fmap_length, seqZ_length by done. unfold num_data in *.
    destruct c; [cbn; lia|]. rewrite (number_all is_had), !(number_none _ IH), !fmap_length by done; rewrite ?HE; cbn; lia.
  - unfold logx_instrs. rewrite !number_app. rewrite !(number_none _ (xgate c name)); [done|intros x; unfold xgate; destruct c; [|case_bool_decide]; done..].
  - unfold logz_instrs. rewrite !number_app. rewrite !(number_none _ (zgate c name)); [done|intros x; unfold zgate; destruct c; [|case_bool_decide]; done..].
  - unfold id_instrs. rewrite !number_app, !number_mjoin.
    split_and!; (rewrite (zs_ext _ (fun _ => 0)); [rewrite zs_const; done|intros h _; by apply number_none]).
  - unfold id_data_instrs. rewrite !number_app. rewrite !(number_none _ IId) by done. done.
Qed.
