(** Properties C33, C34 and C35: look-up table decoding. *)
From Coq Require Import QArith Qcanon.
From Verif Require Import Lookup.
From stdpp Require Export list.
Open Scope Z_scope.

(** What the tables have for a readout type and a logical value: counts and number of shots. *)
Definition tabled (st : dict_heap * lut) (ty : string) (v : Z) (m : counts_dict) (k : Z) : Prop :=
  exists tm l sm, lut_table st.2 !! ty = Some tm /\ tm !! v = Some l /\ m = dict_of st.1 l /\ lut_shots st.2 !! ty = Some sm /\ sm !! v = Some k.
(** The caller's dictionaries after a history: only the caller changes them. *)
Definition caller (os : list lop) (h : dict_heap) : dict_heap :=
  foldl (fun h o => match o with LWrite l s n => <[l := <[s := n]> (default ∅ (h !! l))]> h | _ => h end) h os.
(** The total of the counts in a dictionary. *)
Definition sum_counts (m : counts_dict) : Z := foldr Z.add 0 ((fun kv => kv.2) <$> map_to_list m).
Lemma total_sum m : dict_total m = sum_counts m.
Proof.
  unfold dict_total, sum_counts, map_fold, compose. induction (map_to_list m) as [|[s n] l IHl]; [done|]. cbn. by rewrite IHl.
Qed.
Definition known_type (ty : string) : Prop := ty = "X"%string \/ ty = "Z"%string.
Definition touches (ty : string) (v : Z) (o : lop) : Prop :=
  match o with LSet ty' v' _ => ty' = ty /\ v' = v | LReset => True | LWrite _ _ _ => False end.

Lemma lrun_app os os' st : lrun (os ++ os') st = lrun os' (lrun os st).
Proof. apply foldl_app. Qed.
Lemma lrun_heap os st : (lrun os st).1 = caller os st.1.
Proof.
  revert st. induction os as [|o os IH]; intros st; [done|]. change (lrun (o :: os) st) with (lrun os (lstep o st)). rewrite IH.
  unfold caller. cbn [foldl]. by destruct o.
Qed.
(** The two tables always have the two types, and the same values. *)
Definition lut_ok (t : lut) : Prop :=
  forall ty, (known_type ty -> exists tm sm, lut_table t !! ty = Some tm /\ lut_shots t !! ty = Some sm /\ is_Some (tm !! 0) /\ is_Some (tm !! 1) /\ forall v, is_Some (tm !! v) <-> is_Some (sm !! v)) /\
    (~ known_type ty -> lut_table t !! ty = None).
Lemma reset_tables ty : known_type ty -> lut_table lut_reset !! ty = Some {[0 := None; 1 := None]} /\ lut_shots lut_reset !! ty = Some {[0 := 0; 1 := 0]}.
Proof. intros [-> | ->]; done. Qed.
Lemma reset_ok : lut_ok lut_reset.
Proof.
  intros ty. split.
  - intros Hty. destruct (reset_tables ty Hty) as [-> ->]. eexists _, _. do 2 (split; [done|]). split; [by eexists|]. split; [by eexists|].
    intros v. destruct (decide (v = 0)) as [-> |H0]; [split; intros _; by eexists|]. rewrite !(lookup_insert_ne _ 0 v) by done.
    destruct (decide (v = 1)) as [-> |H1]; [split; intros _; by eexists|]. rewrite (lookup_singleton_ne (M:=gmap Z) 1 v (None : option nat)), (lookup_singleton_ne (M:=gmap Z) 1 v 0) by done. split; intros [? [=]].
  - intros Hty. unfold known_type in Hty. cbn [lut_table lut_reset]. rewrite lookup_insert_ne, lookup_singleton_ne by naive_solver. done.
Qed.
Lemma set_eq h t ty v l : lut_ok t -> known_type ty -> exists tm sm, lut_table t !! ty = Some tm /\ lut_shots t !! ty = Some sm /\
  lut_set h t ty v l = (Lut (<[ty := <[v := Some l]> tm]> (lut_table t)) (<[ty := <[v := dict_total (dict_of h (Some l))]> sm]> (lut_shots t)), Ok tt).
Proof. intros Hok Hty. destruct (proj1 (Hok ty) Hty) as (tm & sm & E1 & E2 & _). exists tm, sm. unfold lut_set. by rewrite E1, E2. Qed.
Lemma set_unknown h t ty v l : lut_ok t -> ~ known_type ty -> lut_set h t ty v l = (t, Err KeyError).
Proof. intros Hok Hty. unfold lut_set. by rewrite (proj2 (Hok ty) Hty). Qed.
Lemma known_dec ty : known_type ty \/ ~ known_type ty.
Proof. unfold known_type. destruct (decide (ty = "X"%string)), (decide (ty = "Z"%string)); tauto. Qed.
Lemma lstep_ok o st : lut_ok st.2 -> lut_ok (lstep o st).2.
Proof.
  intros Hok. destruct o as [ty v l| |]; [|apply reset_ok|done]. cbn. destruct (known_dec ty) as [Hty|Hty]; [|by rewrite set_unknown].
  destruct (set_eq st.1 st.2 ty v l Hok Hty) as (tm & sm & E1 & E2 & ->). cbn [fst]. intros ty'. split.
  - intros Hty'. cbn. destruct (decide (ty' = ty)) as [-> |Hne].
    + destruct (proj1 (Hok ty) Hty) as (tm' & sm' & E1' & E2' & I0 & I1 & Hv). simplify_eq.
      rewrite !lookup_insert. eexists _, _. do 2 (split; [done|]).
      assert (Hins : forall w, is_Some (tm !! w) -> is_Some (<[v:=Some l]> tm !! w)) by (intros w [x Hx]; destruct (decide (v = w)) as [-> |]; [rewrite lookup_insert; by eexists|rewrite lookup_insert_ne by done; by eexists]).
      split; [by apply Hins|]. split; [by apply Hins|]. intros w. rewrite !lookup_insert_is_Some', Hv. done.
    + rewrite !lookup_insert_ne by done. by apply Hok.
  - intros Hty'. cbn. rewrite lookup_insert_ne by (by intros ->). by apply Hok.
Qed.
Lemma lrun_ok os st : lut_ok st.2 -> lut_ok (lrun os st).2.
Proof. revert st. induction os as [|o os IH]; intros st H; [done|]. change (lrun (o :: os) st) with (lrun os (lstep o st)). by apply IH, lstep_ok. Qed.

(** * C35 *)
Section tables.
Lemma untouched ty v os : Forall (fun o => ~ touches ty v o) os -> forall st l k, lut_ok st.2 ->
  (exists tm sm, lut_table st.2 !! ty = Some tm /\ tm !! v = Some l /\ lut_shots st.2 !! ty = Some sm /\ sm !! v = Some k) ->
  let st' := lrun os st in (exists tm sm, lut_table st'.2 !! ty = Some tm /\ tm !! v = Some l /\ lut_shots st'.2 !! ty = Some sm /\ sm !! v = Some k).
Proof.
  induction 1 as [|o os Ho Hos IH]; intros st l k Hok Hst; [done|]. change (lrun (o :: os) st) with (lrun os (lstep o st)).
  apply IH; [by apply lstep_ok|]. destruct o as [ty' v' l'| |]; [|by cbn in Ho|done]. cbn in Ho |- *.
  destruct (known_dec ty') as [Hty|Hty]; [|by rewrite set_unknown].
  destruct (set_eq st.1 st.2 ty' v' l' Hok Hty) as (tm & sm & E1 & E2 & ->). cbn [fst lut_table lut_shots].
  destruct Hst as (tm0 & sm0 & F1 & F2 & F3 & F4). destruct (decide (ty' = ty)) as [-> |Hne].
  - simplify_eq. rewrite !lookup_insert. eexists _, _. split; [done|]. rewrite lookup_insert_ne by naive_solver. split; [done|]. split; [done|].
    by rewrite lookup_insert_ne by naive_solver.
  - rewrite !lookup_insert_ne by done. eauto 10.
Qed.
End tables.
(** The last dictionary set for a type and a value since the last reset is the one used, with
    the contents that the caller has given it by now; its number of shots is the total of the
    contents it had when it was set. *)
Theorem C35_last_set h os1 ty v l os2 : known_type ty -> Forall (fun o => ~ touches ty v o) os2 ->
  let os := os1 ++ LSet ty v l :: os2 in
  tabled (lrun os (h, lut_reset)) ty v (default ∅ (caller os h !! l)) (sum_counts (default ∅ (caller os1 h !! l))).
Proof.
  intros Hty Hos os. rewrite <- total_sum. unfold os. rewrite lrun_app. set (st := lrun os1 (h, lut_reset)).
  assert (Hok : lut_ok st.2) by apply lrun_ok, reset_ok. assert (Hh : st.1 = caller os1 h) by apply lrun_heap.
  change (lrun (LSet ty v l :: os2) st) with (lrun os2 (lstep (LSet ty v l) st)).
  destruct (set_eq st.1 st.2 ty v l Hok Hty) as (tm & sm & E1 & E2 & E).
  destruct (untouched ty v os2 Hos (lstep (LSet ty v l) st) (Some l) (dict_total (dict_of st.1 (Some l)))) as (tm' & sm' & F1 & F2 & F3 & F4).
  - by apply lstep_ok.
  - cbn [lstep snd]. rewrite E. cbn. eexists _, _. rewrite !lookup_insert. do 4 (try split); done || by rewrite lookup_insert.
  - exists tm', (Some l), sm'. split; [done|]. split; [done|]. split; [|by rewrite Hh in F4].
    cbn [dict_of]. f_equal. f_equal. rewrite lrun_heap. cbn [lstep fst]. rewrite Hh. unfold caller. by rewrite foldl_app.
Qed.
Print Assumptions C35_last_set.
(** Values 0 and 1 not set since the last reset have an empty table. *)
Theorem C35_not_set h os1 os2 ty v : known_type ty -> v = 0 \/ v = 1 -> Forall (fun o => ~ touches ty v o) os2 ->
  tabled (lrun os2 (h, lut_reset)) ty v ∅ 0 /\ tabled (lrun (os1 ++ LReset :: os2) (h, lut_reset)) ty v ∅ 0.
Proof.
  intros Hty Hv Hos.
  assert (Hgo : forall h', tabled (lrun os2 (h', lut_reset)) ty v ∅ 0).
  { intros h'. destruct (untouched ty v os2 Hos (h', lut_reset) None 0 reset_ok) as (tm & sm & F1 & F2 & F3 & F4).
    - destruct (reset_tables ty Hty) as [E1 E2]. eexists _, _. split; [exact E1|]. split; [destruct Hv as [-> | ->]; done|]. split; [exact E2|]. destruct Hv as [-> | ->]; done.
    - exists tm, None, sm. done. }
  split; [apply Hgo|]. rewrite lrun_app. apply Hgo.
Qed.
Print Assumptions C35_not_set.
(** Setting an unknown type raises KeyError and changes nothing. *)
Theorem C35_unknown h os ty v l : ~ known_type ty -> let st := lrun os (h, lut_reset) in lut_set st.1 st.2 ty v l = (st.2, Err KeyError).
Proof. intros Hty st. apply set_unknown; [apply lrun_ok, reset_ok|done]. Qed.
Print Assumptions C35_unknown.
(** If the caller never writes to a dictionary after setting it, the number of shots is the
    total of the counts. *)
Lemma caller_unwritten os h l : Forall (fun o => match o with LWrite l' _ _ => l' <> l | _ => True end) os -> caller os h !! l = h !! l.
Proof.
  intros H. revert h. induction H as [|o os Ho Hos IH]; intros h; [done|]. unfold caller. cbn [foldl]. fold (caller os (match o with LWrite l s n => <[l := <[s := n]> (default ∅ (h !! l))]> h | _ => h end)).
  rewrite IH. destruct o; try done. by rewrite lookup_insert_ne.
Qed.
Theorem C35_consistent h os1 ty v l os2 : known_type ty -> Forall (fun o => ~ touches ty v o) os2 ->
  Forall (fun o => match o with LWrite l' _ _ => l' <> l | _ => True end) os2 ->
  exists m, tabled (lrun (os1 ++ LSet ty v l :: os2) (h, lut_reset)) ty v m (sum_counts m) /\ m = default ∅ (caller os1 h !! l).
Proof.
  intros Hty Hos Hw. pose proof (C35_last_set h os1 ty v l os2 Hty Hos) as H. cbn zeta in H.
  assert (E : caller (os1 ++ LSet ty v l :: os2) h !! l = caller os1 h !! l).
  { unfold caller at 1. rewrite foldl_app. cbn [foldl]. apply (caller_unwritten os2 (caller os1 h) l Hw). }
  rewrite E in H. eauto.
Qed.
Print Assumptions C35_consistent.
(** Otherwise it need not be: the table is a reference, the number of shots is not. *)
Theorem C35_stale_shots_refuted : exists h os ty v m k, known_type ty /\ tabled (lrun os (h, lut_reset)) ty v m k /\ k <> sum_counts m.
Proof.
  pose proof (C35_last_set ∅ [LWrite 0 "0" 1] "Z" 0 0 [LWrite 0 "1" 5] ltac:(by right) ltac:(constructor; [intros []|constructor])) as H.
  cbn zeta in H. eexists _, _, "Z"%string, 0, _, _. split; [by right|]. split; [exact H|]. by vm_compute.
Qed.
Print Assumptions C35_stale_shots_refuted.

(** * C33 *)
(** The relative frequency of a string. *)
Definition frequency (st : dict_heap * lut) (ty : string) (v : Z) (s : string) (f : Qc) : Prop :=
  exists m k, tabled st ty v m k /\ ((m !! s = None /\ f = 0%Qc) \/ exists n, m !! s = Some n /\ k <> 0 /\ (f * qz k = qz n)%Qc).
Definition prior (ps : option (list Qc)) (q0 q1 : Qc) : Prop :=
  match ps with None | Some [] => q0 = one_half /\ q1 = one_half | Some (a :: b :: _) => q0 = a /\ q1 = b | Some [_] => False end.
Lemma qz_0 k : qz k = 0%Qc <-> k = 0.
Proof. unfold qz. split; [|by intros ->]. intros H. apply (f_equal this) in H. cbn in H. apply Qred_eq_iff in H. unfold Qeq in H. cbn in H. lia. Qed.

Lemma py_div_ok a b x : py_div a b = Ok x <-> b <> 0%Qc /\ x = (a / b)%Qc.
Proof. unfold py_div. destruct (decide (b = 0%Qc)) as [Hb|Hb]; [split; [done|tauto]|]. split; [by intros [= <-]|by intros [_ ->]]. Qed.
Lemma p_given_spec h t s ty v : lut_ok t -> known_type ty -> v = 0 \/ v = 1 ->
  exists m k, tabled (h, t) ty v m k /\
    p_given h t s ty v = match m !! s with None => Ok 0%Qc | Some n => py_div (qz n) (qz k) end.
Proof.
  intros Hok Hty Hv. destruct (proj1 (Hok ty) Hty) as (tm & sm & E1 & E2 & I0 & I1 & Hs).
  assert (Hl : is_Some (tm !! v)) by (by destruct Hv as [-> | ->]). pose proof (proj1 (Hs v) Hl) as [k Hk]. destruct Hl as [l Hl].
  exists (dict_of h l), k. split; [by exists tm, l, sm|]. unfold p_given, getitem. by rewrite E1, Hl, E2, Hk.
Qed.
Lemma tabled_fun st ty v m k m' k' : tabled st ty v m k -> tabled st ty v m' k' -> m = m' /\ k = k'.
Proof. intros (tm & l & sm & E1 & E2 & -> & E3 & E4) (tm' & l' & sm' & F1 & F2 & -> & F3 & F4). by simplify_eq. Qed.
Lemma given_frequency h t s ty v f : lut_ok t -> known_type ty -> v = 0 \/ v = 1 -> p_given h t s ty v = Ok f <-> frequency (h, t) ty v s f.
Proof.
  intros Hok Hty Hv. destruct (p_given_spec h t s ty v Hok Hty Hv) as (m & k & Htab & ->). unfold frequency. split.
  - intros H. exists m, k. split; [done|]. destruct (m !! s) as [n|]; [|left; by injection H as <-]. right. exists n.
    apply py_div_ok in H as [Hk ->]. split; [done|]. split; [by rewrite qz_0 in Hk|]. field. done.
  - intros (m' & k' & Htab' & H). destruct (tabled_fun _ _ _ _ _ _ _ Htab Htab') as [<- <-].
    destruct H as [[-> ->]|(n & -> & Hk & Hf)]; [done|]. apply py_div_ok. rewrite qz_0. split; [done|]. rewrite <- Hf. field. by rewrite qz_0.
Qed.
Lemma prior_spec ps : (exists q0 q1, prior ps q0 q1 /\ (match ps with None | Some [] => [one_half; one_half] | Some l => l end) !! 0%nat = Some q0 /\ (match ps with None | Some [] => [one_half; one_half] | Some l => l end) !! 1%nat = Some q1) \/
  (exists q, ps = Some [q]).
Proof. destruct ps as [[|a [|b l]]|]; [left|right|left|left]; [by exists one_half, one_half|by exists a|by exists a, b|by exists one_half, one_half]. Qed.
Lemma Qc_div_nonneg a b : (0 <= a -> 0 <= b -> b <> 0 -> 0 <= a / b)%Qc.
Proof.
  intros Ha Hb Hb0. apply Qcle_lt_or_eq in Hb as [Hb|Hb]; [|congruence].
  apply (Qcmult_le_reg_pos_r _ _ b) || apply (Qcmult_lt_0_le_reg_r _ _ b); [done|]. replace (0 * b)%Qc with 0%Qc by ring. by replace (a / b * b)%Qc with a by (field; done).
Qed.
(** Bayes' rule: the posteriors are the products of frequency and prior divided by their sum. *)
Theorem C33_bayes h os s ty ps a b : known_type ty -> let st := lrun os (h, lut_reset) in
  run_look_up st.1 st.2 s ty ps = Ok (a, b) ->
  exists f0 f1 q0 q1, frequency st ty 0 s f0 /\ frequency st ty 1 s f1 /\ prior ps q0 q1 /\
    (let p_s := f0 * q0 + f1 * q1 in p_s <> 0 /\ a * p_s = f0 * q0 /\ b * p_s = f1 * q1 /\ a + b = 1 /\
     (0 <= f0 -> 0 <= f1 -> 0 <= q0 -> 0 <= q1 -> 0 <= a /\ 0 <= b))%Qc.
Proof.
  intros Hty st. assert (Hok : lut_ok st.2) by apply lrun_ok, reset_ok. clearbody st. destruct st as [h' t]. cbn [fst snd] in *. unfold run_look_up.
  destruct (p_given h' t s ty 0) as [f0|] eqn:E0; [|done]. destruct (p_given h' t s ty 1) as [f1|] eqn:E1; [|done].
  apply given_frequency in E0; [|by auto..]. apply given_frequency in E1; [|by auto..].
  destruct (prior_spec ps) as [(q0 & q1 & Hq & -> & ->)|[q ->]]; [|done]. intros H.
  destruct (py_div (f0 * q0) _) as [a'|] eqn:Ea; [|done]. destruct (py_div (f1 * q1) _) as [b'|] eqn:Eb; [|done]. injection H as -> ->.
  apply py_div_ok in Ea as [Hp ->]. apply py_div_ok in Eb as [_ ->].
  exists f0, f1, q0, q1. do 3 (split; [done|]). cbn zeta. split; [done|]. split; [by field|]. split; [by field|]. split; [by field|].
  intros H0 H1 G0 G1.
  assert (Hmul : forall x y : Qc, (0 <= x -> 0 <= y -> 0 <= x * y)%Qc).
  { intros x y Hx Hy. replace 0%Qc with (0 * y)%Qc by ring. by apply Qcmult_le_compat_r. }
  assert (Hs : (0 <= f0 * q0 + f1 * q1)%Qc).
  { replace 0%Qc with (0 + 0)%Qc by ring. apply Qcplus_le_compat; by apply Hmul. }
  split; apply Qc_div_nonneg; auto.
Qed.
Print Assumptions C33_bayes.
(** Decoding picks the value under which the string is more frequent, 0 if equally frequent. *)
Theorem C33_decision h os s ty v : known_type ty -> let st := lrun os (h, lut_reset) in
  correct_look_up st.1 st.2 s ty = Ok v ->
  exists f0 f1, frequency st ty 0 s f0 /\ frequency st ty 1 s f1 /\ (v = 0 \/ v = 1) /\
    ((0 <= f0)%Qc -> (0 <= f1)%Qc -> (v = 0 <-> (f1 <= f0)%Qc)).
Proof.
  intros Hty st H. unfold correct_look_up in H. destruct (run_look_up _ _ _ _ _) as [[a b]|] eqn:E; [|done]. injection H as <-.
  destruct (C33_bayes h os s ty None a b Hty E) as (f0 & f1 & q0 & q1 & F0 & F1 & [-> ->] & Hp & Ha & Hb & _).
  exists f0, f1. split; [done|]. split; [done|]. split; [destruct (decide _); auto|]. intros H0 H1.
  set (ps := (f0 * one_half + f1 * one_half)%Qc) in *.
  assert (Hh : (0 < one_half)%Qc) by done.
  assert (Hmul : forall x y : Qc, (0 <= x -> 0 <= y -> 0 <= x * y)%Qc).
  { intros x y Hx Hy. replace 0%Qc with (0 * y)%Qc by ring. by apply Qcmult_le_compat_r. }
  assert (Hps : (0 < ps)%Qc).
  { assert (0 <= ps)%Qc as [Hx|Hx]%Qcle_lt_or_eq; [|done|congruence].
    unfold ps. replace 0%Qc with (0 + 0)%Qc by ring. apply Qcplus_le_compat; apply Hmul; try done; by apply Qclt_le_weak. }
  assert (Hiff : (b <= a <-> f1 <= f0)%Qc).
  { rewrite (Qcmult_le_mono_pos_r b a ps Hps), (Qcmult_le_mono_pos_r f1 f0 one_half Hh), Ha, Hb. done. }
  destruct (decide _) as [Hd|Hd]; rewrite <- Hiff; split; done.
Qed.
Print Assumptions C33_decision.

(** * C34 *)
(** A string in neither table raises ZeroDivisionError, for all priors. *)
Theorem C34_unseen h os s ty ps m0 k0 m1 k1 : known_type ty -> let st := lrun os (h, lut_reset) in
  tabled st ty 0 m0 k0 -> tabled st ty 1 m1 k1 -> m0 !! s = None -> m1 !! s = None -> (forall q, ps <> Some [q]) ->
  run_look_up st.1 st.2 s ty ps = Err ZeroDivisionError /\ correct_look_up st.1 st.2 s ty = Err ZeroDivisionError.
Proof.
  intros Hty st T0 T1 N0 N1 Hps. assert (Hok : lut_ok st.2) by apply lrun_ok, reset_ok. clearbody st. destruct st as [h' t]. cbn [fst snd] in *.
  assert (Hgo : forall ps, (forall q, ps <> Some [q]) -> run_look_up h' t s ty ps = Err ZeroDivisionError).
  { clear ps Hps. intros ps Hps. unfold run_look_up.
    assert (E0 : p_given h' t s ty 0 = Ok 0%Qc) by (apply given_frequency; [by auto..|]; exists m0, k0; auto).
    assert (E1 : p_given h' t s ty 1 = Ok 0%Qc) by (apply given_frequency; [by auto..|]; exists m1, k1; auto).
    rewrite E0, E1. destruct (prior_spec ps) as [(q0 & q1 & Hq & -> & ->)|[q ->]]; [|by destruct (Hps q)].
    unfold py_div. rewrite decide_True; [done|]. ring. }
  split; [by apply Hgo|]. unfold correct_look_up. by rewrite Hgo.
Qed.
Print Assumptions C34_unseen.
Lemma qz_nonneg n : 0 <= n -> (0 <= qz n)%Qc.
Proof. intros H. unfold qz, Qcle. cbn. rewrite !Qred_correct. unfold Qle. cbn. lia. Qed.
Lemma qz_pos n : 0 < n -> (0 < qz n)%Qc.
Proof. intros H. unfold qz, Qclt. cbn. rewrite !Qred_correct. unfold Qlt. cbn. lia. Qed.
(** With the default prior, a string with a positive count in some table is decoded, if all its
    counts are non-negative and the tables that list it have shots. *)
Theorem C34_seen h os s ty m0 k0 m1 k1 : known_type ty -> let st := lrun os (h, lut_reset) in
  tabled st ty 0 m0 k0 -> tabled st ty 1 m1 k1 ->
  (forall n, m0 !! s = Some n -> 0 <= n /\ 0 < k0) -> (forall n, m1 !! s = Some n -> 0 <= n /\ 0 < k1) ->
  (exists n, 0 < n /\ (m0 !! s = Some n \/ m1 !! s = Some n)) ->
  exists v, correct_look_up st.1 st.2 s ty = Ok v.
Proof.
  intros Hty st T0 T1 N0 N1 (n & Hn & Hs). assert (Hok : lut_ok st.2) by apply lrun_ok, reset_ok. clearbody st. destruct st as [h' t]. cbn [fst snd] in *.
  assert (Hp : forall v m k, v = 0 \/ v = 1 -> tabled (h', t) ty v m k -> (forall n, m !! s = Some n -> 0 <= n /\ 0 < k) ->
    exists f, p_given h' t s ty v = Ok f /\ (0 <= f)%Qc /\ (m !! s = Some n -> (0 < f)%Qc)).
  { intros v m k Hv Ht Hm. destruct (p_given_spec h' t s ty v Hok Hty Hv) as (m' & k' & Ht' & ->).
    destruct (tabled_fun _ _ _ _ _ _ _ Ht Ht') as [<- <-]. destruct (m !! s) as [n'|] eqn:E; [|by exists 0%Qc].
    destruct (Hm n' eq_refl) as [H1 H2]. pose proof (qz_pos k H2) as Hk. assert (Hk0 : qz k <> 0%Qc) by (intros E0; by rewrite E0 in Hk).
    exists (qz n' / qz k)%Qc. split; [by apply py_div_ok|]. split.
    - apply Qc_div_nonneg; [by apply qz_nonneg|by apply Qclt_le_weak|done].
    - intros [= ->]. apply (Qcmult_lt_mono_pos_r _ _ (qz k) Hk). replace (0 * qz k)%Qc with 0%Qc by ring. replace (qz n / qz k * qz k)%Qc with (qz n) by (field; done). by apply qz_pos. }
  destruct (Hp 0 m0 k0 ltac:(auto) T0 N0) as (f0 & E0 & G0 & P0). destruct (Hp 1 m1 k1 ltac:(auto) T1 N1) as (f1 & E1 & G1 & P1).
  assert (Hh : (0 < one_half)%Qc) by done.
  assert (Hsum : (f0 * one_half + f1 * one_half)%Qc <> 0%Qc).
  { replace (f0 * one_half + f1 * one_half)%Qc with ((f0 + f1) * one_half)%Qc by ring. intros E. apply Qcmult_integral in E as [E|E]; [|done].
    assert (0 < f0 + f1)%Qc; [|by rewrite E in *].
    destruct Hs as [Hs|Hs].
    - replace 0%Qc with (0 + 0)%Qc by ring. apply (Qclt_le_trans _ (f0 + 0)%Qc); [by apply Qcplus_lt_mono_r, P0|by apply Qcplus_le_mono_l].
    - replace 0%Qc with (0 + 0)%Qc by ring. apply (Qclt_le_trans _ (0 + f1)%Qc); [by apply Qcplus_lt_mono_l, P1|by apply Qcplus_le_mono_r]. }
  unfold correct_look_up, run_look_up. rewrite E0, E1. cbn [lookup list_lookup]. unfold py_div. rewrite !decide_False by done. by eexists.
Qed.
Print Assumptions C34_seen.
(** Other outcomes: an unknown type is a KeyError; for the types known, all that can go wrong
    with the default prior is a division by zero. *)
Theorem C34_errors h os s ty : let st := lrun os (h, lut_reset) in
  (~ known_type ty -> correct_look_up st.1 st.2 s ty = Err KeyError) /\
  (known_type ty -> forall e, correct_look_up st.1 st.2 s ty = Err e -> e = ZeroDivisionError).
Proof.
  intros st. assert (Hok : lut_ok st.2) by apply lrun_ok, reset_ok. clearbody st. destruct st as [h' t]. cbn [fst snd] in *.
  assert (Hd : forall a b e, py_div a b = Err e -> e = ZeroDivisionError) by (intros a b e; unfold py_div; destruct (decide _); congruence).
  unfold correct_look_up, run_look_up. split.
  - intros Hty. unfold p_given, getitem. by rewrite (proj2 (Hok ty) Hty).
  - intros Hty e.
    assert (Hp : forall v, v = 0 \/ v = 1 -> forall e, p_given h' t s ty v = Err e -> e = ZeroDivisionError).
    { intros v Hv e'. destruct (p_given_spec h' t s ty v Hok Hty Hv) as (m & k & _ & ->). destruct (m !! s); [apply Hd|done]. }
    destruct (p_given h' t s ty 0) as [f0|e0] eqn:E0; [|intros [= <-]; by apply (Hp 0); auto].
    destruct (p_given h' t s ty 1) as [f1|e1] eqn:E1; [|intros [= <-]; by apply (Hp 1); auto].
    cbn [lookup list_lookup].
    set (x0 := (f0 * one_half)%Qc). set (x1 := (f1 * one_half)%Qc). clearbody x0 x1.
    destruct (py_div x0 (x0 + x1)) as [a|e0] eqn:Ea; [|intros [= <-]; eapply Hd; exact Ea].
    destruct (py_div x1 (x0 + x1)) as [b|e1] eqn:Eb; [intros H; discriminate H|intros [= <-]; eapply Hd; exact Eb].
Qed.
Print Assumptions C34_errors.

(** Examples *)
Definition ex_ops : list lop := [LWrite 0 "0 00" 30; LWrite 0 "1 01" 10; LWrite 1 "1 01" 20; LSet "Z" 0 0; LSet "Z" 1 1].
Example C33_ex : let st := lrun ex_ops (∅, lut_reset) in
  run_look_up st.1 st.2 "1 01" "Z" None = Ok (Q2Qc (1 # 5), Q2Qc (4 # 5)) /\ correct_look_up st.1 st.2 "1 01" "Z" = Ok 1 /\
  correct_look_up st.1 st.2 "0 00" "Z" = Ok 0 /\ correct_look_up st.1 st.2 "0 11" "Z" = Err ZeroDivisionError /\
  run_look_up st.1 st.2 "1 01" "Z" (Some [Q2Qc (9 # 10); Q2Qc (1 # 10)]) = Ok (Q2Qc (9 # 13), Q2Qc (4 # 13)).
Proof. vm_compute. repeat split; f_equal; f_equal; apply Qc_is_canon; reflexivity. Qed.
