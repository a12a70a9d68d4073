(** The register as a container (C69): what treg[i], treg["sub"] and treg.params return after
    any program.  Model: TReg.v (qtcodes/circuits/circ.py:17-113, 239-273). *)
From Verif Require Import SpecTReg P_Hist P_Cx P_DecObj.
From stdpp Require Export list.
Open Scope Z_scope.

(** ** Writes at one dictionary only, and never an empty one *)
Definition touched (l : nat) (s s' : st) : Prop :=
  s_next s' = s_next s /\ (forall x, x <> l -> s_heap s' !! x = s_heap s !! x) /\
  (s_heap s' !! l = s_heap s !! l \/ exists p, s_heap s' !! l = Some p /\ params_empty p = false).
Definition touches {A} (l : nat) (m : M A) : Prop := forall s, touched l s (m s).1.
Lemma touched_same l s s' : s_next s' = s_next s -> s_heap s' = s_heap s -> touched l s s'.
Proof. intros E1 E2. split; [done|]. rewrite E2. split; [done|by left]. Qed.
Lemma tc_bind {A B} l (m : M A) (f : A -> M B) : touches l m -> (forall a, touches l (f a)) -> touches l (mbind' m f).
Proof.
  intros Hm Hf s. unfold mbind'. pose proof (Hm s) as (A1 & A2 & A3). destruct (m s) as [s1 [a|e]]; cbn in *; [|done].
  destruct (Hf a s1) as (B1 & B2 & B3). split; [congruence|]. split.
  - intros x Hx. by rewrite B2, A2.
  - destruct B3 as [->|?]; [done|by right].
Qed.
Lemma tc_ret {A} l (a : A) : touches l (Circ.mret a). Proof. intros s. by apply touched_same. Qed.
Lemma tc_lift {A} l (r : res A) : touches l (mlift r). Proof. intros s. by apply touched_same. Qed.
Lemma tc_get l l' : touches l (get_params l'). Proof. intros s. unfold get_params. destruct (s_heap s !! l'); by apply touched_same. Qed.
Lemma tc_put l p : params_empty p = false -> touches l (put_params l p).
Proof.
  intros Hp s. split; [done|]. cbn. split; [intros x Hx; by rewrite lookup_insert_ne|]. right. exists p. by rewrite lookup_insert.
Qed.
Lemma tc_add l r : touches l (add_reg r). Proof. intros s. unfold add_reg. repeat case_bool_decide; by apply touched_same. Qed.
Lemma tc_mfor {A} l (xs : list A) f : (forall x, touches l (f x)) -> touches l (mfor xs f).
Proof. intros Hf. induction xs as [|x xs IHl]; cbn [mfor]; [apply tc_ret|]. by apply tc_bind. Qed.
Lemma ne_pfp p b : params_empty (set_pfp p b) = false.
Proof. unfold params_empty, set_pfp. by destruct (d_of p), (T_of p). Qed.
Lemma tc_rep l : touches l (rep_validate l).
Proof.
  unfold rep_validate. apply tc_bind; [apply tc_get|intros p]. apply tc_bind; [apply tc_put, ne_pfp|intros _].
  apply tc_bind; [apply tc_lift|intros dl]. by apply tc_put.
Qed.
Lemma tc_gen l : touches l (params_validate_and_generate l).
Proof.
  unfold params_validate_and_generate. apply tc_bind; [apply tc_get|intros p]. apply tc_bind; [apply tc_lift|intros dl].
  apply tc_bind; [by apply tc_put|intros _]. apply tc_bind; [apply tc_lift|intros hw]. apply tc_bind; [by apply tc_put|intros _]. apply tc_ret.
Qed.
Lemma tc_lat c l name : touches l (new_lattice c l name).
Proof.
  unfold new_lattice. apply tc_bind; [apply tc_gen|intros hw]. cbn zeta. apply tc_bind; [apply tc_mfor; intros; apply tc_add|intros _].
  apply tc_bind; [apply tc_lift|intros sts]. apply tc_ret.
Qed.
Lemma lat_own c l name : yields (new_lattice c l name) (fun lat => lat_params lat = l).
Proof.
  unfold new_lattice. eapply (yields_bind _ _ (fun _ => True)).
  - unfold params_validate_and_generate. eapply yields_bind; [apply yields_get|]. intros p _.
    eapply yields_bind; [apply yields_lift|]. intros dl _. eapply yields_bind; [apply yields_put|]. intros _ _.
    eapply yields_bind; [apply yields_lift|]. intros hw _. eapply yields_bind; [apply yields_put|]. by intros _ _.
  - intros hw _. cbn zeta. eapply yields_bind; [apply yields_mfor; intros; apply yields_add_reg|]. intros _ _.
    eapply yields_bind; [apply yields_lift|]. intros sts _. by apply yields_ret.
Qed.
(** Which dictionaries exist and which of them are empty. *)
Definition same_shape (s s' : st) : Prop := heap_fresh s' /\
  forall x p, s_heap s !! x = Some p -> exists p', s_heap s' !! x = Some p' /\ params_empty p' = params_empty p.
Lemma shape_refl s : heap_fresh s -> same_shape s s.
Proof. intros Hf. split; [done|]. eauto. Qed.
Lemma shape_trans a b c : same_shape a b -> same_shape b c -> same_shape a c.
Proof. intros [_ A] [B1 B2]. split; [done|]. intros x p Hp. destruct (A x p Hp) as (p' & Hp' & E). destruct (B2 x p' Hp') as (p'' & ? & ?). eexists. split; [done|congruence]. Qed.
Lemma new_shape t l name s : heap_fresh s ->
  same_shape s (new_tqubit t (Some l) name s).1 /\
  forall q, (new_tqubit t (Some l) name s).2 = Ok q ->
    tq_type q = t /\ lat_name (tq_lat q) = name /\
    exists p, s_heap s !! l = Some p /\ (lat_params (tq_lat q) = l <-> p <> empty_params).
Proof.
  intros Hf. pose proof (new_tqubit_yields t (Some l) name s) as [_ HY]. revert HY.
  set (rest := fun l' : nat => (match t with TRepetition => rep_validate l' | _ => Circ.mret tt end) ;;; let* lat := new_lattice (code_of t) l' name in Circ.mret (TQubit t lat)).
  assert (HT : forall l', touches l' (rest l')).
  { intros l'. apply tc_bind; [destruct t; [apply tc_rep|apply tc_ret..]|intros _]. apply tc_bind; [apply tc_lat|intros lat; apply tc_ret]. }
  assert (HO : forall l', yields (rest l') (fun q => lat_params (tq_lat q) = l')).
  { intros l'. eapply (yields_bind _ _ (fun _ => True)).
    - destruct t; [|done..]. unfold rep_validate. eapply yields_bind; [apply yields_get|]. intros p' _.
      eapply yields_bind; [apply yields_put|]. intros _ _. eapply yields_bind; [apply yields_lift|]. intros dl _. apply yields_put.
    - intros _ _. eapply yields_bind; [apply lat_own|]. intros lat Hl. by apply yields_ret. }
  change (new_tqubit t (Some l) name) with (mbind' (or_new (Some l)) rest).
  assert (EO : or_new (Some l) s = match s_heap s !! l with Some p => if params_empty p then new_params empty_params s else (s, Ok l) | None => (s, Err KeyError) end).
  { cbn [or_new]. unfold mbind', get_params. destruct (s_heap s !! l) as [p|]; [|done]. by destruct (params_empty p). }
  unfold mbind' at 1 2 3. rewrite EO. clear EO. clearbody rest. destruct (s_heap s !! l) as [p|] eqn:Ep.
  2:{ cbn. intros _. split; [by apply shape_refl|done]. }
  destruct (params_empty p) eqn:Ee.
  - assert (p = empty_params) as ->. { destruct p as [[] [] [] [] [] [] []]; done. }
    unfold new_params. intros HY. set (s1 := St _ _ _ _ _ _ _ _ _) in *.
    destruct (HT (s_next s) s1) as (T1 & T2 & T3). destruct (HO (s_next s) s1) as [_ HP].
    assert (HN : s_heap s !! s_next s = None) by (by apply Hf). split; [split|].
    + intros x Hx. rewrite T1 in Hx. cbn in Hx. rewrite T2 by lia. cbn. rewrite lookup_insert_ne by lia. apply Hf. lia.
    + intros x p Hp. assert (x <> s_next s) by congruence. rewrite T2 by done. cbn. rewrite lookup_insert_ne by done. eauto.
    + intros q Hq. rewrite Hq in HY, HP. destruct HY as [HY1 HY2]. split; [done|]. split; [done|]. exists empty_params. split; [done|].
      rewrite HP. split; [intros E; congruence|done].
  - intros HY. destruct (HT l s) as (T1 & T2 & T3). destruct (HO l s) as [_ HP]. split; [split|].
    + intros x Hx. rewrite T1 in Hx. rewrite T2 by (intros ->; rewrite (Hf l Hx) in Ep; done). by apply Hf.
    + intros x p' Hp. destruct (decide (x = l)) as [->|].
      * rewrite Ep in Hp. injection Hp as <-. destruct T3 as [->|(p' & Hp' & E')]; [eauto|]. exists p'. by rewrite E'.
      * rewrite T2 by done. eauto.
    + intros q Hq. rewrite Hq in HY, HP. destruct HY as [HY1 HY2]. split; [done|]. split; [done|]. exists p. split; [done|].
      split; [intros _ ->; done|]. intros _. done.
Qed.

(** ** Adding one qubit *)
Lemma members_snoc x log e :
  members x (log ++ [e]) = members x log ++ (if bool_decide (e_sub e = x) then [(Z.of_nat (length log), e_obj e)] else []).
Proof.
  unfold members. rewrite imap_app, omap_app. f_equal. cbn. rewrite Nat.add_0_r. by case_bool_decide.
Qed.
Lemma members_key x log i q : (i, q) ∈ members x log -> 0 <= i < Z.of_nat (length log).
Proof.
  unfold members. intros ([n e] & Hin & H)%elem_of_list_omap. cbn in H. case_bool_decide; [|done]. injection H as <- _.
  apply elem_of_lookup_imap in Hin as (n' & e' & [= -> ->] & Hl). apply lookup_lt_Some in Hl. lia.
Qed.
Lemma dict_get_out {K A} `{EqDecision K} (k : K) (l : list (K * A)) : (forall a, (k, a) ∉ l) -> dict_get k l = None.
Proof.
  induction l as [|[k' a'] l IHl]; intros Hn; cbn; [done|]. rewrite bool_decide_eq_false_2.
  - apply IHl. intros a Ha. apply (Hn a). by right.
  - intros ->. apply (Hn a'). by left.
Qed.
Lemma dict_set_out {K A} `{EqDecision K} (k : K) (a : A) (l : list (K * A)) : dict_get k l = None -> dict_set k a l = l ++ [(k, a)].
Proof. induction l as [|[k' a'] l IHl]; cbn; [done|]. case_bool_decide; [done|]. intros E. by rewrite IHl. Qed.

Record inv (name : string) (t : tst) (subs : list string) (log : list logged) : Prop := {
  in_shows : shows name t subs log;
  in_name : s_tname (t_st t) = name;
  in_fresh : heap_fresh (t_st t) }.
Lemma shows_lookup name t subs log i : shows name t subs log ->
  treg_lookup (s_tq (t_st t)) i = match entry_at log i with Some e => Ok (e_obj e) | None => Err ValueError end.
Proof. intros H. pose proof (sh_int _ _ _ _ H i) as E. unfold treg_get in E. by injection E. Qed.
Lemma sub_get x s : treg_sub x s = (s, match dict_get x (s_tq s) with Some d => Ok d | None => Err KeyError end).
Proof. unfold treg_sub, mbind', get_st. by destruct (dict_get x (s_tq s)). Qed.
Lemma shows_dict name t subs log x : shows name t subs log ->
  dict_get x (s_tq (t_st t)) = if bool_decide (x ∈ subs) then Some (members x log) else None.
Proof.
  intros H. pose proof (sh_str _ _ _ _ H x) as E. rewrite sub_get in E. injection E as E.
  destruct (dict_get x _), (bool_decide (x ∈ subs)); by simplify_eq.
Qed.
Lemma entry_end log i : entry_at log i = None <-> ~ (0 <= i < Z.of_nat (length log)).
Proof. unfold entry_at. case_bool_decide; [|naive_solver lia]. rewrite lookup_ge_None. lia. Qed.
Lemma entry_snoc log e i : entry_at (log ++ [e]) i = if bool_decide (i = Z.of_nat (length log)) then Some e else entry_at log i.
Proof.
  unfold entry_at. destruct (bool_decide_reflect (i = Z.of_nat (length log))) as [->|Hi].
  - rewrite bool_decide_eq_true_2 by lia. rewrite Nat2Z.id. by apply list_lookup_middle.
  - case_bool_decide; [|done]. destruct (decide (Z.to_nat i < length log)%nat) as [H1|H1]; [by apply lookup_app_l|].
    rewrite (proj2 (lookup_ge_None log _)) by lia. apply lookup_ge_None. rewrite app_length. cbn. lia.
Qed.
Lemma str2qtype_called c t : str2qtype c = Some t -> called t = c.
Proof. unfold str2qtype. repeat case_bool_decide; intros; by simplify_eq. Qed.
Lemma opens_in subs sub c p : sub ∈ opens subs [(sub, c, p)].
Proof. cbn. case_bool_decide; [done|]. apply elem_of_app. right. by apply elem_of_list_singleton. Qed.
Lemma opens_dec subs sub c p x : bool_decide (x ∈ opens subs [(sub, c, p)]) = bool_decide (x = sub) || bool_decide (x ∈ subs).
Proof.
  cbn. apply Bool.eq_iff_eq_true. rewrite orb_true_iff, !bool_decide_eq_true. destruct (bool_decide_reflect (sub ∈ subs)); [naive_solver|].
  rewrite elem_of_app, elem_of_list_singleton. tauto.
Qed.

(** The state after making sure that the sub-register is there. *)
Lemma open_shows name t subs log sub c p : inv name t subs log ->
  exists s1, (match dict_get sub (s_tq (t_st t)) with None => put_st (set_tq (t_st t) (s_n (t_st t)) (dict_set sub [] (s_tq (t_st t)))) | Some _ => Circ.mret tt end) (t_st t) = (s1, Ok tt) /\
    inv name (TSt s1 (t_params t)) (opens subs [(sub, c, p)]) log /\ s_n s1 = s_n (t_st t) /\ s_heap s1 = s_heap (t_st t).
Proof.
  intros [H HT HF]. pose proof (shows_dict _ _ _ _ sub H) as HD. destruct (bool_decide_reflect (sub ∈ subs)) as [Hin|Hout]; rewrite HD.
  - exists (t_st t). split; [done|]. cbn. rewrite bool_decide_eq_true_2 by done. split; [|done]. by destruct t.
  - eexists. split; [reflexivity|]. split; [|done]. constructor; [|done|done].
    constructor; try apply H.
    + intros i. unfold treg_get. cbn. f_equal. rewrite lookup_new_sub by done. by rewrite (shows_lookup _ _ _ _ _ H).
    + intros x. rewrite sub_get, opens_dec. f_equal. cbn [set_tq s_tq t_st]. rewrite dict_get_set. destruct (bool_decide_reflect (x = sub)) as [->|Hx].
      * cbn [orb]. f_equal. destruct (members sub log) as [|[i q] m] eqn:E; [done|]. exfalso. apply Hout.
        assert (Hm : (i, q) ∈ members sub log) by (rewrite E; by left). unfold members in Hm. apply elem_of_list_omap in Hm as ([n e] & Hin & He).
        cbn in He. case_bool_decide as Hs; [|done]. apply elem_of_lookup_imap in Hin as (n' & e' & [= -> ->] & Hl). subst sub. by apply (sh_obj _ _ _ _ H) in Hl as (_ & _ & ?).
      * rewrite (shows_dict _ _ _ _ x H). cbn [orb]. by case_bool_decide.
    + intros i e He. destruct (sh_obj _ _ _ _ H i e He) as (A1 & A2 & A3). split_and!; try done. cbn. rewrite bool_decide_eq_false_2 by done. apply elem_of_app. by left.
Qed.

Lemma add_one name t subs log sub c p : inv name t subs log ->
  let r := t_add_tqubit sub c p t in
  same_shape (t_st t) (t_st r.1) /\
  match r.2 with
  | Ok _ => exists e, made (t_st t) (sub, c, p) e /\ inv name r.1 (opens subs [(sub, c, p)]) (log ++ [e])
  | Err x => inv name r.1 (opens subs [(sub, c, p)]) log /\ (known c = false -> x = KeyError)
  end.
Proof.
  intros HI. destruct (open_shows name t subs log sub c p HI) as (s1 & E1 & HI1 & N1 & HH1). cbn zeta.
  unfold t_add_tqubit, add_tqubit. erewrite mbind_ok by done. erewrite mbind_ok by exact E1. clear E1.
  assert (HF1 : heap_fresh s1) by apply HI1.
  assert (HS1 : same_shape (t_st t) s1). { split; [done|]. rewrite HH1. eauto. }
  rewrite (in_name _ _ _ _ HI).
  destruct (str2qtype c) as [ty|] eqn:Ec; cbn [key].
  2:{ erewrite mbind_err by done. cbn. split; [done|]. split; [done|]. done. }
  erewrite mbind_ok by done.
  pose proof (new_shape ty p (name +:+ "_" +:+ py_str (s_n (t_st t)))%string s1 HF1) as [HS HQ].
  pose proof (new_tqubit_yields ty (Some p) (name +:+ "_" +:+ py_str (s_n (t_st t)))%string s1) as [HB _].
  destruct (new_tqubit ty (Some p) _ s1) as [s2 [q|e]] eqn:EQ; cbn [fst snd] in HS, HQ, HB.
  2:{ erewrite mbind_err by exact EQ. cbn [fst snd t_st]. split; [by eapply shape_trans|]. split; [|intros Hk; exfalso].
      - unfold book in HB. injection HB as T2 N2 Q2. destruct HI1 as [H1 HT1 _]. constructor; [|exact (eq_trans T2 HT1)|exact (proj1 HS)].
        constructor; cbn [t_st t_params].
        + rewrite N2. apply H1.
        + apply H1.
        + intros i. unfold treg_get. cbn. rewrite Q2. f_equal. by apply (shows_lookup _ _ _ _ _ H1).
        + intros x. rewrite sub_get, Q2. f_equal. pose proof (shows_dict _ _ _ _ x H1) as HX. cbn [t_st] in HX. rewrite HX. by case_bool_decide.
        + apply H1.
      - apply str2qtype_called in Ec. unfold known in Hk. rewrite bool_decide_eq_false in Hk. apply Hk. subst c. destruct ty; set_solver. }
  unfold book in HB. injection HB as T2 N2 Q2. destruct (HQ q eq_refl) as (Q1 & QN & pd & Hpd & Hown). destruct HI1 as [H1 HT1 _].
  erewrite mbind_ok by exact EQ. erewrite mbind_ok by done. pose proof (shows_dict _ _ _ _ sub H1) as HX. cbn [t_st] in HX. rewrite Q2, HX. rewrite bool_decide_eq_true_2 by apply opens_in. cbn [key]. erewrite mbind_ok by done.
  unfold put_st. cbn [fst snd t_st]. split; [split|].
  - apply HS.
  - intros x px Hx. destruct (shape_trans _ _ _ HS1 HS) as [_ HZ]. by apply HZ.
  - assert (HN : s_n s2 = Z.of_nat (length log)) by (rewrite N2; apply H1).
    assert (HG : dict_get (s_n s2) (members sub log) = None).
    { apply dict_get_out. intros a Ha. apply members_key in Ha. lia. }
    exists (Logged sub ty p q). split.
    { split; [done|]. split; [by apply str2qtype_called|]. split; [done|]. cbn. rewrite <-HH1, Hpd. by intros p' [= <-]. }
    constructor; [|exact (eq_trans T2 HT1)|exact (proj1 HS)]. constructor; cbn [t_st t_params].
    + rewrite app_length, HN. cbn. lia.
    + rewrite fmap_app. f_equal. apply (sh_params _ _ _ _ (in_shows _ _ _ _ HI)).
    + intros i. unfold treg_get. cbn. f_equal. rewrite lookup_add with (l := members sub log).
      * pose proof (shows_lookup _ _ _ _ i H1) as HL. cbn [t_st] in HL. rewrite entry_snoc, HN, HL. by repeat case_bool_decide.
      * rewrite HX. by rewrite bool_decide_eq_true_2 by apply opens_in.
      * pose proof (shows_lookup _ _ _ _ (s_n s2) H1) as HL. cbn [t_st] in HL. rewrite HL. rewrite (proj2 (entry_end log (s_n s2))); [done|lia].
    + intros x. rewrite sub_get. f_equal. cbn [set_tq s_tq]. rewrite dict_get_set, members_snoc. cbn [e_sub e_obj]. destruct (bool_decide_reflect (x = sub)) as [->|Hx].
      * rewrite (bool_decide_eq_true_2 (sub = sub)) by done. rewrite bool_decide_eq_true_2 by apply opens_in. f_equal. by rewrite dict_set_out, HN.
      * rewrite (bool_decide_eq_false_2 (sub = x)) by done. rewrite app_nil_r. pose proof (shows_dict _ _ _ _ x H1) as HX'. cbn [t_st] in HX'. rewrite HX'. change (if bool_decide (sub ∈ subs) then subs else subs ++ [sub]) with (opens subs [(sub, c, p)]). by case_bool_decide.
    + intros i e He. destruct (decide (i < length log)%nat) as [Hi|Hi]; [rewrite lookup_app_l in He by done; by apply (sh_obj _ _ _ _ H1) in He|].
      assert (i = length log) as ->. { apply lookup_lt_Some in He. rewrite app_length in He. cbn in He. lia. }
      rewrite list_lookup_middle in He by done. injection He as <-. cbn. split_and!; [done| |apply (opens_in subs sub c p)]. rewrite QN. do 3 f_equal. apply (sh_n _ _ _ _ (in_shows _ _ _ _ HI)).
Qed.

(** ** Adding several *)
Lemma ne_empty p : p <> empty_params <-> params_empty p = false.
Proof. split; [|by intros H ->]. intros H. destruct (params_empty p) eqn:E; [|done]. exfalso. apply H. by destruct p as [[] [] [] [] [] [] []]. Qed.
Lemma made_back s s' w e : same_shape s s' -> made s' w e -> made s w e.
Proof.
  intros [_ HS] (A1 & A2 & A3 & A4). split_and!; try done. intros p Hp. destruct (HS _ _ Hp) as (p' & Hp' & E).
  rewrite (A4 p' Hp'), !ne_empty, E. done.
Qed.
Lemma opens_again subs sub c p l :
  opens (opens subs [(sub, c, p)]) ((fun cp : string * nat => (sub, cp.1, cp.2)) <$> l) = opens subs [(sub, c, p)].
Proof. destruct l as [|x l]; [done|]. cbn [fmap list_fmap]. cbn [opens]. rewrite bool_decide_eq_true_2; [done|apply (opens_in subs sub c p)]. Qed.
Lemma add_all name sub l : forall t subs log, inv name t subs log ->
  let w := (fun cp : string * nat => (sub, cp.1, cp.2)) <$> l in
  let r := t_add_all sub l t in
  exists k added, Forall2 (made (t_st t)) (take k w) added /\ inv name r.1 (opens subs w) (log ++ added) /\
    (r.2 = Ok tt -> length added = length w) /\ (r.2 <> Ok tt -> (length added < length w)%nat).
Proof.
  induction l as [|[c p] l IHl]; intros t subs log HI; cbn zeta.
  - exists 0%nat, []. cbn. rewrite app_nil_r. split; [constructor|]. split; [done|]. split; [done|]. intros H. by destruct H.
  - pose proof (add_one name t subs log sub c p HI) as [HS HA]. cbn zeta in HS, HA. cbn [t_add_all].
    destruct (t_add_tqubit sub c p t) as [t1 [[]|x]]; cbn [fst snd] in *.
    + destruct HA as (e & He & HI1). destruct (IHl t1 _ _ HI1) as (k & added & HF & HI2 & HO & HE).
      exists (S k), (e :: added). rewrite opens_again in HI2. rewrite <-app_assoc in HI2. cbn [fmap list_fmap length take] in *. split_and!.
      * constructor; [done|]. eapply Forall2_impl; [exact HF|]. intros w e' Hm. by eapply made_back.
      * exact HI2.
      * intros H. f_equal. by apply HO.
      * intros H. apply HE in H. lia.
    + exists 0%nat, []. rewrite app_nil_r. split; [constructor|]. split; [apply HA|]. cbn. split; [done|]. intros _. lia.
Qed.
Lemma known_spec c : known c = match str2qtype c with None => false | Some _ => true end.
Proof.
  unfold known. destruct (str2qtype c) as [t|] eqn:E.
  - apply bool_decide_eq_true. apply str2qtype_called in E. subst c. destruct t; set_solver.
  - apply bool_decide_eq_false. unfold str2qtype in E. repeat case_bool_decide; set_solver.
Qed.
Lemma zip_want (sub : string) (cs : list string) (ps : list nat) : zip_with (fun c p => (sub, c, p)) cs ps = (fun cp : string * nat => (sub, cp.1, cp.2)) <$> zip cs ps.
Proof. revert ps. induction cs as [|c cs IHl]; intros [|p ps]; [done..|]. cbn. f_equal. apply IHl. Qed.
Lemma add_many name t subs log sub cs ps : inv name t subs log ->
  exists subs' added, carried_out True subs (all_of sub cs ps) t (t_add_tqubits sub cs ps t) subs' added /\
    inv name (t_add_tqubits sub cs ps t).1 subs' (log ++ added).
Proof.
  intros HI. unfold t_add_tqubits, all_of.
  assert (HK : forall l, existsb (fun c => match str2qtype c with None => true | Some _ => false end) l = negb (forallb known l)).
  { intros l. induction l as [|c l IHl]; [done|]. cbn. rewrite IHl, known_spec. destruct (str2qtype c); [|done]. by cbn. }
  rewrite HK. destruct (bool_decide_reflect (length cs = length ps)) as [El|El].
  - rewrite bool_decide_eq_false_2 by (intros H; by apply H). destruct (forallb known cs); cbn [andb negb].
    + destruct (add_all name sub (zip cs ps) t subs log HI) as (k & added & HF & HI' & HO & HE). rewrite zip_want. eexists _, added. split; [|exact HI'].
      split; [done|]. split; [by exists k|]. split; [done|]. auto.
    + exists subs, []. rewrite app_nil_r. done.
  - rewrite bool_decide_eq_true_2 by congruence. cbn [andb]. exists subs, []. rewrite app_nil_r. done.
Qed.

(** ** cx *)
Definition cx_rest (control target : tqubit) : M unit :=
  let* s := get_st in
  let* sub := key (dict_get "ancilla"%string (s_tq s)) in
  let* ancilla := (match reverse sub with kq :: _ => Circ.mret kq.2 | [] => mraise IndexError end) in
  add_creg 1 "m1" ;;; add_creg 1 "m2" ;;; add_creg 1 "m3" ;;;
  reset_x ancilla ;;;
  add_qreg 1 "cnot_readout" ;;;
  let* qr := get_qreg "cnot_readout" in
  let* readout := mlift (reg_get qr 0) in
  let* m1 := get_creg "m1" in let* m2 := get_creg "m2" in let* m3 := get_creg "m3" in
  let* m1b := mlift (reg_get m1 0) in
  let* m2b := mlift (reg_get m2 0) in
  emit [IReset readout] ;;;
  tq_cx control None (Some readout) ;;;
  tq_cx ancilla None (Some readout) ;;;
  emit [IMeas readout m1b] ;;;
  emit [IReset readout; IH readout] ;;;
  tq_cx target (Some readout) None ;;;
  tq_cx ancilla (Some readout) None ;;;
  emit [IH readout; IMeas readout m2b] ;;;
  readout_z ancilla (Some m3) ;;;
  z_c_if control m2 1 ;;;
  x_c_if target m1 1 ;;;
  x_c_if target m3 1.
Definition cx_ancilla (ap : string * nat) (control target : tqubit) : M unit :=
  let* s := get_st in
  (match dict_get "ancilla"%string (s_tq s) with None => add_tqubit "ancilla" ap.1 ap.2 | Some _ => Circ.mret tt end) ;;;
  cx_rest control target.
Lemma cx_split a b ty p s :
  c_cx a b ty p s =
    match (get_index a s).2, (get_index b s).2, ty, p with
    | Ok qa, Ok qb, Some c, Some l => cx_ancilla (c, l) qa qb s
    | Ok qa, Ok qb, None, None => cx_ancilla (type_name (tq_type qa), lat_params (tq_lat qa)) qa qb s
    | _, _, _, _ => (s, Err ValueError)
    end.
Proof.
  assert (HI : forall r, get_index r s = (s, (get_index r s).2) /\ ((get_index r s).2 = Err ValueError \/ exists q, (get_index r s).2 = Ok q)).
  { intros [i|q]; cbn; [|eauto]. split; [done|]. generalize (s_tq s) as tq. intros tq. induction tq as [|[k d] tq IHl]; cbn; [by left|]. destruct (dict_get i d); [eauto|done]. }
  destruct (HI a) as [Ea Ca], (HI b) as [Eb Cb]. unfold c_cx.
  destruct ty as [c|], p as [l|]; [|change ((s, @Err unit ValueError) = match (get_index a s).2, (get_index b s).2 with Ok _, Ok _ => (s, Err ValueError) | _, _ => (s, Err ValueError) end);
    destruct Ca as [Ca|[? Ca]]; rewrite Ca; [done|]; destruct Cb as [Cb|[? Cb]]; by rewrite Cb..|].
  - erewrite mbind_ok by done. erewrite mbind_ok by done. destruct Ca as [Ca|[qa Ca]]; rewrite Ca in *.
    { by erewrite mbind_err by exact Ea. }
    erewrite mbind_ok by exact Ea. destruct Cb as [Cb|[qb Cb]]; rewrite Cb in *; [by erewrite mbind_err by exact Eb|]. by erewrite mbind_ok by exact Eb.
  - erewrite mbind_ok by done. destruct Ca as [Ca|[qa Ca]]; rewrite Ca in *.
    { by erewrite mbind_err by (erewrite mbind_err by exact Ea; reflexivity). }
    erewrite mbind_ok by (erewrite mbind_ok by exact Ea; reflexivity). erewrite mbind_ok by exact Ea. destruct Cb as [Cb|[qb Cb]]; rewrite Cb in *; [by erewrite mbind_err by exact Eb|]. by erewrite mbind_ok by exact Eb.
Qed.
(** The rest of cx leaves the register alone. *)
Definition calm {A} (m : M A) : Prop := forall s, book (m s).1 = book s /\ keeps s (m s).1.
Lemma calm_bind {A B} (m : M A) (f : A -> M B) : calm m -> (forall a, calm (f a)) -> calm (mbind' m f).
Proof.
  intros Hm Hf s. unfold mbind'. pose proof (Hm s) as [A1 A2]. destruct (m s) as [s1 [a|e]]; cbn in *; [|done].
  destruct (Hf a s1) as [B1 B2]. split; [congruence|]. by eapply keeps_trans.
Qed.
Lemma calm_of {A} (m : M A) : yT m -> mild m -> calm m.
Proof. intros H1 H2 s. split; [apply H1|apply H2]. Qed.
Lemma calm_op q o : calm (run_op q o). Proof. apply calm_of; [apply yT_op|apply mild_op]. Qed.
Lemma calm_still {A} (m : M A) : (forall s, (m s).1 = s) -> calm m.
Proof. intros H s. rewrite H. split; [done|apply keeps_refl]. Qed.
Lemma calm_heapless {A} (m : M A) : (forall s, book (m s).1 = book s /\ s_heap (m s).1 = s_heap s /\ s_next (m s).1 = s_next s) -> calm m.
Proof. intros H s. destruct (H s) as (? & ? & ?). split; [done|by apply keeps_same]. Qed.
Lemma calm_st {A} (f : st -> M A) : (forall s, calm (f s)) -> calm (let* s := get_st in f s).
Proof. intros H. apply calm_bind; [by apply calm_still|done]. Qed.
Lemma calm_creg n x : calm (add_creg n x).
Proof.
  apply calm_heapless. intros s. unfold add_creg, mbind', get_st. destruct (dict_get x (s_tcreg s)); [done|]. case_bool_decide; [done|].
  cbn. unfold add_reg. by repeat case_bool_decide.
Qed.
Lemma calm_qreg n x : calm (add_qreg n x).
Proof.
  apply calm_heapless. intros s. unfold add_qreg, mbind', get_st. destruct (dict_get x (s_tqreg s)); [done|]. case_bool_decide; [done|].
  cbn. unfold add_reg. by repeat case_bool_decide.
Qed.
Lemma calm_key {A} (o : option A) : calm (key o). Proof. apply calm_still. by destruct o. Qed.
Lemma calm_lift {A} (r : res A) : calm (mlift r). Proof. by apply calm_still. Qed.
Lemma calm_emit l : calm (emit l). Proof. by apply calm_heapless. Qed.
Lemma calm_col q : calm (col_idx q). Proof. apply calm_of; [apply yT_col|apply mild_col]. Qed.
Lemma calm_row q : calm (row_idx q). Proof. apply calm_of; [apply yT_row|apply mild_row]. Qed.
Lemma calm_mfor {A} (l : list A) f : (forall x, calm (f x)) -> calm (mfor l f).
Proof. intros Hf. induction l as [|x l IHl]; cbn [mfor]; [by apply calm_still|]. by apply calm_bind. Qed.
Lemma calm_emit1 f l : calm (emit1 f l). Proof. destruct l; [by apply calm_still|apply calm_emit]. Qed.
Lemma calm_raise {A} e : calm (@mraise A e). Proof. by apply calm_still. Qed.
Lemma calm_ret {A} (a : A) : calm (Circ.mret a). Proof. by apply calm_still. Qed.
Ltac calm := repeat (lazymatch goal with
  | |- calm (mbind' get_st _) => apply calm_st; intros ?
  | |- calm (mbind' _ _) => apply calm_bind; [|intros ?]
  | |- calm (Circ.mret _) => apply calm_ret
  | |- calm (mraise _) => apply calm_raise
  | |- calm (mlift _) => apply calm_lift
  | |- calm (key _) => apply calm_key
  | |- calm (emit _) => apply calm_emit
  | |- calm (emit1 _ _) => apply calm_emit1
  | |- calm (mfor _ _) => apply calm_mfor; intros ?
  | |- calm (col_idx _) => apply calm_col
  | |- calm (row_idx _) => apply calm_row
  | |- calm (match ?b with _ => _ end) => destruct b
  end).
Lemma calm_rest qa qb : calm (cx_rest qa qb).
Proof.
  assert (HZ : forall q, calm (readout_z_into_ancilla q)) by (intros q; unfold readout_z_into_ancilla; calm).
  assert (HT : forall q c d, calm (tq_cx q c d)) by (intros q c d; unfold tq_cx; calm; apply HZ).
  unfold cx_rest. apply calm_st. intros s. apply calm_bind; [apply calm_key|intros d].
  apply calm_bind; [calm|intros qc]. do 3 (apply calm_bind; [apply calm_creg|intros _]). apply calm_bind; [apply (calm_op qc OResetX)|intros _]. apply calm_bind; [apply calm_qreg|intros _].
  apply calm_bind; [unfold get_qreg; calm|intros qr]. apply calm_bind; [apply calm_lift|intros ro']. do 3 (apply calm_bind; [unfold get_creg; calm|intros ?]).
  do 2 (apply calm_bind; [apply calm_lift|intros ?]). apply calm_bind; [apply calm_emit|intros _]. do 2 (apply calm_bind; [apply HT|intros _]). do 2 (apply calm_bind; [apply calm_emit|intros _]).
  do 2 (apply calm_bind; [apply HT|intros _]). apply calm_bind; [apply calm_emit|intros _]. apply calm_bind; [apply (calm_op qc (OReadZ _))|intros _].
  unfold z_c_if, x_c_if. calm.
Qed.
Lemma calm_inv name t subs log s' : inv name t subs log -> book s' = book (t_st t) -> keeps (t_st t) s' -> inv name (TSt s' (t_params t)) subs log.
Proof.
  intros [H HT HF] HB HK. unfold book in HB. injection HB as T2 N2 Q2. constructor; [|exact (eq_trans T2 HT)|exact (kp_fresh _ _ (HK HF))].
  constructor; cbn [t_st t_params].
  - rewrite N2. apply H.
  - apply H.
  - intros i. unfold treg_get. rewrite Q2. f_equal. by apply (shows_lookup _ _ _ _ _ H).
  - intros x. rewrite sub_get, Q2. f_equal. rewrite (shows_dict _ _ _ _ x H). by case_bool_decide.
  - apply H.
Qed.
Lemma type_called t : type_name t = called t. Proof. by destruct t. Qed.
Lemma shows_who name t subs log r : shows name t subs log ->
  (get_index r (t_st t)).2 = match who log r with Some q => Ok q | None => Err ValueError end.
Proof.
  intros H. destruct r as [i|q]; [|done]. cbn [get_index who]. unfold treg_get. cbn [snd]. rewrite (shows_lookup _ _ _ _ i H). by destruct (entry_at log i).
Qed.
Lemma cx_anc name t subs log c l qa qb : inv name t subs log ->
  let w := if bool_decide ("ancilla"%string ∈ subs) then [] else [("ancilla"%string, c, l)] in
  let r := cx_ancilla (c, l) qa qb (t_st t) in
  let t' := TSt r.1 (t_params t ++ if bool_decide (s_n r.1 = s_n (t_st t)) then [] else [l]) in
  exists added, inv name t' (opens subs w) (log ++ added) /\ (exists k, Forall2 (made (t_st t)) (take k w) added) /\
    (r.2 = Ok tt -> length added = length w).
Proof.
  intros HI. cbn zeta. unfold cx_ancilla. erewrite mbind_ok by done. rewrite (shows_dict _ _ _ _ "ancilla"%string (in_shows _ _ _ _ HI)).
  destruct (bool_decide_reflect ("ancilla"%string ∈ subs)) as [Hin|Hout].
  - erewrite mbind_ok by done. destruct (calm_rest qa qb (t_st t)) as [HB HK]. exists []. rewrite app_nil_r. split; [|split; [by exists 0%nat; constructor|done]].
    cbn [opens]. pose proof HB as HB'. unfold book in HB'. injection HB' as _ N2 _. rewrite N2, bool_decide_eq_true_2 by done. rewrite app_nil_r. by apply calm_inv.
  - pose proof (add_one name t subs log "ancilla" c l HI) as [HS HA]. cbn zeta in HS, HA. unfold t_add_tqubit in HS, HA.
    destruct (add_tqubit "ancilla" c l (t_st t)) as [s1 [[]|x]] eqn:E; cbn [fst snd] in *.
    + erewrite mbind_ok by exact E. destruct HA as (e & He & HI1). destruct (calm_rest qa qb s1) as [HB HK]. exists [e].
      pose proof HB as HB'. unfold book in HB'. injection HB' as _ N2 _. pose proof (sh_n _ _ _ _ (in_shows _ _ _ _ HI)) as N0. pose proof (sh_n _ _ _ _ (in_shows _ _ _ _ HI1)) as N1.
      cbn [t_st] in N1. rewrite app_length in N1. cbn [length] in N1. rewrite N2, bool_decide_eq_false_2 by lia.
      split; [by apply (calm_inv _ _ _ _ _ HI1)|]. split; [|done]. exists 1%nat. by constructor.
    + erewrite mbind_err by exact E. exists []. rewrite app_nil_r. destruct HA as [HI1 _]. cbn [fst snd].
      pose proof (sh_n _ _ _ _ (in_shows _ _ _ _ HI)) as N0. pose proof (sh_n _ _ _ _ (in_shows _ _ _ _ HI1)) as N1. cbn [t_st] in N1. rewrite bool_decide_eq_true_2 by lia. rewrite app_nil_r.
      split; [done|]. split; [by exists 0%nat; constructor|done].
Qed.

(** ** Every program *)
Lemma event_inv name t subs log e : inv name t subs log ->
  exists subs' added, carried_out (only_adds e) subs (wanted subs log e) t (run_tev e t) subs' added /\ inv name (run_tev e t).1 subs' (log ++ added).
Proof.
  intros HI. pose proof (in_shows _ _ _ _ HI) as H.
  assert (HQ : forall (m : M unit), (forall s, heap_fresh s -> book (m s).1 = book s /\ heap_fresh (m s).1) -> wanted subs log e = Some [] -> ~ only_adds e -> run_tev e = keeping m ->
    exists subs' added, carried_out (only_adds e) subs (wanted subs log e) t (run_tev e t) subs' added /\ inv name (run_tev e t).1 subs' (log ++ added)).
  { intros m Hm -> Hna ->. exists subs, []. rewrite app_nil_r. destruct (Hm (t_st t) (in_fresh _ _ _ _ HI)) as [HB HF]. split.
    - split; [done|]. split; [by exists 0%nat; constructor|]. done.
    - cbn [keeping fst]. unfold book in HB. injection HB as T2 N2 Q2. destruct HI as [_ HT _]. constructor; [|exact (eq_trans T2 HT)|done].
      constructor; cbn [t_st t_params].
      + rewrite N2. apply H.
      + apply H.
      + intros i. unfold treg_get. rewrite Q2. f_equal. by apply (shows_lookup _ _ _ _ _ H).
      + intros x. rewrite sub_get, Q2. f_equal. rewrite (shows_dict _ _ _ _ x H). by case_bool_decide.
      + apply H. }
  destruct e as [sub cs ps|sub c p|a b ty p|i o|p|l p]; cbn [run_tev wanted only_adds] in *.
  - by apply add_many.
  - pose proof (add_one name t subs log sub c p HI) as [_ HA]. cbn zeta in HA. destruct (t_add_tqubit sub c p t) as [t1 [[]|x]]; cbn [fst snd] in HA.
    + destruct HA as (e & He & HI1). exists (opens subs [(sub, c, p)]), [e]. split; [|done]. split; [done|]. split; [exists 1%nat; by constructor|]. split; [done|]. cbn. intros _ Hx. by destruct Hx.
    + exists (opens subs [(sub, c, p)]), []. rewrite app_nil_r. split; [|apply HA]. split; [done|]. split; [exists 0%nat; by constructor|]. cbn. split; [done|]. intros _ _. lia.
  - clear HQ. unfold t_cx. rewrite cx_split, !(shows_who _ _ _ _ _ H).
    assert (HN : forall d, exists subs' added, carried_out False subs None t
        (TSt (t_st t, @Err unit ValueError).1 (t_params t ++ (if bool_decide (s_n (t_st t, @Err unit ValueError).1 = s_n (t_st t)) then [] else d)), (t_st t, @Err unit ValueError).2) subs' added /\
        inv name (TSt (t_st t, @Err unit ValueError).1 (t_params t ++ (if bool_decide (s_n (t_st t, @Err unit ValueError).1 = s_n (t_st t)) then [] else d)), (t_st t, @Err unit ValueError).2).1 subs' (log ++ added)).
    { intros d. cbn [fst snd]. rewrite bool_decide_eq_true_2 by done. rewrite !app_nil_r. exists subs, []. rewrite app_nil_r. split; [|by destruct t]. split; [|done]. by destruct t. }
    destruct (who log a) as [qa|]; [|apply HN]. destruct (who log b) as [qb|]; [|apply HN]. destruct ty as [c|], p as [l|]; try apply HN.
    + destruct (cx_anc name t subs log c l qa qb HI) as (added & HI' & HK & HO). eexists _, added. split; [|exact HI']. split; [done|]. split; [done|]. split; [exact HO|done].
    + cbn [option_list]. change (type_name (tq_type qa)) with (called (tq_type qa)). destruct (cx_anc name t subs log (called (tq_type qa)) (lat_params (tq_lat qa)) qa qb HI) as (added & HI' & HK & HO).
      eexists _, added. split; [|exact HI']. split; [done|]. split; [done|]. split; [exact HO|done].
  - apply (HQ (let* q := treg_get i in run_op q o)); [|reflexivity|tauto|reflexivity]. intros s Hf. unfold mbind', treg_get. destruct (treg_lookup (s_tq s) i) as [q|]; [|done]. destruct (calm_op q o s) as [HB HK]. split; [done|]. by apply HK.
  - apply (HQ (let* _ := new_params p in Circ.mret tt)); [|reflexivity|tauto|reflexivity]. intros s Hf. split; [done|]. by apply (mild_new_params p s).
  - apply (HQ (fun s => if bool_decide (l < s_next s)%nat then put_params l p s else (s, Ok tt))); [|reflexivity|tauto|reflexivity]. intros s Hf. case_bool_decide as Hl; [|done]. split; [done|]. intros x Hx. cbn in *. rewrite lookup_insert_ne by lia. by apply Hf.
Qed.
Lemma inv_lives name l : forall t subs log, inv name t subs log -> lives name l t subs log.
Proof.
  induction l as [|e l IHl]; intros t subs log HI; cbn [lives]; (split; [apply HI|]); [done|].
  destruct (event_inv name t subs log e HI) as (subs' & added & HC & HI'). exists subs', added. split; [done|]. by apply IHl.
Qed.

(** A new register, whatever it was asked to hold, and any program on it. *)
Definition blank (name : string) (s : st) : tst := TSt (St (s_heap s) (s_next s) [] [] name 0 [] [] []) [].
Theorem C69_container name cs ps s l : heap_fresh s ->
  exists subs log, carried_out True [] (all_of "data" cs ps) (blank name s) (t_new name cs ps s) subs log /\
    lives name l (t_new name cs ps s).1 subs log.
Proof.
  intros Hf. assert (H0 : inv name (blank name s) [] []).
  { constructor; [|done|exact Hf]. constructor; try done. intros i. unfold entry_at. by case_bool_decide. }
  destruct (add_many name (blank name s) [] [] "data" cs ps H0) as (subs & added & HC & HI). exists subs, added. split; [done|]. by apply inv_lives.
Qed.
Print Assumptions C69_container.
(** The bookkeeping added here does not change what is built: it is the register of [TCirc]. *)
Theorem C69_same name cs ps s :
  (t_st (t_new name cs ps s).1, (t_new name cs ps s).2) = new_treg name cs ps s.
Proof.
  assert (H1 : forall sub c p t, (t_st (t_add_tqubit sub c p t).1, (t_add_tqubit sub c p t).2) = add_tqubit sub c p (t_st t)).
  { intros sub c p t. unfold t_add_tqubit. by destruct (add_tqubit sub c p (t_st t)) as [s1 [[]|]]. }
  assert (H2 : forall sub l t, (t_st (t_add_all sub l t).1, (t_add_all sub l t).2) = mfor l (fun cp => add_tqubit sub cp.1 cp.2) (t_st t)).
  { intros sub l. induction l as [|[c p] l IHl]; intros t; [done|]. cbn [t_add_all mfor]. unfold mbind'. cbn [fst snd]. rewrite <-H1. destruct (t_add_tqubit sub c p t) as [t1 [[]|]]; cbn; [apply IHl|done]. }
  unfold new_treg, mbind', get_st, put_st, t_new, t_add_tqubits, add_tqubits.
  destruct (bool_decide (length ps <> length cs)); [done|]. destruct (existsb _ cs); [done|]. apply H2.
Qed.
Print Assumptions C69_same.
(** An unknown type given to add_tqubit: KeyError, and yet the sub-register is now there. *)
Theorem C69_unknown name t subs log sub c p : shows name t subs log -> s_tname (t_st t) = name -> heap_fresh (t_st t) -> known c = false ->
  (run_tev (TAdd1 sub c p) t).2 = Err KeyError /\ shows name (run_tev (TAdd1 sub c p) t).1 (opens subs [(sub, c, p)]) log.
Proof.
  intros H HT HF Hc. destruct (add_one name t subs log sub c p) as [_ HA]; [by constructor|]. cbn zeta in HA. cbn [run_tev].
  destruct ((t_add_tqubit sub c p t).2) as [u|x] eqn:E; [|].
  - exfalso. destruct HA as (e & (_ & He & _) & _). cbn in He. subst c. unfold known in Hc. rewrite bool_decide_eq_false in Hc. apply Hc. destruct (e_type e); set_solver.
  - destruct HA as [HI Hx]. split; [by rewrite (Hx Hc)|apply HI].
Qed.
Print Assumptions C69_unknown.

(** ** Examples *)
Definition ex_dicts : st := St (<[0%nat := Circ.Params (Some (DNum 3)) None None None None None None]> (<[1%nat := empty_params]> ∅)) 2 [] [] "" 0 [] [] [].
Lemma ex_fresh : heap_fresh ex_dicts.
Proof. intros x Hx. cbn in *. rewrite !lookup_insert_ne by lia. apply lookup_empty. Qed.
Definition ex_prog : list tev := [TAdd1 "spare" "Steane" 0; TAdd "data" ["XXZZ"] [0; 1]%nat; TCx (ByIdx 0) (ByIdx 1) None None; TAdd "data" ["XZZX"]%string [1]%nat; TCall 2 OStab].
Definition ex_end : tst * list (res unit) := run_tevs ex_prog (t_new "t" ["XXZZ"; "Repetition"] [0; 1]%nat ex_dicts).1.
(** A refused type still opens "spare"; mismatched lists change nothing; cx adds the qubit 2 to
    "ancilla", sharing the control's dictionary; the empty dictionary 1 is listed in [params] but
    is not the one the qubits 1 and 3 use. *)
Example C69_ex :
  (t_new "t" ["XXZZ"; "Repetition"]%string [0; 1]%nat ex_dicts).2 = Ok tt /\
  ex_end.2 = [Err KeyError; Err ValueError; Ok tt; Ok tt; Ok tt] /\ s_n (t_st ex_end.1) = 4 /\ t_params ex_end.1 = [0; 1; 0; 1]%nat /\
  (match (treg_sub "data" (t_st ex_end.1)).2 with Ok d => (fun x => (x.1, lat_params (tq_lat x.2))) <$> d | Err _ => [] end) = [(0, 0%nat); (1, 2%nat); (3, 3%nat)] /\
  (match (treg_sub "ancilla" (t_st ex_end.1)).2 with Ok d => (fun x => (x.1, lat_params (tq_lat x.2))) <$> d | Err _ => [] end) = [(2, 0%nat)] /\
  (treg_sub "spare" (t_st ex_end.1)).2 = Ok [] /\ (treg_sub "anc" (t_st ex_end.1)).2 = Err KeyError /\
  (treg_get 4 (t_st ex_end.1)).2 = Err ValueError.
Proof. vm_compute. done. Qed.
Example C69_ex_lives : exists subs log, carried_out True [] (all_of "data" ["XXZZ"; "Repetition"]%string [0; 1]%nat) (blank "t" ex_dicts) (t_new "t" ["XXZZ"; "Repetition"]%string [0; 1]%nat ex_dicts) subs log /\
  lives "t" ex_prog (t_new "t" ["XXZZ"; "Repetition"]%string [0; 1]%nat ex_dicts).1 subs log.
Proof. exact (C69_container "t" _ _ _ ex_prog ex_fresh). Qed.
