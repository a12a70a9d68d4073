(** Registers and histories: indexing (C18), validation before adding (C19), register
    names (C16).  Model: qtcodes/circuits/circ.py:17-113 and the classical registers created
    by rotated_surface.py:496-531, base.py:360-420. *)
From Coq Require Import Ascii.
From Verif Require Export TCirc Names.
From stdpp Require Export list.
Open Scope Z_scope.

(** ** Programs that leave the register's bookkeeping alone *)
Definition book (s : st) := (s_tname s, s_n s, s_tq s).
Definition yields {A} (m : M A) (Q : A -> Prop) : Prop :=
  forall s, book (m s).1 = book s /\ match (m s).2 with Ok a => Q a | Err _ => True end.
Lemma yields_bind {A B} (m : M A) (f : A -> M B) Q R :
  yields m Q -> (forall a, Q a -> yields (f a) R) -> yields (mbind' m f) R.
Proof.
  intros Hm Hf s. unfold mbind'. destruct (m s) as [s1 [a|e]] eqn:E; pose proof (Hm s) as H; rewrite E in H; cbn in *.
  - destruct H as [Hb Hq]. destruct (Hf a Hq s1) as [Hb2 Hr]. split; [by rewrite Hb2|done].
  - done.
Qed.
Lemma yields_weak {A} (m : M A) (Q R : A -> Prop) : (forall a, Q a -> R a) -> yields m Q -> yields m R.
Proof. intros HQ Hm s. destruct (Hm s) as [? ?]. split; [done|]. destruct (m s).2; auto. Qed.
Lemma yields_ret {A} (a : A) (Q : A -> Prop) : Q a -> yields (Circ.mret a) Q.
Proof. done. Qed.
Lemma yields_lift {A} (r : res A) : yields (mlift r) (fun _ => True).
Proof. intros s. split; [done|]. by cbn; destruct r. Qed.
Lemma yields_get l : yields (get_params l) (fun _ => True).
Proof. intros s. unfold get_params. by destruct (s_heap s !! l). Qed.
Lemma yields_put l p : yields (put_params l p) (fun _ => True).
Proof. done. Qed.
Lemma yields_add_reg r : yields (add_reg r) (fun _ => True).
Proof. intros s. unfold add_reg. by repeat case_bool_decide. Qed.
Lemma yields_mfor {A} (l : list A) f : (forall x, yields (f x) (fun _ => True)) -> yields (mfor l f) (fun _ => True).
Proof. intros Hf. induction l as [|x l IH]; cbn [mfor]; [done|]. by eapply yields_bind; [apply Hf|]. Qed.
Lemma new_tqubit_yields t l name : yields (new_tqubit t l name) (fun q => tq_type q = t /\ lat_name (tq_lat q) = name).
Proof.
  unfold new_tqubit. eapply (yields_bind _ _ (fun _ => True)).
  { destruct l as [l|]; cbn [or_new]; [|done]. eapply yields_bind; [apply yields_get|]. intros p _. by destruct (params_empty p). }
  intros l' _. eapply (yields_bind _ _ (fun _ => True)).
  { destruct t; [|done..]. unfold rep_validate. eapply yields_bind; [apply yields_get|]. intros p _.
    eapply yields_bind; [apply yields_put|]. intros _ _. eapply yields_bind; [apply yields_lift|]. intros dl _. apply yields_put. }
  intros _ _. eapply (yields_bind _ _ (fun lat => lat_name lat = name)).
  - unfold new_lattice. eapply (yields_bind _ _ (fun _ => True)).
    + unfold params_validate_and_generate. eapply yields_bind; [apply yields_get|]. intros p _.
      eapply yields_bind; [apply yields_lift|]. intros dl _. eapply yields_bind; [apply yields_put|]. intros _ _.
      eapply yields_bind; [apply yields_lift|]. intros hw _. eapply yields_bind; [apply yields_put|]. by intros _ _.
    + intros hw _. cbn zeta. eapply yields_bind; [apply yields_mfor; intros; apply yields_add_reg|]. intros _ _.
      eapply yields_bind; [apply yields_lift|]. intros sts _. by apply yields_ret.
  - intros lat Hl. by apply yields_ret.
Qed.

(** ** C18: register indexing *)
(** One attempted addition: sub-register, type name, params. *)
Notation addition := (string * string * nat)%type.
(** Attempts one after the other; an exception is caught and the session goes on.
    The second component lists the additions that returned normally. *)
Fixpoint additions (l : list addition) (s : st) : st * list addition :=
  match l with
  | [] => (s, [])
  | (sub, c, p) :: l' =>
      match add_tqubit sub c p s with
      | (s1, Ok _) => let r := additions l' s1 in (r.1, (sub, c, p) :: r.2)
      | (s1, Err _) => additions l' s1
      end
  end.

Lemma add_tqubit_cases sub c p s :
  treg_lookup (s_tq s) (s_n s) = Err ValueError ->
  match add_tqubit sub c p s with
  | (s', Ok _) => exists t q, str2qtype c = Some t /\ tq_type q = t /\ lat_name (tq_lat q) = qname (s_tname s) (s_n s) /\
      s_n s' = s_n s + 1 /\ s_tname s' = s_tname s /\
      forall i, treg_lookup (s_tq s') i = if bool_decide (i = s_n s) then Ok q else treg_lookup (s_tq s) i
  | (s', Err _) => s_n s' = s_n s /\ s_tname s' = s_tname s /\ forall i, treg_lookup (s_tq s') i = treg_lookup (s_tq s) i
  end.
Proof.
  intros Hn. unfold add_tqubit. erewrite mbind_ok by done.
  set (m1 := match dict_get sub (s_tq s) with None => _ | Some _ => _ end).
  assert (exists s1 l1, m1 s = (s1, Ok tt) /\ s_n s1 = s_n s /\ s_tname s1 = s_tname s /\
    (forall i, treg_lookup (s_tq s1) i = treg_lookup (s_tq s) i) /\ dict_get sub (s_tq s1) = Some l1) as (s1 & l1 & E1 & N1 & T1 & L1 & D1).
  { unfold m1. destruct (dict_get sub (s_tq s)) as [l1|] eqn:E.
    - by exists s, l1.
    - eexists _, []. split; [reflexivity|]. cbn. split_and!; try done.
      + intros i. by apply lookup_new_sub.
      + rewrite dict_get_set. by rewrite bool_decide_eq_true_2. }
  erewrite mbind_ok by exact E1. clear m1 E1. destruct (str2qtype c) as [t|] eqn:Et; cbn [key]; [|by erewrite mbind_err].
  erewrite mbind_ok by done. fold (qname (s_tname s) (s_n s)).
  pose proof (new_tqubit_yields t (Some p) (qname (s_tname s) (s_n s)) s1) as [Hb Hq].
  unfold mbind' at 1. destruct (new_tqubit t (Some p) (qname (s_tname s) (s_n s)) s1) as [s2 [q|e]]; cbn in Hb, Hq.
  - unfold book in Hb. injection Hb as T2 N2 Q2. erewrite mbind_ok by done. rewrite Q2, D1. cbn [key]. erewrite mbind_ok by done.
    unfold put_st. cbn. exists t, q. destruct Hq as [Hq1 Hq2]. split_and!; try done; try congruence.
    intros i. rewrite N2, N1. rewrite lookup_add with (l := l1); [|done|by rewrite L1]. by rewrite L1.
  - unfold book in Hb. injection Hb as T2 N2 Q2. split_and!; [congruence..|]. intros i. rewrite Q2. apply L1.
Qed.

Theorem C18_indexing l s : s_n s = 0 -> s_tq s = [] ->
  let r := additions l s in
  s_n r.1 = Z.of_nat (length r.2) /\ s_tname r.1 = s_tname s /\
  forall i, match (if bool_decide (0 <= i) then r.2 !! Z.to_nat i else None) with
    | Some (_, c, _) => exists q, treg_lookup (s_tq r.1) i = Ok q /\ Some (tq_type q) = str2qtype c /\
                         lat_name (tq_lat q) = (s_tname s +:+ "_" +:+ py_str i)%string
    | None => treg_lookup (s_tq r.1) i = Err ValueError end.
Proof.
  intros H0 Hq.
  assert (HG : forall (done_ : list addition) s, let k := Z.of_nat (length done_) in
     s_n s = k ->
     (forall i, match (if bool_decide (0 <= i) then done_ !! Z.to_nat i else None) with
    | Some (_, c, _) => exists q, treg_lookup (s_tq s) i = Ok q /\ Some (tq_type q) = str2qtype c /\
                         lat_name (tq_lat q) = (s_tname s +:+ "_" +:+ py_str i)%string
    | None => treg_lookup (s_tq s) i = Err ValueError end) ->
    let r := additions l s in
    s_n r.1 = Z.of_nat (length (done_ ++ r.2)) /\ s_tname r.1 = s_tname s /\
    forall i, match (if bool_decide (0 <= i) then (done_ ++ r.2) !! Z.to_nat i else None) with
    | Some (_, c, _) => exists q, treg_lookup (s_tq r.1) i = Ok q /\ Some (tq_type q) = str2qtype c /\
                         lat_name (tq_lat q) = (s_tname s +:+ "_" +:+ py_str i)%string
    | None => treg_lookup (s_tq r.1) i = Err ValueError end).
  { clear H0 Hq s. induction l as [|[[sub c] p] l IH]; intros done_ s; cbn zeta; intros Hk HL.
    - cbn. rewrite app_nil_r. done.
    - cbn [additions].
      assert (HN : treg_lookup (s_tq s) (s_n s) = Err ValueError).
      { specialize (HL (s_n s)). rewrite bool_decide_eq_true_2 in HL by lia. rewrite Hk, Nat2Z.id in HL.
        rewrite (proj2 (lookup_ge_None done_ (length done_))) in HL by lia. by rewrite Hk. }
      pose proof (add_tqubit_cases sub c p s HN) as HA.
      destruct (add_tqubit sub c p s) as [s1 [[]|e]].
      + destruct HA as (t & q & Ht & Hq1 & Hq2 & Hn1 & HT1 & HL1).
        specialize (IH (done_ ++ [(sub, c, p)]) s1). cbn zeta in IH. destruct IH as (I1 & I2 & I3).
        * rewrite Hn1, app_length. cbn. lia.
        * intros i. rewrite HL1, HT1. destruct (bool_decide_reflect (i = s_n s)) as [->|Hi].
          -- rewrite bool_decide_eq_true_2 by lia. rewrite Hk, Nat2Z.id, lookup_app_r by lia. rewrite Nat.sub_diag. cbn.
             exists q. split_and!; [done|congruence|]. by rewrite Hq2, Hk.
          -- specialize (HL i). case_bool_decide; [|done].
             destruct (decide (Z.to_nat i < length done_)%nat) as [Hlt|Hge].
             ++ by rewrite lookup_app_l.
             ++ rewrite (proj2 (lookup_ge_None done_ (Z.to_nat i))) in HL by lia.
                rewrite (proj2 (lookup_ge_None (done_ ++ _) (Z.to_nat i))); [done|]. rewrite app_length. cbn. lia.
        * cbn [fst snd]. rewrite <-app_assoc in I1, I3. cbn [app] in I1, I3. split_and!; [done|congruence|].
          intros i. specialize (I3 i). by rewrite HT1 in I3.
      + destruct HA as (Hn1 & HT1 & HL1). specialize (IH done_ s1). cbn zeta in IH. destruct IH as (I1 & I2 & I3).
        * lia.
        * intros i. rewrite HL1, HT1. apply HL.
        * split_and!; [done|congruence|]. intros i. specialize (I3 i). by rewrite HT1 in I3. }
  specialize (HG [] s). cbn zeta in HG. apply HG.
  - by rewrite H0.
  - intros i. rewrite Hq. by case_bool_decide.
Qed.
Print Assumptions C18_indexing.

(** ** C19: add_tqubits validates before adding *)
Definition known_type (c : string) : Prop := c = "XXZZ"%string \/ c = "XZZX"%string \/ c = "Repetition"%string.
Lemma known_type_spec c : str2qtype c = None <-> ~ known_type c.
Proof. unfold str2qtype, known_type. repeat case_bool_decide; naive_solver. Qed.
Theorem C19_rejects sub ctypes params s :
  length params <> length ctypes \/ (exists c, c ∈ ctypes /\ ~ known_type c) ->
  add_tqubits sub ctypes params s = (s, Err ValueError).
Proof.
  intros H. unfold add_tqubits. case_bool_decide as Hl; [done|]. destruct H as [?|(c & Hc & Hk)]; [done|].
  rewrite (proj2 (existsb_exists _ _)); [done|]. exists c. split; [by apply elem_of_list_In|].
  apply known_type_spec in Hk. by rewrite Hk.
Qed.
(** The only other way to fail is a rejected size or a taken name while adding: the request
    itself is then well formed. *)
Theorem C19_accepts sub ctypes params s :
  length params = length ctypes -> (forall c, c ∈ ctypes -> known_type c) ->
  add_tqubits sub ctypes params s = mfor (zip ctypes params) (fun cp => add_tqubit sub cp.1 cp.2) s.
Proof.
  intros Hl Hk. unfold add_tqubits. rewrite bool_decide_eq_false_2 by tauto.
  destruct (existsb _ ctypes) eqn:E; [|done]. apply existsb_exists in E as (c & Hc%elem_of_list_In & H).
  destruct (str2qtype c) eqn:Ec; [done|]. apply known_type_spec in Ec. by destruct Ec; apply Hk.
Qed.
Print Assumptions C19_accepts.
Print Assumptions C19_rejects.

(** ** C16: register names never collide *)
(** A call on the i-th qubit of the register (circ.py:142-237, 312-366). *)
Definition run_call (e : Z * op) : M unit := let* q := treg_get e.1 in run_op q e.2.
Lemma run_call_methods i h :
  run_call (i, OStab) = c_stabilize (ByIdx i) /\ run_call (i, OReadX h) = c_measure_x (ByIdx i) h /\
  run_call (i, OReadZ h) = c_measure_z (ByIdx i) h /\ run_call (i, OLatX) = c_measure_lattice_x (ByIdx i) /\
  run_call (i, OLatZ) = c_measure_lattice_z (ByIdx i) /\ run_call (i, OResetX) = c_reset_x (ByIdx i) /\
  run_call (i, OResetZ) = c_reset_z (ByIdx i) /\ run_call (i, OX) = c_x (ByIdx i) /\ run_call (i, OZ) = c_z (ByIdx i) /\
  run_call (i, OId) = c_id (ByIdx i) /\ run_call (i, OIdData) = c_id_data (ByIdx i).
Proof. done. Qed.
(** A session: calls one after the other, exceptions caught. *)
Fixpoint session (l : list (Z * op)) (s : st) : st * list (res unit) :=
  match l with
  | [] => (s, [])
  | e :: l' => let r := run_call e s in let r' := session l' r.1 in (r'.1, r.2 :: r'.2)
  end.

(** Which kind of classical register a call creates. *)
Definition kind (o : op) : option string :=
  match o with
  | OStab => Some "_c"%string
  | OReadX None | OReadZ None => Some "_readout_"%string
  | OReadX (Some h) | OReadZ (Some h) => if bool_decide (h.2 = 0) then Some "_readout_"%string else None
  | OLatX | OLatZ => Some "_lattice_readout_"%string
  | _ => None
  end.
(** How many calls on qubit i created a register of this kind. *)
Definition uses (k : string) (i : Z) (l : list (Z * op)) : Z :=
  Z.of_nat (length (filter (fun e => e.1 = i /\ kind e.2 = Some k) l)).
Definition created (tname : string) (seen : list (Z * op)) (e : Z * op) : list string :=
  match kind e.2 with
  | Some k => [(tname +:+ "_" +:+ py_str e.1 +:+ k +:+ py_str (uses k e.1 seen))%string]
  | None => [] end.
Fixpoint all_created (tname : string) (seen l : list (Z * op)) : list string :=
  match l with [] => [] | e :: l' => created tname seen e ++ all_created tname (seen ++ [e]) l' end.

Definition q_sufs : list string := ["_data"; "_mz"; "_mx"; "_ancilla"]%string.
(** Registers shared by all calls of cx (circ.py:275-285). *)
Definition cx_names : list string := ["m1"; "m2"; "m3"; "cnot_readout"]%string.
Definition c_sufs : list string := ["_c"; "_readout_"; "_lattice_readout_"]%string.
Record ready (s : st) (szs : list (qtype * (Z * Z))) (seen : list (Z * op)) : Prop := {
  rd_q : forall i t dh dw, 0 <= i -> szs !! Z.to_nat i = Some (t, (dh, dw)) ->
    exists q, treg_lookup (s_tq s) i = Ok q /\ tq_type q = t /\ lat_code (tq_lat q) = code_of t /\
    lat_name (tq_lat q) = qname (s_tname s) i /\
    lat_ok s q dh dw /\ has_cnt s q (Cnt (uses "_c" i seen - 1) (uses "_readout_" i seen - 1) (uses "_lattice_readout_" i seen - 1));
  rd_sep : forall i j q q', 0 <= i < s_n s -> 0 <= j < s_n s -> treg_lookup (s_tq s) i = Ok q -> treg_lookup (s_tq s) j = Ok q' ->
    lat_params (tq_lat q) = lat_params (tq_lat q') -> i = j;
  rd_none : forall i, ~ (0 <= i < s_n s) -> treg_lookup (s_tq s) i = Err ValueError;
  rd_names : forall x, x ∈ names s -> x ∈ cx_names \/ exists i, 0 <= i < s_n s /\
    ((exists suf, suf ∈ q_sufs /\ x = (qname (s_tname s) i +:+ suf)%string) \/
     (exists suf k, suf ∈ c_sufs /\ 0 <= k < uses suf i seen /\ x = (qname (s_tname s) i +:+ suf +:+ py_str k)%string));
  rd_nodup : NoDup (names s);
  rd_n : s_n s = Z.of_nat (length szs);
  rd_seen : forall e, e ∈ seen -> 0 <= e.1 < s_n s }.

Lemma uses_app k i l e : uses k i (l ++ [e]) = uses k i l + (if bool_decide (e.1 = i /\ kind e.2 = Some k) then 1 else 0).
Proof. unfold uses. rewrite filter_app, app_length, Nat2Z.inj_add. f_equal. cbn. by case_decide; case_bool_decide. Qed.
Lemma uses_mono k i l e : uses k i l <= uses k i (l ++ [e]).
Proof. rewrite uses_app. case_bool_decide; lia. Qed.
Lemma uses_none k i l : (forall e, e ∈ l -> e.1 <> i) -> uses k i l = 0.
Proof.
  intros H. induction l as [|e l IH]; [done|]. unfold uses in *. rewrite filter_cons, decide_False.
  - apply IH. intros e' He'. apply H. by right.
  - intros [E _]. apply (H e); [by left|done].
Qed.
Lemma uses_nonneg k i l : 0 <= uses k i l.
Proof. unfold uses. lia. Qed.

Lemma c_sufs_inv suf : suf ∈ c_sufs -> suf = "_c"%string \/ suf = "_readout_"%string \/ suf = "_lattice_readout_"%string.
Proof. unfold c_sufs. set_solver. Qed.
Lemma q_sufs_inv suf : suf ∈ q_sufs -> suf = "_data"%string \/ suf = "_mz"%string \/ suf = "_mx"%string \/ suf = "_ancilla"%string.
Proof. unfold q_sufs. set_solver. Qed.
Lemma qname_app t i a : (qname t i +:+ a)%string = (t +:+ "_" +:+ py_str i +:+ a)%string.
Proof. unfold qname. by rewrite !str_app_assoc. Qed.
(** Qubit-register suffixes and classical suffixes never produce the same name. *)
Lemma c_suf_inj t i j suf suf' k k' : 0 <= i -> 0 <= j -> suf ∈ c_sufs -> suf' ∈ c_sufs ->
  (qname t i +:+ suf +:+ py_str k)%string = (qname t j +:+ suf' +:+ py_str k')%string -> i = j /\ suf = suf' /\ k = k'.
Proof.
  intros Hi Hj Hs%c_sufs_inv Hs'%c_sufs_inv E.
  destruct Hs as [->|[->| ->]], Hs' as [->|[->| ->]];
    match type of E with (_ +:+ String ?x ?a +:+ ?b)%string = (_ +:+ String ?x ?c +:+ ?d)%string =>
      change ((qname t i +:+ "_" +:+ (a +:+ b))%string = (qname t j +:+ "_" +:+ (c +:+ d))%string) in E end;
    apply qname_sep in E as [-> E]; try done.
  - injection E as E. split; [done|]. split; [done|]. by apply py_str_inj.
  - injection E as E. split; [done|]. split; [done|]. by apply py_str_inj.
  - injection E as E. split; [done|]. split; [done|]. by apply py_str_inj.
Qed.
Lemma qc_suf_ne t i j suf suf' k : 0 <= i -> 0 <= j -> suf ∈ q_sufs -> suf' ∈ c_sufs ->
  (qname t i +:+ suf)%string <> (qname t j +:+ suf' +:+ py_str k)%string.
Proof.
  intros Hi Hj Hs%q_sufs_inv Hs'%c_sufs_inv E.
  destruct Hs as [->|[->|[->| ->]]], Hs' as [->|[->| ->]];
    match type of E with (_ +:+ String ?x ?a)%string = (_ +:+ String ?x ?c +:+ ?d)%string =>
      change ((qname t i +:+ "_" +:+ a)%string = (qname t j +:+ "_" +:+ (c +:+ d))%string) in E end;
    apply qname_sep in E as [-> E]; done.
Qed.
Lemma q_suf_inj t i j suf suf' : 0 <= i -> 0 <= j -> suf ∈ q_sufs -> suf' ∈ q_sufs ->
  (qname t i +:+ suf)%string = (qname t j +:+ suf')%string -> i = j /\ suf = suf'.
Proof.
  intros Hi Hj Hs%q_sufs_inv Hs'%q_sufs_inv E.
  destruct Hs as [->|[->|[->| ->]]], Hs' as [->|[->|[->| ->]]];
    match type of E with (_ +:+ String ?x ?a)%string = (_ +:+ String ?x ?c)%string =>
      change ((qname t i +:+ "_" +:+ a)%string = (qname t j +:+ "_" +:+ c)%string) in E end;
    apply qname_sep in E as [-> E]; done.
Qed.

Fixpoint us (s : string) : nat := match s with EmptyString => 0 | String c s' => (if bool_decide (c = "_"%char) then 1 else 0) + us s' end.
Lemma us_app a b : us (a +:+ b) = (us a + us b)%nat.
Proof. induction a as [|c a IH]; [done|]. change (us (String c (a +:+ b)) = (us (String c a) + us b)%nat). cbn [us]. rewrite IH. lia. Qed.
Lemma cx_name_ne t i a x : x ∈ cx_names -> x <> (qname t i +:+ "_" +:+ a)%string.
Proof.
  intros Hx E. assert (Hu : (us x <= 1)%nat).
  { unfold cx_names in Hx. rewrite !elem_of_cons in Hx. destruct Hx as [->|[->|[->|[->|Hx]]]]; [vm_compute; lia..|by apply elem_of_nil in Hx]. }
  rewrite E in Hu. unfold qname in Hu. rewrite !us_app in Hu. change (us "_") with 1%nat in Hu. lia.
Qed.
Lemma cx_q_ne t i suf x : x ∈ cx_names -> suf ∈ q_sufs -> x <> (qname t i +:+ suf)%string.
Proof. intros Hx Hs%q_sufs_inv. destruct Hs as [->|[->|[->| ->]]]; by apply cx_name_ne. Qed.
Lemma cx_c_ne t i suf k x : x ∈ cx_names -> suf ∈ c_sufs -> x <> (qname t i +:+ suf +:+ py_str k)%string.
Proof.
  intros Hx Hs%c_sufs_inv. destruct Hs as [->|[->| ->]];
    [apply (cx_name_ne t i ("c" +:+ py_str k))|apply (cx_name_ne t i ("readout_" +:+ py_str k))|apply (cx_name_ne t i ("lattice_readout_" +:+ py_str k))]; done.
Qed.

(** The registers predicted by the model's closed form are those of the specification. *)
Definition cnt_of (i : Z) (seen : list (Z * op)) : cnt :=
  Cnt (uses "_c" i seen - 1) (uses "_readout_" i seen - 1) (uses "_lattice_readout_" i seen - 1).
Lemma op_reg_created t i dh dw seen o :
  r_name <$> op_reg (qname t i) dh dw (cnt_of i seen) o = created t seen (i, o).
Proof.
  assert (forall a b, (qname t i +:+ a +:+ b)%string = (t +:+ "_" +:+ py_str i +:+ a +:+ b)%string) as HQ.
  { intros a b. unfold qname. by rewrite !str_app_assoc. }
  unfold created, cnt_of. destruct o as [|[h|]|[h|]| | | | | | | |]; cbn [op_reg kind eff fst snd cT cR cL]; try done;
    try case_bool_decide; cbn [fmap list_fmap r_name]; try done; unfold cname, rdname, lrname; rewrite HQ, Z.sub_add; done.
Qed.
Lemma op_next_uses i seen o : op_next (cnt_of i seen) o = cnt_of i (seen ++ [(i, o)]).
Proof.
  unfold cnt_of. rewrite !uses_app. cbn [fst snd].
  destruct o as [|[h|]|[h|]| | | | | | | |]; cbn [op_next kind eff]; unfold bump_T, bump_R, bump_L; cbn [cT cR cL];
    repeat case_bool_decide; try (exfalso; naive_solver); f_equal; lia.
Qed.
Lemma cnt_of_other i j seen o : i <> j -> cnt_of j (seen ++ [(i, o)]) = cnt_of j seen.
Proof. intros H. unfold cnt_of. rewrite !uses_app. cbn [fst snd]. rewrite !bool_decide_eq_false_2 by naive_solver. f_equal; lia. Qed.
Lemma kind_c_sufs o k : kind o = Some k -> k ∈ c_sufs.
Proof. unfold c_sufs. destruct o as [|[h|]|[h|]| | | | | | | |]; cbn; try case_bool_decide; intros [=]; subst; set_solver. Qed.

Lemma created_fresh s szs seen i o : ready s szs seen -> 0 <= i < s_n s ->
  forall x, x ∈ created (s_tname s) seen (i, o) -> x ∉ names s.
Proof.
  intros Hr Hi x Hx Hin. unfold created in Hx. cbn [fst snd] in Hx. destruct (kind o) as [k|] eqn:Ek; [|by apply elem_of_nil in Hx].
  apply elem_of_list_singleton in Hx as ->. apply kind_c_sufs in Ek.
  destruct (rd_names _ _ _ Hr _ Hin) as [Hc|(j & Hj & [(suf & Hs & E)|(suf & k' & Hs & Hk' & E)])]; [|rewrite <-qname_app in E..].
  - rewrite <-qname_app in Hc. eapply cx_c_ne; [exact Hc|exact Ek|done].
  - symmetry in E. revert E. apply qc_suf_ne; [lia..|done|done].
  - apply c_suf_inj in E as (-> & -> & <-); [|lia..|done|done]. lia.
Qed.

Lemma lat_ok_heap s s' q dh dw : s_heap s' !! lat_params (tq_lat q) = s_heap s !! lat_params (tq_lat q) -> lat_ok s q dh dw -> lat_ok s' q dh dw.
Proof. intros E [? ? H]. constructor; [done..|]. by rewrite E. Qed.
Lemma has_cnt_heap s s' q n : s_heap s' !! lat_params (tq_lat q) = s_heap s !! lat_params (tq_lat q) -> has_cnt s q n -> has_cnt s' q n.
Proof. intros E (p & Hp & H). exists p. by rewrite E. Qed.

(** The calls that raise whatever the history: XZZX lattices one qubit high or wide have no
    odd-indexed qubit where one is needed. *)
Definition unsupported (t : qtype) (dh dw : Z) (o : op) : Prop :=
  t = TXZZX /\
  match o with
  | OReadX _ => dh = 1 | OReadZ _ => dw = 1
  | OLatX | OResetX => dh = 1 /\ dw = 1
  | _ => False end.
Lemma unsupported_spec t dh dw o : valid_size dh dw -> op_ok (code_of t) dh dw o = false -> unsupported t dh dw o.
Proof.
  intros Hv. assert (0 < dh /\ 0 < dw /\ Z.odd dh = true /\ Z.odd dw = true) as (Hh & Hw & Oh & Ow) by (unfold valid_size in Hv; naive_solver).
  destruct (odd_size_1_3 dh Hh Oh), (odd_size_1_3 dw Hw Ow);
  destruct t, o; cbn; try done; intros HF%bool_decide_eq_false; split; try done; try lia; unfold num_data in HF; nia.
Qed.

Lemma call_ready s szs seen i o : ready s szs seen -> 0 <= i < s_n s ->
  exists s' r, run_call (i, o) s = (s', r) /\ ready s' szs (seen ++ [(i, o)]) /\
    names s' = names s ++ created (s_tname s) seen (i, o) /\ s_tname s' = s_tname s /\ s_n s' = s_n s /\ s_tq s' = s_tq s /\
    (exists q, treg_lookup (s_tq s) i = Ok q /\ same_else s s' q) /\
    (r = Ok tt \/ exists t dh dw, szs !! Z.to_nat i = Some (t, (dh, dw)) /\ unsupported t dh dw o /\ (r = Err ValueError \/ r = Err CircuitError)).
Proof.
  intros Hr Hi. pose proof (rd_n _ _ _ Hr) as Hn.
  destruct (lookup_lt_is_Some_2 szs (Z.to_nat i)) as [[t [dh dw]] Hsz]; [lia|].
  destruct (rd_q _ _ _ Hr i t dh dw) as (q & Hq & Ht & Hc & Hnm & Hok & Hcnt); [lia|done|].
  pose proof (created_fresh _ _ _ i o Hr Hi) as Hfr. fold (cnt_of i seen) in Hcnt.
  assert (Hf : op_fresh s (lat_name (tq_lat q)) dh dw (cnt_of i seen) o).
  { intros r Hrr. rewrite Hnm in Hrr. apply Hfr. rewrite <-(op_reg_created _ _ dh dw). by apply elem_of_list_fmap_1. }
  assert (HP : forall s' is, post s s' q dh dw (op_next (cnt_of i seen) o) (op_reg (lat_name (tq_lat q)) dh dw (cnt_of i seen) o) is ->
     ready s' szs (seen ++ [(i, o)]) /\ names s' = names s ++ created (s_tname s) seen (i, o) /\ s_tname s' = s_tname s /\ s_n s' = s_n s /\ s_tq s' = s_tq s /\ same_else s s' q).
  { intros s' is [P1 P2 P3 P4 P5']. pose proof P5' as (P5 & P6 & P7 & P8 & P9 & _).
    assert (HN : names s' = names s ++ created (s_tname s) seen (i, o)).
    { unfold names. rewrite P3, fmap_app, Hnm, op_reg_created. done. }
    split; [|done]. constructor.
    - rewrite P7, P9. intros j t' dh' dw' Hj Hsz'.
      destruct (decide (i = j)) as [<-|Hne].
      + rewrite Hsz in Hsz'. injection Hsz' as <- <- <-. exists q. split_and!; try done.
        rewrite op_next_uses in P2. exact P2.
      + destruct (rd_q _ _ _ Hr j t' dh' dw') as (q' & Hq' & Ht' & Hc' & Hnm' & Hok' & Hcnt'); [lia|done|].
        assert (Hh : s_heap s' !! lat_params (tq_lat q') = s_heap s !! lat_params (tq_lat q')).
        { apply P5. intros E. apply Hne. symmetry. eapply (rd_sep _ _ _ Hr j i); try done. apply lookup_lt_Some in Hsz'. lia. }
        exists q'. split_and!; try done.
        * by eapply lat_ok_heap.
        * fold (cnt_of j (seen ++ [(i, o)])). rewrite cnt_of_other by done. by eapply has_cnt_heap.
    - rewrite P8, P9. apply (rd_sep _ _ _ Hr).
    - rewrite P8, P9. apply (rd_none _ _ _ Hr).
    - rewrite HN, P7, P8. intros x [Hx|Hx]%elem_of_app.
      + destruct (rd_names _ _ _ Hr _ Hx) as [?|(j & Hj & HH)]; [by left|right]. exists j. split; [done|].
        destruct HH as [?|(suf & k & Hs & Hk & E)]; [by left|]. right. exists suf, k. split_and!; try done; [lia|].
        pose proof (uses_mono suf j seen (i, o)). lia.
      + right. exists i. split; [done|]. right. unfold created in Hx. cbn [fst snd] in Hx. destruct (kind o) as [k|] eqn:Ek; [|by apply elem_of_nil in Hx].
        apply elem_of_list_singleton in Hx as ->. exists k, (uses k i seen). split_and!.
        * by eapply kind_c_sufs.
        * apply uses_nonneg.
        * rewrite uses_app. cbn [fst snd]. rewrite bool_decide_eq_true_2 by done. lia.
        * by rewrite qname_app.
    - rewrite HN. apply NoDup_app. split_and!.
      + apply (rd_nodup _ _ _ Hr).
      + intros x Hx Hx'. by eapply Hfr.
      + unfold created. cbn [fst snd]. destruct (kind o); [apply NoDup_singleton|apply NoDup_nil_2].
    - congruence.
    - rewrite P8. intros e [He|He]%elem_of_app; [by apply (rd_seen _ _ _ Hr)|]. apply elem_of_list_singleton in He as ->. done. }
  assert (HE : run_call (i, o) s = run_op q o s).
  { unfold run_call. cbn [fst snd]. erewrite mbind_ok; [done|]. unfold treg_get. by rewrite Hq. }
  rewrite HE. destruct (op_ok (lat_code (tq_lat q)) dh dw o) eqn:Es.
  - destruct (run_op_ok s q dh dw _ o Hok Hcnt Es Hf) as (s' & E & Hpost). exists s', (Ok tt).
    destruct (HP _ _ Hpost) as (? & ? & ? & ? & ? & ?). split_and!; [done..|by exists q|]. by left.
  - destruct (run_op_fail s q dh dw _ o Hok Hcnt Es Hf) as (s' & e & is & E & He & Hpost). exists s', (Err e).
    destruct (HP _ _ Hpost) as (? & ? & ? & ? & ? & ?). split_and!; [done..|by exists q|]. right. exists t, dh, dw. split_and!; [done| |].
    + rewrite Hc in Es. apply unsupported_spec; [apply Hok|done].
    + destruct He as [-> | ->]; [by left|by right].
Qed.

Lemma session_ready l s szs seen : ready s szs seen -> (forall e, e ∈ l -> 0 <= e.1 < s_n s) ->
  ready (session l s).1 szs (seen ++ l) /\ names (session l s).1 = names s ++ all_created (s_tname s) seen l /\
  Forall2 (fun e r => r = Ok tt \/ exists t dh dw, szs !! Z.to_nat e.1 = Some (t, (dh, dw)) /\ unsupported t dh dw e.2 /\ (r = Err ValueError \/ r = Err CircuitError))
    l (session l s).2.
Proof.
  revert s seen. induction l as [|[i o] l IH]; intros s seen Hr Hl.
  - cbn. rewrite !app_nil_r. done.
  - destruct (call_ready s szs seen i o Hr) as (s' & r & E & Hr' & HN & Ht & Hn & Hq & _ & HR); [by apply (Hl (i, o)); left|].
    cbn [session all_created]. rewrite E. cbn [fst snd].
    destruct (IH s' (seen ++ [(i, o)]) Hr') as (I1 & I2 & I3).
    { intros e He. rewrite Hn. apply Hl. by right. }
    rewrite <-app_assoc in I1. cbn [app] in I1. split_and!.
    + done.
    + rewrite I2, HN, Ht. by rewrite app_assoc.
    + by constructor.
Qed.

(** *** Building the register *)
Definition heap_fresh (s : st) : Prop := forall x, (s_next s <= x)%nat -> s_heap s !! x = None.
Lemma lattice_names name dh dw x : x ∈ fst <$> lattice_regs name dh dw -> exists suf, suf ∈ q_sufs /\ x = (name +:+ suf)%string.
Proof.
  unfold lattice_regs, q_sufs. rewrite !fmap_app, !elem_of_app. unfold opt_reg.
  intros [Hx|[Hx|[Hx|Hx]]].
  - apply elem_of_list_singleton in Hx as ->. exists "_data"%string. split; [set_solver|done].
  - case_bool_decide; cbn in Hx; [|by apply elem_of_nil in Hx]. apply elem_of_list_singleton in Hx as ->. exists "_mz"%string. split; [set_solver|done].
  - case_bool_decide; cbn in Hx; [|by apply elem_of_nil in Hx]. apply elem_of_list_singleton in Hx as ->. exists "_mx"%string. split; [set_solver|done].
  - apply elem_of_list_singleton in Hx as ->. exists "_ancilla"%string. split; [set_solver|done].
Qed.
Lemma lattice_names_nodup name dh dw : NoDup (fst <$> lattice_regs name dh dw).
Proof.
  assert (HN : forall a b, a <> b -> (name +:+ a)%string <> (name +:+ b)%string) by (intros a b H E; by apply append_inj_l in E).
  unfold lattice_regs, opt_reg. repeat case_bool_decide; cbn;
    repeat (apply NoDup_cons; split); try apply NoDup_nil_2;
    intros Hx; repeat (apply elem_of_cons in Hx as [Hx|Hx]; [by apply HN in Hx|]); by apply elem_of_nil in Hx.
Qed.

Lemma add_ready s szs seen sub c t l p dh dw : ready s szs seen -> heap_fresh s -> str2qtype c = Some t ->
  s_heap s !! l = Some p -> asked t p = Some (dh, dw) -> valid_size dh dw ->
  (forall i q, treg_lookup (s_tq s) i = Ok q -> lat_params (tq_lat q) <> l) ->
  exists s', add_tqubit sub c l s = (s', Ok tt) /\ ready s' (szs ++ [(t, (dh, dw))]) seen /\ heap_fresh s' /\
    (forall x, x <> l -> s_heap s !! x <> None -> s_heap s' !! x = s_heap s !! x) /\
    (forall i q, treg_lookup (s_tq s') i = Ok q -> treg_lookup (s_tq s) i = Ok q \/ lat_params (tq_lat q) = l \/ s_heap s !! lat_params (tq_lat q) = None) /\
    s_tname s' = s_tname s /\ s_instrs s' = s_instrs s /\ s_tqreg s' = s_tqreg s /\ s_tcreg s' = s_tcreg s /\
    s_n s' = s_n s + 1 /\ names s' = names s ++ (fst <$> lattice_regs (qname (s_tname s) (s_n s)) dh dw) /\
    (forall i, 0 <= i < s_n s -> treg_lookup (s_tq s') i = treg_lookup (s_tq s) i) /\
    (forall sub', sub' <> sub -> dict_get sub' (s_tq s') = dict_get sub' (s_tq s)) /\
    exists q, treg_lookup (s_tq s') (s_n s) = Ok q /\
      dict_get sub (s_tq s') = Some (dict_set (s_n s) q (default [] (dict_get sub (s_tq s)))).
Proof.
  intros Hr Hhf Ec Hp Ha Hv Hown. pose proof (rd_n _ _ _ Hr) as Hn.
  assert (HN : treg_lookup (s_tq s) (s_n s) = Err ValueError) by (apply (rd_none _ _ _ Hr); lia).
  unfold add_tqubit. erewrite mbind_ok by done.
  set (m1 := match dict_get sub (s_tq s) with None => _ | Some _ => _ end).
  assert (exists tq1 l1, m1 s = (set_tq s (s_n s) tq1, Ok tt) /\
    (forall i, treg_lookup tq1 i = treg_lookup (s_tq s) i) /\ dict_get sub tq1 = Some l1 /\
    (forall sub', sub' <> sub -> dict_get sub' tq1 = dict_get sub' (s_tq s)) /\ l1 = default [] (dict_get sub (s_tq s)))
    as (tq1 & l1 & E1 & L1 & D1 & D2 & D3).
  { unfold m1. destruct (dict_get sub (s_tq s)) as [l1|] eqn:E.
    - exists (s_tq s), l1. split; [|done]. by destruct s.
    - eexists _, []. split; [reflexivity|]. cbn. split_and!; try done.
      + intros i. by apply lookup_new_sub.
      + rewrite dict_get_set. by rewrite bool_decide_eq_true_2.
      + intros sub' Hs. rewrite dict_get_set. by rewrite bool_decide_eq_false_2. }
  erewrite mbind_ok by exact E1. clear m1 E1. rewrite Ec. cbn [key]. erewrite mbind_ok by done. fold (qname (s_tname s) (s_n s)).
  set (nm := qname (s_tname s) (s_n s)). set (s1 := set_tq s (s_n s) tq1).
  assert (Hfr : fresh_lattice s1 nm).
  { intros suf Hs Hin. change (names s1) with (names s) in Hin.
    destruct (rd_names _ _ _ Hr _ Hin) as [Hc|(j & Hj & [(suf' & Hs' & E)|(suf' & k & Hs' & Hk & E)])].
    - eapply cx_q_ne; [exact Hc|exact Hs|done].
    - apply q_suf_inj in E as [E _]; [lia|lia|lia|done|done].
    - revert E. apply qc_suf_ne; [lia|lia|done|done]. }
  destruct (new_tqubit_ok t l nm s1 p dh dw Hp Ha Hv Hfr) as (s2 & l' & E2 & [B1 B2 B3 B4 B5 B6 BA (B7 & B8 & B9 & B10 & B11)]).
  erewrite mbind_ok by exact E2. erewrite mbind_ok by done. rewrite B9. cbn [s1 set_tq s_tq]. rewrite D1. cbn [key].
  erewrite mbind_ok by done. rewrite B8. cbn [s1 set_tq s_n].
  set (q := TQubit t (the_lattice (code_of t) nm l' dh dw)) in *.
  assert (Hl' : (l' = l \/ l' = s_next s) /\ (s_next s <= s_next s2)%nat /\ (l' < s_next s2)%nat).
  { assert (l < s_next s)%nat. { destruct (decide (l < s_next s)%nat); [done|]. rewrite Hhf in Hp by lia. done. }
    destruct (params_empty p); cbn in B6; destruct B6 as [-> ->]; split; try lia; auto. }
  assert (Hne : forall i q', treg_lookup (s_tq s) i = Ok q' -> 0 <= i < s_n s -> lat_params (tq_lat q') <> l').
  { intros i q' Hq' Hi E. destruct Hl' as [[->| ->] _]; [by eapply Hown|].
    destruct (lookup_lt_is_Some_2 szs (Z.to_nat i)) as [[t' [dh' dw']] Hsz]; [lia|].
    destruct (rd_q _ _ _ Hr i t' dh' dw') as (q0 & Hq0 & _ & _ & _ & Hok & _); [lia|done|]. rewrite Hq' in Hq0. injection Hq0 as <-.
    destruct Hok as [_ _ (p0 & dl & T & a & b & Hp0 & _)]. rewrite E, Hhf in Hp0 by lia. done. }
  assert (HNM : forall s3, s_regs s3 = s_regs s2 -> names s3 = names s ++ (fst <$> lattice_regs nm dh dw)).
  { intros s3 E3. unfold names. rewrite E3, B3, fmap_app, <-list_fmap_compose. done. }
  eexists. split; [reflexivity|]. split_and!; [|..].
  - constructor; cbn [set_tq s_n s_tq s_tname].
    + intros i t' dh' dw' Hi Hsz. rewrite B7. cbn [s1 set_tq s_tname].
      erewrite lookup_add; [|exact D1|by rewrite L1]. rewrite L1. case_bool_decide as Hi'.
      * rewrite Hi', Hn, Nat2Z.id, lookup_app_r, Nat.sub_diag in Hsz by lia. injection Hsz as <- <- <-.
        exists q. split_and!; [done..|by rewrite Hi'|(eapply lat_ok_heap; [|exact B1]; reflexivity)|].
        assert (HU : forall k, uses k i seen = 0).
        { intros k. apply uses_none. intros e He. apply (rd_seen _ _ _ Hr) in He. lia. }
        rewrite !HU. eapply has_cnt_heap; [|exact B2]; reflexivity.
      * assert (Hlt : (Z.to_nat i < length szs)%nat) by (apply lookup_lt_Some in Hsz; rewrite app_length in Hsz; cbn in Hsz; lia).
        rewrite lookup_app_l in Hsz by done.
        destruct (rd_q _ _ _ Hr i t' dh' dw') as (q' & Hq' & Ht' & Hc' & Hnm' & Hok' & Hcnt'); [lia|done|].
        assert (Hh : s_heap s2 !! lat_params (tq_lat q') = s_heap s !! lat_params (tq_lat q')).
        { change (s_heap s) with (s_heap s1). apply B5. apply (Hne i); [done|lia]. }
        exists q'. split_and!; [done..|(eapply lat_ok_heap; [|exact Hok']; exact Hh)|(eapply has_cnt_heap; [|exact Hcnt']; exact Hh)].
    + intros i j q1 q2 Hi Hj. erewrite !lookup_add by (exact D1 || by rewrite L1). rewrite !L1.
      repeat case_bool_decide; intros H1 H2; try (injection H1 as <-); try (injection H2 as <-); intros E.
      * lia.
      * exfalso. eapply (Hne j); [done|lia|]. done.
      * exfalso. eapply (Hne i); [done|lia|]. done.
      * eapply (rd_sep _ _ _ Hr); try done; lia.
    + intros i Hi. erewrite lookup_add by (exact D1 || by rewrite L1). rewrite L1. rewrite bool_decide_eq_false_2 by lia.
      apply (rd_none _ _ _ Hr). lia.
    + intros x. rewrite (HNM (set_tq s2 _ _) eq_refl), elem_of_app, B7. cbn [s1 set_tq s_tname]. intros [Hx|Hx].
      * destruct (rd_names _ _ _ Hr _ Hx) as [?|(j & Hj & HH)]; [by left|right]. exists j. split; [lia|done].
      * right. apply lattice_names in Hx as (suf & Hs & ->). exists (s_n s). split; [lia|]. left. by exists suf.
    + rewrite (HNM (set_tq s2 _ _) eq_refl). apply NoDup_app. split_and!.
      * apply (rd_nodup _ _ _ Hr).
      * intros x Hx (suf & Hs & ->)%lattice_names. by apply (Hfr suf).
      * apply lattice_names_nodup.
    + rewrite app_length. cbn. lia.
    + intros e He. apply (rd_seen _ _ _ Hr) in He. lia.
  - intros x Hx. cbn in *. rewrite B5 by lia. apply Hhf. lia.
  - intros x Hx Hx'. cbn. rewrite B5; [done|]. destruct Hl' as [[->| ->] _]; [done|]. intros ->. by rewrite Hhf in Hx'.
  - intros i q'. cbn [set_tq s_tq]. erewrite lookup_add by (exact D1 || by rewrite L1). rewrite L1. case_bool_decide; [|by left].
    intros [= <-]. right. cbn [q the_lattice lat_params tq_lat]. destruct Hl' as [[->| ->] _]; [by left|right]. by apply Hhf.
  - by cbn.
  - cbn. by rewrite B4.
  - cbn. by rewrite B10.
  - cbn. by rewrite B11.
  - done.
  - by rewrite (HNM (set_tq s2 _ _) eq_refl).
  - intros i Hi. cbn [set_tq s_tq]. erewrite lookup_add by (exact D1 || by rewrite L1). by rewrite L1, bool_decide_eq_false_2 by lia.
  - intros sub' Hs. cbn [set_tq s_tq]. rewrite dict_get_set, bool_decide_eq_false_2 by done. by apply D2.
  - exists q. cbn [set_tq s_tq]. split.
    + erewrite lookup_add by (exact D1 || by rewrite L1). by rewrite bool_decide_eq_true_2.
    + rewrite dict_get_set, bool_decide_eq_true_2 by done. by rewrite D3.
Qed.

(** A request for one qubit: type name, location of its params dictionary, type, height, width. *)
Record request := Req { rq_type : string; rq_params : nat; rq_t : qtype; rq_h : Z; rq_w : Z }.
Definition request_ok (s : st) (r : request) : Prop :=
  str2qtype (rq_type r) = Some (rq_t r) /\ valid_size (rq_h r) (rq_w r) /\
  exists p, s_heap s !! rq_params r = Some p /\ asked (rq_t r) p = Some (rq_h r, rq_w r).

Lemma build_ready rs sub s szs : ready s szs [] -> heap_fresh s ->
  NoDup (rq_params <$> rs) -> Forall (request_ok s) rs ->
  (forall r i q, r ∈ rs -> treg_lookup (s_tq s) i = Ok q -> lat_params (tq_lat q) <> rq_params r) ->
  exists s', mfor (zip (rq_type <$> rs) (rq_params <$> rs)) (fun cp => add_tqubit sub cp.1 cp.2) s = (s', Ok tt) /\
    ready s' (szs ++ ((fun r => (rq_t r, (rq_h r, rq_w r))) <$> rs)) [] /\ s_tname s' = s_tname s /\ s_instrs s' = s_instrs s /\
    heap_fresh s' /\ s_tqreg s' = s_tqreg s /\ s_tcreg s' = s_tcreg s /\
    (forall x, x ∉ (rq_params <$> rs) -> s_heap s !! x <> None -> s_heap s' !! x = s_heap s !! x) /\
    (forall i q, treg_lookup (s_tq s') i = Ok q -> treg_lookup (s_tq s) i = Ok q \/ lat_params (tq_lat q) ∈ (rq_params <$> rs) \/ s_heap s !! lat_params (tq_lat q) = None) /\
    (forall x, x ∈ cx_names -> x ∉ names s -> x ∉ names s') /\
    (forall sub', sub' <> sub -> dict_get sub' (s_tq s') = dict_get sub' (s_tq s)).
Proof.
  revert s szs. induction rs as [|r rs IH]; intros s szs Hr Hhf Hnd Hok Hown.
  - exists s. cbn. rewrite app_nil_r. split_and!; try done. by left.
  - rewrite fmap_cons, NoDup_cons in Hnd. destruct Hnd as [Hni Hnd].
    apply Forall_cons in Hok as [(Ht & Hv & p & Hp & Ha) Hok].
    destruct (add_ready s szs [] sub _ _ _ p _ _ Hr Hhf Ht Hp Ha Hv) as (s1 & E1 & Hr1 & Hf1 & Hh1 & Hq1 & Hn1 & Hi1 & Hqr1 & Hcr1 & _ & HN1 & _ & Hsub1 & _).
    { intros i q. apply Hown. by left. }
    destruct (IH s1 (szs ++ [(rq_t r, (rq_h r, rq_w r))]) Hr1 Hf1 Hnd) as (s2 & E2 & Hr2 & Hn2 & Hi2 & Hf2 & Hqr2 & Hcr2 & Hh2 & Hq2 & HN2 & Hsub2).
    + apply list.Forall_forall. intros r' Hr'. rewrite list.Forall_forall in Hok. destruct (Hok r' Hr') as (? & ? & p' & Hp' & ?).
      split_and!; try done. exists p'. split; [|done]. rewrite Hh1; [done| |congruence].
      intros E. apply Hni. rewrite <-E. by apply elem_of_list_fmap_1.
    + intros r' i q Hr' Hq. destruct (Hq1 i q Hq) as [Hq'|[->|Hq']].
      * eapply Hown; [by right|done].
      * intros E. apply Hni. rewrite E. by apply elem_of_list_fmap_1.
      * intros E. rewrite list.Forall_forall in Hok. destruct (Hok r' Hr') as (? & ? & p' & Hp' & ?). congruence.
    + exists s2. cbn [fmap list_fmap zip zip_with mfor]. erewrite mbind_ok by exact E1. split_and!.
      * exact E2.
      * rewrite <-app_assoc in Hr2. exact Hr2.
      * congruence.
      * congruence.
      * done.
      * congruence.
      * congruence.
      * intros x Hx Hx'. apply not_elem_of_cons in Hx as [Hx1 Hx2]. rewrite Hh2; [by apply Hh1|done|]. by rewrite Hh1.
      * intros i q Hq. destruct (Hq2 i q Hq) as [Hq'|[Hq'|Hq']].
        -- destruct (Hq1 i q Hq') as [?|[->|?]]; [by left|right; left; by left|by right; right].
        -- right; left. by right.
        -- destruct (decide (lat_params (tq_lat q) = rq_params r)) as [->|Hne]; [right; left; by left|].
           right; right. destruct (s_heap s !! lat_params (tq_lat q)) eqn:E; [|done]. rewrite Hh1 in Hq' by congruence. congruence.
      * intros x Hx Hx'. apply HN2; [done|]. rewrite HN1. intros [?|Hin]%elem_of_app; [done|].
        apply lattice_names in Hin as (suf & Hs & E). by eapply cx_q_ne.
      * intros sub' Hs. rewrite Hsub2, Hsub1; done.
Qed.

Definition request_sizes (rs : list request) : list (qtype * (Z * Z)) := (fun r => (rq_t r, (rq_h r, rq_w r))) <$> rs.
Lemma new_treg_ready rs name s : heap_fresh s -> NoDup (rq_params <$> rs) -> Forall (request_ok s) rs ->
  exists s', new_treg name (rq_type <$> rs) (rq_params <$> rs) s = (s', Ok tt) /\
    ready s' (request_sizes rs) [] /\ s_tname s' = name /\ s_instrs s' = [] /\
    heap_fresh s' /\ s_tqreg s' = [] /\ s_tcreg s' = [] /\
    (forall x, x ∉ (rq_params <$> rs) -> s_heap s !! x <> None -> s_heap s' !! x = s_heap s !! x) /\
    (forall i q, treg_lookup (s_tq s') i = Ok q -> lat_params (tq_lat q) ∈ (rq_params <$> rs) \/ s_heap s !! lat_params (tq_lat q) = None) /\
    (forall x, x ∈ cx_names -> x ∉ names s') /\ dict_get "ancilla"%string (s_tq s') = None.
Proof.
  intros Hhf Hnd Hok. unfold new_treg. erewrite mbind_ok by done. erewrite mbind_ok by done.
  rewrite C19_accepts; [|by rewrite !fmap_length|].
  2:{ intros c (r & -> & Hr)%elem_of_list_fmap. rewrite list.Forall_forall in Hok. destruct (Hok r Hr) as [E _].
      destruct (decide (known_type (rq_type r))) as [|Hk]; [done|]. apply known_type_spec in Hk. congruence. }
  set (s1 := St _ _ _ _ _ _ _ _ _).
  destruct (build_ready rs "data" s1 []) as (s' & E & Hr & Hn & Hi & Hf & Hqr & Hcr & Hh & Hq & HN & Hsub).
  - constructor; cbn.
    + done.
    + intros i j q q' ? ?. lia.
    + done.
    + intros x Hx. by apply elem_of_nil in Hx.
    + apply NoDup_nil_2.
    + done.
    + intros e He. by apply elem_of_nil in He.
  - exact Hhf.
  - done.
  - done.
  - intros r i q _ Hq. done.
  - exists s'. split_and!; try done.
    + intros i q Hq'. destruct (Hq i q Hq') as [?|?]; [done|tauto].
    + intros x Hx. apply HN; [done|]. intros Hin. by apply elem_of_nil in Hin.
    + by rewrite Hsub.
Qed.

(** For every register of validly sized qubits with distinct params dictionaries and every
    session on it: the registers created are those of the specification, in order (so the
    k-th stabilize() of qubit i writes {name}_{i}_c{k-1}); names stay pairwise distinct; and
    a call fails only if its code and size do not support it, never because of a name. *)
Theorem C16_fresh_names rs name s l : heap_fresh s -> NoDup (rq_params <$> rs) -> Forall (request_ok s) rs ->
  (forall e, e ∈ l -> 0 <= e.1 < Z.of_nat (length rs)) ->
  exists s1, new_treg name (rq_type <$> rs) (rq_params <$> rs) s = (s1, Ok tt) /\
    names (session l s1).1 = names s1 ++ all_created name [] l /\
    NoDup (names (session l s1).1) /\
    Forall2 (fun e r => r = Ok tt \/ exists rq, rs !! Z.to_nat e.1 = Some rq /\ unsupported (rq_t rq) (rq_h rq) (rq_w rq) e.2 /\
    (r = Err ValueError \/ r = Err CircuitError))
      l (session l s1).2.
Proof.
  intros Hhf Hnd Hok Hl. destruct (new_treg_ready rs name s Hhf Hnd Hok) as (s1 & E & Hr & Hn & _). exists s1. split; [done|].
  pose proof (rd_n _ _ _ Hr) as HN. unfold request_sizes in HN. rewrite fmap_length in HN.
  destruct (session_ready l s1 _ [] Hr) as (R1 & R2 & R3).
  { intros e He. rewrite HN. by apply Hl. }
  rewrite Hn in R2. split_and!; [done|apply (rd_nodup _ _ _ R1)|].
  eapply Forall2_impl; [exact R3|]. intros e r [?|(t & dh & dw & Hs & Hu & Hrr)]; [by left|right].
  unfold request_sizes in Hs. rewrite list_lookup_fmap in Hs. destruct (rs !! Z.to_nat e.1) as [rq|] eqn:Erq; [|done].
  cbn in Hs. injection Hs as <- <- <-. by exists rq.
Qed.
Print Assumptions C16_fresh_names.

Definition ex_heap : st := St (<[ 0%nat := set_d empty_params (Some (DNum 3)) ]>
  (<[ 1%nat := set_d empty_params (Some (DTup [3; 5])) ]> {[ 2%nat := empty_params ]})) 3 [] [] "treg" 0 [] [] [].
Definition ex_rs : list request := [Req "XXZZ" 0 TXXZZ 3 3; Req "XZZX" 1 TXZZX 3 5; Req "Repetition" 2 TRepetition 3 1].
Example C16_ex : heap_fresh ex_heap /\ NoDup (rq_params <$> ex_rs) /\ Forall (request_ok ex_heap) ex_rs /\
  all_created "treg" [] [(0, OStab); (1, OStab); (0, OStab); (2, OReadZ None); (0, OLatZ)] =
    ["treg_0_c0"; "treg_1_c0"; "treg_0_c1"; "treg_2_readout_0"; "treg_0_lattice_readout_0"]%string.
Proof.
  split_and!.
  - intros x Hx. cbn in *. rewrite !lookup_insert_ne by lia. by rewrite lookup_singleton_ne by lia.
  - apply (bool_decide_unpack _). vm_compute. exact I.
  - assert (forall r, r ∈ ex_rs -> request_ok ex_heap r) as HH; [|by apply list.Forall_forall].
    intros r Hr. unfold ex_rs in Hr. rewrite !elem_of_cons in Hr. destruct Hr as [->|[->|[->|Hr]]]; [..|by apply elem_of_nil in Hr].
      all: (split; [vm_compute; reflexivity|]); (split; [unfold valid_size; cbn; done|]); eexists; (split; [vm_compute; reflexivity|]); vm_compute; reflexivity.
  - vm_compute. reflexivity.
Qed.

Example C18_ex : (additions [("data", "XXZZ", 0%nat); ("data", "BAD", 0%nat); ("ancilla", "XZZX", 1%nat)] ex_heap).2 =
  [("data", "XXZZ", 0%nat); ("ancilla", "XZZX", 1%nat)]%string.
Proof. vm_compute. reflexivity. Qed.
Example C19_ex : add_tqubits "data" ["XXZZ"; "toric"] [0%nat; 1%nat] ex_heap = (ex_heap, Err ValueError).
Proof. apply C19_rejects. right. exists "toric"%string. split; [set_solver|]. unfold known_type. naive_solver. Qed.
