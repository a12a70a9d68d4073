(** Property C65: a second TopologicalCircuit on a register that cx has been used on. *)
From Verif Require Import SpecLegal P_Legal.
From stdpp Require Export list.
Open Scope Z_scope.

(** ** A second TopologicalCircuit *)
(** [k] calls one after the other, errors caught: the last state and all results. *)
Fixpoint calls (k : nat) (m : M unit) (s : st) : st * list (res unit) :=
  match k with O => (s, []) | S k => let r := m s in let r' := calls k m r.1 in (r'.1, r.2 :: r'.2) end.
Definition own_reset (q : tqubit) (i : instr) : Prop :=
  match i with IReset x | IH x => of_reg x (lat_data (tq_lat q)) | IBarrier => True | _ => False end.
Lemma mbind_ok {A B} (m : M A) (f : A -> M B) s s' a : m s = (s', Ok a) -> mbind' m f s = f a s'.
Proof. intros E. unfold mbind'. by rewrite E. Qed.
Lemma mbind_err {A B} (m : M A) (f : A -> M B) s s' e : m s = (s', Err e) -> mbind' m f s = (s', Err e).
Proof. intros E. unfold mbind'. by rewrite E. Qed.
Lemma emit1_run f l s : l <> [] -> emit1 f l s = (set_instrs s (s_instrs s ++ (f <$> l)), Ok tt).
Proof. by destruct l. Qed.
Lemma reset_x_run q s : 1 < (lat_data (tq_lat q)).2 ->
  exists is, is <> [] /\ (forall i, i ∈ is -> own_reset q i) /\ reset_x q s = (set_instrs s (s_instrs s ++ is), Ok tt).
Proof.
  intros Hn. unfold reset_x. cbn zeta. pose proof (reg_bits_of (lat_data (tq_lat q))) as HB.
  assert (HL : length (reg_bits (lat_data (tq_lat q))) = Z.to_nat (lat_data (tq_lat q)).2).
  { unfold reg_bits, py_range. by rewrite fmap_length, seqZ_length. }
  destruct (reg_bits (lat_data (tq_lat q))) as [|a [|b l]] eqn:E; cbn in HL; [lia|lia|].
  destruct (lat_code (tq_lat q)).
  - exists ((IReset <$> a :: b :: l) ++ (IH <$> a :: b :: l) ++ [IBarrier]). split_and!; [done| |].
    + intros i. rewrite !elem_of_app. intros [H|[H| ->%elem_of_list_singleton]]; [| |done]; apply elem_of_list_fmap in H as (x & -> & Hx); by apply HB.
    + erewrite mbind_ok; [|by apply emit1_run]. erewrite mbind_ok; [|by apply emit1_run]. unfold emit, set_instrs. cbn [s_instrs]. by rewrite !(assoc_L (++)).
  - exists ((IReset <$> a :: b :: l) ++ (IH <$> odds (a :: b :: l))). split_and!; [done| |].
    + intros i. rewrite !elem_of_app. intros [H|H]; apply elem_of_list_fmap in H as (x & -> & Hx); apply HB; [done|by apply odds_sub].
    + erewrite mbind_ok; [|by apply emit1_run]. rewrite emit1_run by (cbn; by destruct l). unfold set_instrs. cbn [s_instrs]. by rewrite !(assoc_L (++)).
Qed.
Lemma creg_clash size name s : 0 <= size -> dict_get name (s_tcreg s) = None -> name ∈ (r_name <$> s_regs s) ->
  add_creg size name s = (set_tregs s (s_tqreg s) (dict_set name (name, size) (s_tcreg s)), Err CircuitError).
Proof.
  intros Hz Hd Hn. unfold add_creg. change (mbind' get_st ?f s) with (f s s). cbn beta. rewrite Hd, bool_decide_eq_false_2 by lia.
  erewrite mbind_ok; [|done]. unfold add_reg. cbn. rewrite bool_decide_eq_false_2 by lia. by rewrite bool_decide_eq_true_2.
Qed.
Lemma qreg_clash size name s : 0 <= size -> dict_get name (s_tqreg s) = None -> name ∈ (r_name <$> s_regs s) ->
  add_qreg size name s = (set_tregs s (dict_set name (name, size) (s_tqreg s)) (s_tcreg s), Err CircuitError).
Proof.
  intros Hz Hd Hn. unfold add_qreg. change (mbind' get_st ?f s) with (f s s). cbn beta. rewrite Hd, bool_decide_eq_false_2 by lia.
  erewrite mbind_ok; [|done]. unfold add_reg. cbn. rewrite bool_decide_eq_false_2 by lia. by rewrite bool_decide_eq_true_2.
Qed.
Lemma creg_there size name s h : dict_get name (s_tcreg s) = Some h -> add_creg size name s = (s, Ok tt).
Proof. intros Hd. unfold add_creg. change (mbind' get_st ?f s) with (f s s). cbn beta. by rewrite Hd. Qed.
Section second.
Context (a b : tref) (t : option string) (p : option nat) (qc qt qa : tqubit) (sub : list (Z * tqubit)).
Context (i : Z) (Htp : t = None <-> p = None).
(** What the calls see of the register. *)
Definition sees (s : st) : Prop := (get_index a s).2 = Ok qc /\ (get_index b s).2 = Ok qt /\ dict_get "ancilla"%string (s_tq s) = Some sub.
Context (Hsub : last sub = Some (i, qa)).
Lemma cx_head s : sees s -> exists k : M unit, c_cx a b t p s =
  (add_creg 1 "m1" ;;; add_creg 1 "m2" ;;; add_creg 1 "m3" ;;; reset_x qa ;;; add_qreg 1 "cnot_readout" ;;; k) s.
Proof.
  intros (Ha & Hb & Hd). unfold c_cx.
  assert (Ha' : get_index a s = (s, Ok qc)) by (destruct a as [j|q]; [change (treg_lookup (s_tq s) j = Ok qc) in Ha; cbn [get_index]; unfold treg_get; by rewrite Ha|by injection Ha as ->]).
  assert (Hb' : get_index b s = (s, Ok qt)) by (destruct b as [j|q]; [change (treg_lookup (s_tq s) j = Ok qt) in Hb; cbn [get_index]; unfold treg_get; by rewrite Hb|by injection Hb as ->]).
  erewrite mbind_ok; cycle 1. { destruct t, p; try reflexivity; destruct Htp as [H1 H2]; [by specialize (H2 eq_refl)|by specialize (H1 eq_refl)]. }
  erewrite (mbind_ok _ _ s s); cycle 1.
  { instantiate (1 := match t, p with Some c, Some l => (c, l) | _, _ => (type_name (tq_type qc), lat_params (tq_lat qc)) end).
    destruct t, p; [done|..]; by erewrite mbind_ok by exact Ha'. }
  erewrite mbind_ok by exact Ha'. erewrite mbind_ok by exact Hb'. change (mbind' get_st ?f s) with (f s s). cbn beta. rewrite Hd.
  erewrite (mbind_ok (Circ.mret tt)) by done. change (mbind' get_st ?f s) with (f s s). cbn beta. rewrite Hd.
  change (mbind' (key (Some sub)) ?f s) with (f sub s). cbn beta.
  destruct (reverse sub) as [|[j q] l] eqn:Er.
  { apply (f_equal reverse) in Er. rewrite reverse_involutive in Er. cbn in Er. by rewrite Er in Hsub. }
  assert ((j, q) = (i, qa)) as [= -> ->].
  { apply (f_equal reverse) in Er. rewrite reverse_involutive, reverse_cons in Er. rewrite Er, last_snoc in Hsub. congruence. }
  change (mbind' (Circ.mret (i, qa).2) ?f s) with (f qa s). cbn beta. eexists. reflexivity.
Qed.
(** The circuit already has the four registers of cx, but this TopologicalCircuit is new. *)
Theorem C65_second s : sees s -> 1 < (lat_data (tq_lat qa)).2 -> s_tqreg s = [] -> s_tcreg s = [] -> reserved ⊆ (r_name <$> s_regs s) ->
  (calls 4 (c_cx a b t p) s).2 = [Err CircuitError; Err CircuitError; Err CircuitError; Err CircuitError] /\
  (forall k, (k <= 3)%nat -> s_regs (calls k (c_cx a b t p) s).1 = s_regs s /\ s_instrs (calls k (c_cx a b t p) s).1 = s_instrs s) /\
  (exists is, is <> [] /\ (forall i, i ∈ is -> own_reset qa i) /\
     let s' := (calls 4 (c_cx a b t p) s).1 in
     s_regs s' = s_regs s /\ s_instrs s' = s_instrs s ++ is /\ s_tq s' = s_tq s /\
     s_tqreg s' = [("cnot_readout", ("cnot_readout", 1))]%string /\ s_tcreg s' = [("m1", ("m1", 1)); ("m2", ("m2", 1)); ("m3", ("m3", 1))]%string).
Proof.
  intros Hs Hn Hq Hc Hr. destruct (reset_x_run qa (set_tregs s [] [("m1", ("m1", 1)); ("m2", ("m2", 1)); ("m3", ("m3", 1))]%string) Hn) as (is & H0 & HI & HX).
  set (s1 := set_tregs s [] [("m1", ("m1", 1))]%string). set (s2 := set_tregs s [] [("m1", ("m1", 1)); ("m2", ("m2", 1))]%string).
  set (s3 := set_tregs s [] [("m1", ("m1", 1)); ("m2", ("m2", 1)); ("m3", ("m3", 1))]%string) in *.
  assert (HS : forall qd cd, sees (set_tregs s qd cd)) by (intros qd cd; destruct Hs as (A1 & A2 & A3); split_and!; [destruct a; exact A1|destruct b; exact A2|exact A3]).
  assert (E1 : c_cx a b t p s = (s1, Err CircuitError)).
  { destruct (cx_head s Hs) as (k & ->). erewrite mbind_err; [done|]. rewrite creg_clash; [|lia|by rewrite Hc|apply Hr; unfold reserved; repeat first [left|right]]. by rewrite Hc, Hq. }
  assert (E2 : c_cx a b t p s1 = (s2, Err CircuitError)).
  { destruct (cx_head s1 (HS _ _)) as (k & ->). erewrite mbind_ok; [|by eapply creg_there]. erewrite mbind_err; [done|].
    rewrite creg_clash; [done|lia|done|apply Hr; unfold reserved; repeat first [left|right]]. }
  assert (E3 : c_cx a b t p s2 = (s3, Err CircuitError)).
  { destruct (cx_head s2 (HS _ _)) as (k & ->). erewrite mbind_ok; [|by eapply creg_there]. erewrite mbind_ok; [|by eapply creg_there]. erewrite mbind_err; [done|].
    rewrite creg_clash; [done|lia|done|apply Hr; unfold reserved; repeat first [left|right]]. }
  assert (E4 : c_cx a b t p s3 = (set_tregs (set_instrs s3 (s_instrs s3 ++ is)) [("cnot_readout", ("cnot_readout", 1))]%string (s_tcreg s3), Err CircuitError)).
  { destruct (cx_head s3 (HS _ _)) as (k & ->). do 3 (erewrite mbind_ok; [|by eapply creg_there]). erewrite mbind_ok; [|exact HX]. erewrite mbind_err; [done|].
    rewrite qreg_clash; [done|lia|done|apply Hr; unfold reserved; repeat first [left|right]]. }
  split_and!.
  - cbn [calls fst snd]. rewrite E1. cbn [fst snd]. rewrite E2. cbn [fst snd]. rewrite E3. cbn [fst snd]. by rewrite E4.
  - intros k Hk. destruct k as [|[|[|[|k]]]]; [done| | | |lia]; cbn [calls fst snd]; rewrite ?E1; cbn [fst snd]; rewrite ?E2; cbn [fst snd]; rewrite ?E3; done.
  - exists is. split; [done|]. split; [done|]. cbn zeta. cbn [calls fst snd]. rewrite E1. cbn [fst snd]. rewrite E2. cbn [fst snd]. rewrite E3. cbn [fst snd]. by rewrite E4.
Qed.
End second.
Print Assumptions C65_second.
(** After a cx through one circuit, a second one on the register: the fifth call works. *)
Definition ex_first : st :=
  (mbind' (new_params empty_params) (fun l0 => mbind' (new_params empty_params) (fun l1 =>
   new_treg "treg" ["XXZZ"; "XXZZ"]%string [l0; l1] ;;; c_cx (ByIdx 0) (ByIdx 1) None None)) st0).1.
Example C65_ex : exists qc qt qa sub i, let s := set_tregs ex_first [] [] in
  sees (ByIdx 0) (ByIdx 1) qc qt sub s /\ last sub = Some (i, qa) /\ 1 < (lat_data (tq_lat qa)).2 /\ reserved ⊆ (r_name <$> s_regs s) /\
  last (calls 5 (c_cx (ByIdx 0) (ByIdx 1) None None) s).2 = Some (Ok tt).
Proof.
  do 5 eexists. cbn zeta. split_and!; [split_and!; vm_compute; reflexivity|vm_compute; reflexivity|by vm_compute| |by vm_compute].
  intros n Hn. unfold reserved in Hn. rewrite !elem_of_cons, elem_of_nil in Hn.
  assert (H : forallb (fun n => bool_decide (n ∈ (r_name <$> s_regs (set_tregs ex_first [] [])))) reserved = true) by (vm_compute; reflexivity).
  cbn in H. rewrite !andb_true_iff, !bool_decide_eq_true in H. destruct H as (H1 & H2 & H3 & H4 & _). destruct Hn as [->|[->|[->|[->|[]]]]]; done.
Qed.
