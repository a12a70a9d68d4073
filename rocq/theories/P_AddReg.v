(** add_creg and add_qreg with every combination of a name, no name and override (C70).
    Model: TReg.v (qtcodes/circuits/circ.py:128-140). *)
From Verif Require Import SpecAddReg Names P_Hist.
From stdpp Require Export list.
Open Scope Z_scope.

Lemma effs_snoc seen l w : effs seen (l ++ [w]) = effs seen l ++ (if effective (seen ++ l) w then [w] else []).
Proof.
  revert seen. induction l as [|v l IHl]; intros seen; cbn [app effs]; [by rewrite !app_nil_r|]. rewrite IHl, <-!app_assoc. done.
Qed.
Lemma acts_snoc c0 q0 seen l w : acts c0 q0 seen (l ++ [w]) = acts c0 q0 seen l ++
  (if effective (seen ++ l) w then [(w_name w, Reg (w_q w) (reg_name c0 q0 (seen ++ l) w) (w_size w))] else []).
Proof.
  revert seen. induction l as [|v l IHl]; intros seen; cbn [app acts]; [by rewrite !app_nil_r|]. rewrite IHl, <-!app_assoc. done.
Qed.
Lemma firsts_snoc used l r : firsts used (l ++ [r]) = firsts used l ++ (if bool_decide (r_name r ∈ used ++ (r_name <$> l)) then [] else [r]).
Proof.
  revert used. induction l as [|v l IHl]; intros used; cbn [app firsts fmap list_fmap].
  - rewrite app_nil_r. by case_bool_decide.
  - destruct (bool_decide_reflect (r_name v ∈ used)) as [Hv|Hv]; rewrite IHl.
    + f_equal. assert (bool_decide (r_name r ∈ used ++ (r_name <$> l)) = bool_decide (r_name r ∈ used ++ r_name v :: (r_name <$> l))) as -> by (apply bool_decide_ext; rewrite !elem_of_app, elem_of_cons; split; [tauto|]; intros [H|[H|H]]; [by left|left; by rewrite H|by right]). done.
    + cbn [app]. f_equal. f_equal. by rewrite <-app_assoc.
Qed.
Lemma firsts_names used l x : x ∈ used ++ (r_name <$> firsts used l) <-> x ∈ used ++ (r_name <$> l).
Proof.
  revert used. induction l as [|v l IHl]; intros used; cbn [firsts fmap list_fmap]; [done|].
  destruct (bool_decide_reflect (r_name v ∈ used)) as [Hv|Hv].
  - rewrite IHl, !elem_of_app, elem_of_cons. split; [tauto|]. intros [H|[H|H]]; [by left|left; by rewrite H|by right].
  - cbn [fmap list_fmap]. specialize (IHl (used ++ [r_name v])). rewrite <-!app_assoc in IHl. exact IHl.
Qed.
Lemma newest_snoc q k l a : newest q k (l ++ [a]) = if bool_decide (a.1 = k /\ r_quantum a.2 = q) then Some (r_name a.2, r_size a.2) else newest q k l.
Proof.
  unfold newest. rewrite filter_app. cbn. case_decide; case_bool_decide; try done; [by rewrite last_snoc|by rewrite app_nil_r].
Qed.

(** The state after the calls [seen]. *)
Record after (u0 u : ust) (seen : list want) : Prop := {
  af_entry : forall q k, u_entry q k u = newest q k (acts (u_next_c u0) (u_next_q u0) [] seen);
  af_regs : s_regs (u_st u) = s_regs (u_st u0) ++ firsts (names (u_st u0)) ((acts (u_next_c u0) (u_next_q u0) [] seen).*2);
  af_c : u_next_c u = u_next_c u0 + Z.of_nat (length (filter (fun v => w_q v = false /\ w_name v = None) (effs [] seen)));
  af_q : u_next_q u = u_next_q u0 + Z.of_nat (length (filter (fun v => w_q v = true /\ w_name v = None) (effs [] seen)));
  af_known : forall w, key_known seen w = bool_decide (is_Some (u_entry (w_q w) (w_name w) u)) }.
Lemma entry_set q k h u q' k' : u_entry q' k' (u_set q k h u) = if bool_decide (k = k' /\ q = q') then Some h else u_entry q' k' u.
Proof.
  destruct k as [x|], q, k' as [x'|], q'; cbn; rewrite ?dict_get_set; repeat case_bool_decide; naive_solver.
Qed.
Lemma count_snoc (P : want -> Prop) `{forall v, Decision (P v)} l (b : bool) w :
  Z.of_nat (length (filter P (l ++ (if b then [w] else [])))) = Z.of_nat (length (filter P l)) + (if b && bool_decide (P w) then 1 else 0).
Proof.
  rewrite filter_app, app_length, Nat2Z.inj_add. f_equal. destruct b; [|done]. cbn. case_decide; by case_bool_decide.
Qed.
Lemma known_snoc seen v w : key_known (seen ++ [v]) w = key_known seen w || (same_key w v && bool_decide (0 <= w_size v)).
Proof. unfold key_known. rewrite existsb_app. cbn. by rewrite orb_false_r. Qed.
Lemma same_key_sym w v : same_key w v = bool_decide (w_name v = w_name w /\ w_q v = w_q w).
Proof. apply bool_decide_ext. naive_solver. Qed.

Lemma add_step u0 u seen w : after u0 u seen ->
  after u0 (u_add w u).1 (seen ++ [w]) /\ (u_add w u).2 = answer (u_next_c u0) (u_next_q u0) (names (u_st u0)) seen w.
Proof.
  intros HA. set (c0 := u_next_c u0) in *. set (q0 := u_next_q u0) in *.
  pose proof (af_known _ _ _ HA w) as HK.
  (* calls that change nothing *)
  assert (HQ : effective seen w = false -> (0 <= w_size w -> key_known seen w = true) -> after u0 u (seen ++ [w])).
  { intros He Hs. destruct HA as [A1 A2 A3 A4 A5]. constructor; rewrite ?acts_snoc, ?effs_snoc; cbn [app]; rewrite ?He, ?app_nil_r; try done.
    intros v. rewrite known_snoc, A5. destruct (bool_decide_reflect (0 <= w_size w)) as [Hp|Hp]; [|by rewrite andb_false_r, orb_false_r].
    rewrite andb_true_r. unfold same_key. destruct (bool_decide_reflect (w_q v = w_q w /\ w_name v = w_name w)) as [[E1 E2]|]; [|by rewrite orb_false_r].
    rewrite E1, E2. rewrite <-HK, (Hs Hp). done. }
  destruct (effective seen w) eqn:He.
  2:{ clear HA. unfold answer. rewrite He. unfold u_add. unfold effective in He.
      destruct (u_entry (w_q w) (w_name w) u) as [h|] eqn:Eu.
      - rewrite (bool_decide_eq_true_2 (is_Some (Some h))) in HK by done. rewrite HK in *. destruct (w_over w); cbn [negb orb andb] in *.
        + rewrite andb_true_r in He. rewrite bool_decide_eq_false in He. rewrite (bool_decide_eq_true_2 (w_size w < 0)) by lia. cbn [fst snd].
          split; [by apply HQ|]. rewrite bool_decide_eq_false_2 by done. done.
        + cbn [fst snd]. split; [by apply HQ|]. by rewrite orb_true_r.
      - rewrite (bool_decide_eq_false_2 (is_Some None)) in HK by (by intros [? ?]). rewrite HK in *. cbn [negb] in He. rewrite orb_true_r, andb_true_r in He. rewrite bool_decide_eq_false in He.
        assert (E : bool_decide (w_size w < 0) = true) by (apply bool_decide_eq_true; lia). rewrite E.
        rewrite (bool_decide_eq_false_2 (0 <= w_size w)) by done. destruct (w_over w); cbn [fst snd]; (split; [apply HQ; [done|lia]|done]). }
  clear HQ. unfold effective in He. apply andb_true_iff in He as He'. destruct He' as [Hs Ho]. rewrite bool_decide_eq_true in Hs.
  set (x := reg_name c0 q0 seen w).
  assert (HN : (u_name (w_q w) (w_name w) u).2 = x).
  { unfold x, reg_name. destruct (w_name w) as [y|]; [by destruct (w_q w)|]. destruct (w_q w); cbn; do 2 f_equal; [apply (af_q _ _ _ HA)|apply (af_c _ _ _ HA)]. }
  set (u1 := (u_name (w_q w) (w_name w) u).1). set (u2 := u_set (w_q w) (w_name w) (x, w_size w) u1).
  assert (HU : u_add w u = let r := add_reg (Reg (w_q w) x (w_size w)) (u_st u2) in (USt r.1 (u_none_c u2) (u_none_q u2) (u_next_c u2) (u_next_q u2), r.2)).
  { unfold u_add. assert (bool_decide (w_size w < 0) = false) as -> by (apply bool_decide_eq_false; lia).
    assert (Hn : forall h, u_entry (w_q w) (w_name w) u = Some h -> w_over w = true).
    { intros h Eh. rewrite Eh in HK. rewrite (bool_decide_eq_true_2 (is_Some (Some h))) in HK by done. rewrite HK in Ho. by rewrite orb_false_r in Ho. }
    unfold u2, u1. destruct (u_name (w_q w) (w_name w) u) as [u1' x'] eqn:E. cbn [snd] in HN. subst x'.
    destruct (u_entry (w_q w) (w_name w) u) as [h|]; [|done]. by rewrite (Hn h). }
  assert (H1s : u_st u1 = u_st u). { unfold u1. by destruct (w_name w), (w_q w). }
  assert (H1e : forall q k, u_entry q k u1 = u_entry q k u). { intros q k. unfold u1. by destruct (w_name w), (w_q w), k, q. }
  assert (H2r : s_regs (u_st u2) = s_regs (u_st u)). { unfold u2. rewrite <-H1s. by destruct (w_name w), (w_q w). }
  assert (H2c : u_next_c u2 = u_next_c u + (if bool_decide (w_q w = false /\ w_name w = None) then 1 else 0)).
  { unfold u2, u1. destruct (w_name w), (w_q w); cbn; repeat case_bool_decide; naive_solver lia. }
  assert (H2q : u_next_q u2 = u_next_q u + (if bool_decide (w_q w = true /\ w_name w = None) then 1 else 0)).
  { unfold u2, u1. destruct (w_name w), (w_q w); cbn; repeat case_bool_decide; naive_solver lia. }
  set (r := Reg (w_q w) x (w_size w)) in *.
  assert (HR : add_reg r (u_st u2) = if bool_decide (x ∈ names (u_st u)) then (u_st u2, Err CircuitError) else (set_regs (u_st u2) (s_regs (u_st u2) ++ [r]), Ok tt)).
  { unfold add_reg, names. cbn [r r_size r_name]. rewrite (bool_decide_eq_false_2 (w_size w < 0)) by lia. by rewrite H2r. }
  assert (HX : x ∈ names (u_st u) <-> x ∈ names (u_st u0) ++ ((fun a => r_name a.2) <$> acts c0 q0 [] seen)).
  { unfold names. rewrite (af_regs _ _ _ HA), fmap_app. fold (names (u_st u0)). rewrite firsts_names. by rewrite <-list_fmap_compose. }
  assert (HE : effective seen w = true) by exact He.
  rewrite HU. cbn zeta. cbn [fst snd]. split.
  - constructor.
    + intros q k. rewrite acts_snoc. cbn [app]. rewrite HE. fold x r. rewrite newest_snoc. cbn [fst snd r r_quantum r_name r_size].
      rewrite <-(af_entry _ _ _ HA q k). fold c0 q0. transitivity (u_entry q k u2); [|unfold u2; by rewrite entry_set, H1e].
      rewrite HR. destruct (bool_decide (x ∈ names (u_st u))); cbn [fst]; destruct k as [y|], q; done.
    + rewrite acts_snoc. cbn [app]. rewrite HE. fold x r c0 q0. rewrite fmap_app. cbn [fmap list_fmap snd]. rewrite firsts_snoc, <-list_fmap_compose. cbn [r r_name]. pose proof (af_regs _ _ _ HA) as AR. fold c0 q0 in AR. rewrite app_assoc, <-AR.
      rewrite HR. cbn [u_st]. destruct (bool_decide_reflect (x ∈ names (u_st u))) as [Hx|Hx].
      * rewrite bool_decide_eq_true_2 by (by apply HX). cbn [fst]. by rewrite app_nil_r.
      * rewrite bool_decide_eq_false_2 by (intros Hx'; by apply Hx, HX). cbn [fst]. cbn. by rewrite H2r.
    + cbn [u_next_c]. rewrite effs_snoc. cbn [app]. rewrite count_snoc, HE, H2c, (af_c _ _ _ HA). cbn [andb]. lia.
    + cbn [u_next_q]. rewrite effs_snoc. cbn [app]. rewrite count_snoc, HE, H2q, (af_q _ _ _ HA). cbn [andb]. lia.
    + intros v. rewrite known_snoc, (af_known _ _ _ HA v). rewrite (bool_decide_eq_true_2 (0 <= w_size w)) by done. rewrite andb_true_r, same_key_sym.
      transitivity (bool_decide (is_Some (u_entry (w_q v) (w_name v) u2))).
      * unfold u2. rewrite entry_set, H1e. destruct (bool_decide (w_name w = w_name v /\ w_q w = w_q v)); [|by rewrite orb_false_r]. rewrite orb_true_r. symmetry. by apply bool_decide_eq_true.
      * rewrite HR. destruct (bool_decide (x ∈ names (u_st u))); cbn [fst]; destruct (w_name v) as [y|], (w_q v); done.
  - unfold answer. rewrite HE. fold x. rewrite HR. destruct (bool_decide_reflect (x ∈ names (u_st u))) as [Hx|Hx].
    + by rewrite bool_decide_eq_true_2 by (by apply HX).
    + by rewrite bool_decide_eq_false_2 by (intros Hx'; by apply Hx, HX).
Qed.

(** Any calls, one after the other, on a new circuit over any register. *)
Lemma adds_snoc l w u : (u_adds (l ++ [w]) u).1 = (u_add w (u_adds l u).1).1.
Proof. revert u. induction l as [|v l IHl]; intros u; cbn; [done|]. apply IHl. Qed.
Lemma acts_key c0 q0 l : forall seen a x, a ∈ acts c0 q0 seen l -> a.1 = Some x -> r_name a.2 = x.
Proof.
  induction l as [|w l IHl]; intros seen a x; cbn [acts]; [by intros ?%elem_of_nil|]. intros [Ha|Ha]%elem_of_app; [|by eapply IHl].
  destruct (effective seen w); [|by apply elem_of_nil in Ha]. apply elem_of_list_singleton in Ha as ->. cbn. unfold reg_name. by intros ->.
Qed.
Definition new_circuit (u : ust) : Prop := s_tqreg (u_st u) = [] /\ s_tcreg (u_st u) = [] /\ u_none_c u = None /\ u_none_q u = None.
Lemma adds_after u0 : forall l u seen, after u0 u seen -> after u0 (u_adds l u).1 (seen ++ l) /\
  forall i w r, l !! i = Some w -> (u_adds l u).2 !! i = Some r -> r = answer (u_next_c u0) (u_next_q u0) (names (u_st u0)) (seen ++ take i l) w.
Proof.
  induction l as [|w l IHl]; intros u seen HA; cbn [u_adds fst snd]; [by rewrite app_nil_r|].
  destruct (add_step u0 u seen w HA) as [HA1 HW]. destruct (IHl _ _ HA1) as [HA2 HL]. rewrite <-app_assoc in HA2. split; [exact HA2|].
  intros [|i] v r Hv Hr; cbn in Hv, Hr.
  - injection Hv as <-. injection Hr as <-. by rewrite take_0, app_nil_r.
  - cbn [take]. rewrite (HL i v r Hv Hr). by rewrite <-app_assoc.
Qed.
Lemma new_after u : new_circuit u -> after u u [].
Proof.
  intros (E1 & E2 & E3 & E4). constructor; cbn [acts effs]; rewrite ?app_nil_r; try (cbn; lia).
  - intros q [x|]; cbn; [|by destruct q]. destruct q; [by rewrite E1|by rewrite E2].
  - cbn. by rewrite ?app_nil_r.
  - intros w. cbn. symmetry. apply bool_decide_eq_false. destruct (w_name w), (w_q w); cbn; rewrite ?E1, ?E2, ?E3, ?E4; by intros [? ?].
Qed.
Theorem C70_registers u l : new_circuit u ->
  let made := acts (u_next_c u) (u_next_q u) [] l in
  let r := u_adds l u in
  s_regs (u_st r.1) = s_regs (u_st u) ++ firsts (names (u_st u)) (made.*2) /\
  (forall q k, u_entry q k r.1 = newest q k made) /\ length r.2 = length l /\
  forall i w x, l !! i = Some w -> r.2 !! i = Some x -> x = answer (u_next_c u) (u_next_q u) (names (u_st u)) (take i l) w.
Proof.
  intros HN. cbn zeta. pose proof (new_after u HN) as H0.
  destruct (adds_after u l u [] H0) as [HA HL]. split_and!; [apply HA|apply HA| |exact HL].
  clear. revert u. induction l as [|w l IHl]; intros u; [done|]. cbn. by rewrite IHl.
Qed.
Print Assumptions C70_registers.

(** What a user sees of it. *)
(** Overriding never changes the circuit: once a call with this name was carried out, a call
    with override raises CircuitError, whatever the size, and yet circuit.creg[name] is from
    then on a register of the requested size, which is not in the circuit unless it equals the old one. *)
Theorem C70_override u l q x n n' : new_circuit u -> Want q (Some x) n false ∈ l -> 0 <= n -> 0 <= n' ->
  let s := (u_adds l u).1 in
  let r := u_add (Want q (Some x) n' true) s in
  r.2 = Err CircuitError /\ s_regs (u_st r.1) = s_regs (u_st s) /\ u_entry q (Some x) r.1 = Some (x, n').
Proof.
  intros HN Hin Hn Hn'. cbn zeta. set (w := Want q (Some x) n' true). pose proof (new_after u HN) as H0.
  destruct (adds_after u l u [] H0) as [HA _]. cbn [app] in HA. destruct (add_step _ _ _ w HA) as [HA' HR].
  assert (HK : key_known l w = true).
  { unfold key_known. apply existsb_exists. exists (Want q (Some x) n false). split; [by apply elem_of_list_In|]. unfold same_key. cbn. by rewrite !bool_decide_eq_true_2. }
  assert (HE : effective l w = true). { unfold effective. cbn. by rewrite bool_decide_eq_true_2. }
  assert (HX : x ∈ names (u_st u) ++ ((fun a => r_name a.2) <$> acts (u_next_c u) (u_next_q u) [] l)).
  { pose proof HK as HK'. rewrite (af_known _ _ _ HA w), bool_decide_eq_true in HK'. rewrite (af_entry _ _ _ HA) in HK'. destruct HK' as [h Hh]. unfold newest in Hh.
    apply fmap_Some in Hh as (a & Ha & _). apply last_Some_elem_of in Ha. apply elem_of_list_filter in Ha as [[Hk _] Ha]. apply elem_of_app. right. apply elem_of_list_fmap.
    exists a. split; [|done]. symmetry. by eapply acts_key. }
  split; [|split].
  - rewrite HR. unfold answer. rewrite HE. cbn [w reg_name w_name]. by rewrite bool_decide_eq_true_2.
  - rewrite (af_regs _ _ _ HA'), (af_regs _ _ _ HA), acts_snoc. cbn [app]. rewrite HE, fmap_app. cbn [fmap list_fmap snd]. rewrite firsts_snoc. rewrite <-list_fmap_compose.
    rewrite bool_decide_eq_true_2 by exact HX. by rewrite app_nil_r.
  - rewrite (af_entry _ _ _ HA'), acts_snoc. cbn [app]. rewrite HE, newest_snoc. cbn. by rewrite bool_decide_eq_true_2.
Qed.
Print Assumptions C70_override.
(** Without override only the first call of a key does anything, also for calls without a name:
    the second unnamed register is never made, whatever its size, and the call returns normally. *)
Theorem C70_repeat u l w v : new_circuit u -> v ∈ l -> same_key w v = true -> 0 <= w_size v -> w_over w = false ->
  u_add w (u_adds l u).1 = ((u_adds l u).1, Ok tt).
Proof.
  intros HN Hin Hk Hv Ho. destruct (adds_after u l u [] (new_after u HN)) as [HA _]. cbn [app] in HA.
  assert (HK : key_known l w = true).
  { unfold key_known. apply existsb_exists. exists v. split; [by apply elem_of_list_In|]. by rewrite Hk, bool_decide_eq_true_2. }
  rewrite (af_known _ _ _ HA w), bool_decide_eq_true in HK. destruct HK as [h Hh]. unfold u_add. by rewrite Hh, Ho.
Qed.
Print Assumptions C70_repeat.
(** A made-up name that is already taken: the call raises, and after it unnamed calls without
    override do nothing. *)
Theorem C70_unnamed_clash u l q n : new_circuit u -> key_known l (Want q None n false) = false -> 0 <= n ->
  (if q then "q" +:+ py_str (u_next_q u) else "c" +:+ py_str (u_next_c u))%string ∈ names (u_st u) ->
  let r := u_add (Want q None n false) (u_adds l u).1 in
  r.2 = Err CircuitError /\ s_regs (u_st r.1) = s_regs (u_st (u_adds l u).1) /\
  forall n', u_add (Want q None n' false) r.1 = (r.1, Ok tt).
Proof.
  intros HN HK Hn Hx. cbn zeta. set (w := Want q None n false) in *. destruct (adds_after u l u [] (new_after u HN)) as [HA _]. cbn [app] in HA.
  destruct (add_step _ _ _ w HA) as [HA' HR].
  assert (HE : effective l w = true). { unfold effective. rewrite HK. cbn. by rewrite bool_decide_eq_true_2. }
  assert (HC : length (filter (fun v => w_q v = w_q w /\ w_name v = None) (effs [] l)) = 0%nat).
  { enough (HF : filter (fun v => w_q v = w_q w /\ w_name v = None) (effs [] l) = []) by (by rewrite HF).
    assert (HG : forall seen v, v ∈ effs seen l -> v ∈ l /\ 0 <= w_size v).
    { clear. induction l as [|y l IHl]; intros seen v; cbn [effs]; [by intros ?%elem_of_nil|]. intros [H|H]%elem_of_app.
      - destruct (effective seen y) eqn:E; [|by apply elem_of_nil in H]. apply elem_of_list_singleton in H as ->. split; [by left|]. unfold effective in E. apply andb_true_iff in E as [E _]. by rewrite bool_decide_eq_true in E.
      - apply IHl in H as [? ?]. split; [by right|done]. }
    destruct (filter _ _) as [|v m] eqn:EF; [done|]. exfalso. assert (Hv : v ∈ filter (fun v => w_q v = w_q w /\ w_name v = None) (effs [] l)) by (rewrite EF; by left).
    apply elem_of_list_filter in Hv as [[H1 H2] H3]. apply HG in H3 as [H3 H4]. assert (key_known l w = true); [|congruence].
    unfold key_known. apply existsb_exists. exists v. split; [by apply elem_of_list_In|]. unfold same_key. cbn. rewrite !bool_decide_eq_true_2; done. }
  assert (HW : reg_name (u_next_c u) (u_next_q u) l w ∈ names (u_st u)).
  { unfold reg_name. rewrite HC, !Z.add_0_r. cbn. by destruct q. }
  split; [|split].
  - rewrite HR. unfold answer. rewrite HE, bool_decide_eq_true_2; [done|]. apply elem_of_app. by left.
  - rewrite (af_regs _ _ _ HA'), (af_regs _ _ _ HA), acts_snoc. cbn [app]. rewrite HE, fmap_app. cbn [fmap list_fmap snd]. rewrite firsts_snoc.
    rewrite bool_decide_eq_true_2 by (apply elem_of_app; left; exact HW). by rewrite app_nil_r.
  - intros n'. unfold u_add at 1. cbn [w_q w_name w_over]. rewrite (af_entry _ _ _ HA'), acts_snoc. cbn [app]. rewrite HE, newest_snoc. cbn [fst snd w w_name r_quantum w_q]. rewrite bool_decide_eq_true_2 by done. done.
Qed.
Print Assumptions C70_unnamed_clash.
(** Named calls without override are the ones modelled in TCirc. *)
Theorem C70_same q x n u :
  let r := u_add (Want q (Some x) n false) u in
  (u_st r.1, r.2) = (if q then add_qreg n x else add_creg n x) (u_st u) /\
  u_none_c r.1 = u_none_c u /\ u_none_q r.1 = u_none_q u.
Proof.
  cbn zeta. unfold u_add, add_qreg, add_creg, mbind', get_st. cbn [w_q w_name w_over w_size u_entry].
  destruct q; (destruct (dict_get x _); [done|]); (destruct (bool_decide (n < 0)); [done|]); cbn; unfold add_reg; by repeat case_bool_decide.
Qed.
Print Assumptions C70_same.

(** ** Examples *)
Definition ex_u : ust := USt (St ∅ 0 [Reg true "t_0_data" 9; Reg false "c5" 1] [] "t" 0 [] [] []) None None 4 0.
Lemma ex_new : new_circuit ex_u. Proof. done. Qed.
(** Unnamed c4; again, ignored; named "m" of 1 bit; again with 3 bits, ignored; overridden, which
    fails but replaces the entry; unnamed with override: "c5" is taken, which fails and replaces
    the entry; a quantum register "m": the name is taken. *)
Definition ex_calls : list want :=
  [Want false None 2 false; Want false None 7 false; Want false (Some "m") 1 false; Want false (Some "m") 3 false; Want false (Some "m") 3 true;
   Want false None 1 true; Want true (Some "m") 2 false; Want true (Some "a") (-1) false; Want true (Some "a") 1 false]%string.
Example C70_ex :
  (u_adds ex_calls ex_u).2 = [Ok tt; Ok tt; Ok tt; Ok tt; Err CircuitError; Err CircuitError; Err CircuitError; Err CircuitError; Ok tt] /\
  s_regs (u_st (u_adds ex_calls ex_u).1) = [Reg true "t_0_data" 9; Reg false "c5" 1; Reg false "c4" 2; Reg false "m" 1; Reg true "a" 1]%string /\
  u_entry false (Some "m"%string) (u_adds ex_calls ex_u).1 = Some ("m"%string, 3) /\ u_entry false None (u_adds ex_calls ex_u).1 = Some ("c5"%string, 1) /\
  u_entry true (Some "m"%string) (u_adds ex_calls ex_u).1 = Some ("m"%string, 2).
Proof. vm_compute. done. Qed.
Example C70_ex_override : Want false (Some "m"%string) 1 false ∈ ex_calls.
Proof. unfold ex_calls. do 2 apply elem_of_list_further. apply elem_of_list_here. Qed.
Example C70_ex_clash : let u := USt (u_st ex_u) None None 5 0 in new_circuit u /\ key_known [] (Want false None 1 false) = false /\
  ("c" +:+ py_str (u_next_c u))%string ∈ names (u_st u).
Proof. cbn zeta. split; [done|]. split; [done|]. apply elem_of_list_further. apply elem_of_list_here. Qed.
