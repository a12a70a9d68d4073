(** Sessions mixing ordinary calls and TopologicalCircuit.cx: an invariant that survives the
    sharing of the control's params dictionary by a default ancilla (circ.py:262-273). *)
From Coq Require Import Ascii.
From Verif Require Export Cx.
From stdpp Require Export list.
Open Scope Z_scope.

(** ** Calls on a qubit never change the size fields of a dictionary *)
Definition keeps {A} (m : M A) : Prop := forall s l p, s_heap s !! l = Some p ->
  exists p', s_heap (m s).1 !! l = Some p' /\ d_of p' = d_of p /\ pfp_of p' = pfp_of p.
Lemma keeps_bind {A B} (m : M A) (f : A -> M B) : keeps m -> (forall a, keeps (f a)) -> keeps (mbind' m f).
Proof.
  intros Hm Hf s l p Hp. destruct (Hm s l p Hp) as (p1 & H1 & D1 & F1). unfold mbind'. destruct (m s) as [s1 [a|e]]; cbn in H1.
  - destruct (Hf a s1 l p1 H1) as (p2 & H2 & D2 & F2). exists p2. split_and!; congruence.
  - by exists p1.
Qed.
Lemma keeps_pure {A} (m : M A) : (forall s, s_heap (m s).1 = s_heap s) -> keeps m.
Proof. intros H s l p Hp. exists p. by rewrite H. Qed.
Lemma keeps_mfor {A} (l : list A) f : (forall x, keeps (f x)) -> keeps (mfor l f).
Proof. intros Hf. induction l as [|x l IH]; cbn [mfor]; [by apply keeps_pure|]. by apply keeps_bind. Qed.
Lemma keeps_read {A} l (f : params -> M A) :
  (forall p s, s_heap s !! l = Some p -> forall l' p1, s_heap s !! l' = Some p1 ->
     exists p', s_heap (f p s).1 !! l' = Some p' /\ d_of p' = d_of p1 /\ pfp_of p' = pfp_of p1) ->
  keeps (mbind' (get_params l) f).
Proof.
  intros Hf s l' p1 Hp1. unfold mbind', get_params. destruct (s_heap s !! l) as [p|] eqn:E; [by apply Hf|]. by exists p1.
Qed.
Lemma keeps_put {A} l p p0 s (k : M A) : s_heap s !! l = Some p0 -> d_of p = d_of p0 -> pfp_of p = pfp_of p0 -> keeps k ->
  forall l' p1, s_heap s !! l' = Some p1 ->
     exists p', s_heap ((put_params l p ;;; k) s).1 !! l' = Some p' /\ d_of p' = d_of p1 /\ pfp_of p' = pfp_of p1.
Proof.
  intros H0 Hd Hf Hk l' p1 Hp1. unfold mbind', put_params.
  destruct (decide (l' = l)) as [->|Hne].
  - rewrite H0 in Hp1. injection Hp1 as <-. destruct (Hk (set_heap s (<[l:=p]> (s_heap s))) l p) as (p2 & H2 & D2 & F2); [apply lookup_insert|].
    exists p2. split_and!; congruence.
  - apply Hk. cbn. by rewrite lookup_insert_ne.
Qed.
Lemma keeps_get {A} l (f : params -> M A) : (forall p, keeps (f p)) -> keeps (mbind' (get_params l) f).
Proof. intros H. apply keeps_bind; [|done]. apply keeps_pure. intros s. unfold get_params. by destruct (s_heap s !! l). Qed.
Lemma keeps_key {A B} (o : option A) (f : A -> M B) : (forall a, keeps (f a)) -> keeps (mbind' (key o) f).
Proof. intros H. apply keeps_bind; [|done]. apply keeps_pure. by destruct o. Qed.
Lemma keeps_lift {A B} (o : res A) (f : A -> M B) : (forall a, keeps (f a)) -> keeps (mbind' (mlift o) f).
Proof. intros H. apply keeps_bind; [|done]. by apply keeps_pure. Qed.
Lemma keeps_emit l : keeps (emit l). Proof. by apply keeps_pure. Qed.
Lemma keeps_emit1 f l : keeps (emit1 f l). Proof. apply keeps_pure. by destruct l. Qed.
Lemma keeps_ret {A} (a : A) : keeps (Circ.mret a). Proof. by apply keeps_pure. Qed.
Lemma keeps_reg r : keeps (add_reg r).
Proof. apply keeps_pure. intros s. unfold add_reg. by repeat case_bool_decide. Qed.
Lemma keeps_raise {A} e : keeps (mraise e : M A). Proof. by apply keeps_pure. Qed.
Ltac kp := repeat first
  [ apply keeps_ret | apply keeps_raise | apply keeps_emit | apply keeps_emit1 | apply keeps_reg
  | apply keeps_get; intros ? | apply keeps_key; intros ? | apply keeps_lift; intros ?
  | apply keeps_mfor; intros ? | apply keeps_bind; [|intros ?]
  | progress unfold emit_meas | match goal with |- keeps (match ?b with _ => _ end) => destruct b end ].
Lemma keeps_col q : keeps (col_idx q). Proof. unfold col_idx, get_dim. kp; by apply keeps_pure. Qed.
Lemma keeps_row q : keeps (row_idx q). Proof. unfold row_idx, get_dim. kp; by apply keeps_pure. Qed.
Ltac kq := repeat first [ apply keeps_ret | apply keeps_emit | apply keeps_emit1 | apply keeps_col | apply keeps_row | apply keeps_lift; intros ? | apply keeps_mfor; intros ?
  | apply keeps_bind; [|intros ?]].
Lemma keeps_rr q r : keeps (readout_register q r).
Proof.
  assert (HF : keeps (let* p := get_params (lat_params (tq_lat q)) in
     let* n := key (num_readout_of p) in
     put_params (lat_params (tq_lat q)) (upd_num_readout p (n + 1)) ;;;
     let h := ((lat_name (tq_lat q) +:+ "_readout_" +:+ py_str (n + 1))%string, 1) in
     add_reg (Reg false h.1 h.2) ;;; Circ.mret h)).
  { apply keeps_read. intros p s Hp. destruct (num_readout_of p); cbn [key].
    - eapply (keeps_put _ _ p); try done. kp.
    - intros l' p1 Hp1. by exists p1. }
  unfold readout_register. destruct r as [h|]; [|exact HF]. case_bool_decide; [exact HF|kp].
Qed.
Lemma keeps_op q o : keeps (run_op q o).
Proof.
  assert (HX : keeps (readout_x_into_ancilla q)) by (unfold readout_x_into_ancilla; destruct (lat_code (tq_lat q)); kq).
  assert (HZ : keeps (readout_z_into_ancilla q)) by (unfold readout_z_into_ancilla; destruct (lat_code (tq_lat q)); kq).
  assert (HL : forall bc, keeps (lattice_readout q bc)).
  { intros bc. unfold lattice_readout. cbn zeta. apply keeps_read. intros p s Hp. destruct (num_lattice_readout_of p); cbn [key].
    - eapply (keeps_put _ _ p); try done. kp.
    - intros l' p1 Hp1. by exists p1. }
  destruct o; cbn [run_op].
  - unfold stabilize. cbn zeta. apply keeps_read. intros p s Hp. destruct (num_syn_of p); cbn [key]; [|by intros l' p1 Hp1; exists p1].
    destruct (T_of p); cbn [key]; [|by intros l' p1 Hp1; exists p1].
    change ((mbind' (Circ.mret p0) ?f) ?s) with (f p0 s). cbn beta. unfold entangle. eapply (keeps_put _ _ p); try done. kp.
  - unfold readout_x, measure_ancilla. apply keeps_bind; [apply keeps_rr|intros ?]. apply keeps_bind; [done|intros ?]. kp.
  - unfold readout_z, measure_ancilla. apply keeps_bind; [apply keeps_rr|intros ?]. apply keeps_bind; [done|intros ?]. kp.
  - apply HL.
  - apply HL.
  - unfold reset_x. kp.
  - unfold reset_z. kp.
  - unfold logical_x. apply keeps_bind; [apply keeps_col|intros ?]. kp.
  - unfold logical_z. apply keeps_bind; [apply keeps_row|intros ?]. kp.
  - unfold id_all. kp.
  - unfold id_data. kp.
Qed.
Lemma keeps_asked q o s l p t hw : s_heap s !! l = Some p -> asked t p = Some hw ->
  exists p', s_heap (run_op q o s).1 !! l = Some p' /\ asked t p' = Some hw.
Proof.
  intros Hp Ha. destruct (keeps_op q o s l p Hp) as (p' & Hp' & Hd & Hf). exists p'. split; [done|].
  unfold asked in *. by rewrite Hd, Hf.
Qed.

(** ** The invariant *)
(** [szs]: type and size of each qubit; [n0]: how many there were before any ancilla. *)
Record weak (s : st) (szs : list (qtype * (Z * Z))) (n0 : Z) : Prop := {
  wk_q : forall i t dh dw, 0 <= i -> szs !! Z.to_nat i = Some (t, (dh, dw)) ->
    exists q, treg_lookup (s_tq s) i = Ok q /\ tq_type q = t /\ lat_code (tq_lat q) = code_of t /\
    lat_name (tq_lat q) = qname (s_tname s) i /\ lat_ok s q dh dw /\
    exists p, s_heap s !! lat_params (tq_lat q) = Some p /\ asked t p = Some (dh, dw);
  wk_share : forall i j q q', 0 <= i < s_n s -> 0 <= j < s_n s -> treg_lookup (s_tq s) i = Ok q -> treg_lookup (s_tq s) j = Ok q' ->
    lat_params (tq_lat q) = lat_params (tq_lat q') -> szs !! Z.to_nat i = szs !! Z.to_nat j;
  wk_none : forall i, ~ (0 <= i < s_n s) -> treg_lookup (s_tq s) i = Err ValueError;
  wk_names : forall x, x ∈ names s -> x ∈ cx_names \/ exists i, 0 <= i < s_n s /\
    ((exists suf, suf ∈ q_sufs /\ x = (qname (s_tname s) i +:+ suf)%string) \/
     (exists suf k, suf ∈ c_sufs /\ x = (qname (s_tname s) i +:+ suf +:+ py_str k)%string));
  wk_n : s_n s = Z.of_nat (length szs);
  wk_n0 : 0 <= n0 <= s_n s;
  wk_heap : heap_fresh s;
  wk_cx : cx_ok s;
  wk_anc : match dict_get "ancilla"%string (s_tq s) with
    | None => True
    | Some sub => exists k q r, reverse sub = (k, q) :: r /\ n0 <= k < s_n s /\ treg_lookup (s_tq s) k = Ok q
    end }.

Lemma lookup_bound s szs n0 i q : weak s szs n0 -> treg_lookup (s_tq s) i = Ok q -> 0 <= i < s_n s.
Proof.
  intros Hw Hq. destruct (decide (0 <= i < s_n s)) as [|Hi]; [done|]. rewrite (wk_none _ _ _ Hw i Hi) in Hq. done.
Qed.
Lemma weak_get s szs n0 i : weak s szs n0 -> 0 <= i < s_n s ->
  exists t dh dw q p, szs !! Z.to_nat i = Some (t, (dh, dw)) /\ treg_lookup (s_tq s) i = Ok q /\ tq_type q = t /\
    lat_code (tq_lat q) = code_of t /\ lat_name (tq_lat q) = qname (s_tname s) i /\ lat_ok s q dh dw /\
    s_heap s !! lat_params (tq_lat q) = Some p /\ asked t p = Some (dh, dw).
Proof.
  intros Hw Hi. pose proof (wk_n _ _ _ Hw). destruct (lookup_lt_is_Some_2 szs (Z.to_nat i)) as [[t [dh dw]] Hsz]; [lia|].
  destruct (wk_q _ _ _ Hw i t dh dw) as (q & ? & ? & ? & ? & ? & p & ? & ?); [lia|done|]. by exists t, dh, dw, q, p.
Qed.
(** Two lattices of the same size on the same dictionary are in the same condition. *)
Lemma lat_ok_share s s' q q' dh dw : lat_params (tq_lat q') = lat_params (tq_lat q) -> lat_ok s' q dh dw -> lat_ok s q' dh dw -> lat_ok s' q' dh dw.
Proof. intros E [? ? H] [? ? _]. constructor; [done..|]. by rewrite E. Qed.

Lemma cx_ok_same s s' : s_tqreg s' = s_tqreg s -> s_tcreg s' = s_tcreg s ->
  (forall x, x ∈ cx_names -> x ∈ names s' <-> x ∈ names s) -> cx_ok s -> cx_ok s'.
Proof.
  intros E1 E2 HN [H1 H2]. unfold cx_ok. rewrite E1, E2. unfold reg_state in *. split.
  - intros x Hx. rewrite HN; [by apply H1|]. unfold c_names in Hx. apply cx_names_in. rewrite !elem_of_cons, elem_of_nil in Hx. tauto.
  - rewrite HN; [done|]. apply cx_names_in. tauto.
Qed.
Lemma qc_not_cx t i x : (exists suf, suf ∈ q_sufs /\ x = (qname t i +:+ suf)%string) \/
     (exists suf k, suf ∈ c_sufs /\ x = (qname t i +:+ suf +:+ py_str k)%string) -> x ∉ cx_names.
Proof. intros [(suf & Hs & ->)|(suf & k & Hs & ->)] Hx; [by eapply cx_q_ne|by eapply cx_c_ne]. Qed.
Lemma cx_ok_app_names s s' ns : s_tqreg s' = s_tqreg s -> s_tcreg s' = s_tcreg s -> names s' = names s ++ ns ->
  (forall x, x ∈ ns -> x ∉ cx_names) -> cx_ok s -> cx_ok s'.
Proof.
  intros E1 E2 HN Hns. apply cx_ok_same; [done..|]. intros x Hx. rewrite HN, elem_of_app. split; [|by left]. intros [?|H]; [done|]. by apply Hns in H.
Qed.

(** An ordinary call, successful or not. *)
Lemma weak_post s s' szs n0 i q t dh dw n rs is o : weak s szs n0 -> treg_lookup (s_tq s) i = Ok q ->
  szs !! Z.to_nat i = Some (t, (dh, dw)) -> s' = (run_op q o s).1 -> post s s' q dh dw n rs is ->
  (forall x, x ∈ (r_name <$> rs) -> exists suf k, suf ∈ c_sufs /\ x = (qname (s_tname s) i +:+ suf +:+ py_str k)%string) ->
  weak s' szs n0.
Proof.
  intros Hw Hq Hsz E [P1 P2 P3 P4 (P5 & P6 & P7 & P8 & P9 & P10 & P11)] Hrs.
  pose proof (lookup_bound _ _ _ _ _ Hw Hq) as Hi.
  assert (HN : names s' = names s ++ (r_name <$> rs)) by (unfold names; by rewrite P3, fmap_app).
  constructor; rewrite ?P6, ?P7, ?P8, ?P9; try apply Hw.
  - intros j t' dh' dw' Hj Hsz'. destruct (wk_q _ _ _ Hw j t' dh' dw' Hj Hsz') as (q' & Hq' & Ht' & Hc' & Hnm' & Hok' & p & Hp & Ha).
    exists q'. split_and!; try done.
    + destruct (decide (lat_params (tq_lat q') = lat_params (tq_lat q))) as [El|Hne].
      * pose proof (wk_share _ _ _ Hw j i q' q) as HS. rewrite Hsz, Hsz' in HS.
        assert (HS' : Some (t', (dh', dw')) = Some (t, (dh, dw))).
        { apply HS; try done. apply lookup_lt_Some in Hsz'. pose proof (wk_n _ _ _ Hw). lia. }
        injection HS' as -> -> ->. by eapply lat_ok_share.
      * eapply P_Hist.lat_ok_heap; [|exact Hok']. exact (P5 _ Hne).
    + subst s'. by apply (keeps_asked q o s _ p).
  - intros x. rewrite HN, elem_of_app. intros [Hx|Hx]; [by apply Hw|]. right. exists i. split; [done|]. right. by apply Hrs.
  - intros x Hx. rewrite P6 in Hx. rewrite P5; [by apply Hw|]. intros ->.
    destruct (wk_q _ _ _ Hw i t dh dw) as (q' & Hq' & _ & _ & _ & _ & p & Hp & _); [lia|done|]. rewrite Hq in Hq'. injection Hq' as <-.
    rewrite (wk_heap _ _ _ Hw) in Hp by done. done.
  - eapply cx_ok_app_names; [exact P10|exact P11|exact HN| |apply Hw]. intros x Hx. eapply (qc_not_cx (s_tname s) i). right. by apply Hrs.
Qed.
Lemma weak_call s szs n0 e : weak s szs n0 -> weak (run_call e s).1 szs n0.
Proof.
  intros Hw. destruct e as [i o]. unfold run_call. cbn [fst snd].
  destruct (decide (0 <= i < s_n s)) as [Hi|Hi].
  - destruct (weak_get _ _ _ _ Hw Hi) as (t & dh & dw & q & p & Hsz & Hq & Ht & Hc & Hnm & Hok & Hp & Ha).
    erewrite mbind_ok by (unfold treg_get; by rewrite Hq).
    destruct (lat_ok_cnt _ _ _ _ Hok) as [n Hn].
    assert (HR : forall x, x ∈ (r_name <$> op_reg (lat_name (tq_lat q)) dh dw n o) ->
       exists suf k, suf ∈ c_sufs /\ x = (qname (s_tname s) i +:+ suf +:+ py_str k)%string).
    { intros x Hx. rewrite Hnm in Hx. unfold c_sufs.
      assert (exists suf k, suf ∈ ["_c"; "_readout_"; "_lattice_readout_"]%string /\ [x] = [(qname (s_tname s) i +:+ suf +:+ py_str k)%string]) as (suf & k & ? & [= ->]); [|by exists suf, k].
      destruct o as [|[h|]|[h|]| | | | | | | |]; cbn [op_reg eff fst snd] in Hx; try (by apply elem_of_nil in Hx);
        try (case_bool_decide; cbn [fmap list_fmap] in Hx; try (by apply elem_of_nil in Hx)); apply elem_of_list_singleton in Hx as ->;
        unfold cname, rdname, lrname; eexists _, _; (split; [|reflexivity]); set_solver. }
    destruct (op_fresh_dec s (lat_name (tq_lat q)) dh dw n o) as [Hf|Hf].
    + destruct (op_ok (lat_code (tq_lat q)) dh dw o) eqn:Eo.
      * destruct (run_op_ok s q dh dw n o Hok Hn Eo Hf) as (s' & E & HP). eapply weak_post; try done. by rewrite E.
      * destruct (run_op_fail s q dh dw n o Hok Hn Eo Hf) as (s' & e & is & E & _ & HP). eapply weak_post; try done. by rewrite E.
    + destruct (run_op_clash s q dh dw n o Hok Hn Hf) as (s' & E & HP). rewrite E. cbn [fst]. eapply (weak_post s s' szs n0 i q t dh dw _ [] [] o); [done|done|done|by rewrite E|exact HP|]. intros x Hx. by apply elem_of_nil in Hx.
  - erewrite mbind_err; [done|]. unfold treg_get. by rewrite (wk_none _ _ _ Hw i Hi).
Qed.

(** Adding a qubit, possibly on a dictionary already in use by qubits of the same type and size. *)
Lemma add_weak s szs n0 sub c t l p dh dw : weak s szs n0 -> str2qtype c = Some t ->
  s_heap s !! l = Some p -> asked t p = Some (dh, dw) -> valid_size dh dw ->
  (forall i q, treg_lookup (s_tq s) i = Ok q -> lat_params (tq_lat q) = l -> szs !! Z.to_nat i = Some (t, (dh, dw))) ->
  (sub = "ancilla"%string -> dict_get sub (s_tq s) = None) ->
  exists s' q, add_tqubit sub c l s = (s', Ok tt) /\ weak s' (szs ++ [(t, (dh, dw))]) n0 /\
    s_tname s' = s_tname s /\ s_instrs s' = s_instrs s /\ s_n s' = s_n s + 1 /\ treg_lookup (s_tq s') (s_n s) = Ok q /\
    (forall i, 0 <= i < s_n s -> treg_lookup (s_tq s') i = treg_lookup (s_tq s) i) /\
    dict_get sub (s_tq s') = Some (dict_set (s_n s) q (default [] (dict_get sub (s_tq s)))) /\
    has_cnt s' q (Cnt (-1) (-1) (-1)) /\ (params_empty p = false -> lat_params (tq_lat q) = l) /\
    (forall x, x ∈ names s -> x ∈ names s').
Proof.
  intros Hw Ec Hp Ha Hv Hown Hanc. pose proof (wk_n _ _ _ Hw) as Hn. pose proof (wk_heap _ _ _ Hw) as Hhf. pose proof (wk_n0 _ _ _ Hw) as Hn0.
  assert (HN : treg_lookup (s_tq s) (s_n s) = Err ValueError) by (apply (wk_none _ _ _ Hw); lia).
  unfold add_tqubit. erewrite mbind_ok by done.
  set (m1 := match dict_get sub (s_tq s) with None => _ | Some _ => _ end).
  assert (exists tq1 l1, m1 s = (set_tq s (s_n s) tq1, Ok tt) /\
    (forall i, treg_lookup tq1 i = treg_lookup (s_tq s) i) /\ dict_get sub tq1 = Some l1 /\
    (forall sub', sub' <> sub -> dict_get sub' tq1 = dict_get sub' (s_tq s)) /\ l1 = default [] (dict_get sub (s_tq s)))
    as (tq1 & l1 & E1 & L1 & D1 & D2 & D3).
  { unfold m1. destruct (dict_get sub (s_tq s)) as [l1|] eqn:E.
    - exists (s_tq s), l1. split; [|done]. by destruct s.
    - eexists _, []. split; [reflexivity|]. cbn. split_and!; try done.
      + intros i. by apply lookup_new_sub.
      + rewrite dict_get_set. by rewrite bool_decide_eq_true_2.
      + intros sub' Hs. rewrite dict_get_set. by rewrite bool_decide_eq_false_2. }
  erewrite mbind_ok by exact E1. clear m1 E1. rewrite Ec. cbn [key]. erewrite mbind_ok by done. fold (qname (s_tname s) (s_n s)).
  set (nm := qname (s_tname s) (s_n s)). set (s1 := set_tq s (s_n s) tq1).
  assert (Hfr : fresh_lattice s1 nm).
  { intros suf Hs Hin. change (names s1) with (names s) in Hin.
    destruct (wk_names _ _ _ Hw _ Hin) as [Hc|(j & Hj & [(suf' & Hs' & E)|(suf' & k & Hs' & E)])].
    - eapply cx_q_ne; [exact Hc|exact Hs|done].
    - apply q_suf_inj in E as [E _]; [lia|lia|lia|done|done].
    - revert E. apply qc_suf_ne; [lia|lia|done|done]. }
  destruct (new_tqubit_ok t l nm s1 p dh dw Hp Ha Hv Hfr) as (s2 & l' & E2 & [B1 B2 B3 B4 B5 B6 BA (B7 & B8 & B9 & B10 & B11)]).
  erewrite mbind_ok by exact E2. erewrite mbind_ok by done. rewrite B9. cbn [s1 set_tq s_tq]. rewrite D1. cbn [key].
  erewrite mbind_ok by done. rewrite B8. cbn [s1 set_tq s_n].
  set (q := TQubit t (the_lattice (code_of t) nm l' dh dw)) in *.
  assert (Hl' : (l' = l \/ l' = s_next s) /\ (s_next s <= s_next s2)%nat /\ (l' < s_next s2)%nat).
  { assert (l < s_next s)%nat. { destruct (decide (l < s_next s)%nat); [done|]. rewrite Hhf in Hp by lia. done. }
    destruct (params_empty p); cbn in B6; destruct B6 as [-> ->]; split; try lia; auto. }
  assert (Hne : forall i q', treg_lookup (s_tq s) i = Ok q' -> 0 <= i < s_n s -> lat_params (tq_lat q') = l' -> szs !! Z.to_nat i = Some (t, (dh, dw))).
  { intros i q' Hq' Hi E. destruct Hl' as [[->| ->] _]; [by eapply Hown|].
    destruct (weak_get _ _ _ _ Hw Hi) as (t' & dh' & dw' & q0 & p0 & Hsz & Hq0 & _ & _ & _ & _ & Hp0 & _). rewrite Hq' in Hq0. injection Hq0 as <-.
    rewrite E, Hhf in Hp0 by lia. done. }
  assert (HNM : forall s3, s_regs s3 = s_regs s2 -> names s3 = names s ++ (fst <$> lattice_regs nm dh dw)).
  { intros s3 E3. unfold names. rewrite E3, B3, fmap_app, <-list_fmap_compose. done. }
  assert (HL : forall i, treg_lookup (dict_set sub (dict_set (s_n s) q l1) tq1) i = if bool_decide (i = s_n s) then Ok q else treg_lookup (s_tq s) i).
  { intros i. erewrite lookup_add; [|exact D1|by rewrite L1]. by rewrite L1. }
  eexists _, q. split; [reflexivity|]. split_and!.
  - constructor; cbn [set_tq s_n s_tq s_tname].
    + intros i t' dh' dw' Hi Hsz. rewrite B7. cbn [s1 set_tq s_tname]. rewrite HL. case_bool_decide as Hi'.
      * rewrite Hi', Hn, Nat2Z.id, lookup_app_r, Nat.sub_diag in Hsz by lia. injection Hsz as <- <- <-.
        exists q. split_and!; [done..|by rewrite Hi'|(eapply P_Hist.lat_ok_heap; [|exact B1]; reflexivity)|exact BA].
      * assert (Hlt : (Z.to_nat i < length szs)%nat) by (apply lookup_lt_Some in Hsz; rewrite app_length in Hsz; cbn in Hsz; lia).
        rewrite lookup_app_l in Hsz by done.
        destruct (wk_q _ _ _ Hw i t' dh' dw') as (q' & Hq' & Ht' & Hc' & Hnm' & Hok' & p' & Hp' & Ha'); [lia|done|].
        exists q'. split; [done|]. split; [done|]. split; [done|]. split; [done|].
        destruct (decide (lat_params (tq_lat q') = l')) as [El|Hnl].
        -- assert (HS : szs !! Z.to_nat i = Some (t, (dh, dw))) by (apply (Hne i q'); [done|lia|done]).
           rewrite Hsz in HS. injection HS as -> -> ->. split.
           ++ eapply (lat_ok_share s _ q); [exact El| |exact Hok']. eapply P_Hist.lat_ok_heap; [|exact B1]; reflexivity.
           ++ rewrite El. exact BA.
        -- assert (Hh : s_heap s2 !! lat_params (tq_lat q') = s_heap s !! lat_params (tq_lat q')).
           { change (s_heap s) with (s_heap s1). by apply B5. }
           split; [eapply P_Hist.lat_ok_heap; [|exact Hok']; exact Hh|]. exists p'. cbn [set_tq s_heap]. by rewrite Hh.
    + intros i j q1 q2 Hi Hj. rewrite !HL.
      assert (HA : forall k qk, treg_lookup (s_tq s) k = Ok qk -> lat_params (tq_lat qk) = l' -> 0 <= k < s_n s ->
        (szs ++ [(t, (dh, dw))]) !! Z.to_nat k = (szs ++ [(t, (dh, dw))]) !! Z.to_nat (s_n s)).
      { intros k qk Hk El Hkk. rewrite lookup_app_l by lia. rewrite Hn, Nat2Z.id, lookup_app_r, Nat.sub_diag by lia.
        cbn. by apply (Hne k qk). }
      repeat case_bool_decide; intros H1 H2; try (injection H1 as <-); try (injection H2 as <-); intros E.
      * by subst.
      * subst i. symmetry. apply (HA j q2); [done|done|lia].
      * subst j. apply (HA i q1); [done|done|lia].
      * rewrite !lookup_app_l by lia. eapply (wk_share _ _ _ Hw); try done; lia.
    + intros i Hi. rewrite HL, bool_decide_eq_false_2 by lia. apply (wk_none _ _ _ Hw). lia.
    + intros x. rewrite (HNM (set_tq s2 _ _) eq_refl), elem_of_app, B7. cbn [s1 set_tq s_tname]. intros [Hx|Hx].
      * destruct (wk_names _ _ _ Hw _ Hx) as [?|(j & Hj & HH)]; [by left|right]. exists j. split; [lia|done].
      * right. apply lattice_names in Hx as (suf & Hs & ->). exists (s_n s). split; [lia|]. left. by exists suf.
    + rewrite app_length. cbn. lia.
    + lia.
    + intros x Hx. cbn in *. rewrite B5 by lia. apply Hhf. lia.
    + eapply (cx_ok_app_names s); [cbn; by rewrite B10|cbn; by rewrite B11|apply HNM; reflexivity| |apply Hw].
      intros x (suf & Hs & ->)%lattice_names Hx. by eapply cx_q_ne.
    + rewrite dict_get_set. case_bool_decide as Hs.
      * assert (El1 : l1 = []) by (rewrite D3, Hanc; done). rewrite El1 in HL |- *. exists (s_n s), q, []. split; [done|]. split; [lia|]. rewrite HL. by rewrite bool_decide_eq_true_2.
      * rewrite D2 by done. pose proof (wk_anc _ _ _ Hw) as HA. destruct (dict_get "ancilla"%string (s_tq s)) as [sb|]; [|done].
        destruct HA as (k & q' & r & Er & Hk & Hq'). exists k, q', r. split; [done|]. split; [lia|]. rewrite HL, bool_decide_eq_false_2 by lia. done.
  - by cbn.
  - cbn. by rewrite B4.
  - done.
  - cbn [set_tq s_tq]. rewrite HL. by rewrite bool_decide_eq_true_2.
  - intros i Hi. cbn [set_tq s_tq]. by rewrite HL, bool_decide_eq_false_2 by lia.
  - cbn [set_tq s_tq]. rewrite dict_get_set, bool_decide_eq_true_2 by done. by rewrite D3.
  - eapply has_cnt_heap; [|exact B2]; reflexivity.
  - intros He. rewrite He in B6. by destruct B6 as [-> _].
  - intros x Hx. rewrite (HNM (set_tq s2 _ _) eq_refl). apply elem_of_app. by left.
Qed.

(** ** cx *)
Lemma weak_cxpost s s' szs n0 : weak s szs n0 -> cx_post_ok s s' -> weak s' szs n0.
Proof.
  intros Hw [H1 (E1 & E2 & E3 & E4 & E5) (ns & HN & Hns & _)].
  constructor; rewrite ?E1, ?E2, ?E3, ?E4, ?E5; try apply Hw; try done.
  - intros i t dh dw Hi Hsz. destruct (wk_q _ _ _ Hw i t dh dw Hi Hsz) as (q & ? & ? & ? & ? & Hok & ?). exists q. split_and!; try done.
    eapply P_Hist.lat_ok_heap; [|exact Hok]. by rewrite E1.
  - intros x. rewrite HN, elem_of_app. intros [Hx|Hx]; [by apply Hw|left; by apply Hns].
  - intros x. rewrite E1, E2. apply Hw.
Qed.
Lemma ready_cxpost s s' szs seen : ready s szs seen -> cx_post_ok s s' -> ready s' szs seen.
Proof.
  intros Hw [H1 (E1 & E2 & E3 & E4 & E5) (ns & HN & Hns & Hnd & Hfr)].
  constructor; rewrite ?E1, ?E2, ?E3, ?E4, ?E5; try apply Hw; try done.
  - intros i t dh dw Hi Hsz. destruct (rd_q _ _ _ Hw i t dh dw Hi Hsz) as (q & ? & ? & ? & ? & Hok & Hc). exists q. split_and!; try done.
    + eapply P_Hist.lat_ok_heap; [|exact Hok]. by rewrite E1.
    + eapply has_cnt_heap; [|exact Hc]. by rewrite E1.
  - intros x. rewrite HN, elem_of_app. intros [Hx|Hx]; [by apply Hw|left; by apply Hns].
  - rewrite HN. apply NoDup_app. split_and!; [apply Hw| |done]. intros x Hx Hx'. by apply (Hfr x).
Qed.

(** The new ancilla, if there is none yet. *)
Definition anc_sub (c : string) (l : nat) : M unit :=
  let* s := get_st in
  match dict_get "ancilla"%string (s_tq s) with None => add_tqubit "ancilla" c l | Some _ => Circ.mret tt end.
Definition last_anc : M tqubit :=
  let* s := get_st in
  let* sub := key (dict_get "ancilla"%string (s_tq s)) in
  match reverse sub with kq :: _ => Circ.mret kq.2 | [] => mraise IndexError end.
Lemma c_cx_default i j s qc qt : treg_lookup (s_tq s) i = Ok qc -> treg_lookup (s_tq s) j = Ok qt ->
  c_cx (ByIdx i) (ByIdx j) None None s =
  (anc_sub (type_name (tq_type qc)) (lat_params (tq_lat qc)) ;;; let* a := last_anc in cx_body qc qt a) s.
Proof.
  intros Hi Hj. unfold c_cx. erewrite mbind_ok by done. erewrite mbind_ok.
  2:{ erewrite mbind_ok; [reflexivity|]. cbn [get_index]. unfold treg_get. by rewrite Hi. }
  erewrite mbind_ok by (cbn [get_index]; unfold treg_get; by rewrite Hi).
  erewrite mbind_ok by (cbn [get_index]; unfold treg_get; by rewrite Hj).
  erewrite mbind_ok by done. cbn [fst snd].
  unfold anc_sub, last_anc, mbind', get_st.
  destruct (dict_get "ancilla"%string (s_tq s)) as [sb|] eqn:E.
  - cbn. rewrite E. cbn [key]. unfold Circ.mret. by destruct (reverse sb).
  - destruct (add_tqubit _ _ _ s) as [s1 [[]|e]]; [|done]. destruct (dict_get "ancilla"%string (s_tq s1)) as [sb|]; [|done]. cbn [key].
    unfold Circ.mret. by destruct (reverse sb).
Qed.
Lemma c_cx_explicit i j c l s qc qt : treg_lookup (s_tq s) i = Ok qc -> treg_lookup (s_tq s) j = Ok qt ->
  c_cx (ByIdx i) (ByIdx j) (Some c) (Some l) s = (anc_sub c l ;;; let* a := last_anc in cx_body qc qt a) s.
Proof.
  intros Hi Hj. unfold c_cx. erewrite mbind_ok by done. erewrite mbind_ok by done.
  erewrite mbind_ok by (cbn [get_index]; unfold treg_get; by rewrite Hi).
  erewrite mbind_ok by (cbn [get_index]; unfold treg_get; by rewrite Hj).
  erewrite mbind_ok by done. cbn [fst snd].
  unfold anc_sub, last_anc, mbind', get_st.
  destruct (dict_get "ancilla"%string (s_tq s)) as [sb|] eqn:E.
  - cbn. rewrite E. cbn [key]. unfold Circ.mret. by destruct (reverse sb).
  - destruct (add_tqubit _ _ _ s) as [s1 [[]|e]]; [|done]. destruct (dict_get "ancilla"%string (s_tq s1)) as [sb|]; [|done]. cbn [key].
    unfold Circ.mret. by destruct (reverse sb).
Qed.
Lemma treg_lookup_err tq i e : treg_lookup tq i = Err e -> e = ValueError.
Proof. induction tq as [|[k l] tq IH]; cbn; [congruence|]. by destruct (dict_get i l). Qed.
Lemma c_cx_bad i j c l s : treg_lookup (s_tq s) i = Err ValueError \/ treg_lookup (s_tq s) j = Err ValueError ->
  (c = None <-> l = None) -> c_cx (ByIdx i) (ByIdx j) c l s = (s, Err ValueError).
Proof.
  intros H Hcl. unfold c_cx. destruct c as [c|], l as [l|]; try (exfalso; by destruct Hcl as [H1 H2]; (discriminate (H1 eq_refl) || discriminate (H2 eq_refl))).
  - erewrite mbind_ok by done. erewrite mbind_ok by done. cbn [get_index].
    destruct (treg_lookup (s_tq s) i) as [qc|e] eqn:Ei.
    + erewrite mbind_ok by (unfold treg_get; by rewrite Ei). destruct H as [?|H]; [done|].
      erewrite mbind_err by (unfold treg_get; by rewrite H). done.
    + erewrite mbind_err by (unfold treg_get; by rewrite Ei). pose proof (treg_lookup_err _ _ _ Ei) as ->. done.
  - erewrite mbind_ok by done. cbn [get_index]. destruct (treg_lookup (s_tq s) i) as [qc|e] eqn:Ei.
    + erewrite mbind_ok by (erewrite mbind_ok by (unfold treg_get; by rewrite Ei); reflexivity).
      erewrite mbind_ok by (unfold treg_get; by rewrite Ei). destruct H as [?|H]; [done|].
      erewrite mbind_err by (unfold treg_get; by rewrite H). done.
    + pose proof (treg_lookup_err _ _ _ Ei) as ->. erewrite mbind_err; [done|]. erewrite mbind_err; [done|]. unfold treg_get. by rewrite Ei.
Qed.

(** What TopologicalCircuit.cx does in a state satisfying the invariant. *)
Definition is_side (name : string) (szs : list (qtype * (Z * Z))) (i : Z) (d : side) : Prop :=
  exists t dh dw, 0 <= i /\ szs !! Z.to_nat i = Some (t, (dh, dw)) /\ d = Side (code_of t) (qname name i) dh dw.
Definition side_supported (c a : side) : bool :=
  can_z (sd_c c) (sd_w c) && can_z (sd_c a) (sd_w a) && can_rx (sd_c a) (num_data (sd_h a) (sd_w a)).

(** The tail, once the ancilla exists. *)
Lemma tail_weak s szs n0 i j qc qt dc dt : weak s szs n0 -> dict_get "ancilla"%string (s_tq s) <> None ->
  treg_lookup (s_tq s) i = Ok qc -> treg_lookup (s_tq s) j = Ok qt -> is_side (s_tname s) szs i dc -> is_side (s_tname s) szs j dt ->
  exists s' r k da, (let* a := last_anc in cx_body qc qt a) s = (s', r) /\ cx_post_ok s s' /\
    n0 <= k /\ is_side (s_tname s) szs k da /\
    (exists sb qa l, dict_get "ancilla"%string (s_tq s) = Some sb /\ reverse sb = (k, qa) :: l) /\
    if side_supported dc da then r = Ok tt /\ s_instrs s' = s_instrs s ++ cx_code dc dt da
    else r = Err ValueError \/ r = Err CircuitError.
Proof.
  intros Hw Hanc Hi Hj (tc & ch & cw & Hi0 & Hic & ->) (tt_ & th & tw & Hj0 & Hjt & ->).
  pose proof (wk_anc _ _ _ Hw) as HA. destruct (dict_get "ancilla"%string (s_tq s)) as [sb|] eqn:Ed; [|done].
  destruct HA as (k & qa & r0 & Er & Hk & Hqa). pose proof (wk_n0 _ _ _ Hw).
  destruct (weak_get _ _ _ k Hw) as (ta & ah & aw & q' & p & Hsz & Hq' & Ht & Hc & Hnm & Hok & Hp & Ha); [lia|].
  rewrite Hqa in Hq'. injection Hq' as <-.
  destruct (wk_q _ _ _ Hw i tc ch cw Hi0 Hic) as (qc' & Hqc' & _ & Hcc & Hcn & Hcok & _). rewrite Hi in Hqc'. injection Hqc' as <-.
  destruct (wk_q _ _ _ Hw j tt_ th tw Hj0 Hjt) as (qt' & Hqt' & _ & Htc & Htn & Htok & _). rewrite Hj in Hqt'. injection Hqt' as <-.
  destruct (cx_body_run qc qt qa ch cw th tw ah aw s (wk_cx _ _ _ Hw) Hcok Htok Hok) as (s' & r & E & HP & HR).
  exists s', r, k, (Side (code_of ta) (qname (s_tname s) k) ah aw). split_and!.
  - erewrite mbind_ok; [exact E|]. unfold last_anc. erewrite mbind_ok by done. rewrite Ed. cbn [key]. erewrite mbind_ok by done. by rewrite Er.
  - done.
  - lia.
  - exists ta, ah, aw. split_and!; [lia|done|done].
  - by exists sb, qa, r0.
  - unfold side_of in HR. rewrite Hc, Hnm, Hcc, Hcn, Htc, Htn in HR. unfold cx_supported in HR. rewrite Hc, Hcc in HR. exact HR.
Qed.

(** ** Events *)
(** A call on qubit [i], or cx(i, j); the latter with default ancilla, or with an ancilla type
    and a params dictionary built for the occasion. *)
Inductive event := ECall (i : Z) (o : op) | ECx (i j : Z) (anc : option (string * params)).
Definition run_event (e : event) : M unit :=
  match e with
  | ECall i o => run_call (i, o)
  | ECx i j None => c_cx (ByIdx i) (ByIdx j) None None
  | ECx i j (Some (c, p)) => let* l := new_params p in c_cx (ByIdx i) (ByIdx j) (Some c) (Some l)
  end.
(** Any calls with any indices, but requested ancillas must be buildable. *)
Definition event_ok (e : event) : Prop :=
  match e with
  | ECx _ _ (Some (c, p)) => exists t dh dw, str2qtype c = Some t /\ asked t p = Some (dh, dw) /\ valid_size dh dw
  | _ => True end.
(** Exceptions are caught by the caller, who goes on. *)
Fixpoint run_events (l : list event) (s : st) : st * list (res unit) :=
  match l with
  | [] => (s, [])
  | e :: l' => let r := run_event e s in let r' := run_events l' r.1 in (r'.1, r.2 :: r'.2)
  end.

Definition with_dict (s : st) (p : params) : st :=
  St (<[s_next s := p]> (s_heap s)) (S (s_next s)) (s_regs s) (s_instrs s) (s_tname s) (s_n s) (s_tq s) (s_tqreg s) (s_tcreg s).
Lemma weak_dict s szs n0 p : weak s szs n0 -> weak (with_dict s p) szs n0.
Proof.
  intros Hw. assert (HL : forall x px, s_heap s !! x = Some px -> s_heap (with_dict s p) !! x = Some px).
  { intros x px0 Hx. cbn. rewrite lookup_insert_ne; [done|]. intros <-. rewrite (wk_heap _ _ _ Hw) in Hx by lia. done. }
  constructor; cbn [with_dict s_tq s_tname s_n]; try apply Hw.
  - intros i t dh dw Hi Hsz. destruct (wk_q _ _ _ Hw i t dh dw Hi Hsz) as (q & ? & ? & ? & ? & Hok & p' & Hp' & Ha). exists q. split_and!; try done.
    + eapply P_Hist.lat_ok_heap; [|exact Hok]. rewrite Hp'. by apply HL.
    + exists p'. split; [by apply HL|done].
  - intros x Hx. cbn in *. rewrite lookup_insert_ne by lia. apply Hw. lia.
Qed.
Lemma ready_dict s szs seen p : heap_fresh s -> ready s szs seen -> ready (with_dict s p) szs seen.
Proof.
  intros Hhf Hr. constructor; cbn [with_dict s_tq s_tname s_n]; try apply Hr.
  intros i t dh dw Hi Hsz. destruct (rd_q _ _ _ Hr i t dh dw Hi Hsz) as (q & ? & ? & ? & ? & Hok & Hc).
  assert (HL : s_heap (with_dict s p) !! lat_params (tq_lat q) = s_heap s !! lat_params (tq_lat q)).
  { cbn. apply lookup_insert_ne. intros E. pose proof (lo_heap _ _ _ _ Hok) as (p0 & ? & ? & ? & ? & Hp0 & _). rewrite <-E, Hhf in Hp0 by lia. done. }
  exists q. split_and!; try done; [by eapply P_Hist.lat_ok_heap|by eapply has_cnt_heap].
Qed.

Lemma type_name_inv t : str2qtype (type_name t) = Some t.
Proof. by destruct t. Qed.
Lemma lat_ok_nonempty s q dh dw p : lat_ok s q dh dw -> s_heap s !! lat_params (tq_lat q) = Some p -> params_empty p = false.
Proof. intros Hok Hp. pose proof (lo_heap _ _ _ _ Hok) as (p0 & dl & ? & ? & ? & Hp0 & Hd & _). rewrite Hp in Hp0. injection Hp0 as <-. by destruct p as [[]]. Qed.

Lemma is_side_app name szs ext i d : is_side name szs i d -> is_side name (szs ++ ext) i d.
Proof. intros (t & dh & dw & Hi & H & ->). exists t, dh, dw. split_and!; try done. by apply lookup_app_l_Some. Qed.
Lemma is_side_ex s szs n0 i : weak s szs n0 -> 0 <= i < s_n s -> exists d q, is_side (s_tname s) szs i d /\ treg_lookup (s_tq s) i = Ok q /\ lat_ok s q (sd_h d) (sd_w d).
Proof.
  intros Hw Hi. destruct (weak_get _ _ _ i Hw Hi) as (t & dh & dw & q & p & Hsz & Hq & Ht & Hc & Hnm & Hok & Hp & Ha).
  exists (Side (code_of t) (qname (s_tname s) i) dh dw), q. split_and!; try done. exists t, dh, dw. split_and!; [lia|done|done].
Qed.

(** The heart of cx: the ancilla sub-register is made if needed, then the circuit is appended. *)
Lemma cx_core s szs n0 i j qc qt dc dt c l p t dh dw : weak s szs n0 ->
  treg_lookup (s_tq s) i = Ok qc -> treg_lookup (s_tq s) j = Ok qt -> is_side (s_tname s) szs i dc -> is_side (s_tname s) szs j dt ->
  str2qtype c = Some t -> s_heap s !! l = Some p -> asked t p = Some (dh, dw) -> valid_size dh dw ->
  (forall i q, treg_lookup (s_tq s) i = Ok q -> lat_params (tq_lat q) = l -> szs !! Z.to_nat i = Some (t, (dh, dw))) ->
  exists s' r ext k da, (anc_sub c l ;;; let* a := last_anc in cx_body qc qt a) s = (s', r) /\ weak s' (szs ++ ext) n0 /\
    s_tname s' = s_tname s /\ (forall x, x ∈ names s -> x ∈ names s') /\
    (forall i, 0 <= i < s_n s -> treg_lookup (s_tq s') i = treg_lookup (s_tq s) i) /\
    dict_get "ancilla"%string (s_tq s') <> None /\
    n0 <= k /\ is_side (s_tname s) (szs ++ ext) k da /\
    (if side_supported dc da then r = Ok tt /\ s_instrs s' = s_instrs s ++ cx_code dc dt da
    else r = Err ValueError \/ r = Err CircuitError) /\
    (dict_get "ancilla"%string (s_tq s) = None -> params_empty p = false -> forall q, lat_params (tq_lat q) = l -> has_cnt s' q (Cnt (-1) (-1) (-1))) /\
    (dict_get "ancilla"%string (s_tq s) = None -> da = Side (code_of t) (qname (s_tname s) (s_n s)) dh dw) /\
    exists s1, anc_sub c l s = (s1, Ok tt) /\ cx_post_ok s1 s' /\
      (dict_get "ancilla"%string (s_tq s) = None -> add_tqubit "ancilla" c l s = (s1, Ok tt) /\ ext = [(t, (dh, dw))]) /\
      (dict_get "ancilla"%string (s_tq s) <> None -> s1 = s /\ ext = []).
Proof.
  intros Hw Hi Hj Hdc Hdt Hc Hp Ha Hv Hown. pose proof (wk_n _ _ _ Hw) as Hn.
  pose proof (lookup_bound _ _ _ _ _ Hw Hi) as Hib. pose proof (lookup_bound _ _ _ _ _ Hw Hj) as Hjb.
  destruct (dict_get "ancilla"%string (s_tq s)) as [sb|] eqn:Ed.
  - assert (HA : anc_sub c l s = (s, Ok tt)) by (unfold anc_sub; erewrite mbind_ok by done; by rewrite Ed).
    erewrite mbind_ok by exact HA.
    destruct (tail_weak s szs n0 i j qc qt dc dt Hw) as (s' & r & k & da & E & HP & Hk & Hda & (sb0 & qa & l0 & Esb & Erv) & HR); [by rewrite Ed|done..|].
    pose proof HP as [_ (_ & _ & F3 & F4 & F5) (ns & HN & _)].
    exists s', r, [], k, da. rewrite app_nil_r. split_and!; try done.
    + by eapply weak_cxpost.
    + intros x Hx. rewrite HN. apply elem_of_app. by left.
    + intros x _. by rewrite F5.
    + by rewrite F5, Ed.
    + by exists s.
  - destruct (add_weak s szs n0 "ancilla" c t l p dh dw Hw Hc Hp Ha Hv Hown) as (s1 & q & EA & Hw1 & T1 & I1 & N1 & L1 & K1 & G1 & C1 & Q1 & M1); [done|].
    assert (HA : anc_sub c l s = (s1, Ok tt)) by (unfold anc_sub; erewrite mbind_ok by done; rewrite Ed; exact EA).
    erewrite mbind_ok by exact HA. rewrite Ed in G1. cbn [default] in G1.
    destruct (tail_weak s1 (szs ++ [(t, (dh, dw))]) n0 i j qc qt dc dt Hw1) as (s' & r & k & da & E & HP & Hk & Hda & (sb0 & qa & l0 & Esb & Erv) & HR).
    { by rewrite G1. } { by rewrite K1. } { by rewrite K1. } { rewrite T1. by apply is_side_app. } { rewrite T1. by apply is_side_app. }
    pose proof HP as [_ (F1 & _ & F3 & F4 & F5) (ns & HN & _)].
    assert (Hk0 : k = s_n s).
    { rewrite G1 in Esb. injection Esb as <-. cbn in Erv. by injection Erv. }
    rewrite T1 in Hda. rewrite I1 in HR.
    exists s', r, [(t, (dh, dw))], k, da. split_and!; try done.
    + by eapply weak_cxpost.
    + congruence.
    + intros x Hx. rewrite HN. apply elem_of_app. left. by apply M1.
    + intros x Hx. rewrite F5. by apply K1.
    + by rewrite F5, G1.
    + intros _ He q' Hq'. eapply has_cnt_heap; [by rewrite F1|]. destruct C1 as (p1 & Hp1 & Hp2). exists p1. split; [|done].
      by rewrite Hq', <-(Q1 He).
    + intros _. destruct Hda as (t' & dh' & dw' & _ & Hsz & ->). rewrite Hk0, Hn, Nat2Z.id, lookup_app_r, Nat.sub_diag in Hsz by lia.
      injection Hsz as <- <- <-. by rewrite Hk0.
    + by exists s1.
Qed.
