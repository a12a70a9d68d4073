(** Circuits run with a noise model attached to the "id" instruction: Pauli errors after every
    identity gate.  Vocabulary and facts for property C55. *)
From Verif Require Export Expect Noise SpecRun RunFacts P_Multi P_EndToEnd.
From stdpp Require Export list.
Open Scope Z_scope.

(** ** The noisy circuit *)
(** data/*/simulation.py, noise_model_func (data/rep_threshold/20210617/simulation.py:15-21):
    [add_all_qubit_quantum_error(pauli_error(...), "id")] makes the simulator apply, after every
    "id" instruction, a Pauli error drawn independently.  [pat] lists the errors drawn, in the
    order of the instructions; each is applied as gates, up to a global phase. *)
Definition pauli_gates (a : pauli1) (q : qubit) : list instr := (if a.1 then [IX q] else []) ++ (if a.2 then [IZ q] else []).
Fixpoint noisy (is : list instr) (pat : list pauli1) : list instr :=
  match is with
  | [] => []
  | IId q :: is => IId q :: match pat with a :: pat => pauli_gates a q ++ noisy is pat | [] => noisy is [] end
  | i :: is => i :: noisy is pat
  end.
Definition is_id (i : instr) : bool := match i with IId _ => true | _ => false end.
(** The number of "id" instructions. *)
Definition places (is : list instr) : nat := length (filter (fun i => is_id i = true) is).

Lemma places_app is1 is2 : places (is1 ++ is2) = (places is1 + places is2)%nat.
Proof. unfold places. by rewrite filter_app, app_length. Qed.
Lemma places_cons i is : places (i :: is) = ((if is_id i then 1 else 0) + places is)%nat.
Proof. unfold places. rewrite filter_cons. by destruct (is_id i). Qed.
Lemma noisy_plain is pat : places is = 0%nat -> noisy is pat = is.
Proof. induction is as [|i is IHl]; [done|]. rewrite places_cons. intros H. destruct i; cbn [noisy is_id] in *; try lia; rewrite IHl by lia; done. Qed.
Lemma noisy_app is1 is2 pat : noisy (is1 ++ is2) pat = noisy is1 (take (places is1) pat) ++ noisy is2 (drop (places is1) pat).
Proof.
  revert pat. induction is1 as [|i is1 IHl]; intros pat; [done|]. rewrite places_cons.
  destruct i; cbn [app noisy is_id Nat.add]; try (rewrite IHl; done).
  destruct pat as [|a pat]; cbn [take drop app]; [by rewrite IHl, take_nil, drop_nil|]. rewrite IHl, <-app_assoc. done.
Qed.

(** ** Gates without effect *)
Definition idle (i : instr) : bool := match i with IId _ | IBarrier => true | _ => false end.
Definition strip (is : list instr) : list instr := filter (fun i => idle i = false) is.
Lemma strip_app is1 is2 : strip (is1 ++ is2) = strip is1 ++ strip is2.
Proof. apply filter_app. Qed.
Lemma exec_strip {R : Amp} is (k k' : config R) : exec is k k' <-> exec (strip is) k k'.
Proof.
  revert k. induction is as [|i is IHl]; intros k; [done|]. unfold strip. rewrite filter_cons. fold (strip is).
  destruct (idle i) eqn:Ei; [rewrite decide_False by done|rewrite decide_True by done].
  - rewrite <-IHl. split; intros H.
    + inversion H; subst. assert (k'0 = k) as -> by (destruct i; try done; match goal with H : step _ _ _ |- _ => inversion H; subst; done end). done.
    + econstructor; [|exact H]. destruct k as [c psi]. destruct i; try done; constructor.
  - split; intros H; inversion H; subst; (econstructor; [done|]); by apply IHl.
Qed.
Lemma exec_same {R : Amp} is js (k k' : config R) : strip is = strip js -> exec is k k' -> exec js k k'.
Proof. intros E. rewrite exec_strip, E, <-exec_strip. done. Qed.

(** ** The noisy history *)
(** The same errors as events: after every [id_data], a fault on each of the [n] data qubits. *)
Definition error_evs (i : Z) (a : pauli1) : list ev := (if a.1 then [Fault true i] else []) ++ (if a.2 then [Fault false i] else []).
Definition block_evs (n : Z) (pat : list pauli1) : list ev := mjoin (zip_with error_evs (seqZ 0 n) pat).
Fixpoint noisy_evs (n : Z) (l : list op) (pat : list pauli1) : list ev :=
  match l with
  | [] => []
  | OIdData :: l => Noise.Call OIdData :: block_evs n (take (Z.to_nat n) pat) ++ noisy_evs n l (drop (Z.to_nat n) pat)
  | o :: l => Noise.Call o :: noisy_evs n l pat
  end.
Definition is_id_data (o : op) : bool := match o with OIdData => true | _ => false end.
(** Calls that emit "id" only through [id_data]. *)
Definition noise_ok (o : op) : bool := match o with OId => false | _ => true end.
Definition blocks (l : list op) : nat := length (filter (fun o => is_id_data o = true) l).
Lemma blocks_app l1 l2 : blocks (l1 ++ l2) = (blocks l1 + blocks l2)%nat.
Proof. unfold blocks. by rewrite filter_app, app_length. Qed.
Lemma blocks_cons o l : blocks (o :: l) = ((if is_id_data o then 1 else 0) + blocks l)%nat.
Proof. unfold blocks. rewrite filter_cons. by destruct (is_id_data o). Qed.

Lemma noisy_evs_app n l1 l2 pat : noisy_evs n (l1 ++ l2) pat =
  noisy_evs n l1 (take (blocks l1 * Z.to_nat n) pat) ++ noisy_evs n l2 (drop (blocks l1 * Z.to_nat n) pat).
Proof.
  revert pat. induction l1 as [|o l1 IHl]; intros pat; [done|]. rewrite blocks_cons.
  destruct o; cbn [app noisy_evs is_id_data Nat.add]; try (rewrite IHl; done).
  rewrite IHl. cbn [app]. f_equal. rewrite <-app_assoc. f_equal.
  - f_equal. rewrite take_take. f_equal. lia.
  - rewrite drop_drop, Nat.mul_succ_l. f_equal; f_equal; [|f_equal; lia].
    rewrite take_drop_commute. f_equal. f_equal. lia.
Qed.
Lemma calls_block n pat : calls (block_evs n pat) = [].
Proof.
  unfold block_evs. generalize (seqZ 0 n). intros L. revert pat. induction L as [|i L IHl]; intros [|a pat]; try done.
  cbn [zip_with mjoin list_join]. fold (mjoin (zip_with error_evs L pat)). rewrite calls_app, IHl. destruct a as [[] []]; done.
Qed.
Lemma calls_noisy n l pat : calls (noisy_evs n l pat) = l.
Proof. revert pat. induction l as [|o l IHl]; intros pat; [done|]. destruct o; cbn [noisy_evs]; rewrite calls_cons, ?calls_app, ?calls_block, IHl; done. Qed.

(** ** The noisy circuit is the circuit of the noisy history *)
Lemma no_id is : (forall i, i ∈ is -> is_id i = false) -> places is = 0%nat.
Proof.
  induction is as [|i is IHl]; intros H; [done|]. rewrite places_cons, (H i) by left. apply IHl. intros j Hj. apply H. by right.
Qed.
Lemma compile_no_id s gs i : i ∈ compile s gs -> is_id i = false.
Proof.
  intros Hi. unfold compile in Hi. apply elem_of_list_join in Hi as (is & Hi & (g & -> & Hg)%elem_of_list_fmap).
  unfold group in Hi. destruct g.1.
  - apply elem_of_app in Hi as [Hi%elem_of_list_singleton|Hi]; [by subst|].
    apply elem_of_app in Hi as [Hi|Hi%elem_of_list_singleton]; [|by subst]. by apply elem_of_list_fmap in Hi as (q & -> & Hq).
  - by apply elem_of_list_fmap in Hi as (q & -> & Hq).
Qed.
Lemma op_no_id c name dh dw n o : valid_size dh dw -> noise_ok o = true -> is_id_data o = false -> places (op_code c name dh dw n o) = 0%nat.
Proof.
  intros Hv Ho Hd. apply no_id. intros i Hi.
  assert (HL : forall A (f : A -> instr) (l : list A), (forall q, is_id (f q) = false) -> i ∈ f <$> l -> is_id i = false).
  { intros A f l Hf (q & -> & _)%elem_of_list_fmap. apply Hf. }
  assert (HB : i ∈ [IBarrier] -> is_id i = false) by (intros ->%elem_of_list_singleton; done).
  assert (HC : forall q gs, i ∈ IReset q :: compile q gs -> is_id i = false) by (intros q gs [->|?%compile_no_id]%elem_of_cons; done).
  destruct o as [|r|r| | | | | | | |]; cbn [op_code] in *; try done.
  - unfold round_instrs in Hi. rewrite meas_instrs_eq, reset_instrs_eq, lat_stabs_syns, ent_instrs_eq in Hi.
    apply elem_of_app in Hi as [Hi|Hi].
    { apply elem_of_list_join in Hi as (is & Hi & (k & -> & Hk%elem_of_syns)%elem_of_list_fmap).
      unfold ent_k in Hi. apply elem_of_app in Hi as [Hi|Hi]; [|by apply HB]. rewrite ent_compile in Hi by done. by eapply compile_no_id. }
    apply elem_of_app in Hi as [Hi|Hi].
    { eapply HL; [|exact Hi]. done. }
    apply elem_of_app in Hi as [Hi|Hi]; [|by apply HB]. by eapply (HL _ IReset).
  - unfold rd_x in Hi. apply elem_of_app in Hi as [Hi|[Hi|Hi]%elem_of_app]; [by eapply HC| |by apply HB]. eapply HL; [|exact Hi]. done.
  - unfold rd_z in Hi. apply elem_of_app in Hi as [Hi|[Hi|Hi]%elem_of_app]; [by eapply HC| |by apply HB]. eapply HL; [|exact Hi]. done.
  - unfold lr_x in Hi. apply elem_of_app in Hi as [Hi|[Hi|Hi]%elem_of_app]; [|eapply HL; [|exact Hi]; done|by apply HB].
    destruct c; by eapply (HL _ IH).
  - unfold lr_z in Hi. apply elem_of_app in Hi as [Hi|[Hi|Hi]%elem_of_app]; [|eapply HL; [|exact Hi]; done|by apply HB].
    destruct c; [by apply elem_of_nil in Hi|]. by eapply (HL _ IH).
  - unfold rs_x in Hi. apply elem_of_app in Hi as [Hi|Hi]; [by eapply (HL _ IReset)|].
    destruct c; [apply elem_of_app in Hi as [Hi|Hi]; [|by apply HB]|]; by eapply (HL _ IH).
  - unfold rs_z in Hi. apply elem_of_app in Hi as [Hi|Hi]; [by eapply (HL _ IReset)|].
    destruct c; [by apply HB|]; by eapply (HL _ IH).
  - unfold logx_instrs in Hi. apply elem_of_app in Hi as [Hi|Hi]; [|by apply HB].
    apply elem_of_list_fmap in Hi as (j & -> & _). unfold xgate. destruct c; [done|]. by case_bool_decide.
  - unfold logz_instrs in Hi. apply elem_of_app in Hi as [Hi|Hi]; [|by apply HB].
    apply elem_of_list_fmap in Hi as (j & -> & _). unfold zgate. destruct c; [done|]. by case_bool_decide.
Qed.
Lemma places_id_data name n : places (id_data_instrs name n) = Z.to_nat n.
Proof.
  unfold id_data_instrs. rewrite places_app. rewrite <-(seqZ_length 0 n). generalize (seqZ 0 n). intros L. change (places [IBarrier]) with 0%nat.
  rewrite Nat.add_0_r. induction L as [|i L IHl]; [done|]. rewrite !fmap_cons, places_cons, IHl. done.
Qed.
Lemma op_places c name dh dw n o : valid_size dh dw -> noise_ok o = true ->
  places (op_code c name dh dw n o) = ((if is_id_data o then 1 else 0) * Z.to_nat (dh * dw))%nat.
Proof.
  intros Hv Ho. destruct (is_id_data o) eqn:Hd; [|by rewrite op_no_id]. destruct o; try done. cbn [op_code]. rewrite places_id_data. unfold num_data. lia.
Qed.
Lemma ops_places c name dh dw n l : valid_size dh dw -> Forall (fun o => noise_ok o = true) l ->
  places (evs_code c name dh dw n (Noise.Call <$> l)) = (blocks l * Z.to_nat (dh * dw))%nat.
Proof.
  intros Hv Hl. revert n. induction Hl as [|o l Ho Hl IHl]; intros n; [done|]. rewrite fmap_cons. cbn [evs_code ev_code].
  rewrite places_app, op_places, IHl, blocks_cons by done. lia.
Qed.
Lemma block_next n N pat : evs_next n (block_evs N pat) = n.
Proof.
  unfold block_evs. generalize (seqZ 0 N). intros L. revert pat. induction L as [|i L IHl]; intros [|a pat]; try done.
  cbn [zip_with mjoin list_join]. fold (mjoin (zip_with error_evs L pat)). destruct a as [[] []]; cbn; apply IHl.
Qed.
Lemma block_reg name dh dw n N pat : evs_reg name dh dw n (block_evs N pat) = [].
Proof.
  unfold block_evs. generalize (seqZ 0 N). intros L. revert pat. induction L as [|i L IHl]; intros [|a pat]; try done.
  cbn [zip_with mjoin list_join]. fold (mjoin (zip_with error_evs L pat)). destruct a as [[] []]; cbn; apply IHl.
Qed.
Lemma block_code c name dh dw n N pat :
  strip (noisy (id_data_instrs name N) pat) = strip (evs_code c name dh dw n (block_evs N pat)).
Proof.
  unfold id_data_instrs. rewrite noisy_app, strip_app. rewrite (noisy_plain [IBarrier]) by done. change (strip [IBarrier]) with (@nil instr). rewrite app_nil_r.
  assert (E : places (IId <$> (dq name <$> seqZ 0 N)) = length (seqZ 0 N)).
  { generalize (seqZ 0 N). intros L. induction L as [|i L IHl]; [done|]. rewrite !fmap_cons, places_cons, IHl. done. }
  rewrite E. unfold block_evs. clear E. generalize (seqZ 0 N). intros L. revert pat. induction L as [|i L IHl]; intros [|a pat]; try done.
  - rewrite take_nil, !fmap_cons. cbn [noisy]. specialize (IHl []). rewrite take_nil in IHl. unfold strip in *. rewrite filter_cons_False by done. rewrite IHl. by destruct L.
  - rewrite !fmap_cons. cbn [length take noisy zip_with mjoin list_join]. fold (mjoin (zip_with error_evs L pat)).
    unfold strip. rewrite filter_cons_False by done. fold (strip (pauli_gates a (dq name i) ++ noisy (IId <$> (dq name <$> L)) (take (length L) pat))). fold (strip (evs_code c name dh dw n (error_evs i a ++ mjoin (zip_with error_evs L pat)))).
    rewrite strip_app, IHl. destruct a as [[] []]; done.
Qed.
Lemma code_app c name dh dw n l1 l2 : evs_code c name dh dw n (l1 ++ l2) = evs_code c name dh dw n l1 ++ evs_code c name dh dw (evs_next n l1) l2.
Proof. revert n. induction l1 as [|e l1 IHl]; intros n; [done|]. cbn [app evs_code evs_next]. by rewrite IHl, <-app_assoc. Qed.
Lemma noisy_code c name dh dw n l pat : valid_size dh dw -> Forall (fun o => noise_ok o = true) l ->
  strip (noisy (evs_code c name dh dw n (Noise.Call <$> l)) pat) = strip (evs_code c name dh dw n (noisy_evs (dh * dw) l pat)).
Proof.
  intros Hv Hl. revert n pat. induction Hl as [|o l Ho Hl IHl]; intros n pat; [done|]. rewrite fmap_cons. cbn [evs_code ev_code ev_next].
  rewrite noisy_app, strip_app, op_places by done. destruct (is_id_data o) eqn:Hd.
  - destruct o; try done. rewrite Nat.mul_1_l. cbn [noisy_evs evs_code ev_code ev_next op_code op_next]. rewrite code_app, strip_app, strip_app, block_next.
    unfold num_data in *. replace (dw * dh) with (dh * dw) by lia. rewrite (block_code c name dh dw n), IHl.
    assert (E : strip (id_data_instrs name (dh * dw)) = []).
    { unfold id_data_instrs. rewrite strip_app. change (strip [IBarrier]) with (@nil instr). rewrite app_nil_r. generalize (seqZ 0 (dh * dw)). intros L. induction L as [|i L IHL]; [done|]. rewrite !fmap_cons. unfold strip. rewrite filter_cons_False by done. apply IHL. }
    rewrite E. done.
  - rewrite Nat.mul_0_l, take_0, drop_0, noisy_plain by (by apply op_no_id). rewrite IHl.
    assert (En : noisy_evs (dh * dw) (o :: l) pat = Noise.Call o :: noisy_evs (dh * dw) l pat) by (by destruct o).
    rewrite En. cbn [evs_code ev_code ev_next]. by rewrite strip_app.
Qed.

(** ** The noisy history runs whenever the program does *)
Lemma block_run q N pat s : exists s', run_evs q (block_evs N pat) s = (s', Ok tt) /\ s_regs s' = s_regs s.
Proof.
  unfold block_evs. generalize (seqZ 0 N). intros L. revert pat s. induction L as [|i L IHl]; intros [|a pat] s; try (by exists s).
  cbn [zip_with mjoin list_join]. fold (mjoin (zip_with error_evs L pat)).
  assert (F : forall l s, Forall (fun e => match e with Fault _ _ => True | _ => False end) l -> exists s', run_evs q l s = (s', Ok tt) /\ s_regs s' = s_regs s).
  { clear. intros l s Hl. revert s. induction Hl as [|e l He Hl IHl]; intros s; [by exists s|]. destruct e as [|x i]; [done|].
    unfold run_evs. cbn [mfor run_ev]. erewrite mbind_ok by apply emit_eq. destruct (IHl (app_instrs s [pgate x ((lat_data (tq_lat q)).1, i)])) as (s' & E & R). by exists s'. }
  apply F. apply Forall_app. split; [destruct a as [[] []]; repeat constructor|].
  clear. revert pat. induction L as [|i L IHl]; intros [|a pat]; try constructor. cbn [zip_with mjoin list_join]. apply Forall_app. split; [destruct a as [[] []]; repeat constructor|apply IHl].
Qed.
Lemma run_evs_app q l1 l2 s s1 : run_evs q l1 s = (s1, Ok tt) -> run_evs q (l1 ++ l2) s = run_evs q l2 s1.
Proof.
  revert s. induction l1 as [|e l1 IHl]; intros s H; [by injection H as ->|]. unfold run_evs in *. cbn [app mfor] in *. unfold mbind' in *.
  destruct (run_ev q e s) as [s2 [[]|x]]; [by apply IHl|done].
Qed.
Lemma noisy_run q dh dw l pat : forall s t s' n, lat_ok s q dh dw -> has_cnt s q n -> lat_ok t q dh dw -> has_cnt t q n -> s_regs t = s_regs s ->
  run_evs q (Noise.Call <$> l) s = (s', Ok tt) -> exists t', run_evs q (noisy_evs (dh * dw) l pat) t = (t', Ok tt) /\ s_regs t' = s_regs s'.
Proof.
  revert pat. induction l as [|o l IHl]; intros pat s t s' n Hok Hn Hokt Hnt Hreg Hr.
  - injection Hr as <-. by exists t.
  - rewrite fmap_cons in Hr. unfold run_evs in Hr. cbn [mfor run_ev] in Hr. unfold mbind' in Hr. destruct (run_op q o s) as [s1 [[]|e]] eqn:E; [|done].
    destruct (run_op_inv s q dh dw n o s1 Hok Hn E) as (Ho & Hf & HP).
    assert (Hft : op_fresh t (lat_name (tq_lat q)) dh dw n o) by (intros r Hrr; unfold names; rewrite Hreg; by apply Hf).
    destruct (run_op_ok t q dh dw n o Hokt Hnt Ho Hft) as (t1 & Et & HPt).
    assert (Hreg1 : s_regs t1 = s_regs s1) by (rewrite (po_regs _ _ _ _ _ _ _ _ HP), (po_regs _ _ _ _ _ _ _ _ HPt), Hreg; done).
    destruct HP as [Hok1 Hn1 _ _ _], HPt as [Hokt1 Hnt1 _ _ _].
    destruct (is_id_data o) eqn:Hd.
    + destruct o; try done. cbn [noisy_evs]. destruct (block_run q (dh * dw) (take (Z.to_nat (dh * dw)) pat) t1) as (t2 & E2 & R2).
      pose proof (run_evs_inv _ _ _ _ _ _ _ Hokt1 Hnt1 E2) as [Hokt2 Hnt2 _ _ _]. rewrite block_next in Hnt2.
      destruct (IHl (drop (Z.to_nat (dh * dw)) pat) s1 t2 s' _ Hok1 Hn1 Hokt2 Hnt2 ltac:(by rewrite R2) Hr) as (t' & E' & R').
      exists t'. split; [|done]. unfold run_evs. cbn [mfor run_ev]. erewrite mbind_ok by exact Et. fold (run_evs q (block_evs (dh * dw) (take (Z.to_nat (dh * dw)) pat) ++ noisy_evs (dh * dw) l (drop (Z.to_nat (dh * dw)) pat))).
      by erewrite run_evs_app by exact E2.
    + assert (En : noisy_evs (dh * dw) (o :: l) pat = Noise.Call o :: noisy_evs (dh * dw) l pat) by (by destruct o). rewrite En.
      destruct (IHl pat s1 t1 s' _ Hok1 Hn1 Hokt1 Hnt1 Hreg1 Hr) as (t' & E' & R').
      exists t'. split; [|done]. unfold run_evs. cbn [mfor run_ev]. by erewrite mbind_ok by exact Et.
Qed.

(** ** Which errors matter *)
(** Does an X error (rather than a Z error) on data qubit i invert stabilizers of this type. *)
Definition sel (isx : bool) (c : code) (dh dw i : Z) : bool := bool_decide (err_at isx c dh dw i = Xon {[i]}).
Fixpoint sels (isx : bool) (c : code) (dh dw : Z) (k : nat) : list bool :=
  match k with O => [] | S k => (sel isx c dh dw <$> seqZ 0 (dh * dw)) ++ sels isx c dh dw k end.
Lemma sels_length isx c dh dw k : length (sels isx c dh dw k) = (k * Z.to_nat (dh * dw))%nat.
Proof. induction k as [|k IHk]; [done|]. cbn [sels]. rewrite app_length, fmap_length, seqZ_length, IHk. lia. Qed.
Lemma relevant_app ss1 ss2 l : relevant (ss1 ++ ss2) l = relevant ss1 (take (length ss1) l) ++ relevant ss2 (drop (length ss1) l).
Proof.
  revert l. induction ss1 as [|x ss1 IHl]; intros [|a l]; try done; cbn [app length take drop]; unfold relevant in *; cbn [zip_with app].
  - by destruct ss2.
  - by rewrite IHl.
Qed.
Lemma relevant_length ss l : length l = length ss -> length (relevant ss l) = length ss.
Proof. intros H. unfold relevant. rewrite zip_with_length. lia. Qed.
Lemma ntrue_app b1 b2 : ntrue (b1 ++ b2) = (ntrue b1 + ntrue b2)%nat.
Proof. unfold ntrue. by rewrite filter_app, app_length. Qed.

(** The places of a list at which the flag is set. *)
Definition chosen (L : list Z) (b : list bool) : list Z := fst <$> filter (fun p => p.2 = true) (zip L b).
Lemma chosen_cons i L x b : chosen (i :: L) (x :: b) = (if x then [i] else []) ++ chosen L b.
Proof. unfold chosen. cbn [zip zip_with]. rewrite filter_cons. destruct x; cbn [snd]; [rewrite decide_True by done|rewrite decide_False by done]; done. Qed.
Lemma chosen_length L b : length b = length L -> length (chosen L b) = ntrue b.
Proof.
  revert b. induction L as [|i L IHl]; intros [|x b] H; try done. injection H as H. rewrite chosen_cons, ntrue_cons, app_length, IHl by done. by destruct x.
Qed.
Lemma chosen_sublist L b : chosen L b `sublist_of` L.
Proof.
  revert b. induction L as [|i L IHl]; intros b; [done|]. destruct b as [|x b]; [apply sublist_nil_l|]. rewrite chosen_cons.
  destruct x; cbn [app]; [by apply sublist_skip|by apply sublist_cons].
Qed.
Lemma chosen_mask (f : Z -> bool) L b i : confined (f <$> L) b = true -> length b = length L -> i ∈ chosen L b -> f i = true.
Proof.
  revert b. induction L as [|j L IHl]; intros [|x b] Hin H Hi; try done; [by apply elem_of_nil in Hi..|].
  injection H as H. rewrite chosen_cons in Hi. rewrite fmap_cons in Hin. unfold confined in Hin. cbn [zip_with forallb] in Hin. apply andb_true_iff in Hin as [Hx Hin].
  apply elem_of_app in Hi as [Hi|Hi]; [|by eapply IHl].
  destruct x; [|by apply elem_of_nil in Hi]. apply elem_of_list_singleton in Hi as ->. by destruct (f j).
Qed.

Lemma err_at_cases isx c dh dw i : err_at isx c dh dw i = Xon {[i]} \/ err_at isx c dh dw i = Zon {[i]}.
Proof.
  unfold err_at, cconj. destruct c; [destruct isx; auto|]. destruct (decide (i ∈ even_set dh dw)) as [He|He].
  - destruct isx; [left|right]; apply pauli_eq; cbn; set_solver.
  - destruct isx; [right|left]; apply pauli_eq; cbn; set_solver.
Qed.
Lemma XZ_neq i : (Xon {[i]} : pauli Z) <> Zon {[i]}.
Proof. intros E. apply (f_equal px) in E. cbn in E. set_solver. Qed.
Lemma flips_app isx c dh dw t l1 l2 : flips_of isx c dh dw t (l1 ++ l2) =
  flips_of isx c dh dw t l1 ++ flips_of isx c dh dw (t + Z.of_nat (count is_stab (calls l1))) l2.
Proof.
  revert t. induction l1 as [|e l1 IHl]; intros t; [cbn [app flips_of calls]; by rewrite Z.add_0_r|].
  destruct e as [o|x i]; cbn [app flips_of].
  - rewrite IHl, calls_cons, count_step. f_equal. f_equal. destruct (is_stab o); lia.
  - rewrite IHl. change (calls (Fault x i :: l1)) with (calls l1). by case_bool_decide.
Qed.
Lemma error_flips isx c dh dw t i a : flips_of isx c dh dw t (error_evs i a) = if (if sel isx c dh dw i then a.1 else a.2) then [(t, i)] else [].
Proof.
  unfold sel. destruct (err_at_cases isx c dh dw i) as [E|E]; rewrite E.
  - rewrite bool_decide_true by done. destruct a as [[] []]; cbn [error_evs app fst snd flips_of]; rewrite ?E; cbn [fault_of];
      repeat first [rewrite bool_decide_true by done|rewrite bool_decide_false by (intros ?; by eapply XZ_neq)]; done.
  - rewrite bool_decide_false by (intros ?; by eapply XZ_neq). destruct a as [[] []]; cbn [error_evs app fst snd flips_of]; rewrite ?E; cbn [fault_of];
      repeat first [rewrite bool_decide_true by done|rewrite bool_decide_false by (intros ?; by eapply XZ_neq)]; done.
Qed.
Lemma block_flips isx c dh dw t n pat : flips_of isx c dh dw t (block_evs n pat) = (t,.) <$> chosen (seqZ 0 n) (relevant (sel isx c dh dw <$> seqZ 0 n) pat).
Proof.
  unfold block_evs. generalize (seqZ 0 n). intros L. revert pat. induction L as [|i L IHl]; intros [|a pat]; try done.
  cbn [zip_with mjoin list_join]. fold (mjoin (zip_with error_evs L pat)). rewrite flips_app, error_flips.
  assert (calls (error_evs i a) = []) as -> by (destruct a as [[] []]; done). rewrite Z.add_0_r, IHl.
  rewrite fmap_cons. unfold relevant at 2. cbn [zip_with]. rewrite chosen_cons. fold (relevant (sel isx c dh dw <$> L) pat). rewrite fmap_app. f_equal. by destruct (if sel isx c dh dw i then _ else _).
Qed.
Lemma noisy_flips_length isx c dh dw t l pat : length pat = (blocks l * Z.to_nat (dh * dw))%nat ->
  length (flips_of isx c dh dw t (noisy_evs (dh * dw) l pat)) = ntrue (relevant (sels isx c dh dw (blocks l)) pat).
Proof.
  revert t pat. induction l as [|o l IHl]; intros t pat Hp; [done|]. rewrite blocks_cons in *.
  destruct o; cbn [noisy_evs flips_of is_id_data Nat.add] in *; try (by apply IHl).
  cbn [is_stab]. rewrite flips_app, calls_block, app_length. cbn [sels]. rewrite relevant_app, ntrue_app. rewrite fmap_length, seqZ_length, IHl by (rewrite drop_length; lia).
  f_equal. rewrite block_flips, fmap_length. apply chosen_length. rewrite relevant_length by (rewrite take_length, fmap_length, seqZ_length; lia). by rewrite fmap_length.
Qed.
(** The first [id_data] call only. *)
Lemma confined_app m1 m2 b1 b2 : length m1 = length b1 -> confined (m1 ++ m2) (b1 ++ b2) = confined m1 b1 && confined m2 b2.
Proof. intros H. unfold confined. rewrite zip_with_app by done. apply forallb_app. Qed.
Lemma confined_false k b : length b = k -> confined (replicate k false) b = true -> ntrue b = 0%nat.
Proof.
  intros <-. induction b as [|x b IHl]; [done|]. intros H. cbn [length replicate] in H. unfold confined in H. cbn [zip_with forallb] in H. apply andb_true_iff in H as [Hx H].
  rewrite ntrue_cons, IHl by done. by destruct x.
Qed.
Lemma noisy_flips_first isx c dh dw (f : Z -> bool) k l pat : forall t, blocks l = S k -> length pat = (S k * Z.to_nat (dh * dw))%nat ->
  confined ((f <$> seqZ 0 (dh * dw)) ++ replicate (k * Z.to_nat (dh * dw)) false) (relevant (sels isx c dh dw (S k)) pat) = true ->
  exists t' F, flips_of isx c dh dw t (noisy_evs (dh * dw) l pat) = (t',.) <$> F /\ F `sublist_of` seqZ 0 (dh * dw) /\
    (forall i, i ∈ F -> f i = true) /\ length F = ntrue (relevant (sels isx c dh dw (S k)) pat).
Proof.
  revert pat. induction l as [|o l IHl]; intros pat t Hb Hp Hin; [done|]. rewrite blocks_cons in Hb.
  destruct (is_id_data o) eqn:Ho.
  - destruct o; try done. injection Hb as Hb. cbn [noisy_evs flips_of is_stab].
    set (n := dh * dw) in *. set (ss := sel isx c dh dw <$> seqZ 0 n) in *. set (p1 := take (Z.to_nat n) pat). set (p2 := drop (Z.to_nat n) pat).
    assert (Hss : length ss = Z.to_nat n) by (unfold ss; by rewrite fmap_length, seqZ_length).
    assert (Hp1 : length p1 = Z.to_nat n) by (unfold p1; rewrite take_length; lia).
    assert (Hp2 : length p2 = (blocks l * Z.to_nat n)%nat) by (unfold p2; rewrite drop_length; lia).
    assert (E : relevant (sels isx c dh dw (S k)) pat = relevant ss p1 ++ relevant (sels isx c dh dw k) p2).
    { cbn [sels]. fold n. fold ss. rewrite relevant_app, Hss. done. }
    rewrite E in Hin |- *. rewrite confined_app in Hin by (rewrite relevant_length by lia; rewrite fmap_length, seqZ_length; lia).
    apply andb_true_iff in Hin as [Hin Hout].
    assert (H0 : ntrue (relevant (sels isx c dh dw k) p2) = 0%nat).
    { eapply confined_false; [|exact Hout]. rewrite relevant_length by (rewrite sels_length; fold n; lia). rewrite sels_length. done. }
    assert (Hrest : forall u, flips_of isx c dh dw u (noisy_evs n l p2) = []).
    { intros u. apply nil_length_inv. unfold n. rewrite noisy_flips_length by (fold n; done). rewrite Hb. done. }
    exists t, (chosen (seqZ 0 n) (relevant ss p1)). rewrite flips_app, block_flips, Hrest, app_nil_r. fold ss.
    assert (Hl1 : length (relevant ss p1) = length (seqZ 0 n)) by (rewrite relevant_length by lia; rewrite seqZ_length; lia).
    split; [done|]. split; [apply chosen_sublist|]. split; [|rewrite chosen_length, ntrue_app, H0 by done; lia].
    intros i Hi. eapply chosen_mask; [exact Hin|done|exact Hi].
  - assert (En : noisy_evs (dh * dw) (o :: l) pat = Noise.Call o :: noisy_evs (dh * dw) l pat) by (by destruct o).
    rewrite En. cbn [flips_of]. apply IHl; done.
Qed.
