(** Levels of the bits, for C76: bounds from above and from below on what each call adds. *)
From Verif Require Import QRound.
From Verif Require Export SizeFacts.
From stdpp Require Export list.
Open Scope Z_scope.

Definition lv (U : list qubit) (lev : wire -> Z) (is : list instr) : wire -> Z := foldl (level_step U) lev is.
Definition ub (K : Z) (lev : wire -> Z) : Prop := forall w, lev w <= K.
Definition lb (U : list qubit) (K : Z) (lev : wire -> Z) : Prop := forall q, q ∈ U -> K <= lev (WQ q).

Lemma highest_cons lev w ws : highest lev (w :: ws) = Z.max (lev w) (highest lev ws).
Proof. done. Qed.
Lemma highest_nonneg lev ws : 0 <= highest lev ws.
Proof. induction ws as [|w ws IHws]; [done|]. rewrite highest_cons. lia. Qed.
Lemma highest_ge lev ws w : w ∈ ws -> lev w <= highest lev ws.
Proof. induction 1 as [|w v ws _ IHw]; rewrite highest_cons; lia. Qed.
Lemma highest_le lev ws K : 0 <= K -> (forall w, w ∈ ws -> lev w <= K) -> highest lev ws <= K.
Proof. intros HK. induction ws as [|w ws IHws]; intros H; [done|]. rewrite highest_cons. pose proof (H w ltac:(by left)). specialize (IHws ltac:(intros; apply H; by right)). lia. Qed.
Lemma lv_app U lev a b : lv U lev (a ++ b) = lv U (lv U lev a) b.
Proof. apply foldl_app. Qed.
Lemma lv_cons U lev i is : lv U lev (i :: is) = lv U (level_step U lev i) is.
Proof. done. Qed.
Lemma step_grows U lev i w : lev w <= level_step U lev i w.
Proof. unfold level_step. case_bool_decide as H; [|done]. pose proof (highest_ge lev _ _ H). destruct i; lia. Qed.
Lemma lv_grows U is : forall lev w, lev w <= lv U lev is w.
Proof. induction is as [|i is IHis]; intros lev w; [done|]. rewrite lv_cons. etransitivity; [apply step_grows|apply IHis]. Qed.

(** ** From above *)
Definition is_gate (i : instr) : bool := match i with IBarrier => false | _ => true end.
Lemma ub_step U lev i K : 0 <= K -> ub K lev -> ub (K + (if is_gate i then 1 else 0)) (level_step U lev i).
Proof.
  intros HK Hu w. unfold level_step. pose proof (highest_le lev (wires U i) K HK ltac:(intros; apply Hu)). pose proof (Hu w).
  case_bool_decide; destruct i; cbn [is_gate]; lia.
Qed.
Lemma ub_all U is : forall lev K, 0 <= K -> ub K lev -> ub (K + number is_gate is) (lv U lev is).
Proof.
  induction is as [|i is IHis]; intros lev K HK Hu; cbn [number foldr]; [by rewrite Z.add_0_r|].
  rewrite lv_cons, Z.add_assoc. apply IHis; [destruct (is_gate i); lia|]. by apply ub_step.
Qed.
Lemma ub_barrier U lev K : 0 <= K -> ub K lev -> ub K (lv U lev [IBarrier]).
Proof. intros HK Hu. pose proof (ub_all U [IBarrier] lev K HK Hu) as H. by rewrite Z.add_0_r in H. Qed.
Lemma ub_weaken K K' lev : K <= K' -> ub K lev -> ub K' lev.
Proof. intros HK Hu w. specialize (Hu w). lia. Qed.

(** Instructions on different bits happen at the same time. *)
Fixpoint apart (U : list qubit) (is : list instr) : Prop :=
  match is with [] => True | i :: is' => (forall j w, j ∈ is' -> w ∈ wires U i -> w ∈ wires U j -> False) /\ apart U is' end.
Lemma ub_layer U is K : forall lev, 0 <= K -> apart U is -> (forall i w, i ∈ is -> w ∈ wires U i -> lev w <= K) -> ub (K + 1) lev -> ub (K + 1) (lv U lev is).
Proof.
  induction is as [|i is IHis]; intros lev HK Ha Hl Hu; [done|]. destruct Ha as [Hd Ha]. rewrite lv_cons.
  pose proof (highest_le lev (wires U i) K HK ltac:(intros w Hw; apply (Hl i w); [by left|done])) as Hh.
  apply IHis; [done|done| |].
  - intros j w Hj Hw. unfold level_step. rewrite bool_decide_eq_false_2; [apply (Hl j w); [by right|done]|]. intros Hi. by apply (Hd j w).
  - intros w. unfold level_step. pose proof (Hu w). case_bool_decide; destruct i; lia.
Qed.
Lemma apart_fmap {A} U (f : A -> instr) l : NoDup l -> (forall x y w, x ∈ l -> y ∈ l -> w ∈ wires U (f x) -> w ∈ wires U (f y) -> x = y) -> apart U (f <$> l).
Proof.
  induction l as [|x l IHl]; intros Hn Hd; [done|]. apply NoDup_cons in Hn as [Hx Hn]. cbn. split.
  - intros j w (y & -> & Hy)%elem_of_list_fmap H1 H2. pose proof (Hd x y w ltac:(by left) ltac:(by right) H1 H2) as ->. done.
  - apply IHl; [done|]. intros ????? . apply Hd; by right.
Qed.
Lemma ub_fmap {A} U (f : A -> instr) l K lev : NoDup l -> (forall x y w, x ∈ l -> y ∈ l -> w ∈ wires U (f x) -> w ∈ wires U (f y) -> x = y) ->
  0 <= K -> ub K lev -> ub (K + 1) (lv U lev (f <$> l)).
Proof.
  intros Hn Hd HK Hu. apply ub_layer; [done|by apply apart_fmap|intros; apply Hu|eapply ub_weaken, Hu; lia].
Qed.
(** One gate on each qubit *)
Lemma ub_single U (f : qubit -> instr) l K lev : NoDup l -> (forall q, wires U (f q) = [WQ q]) -> 0 <= K -> ub K lev -> ub (K + 1) (lv U lev (f <$> l)).
Proof.
  intros Hn Hf HK Hu. apply ub_fmap; [done| |done|done]. intros x y w _ _. rewrite !Hf, !elem_of_list_singleton. intros -> [=]. done.
Qed.

(** ** From below *)
Definition touch (q : qubit) (i : instr) : bool := is_gate i && bool_decide (WQ q ∈ wires [] i).
Lemma touch_wires U q i : touch q i = true -> WQ q ∈ wires U i.
Proof. unfold touch. intros [H1 H2%bool_decide_eq_true]%andb_true_iff. destruct i; done. Qed.
Lemma lb_touch U q is : forall lev K, K <= lev (WQ q) -> K + number (touch q) is <= lv U lev is (WQ q).
Proof.
  induction is as [|i is IHis]; intros lev K HK; cbn [number foldr]; [cbn; lia|]. rewrite lv_cons, Z.add_assoc. apply IHis.
  destruct (touch q i) eqn:E; [|rewrite Z.add_0_r; etransitivity; [exact HK|apply step_grows]].
  pose proof (touch_wires U q i E) as Hw. unfold level_step. rewrite bool_decide_eq_true_2 by done.
  pose proof (highest_ge lev _ _ Hw). apply andb_true_iff in E as [E _]. destruct i; cbn in E; try done; lia.
Qed.
Lemma lb_barrier U q lev K : q ∈ U -> K <= lev (WQ q) -> lb U K (lv U lev [IBarrier]).
Proof.
  intros Hq HK q' Hq'. cbn. unfold level_step. cbn [wires]. rewrite bool_decide_eq_true_2 by (apply elem_of_list_fmap; eauto).
  pose proof (highest_ge lev (WQ <$> U) (WQ q) ltac:(apply elem_of_list_fmap; eauto)). lia.
Qed.
Lemma lb_pivot U q is lev K : q ∈ U -> lb U K lev -> lb U (K + number (touch q) is) (lv U lev (is ++ [IBarrier])).
Proof. intros Hq Hl. rewrite lv_app. apply (lb_barrier U q); [done|]. by apply lb_touch, Hl. Qed.
Lemma lb_weaken U K K' lev : K' <= K -> lb U K lev -> lb U K' lev.
Proof. intros HK Hl q Hq. specialize (Hl q Hq). lia. Qed.
Lemma lb_grows U is K lev : lb U K lev -> lb U K (lv U lev is).
Proof. intros Hl q Hq. etransitivity; [by apply Hl|apply lv_grows]. Qed.

(** ** The depth *)
Lemma unused_zero U is : forall lev w, (forall i, i ∈ is -> w ∉ wires U i) -> lv U lev is w = lev w.
Proof.
  induction is as [|i is IHis]; intros lev w H; [done|]. rewrite lv_cons, IHis by (intros; apply H; by right).
  unfold level_step. rewrite bool_decide_eq_false_2; [done|]. apply H. by left.
Qed.
Lemma depth_ub U is : ub (depth U is) (levels U is).
Proof.
  intros w. unfold depth. destruct (decide (w ∈ mjoin (wires U <$> is))) as [H|H]; [by apply highest_ge|].
  pose proof (unused_zero U is (fun _ => 0) w) as E. unfold levels, lv in *. rewrite E; [apply highest_nonneg|].
  intros i Hi Hw. apply H. apply elem_of_list_join. eexists. split; [exact Hw|]. apply elem_of_list_fmap. eauto.
Qed.
Lemma depth_nonneg U is : 0 <= depth U is.
Proof. apply highest_nonneg. Qed.
Lemma depth_le U is K : 0 <= K -> ub K (levels U is) -> depth U is <= K.
Proof. intros HK Hu. apply highest_le; [done|]. intros; apply Hu. Qed.
Lemma depth_ge U is K q : q ∈ U -> lb U K (levels U is) -> K <= depth U is.
Proof. intros Hq Hl. etransitivity; [by apply (Hl q)|]. apply depth_ub. Qed.
Lemma top_qubit U is : forall lev, on_qubits U is -> (forall w, lev w <= highest lev (WQ <$> U)) ->
  forall w, lv U lev is w <= highest (lv U lev is) (WQ <$> U).
Proof.
  induction is as [|i is IHis]; intros lev Ho Hl w; [apply Hl|]. rewrite lv_cons. apply IHis; [intros ????; eapply Ho; [by right|done]|].
  clear w. intros w. assert (Hm : highest lev (WQ <$> U) <= highest (level_step U lev i) (WQ <$> U)).
  { apply highest_le; [apply highest_nonneg|]. intros w' Hw'. etransitivity; [apply step_grows|by apply highest_ge]. }
  unfold level_step at 1. case_bool_decide as Hw; [|etransitivity; [apply Hl|done]].
  destruct (is_gate i) eqn:Eg.
  - assert (exists q, q ∈ U /\ WQ q ∈ wires U i) as (q & Hq & Hqi).
    { destruct i; try done; cbn [wires] in *; eexists; (split; [eapply Ho; [by left|cbn [wires]; by left]|by left]). }
    assert (E : level_step U lev i (WQ q) = highest lev (wires U i) + match i with IBarrier => 0 | _ => 1 end).
    { unfold level_step. by rewrite bool_decide_eq_true_2. }
    rewrite <-E. apply highest_ge. apply elem_of_list_fmap. eauto.
  - destruct i; try done. cbn [wires]. lia.
Qed.
Lemma barrier_flat U is : on_qubits U is -> is = [] \/ last is = Some IBarrier -> lb U (depth U is) (levels U is).
Proof.
  intros Ho [->|HL].
  - intros q _. done.
  - destruct is as [|i0 is0 _] using rev_ind; [done|]. rewrite last_snoc in HL. injection HL as ->.
    assert (Ho' : on_qubits U is0) by (intros ????; eapply Ho; [apply elem_of_app; by left|done]).
    pose proof (top_qubit U is0 (fun _ => 0) Ho' ltac:(intros; apply highest_nonneg)) as HT. fold (levels U is0) in HT.
    assert (Hd : depth U (is0 ++ [IBarrier]) <= highest (levels U is0) (WQ <$> U)).
    { apply depth_le; [apply highest_nonneg|]. unfold levels. rewrite foldl_app. apply ub_barrier; [apply highest_nonneg|]. exact HT. }
    intros q Hq. etransitivity; [exact Hd|]. unfold levels. rewrite foldl_app. cbn. unfold level_step. cbn [wires].
    rewrite bool_decide_eq_true_2 by (apply elem_of_list_fmap; eauto). fold (levels U is0). lia.
Qed.

(** ** Chains: all gates use one qubit *)
Lemma number_ext_in f g is : (forall i, i ∈ is -> f i = g i) -> number f is = number g is.
Proof. intros H. induction is as [|i is IHis]; [done|]. rewrite !number_cons, (H i), IHis; [done| |by left]. intros; apply H; by right. Qed.
Lemma compile_touch s gs : number (touch s) (compile s gs) = number is_gate (compile s gs).
Proof.
  apply number_ext_in. intros i Hi. unfold touch. destruct (is_gate i) eqn:E; [|done]. apply bool_decide_eq_true_2.
  unfold compile in Hi. apply elem_of_list_join in Hi as (l & Hl & (g & -> & _)%elem_of_list_fmap).
  destruct g as [[] qs]; unfold group in Hl; cbn [fst snd] in Hl.
  - apply elem_of_app in Hl as [->%elem_of_list_singleton|[(q & -> & _)%elem_of_list_fmap| ->%elem_of_list_singleton]%elem_of_app]; cbn; by left.
  - apply elem_of_list_fmap in Hl as (q & -> & _). cbn. by right; left.
Qed.
Lemma compile_gates s gs : number is_gate (compile s gs) = number is_two (compile s gs) + number is_had (compile s gs).
Proof.
  rewrite !number_compile, <-zs_plus. apply zs_ext. intros [[] l] _; cbn [fst snd is_two is_had is_gate]; rewrite !zs_const; lia.
Qed.

Lemma wq_inj a b : WQ a = WQ b -> a = b.
Proof. by intros [=]. Qed.
Lemma wc_inj a b : WC a = WC b -> a = b.
Proof. by intros [=]. Qed.
Section ops.
Context (c : code) (name : string) (dh dw : Z) (Hv : valid_size dh dw).
Definition adds (U : list qubit) (is : list instr) (n : Z) : Prop := forall K lev, 0 <= K -> ub K lev -> ub (K + n) (lv U lev is).
Definition takes (U : list qubit) (is : list instr) (n : Z) : Prop := forall K lev, lb U K lev -> lb U (K + n) (lv U lev is).
Lemma adds_app U a b m n : 0 <= m -> adds U a m -> adds U b n -> adds U (a ++ b) (m + n).
Proof. intros Hm Ha Hb K lev HK Hu. rewrite lv_app, Z.add_assoc. apply Hb; [lia|]. by apply Ha. Qed.
Lemma adds_nil U : adds U [] 0.
Proof. intros K lev _ Hu. by rewrite Z.add_0_r. Qed.
Lemma adds_barrier U : adds U [IBarrier] 0.
Proof. intros K lev HK Hu. rewrite Z.add_0_r. by apply ub_barrier. Qed.
Lemma adds_end U a m : 0 <= m -> adds U a m -> adds U (a ++ [IBarrier]) m.
Proof. intros Hm Ha. rewrite <-(Z.add_0_r m). apply adds_app; [done|done|apply adds_barrier]. Qed.
Lemma adds_gates U is : adds U is (number is_gate is).
Proof. intros K lev. apply ub_all. Qed.
Lemma adds_single U (f : qubit -> instr) l : NoDup l -> (forall q, wires U (f q) = [WQ q]) -> adds U (f <$> l) 1.
Proof. intros Hn Hf K lev. by apply ub_single. Qed.
Lemma takes_app U a b m n : takes U a m -> takes U b n -> takes U (a ++ b) (m + n).
Proof. intros Ha Hb K lev Hl. rewrite lv_app, Z.add_assoc. by apply Hb, Ha. Qed.
Lemma takes_pivot U q is n : q ∈ U -> n <= number (touch q) is -> takes U (is ++ [IBarrier]) n.
Proof. intros Hq Hn K lev Hl. eapply lb_weaken; [|by apply (lb_pivot U q)]. lia. Qed.
Lemma takes_same U is : takes U is 0.
Proof. intros K lev Hl. rewrite Z.add_0_r. by apply lb_grows. Qed.
Lemma number_nonneg f is : 0 <= number f is.
Proof. induction is as [|i is IHis]; [done|]. rewrite number_cons. destruct (f i); lia. Qed.
Lemma touch_one q is i : i ∈ is -> touch q i = true -> 1 <= number (touch q) is.
Proof.
  intros Hi H. induction is as [|j js IHj]; [by apply elem_of_nil in Hi|]. rewrite number_cons. pose proof (number_nonneg (touch q) js).
  apply elem_of_cons in Hi as [<-|Hi]; [rewrite H; lia|]. specialize (IHj Hi). destruct (touch q j); lia.
Qed.

(** ** One round *)
Definition ent_of (k : bool * Z) : list instr := ent (entry c name dh dw k).1 (entry c name dh dw k).2.
Lemma ent_gates k : is_syn dh dw k -> number is_gate (ent_of k) = number (fun _ => true) (ent_of k) /\ number (touch (synq name k)) (ent_of k) = number is_gate (ent_of k).
Proof.
  intros Hk. destruct (number_ent c name dh dw k Hv Hk) as (_ & _ & _ & _ & E). fold (ent_of k) in E. rewrite E. unfold ent_of. rewrite ent_compile by done.
  split; [apply compile_gates|apply compile_touch].
Qed.
Definition chain (l : list (bool * Z)) : Z := zs (fun k => number (fun _ => true) (ent_of k)) l.
Lemma chain_nonneg l : 0 <= chain l.
Proof. induction l as [|k l IHl]; [done|]. unfold chain in *. rewrite zs_cons. pose proof (number_nonneg (fun _ => true) (ent_of k)). lia. Qed.
Lemma chain_adds U l : (forall k, k ∈ l -> is_syn dh dw k) -> adds U (mjoin (ent_k c name dh dw <$> l)) (chain l).
Proof.
  induction l as [|k l IHl]; intros Hl; [apply adds_nil|]. cbn [fmap list_fmap]. change (mjoin (?a :: ?b)) with (a ++ mjoin b). unfold chain. rewrite zs_cons.
  fold (chain l). apply adds_app; [apply number_nonneg| |apply IHl; intros; apply Hl; by right]. unfold ent_k. fold (ent_of k).
  apply adds_end; [apply number_nonneg|]. destruct (ent_gates k) as [<- _]; [apply Hl; by left|]. apply adds_gates.
Qed.
Lemma chain_takes U l : (forall k, k ∈ l -> is_syn dh dw k /\ synq name k ∈ U) -> takes U (mjoin (ent_k c name dh dw <$> l)) (chain l).
Proof.
  induction l as [|k l IHl]; intros Hl; [apply takes_same|]. cbn [fmap list_fmap]. change (mjoin (?a :: ?b)) with (a ++ mjoin b). unfold chain. rewrite zs_cons.
  fold (chain l). apply takes_app; [|apply IHl; intros; apply Hl; by right]. unfold ent_k. fold (ent_of k).
  destruct (Hl k) as [Hk Hq]; [by left|]. destruct (ent_gates k Hk) as [E1 E2]. apply (takes_pivot U (synq name k)); [done|]. lia.
Qed.
Lemma syn_none : dh * dw = 1 -> syns dh dw = [].
Proof. intros. assert (dh = 1 /\ dw = 1) as [-> ->] by (unfold valid_size in Hv; nia). done. Qed.
Lemma syn_some : dh * dw <> 1 -> exists k, is_syn dh dw k.
Proof.
  intros H. destruct (valid_size_inv _ _ Hv) as (a & b & -> & -> & Ha & Hb).
  destruct (decide (b = 0)) as [->|Hb0].
  - exists (false, 0). unfold is_syn, nsyn. cbn [fst snd]. unfold num_syn_z. change ((2 * 0 + 1 + 1) / 2) with 1. lia.
  - exists (true, 0). unfold is_syn, nsyn. cbn. unfold num_syn_x. replace ((2 * a + 1 + 1) / 2) with (a + 1) by (apply Z.div_unique with 0; lia). nia.
Qed.
Lemma synq_used T k : is_syn dh dw k -> IMeas (synq name k) (cbit name dh dw T k) ∈ meas_instrs name dh dw T /\ IReset (synq name k) ∈ reset_instrs name dh dw.
Proof.
  intros Hk. rewrite meas_instrs_eq, reset_instrs_eq. split; apply elem_of_list_fmap.
  - exists (synq name k, cbit name dh dw T k). split; [done|]. apply elem_of_list_fmap. exists k. split; [done|]. by apply (syn_order_elem c name).
  - exists (synq name k). split; [done|]. apply elem_of_list_fmap. exists k. split; [done|]. by apply (syn_order_elem c name).
Qed.
Lemma round_depth U T : on_qubits U (round_instrs c name dh dw T) ->
  adds U (round_instrs c name dh dw T) (depth_cost c dh dw OStab) /\ takes U (round_instrs c name dh dw T) (depth_cost c dh dw OStab).
Proof.
  intros Ho. destruct (size_round c name dh dw T Hv) as (_ & _ & _ & _ & EC). fold (ent_of) in EC. change (chain (syns dh dw) = two_cost dh dw OStab + had_cost c dh dw OStab) in EC.
  assert (HU : forall k, is_syn dh dw k -> synq name k ∈ U).
  { intros k Hk. eapply (Ho (IReset (synq name k))); [|cbn; by left]. unfold round_instrs. rewrite !elem_of_app. right; right; left. by apply (synq_used T). }
  unfold round_instrs. rewrite lat_stabs_syns, ent_instrs_eq. cbn [depth_cost]. case_bool_decide as E1.
  - rewrite (syn_none E1). assert (dh = 1 /\ dw = 1) as [-> ->] by (unfold valid_size in Hv; nia).
    split; [apply (adds_barrier U)|apply takes_same].
  - rewrite <-EC. replace (chain (syns dh dw) + 2) with (chain (syns dh dw) + (1 + 1)) by lia. split.
    + apply adds_app; [apply chain_nonneg|apply chain_adds; intros k Hk; by apply elem_of_syns|].
      apply adds_app; [lia| |].
      * rewrite meas_instrs_eq, <-list_fmap_compose. intros K lev HK. apply ub_fmap; [apply syn_order_NoDup| |done].
        intros k k' w Hk%(syn_order_elem c name) Hk'%(syn_order_elem c name). cbn. rewrite !elem_of_cons, !elem_of_nil.
        intros [->|[->|[]]] [E|[E|[]]]; try done; [apply wq_inj in E; by apply (synq_inj name)|apply wc_inj in E; by apply (cbit_inj name dh dw T)].
      * rewrite reset_instrs_eq. apply adds_end; [lia|]. apply adds_single; [|done]. apply NoDup_fmap_2; [|apply syn_order_NoDup].
        intros ???. by apply (synq_inj name).
    + apply takes_app; [apply chain_takes; intros k Hk%elem_of_syns; auto|]. destruct (syn_some E1) as [k Hk].
      rewrite app_assoc. apply (takes_pivot U (synq name k)); [by apply HU|]. rewrite number_app.
      destruct (synq_used T k Hk) as [M1 M2].
      pose proof (touch_one (synq name k) _ _ M1 ltac:(unfold touch; cbn; apply bool_decide_eq_true_2; by left)).
      pose proof (touch_one (synq name k) _ _ M2 ltac:(unfold touch; cbn; apply bool_decide_eq_true_2; by left)). lia.
Qed.

(** ** Reading out through the ancilla *)
Lemma read_depth U gs h : on_qubits U ((IReset (ancq name) :: compile (ancq name) gs) ++ (IMeas (ancq name) <$> reg_bits h) ++ [IBarrier]) ->
  let n := 1 + (number is_two (compile (ancq name) gs) + number is_had (compile (ancq name) gs)) + Z.of_nat (length (reg_bits h)) in
  adds U ((IReset (ancq name) :: compile (ancq name) gs) ++ (IMeas (ancq name) <$> reg_bits h) ++ [IBarrier]) n /\
  takes U ((IReset (ancq name) :: compile (ancq name) gs) ++ (IMeas (ancq name) <$> reg_bits h) ++ [IBarrier]) n.
Proof.
  intros Ho n. rewrite app_assoc. set (l := (_ :: _) ++ _).
  assert (E1 : number is_gate l = n).
  { unfold l, n. rewrite number_app, number_cons, compile_gates, number_all by done. cbn [is_gate]. lia. }
  assert (E2 : number (touch (ancq name)) l = n).
  { unfold l, n. rewrite number_app, number_cons, compile_touch, compile_gates, number_all.
    - unfold touch. cbn [is_gate wires]. rewrite bool_decide_eq_true_2 by (by left). cbn [andb]. lia.
    - intros b. unfold touch. cbn [is_gate wires]. by rewrite bool_decide_eq_true_2 by (by left). }
  rewrite <-E1 at 1. split.
  - apply adds_end; [apply number_nonneg|apply adds_gates].
  - apply (takes_pivot U (ancq name)); [|by rewrite E2]. eapply (Ho (IReset (ancq name))); cbn; by left.
Qed.

(** ** Layers *)
Lemma NoDup_dq l : NoDup l -> NoDup (dq name <$> l).
Proof. apply NoDup_fmap_2. by intros ?? [=]. Qed.
Lemma NoDup_even n : NoDup (even_ix (seqZ 0 n)).
Proof. apply NoDup_filter, NoDup_seqZ. Qed.
Lemma NoDup_odd n : NoDup (odd_ix (seqZ 0 n)).
Proof. apply NoDup_filter, NoDup_seqZ. Qed.
Lemma meas_adds U n m : adds U ((fun i => IMeas (dq name i) (lrname name n, i)) <$> seqZ 0 m) 1.
Proof.
  intros K lev HK. apply ub_fmap; [apply NoDup_seqZ| |done]. intros x y w _ _. cbn. rewrite !elem_of_cons, !elem_of_nil.
  intros [->|[->|[]]] [E|[E|[]]]; try done; by injection E.
Qed.
Lemma touch_had q l : q ∈ l -> 1 <= number (touch q) (IH <$> l).
Proof. intros Hq. apply (touch_one q _ (IH q)); [apply elem_of_list_fmap; eauto|]. unfold touch. cbn. apply bool_decide_eq_true_2. by left. Qed.
Lemma touch_res q l : q ∈ l -> 1 <= number (touch q) (IReset <$> l).
Proof. intros Hq. apply (touch_one q _ (IReset q)); [apply elem_of_list_fmap; eauto|]. unfold touch. cbn. apply bool_decide_eq_true_2. by left. Qed.
Lemma touch_id q l : q ∈ l -> 1 <= number (touch q) (IId <$> l).
Proof. intros Hq. apply (touch_one q _ (IId q)); [apply elem_of_list_fmap; eauto|]. unfold touch. cbn. apply bool_decide_eq_true_2. by left. Qed.
Lemma touch_meas n m i : i ∈ seqZ 0 m -> 1 <= number (touch (dq name i)) ((fun i => IMeas (dq name i) (lrname name n, i)) <$> seqZ 0 m).
Proof. intros Hq. eapply touch_one; [apply elem_of_list_fmap; eauto|]. unfold touch. cbn. apply bool_decide_eq_true_2. by left. Qed.
Lemma id_eq : id_instrs name dh dw = (IId <$> mjoin (reg_bits <$> lattice_regs name dh dw)) ++ [IBarrier].
Proof.
  unfold id_instrs. f_equal. induction (lattice_regs name dh dw) as [|h l IHl]; [done|].
  cbn [fmap list_fmap]. change (mjoin (?a :: ?b)) with (a ++ mjoin b). rewrite fmap_app. f_equal. exact IHl.
Qed.
Lemma NoDup_regs (l : list rhandle) : NoDup l.*1 -> NoDup (mjoin (reg_bits <$> l)).
Proof.
  induction l as [|h l IHl]; intros Hn; [apply NoDup_nil_2|]. cbn in Hn. apply NoDup_cons in Hn as [H1 H2].
  cbn [fmap list_fmap]. change (mjoin (?a :: ?b)) with (a ++ mjoin b). apply NoDup_app. split_and!; [|  |by apply IHl].
  - unfold reg_bits. apply NoDup_fmap_2; [by intros ?? [=]|]. apply NoDup_seqZ.
  - intros q (i & -> & _)%elem_of_list_fmap (l' & Hq & (h' & -> & Hh')%elem_of_list_fmap)%elem_of_list_join.
    apply elem_of_list_fmap in Hq as (j & [= E _] & _). apply H1. rewrite E. apply elem_of_list_fmap. eauto.
Qed.
End ops.
Lemma lattice_names name dh dw : NoDup (lattice_regs name dh dw).*1.
Proof.
  assert (HN : forall a b, a <> b -> (name +:+ a)%string <> (name +:+ b)%string) by (intros a b H E; by apply append_inj_l in E).
  unfold lattice_regs, opt_reg. repeat case_bool_decide; cbn;
    repeat (apply NoDup_cons; split); try apply NoDup_nil_2;
    intros Hx; repeat (apply elem_of_cons in Hx as [Hx|Hx]; [by apply HN in Hx|]); by apply elem_of_nil in Hx.
Qed.

Lemma op_depth c name dh dw n o U : valid_size dh dw -> op_ok c dh dw o = true -> on_qubits U (op_code c name dh dw n o) ->
  adds U (op_code c name dh dw n o) (depth_cost c dh dw o) /\
  (overlaps c o = false -> takes U (op_code c name dh dw n o) (depth_cost c dh dw o)).
Proof.
  intros Hv Hok Ho. destruct (valid_area dh dw Hv) as [Ha _]. pose proof (size_op c name dh dw n o Hv) as (S1 & S2 & _ & _).
  assert (H0 : 0 ∈ seqZ 0 (num_data dh dw)) by (apply elem_of_seqZ; unfold num_data; lia).
  assert (HE : 0 ∈ even_ix (seqZ 0 (num_data dh dw))) by (by apply elem_of_list_filter).
  assert (HI : forall A (f : A -> qubit) x (l : list A), x ∈ l -> f x ∈ f <$> l) by (intros; apply elem_of_list_fmap; eauto).
  assert (Hcol : 0 ∈ col_list dh dw).
  { apply elem_of_list_fmap. exists 0. split; [lia|]. apply elem_of_seqZ. unfold valid_size in Hv. lia. }
  assert (Hrow : 0 ∈ row_list dw) by (apply elem_of_seqZ; unfold valid_size in Hv; lia).
  destruct o as [|r|r| | | | | | | |]; cbn [op_code overlaps op_ok] in *.
  - destruct (round_depth c name dh dw Hv U (cT n + 1) Ho) as [H1 H2]. auto.
  - pose proof (read_depth name U _ _ Ho) as [H1 H2].
    assert (E : 1 + (number is_two (compile (ancq name) (glx c name (col_list dh dw))) + number is_had (compile (ancq name) (glx c name (col_list dh dw)))) +
      Z.of_nat (length (reg_bits (rd_target name n r))) = depth_cost c dh dw (OReadX r)).
    { destruct (count_compile (ancq name) (glx c name (col_list dh dw))) as (-> & -> & _). rewrite glx_length, target_width. unfold col_list. rewrite fmap_length, seqZ_length.
      unfold valid_size in Hv. cbn [depth_cost]. destruct c; cbn [glx zs foldr fst]; lia. }
    rewrite E in H1, H2. destruct c; auto.
  - pose proof (read_depth name U _ _ Ho) as [H1 H2].
    assert (E : 1 + (number is_two (compile (ancq name) (glz c name (row_list dw))) + number is_had (compile (ancq name) (glz c name (row_list dw)))) +
      Z.of_nat (length (reg_bits (rd_target name n r))) = depth_cost c dh dw (OReadZ r)).
    { destruct (count_compile (ancq name) (glz c name (row_list dw))) as (-> & -> & _). rewrite glz_length, target_width. unfold row_list. rewrite seqZ_length.
      unfold valid_size in Hv. cbn [depth_cost]. destruct c; cbn [glz zs foldr fst]; lia. }
    rewrite E in H1, H2. destruct c; auto.
  - (* lattice_readout_x *)
    unfold lr_x in *. cbn [depth_cost]. change 2 with (1 + 1). rewrite app_assoc in *. split.
    + apply adds_end; [lia|]. apply adds_app; [lia| |apply meas_adds].
      destruct c; (apply adds_single; [|done]); apply NoDup_dq; [apply NoDup_seqZ|apply NoDup_odd].
    + intros _. assert (exists i, i ∈ seqZ 0 (num_data dh dw) /\ 1 <= number (touch (dq name i)) match c with XXZZ => IH <$> (dq name <$> seqZ 0 (num_data dh dw)) | XZZX => IH <$> (dq name <$> odd_ix (seqZ 0 (num_data dh dw))) end) as (i & Hi & Ht).
      { destruct c; [exists 0; split; [done|by apply touch_had, HI]|]. cbn in Hok. apply bool_decide_eq_true in Hok.
        assert (1 ∈ seqZ 0 (num_data dh dw)) by (apply elem_of_seqZ; lia). exists 1. split; [done|]. apply touch_had, HI, elem_of_list_filter. done. }
      apply (takes_pivot U (dq name i)).
      * eapply (Ho (IMeas (dq name i) (lrname name (cL n + 1), i))); [|by left]. rewrite !elem_of_app. left; right. apply elem_of_list_fmap. eauto.
      * rewrite number_app. pose proof (touch_meas name (cL n + 1) _ _ Hi). lia.
  - unfold lr_z in *. cbn [depth_cost]. rewrite app_assoc in *. split.
    + destruct c; apply adds_end; [lia| |lia|]; [apply meas_adds|]. change 2 with (1 + 1). apply adds_app; [lia| |apply meas_adds].
      apply adds_single; [|done]; apply NoDup_dq, NoDup_even.
    + intros _. assert (HU : dq name 0 ∈ U).
      { eapply (Ho (IMeas (dq name 0) (lrname name (cL n + 1), 0))); [|by left]. rewrite !elem_of_app. left; right. apply elem_of_list_fmap. eauto. }
      apply (takes_pivot U (dq name 0)); [done|]. rewrite number_app. pose proof (touch_meas name (cL n + 1) _ _ H0).
      destruct c; [cbn [number foldr]; lia|]. pose proof (touch_had _ _ (HI _ (dq name) _ _ HE)). lia.
  - unfold rs_x in *. cbn [depth_cost]. change 2 with (1 + 1). split.
    + apply adds_app; [lia|apply adds_single; [apply NoDup_dq, NoDup_seqZ|done]|].
      destruct c; [apply adds_end; [lia|]|]; (apply adds_single; [|done]); apply NoDup_dq; [apply NoDup_seqZ|apply NoDup_odd].
    + intros E. destruct c; [|done]. rewrite app_assoc in *. assert (HU : dq name 0 ∈ U).
      { eapply (Ho (IReset (dq name 0))); [|by left]. rewrite !elem_of_app. left; left. apply elem_of_list_fmap. eauto. }
      apply (takes_pivot U (dq name 0)); [done|]. rewrite number_app. pose proof (touch_had _ _ (HI _ (dq name) _ _ H0)). pose proof (touch_res _ _ (HI _ (dq name) _ _ H0)). lia.
  - unfold rs_z in *. cbn [depth_cost]. split.
    + destruct c; [apply adds_end; [lia|]; apply adds_single; [apply NoDup_dq, NoDup_seqZ|done]|]. change 2 with (1 + 1).
      apply adds_app; [lia|apply adds_single; [apply NoDup_dq, NoDup_seqZ|done]|]. apply adds_single; [|done]. apply NoDup_dq, NoDup_even.
    + intros E. destruct c; [|done]. assert (HU : dq name 0 ∈ U).
      { eapply (Ho (IReset (dq name 0))); [|by left]. rewrite !elem_of_app. left. apply elem_of_list_fmap. eauto. }
      apply (takes_pivot U (dq name 0)); [done|]. apply (touch_res _ _ (HI _ (dq name) _ _ H0)).
  - unfold logx_instrs in *. cbn [depth_cost]. split.
    + apply adds_end; [lia|]. intros K lev HK. apply ub_fmap; [by apply col_list_NoDup| |done]. intros x y w _ _.
      assert (Hw : forall z, wires U (xgate c name z) = [WQ (dq name z)]) by (intros z; unfold xgate; destruct c; [|case_bool_decide]; done).
      rewrite !Hw, !elem_of_list_singleton. intros -> [=]. done.
    + intros _. assert (Hw : touch (dq name 0) (xgate c name 0) = true) by (unfold touch; destruct c; apply andb_true_iff; (split; [done|apply bool_decide_eq_true_2; by left])).
      apply (takes_pivot U (dq name 0)); [|eapply touch_one; [apply elem_of_list_fmap; eauto|done]].
      eapply (Ho (xgate c name 0)); [apply elem_of_app; left; apply elem_of_list_fmap; eauto|]. destruct c; by left.
  - unfold logz_instrs in *. cbn [depth_cost]. split.
    + apply adds_end; [lia|]. intros K lev HK. apply ub_fmap; [by apply row_list_NoDup| |done]. intros x y w _ _.
      assert (Hw : forall z, wires U (zgate c name z) = [WQ (dq name z)]) by (intros z; unfold zgate; destruct c; [|case_bool_decide]; done).
      rewrite !Hw, !elem_of_list_singleton. intros -> [=]. done.
    + intros _. assert (Hw : touch (dq name 0) (zgate c name 0) = true) by (unfold touch; destruct c; apply andb_true_iff; (split; [done|apply bool_decide_eq_true_2; by left])).
      apply (takes_pivot U (dq name 0)); [|eapply touch_one; [apply elem_of_list_fmap; eauto|done]].
      eapply (Ho (zgate c name 0)); [apply elem_of_app; left; apply elem_of_list_fmap; eauto|]. destruct c; by left.
  - rewrite id_eq in *. cbn [depth_cost]. split.
    + apply adds_end; [lia|]. apply adds_single; [|done]. apply NoDup_regs, lattice_names.
    + intros _. assert (Hq : dq name 0 ∈ mjoin (reg_bits <$> lattice_regs name dh dw)).
      { apply elem_of_list_join. exists (reg_bits (data_reg name dh dw)). split; [by apply (elem_of_list_fmap_1 (fun i => ((name +:+ "_data")%string, i)))|].
        apply elem_of_list_fmap. exists (data_reg name dh dw). split; [done|]. unfold lattice_regs. by left. }
      apply (takes_pivot U (dq name 0)); [|by apply touch_id].
      eapply (Ho (IId (dq name 0))); [|by left]. apply elem_of_app; left. apply elem_of_list_fmap. eauto.
  - unfold id_data_instrs in *. cbn [depth_cost]. split.
    + apply adds_end; [lia|]. apply adds_single; [|done]. apply NoDup_dq, NoDup_seqZ.
    + intros _. apply (takes_pivot U (dq name 0)); [|by apply touch_id, HI].
      eapply (Ho (IId (dq name 0))); [|by left]. apply elem_of_app; left. apply elem_of_list_fmap. eauto.
Qed.
