(** Property C64: whatever calls a program makes, the circuit it builds is one Qiskit accepts. *)
From Coq Require Import Ascii.
From Verif Require Import SpecLegal.
From stdpp Require Export list.
Open Scope Z_scope.

(** ** Names *)
Fixpoint occurs (p s : string) : bool :=
  String.prefix p s || match s with EmptyString => false | String _ s' => occurs p s' end.
Lemma prefix_self p b : String.prefix p (p +:+ b) = true.
Proof. induction p as [|c p IHp]; [by destruct b|]. change (String.prefix (String c p) (String c (p +:+ b)) = true). cbn [String.prefix]. by rewrite decide_True || (destruct (Ascii.ascii_dec c c); done). Qed.
Lemma occurs_app a p b : occurs p (a +:+ p +:+ b) = true.
Proof.
  induction a as [|c a IHa].
  - change (occurs p (p +:+ b) = true). pose proof (prefix_self p b) as H. destruct (p +:+ b)%string; cbn [occurs]; by rewrite H.
  - change (occurs p (String c (a +:+ p +:+ b)) = true). cbn [occurs]. rewrite IHa. apply orb_true_r.
Qed.
Lemma append_nil_r (a : string) : (a +:+ "")%string = a.
Proof. induction a as [|c a IHa]; [done|]. change (String c (a +:+ "") = String c a). by rewrite IHa. Qed.
Lemma occurs_end a p : occurs p (a +:+ p) = true.
Proof. rewrite <-(append_nil_r p) at 2. apply occurs_app. Qed.
Definition parts : list string := ["_data"; "_mz"; "_mx"; "_ancilla"; "_c"; "_readout_"; "_lattice_readout_"]%string.
Lemma not_reserved p x : p ∈ parts -> occurs p x = true -> x ∉ reserved.
Proof.
  intros Hp Ho Hx. unfold parts in Hp. unfold reserved in Hx. rewrite !elem_of_cons, elem_of_nil in Hp. rewrite !elem_of_cons, elem_of_nil in Hx.
  repeat match goal with H : _ \/ _ |- _ => destruct H | H : False |- _ => destruct H end; subst; vm_compute in Ho; done.
Qed.

(** ** The invariant *)
Definition hreg (k : bool) (h : rhandle) : reg := Reg k h.1 h.2.
Definition of_reg (q : qubit) (h : rhandle) : Prop := q.1 = h.1 /\ 0 <= q.2 < h.2.
Definition oreg (q : option qubit) (h : rhandle) : Prop := match q with Some q => of_reg q h | None => True end.
(** A lattice by itself: its registers have its name, and its plaquettes are made of them. *)
Record lat_wf (q : tqubit) : Prop := {
  lw_data : (lat_data (tq_lat q)).1 = (lat_name (tq_lat q) +:+ "_data")%string;
  lw_mz : forall h, lat_mz (tq_lat q) = Some h -> h.1 = (lat_name (tq_lat q) +:+ "_mz")%string;
  lw_mx : forall h, lat_mx (tq_lat q) = Some h -> h.1 = (lat_name (tq_lat q) +:+ "_mx")%string;
  lw_anc : lat_ancilla (tq_lat q) = ((lat_name (tq_lat q) +:+ "_ancilla")%string, 1);
  lw_stabs : forall c p, (c, p) ∈ lat_stabs (tq_lat q) ->
    (exists h, (lat_mx (tq_lat q) = Some h \/ lat_mz (tq_lat q) = Some h) /\ of_reg (q_syn p) h) /\
    oreg (q_tl p) (lat_data (tq_lat q)) /\ oreg (q_tr p) (lat_data (tq_lat q)) /\
    oreg (q_bl p) (lat_data (tq_lat q)) /\ oreg (q_br p) (lat_data (tq_lat q)) }.
Definition lat_regs (q : tqubit) : list reg :=
  hreg true <$> ([lat_data (tq_lat q)] ++ option_list (lat_mz (tq_lat q)) ++ option_list (lat_mx (tq_lat q)) ++ [lat_ancilla (tq_lat q)]).
Definition lat_in (rs : list reg) (q : tqubit) : Prop := lat_wf q /\ lat_regs q ⊆ rs.
(** Registers with the names of cx are those of cx. *)
Definition cx_reg (r : reg) : Prop :=
  r_name r ∈ reserved -> r = Reg (bool_decide (r_name r = "cnot_readout"%string)) (r_name r) 1.
Definition entry (k : bool) (rs : list reg) (e : string * rhandle) : Prop := e.2.1 = e.1 /\ hreg k e.2 ∈ rs.
Definition tq_in (rs : list reg) (tq : list (string * list (Z * tqubit))) : Prop :=
  forall sub d i q, (sub, d) ∈ tq -> (i, q) ∈ d -> lat_in rs q.
Record inv (s : st) : Prop := {
  iv_legal : legal_circuit (s_regs s) (s_instrs s);
  iv_cx : forall r, r ∈ s_regs s -> cx_reg r;
  iv_tq : tq_in (s_regs s) (s_tq s);
  iv_q : forall e, e ∈ s_tqreg s -> entry true (s_regs s) e;
  iv_c : forall e, e ∈ s_tcreg s -> entry false (s_regs s) e }.

Lemma has_qubit_sub rs rs' q : rs ⊆ rs' -> has_qubit rs q -> has_qubit rs' q.
Proof. intros H (sz & ? & ?). exists sz. auto. Qed.
Lemma has_clbit_sub rs rs' q : rs ⊆ rs' -> has_clbit rs q -> has_clbit rs' q.
Proof. intros H (sz & ? & ?). exists sz. auto. Qed.
Lemma legal_sub rs rs' i : rs ⊆ rs' -> legal rs i -> legal rs' i.
Proof. intros H. destruct i; cbn; intuition (eauto using has_qubit_sub, has_clbit_sub). Qed.
Lemma lat_in_sub rs rs' q : rs ⊆ rs' -> lat_in rs q -> lat_in rs' q.
Proof. intros H [? ?]. split; [done|]. intros r Hr. auto. Qed.
Lemma tq_in_sub rs rs' tq : rs ⊆ rs' -> tq_in rs tq -> tq_in rs' tq.
Proof. intros H Ht sub d i q H1 H2. eapply lat_in_sub; [done|]. by eapply Ht. Qed.
Lemma entry_sub k rs rs' e : rs ⊆ rs' -> entry k rs e -> entry k rs' e.
Proof. intros H [? ?]. split; auto. Qed.

(** ** Calls: from a state in which the registers [K] exist *)
Definition ok {A} (K : list reg) (m : M A) (N : A -> list reg) (V : A -> Prop) : Prop :=
  forall s, inv s -> K ⊆ s_regs s ->
    inv (m s).1 /\ s_regs s ⊆ s_regs (m s).1 /\ forall a, (m s).2 = Ok a -> V a /\ N a ⊆ s_regs (m s).1.
Notation none := (fun _ => []).
Notation any := (fun _ => True).
Lemma ok_bind {A B} K (m : M A) (f : A -> M B) N V N' V' :
  ok K m N V -> (forall a, V a -> ok (N a ++ K) (f a) N' V') -> ok K (mbind' m f) N' V'.
Proof.
  intros Hm Hf s Hi HK. destruct (Hm s Hi HK) as (I1 & S1 & R1). unfold mbind'. destruct (m s) as [s1 [a|e]]; cbn [fst snd] in *.
  - destruct (R1 a eq_refl) as [HV HN]. destruct (Hf a HV s1 I1) as (I2 & S2 & R2).
    { intros r [Hr|Hr]%elem_of_app; auto. }
    split_and!; [done| |done]. intros r Hr. auto.
  - split_and!; [done|done|]. by intros a.
Qed.
Lemma ok_weaken {A} K K' (m : M A) N V N' V' : ok K m N V -> K ⊆ K' -> (forall a, V a -> V' a /\ (forall rs, N a ++ K' ⊆ rs -> N' a ⊆ rs)) -> ok K' m N' V'.
Proof.
  intros Hm HK HN s Hi Hs. destruct (Hm s Hi) as (I & S & R); [intros r Hr; auto|]. split_and!; [done|done|].
  intros a Ha. destruct (R a Ha) as [HV HN']. destruct (HN a HV) as [HV' HR]. split; [done|]. apply HR.
  intros r [Hr|Hr]%elem_of_app; auto.
Qed.
Lemma ok_any {A} K (m : M A) N V : ok K m N V -> ok K m none any.
Proof. intros H. eapply ok_weaken; [exact H|done|]. intros a _. split; [done|]. intros rs _ r Hr. by apply elem_of_nil in Hr. Qed.
Lemma ok_then {A B} K (m : M A) (k : M B) N' V' : ok K m none any -> ok K k N' V' -> ok K (m ;;; k) N' V'.
Proof. intros H1 H2. eapply ok_bind; [exact H1|]. intros a _. exact H2. Qed.
Lemma ok_same {A} K (m : M A) (V : A -> Prop) : (forall s, (m s).1 = s) -> (forall s a, (m s).2 = Ok a -> V a) -> ok K m none V.
Proof.
  intros E HV s Hi HK. rewrite E. split_and!; [done|done|]. intros a Ha. split; [by eapply HV|]. intros r Hr. by apply elem_of_nil in Hr.
Qed.
Lemma ok_ret {A} K (a : A) : ok K (Circ.mret a) none (fun a' => a' = a).
Proof. apply ok_same; [done|]. by intros s a' [= ->]. Qed.
Lemma ok_raise {A} K e N V : ok K (mraise e : M A) N V.
Proof. intros s Hi HK. split_and!; done. Qed.
Lemma ok_lift {A} K (r : res A) : ok K (mlift r) none (fun a => r = Ok a).
Proof. by apply ok_same. Qed.
Lemma ok_key {A} K (o : option A) : ok K (key o) none (fun a => o = Some a).
Proof. destruct o; [|apply ok_raise]. eapply ok_weaken; [apply (ok_ret K a)|done|]. intros a' ->. split; [done|]. intros rs _ r Hr. by apply elem_of_nil in Hr. Qed.
Lemma ok_get K l : ok K (get_params l) none any.
Proof. apply ok_same; [|done]. intros s. unfold get_params. by destruct (s_heap s !! l). Qed.
Lemma inv_heap s h n : inv s -> inv (St h n (s_regs s) (s_instrs s) (s_tname s) (s_n s) (s_tq s) (s_tqreg s) (s_tcreg s)).
Proof. intros [A B C D E]. by constructor. Qed.
Lemma ok_put K l p : ok K (put_params l p) none any.
Proof. intros s Hi HK. split_and!; [by apply inv_heap|done|]. intros [] _. split; [done|]. intros r Hr. by apply elem_of_nil in Hr. Qed.
Lemma ok_new K p : ok K (new_params p) none any.
Proof. intros s Hi HK. split_and!; [by apply inv_heap|done|]. intros a _. split; [done|]. intros r Hr. by apply elem_of_nil in Hr. Qed.
Lemma inv_add s r : inv s -> r_name r ∉ (r_name <$> s_regs s) -> 0 <= r_size r -> cx_reg r -> inv (set_regs s (s_regs s ++ [r])).
Proof.
  intros [[A1 A2 A3] B C D E] Hn Hz Hc. assert (S : s_regs s ⊆ s_regs s ++ [r]) by (intros x Hx; apply elem_of_app; by left).
  constructor; cbn.
  - constructor.
    + rewrite fmap_app. apply NoDup_app. split; [done|]. split; [|apply NoDup_singleton]. intros x Hx ->%elem_of_list_singleton. done.
    + intros r' [Hr| ->%elem_of_list_singleton]%elem_of_app; auto.
    + intros i Hi. eapply legal_sub; eauto.
  - intros r' [Hr| ->%elem_of_list_singleton]%elem_of_app; auto.
  - by eapply tq_in_sub.
  - intros e He. eapply entry_sub; eauto.
  - intros e He. eapply entry_sub; eauto.
Qed.
Lemma ok_reg K r : cx_reg r -> ok K (add_reg r) (fun _ => [r]) any.
Proof.
  intros Hc s Hi HK. unfold add_reg. case_bool_decide as H1; [by split_and!|]. case_bool_decide as H2; [by split_and!|]. cbn [fst snd].
  split_and!; [apply inv_add; [done..|lia|done]| |].
  - intros x Hx. cbn. apply elem_of_app. by left.
  - intros [] _. split; [done|]. intros x Hx. cbn. apply elem_of_app. by right.
Qed.
Lemma ok_emit K l : (forall i, i ∈ l -> legal K i) -> ok K (emit l) none any.
Proof.
  intros Hl s [[A1 A2 A3] B C D E] HK. split_and!; [|done|].
  - constructor; cbn; [constructor; [done|done|]|done..]. intros i [Hi|Hi]%elem_of_app; [by apply A3|]. eapply legal_sub; [exact HK|]. by apply Hl.
  - intros [] _. split; [done|]. intros r Hr. by apply elem_of_nil in Hr.
Qed.
Lemma ok_emit1 K f l : (forall q, q ∈ l -> legal K (f q)) -> ok K (emit1 f l) none any.
Proof. intros H. unfold emit1. destruct l as [|q l]; [apply ok_raise|]. apply ok_emit. intros i (x & -> & Hx)%elem_of_list_fmap. by apply H. Qed.
Lemma ok_meas K qs cs : (forall q, q ∈ qs -> has_qubit K q) -> (forall c, c ∈ cs -> has_clbit K c) -> ok K (emit_meas qs cs) none any.
Proof.
  intros Hq Hc. unfold emit_meas. case_bool_decide.
  - apply ok_emit. intros i (n & q & c & -> & H1 & H2)%elem_of_lookup_zip_with. split; [apply Hq|apply Hc]; by eapply elem_of_list_lookup_2.
  - destruct qs as [|q [|q' qs]]; [apply ok_raise| |apply ok_raise]. destruct cs as [|c cs]; [apply ok_raise|].
    apply ok_emit. intros i (x & -> & Hx)%elem_of_list_fmap. split; [apply Hq; by left|by apply Hc].
Qed.
Lemma ok_mfor {A} K (l : list A) f : (forall x, x ∈ l -> ok K (f x) none any) -> ok K (mfor l f) none any.
Proof.
  induction l as [|x l IHl]; intros H; cbn [mfor]; [eapply ok_any, ok_ret|]. apply ok_then; [apply H; by left|]. apply IHl. intros; apply H. by right.
Qed.

(** ** Methods of a qubit *)
Section methods.
Context (q : tqubit) (Hq : lat_wf q).
Let L := tq_lat q.
Let nm := lat_name L.
Lemma in_data : Reg true (lat_data L).1 (lat_data L).2 ∈ lat_regs q.
Proof. unfold lat_regs. apply elem_of_list_fmap. exists (lat_data L). split; [done|]. by left. Qed.
Lemma in_mz h : lat_mz L = Some h -> Reg true h.1 h.2 ∈ lat_regs q.
Proof. intros E. unfold lat_regs. apply elem_of_list_fmap. exists h. split; [done|]. fold L. rewrite E. rewrite !elem_of_app. right. left. by apply elem_of_list_singleton. Qed.
Lemma in_mx h : lat_mx L = Some h -> Reg true h.1 h.2 ∈ lat_regs q.
Proof. intros E. unfold lat_regs. apply elem_of_list_fmap. exists h. split; [done|]. fold L. rewrite E. rewrite !elem_of_app. right. right. left. by apply elem_of_list_singleton. Qed.
Lemma in_anc : Reg true (lat_ancilla L).1 (lat_ancilla L).2 ∈ lat_regs q.
Proof. unfold lat_regs. apply elem_of_list_fmap. exists (lat_ancilla L). split; [done|]. rewrite !elem_of_app. right. right. right. by apply elem_of_list_singleton. Qed.

Lemma of_reg_q rs x h : of_reg x h -> Reg true h.1 h.2 ∈ rs -> has_qubit rs x.
Proof. intros [E H] H0. exists h.2. by rewrite E. Qed.
Lemma reg_get_of h i x : reg_get h i = Ok x -> of_reg x h.
Proof.
  unfold reg_get. case_bool_decide; [intros [= <-]; by split|]. case_bool_decide; [|done]. intros [= <-]. split; cbn; [done|lia].
Qed.
Lemma reg_bits_of h x : x ∈ reg_bits h -> of_reg x h.
Proof. intros (i & -> & Hi)%elem_of_list_fmap. apply elem_of_seqZ in Hi. split; cbn; [done|lia]. Qed.
Lemma reg_list_of h l xs x : reg_list h l = Ok xs -> x ∈ xs -> of_reg x h.
Proof.
  unfold reg_list. destruct l as [|i l]; [done|]. case_bool_decide as Hlt; [|done]. clear Hlt. generalize (i :: l). clear i l. intros l. revert xs.
  induction l as [|i l IHl]; intros xs; cbn [rmap]; [by intros [= <-] ?%elem_of_nil|]. destruct (reg_get h i) as [y|] eqn:E; [|done].
  destruct (rmap (reg_get h) l) as [ys|] eqn:E2; [|done]. intros [= <-] [->|Hx]%elem_of_cons; [by eapply reg_get_of|]. by eapply IHl.
Qed.
Lemma anc_of : of_reg (anc q) (lat_ancilla L).
Proof. split; [done|]. unfold L. rewrite (lw_anc _ Hq). cbn. lia. Qed.

(** Registers of the lattice are different. *)
Lemma suf_ne a b : a <> b -> (nm +:+ a)%string <> (nm +:+ b)%string.
Proof. intros H E. by apply LatFacts.append_inj_l in E. Qed.
Lemma data_anc x y : of_reg x (lat_data L) -> of_reg y (lat_ancilla L) -> x <> y.
Proof. intros [E _] [E' _] ->. rewrite E in E'. unfold L in *. rewrite (lw_data _ Hq), (lw_anc _ Hq) in E'. cbn in E'. by apply suf_ne in E'. Qed.
Lemma data_syn x y h : lat_mx L = Some h \/ lat_mz L = Some h -> of_reg x (lat_data L) -> of_reg y h -> x <> y.
Proof.
  intros Hh [E _] [E' _] ->. rewrite E in E'. unfold L in *. rewrite (lw_data _ Hq) in E'. destruct Hh as [Hh|Hh].
  - rewrite (lw_mx _ Hq _ Hh) in E'. by apply suf_ne in E'.
  - rewrite (lw_mz _ Hq _ Hh) in E'. by apply suf_ne in E'.
Qed.

Context (K : list reg) (HK : lat_regs q ⊆ K).
Lemma has_d x : of_reg x (lat_data L) -> has_qubit K x.
Proof. intros H. eapply of_reg_q; [exact H|]. apply HK, in_data. Qed.
Lemma has_anc : has_qubit K (anc q).
Proof. eapply of_reg_q; [apply anc_of|]. apply HK, in_anc. Qed.
Lemma has_syn x h : lat_mx L = Some h \/ lat_mz L = Some h -> of_reg x h -> has_qubit K x.
Proof. intros [E|E] H; eapply of_reg_q; try exact H; apply HK; [by apply in_mx|by apply in_mz]. Qed.
Lemma ok_col : ok K (col_idx q) none any.
Proof.
  unfold col_idx. eapply ok_bind; [apply ok_get|]. intros p _. eapply ok_bind; [apply ok_key|]. intros nd _.
  eapply ok_bind with (N := none) (V := any).
  - unfold get_dim. eapply ok_bind; [apply ok_key|]. intros d _. destruct d; [apply ok_raise|eapply ok_any, ok_lift|apply ok_raise].
  - intros w _. case_bool_decide; [apply ok_raise|eapply ok_any, ok_ret].
Qed.
Lemma ok_row : ok K (row_idx q) none any.
Proof.
  unfold row_idx. eapply ok_bind; [apply ok_get|]. intros p _.
  eapply ok_bind with (N := none) (V := any).
  - unfold get_dim. eapply ok_bind; [apply ok_key|]. intros d _. destruct d; [apply ok_raise|eapply ok_any, ok_lift|apply ok_raise].
  - intros w _. eapply ok_any, ok_ret.
Qed.
Lemma one_legal i : legal K i -> ok K (emit [i]) none any.
Proof. intros H. apply ok_emit. by intros j ->%elem_of_list_singleton. Qed.
Lemma ok_bar : ok K (emit [IBarrier]) none any.
Proof. by apply one_legal. Qed.
(** A loop over data qubits. *)
Lemma ok_loop is f : (forall i d, of_reg d (lat_data L) -> legal K (f i d)) ->
  ok K (mfor is (fun i => let* d := mlift (reg_get (lat_data L) i) in emit [f i d])) none any.
Proof.
  intros H. apply ok_mfor. intros i _. eapply ok_bind; [apply ok_lift|]. intros d Hd. apply one_legal, H. eapply reg_get_of, Hd.
Qed.
Lemma ok_loop2 is (f g : Z -> qubit -> instr) : (forall i d, of_reg d (lat_data L) -> legal K (f i d)) -> (forall i d, of_reg d (lat_data L) -> legal K (g i d)) ->
  ok K (mfor is (fun i => let* d := mlift (reg_get (lat_data L) i) in match lat_code L with XXZZ => emit [f i d] | XZZX => emit [g i d] end)) none any.
Proof. intros Hf Hg. destruct (lat_code L); by apply ok_loop. Qed.

Lemma plaq_legal c p is : (c, p) ∈ lat_stabs L -> entangle_plaq c p = Ok is -> forall i, i ∈ is -> legal K i.
Proof.
  intros Hs E. destruct (lw_stabs _ Hq c p Hs) as ((h & Hh & Hsyn) & Htl & Htr & Hbl & Hbr). fold L in Hh, Htl, Htr, Hbl, Hbr.
  pose proof (has_syn _ _ Hh Hsyn) as HS.
  assert (H1 : forall x, of_reg x (lat_data L) -> legal K (ICX (q_syn p) x)).
  { intros x Hx. split_and!; [done|by apply has_d|]. intros E1. by apply (data_syn x (q_syn p) h). }
  assert (H2 : forall x, of_reg x (lat_data L) -> legal K (ICX x (q_syn p))).
  { intros x Hx. split_and!; [by apply has_d|done|]. by apply (data_syn x (q_syn p) h). }
  assert (H3 : legal K (IH (q_syn p))) by done.
  enough (HF : Forall (legal K) is) by (by apply list.Forall_forall).
  destruct c; cbn [entangle_plaq] in E; unfold entangle_xxxx, entangle_zzzz, entangle_xzzx in E.
  - destruct (q_tl p), (q_tr p), (q_bl p), (q_br p); cbn in E; try done; injection E as <-; cbn [oreg] in *; repeat first [apply Forall_nil_2 | apply Forall_cons_2; [first [exact H3|by apply H1|by apply H2]|]].
  - destruct (q_tl p), (q_tr p), (q_bl p), (q_br p); cbn in E; try done; injection E as <-; cbn [oreg] in *; repeat first [apply Forall_nil_2 | apply Forall_cons_2; [first [exact H3|by apply H1|by apply H2]|]].
  - destruct (q_tl p), (q_tr p), (q_bl p), (q_br p); cbn in E; try done; injection E as <-; cbn [oreg] in *; repeat first [apply Forall_nil_2 | apply Forall_cons_2; [first [exact H3|by apply H1|by apply H2]|]].
Qed.
Lemma ok_entangle arg : (forall l, arg = Some l -> l ⊆ lat_stabs L) -> ok K (entangle L arg) none any.
Proof.
  intros Ha. unfold entangle. apply ok_mfor. intros [c p] Hx.
  assert (Hs : (c, p) ∈ lat_stabs L).
  { destruct arg as [[|y l]|]; [done| |done]. by apply (Ha _ eq_refl). }
  cbn [fst snd]. eapply ok_bind; [apply ok_lift|]. intros is E. apply ok_emit.
  intros i [Hi| ->%elem_of_list_singleton]%elem_of_app; [|done]. eapply plaq_legal; [exact Hs|exact E|exact Hi].
Qed.
Lemma ok_rx : ok K (readout_x_into_ancilla q) none any.
Proof.
  unfold readout_x_into_ancilla. cbn zeta.
  assert (HA : forall d, of_reg d (lat_data L) -> legal K (ICX (anc q) d)).
  { intros d Hd. split_and!; [apply has_anc|by apply has_d|]. intros E. apply (data_anc d (anc q)); [done|apply anc_of|done]. }
  assert (HD : forall d, of_reg d (lat_data L) -> legal K (ICX d (anc q))).
  { intros d Hd. split_and!; [by apply has_d|apply has_anc|]. apply data_anc; [done|apply anc_of]. }
  apply ok_then; [apply one_legal, has_anc|]. destruct (lat_code (tq_lat q)).
  - apply ok_then; [apply one_legal, has_anc|]. eapply ok_bind; [apply ok_col|]. intros is _.
    apply ok_then; [by apply (ok_loop is (fun _ d => ICX (anc q) d))|]. apply one_legal, has_anc.
  - eapply ok_bind; [apply ok_col|]. intros is _. apply ok_then; [apply one_legal, has_anc|].
    eapply ok_bind; [apply ok_lift|]. intros xs Ex. apply ok_then; [apply ok_emit1; intros x Hx; apply HA; eapply reg_list_of; [exact Ex|exact Hx]|].
    apply ok_then; [apply one_legal, has_anc|].
    eapply ok_bind; [apply ok_lift|]. intros zs Ez. apply ok_emit1. intros x Hx. apply HD. eapply reg_list_of; [exact Ez|exact Hx].
Qed.
Lemma ok_rz : ok K (readout_z_into_ancilla q) none any.
Proof.
  unfold readout_z_into_ancilla. cbn zeta.
  assert (HA : forall d, of_reg d (lat_data L) -> legal K (ICX (anc q) d)).
  { intros d Hd. split_and!; [apply has_anc|by apply has_d|]. intros E. apply (data_anc d (anc q)); [done|apply anc_of|done]. }
  assert (HD : forall d, of_reg d (lat_data L) -> legal K (ICX d (anc q))).
  { intros d Hd. split_and!; [by apply has_d|apply has_anc|]. apply data_anc; [done|apply anc_of]. }
  apply ok_then; [apply one_legal, has_anc|]. destruct (lat_code (tq_lat q)).
  - eapply ok_bind; [apply ok_row|]. intros is _. by apply (ok_loop is (fun _ d => ICX d (anc q))).
  - eapply ok_bind; [apply ok_row|]. intros is _. apply ok_then; [apply one_legal, has_anc|].
    eapply ok_bind; [apply ok_lift|]. intros xs Ex. apply ok_then; [apply ok_emit1; intros x Hx; apply HA; eapply reg_list_of; [exact Ex|exact Hx]|].
    apply ok_then; [apply one_legal, has_anc|].
    eapply ok_bind; [apply ok_lift|]. intros zs Ez. apply ok_emit1. intros x Hx. apply HD. eapply reg_list_of; [exact Ez|exact Hx].
Qed.
Lemma cx_reg_part k p x n : p ∈ parts -> occurs p x = true -> cx_reg (Reg k x n).
Proof. intros Hp Ho Hr. by apply (not_reserved _ _ Hp) in Ho. Qed.
Lemma ok_rr r : (forall h, r = Some h -> h.2 = 0 \/ Reg false h.1 h.2 ∈ K) -> ok K (readout_register q r) (fun h => [Reg false h.1 h.2]) any.
Proof.
  intros Hr. unfold readout_register. cbn zeta.
  assert (HF : ok K (let* p := get_params (lat_params (tq_lat q)) in let* n := key (num_readout_of p) in
     put_params (lat_params (tq_lat q)) (upd_num_readout p (n + 1)) ;;;
     (add_reg (Reg false (lat_name (tq_lat q) +:+ "_readout_" +:+ py_str (n + 1))%string 1) ;;;
      Circ.mret ((lat_name (tq_lat q) +:+ "_readout_" +:+ py_str (n + 1))%string, 1))) (fun h => [Reg false h.1 h.2]) any).
  { eapply ok_bind; [apply ok_get|]. intros p _. eapply ok_bind; [apply ok_key|]. intros n _. apply ok_then; [apply ok_put|].
    eapply ok_bind; [apply ok_reg|].
    - eapply (cx_reg_part _ "_readout_"); [|apply occurs_app]. unfold parts. set_solver.
    - intros u _. eapply ok_weaken; [apply ok_ret|done|]. intros h ->. split; [done|]. intros rs Hrs. cbn [fst snd]. intros x ->%elem_of_list_singleton. apply Hrs. by left. }
  destruct r as [h|]; [|exact HF]. case_bool_decide as E; [exact HF|]. destruct (Hr h eq_refl) as [|HR]; [done|].
  eapply ok_weaken; [apply (ok_ret K h)|done|]. intros h' ->. split; [done|]. intros rs Hrs x ->%elem_of_list_singleton. apply Hrs. by apply elem_of_app; right.
Qed.
End methods.

(** Every method of a qubit. *)
Lemma sub_cons_app (A B : list reg) : A ⊆ B ++ A.
Proof. intros x Hx. apply elem_of_app. by right. Qed.
Lemma sub_trans_app (A B C : list reg) : A ⊆ C -> A ⊆ B ++ C.
Proof. intros H x Hx. apply elem_of_app. right. auto. Qed.
Lemma ok_readout q K (body : M unit) r : lat_wf q -> lat_regs q ⊆ K -> (forall h, r = Some h -> h.2 = 0 \/ Reg false h.1 h.2 ∈ K) ->
  (forall K, lat_regs q ⊆ K -> ok K body none any) ->
  ok K (let* h := readout_register q r in body ;;; measure_ancilla q h ;;; emit [IBarrier]) none any.
Proof.
  intros Hq HK Hr Hb. eapply ok_bind; [by apply ok_rr|]. intros h _. apply ok_then; [apply Hb; by apply sub_trans_app|].
  apply ok_then; [|by apply ok_bar]. unfold measure_ancilla. apply ok_emit. intros i (c & -> & Hc)%elem_of_list_fmap.
  split; [apply has_anc; [done|by apply sub_trans_app]|]. apply reg_bits_of in Hc as [E Hc]. exists h.2. rewrite E. split; [by left|done].
Qed.
Lemma ok_latread q K bc : lat_wf q -> lat_regs q ⊆ K -> (forall l x, bc = Some l -> x ∈ l -> of_reg x (lat_data (tq_lat q))) ->
  ok K (lattice_readout q bc) none any.
Proof.
  intros Hq HK Hb. unfold lattice_readout. cbn zeta. eapply ok_bind; [apply ok_get|]. intros p _. eapply ok_bind; [apply ok_key|]. intros n _.
  apply ok_then; [apply ok_put|]. eapply ok_bind; [apply ok_key|]. intros nd _.
  eapply ok_bind; [apply ok_reg|].
  { cbn [fst snd]. eapply (cx_reg_part _ "_lattice_readout_"); [|apply occurs_app]. unfold parts. set_solver. }
  intros u _. cbn [fst snd app]. set (r := Reg _ _ _).
  assert (HK' : lat_regs q ⊆ r :: K) by (intros x Hx; right; auto).
  apply ok_then; [destruct bc as [l|]; [|eapply ok_any, ok_ret]; apply ok_emit1; intros x Hx; eapply has_d; [exact HK'|by eapply Hb]|].
  apply ok_then; [|by apply ok_bar]. apply ok_meas.
  - intros x Hx%reg_bits_of. eapply has_d; [exact HK'|done].
  - intros c [E Hc]%reg_bits_of. cbn [fst snd] in *. exists nd. rewrite E. split; [by left|done].
Qed.
Lemma evens_sub {A} (l : list A) x : x ∈ evens l -> x ∈ l.
Proof.
  assert (H : (x ∈ evens l -> x ∈ l) /\ forall y, x ∈ evens (y :: l) -> x ∈ y :: l).
  { induction l as [|a l [I1 I2]]; [split; [done|]; intros y; cbn; done|]. split; [apply I2|].
    intros y. cbn [evens]. intros [->|Hx]%elem_of_cons; [by left|]. right. right. by apply I1. }
  apply H.
Qed.
Lemma odds_sub {A} (l : list A) x : x ∈ odds l -> x ∈ l.
Proof. destruct l as [|y l]; [done|]. intros Hx%evens_sub. by right. Qed.

Lemma ok_op q K o : lat_wf q -> lat_regs q ⊆ K -> arg_ok K q (MOp o) -> ok K (run_op q o) none any.
Proof.
  intros Hq HK Ha. assert (HD : forall x, x ∈ reg_bits (lat_data (tq_lat q)) -> has_qubit K x).
  { intros x Hx%reg_bits_of. by eapply has_d. }
  destruct o; cbn [run_op].
  - unfold stabilize. cbn zeta. eapply ok_bind; [apply ok_get|]. intros p _. eapply ok_bind; [apply ok_key|]. intros ns _.
    eapply ok_bind; [apply ok_key|]. intros T _. apply ok_then; [apply ok_put|].
    eapply ok_bind; [apply ok_reg|].
    { cbn [fst snd]. eapply (cx_reg_part _ "_c"); [|apply occurs_app]. unfold parts. set_solver. }
    intros u _. cbn [fst snd app]. set (r := Reg _ _ _).
    assert (HK' : lat_regs q ⊆ r :: K) by (intros x Hx; right; auto).
    assert (HC : forall c, c ∈ reg_bits ((lat_name (tq_lat q) +:+ "_c" +:+ py_str (T + 1))%string, ns.1 + ns.2) -> has_clbit (r :: K) c).
    { intros c [E Hc]%reg_bits_of. cbn [fst snd] in *. exists (ns.1 + ns.2). rewrite E. split; [by left|done]. }
    apply ok_then; [apply ok_entangle; [done|done|]; by intros l|].
    apply ok_then.
    { case_bool_decide; [|eapply ok_any, ok_ret]. eapply ok_bind; [apply ok_key|]. intros mz Hz. apply ok_meas.
      - intros x Hx%reg_bits_of. eapply has_syn; [exact HK'|right; exact Hz|done].
      - intros c Hc. apply HC. by eapply elem_of_take in Hc as (i & ?%elem_of_list_lookup_2 & _). }
    apply ok_then.
    { case_bool_decide; [|eapply ok_any, ok_ret]. eapply ok_bind; [apply ok_key|]. intros mx Hx. apply ok_meas.
      - intros x Hb%reg_bits_of. eapply has_syn; [exact HK'|left; exact Hx|done].
      - intros c Hc. apply HC. apply elem_of_take in Hc as (i & Hc & _). rewrite lookup_drop in Hc. by eapply elem_of_list_lookup_2. }
    apply ok_then.
    { case_bool_decide; [|eapply ok_any, ok_ret]. eapply ok_bind; [apply ok_key|]. intros mz Hz. apply ok_emit.
      intros i (x & -> & Hx%reg_bits_of)%elem_of_list_fmap. eapply has_syn; [exact HK'|right; exact Hz|done]. }
    apply ok_then; [|by apply ok_bar].
    { case_bool_decide; [|eapply ok_any, ok_ret]. eapply ok_bind; [apply ok_key|]. intros mx Hx. apply ok_emit.
      intros i (x & -> & Hb%reg_bits_of)%elem_of_list_fmap. eapply has_syn; [exact HK'|left; exact Hx|done]. }
  - unfold readout_x. apply ok_readout; [done..| |intros; by apply ok_rx]. intros h ->. exact Ha.
  - unfold readout_z. apply ok_readout; [done..| |intros; by apply ok_rz]. intros h ->. exact Ha.
  - unfold lattice_readout_x. apply ok_latread; [done..|]. intros l x [= <-] Hx. apply reg_bits_of. destruct (lat_code (tq_lat q)); [done|by apply odds_sub].
  - unfold lattice_readout_z. apply ok_latread; [done..|]. intros l x E Hx. apply reg_bits_of. destruct (lat_code (tq_lat q)); [done|]. injection E as <-. by apply evens_sub.
  - unfold reset_x. cbn zeta. destruct (lat_code (tq_lat q)).
    + apply ok_then; [by apply ok_emit1|]. apply ok_then; [by apply ok_emit1|]. apply ok_bar.
    + apply ok_then; [by apply ok_emit1|]. apply ok_emit1. intros x Hx%odds_sub. by apply HD.
  - unfold reset_z. cbn zeta. destruct (lat_code (tq_lat q)).
    + apply ok_then; [by apply ok_emit1|]. apply ok_bar.
    + apply ok_then; [by apply ok_emit1|]. apply ok_emit1. intros x Hx%evens_sub. by apply HD.
  - unfold logical_x. eapply ok_bind; [apply ok_col|]. intros is _. apply ok_then; [|apply ok_bar].
    apply (ok_loop2 q K is (fun _ d => IX d) (fun i d => if bool_decide (i mod 2 = 1) then IX d else IZ d)); intros i d Hd; try case_bool_decide; by eapply has_d.
  - unfold logical_z. eapply ok_bind; [apply ok_row|]. intros is _. apply ok_then; [|apply ok_bar].
    apply (ok_loop2 q K is (fun _ d => IZ d) (fun i d => if bool_decide (i mod 2 = 0) then IX d else IZ d)); intros i d Hd; try case_bool_decide; by eapply has_d.
  - unfold id_all. cbn zeta. apply ok_then; [|apply ok_bar]. apply ok_mfor. intros h Hh. apply ok_emit1. intros x Hx%reg_bits_of.
    eapply of_reg_q; [exact Hx|]. apply HK. unfold lat_regs. apply elem_of_list_fmap. by exists h.
  - unfold id_data. apply ok_then; [|apply ok_bar]. by apply ok_emit1.
Qed.
Lemma ok_xif q K h v : lat_regs q ⊆ K -> Reg false h.1 h.2 ∈ K -> 0 <= v -> ok K (x_c_if q h v) none any.
Proof.
  intros HK Hh Hv. unfold x_c_if. eapply ok_bind; [apply ok_col|]. intros is _. apply ok_then; [|apply ok_bar].
  apply (ok_loop2 q K is (fun _ d => IXIf d h v) (fun i d => if bool_decide (i mod 2 = 1) then IXIf d h v else IZIf d h v)); intros i d Hd; try case_bool_decide;
    (split; [by eapply has_d|done]).
Qed.
Lemma ok_zif q K h v : lat_regs q ⊆ K -> Reg false h.1 h.2 ∈ K -> 0 <= v -> ok K (z_c_if q h v) none any.
Proof.
  intros HK Hh Hv. unfold z_c_if. eapply ok_bind; [apply ok_row|]. intros is _. apply ok_then; [|apply ok_bar].
  apply (ok_loop2 q K is (fun _ d => IZIf d h v) (fun i d => if bool_decide (i mod 2 = 0) then IXIf d h v else IZIf d h v)); intros i d Hd; try case_bool_decide;
    (split; [by eapply has_d|done]).
Qed.
Lemma ok_tqcx_c q K c : lat_regs q ⊆ K -> has_qubit K c -> c.1 <> (lat_data (tq_lat q)).1 -> ok K (tq_cx q (Some c) None) none any.
Proof.
  intros HK Hc Hne. unfold tq_cx. eapply ok_bind; [apply ok_col|]. intros is _. apply ok_then; [|apply ok_bar].
  apply (ok_loop2 q K is (fun _ d => ICX c d) (fun i d => if bool_decide (i mod 2 = 1) then ICX c d else ICZ c d)); intros i d Hd; try case_bool_decide;
    (split_and!; [done|by eapply has_d|]; intros ->; by apply Hne, Hd).
Qed.
Lemma ok_tqcx_t q K t : lat_wf q -> lat_regs q ⊆ K -> has_qubit K t -> t.1 <> (lat_ancilla (tq_lat q)).1 -> ok K (tq_cx q None (Some t)) none any.
Proof.
  intros Hq HK Ht Hne. unfold tq_cx. apply ok_then; [by apply ok_rz|]. apply one_legal. split_and!; [by apply has_anc|done|].
  intros E. apply Hne. by rewrite <-E.
Qed.
Lemma ok_meth q K m : lat_wf q -> lat_regs q ⊆ K -> arg_ok K q m -> ok K (run_meth q m) none any.
Proof.
  intros Hq HK Ha. destruct m as [o| | |h v|h v|[c|] [t|]]; cbn [run_meth].
  - by apply ok_op.
  - unfold entangle_x. eapply ok_bind; [apply ok_key|]. intros mx _. apply ok_entangle; [done|done|]. intros l [= <-] x Hx.
    by apply elem_of_take in Hx as (i & ?%elem_of_list_lookup_2 & _).
  - unfold entangle_z. eapply ok_bind; [apply ok_key|]. intros mx _. apply ok_entangle; [done|done|]. intros l [= <-] x Hx.
    apply elem_of_list_lookup in Hx as (i & Hx). rewrite lookup_drop in Hx. by eapply elem_of_list_lookup_2.
  - apply ok_xif; [done|apply Ha..].
  - apply ok_zif; [done|apply Ha..].
  - apply ok_raise.
  - apply ok_tqcx_c; [done|apply Ha..].
  - apply ok_tqcx_t; [done|done|apply Ha..].
  - apply ok_raise.
Qed.

(** ** Making qubits *)
Lemma ok_regs K (l : list rhandle) : (forall h, h ∈ l -> cx_reg (Reg true h.1 h.2)) ->
  ok K (mfor l (fun h => add_reg (Reg true h.1 h.2))) (fun _ => hreg true <$> l) any.
Proof.
  revert K. induction l as [|h l IHl]; intros K Hl; cbn [mfor].
  - eapply ok_weaken; [apply ok_ret|done|]. intros a _. split; [done|]. intros rs _ x Hx. by apply elem_of_nil in Hx.
  - eapply ok_bind; [apply ok_reg, Hl; by left|]. intros u _. eapply ok_weaken; [apply IHl; intros; apply Hl; by right|done|].
    intros a _. split; [done|]. intros rs Hrs x. rewrite fmap_cons. intros [->|Hx]%elem_of_cons; apply Hrs; rewrite !elem_of_app.
    + right. left. by apply elem_of_list_singleton.
    + by left.
Qed.
Lemma gen_plaq_wf sr data p qp : gen_plaq sr data p = Ok qp ->
  exists h, sr = Some h /\ of_reg (q_syn qp) h /\ oreg (q_tl qp) data /\ oreg (q_tr qp) data /\ oreg (q_bl qp) data /\ oreg (q_br qp) data.
Proof.
  unfold gen_plaq. destruct sr as [h|]; [|done]. intros E. exists h. split; [done|].
  destruct (reg_get h (p_syn p)) as [x|] eqn:E0; cbn in E; [|done].
  assert (HO : forall o y, opt_get data o = Ok y -> oreg y data).
  { intros o y. unfold opt_get. destruct o as [i|]; [|by intros [= <-]]. destruct (reg_get data i) eqn:Ei; [|done]. intros [= <-]. by eapply reg_get_of. }
  destruct (opt_get data (top_l p)) as [a|] eqn:E1; cbn in E; [|done]. destruct (opt_get data (top_r p)) as [b|] eqn:E2; cbn in E; [|done].
  destruct (opt_get data (bot_l p)) as [c|] eqn:E3; cbn in E; [|done]. destruct (opt_get data (bot_r p)) as [d|] eqn:E4; cbn in E; [|done].
  injection E as <-. cbn. split_and!; [by eapply reg_get_of|by eapply HO..].
Qed.
Lemma rmap_elem {A B} (f : A -> res B) l ys y : rmap f l = Ok ys -> y ∈ ys -> exists x, x ∈ l /\ f x = Ok y.
Proof.
  revert ys. induction l as [|x l IHl]; intros ys; cbn [rmap]; [by intros [= <-] ?%elem_of_nil|]. destruct (f x) as [b|] eqn:E; [|done].
  destruct (rmap f l) as [bs|] eqn:E2; [|done]. intros [= <-] [->|Hy]%elem_of_cons; [exists x; split; [by left|done]|].
  destruct (IHl bs eq_refl Hy) as (x' & ? & ?). exists x'. split; [by right|done].
Qed.
Lemma gen_stabs_wf c mx mz data g sts k p : gen_stabs c mx mz data g = Ok sts -> (k, p) ∈ sts ->
  (exists h, (mx = Some h \/ mz = Some h) /\ of_reg (q_syn p) h) /\ oreg (q_tl p) data /\ oreg (q_tr p) data /\ oreg (q_bl p) data /\ oreg (q_br p) data.
Proof.
  unfold gen_stabs. destruct (rmap (gen_plaq mx data) g.1) as [xs|] eqn:E1; cbn; [|done]. destruct (rmap (gen_plaq mz data) g.2) as [zs|] eqn:E2; cbn; [|done].
  intros [= <-] [Hp|Hp]%elem_of_app; apply elem_of_list_fmap in Hp as (p' & [= -> <-] & Hp).
  - destruct (rmap_elem _ _ _ _ E1 Hp) as (x & _ & Hx). apply gen_plaq_wf in Hx as (h & -> & ? & ?). split; [|done]. exists h. split; [by left|done].
  - destruct (rmap_elem _ _ _ _ E2 Hp) as (x & _ & Hx). apply gen_plaq_wf in Hx as (h & -> & ? & ?). split; [|done]. exists h. split; [by right|done].
Qed.
Lemma ok_gen K l : ok K (params_validate_and_generate l) none any.
Proof.
  unfold params_validate_and_generate. eapply ok_bind; [apply ok_get|]. intros p _. eapply ok_bind; [apply ok_lift|]. intros dl _.
  apply ok_then; [apply ok_put|]. eapply ok_bind; [apply ok_lift|]. intros hw _. apply ok_then; [apply ok_put|]. eapply ok_any, ok_ret.
Qed.
Lemma ok_repval K l : ok K (rep_validate l) none any.
Proof.
  unfold rep_validate. eapply ok_bind; [apply ok_get|]. intros p _. cbn zeta. apply ok_then; [apply ok_put|]. eapply ok_bind; [apply ok_lift|]. intros dl _. apply ok_put.
Qed.
Lemma ok_ornew K l : ok K (or_new l) none any.
Proof.
  unfold or_new. destruct l as [l|]; [|apply ok_new]. eapply ok_bind; [apply ok_get|]. intros p _. destruct (params_empty p); [apply ok_new|eapply ok_any, ok_ret].
Qed.
Lemma ok_tqubit K t l name : ok K (new_tqubit t l name) lat_regs lat_wf.
Proof.
  unfold new_tqubit. eapply ok_bind; [apply ok_ornew|]. intros l' _. apply ok_then; [destruct t; [apply ok_repval|eapply ok_any, ok_ret..]|].
  eapply ok_bind with (N := fun lat => lat_regs (TQubit t lat)) (V := fun lat => lat_wf (TQubit t lat)).
  - unfold new_lattice. eapply ok_bind; [apply ok_gen|]. intros hw _. cbn zeta. eapply ok_bind; [apply ok_regs|].
    + set (data := (_, num_data _ _)). intros h Hh.
      assert (exists suf, suf ∈ ["_data"; "_mz"; "_mx"; "_ancilla"]%string /\ h.1 = (name +:+ suf)%string) as (suf & Hs & ->).
      { rewrite !elem_of_app in Hh. destruct Hh as [->%elem_of_list_singleton|[Hh|[Hh| ->%elem_of_list_singleton]]].
        - exists "_data"%string. split; [set_solver|done].
        - case_bool_decide; cbn in Hh; [|by apply elem_of_nil in Hh]. apply elem_of_list_singleton in Hh as ->. exists "_mz"%string. split; [set_solver|done].
        - case_bool_decide; cbn in Hh; [|by apply elem_of_nil in Hh]. apply elem_of_list_singleton in Hh as ->. exists "_mx"%string. split; [set_solver|done].
        - exists "_ancilla"%string. split; [set_solver|done]. }
      eapply (cx_reg_part _ suf); [|apply occurs_end]. unfold parts. set_solver.
    + intros u _. eapply ok_bind; [apply ok_lift|]. intros sts Es. eapply ok_weaken; [apply ok_ret|done|]. intros lat ->. split.
      * constructor; cbn [tq_lat lat_data lat_name lat_mz lat_mx lat_ancilla lat_stabs].
        -- done.
        -- clear Es. intros h. case_bool_decide; [|done]. by intros [= <-].
        -- clear Es. intros h. case_bool_decide; [|done]. by intros [= <-].
        -- done.
        -- intros k p Hp. exact (gen_stabs_wf _ _ _ _ _ _ _ _ Es Hp).
      * intros rs Hrs x Hx. apply Hrs. cbn [app]. apply elem_of_app. by left.
  - intros lat Hl. eapply ok_weaken; [apply ok_ret|done|]. intros q' ->. split; [done|]. intros rs Hrs x Hx. apply Hrs. apply elem_of_app. right. apply elem_of_app. by left.
Qed.

(** ** The register *)
Lemma dict_set_elem {X A} `{EqDecision X} (k : X) (a : A) l e : e ∈ dict_set k a l -> e = (k, a) \/ e ∈ l.
Proof.
  induction l as [|[k' a'] l IHl]; cbn [dict_set].
  - intros ->%elem_of_list_singleton. by left.
  - case_bool_decide; intros [->|He]%elem_of_cons; [by left|right; by right|right; by left|]. destruct (IHl He); [by left|]. right. by right.
Qed.
Lemma dict_get_elem {X A} `{EqDecision X} (k : X) (a : A) l : dict_get k l = Some a -> (k, a) ∈ l.
Proof. induction l as [|[k' a'] l IHl]; cbn [dict_get]; [done|]. case_bool_decide; [intros [= ->]; subst; by left|]. intros H1. right. auto. Qed.
Lemma inv_tq s n tq : inv s -> tq_in (s_regs s) tq -> inv (set_tq s n tq).
Proof. intros [A B C D E] H. by constructor. Qed.
Lemma ok_add K sub c l : ok K (add_tqubit sub c l) none any.
Proof.
  intros s Hi HK. unfold add_tqubit. change (mbind' get_st ?f s) with (f s s). cbn beta.
  set (m1 := match dict_get sub (s_tq s) with None => _ | Some _ => _ end).
  assert (Hm1 : exists s1, m1 s = (s1, Ok tt) /\ inv s1 /\ s_regs s1 = s_regs s).
  { unfold m1. destruct (dict_get sub (s_tq s)); [by exists s|]. eexists. split; [reflexivity|]. split; [|done]. apply inv_tq; [done|].
    intros sub' d i q He Hd. apply dict_set_elem in He as [[= -> ->]|He]; [by apply elem_of_nil in Hd|]. by eapply (iv_tq _ Hi). }
  destruct Hm1 as (s1 & E1 & I1 & R1). assert (EB : forall B (f : unit -> M B), mbind' m1 f s = f tt s1) by (intros; unfold mbind'; by rewrite E1).
  rewrite !EB. clear EB E1 m1.
  assert (HR : ok K (let* t := key (str2qtype c) in
      let* q := new_tqubit t (Some l) (s_tname s +:+ "_" +:+ py_str (s_n s))%string in
      let* s2 := get_st in
      let* sub_d := key (dict_get sub (s_tq s2)) in
      put_st (set_tq s2 (s_n s2 + 1) (dict_set sub (dict_set (s_n s2) q sub_d) (s_tq s2)))) none any).
  { eapply ok_bind; [apply ok_key|]. intros t _. eapply ok_bind; [apply ok_tqubit|]. intros q Hq s2 I2 K2.
    change (mbind' get_st ?f s2) with (f s2 s2). cbn beta. destruct (dict_get sub (s_tq s2)) as [d|] eqn:Ed; [|done].
    change (mbind' (key (Some d)) ?f s2) with (f d s2). cbn beta. unfold put_st. cbn [fst snd]. split_and!.
    - apply inv_tq; [done|]. intros sub' d' i q' He Hd. apply dict_set_elem in He as [[= -> ->]|He]; [|by eapply (iv_tq _ I2)].
      apply dict_set_elem in Hd as [[= -> ->]|Hd]; [|eapply (iv_tq _ I2); [by apply dict_get_elem|done]].
      split; [done|]. intros x Hx. apply K2. apply elem_of_app. by left.
    - done.
    - intros [] _. split; [done|]. intros x Hx. by apply elem_of_nil in Hx. }
  specialize (HR s1 I1). rewrite R1 in HR. destruct (HR HK) as (? & ? & ?). split_and!; done.
Qed.
Lemma ok_adds K sub cs ps : ok K (add_tqubits sub cs ps) none any.
Proof.
  unfold add_tqubits. case_bool_decide; [apply ok_raise|]. destruct (existsb _ cs); [apply ok_raise|]. apply ok_mfor. intros [c p] _. apply ok_add.
Qed.
Lemma lookup_elem tq i q : treg_lookup tq i = Ok q -> exists sub d, (sub, d) ∈ tq /\ (i, q) ∈ d.
Proof.
  induction tq as [|[sub d] tq IHt]; cbn [treg_lookup]; [done|]. destruct (dict_get i d) as [q'|] eqn:E.
  - intros [= ->]. exists sub, d. split; [by left|]. by apply dict_get_elem.
  - intros H. destruct (IHt H) as (sub' & d' & ? & ?). exists sub', d'. split; [by right|done].
Qed.
Lemma tq_in_lookup rs tq i q : tq_in rs tq -> treg_lookup tq i = Ok q -> lat_in rs q.
Proof. intros H (sub & d & H1 & H2)%lookup_elem. by eapply H. Qed.
(** A qubit given to a method of the circuit is on the circuit. *)
Definition ref_ok (K : list reg) (r : tref) : Prop := match r with ByIdx _ => True | ByObj q => lat_in K q end.
Lemma ok_index K r : ref_ok K r -> ok K (get_index r) lat_regs lat_wf.
Proof.
  intros Hr. destruct r as [i|q]; cbn [get_index].
  - intros s Hi HK. unfold treg_get. cbn [fst snd]. split_and!; [done|done|]. intros q Hq. by apply (tq_in_lookup _ _ _ _ (iv_tq _ Hi)) in Hq.
  - destruct Hr as [Hq HR]. eapply ok_weaken; [apply (ok_ret K)|done|]. intros q' ->. split; [done|]. intros rs Hrs x Hx. apply Hrs. apply elem_of_app. right. by apply HR.
Qed.

(** ** The circuit *)
Lemma ok_creg_gen K size name : (forall s, inv s -> dict_get name (s_tcreg s) = None -> name ∈ (r_name <$> s_regs s) -> Reg false name size ∈ s_regs s) ->
  cx_reg (Reg false name size) -> ok K (add_creg size name) none any.
Proof.
  intros Hn Hc s Hi HK. unfold add_creg. change (mbind' get_st ?f s) with (f s s). cbn beta.
  assert (H0 : forall a : unit, True /\ [] ⊆ s_regs s) by (intros; split; [done|]; intros x Hx; by apply elem_of_nil in Hx).
  destruct (dict_get name (s_tcreg s)) eqn:Ed; [by split_and!; [done|done|intros a _; apply H0]|].
  case_bool_decide as Hz; [by split_and!|]. set (s1 := set_tregs _ _ _). change (mbind' (put_st s1) ?f s) with (f tt s1). cbn beta.
  unfold add_reg. cbn [r_size r_name]. rewrite bool_decide_eq_false_2 by done. change (s_regs s1) with (s_regs s). case_bool_decide as Hin; cbn [fst snd].
  - split_and!; [|done|done]. destruct Hi as [A B C D E]. constructor; try done. cbn. intros e [->|He]%dict_set_elem; [|by apply E]. split; [done|]. cbn. by apply Hn.
  - assert (HI : inv (set_regs s (s_regs s ++ [Reg false name size]))) by (apply inv_add; [done|done|cbn; lia|exact Hc]).
    destruct HI as [A B C D E]. split_and!.
    + constructor; try done. cbn. intros e [->|He]%dict_set_elem; [|by apply E]. split; [done|]. cbn. apply elem_of_app. right. by left.
    + cbn. intros x Hx. apply elem_of_app. by left.
    + intros a _. split; [done|]. intros x Hx. by apply elem_of_nil in Hx.
Qed.
Lemma ok_qreg_gen K size name : (forall s, inv s -> dict_get name (s_tqreg s) = None -> name ∈ (r_name <$> s_regs s) -> Reg true name size ∈ s_regs s) ->
  cx_reg (Reg true name size) -> ok K (add_qreg size name) none any.
Proof.
  intros Hn Hc s Hi HK. unfold add_qreg. change (mbind' get_st ?f s) with (f s s). cbn beta.
  assert (H0 : forall a : unit, True /\ [] ⊆ s_regs s) by (intros; split; [done|]; intros x Hx; by apply elem_of_nil in Hx).
  destruct (dict_get name (s_tqreg s)) eqn:Ed; [by split_and!; [done|done|intros a _; apply H0]|].
  case_bool_decide as Hz; [by split_and!|]. set (s1 := set_tregs _ _ _). change (mbind' (put_st s1) ?f s) with (f tt s1). cbn beta.
  unfold add_reg. cbn [r_size r_name]. rewrite bool_decide_eq_false_2 by done. change (s_regs s1) with (s_regs s). case_bool_decide as Hin; cbn [fst snd].
  - split_and!; [|done|done]. destruct Hi as [A B C D E]. constructor; try done. cbn. intros e [->|He]%dict_set_elem; [|by apply D]. split; [done|]. cbn. by apply Hn.
  - assert (HI : inv (set_regs s (s_regs s ++ [Reg true name size]))) by (apply inv_add; [done|done|cbn; lia|exact Hc]).
    destruct HI as [A B C D E]. split_and!.
    + constructor; try done. cbn. intros e [->|He]%dict_set_elem; [|by apply D]. split; [done|]. cbn. apply elem_of_app. right. by left.
    + cbn. intros x Hx. apply elem_of_app. by left.
    + intros a _. split; [done|]. intros x Hx. by apply elem_of_nil in Hx.
Qed.
Lemma reserved_reg s name : inv s -> name ∈ reserved -> name ∈ (r_name <$> s_regs s) -> Reg (bool_decide (name = "cnot_readout"%string)) name 1 ∈ s_regs s.
Proof. intros Hi Hr (r & -> & Hin)%elem_of_list_fmap. rewrite <-(iv_cx _ Hi r Hin Hr). done. Qed.
Lemma ok_m K name : name ∈ ["m1"; "m2"; "m3"]%string -> ok K (add_creg 1 name) none any.
Proof.
  intros Hn. assert (name ∈ reserved) by (unfold reserved; set_solver). assert (Hb : bool_decide (name = "cnot_readout"%string) = false).
  { apply bool_decide_eq_false_2. intros ->. rewrite !elem_of_cons, elem_of_nil in Hn. intuition done. }
  apply ok_creg_gen; [|intros _; cbn; by rewrite Hb]. intros s Hi _ Hin. pose proof (reserved_reg s name Hi) as HR. rewrite Hb in HR. auto.
Qed.
Lemma ok_cnot K : ok K (add_qreg 1 "cnot_readout") none any.
Proof. apply ok_qreg_gen; [|done]. intros s Hi _ Hin. apply (reserved_reg s "cnot_readout" Hi); [unfold reserved; set_solver|done]. Qed.
Lemma ok_getcreg K name : ok K (get_creg name) (fun h => [Reg false h.1 h.2]) any.
Proof.
  intros s Hi HK. unfold get_creg. change (mbind' get_st ?f s) with (f s s). cbn beta. destruct (dict_get name (s_tcreg s)) as [h|] eqn:E; [|done].
  cbn [key fst snd Circ.mret]. split_and!; [done|done|]. intros a [= <-]. split; [done|]. intros x ->%elem_of_list_singleton.
  apply dict_get_elem in E. by apply (iv_c _ Hi) in E as [_ ?].
Qed.
Lemma ok_getqreg K name : ok K (get_qreg name) (fun h => [Reg true h.1 h.2]) (fun h => h.1 = name).
Proof.
  intros s Hi HK. unfold get_qreg. change (mbind' get_st ?f s) with (f s s). cbn beta. destruct (dict_get name (s_tqreg s)) as [h|] eqn:E; [|done].
  cbn [key fst snd Circ.mret]. split_and!; [done|done|]. intros a [= <-]. apply dict_get_elem in E. apply (iv_q _ Hi) in E as [? ?]. split; [done|].
  intros x ->%elem_of_list_singleton. done.
Qed.

(** The last qubit of the "ancilla" sub-register. *)
Lemma ok_anc K (V : tqubit -> M unit) : (forall q, lat_wf q -> forall K', lat_regs q ++ K ⊆ K' -> ok K' (V q) none any) ->
  ok K (let* s := get_st in let* sub := key (dict_get "ancilla"%string (s_tq s)) in
        let* ancilla := (match reverse sub with kq :: _ => Circ.mret kq.2 | [] => mraise IndexError end) in V ancilla) none any.
Proof.
  intros HV s Hi HK. change (mbind' get_st ?f s) with (f s s). cbn beta.
  destruct (dict_get "ancilla"%string (s_tq s)) as [d|] eqn:Ed; [|by split_and!].
  change (mbind' (key (Some d)) ?f s) with (f d s). cbn beta. destruct (reverse d) as [|[i q] l] eqn:Er; [by split_and!|].
  change (mbind' (Circ.mret (i, q).2) ?f s) with (f q s). cbn beta.
  assert (lat_in (s_regs s) q) as [Hq HR].
  { eapply (iv_tq _ Hi); [by apply dict_get_elem|]. rewrite <-(reverse_involutive d), Er. apply elem_of_reverse. by left. }
  apply (HV q Hq (s_regs s)); [|done|done]. intros x [Hx|Hx]%elem_of_app; auto.
Qed.
Lemma ref_sub K K' r : K ⊆ K' -> ref_ok K r -> ref_ok K' r.
Proof. intros H. destruct r; [done|]. by apply lat_in_sub. Qed.
Lemma ok_st {A} K (m : st -> M A) N V : (forall s, ok K (m s) N V) -> ok K (let* s := get_st in m s) N V.
Proof. intros H s Hi HK. exact (H s s Hi HK). Qed.
Lemma ok_cx K a b t p : ref_ok K a -> ref_ok K b -> ok K (c_cx a b t p) none any.
Proof.
  intros Ha Hb. unfold c_cx. apply ok_then; [destruct t, p; [eapply ok_any, ok_ret|apply ok_raise..|eapply ok_any, ok_ret]|].
  eapply ok_bind with (N := none) (V := any).
  { assert (HG : ok K (let* q := get_index a in Circ.mret (type_name (tq_type q), lat_params (tq_lat q))) none any).
    { eapply ok_bind; [by apply ok_index|]. intros q _. eapply ok_any, ok_ret. }
    destruct t, p; [eapply ok_any, ok_ret|exact HG..]. }
  intros ap _. cbn [app]. eapply ok_bind; [by apply ok_index|]. intros qc Hqc. eapply ok_bind.
  { apply ok_index. eapply ref_sub; [|exact Hb]. apply sub_cons_app. }
  intros qt Hqt. apply ok_st. intros s0. apply ok_then; [destruct (dict_get _ _); [eapply ok_any, ok_ret|apply ok_add]|].
  apply ok_anc. intros qa Hqa K' HK'.
  assert (H1 : lat_regs qc ⊆ K') by (intros x Hx; apply HK'; rewrite !elem_of_app; auto).
  assert (H2 : lat_regs qt ⊆ K') by (intros x Hx; apply HK'; rewrite !elem_of_app; auto).
  assert (H3 : lat_regs qa ⊆ K') by (intros x Hx; apply HK'; rewrite !elem_of_app; auto).
  clear HK' Ha Hb K. apply ok_then; [apply ok_m; repeat first [left|right]|]. apply ok_then; [apply ok_m; repeat first [left|right]|]. apply ok_then; [apply ok_m; repeat first [left|right]|].
  apply ok_then; [by apply (ok_op qa K' OResetX)|]. apply ok_then; [apply ok_cnot|].
  eapply ok_bind; [apply ok_getqreg|]. intros qr Hqr. eapply ok_bind; [apply ok_lift|]. intros ro Hro. apply reg_get_of in Hro.
  eapply ok_bind; [apply ok_getcreg|]. intros m1 _. eapply ok_bind; [apply ok_getcreg|]. intros m2 _. eapply ok_bind; [apply ok_getcreg|]. intros m3 _.
  eapply ok_bind; [apply ok_lift|]. intros m1b Hm1. eapply ok_bind; [apply ok_lift|]. intros m2b Hm2. apply reg_get_of in Hm1. apply reg_get_of in Hm2.
  cbn [app]. set (KK := _ :: _).
  assert (S : K' ⊆ KK) by (unfold KK; intros x Hx; do 4 right; done).
  assert (HR : has_qubit KK ro).
  { destruct Hro as [E Hr]. exists qr.2. rewrite E. split; [|done]. unfold KK. do 3 right. left. }
  assert (R1 : Reg false m1.1 m1.2 ∈ KK) by (unfold KK; do 2 right; left).
  assert (R2 : Reg false m2.1 m2.2 ∈ KK) by (unfold KK; right; left).
  assert (R3 : Reg false m3.1 m3.2 ∈ KK) by (unfold KK; left).
  assert (B1 : has_clbit KK m1b) by (destruct Hm1 as [E ?]; exists m1.2; by rewrite E).
  assert (B2 : has_clbit KK m2b) by (destruct Hm2 as [E ?]; exists m2.2; by rewrite E).
  assert (T1 : lat_regs qc ⊆ KK) by (intros x Hx; auto). assert (T2 : lat_regs qt ⊆ KK) by (intros x Hx; auto). assert (T3 : lat_regs qa ⊆ KK) by (intros x Hx; auto).
  assert (Hrn : ro.1 ∈ reserved).
  { destruct Hro as [E _]. rewrite E, Hqr. unfold reserved. repeat first [left|right]. }
  assert (NA : forall q, lat_wf q -> ro.1 <> (lat_ancilla (tq_lat q)).1).
  { intros q Hq E. rewrite E, (lw_anc _ Hq) in Hrn. eapply (not_reserved "_ancilla"); [unfold parts; repeat first [left|right]| |exact Hrn]. apply occurs_end. }
  assert (ND : forall q, lat_wf q -> ro.1 <> (lat_data (tq_lat q)).1).
  { intros q Hq E. rewrite E, (lw_data _ Hq) in Hrn. eapply (not_reserved "_data"); [unfold parts; repeat first [left|right]| |exact Hrn]. apply occurs_end. }
  clearbody KK. clear S H1 H2 H3.
  apply ok_then; [by apply one_legal|]. apply ok_then; [apply ok_tqcx_t; auto|]. apply ok_then; [apply ok_tqcx_t; auto|].
  apply ok_then; [by apply one_legal|]. apply ok_then; [apply ok_emit; intros i [->| ->%elem_of_list_singleton]%elem_of_cons; done|].
  apply ok_then; [apply ok_tqcx_c; auto|]. apply ok_then; [apply ok_tqcx_c; auto|].
  apply ok_then; [apply ok_emit; intros i [->| ->%elem_of_list_singleton]%elem_of_cons; done|].
  apply ok_then; [apply (ok_op qa KK (OReadZ (Some m3))); [done..|by right]|].
  apply ok_then; [by apply ok_zif|]. apply ok_then; by apply ok_xif.
Qed.

(** ** Programs *)
Record winv (w : lworld) : Prop := {
  wi_st : inv (lw_st w);
  wi_qs : forall q, q ∈ lw_qs w -> lat_in (s_regs (lw_st w)) q;
  wi_regs : forall r, r ∈ lw_regs w -> tq_in (s_regs (lw_st w)) (tr_tq r);
  wi_circs : forall c, c ∈ lw_circs w ->
    (forall e, e ∈ tc_qreg c -> entry true (s_regs (lw_st w)) e) /\ (forall e, e ∈ tc_creg c -> entry false (s_regs (lw_st w)) e) }.
Lemma winv_grow w s : winv w -> inv s -> s_regs (lw_st w) ⊆ s_regs s -> winv (LWorld s (lw_qs w) (lw_regs w) (lw_circs w)).
Proof.
  intros [A B C D] Hi HS. constructor; cbn [lw_st lw_qs lw_regs lw_circs].
  - done.
  - intros q Hq. eapply lat_in_sub; [exact HS|auto].
  - intros r Hr. eapply tq_in_sub; [exact HS|auto].
  - intros c Hc. destruct (D c Hc) as [D1 D2]. split; intros e He; (eapply entry_sub; [exact HS|auto]).
Qed.
Lemma winv_on {A} w (m : M A) N V : winv w -> ok (s_regs (lw_st w)) m N V -> winv (LWorld (m (lw_st w)).1 (lw_qs w) (lw_regs w) (lw_circs w)).
Proof. intros Hw Hm. destruct (Hm (lw_st w) (wi_st _ Hw)) as (Hi & HS & _); [done|]. by apply winv_grow. Qed.
Lemma inv_load s r qd cd : inv s -> tq_in (s_regs s) (tr_tq r) -> (forall e, e ∈ qd -> entry true (s_regs s) e) -> (forall e, e ∈ cd -> entry false (s_regs s) e) ->
  inv (load s r qd cd).
Proof. intros [A B C D E] H1 H2 H3. by constructor. Qed.
Lemma nil_entry k rs e : e ∈ [] -> entry k rs e.
Proof. by intros ?%elem_of_nil. Qed.
Lemma insert_elem {A} (l : list A) n x y : y ∈ <[n := x]> l -> y = x \/ y ∈ l.
Proof.
  intros (i & Hi)%elem_of_list_lookup. destruct (decide (n = i)) as [->|Hn].
  - destruct (decide (i < length l)%nat) as [Hl|Hl]; [rewrite list_lookup_insert in Hi by done; left; congruence|].
    rewrite list_insert_ge in Hi by lia. right. by eapply elem_of_list_lookup_2.
  - rewrite list_lookup_insert_ne in Hi by done. right. by eapply elem_of_list_lookup_2.
Qed.
Lemma find_in w x q : winv w -> find_who w x = Some q -> lat_in (s_regs (lw_st w)) q.
Proof.
  intros Hw. destruct x as [n|k i]; cbn [find_who].
  - intros H%elem_of_list_lookup_2. by apply (wi_qs _ Hw).
  - destruct (lw_regs w !! k) as [r|] eqn:E; [|done]. destruct (treg_lookup (tr_tq r) i) as [q'|] eqn:E2; [|done]. intros [= <-].
    eapply tq_in_lookup; [|exact E2]. apply (wi_regs _ Hw). by eapply elem_of_list_lookup_2.
Qed.
Lemma cref_in w x r : winv w -> find_cref w x = Some r -> ref_ok (s_regs (lw_st w)) r.
Proof.
  intros Hw. destruct x as [i|x]; cbn [find_cref]; [by intros [= <-]|]. destruct (find_who w x) as [q|] eqn:E; [|done]. intros [= <-]. cbn. by eapply find_in.
Qed.
Lemma winv_circ {A} w c (m : M A) : winv w ->
  (forall co r, lw_circs w !! c = Some co -> lw_regs w !! tc_reg co = Some r ->
     inv (m (load (lw_st w) r (tc_qreg co) (tc_creg co))).1 /\ s_regs (lw_st w) ⊆ s_regs (m (load (lw_st w) r (tc_qreg co) (tc_creg co))).1) ->
  winv (on_circ w c m).
Proof.
  intros Hw Hm. unfold on_circ. destruct (lw_circs w !! c) as [co|] eqn:Ec; [|done]. destruct (lw_regs w !! tc_reg co) as [r|] eqn:Er; [|done].
  destruct (Hm co r eq_refl Er) as [Hi HS]. cbn zeta. set (s := (m _).1) in *. clearbody s.
  destruct (winv_grow w s Hw Hi HS) as [A1 A2 A3 A4]. constructor; cbn [lw_st lw_qs lw_regs lw_circs] in *; [done|done| |].
  - intros r' [->|Hr]%insert_elem; [|auto]. apply (iv_tq _ Hi).
  - intros c' [->|Hr]%insert_elem; [|auto]. split; [apply (iv_q _ Hi)|apply (iv_c _ Hi)].
Qed.
Lemma circ_inv w co r c : winv w -> lw_circs w !! c = Some co -> lw_regs w !! tc_reg co = Some r -> inv (load (lw_st w) r (tc_qreg co) (tc_creg co)).
Proof.
  intros Hw Hc%elem_of_list_lookup_2 Hr%elem_of_list_lookup_2. apply inv_load; [apply (wi_st _ Hw)|by apply (wi_regs _ Hw)|by apply (wi_circs _ Hw)..].
Qed.
Lemma winv_circ_ok {A} w c (m : M A) N V : winv w -> ok (s_regs (lw_st w)) m N V -> winv (on_circ w c m).
Proof.
  intros Hw Hm. apply winv_circ; [done|]. intros co r Hc Hr. destruct (Hm (load (lw_st w) r (tc_qreg co) (tc_creg co))) as (I & S & _); [by eapply circ_inv|done|].
  by split.
Qed.
Lemma winv_step w c : winv w -> cmd_ok w c -> winv (run_l w c).
Proof.
  intros Hw Hc. destruct c; cbn [run_l cmd_ok] in *.
  - eapply winv_on; [done|apply ok_new].
  - eapply winv_on; [done|apply ok_put].
  - eapply winv_on; [done|]. apply ok_reg. intros Hr. by destruct Hc.
  - eapply winv_on; [done|by apply ok_emit].
  - destruct (ok_tqubit (s_regs (lw_st w)) t l name (lw_st w) (wi_st _ Hw)) as (I & S & R); [done|].
    destruct (new_tqubit t l name (lw_st w)) as [s [q|e]]; cbn [fst snd] in *; [|by apply winv_grow].
    destruct (winv_grow w s Hw I S) as [A1 A2 A3 A4]. constructor; cbn [lw_st lw_qs lw_regs lw_circs] in *; [done| |done|done].
    intros q' [Hq| ->%elem_of_list_singleton]%elem_of_app; [auto|]. by apply (R q eq_refl).
  - assert (HI : inv (load (lw_st w) (TReg name 0 []) [] [])).
    { apply inv_load; [apply (wi_st _ Hw)| |by intros; apply nil_entry..]. intros sub d i q H _. by apply elem_of_nil in H. }
    destruct (ok_adds [] "data" ctypes params _ HI) as (I & S & _); [intros x Hx; by apply elem_of_nil in Hx|].
    destruct (add_tqubits "data" ctypes params (load (lw_st w) (TReg name 0 []) [] [])) as [s [[]|e]]; cbn [fst snd] in *; [|by apply winv_grow].
    destruct (winv_grow w s Hw I S) as [A1 A2 A3 A4]. constructor; cbn [lw_st lw_qs lw_regs lw_circs] in *; [done|done| |done].
    intros r [Hr| ->%elem_of_list_singleton]%elem_of_app; [auto|]. apply (iv_tq _ I).
  - destruct (lw_regs w !! k) as [r|] eqn:Er; [|done]. cbn zeta.
    assert (HI : inv (load (lw_st w) r [] [])).
    { apply inv_load; [apply (wi_st _ Hw)| |by intros; apply nil_entry..]. apply (wi_regs _ Hw). by eapply elem_of_list_lookup_2. }
    destruct (ok_adds [] sub ctypes params _ HI) as (I & S & _); [intros x Hx; by apply elem_of_nil in Hx|].
    set (s := (add_tqubits _ _ _ _).1) in *. clearbody s.
    destruct (winv_grow w s Hw I S) as [A1 A2 A3 A4]. constructor; cbn [lw_st lw_qs lw_regs lw_circs] in *; [done|done| |done].
    intros r' [->|Hr]%insert_elem; [|auto]. apply (iv_tq _ I).
  - destruct Hw as [A1 A2 A3 A4]. constructor; cbn [lw_st lw_qs lw_regs lw_circs] in *; [done|done|done|].
    intros c [Hc'| ->%elem_of_list_singleton]%elem_of_app; [auto|]. split; intros e He; by apply nil_entry.
  - destruct (find_who w x) as [q|] eqn:E; [|done]. destruct (find_in w x q Hw E) as [Hq HR]. eapply winv_on; [done|]. apply ok_meth; auto.
  - destruct (find_cref w x) as [r|] eqn:E; [|done]. apply winv_circ; [done|]. intros co rr Hco Hrr.
    pose proof (circ_inv w co rr c Hw Hco Hrr) as HI.
    assert (HG : forall q, (get_index r (load (lw_st w) rr (tc_qreg co) (tc_creg co))) = (load (lw_st w) rr (tc_qreg co) (tc_creg co), Ok q) -> lat_in (s_regs (lw_st w)) q /\ arg_ok (s_regs (lw_st w)) q m).
    { intros q Hg. destruct x as [i|x]; cbn [find_cref] in E.
      - injection E as <-. cbn [get_index] in Hg. unfold treg_get in Hg. injection Hg as Hg. split; [|by eapply Hc].
        by eapply (tq_in_lookup _ _ _ _ (iv_tq _ HI)).
      - destruct (find_who w x) as [q'|] eqn:E2; [|done]. injection E as <-. cbn [get_index] in Hg. injection Hg as ->.
        split; [by eapply find_in|by eapply Hc]. }
    assert (HE : forall s, (get_index r s).1 = s) by (intros s; by destruct r).
    set (s := load _ _ _ _) in *. change (s_regs (lw_st w)) with (s_regs s) in *. clearbody s.
    specialize (HE s). unfold mbind'. destruct (get_index r s) as [s' [q|e]] eqn:Eg; cbn [fst] in HE; subst s'; [|done].
    destruct (HG q eq_refl) as [[Hq HR] Ha]. destruct (ok_meth q (s_regs s) m Hq HR Ha s HI) as (I & S & _); done.
  - destruct (find_cref w control) as [a|] eqn:Ea; [|done]. destruct (find_cref w target) as [b|] eqn:Eb; [|done].
    eapply winv_circ_ok; [done|]. apply ok_cx; by eapply cref_in.
  - destruct Hc as [H1 H2]. apply winv_circ; [done|]. intros co r Hco Hr. pose proof (circ_inv w co r c Hw Hco Hr) as HI.
    set (s := load _ _ _ _) in *. change (s_regs (lw_st w)) with (s_regs s) in *. clearbody s.
    unfold add_creg. change (mbind' get_st ?f s) with (f s s). cbn beta. destruct (dict_get name (s_tcreg s)) eqn:Ed; [done|].
    case_bool_decide as Hz; [done|]. set (s1 := set_tregs _ _ _). change (mbind' (put_st s1) ?f s) with (f tt s1). cbn beta.
    unfold add_reg. cbn [r_size r_name]. rewrite bool_decide_eq_false_2 by done. change (s_regs s1) with (s_regs s). rewrite bool_decide_eq_false_2 by done. cbn [fst snd].
    assert (HI' : inv (set_regs s (s_regs s ++ [Reg false name size]))) by (apply inv_add; [done|done|cbn; lia|by intros Hr']).
    destruct HI' as [A B C D E]. split.
    + constructor; try done. cbn. intros e [->|He]%dict_set_elem; [|by apply E]. split; [done|]. cbn. apply elem_of_app. right. by left.
    + cbn. intros x Hx. apply elem_of_app. by left.
  - destruct Hc as [H1 H2]. apply winv_circ; [done|]. intros co r Hco Hr. pose proof (circ_inv w co r c Hw Hco Hr) as HI.
    set (s := load _ _ _ _) in *. change (s_regs (lw_st w)) with (s_regs s) in *. clearbody s.
    unfold add_qreg. change (mbind' get_st ?f s) with (f s s). cbn beta. destruct (dict_get name (s_tqreg s)) eqn:Ed; [done|].
    case_bool_decide as Hz; [done|]. set (s1 := set_tregs _ _ _). change (mbind' (put_st s1) ?f s) with (f tt s1). cbn beta.
    unfold add_reg. cbn [r_size r_name]. rewrite bool_decide_eq_false_2 by done. change (s_regs s1) with (s_regs s). rewrite bool_decide_eq_false_2 by done. cbn [fst snd].
    assert (HI' : inv (set_regs s (s_regs s ++ [Reg true name size]))) by (apply inv_add; [done|done|cbn; lia|by intros Hr']).
    destruct HI' as [A B C D E]. split.
    + constructor; try done. cbn. intros e [->|He]%dict_set_elem; [|by apply D]. split; [done|]. cbn. apply elem_of_app. right. by left.
    + cbn. intros x Hx. apply elem_of_app. by left.
Qed.
Lemma winv_run w l : winv w -> program_ok w l -> winv (run_program w l).
Proof.
  revert w. induction l as [|c l IHl]; intros w Hw; cbn [program_ok]; [done|]. intros [H1 H2]. cbn. apply IHl; [by apply winv_step|done].
Qed.
(** The caller's circuit may be any legal one without registers of the four names cx uses. *)
Theorem C64_legal rs is l : legal_circuit rs is -> (forall n, n ∈ (r_name <$> rs) -> n ∉ reserved) ->
  program_ok (start_world rs is) l ->
  let s := lw_st (run_program (start_world rs is) l) in legal_circuit (s_regs s) (s_instrs s).
Proof.
  intros HL HN HP. apply iv_legal, wi_st, winv_run; [|done]. constructor; cbn.
  - constructor; cbn; [done| |..].
    + intros r Hr Hres. destruct (HN (r_name r)); [|done]. apply elem_of_list_fmap. by exists r.
    + intros sub d i q H. by apply elem_of_nil in H.
    + intros e He. by apply nil_entry.
    + intros e He. by apply nil_entry.
  - intros q Hq. by apply elem_of_nil in Hq.
  - intros q Hq. by apply elem_of_nil in Hq.
  - intros q Hq. by apply elem_of_nil in Hq.
Qed.
Print Assumptions C64_legal.

(** A program with two data qubits, two TopologicalCircuits on one register, cx through both (the
    first call through the second fails), a qubit of its own, a caller's qubit as control, and a call
    that fails, on a circuit with registers of the caller. *)
Definition ex_l : list lcmd :=
  [LDict empty_params; LDict empty_params; LDict empty_params; LNew TXZZX (Some 2%nat) "q";
   LCall (WObj 0) (MCx (Some ("flag"%string, 0)) None); LTreg "treg" ["XXZZ"; "XXZZ"]%string [0; 1]%nat; LCirc 0;
   LVia 0 (RIdx 1) (MXIf ("out"%string, 1) 1); LCreg 0 2 "own";
   LVia 0 (RIdx 0) (MOp OResetZ); LCx 0 (RIdx 0) (RIdx 1) None None; LCx 0 (RIdx 1) (RIdx 0) None None;
   LCirc 0; LCx 1 (RIdx 0) (RIdx 1) None None;
   LCall (WObj 0) (MOp OStab); LCall (WObj 0) (MOp OLatX); LVia 0 (RIdx 7) (MOp OX)].
Definition ex_rs : list reg := [Reg true "flag" 1; Reg false "out" 1].
Definition ex_is : list instr := [IH ("flag"%string, 0)].
Example C64_ex : legal_circuit ex_rs ex_is /\ (forall n, n ∈ (r_name <$> ex_rs) -> n ∉ reserved) /\ program_ok (start_world ex_rs ex_is) ex_l /\
  let w := run_program (start_world ex_rs ex_is) ex_l in
  length (s_regs (lw_st w)) = 25%nat /\ length (s_instrs (lw_st w)) = 228%nat /\ length (lw_qs w) = 1%nat /\ length (lw_circs w) = 2%nat.
Proof.
  split_and!.
  - constructor.
    + apply (bool_decide_unpack _). by vm_compute.
    + intros r [->| ->%elem_of_list_singleton]%elem_of_cons; cbn; lia.
    + intros i ->%elem_of_list_singleton. exists 1. split; [by left|cbn; lia].
  - intros n Hn. apply (bool_decide_unpack _). cbn in Hn. apply elem_of_cons in Hn as [->| ->%elem_of_list_singleton]; by vm_compute.
  - unfold ex_l. Ltac next := match goal with |- program_ok ?w ?l => let w' := eval vm_compute in w in assert (E : w = w') by (vm_compute; reflexivity); rewrite E; clear E end.
    Ltac easy_step := split; [first [exact I|cbv beta delta [cmd_ok] iota zeta; intros; exact I]|].
    Ltac regs := cbv beta iota zeta delta [cmd_ok lw_st s_regs].
    do 4 easy_step. next. split.
    { regs. intros q. cbn. intros [= <-]. cbn. split; [|done]. exists 1. split; [by left|cbn; lia]. }
    do 2 easy_step. next. split.
    { regs. intros q co r _ _ _. cbn [arg_ok]. split; [|lia]. cbn [fst snd]. right. by left. }
    next. split.
    { regs. split; apply (bool_decide_unpack _); by vm_compute. }
    do 8 easy_step. exact I.
  - by vm_compute.
Qed.
