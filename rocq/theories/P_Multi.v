(** Property C53: qubits on one circuit do not disturb each other. *)
From Verif Require Import P_Hist P_Share QComm ParseFacts P_Code DecodeFacts RunFacts RxRef P_Decode P_EndToEnd P_Logical.
From Coq Require Import Ascii.
From stdpp Require Export list.
Open Scope Z_scope.

(** ** Programs on several qubits *)
(** A call on, or a fault of, the qubit with the given number. *)
Definition mrun (qs : list tqubit) (prog : list (nat * ev)) : M unit :=
  mfor prog (fun e => match qs !! e.1 with Some q => run_ev q e.2 | None => mraise IndexError end).
(** What happens to qubit [i]. *)
Definition own (i : nat) (prog : list (nat * ev)) : list ev := omap (fun e => if bool_decide (e.1 = i) then Some e.2 else None) prog.
(** No readout into a register passed by the caller. *)
Definition own_register (e : ev) : Prop :=
  match e with Noise.Call (OReadX r) | Noise.Call (OReadZ r) => r = None | _ => True end.
(** Qubits on one circuit: each with its own name and its own dictionary. *)
Record together (s : st) (qs : list tqubit) : Prop := {
  tg_ok : forall q, q ∈ qs -> exists dh dw, lat_ok s q dh dw;
  tg_names : NoDup (lat_name ∘ tq_lat <$> qs);
  tg_dicts : NoDup (lat_params ∘ tq_lat <$> qs) }.

(** ** What a call emits *)
Definition gate (i : instr) : Prop := match i with IMeas _ _ | IXIf _ _ _ | IZIf _ _ _ => False | _ => True end.
Lemma gate_rw i : gate i -> reads i = [] /\ writes i = [].
Proof. by destruct i. Qed.
Lemma compile_gate s gs i : i ∈ compile s gs -> gate i.
Proof.
  intros Hi. unfold compile in Hi. apply elem_of_list_join in Hi as (is & Hi & (g & -> & Hg)%elem_of_list_fmap).
  unfold group in Hi. destruct g.1.
  - apply elem_of_app in Hi as [Hi%elem_of_list_singleton|Hi]; [by subst|].
    apply elem_of_app in Hi as [Hi|Hi%elem_of_list_singleton]; [|by subst]. by apply elem_of_list_fmap in Hi as (q & -> & Hq).
  - by apply elem_of_list_fmap in Hi as (q & -> & Hq).
Qed.
Lemma op_rw c name dh dw n o i : valid_size dh dw -> own_register (Noise.Call o) -> i ∈ op_code c name dh dw n o ->
  reads i = [] /\ forall b, b ∈ writes i -> b.1 ∈ r_name <$> op_reg name dh dw n o.
Proof.
  intros Hv Ho Hi.
  assert (HG : gate i -> reads i = [] /\ forall b, b ∈ writes i -> b.1 ∈ r_name <$> op_reg name dh dw n o).
  { intros [-> ->]%gate_rw. split; [done|]. intros b Hb. by apply elem_of_nil in Hb. }
  assert (HL : forall (f : qubit -> instr) (l : list qubit), (forall q, gate (f q)) -> i ∈ f <$> l -> gate i).
  { intros f l Hf (q & -> & _)%elem_of_list_fmap. apply Hf. }
  assert (HM : forall A (f : A -> qubit) (g : A -> clbit) (l : list A), (forall a, a ∈ l -> (g a).1 ∈ r_name <$> op_reg name dh dw n o) -> i ∈ (fun a => IMeas (f a) (g a)) <$> l ->
    reads i = [] /\ forall b, b ∈ writes i -> b.1 ∈ r_name <$> op_reg name dh dw n o).
  { intros A f g l Hg (a & -> & Ha)%elem_of_list_fmap. split; [done|]. intros b Hb. cbn in Hb. apply elem_of_list_singleton in Hb as ->. by apply Hg. }
  assert (HB : i ∈ [IBarrier] -> gate i) by (intros ->%elem_of_list_singleton; done).
  assert (HC : forall q gs, i ∈ IReset q :: compile q gs -> gate i) by (intros q gs [->|?%compile_gate]%elem_of_cons; done).
  destruct o as [|r|r| | | | | | | |]; cbn [op_code own_register] in *; try subst r.
  - unfold round_instrs in Hi. rewrite meas_instrs_eq, reset_instrs_eq, lat_stabs_syns, ent_instrs_eq in Hi.
    apply elem_of_app in Hi as [Hi|Hi].
    { apply HG. apply elem_of_list_join in Hi as (is & Hi & (k & -> & Hk%elem_of_syns)%elem_of_list_fmap).
      unfold ent_k in Hi. apply elem_of_app in Hi as [Hi|Hi]; [|by apply HB]. rewrite ent_compile in Hi by done. by eapply compile_gate. }
    apply elem_of_app in Hi as [Hi|Hi].
    { eapply (HM _ fst snd); [|exact Hi]. intros a (k & -> & _)%elem_of_list_fmap. cbn. by left. }
    apply HG. apply elem_of_app in Hi as [Hi|Hi]; [|by apply HB]. by eapply (HL IReset).
  - unfold rd_x in Hi. apply elem_of_app in Hi as [Hi|[Hi|Hi]%elem_of_app]; [apply HG; by eapply HC| |by apply HG, HB].
    eapply (HM _ (fun _ => ancq name) id); [|exact Hi]. intros a (k & -> & _)%elem_of_list_fmap. by left.
  - unfold rd_z in Hi. apply elem_of_app in Hi as [Hi|[Hi|Hi]%elem_of_app]; [apply HG; by eapply HC| |by apply HG, HB].
    eapply (HM _ (fun _ => ancq name) id); [|exact Hi]. intros a (k & -> & _)%elem_of_list_fmap. by left.
  - unfold lr_x in Hi. apply elem_of_app in Hi as [Hi|[Hi|Hi]%elem_of_app]; [|eapply HM; [|exact Hi]; intros; by left|by apply HG, HB].
    apply HG. destruct c; by eapply (HL IH).
  - unfold lr_z in Hi. apply elem_of_app in Hi as [Hi|[Hi|Hi]%elem_of_app]; [|eapply HM; [|exact Hi]; intros; by left|by apply HG, HB].
    apply HG. destruct c; [by apply elem_of_nil in Hi|]. by eapply (HL IH).
  - apply HG. unfold rs_x in Hi. apply elem_of_app in Hi as [Hi|Hi]; [by eapply (HL IReset)|].
    destruct c; [apply elem_of_app in Hi as [Hi|Hi]; [|by apply HB]|]; by eapply (HL IH).
  - apply HG. unfold rs_z in Hi. apply elem_of_app in Hi as [Hi|Hi]; [by eapply (HL IReset)|].
    destruct c; [by apply HB|]; by eapply (HL IH).
  - apply HG. unfold logx_instrs in Hi. apply elem_of_app in Hi as [Hi|Hi]; [|by apply HB].
    apply elem_of_list_fmap in Hi as (j & -> & _). unfold xgate. destruct c; [done|]. by case_bool_decide.
  - apply HG. unfold logz_instrs in Hi. apply elem_of_app in Hi as [Hi|Hi]; [|by apply HB].
    apply elem_of_list_fmap in Hi as (j & -> & _). unfold zgate. destruct c; [done|]. by case_bool_decide.
  - apply HG. unfold id_instrs in Hi. apply elem_of_app in Hi as [Hi|Hi]; [|by apply HB].
    apply elem_of_list_join in Hi as (is & Hi & (h & -> & Hh)%elem_of_list_fmap). by eapply (HL IId).
  - apply HG. unfold id_data_instrs in Hi. apply elem_of_app in Hi as [Hi|Hi]; [|by apply HB]. by eapply (HL IId).
Qed.
(** Instructions emitted for a qubit: on its own qubits, writing only into the registers [rs]. *)
Record belongs (name : string) (rs : list reg) (i : instr) : Prop := {
  be_proper : proper i;
  be_within : forall q, q ∈ instr_qubits i -> within name q;
  be_reads : reads i = [];
  be_writes : forall b, b ∈ writes i -> b.1 ∈ r_name <$> rs }.
Lemma belongs_mono name rs rs' i : rs ⊆ rs' -> belongs name rs i -> belongs name rs' i.
Proof.
  intros Hs [H1 H2 H3 H4]. split; try done. intros b Hb. apply H4 in Hb. apply elem_of_list_fmap in Hb as (r & -> & Hr).
  apply elem_of_list_fmap. exists r. split; [done|by apply Hs].
Qed.
Lemma ev_belongs c name dh dw n e i : valid_size dh dw -> own_register e -> i ∈ ev_code c name dh dw n e -> belongs name (ev_reg name dh dw n e) i.
Proof.
  intros Hv Ho Hi. destruct e as [o|isx j]; cbn [ev_code ev_reg] in *.
  - destruct (op_touch _ _ _ _ _ _ _ Hv Hi) as [H1 H2]. destruct (op_rw _ _ _ _ _ _ _ Hv Ho Hi) as [H3 H4]. done.
  - apply elem_of_list_singleton in Hi as ->. destruct isx; (split; [done| |done|]).
    1,3: intros q ->%elem_of_list_singleton; by left.
    all: intros b Hb; by apply elem_of_nil in Hb.
Qed.
Lemma evs_belongs c name dh dw n l i : valid_size dh dw -> Forall own_register l -> i ∈ evs_code c name dh dw n l -> belongs name (evs_reg name dh dw n l) i.
Proof.
  intros Hv Hl. revert n. induction Hl as [|e l He Hl IHl]; intros n Hi; cbn [evs_code evs_reg] in *; [by apply elem_of_nil in Hi|].
  apply elem_of_app in Hi as [Hi|Hi].
  - eapply belongs_mono; [|by eapply ev_belongs]. set_solver.
  - eapply belongs_mono; [|by eapply IHl]. set_solver.
Qed.
Lemma within_disj a b q : a <> b -> within a q -> within b q -> False.
Proof.
  intros Hne Ha Hb.
  assert (Ha' : exists suf, suf ∈ q_sufs /\ q.1 = (a +:+ suf)%string).
  { destruct Ha as [E|[E|[E|E]]]; eexists; (split; [|exact E]); set_solver. }
  assert (Hb' : exists suf, suf ∈ q_sufs /\ q.1 = (b +:+ suf)%string).
  { destruct Hb as [E|[E|[E|E]]]; eexists; (split; [|exact E]); set_solver. }
  destruct Ha' as (suf & Hs & E), Hb' as (suf' & Hs' & E'). rewrite E in E'. apply qq_inj in E' as [E' _]; done.
Qed.
Lemma belongs_indep a b rs rs' i j : a <> b -> (forall x, x ∈ r_name <$> rs -> x ∈ r_name <$> rs' -> False) -> belongs a rs i -> belongs b rs' j -> indep i j.
Proof.
  intros Hne Hd [_ H1 H2 H3] [_ H4 H5 H6]. split.
  - intros q Hi Hj. eapply within_disj; eauto.
  - intros x Hi Hj. eapply Hd; eauto.
  - intros x _. rewrite H5. intros Hx. by apply elem_of_nil in Hx.
  - intros x. rewrite H2. intros Hx. by apply elem_of_nil in Hx.
Qed.

(** ** One step *)
(** A call that succeeds on a circuit succeeds on one with fewer registers. *)
Lemma run_ev_fewer s t q dh dw n e s' : lat_ok s q dh dw -> has_cnt s q n -> lat_ok t q dh dw -> has_cnt t q n -> names t ⊆ names s ->
  run_ev q e s = (s', Ok tt) -> exists t', run_ev q e t = (t', Ok tt).
Proof.
  intros Hok Hn Hok' Hn' Hsub Hr. destruct e as [o|isx j]; cbn [run_ev] in *.
  - destruct (run_op_inv _ _ _ _ _ _ _ Hok Hn Hr) as (H1 & H2 & _).
    destruct (run_op_ok t q dh dw n o Hok' Hn' H1) as (t' & E & _); [|by exists t']. intros r Hr' Hin. by eapply H2, Hsub.
  - rewrite emit_eq. by eexists.
Qed.
Lemma together_step s s' qs q dh dw n rs is : together s qs -> q ∈ qs -> post s s' q dh dw n rs is -> together s' qs.
Proof.
  intros [H1 H2 H3] Hq [P1 _ _ _ (P5 & _)]. split; [|done|done]. intros q' Hq'.
  destruct (decide (lat_params (tq_lat q') = lat_params (tq_lat q))) as [E|E].
  - apply elem_of_list_lookup in Hq as [i Hi]. apply elem_of_list_lookup in Hq' as [j Hj].
    assert (i = j) as ->.
    { eapply (NoDup_lookup _ i j (lat_params (tq_lat q)) H3); rewrite list_lookup_fmap; [by rewrite Hi|rewrite Hj]. cbn. by rewrite E. }
    assert (q' = q) as -> by congruence. eauto.
  - destruct (H1 q' Hq') as (dh' & dw' & Hok). exists dh', dw'. eapply P_Hist.lat_ok_heap; [|exact Hok]. by apply P5.
Qed.
Lemma ev_reg_nodup name dh dw n e : NoDup (r_name <$> ev_reg name dh dw n e).
Proof.
  destruct e as [o|]; [|apply NoDup_nil_2]. destruct o as [|r|r| | | | | | | |]; cbn [ev_reg op_reg]; try destruct (eff r);
    first [apply NoDup_nil_2|apply NoDup_singleton].
Qed.
Lemma mfor_cons {A} (f : A -> M unit) a l s s' : mfor (a :: l) f s = (s', Ok tt) -> exists s1, f a s = (s1, Ok tt) /\ mfor l f s1 = (s', Ok tt).
Proof. cbn [mfor]. unfold mbind'. destruct (f a s) as [s1 [[]|]]; [by eauto|done]. Qed.
Lemma own_cons i e prog : own i (e :: prog) = (if bool_decide (e.1 = i) then [e.2] else []) ++ own i prog.
Proof. unfold own. cbn [omap list_omap]. by case_bool_decide. Qed.

(** ** Splitting a run *)
(** The code emitted for qubit [i] and that for the others; [t] is the state of the qubit's own run. *)
Lemma mrun_split prog qs i q dh dw : forall s t n s', together s qs -> qs !! i = Some q ->
  lat_ok s q dh dw -> has_cnt s q n -> lat_ok t q dh dw -> has_cnt t q n -> names t ⊆ names s ->
  Forall (fun e => own_register e.2) prog -> mrun qs prog s = (s', Ok tt) ->
  exists t' rs is os ys, run_evs q (own i prog) t = (t', Ok tt) /\
    s_regs s' = s_regs s ++ rs /\ s_instrs s' = s_instrs s ++ is /\
    weave (evs_reg (lat_name (tq_lat q)) dh dw n (own i prog)) os rs /\
    weave (evs_code (lat_code (tq_lat q)) (lat_name (tq_lat q)) dh dw n (own i prog)) ys is /\
    (forall y, y ∈ ys -> exists nm, nm <> lat_name (tq_lat q) /\ belongs nm os y) /\
    NoDup (r_name <$> rs) /\ (forall x, x ∈ r_name <$> rs -> x ∉ names s) /\
    lat_ok s' q dh dw /\ has_cnt s' q (evs_next n (own i prog)).
Proof.
  induction prog as [|[j e] prog IHp]; intros s t n s' Htg Hq Hok Hn Hok' Hn' Hsub Hown Hr.
  - injection Hr as <-. exists t, [], [], [], []. rewrite !app_nil_r. split_and!; try done; try constructor.
    + intros y Hy. by apply elem_of_nil in Hy.
    + intros x Hx. by apply elem_of_nil in Hx.
  - apply Forall_cons in Hown as [He Hown]. unfold mrun in Hr. apply mfor_cons in Hr as (s1 & Hr1 & Hr). cbn [fst snd] in Hr1, He. fold (mrun qs prog) in Hr.
    destruct (qs !! j) as [qj|] eqn:Hj; [|done].
    assert (Hqj : qj ∈ qs) by (by eapply elem_of_list_lookup_2).
    destruct (tg_ok _ _ Htg qj Hqj) as (dhj & dwj & Hokj). destruct (lat_ok_cnt _ _ _ _ Hokj) as [nj Hnj].
    destruct (run_ev_inv _ _ _ _ _ _ _ Hokj Hnj Hr1) as [Hfr HP]. pose proof HP as [P1 P2 P3 P4 (P5 & _)].
    assert (Htg1 : together s1 qs) by (by eapply together_step).
    set (rj := ev_reg (lat_name (tq_lat qj)) dhj dwj nj e) in *.
    assert (HN1 : names s1 = names s ++ (r_name <$> rj)) by (unfold names; by rewrite P3, fmap_app).
    rewrite own_cons. cbn [fst snd]. case_bool_decide as Hji.
    + subst j. assert (qj = q) as -> by congruence.
      assert (dhj = dh /\ dwj = dw) as [-> ->].
      { pose proof (lo_lat _ _ _ _ Hok) as E1. pose proof (lo_lat _ _ _ _ Hokj) as E2. destruct Hok as [_ _ (p & dl & T & a & b & Hp & Hd & H0 & H1 & _)].
        destruct Hokj as [_ _ (p' & dl' & T' & a' & b' & Hp' & Hd' & H0' & H1' & _)]. rewrite Hp in Hp'. injection Hp' as <-. rewrite Hd in Hd'. injection Hd' as <-. split; congruence. }
      assert (nj = n) as -> by (by eapply has_cnt_inj).
      destruct (run_ev_fewer s t q dh dw n e s1 Hok Hn Hok' Hn' Hsub Hr1) as [t1 Ht1].
      destruct (run_ev_inv _ _ _ _ _ _ _ Hok' Hn' Ht1) as [_ HPt].
      destruct (IHp s1 t1 (ev_next n e) s' Htg1 Hq P1 P2) as (t' & rs & is & os & ys & A1 & A2 & A3 & A4 & A5 & A6 & A7 & A8 & A9 & A10); [apply HPt|apply HPt| |done|done|].
      { rewrite HN1. unfold names at 1. rewrite (po_regs _ _ _ _ _ _ _ _ HPt), fmap_app. fold (names t). intros x [Hx|Hx]%elem_of_app; apply elem_of_app; [left; by apply Hsub|by right]. }
      exists t', (rj ++ rs), (ev_code (lat_code (tq_lat q)) (lat_name (tq_lat q)) dh dw n e ++ is), os, ys. cbn [evs_reg evs_code evs_next app].
      split_and!.
      * unfold run_evs. cbn [mfor]. by erewrite mbind_ok by exact Ht1.
      * by rewrite A2, P3, app_assoc.
      * by rewrite A3, P4, app_assoc.
      * change os with ([] ++ os). apply weave_app; [apply weave_l|done].
      * change ys with ([] ++ ys). apply weave_app; [apply weave_l|done].
      * done.
      * rewrite fmap_app. apply NoDup_app. split_and!; [apply ev_reg_nodup| |done]. intros x Hx Hx'. apply (A8 x Hx'). rewrite HN1. apply elem_of_app. by right.
      * rewrite fmap_app. intros x [Hx|Hx]%elem_of_app.
        -- apply elem_of_list_fmap in Hx as (r & -> & Hx). by apply Hfr.
        -- intros Hin. apply (A8 x Hx). rewrite HN1. apply elem_of_app. by left.
      * done.
      * done.
    + assert (Hne : lat_name (tq_lat qj) <> lat_name (tq_lat q)).
      { intros E. apply Hji. eapply (NoDup_lookup _ j i (lat_name (tq_lat q)) (tg_names _ _ Htg)); rewrite list_lookup_fmap; [rewrite Hj|by rewrite Hq]. cbn. by rewrite E. }
      assert (Hh : s_heap s1 !! lat_params (tq_lat q) = s_heap s !! lat_params (tq_lat q)).
      { apply P5. intros E. apply Hji. eapply (NoDup_lookup _ j i (lat_params (tq_lat q)) (tg_dicts _ _ Htg)); rewrite list_lookup_fmap; [rewrite Hj|by rewrite Hq]. cbn. by rewrite E. }
      destruct (IHp s1 t n s' Htg1 Hq) as (t' & rs & is & os & ys & A1 & A2 & A3 & A4 & A5 & A6 & A7 & A8 & A9 & A10);
        [by eapply P_Hist.lat_ok_heap|by eapply P_Hist.has_cnt_heap|done|done|rewrite HN1; intros x Hx; apply elem_of_app; left; by apply Hsub|done|done|].
      exists t', (rj ++ rs), (ev_code (lat_code (tq_lat qj)) (lat_name (tq_lat qj)) dhj dwj nj e ++ is), (rj ++ os), (ev_code (lat_code (tq_lat qj)) (lat_name (tq_lat qj)) dhj dwj nj e ++ ys).
      cbn [app]. split_and!.
      * done.
      * by rewrite A2, P3, app_assoc.
      * by rewrite A3, P4, app_assoc.
      * change (evs_reg (lat_name (tq_lat q)) dh dw n (own i prog)) with ([] ++ evs_reg (lat_name (tq_lat q)) dh dw n (own i prog)). apply weave_app; [apply weave_r|done].
      * rewrite <-(app_nil_l (evs_code _ _ _ _ _ _)). apply weave_app; [apply weave_r|done].
      * intros y [Hy|Hy]%elem_of_app.
        -- exists (lat_name (tq_lat qj)). split; [done|]. eapply belongs_mono; [|eapply ev_belongs; [apply Hokj|done|exact Hy]]. fold rj. intros r Hr'. apply elem_of_app. by left.
        -- destruct (A6 y Hy) as (nm & ? & HB). exists nm. split; [done|]. eapply belongs_mono; [|exact HB]. intros r Hr'. apply elem_of_app. by right.
      * rewrite fmap_app. apply NoDup_app. split_and!; [apply ev_reg_nodup| |done]. intros x Hx Hx'. apply (A8 x Hx'). rewrite HN1. apply elem_of_app. by right.
      * rewrite fmap_app. intros x [Hx|Hx]%elem_of_app.
        -- apply elem_of_list_fmap in Hx as (r & -> & Hx). by apply Hfr.
        -- intros Hin. apply (A8 x Hx). rewrite HN1. apply elem_of_app. by left.
      * done.
      * done.
Qed.

(** ** The part of a key belonging to a qubit *)
(** The words of the registers [mine]: what is passed to the decoder of a qubit, whose registers
    these are, when other qubits share the circuit. *)
Definition own_part (key : string) (regs mine : list (string * Z)) : string :=
  py_join (filter (fun w => w.1 ∈ mine.*1) (zip (reverse regs).*1 (py_split key))).*2.
Lemma filter_fmap {A B} (f : A -> B) (P : B -> Prop) `{forall x, Decision (P x)} (l : list A) : filter P (f <$> l) = f <$> filter (P ∘ f) l.
Proof.
  induction l as [|a l IHl]; [done|]. rewrite fmap_cons, !filter_cons. cbn [compose]. 
  destruct (decide (P (f a))), (decide ((P ∘ f) a)); try done; [|tauto..]. by rewrite fmap_cons, IHl.
Qed.
Lemma filter_swap {A} (P Q : A -> Prop) `{forall x, Decision (P x)} `{forall x, Decision (Q x)} (l : list A) : filter P (filter Q l) = filter Q (filter P l).
Proof.
  induction l as [|a l IHl]; [done|]. rewrite (filter_cons Q), (filter_cons P). destruct (decide (Q a)), (decide (P a)); rewrite ?filter_cons, ?IHl; repeat case_decide; try done.
Qed.
Lemma filter_rev {A} (P : A -> Prop) `{forall x, Decision (P x)} (l : list A) : filter P (reverse l) = reverse (filter P l).
Proof.
  induction l as [|a l IHl]; [done|]. rewrite reverse_cons, filter_app, IHl, (filter_cons P a l), (filter_cons P a []).
  destruct (decide (P a)); [by rewrite reverse_cons|by rewrite app_nil_r].
Qed.
Lemma filter_ext_in {A} (P Q : A -> Prop) `{forall x, Decision (P x)} `{forall x, Decision (Q x)} (l : list A) : (forall x, x ∈ l -> P x <-> Q x) -> filter P l = filter Q l.
Proof.
  induction l as [|a l IHl]; intros HPQ; [done|]. rewrite !filter_cons. rewrite IHl by (intros; apply HPQ; by right).
  specialize (HPQ a ltac:(by left)). destruct (decide (P a)), (decide (Q a)); tauto.
Qed.
Lemma own_part_key cs regs mine : filter (fun r => r.1 ∈ mine.*1) regs = mine -> own_part (counts_key cs regs) regs mine = counts_key cs mine.
Proof.
  intros Hf. unfold own_part, counts_key. destruct (decide (regs = [])) as [->|Hne]; [cbn in Hf; by subst mine|].
  rewrite split_join.
  - assert (E : zip (reverse regs).*1 (reverse (creg_string cs <$> regs)) = (fun r => (r.1, creg_string cs r)) <$> reverse regs).
    { rewrite <-fmap_reverse. generalize (reverse regs). intros l. induction l as [|r l IHl]; [done|]. rewrite !fmap_cons. cbn [zip zip_with]. by f_equal. }
    rewrite E, filter_fmap, <-list_fmap_compose. f_equal. transitivity (creg_string cs <$> filter (fun r => r.1 ∈ mine.*1) (reverse regs)); [done|].
    by rewrite filter_rev, Hf, fmap_reverse.
  - rewrite <-fmap_reverse. intros E%fmap_nil_inv. apply Hne. by rewrite <-(reverse_involutive regs), E.
  - rewrite <-fmap_reverse. apply Forall_fmap, list.Forall_forall. intros r _. apply sob_no_blank.
Qed.

(** ** Runs *)
Section runs.
Context {R : Amp} (Hdec : forall x : R, x = a0 \/ x <> a0).
Lemma weave_runs name (mine os : list reg) (xs ys is : list instr) (k0 : config R) :
  weave xs ys is -> (forall x, x ∈ r_name <$> mine -> x ∈ r_name <$> os -> False) ->
  (forall x, x ∈ xs -> belongs name mine x) -> (forall y, y ∈ ys -> exists nm, nm <> name /\ belongs nm os y) ->
  (forall k1, exec is k0 k1 -> possible k1 -> exists k1', exec xs k0 k1' /\ possible k1' /\ forall b, b.1 ∉ r_name <$> os -> k1'.1 b = k1.1 b) /\
  (forall k1', exec xs k0 k1' -> possible k1' -> exists k1, exec is k0 k1 /\ possible k1 /\ forall b, b.1 ∉ r_name <$> os -> k1'.1 b = k1.1 b).
Proof.
  intros Hw Hd Hx Hy.
  assert (Hi : all_indep xs ys).
  { intros x y Hxx Hyy. destruct (Hy y Hyy) as (nm & Hne & HB). eapply belongs_indep; [|exact Hd|by apply Hx|exact HB]. done. }
  assert (Hfr : forall (k k' : config R) b, exec ys k k' -> b.1 ∉ r_name <$> os -> k'.1 b = k.1 b).
  { intros k k' b He Hb. eapply exec_frame; [exact He|]. intros i Hii Hbi. destruct (Hy i Hii) as (nm & _ & HB). by apply Hb, (be_writes _ _ _ HB). }
  split.
  - intros k1 He Hp. destruct (weave_split _ _ _ _ _ Hw Hi He) as (k2 & He2 & Hk). apply exec_app in He2 as (k1' & Ha & Hb).
    exists k1'. split; [done|]. split; [eapply (exec_back Hdec), keq_possible; [exact Hb|exact Hk|done]|].
    intros b Hbn. rewrite (proj1 Hk b). symmetry. by eapply Hfr.
  - intros k1' He Hp. destruct (exec_possible Hdec ys k1') as (k2 & He2 & Hp2); [|done|].
    { intros y Hyy. destruct (Hy y Hyy) as (nm & _ & HB). apply HB. }
    destruct (weave_join xs ys is k0 k2 Hw Hi) as (k1 & He1 & Hk); [apply exec_app; by exists k1'|].
    exists k1. split; [done|]. split; [by eapply keq_possible|]. intros b Hbn. rewrite <-(proj1 Hk b). symmetry. by eapply Hfr.
Qed.
End runs.

(** * C53 *)
(** A program of calls and faults on several qubits of one circuit, readouts going to the qubits' own
    registers.  Then the calls on any one of the qubits also succeed alone, with the same counters
    at the end; the registers they create there are, name by name and in order, those created
    for the qubit in the program; and the values these registers can have after the program are
    exactly those they can have when the qubit's calls are made alone - whatever is done to the
    other qubits, in whatever order, and whatever the initial state. *)
Theorem C53_noninterference (R : Amp) qs i q prog s s' is (k0 : config R) :
  (forall x : R, x = a0 \/ x <> a0) ->
  together s qs -> qs !! i = Some q -> Forall (fun e => own_register e.2) prog ->
  mrun qs prog s = (s', Ok tt) -> emitted s s' is ->
  exists si js mine all, run_evs q (own i prog) s = (si, Ok tt) /\ emitted s si js /\
    (forall n, has_cnt s' q n <-> has_cnt si q n) /\
    s_regs si = s_regs s ++ mine /\ s_regs s' = s_regs s ++ all /\ NoDup (r_name <$> all) /\
    filter (fun r => r_name r ∈ r_name <$> mine) all = mine /\
    (forall k1, exec is k0 k1 -> possible k1 ->
       exists k1', exec js k0 k1' /\ possible k1' /\ forall r j, r ∈ mine -> k1'.1 (r_name r, j) = k1.1 (r_name r, j)) /\
    (forall k1', exec js k0 k1' -> possible k1' ->
       exists k1, exec is k0 k1 /\ possible k1 /\ forall r j, r ∈ mine -> k1'.1 (r_name r, j) = k1.1 (r_name r, j)).
Proof.
  intros Hdec Htg Hq Hown Hr Hem. destruct (tg_ok _ _ Htg q) as (dh & dw & Hok); [by eapply elem_of_list_lookup_2|].
  destruct (lat_ok_cnt _ _ _ _ Hok) as [n Hn].
  destruct (mrun_split prog qs i q dh dw s s n s' Htg Hq Hok Hn Hok Hn) as (si & all & is' & os & ys & A1 & A2 & A3 & A4 & A5 & A6 & A7 & A8 & A9 & A10); [done|done|done|].
  pose proof (run_evs_inv _ _ _ _ _ _ _ Hok Hn A1) as HP. pose proof HP as [P1 P2 P3 P4 _].
  unfold emitted in Hem. rewrite A3 in Hem. apply app_inv_head in Hem. subst is'.
  set (mine := evs_reg (lat_name (tq_lat q)) dh dw n (own i prog)) in *.
  assert (Hd : forall x, x ∈ r_name <$> mine -> x ∈ r_name <$> os -> False).
  { clear -A4 A7. induction A4 as [|x xs ys zs Hw IHw|y xs ys zs Hw IHw]; intros z Hz Hz'.
    - by apply elem_of_nil in Hz.
    - rewrite fmap_cons in A7. apply NoDup_cons in A7 as [Hn A7]. rewrite fmap_cons in Hz. apply elem_of_cons in Hz as [->|Hz]; [|by eapply IHw].
      apply Hn. apply elem_of_list_fmap in Hz' as (r & -> & Hr). apply elem_of_list_fmap_1. apply (weave_elem _ _ _ Hw). by right.
    - rewrite fmap_cons in A7. apply NoDup_cons in A7 as [Hn A7]. rewrite fmap_cons in Hz'. apply elem_of_cons in Hz' as [->|Hz']; [|by eapply IHw].
      apply Hn. apply elem_of_list_fmap in Hz as (r & -> & Hr). apply elem_of_list_fmap_1. apply (weave_elem _ _ _ Hw). by left. }
  assert (HB : forall x, x ∈ evs_code (lat_code (tq_lat q)) (lat_name (tq_lat q)) dh dw n (own i prog) -> belongs (lat_name (tq_lat q)) mine x).
  { intros x. apply evs_belongs; [apply Hok|]. apply list.Forall_forall. intros e He. unfold own in He. apply elem_of_list_omap in He as ([j e'] & He & E).
    rewrite list.Forall_forall in Hown. specialize (Hown _ He). cbn [fst snd] in *. case_bool_decide; [|done]. by injection E as <-. }
  destruct (weave_runs Hdec (lat_name (tq_lat q)) mine os _ _ _ k0 A5 Hd HB A6) as [W1 W2].
  exists si, (evs_code (lat_code (tq_lat q)) (lat_name (tq_lat q)) dh dw n (own i prog)), mine, all. split_and!; try done.
  - intros m. split; intros Hm; [pose proof (has_cnt_inj _ _ _ _ Hm A10)|pose proof (has_cnt_inj _ _ _ _ Hm P2)]; by subst.
  - apply (weave_filter _ mine os); [done|intros x Hx; by apply elem_of_list_fmap_1|].
    intros y Hy Hy'. eapply Hd; [exact Hy'|by apply elem_of_list_fmap_1].
  - intros k1 He Hp. destruct (W1 k1 He Hp) as (k1' & ? & ? & HW). exists k1'. split_and!; [done..|]. intros r j Hr'. apply HW. cbn. intros Hin.
    eapply Hd; [by apply elem_of_list_fmap_1|exact Hin].
  - intros k1' He Hp. destruct (W2 k1' He Hp) as (k1 & ? & ? & HW). exists k1. split_and!; [done..|]. intros r j Hr'. apply HW. cbn. intros Hin.
    eapply Hd; [by apply elem_of_list_fmap_1|exact Hin].
Qed.
Print Assumptions C53_noninterference.

(** The words of a qubit's own registers in a key make up the key of its own run. *)
Theorem C53_own_part (cs : clbit -> bool) qs i q prog s s' si :
  together s qs -> qs !! i = Some q -> Forall (fun e => own_register e.2) prog -> cregs s = [] ->
  mrun qs prog s = (s', Ok tt) -> run_evs q (own i prog) s = (si, Ok tt) ->
  own_part (counts_key cs (cregs s')) (cregs s') (cregs si) = counts_key cs (cregs si).
Proof.
  intros Htg Hq Hown Hcr Hr Hri.
  destruct (tg_ok _ _ Htg q) as (dh & dw & Hok); [by eapply elem_of_list_lookup_2|]. destruct (lat_ok_cnt _ _ _ _ Hok) as [n Hn].
  destruct (mrun_split prog qs i q dh dw s s n s' Htg Hq Hok Hn Hok Hn) as (_ & _ & is & _ & _ & _ & _ & Hem & _); [done|done|done|].
  destruct (C53_noninterference ZAmp qs i q prog s s' is (fun _ => false, fun _ => 0)) as (si' & js & mine & all & A1 & A2 & A3 & A4 & A5 & A6 & A7 & _); try done.
  { intros x. destruct (ZAmp_dec x); [by left|by right]. }
  rewrite Hri in A1. injection A1 as <-. apply own_part_key.
  rewrite (cregs_app _ _ _ A4), (cregs_app _ _ _ A5), Hcr. cbn [app].
  assert (HE : forall r, r ∈ all -> r_quantum r = false -> ((r_name r ∈ r_name <$> mine) <-> r_name r ∈ ((fun r => (r_name r, r_size r)) <$> filter (fun r => r_quantum r = false) mine).*1)).
  { intros r Hr' Hc. split.
    - intros Hm. assert (Hrm : r ∈ mine) by (rewrite <-A7; by apply elem_of_list_filter). apply elem_of_list_fmap. exists (r_name r, r_size r). split; [done|].
      apply elem_of_list_fmap. exists r. split; [done|]. by apply elem_of_list_filter.
    - intros (x & E & (r' & -> & [_ Hr'']%elem_of_list_filter)%elem_of_list_fmap)%elem_of_list_fmap. cbn in E. rewrite E. by apply elem_of_list_fmap_1. }
  rewrite filter_fmap. transitivity ((fun r => (r_name r, r_size r)) <$> filter (fun r => r_quantum r = false) (filter (fun r => r_name r ∈ r_name <$> mine) all)); [|by rewrite A7].
  f_equal. rewrite (filter_swap (fun r => r_quantum r = false)). apply filter_ext_in. intros r [Hc Hr']%elem_of_list_filter. symmetry. by apply HE.
Qed.
Print Assumptions C53_own_part.

(** C27 for every qubit of a shared circuit: its words of the key are decoded to its logical value. *)
Theorem C53_end_to_end (R : Amp) isx qs i q dh dw l prog s s' si is (k0 k1 : config R) rs rd T D rx ep misread cs' :
  (forall x : R, x = a0 \/ x <> a0) ->
  together s qs -> qs !! i = Some q -> lat_ok s q dh dw -> 1 < dh * dw -> cregs s = [] ->
  Forall (fun e => own_register e.2) prog -> mrun qs prog s = (s', Ok tt) -> emitted s s' is ->
  own i prog = Noise.Call (reset_op isx) :: Noise.Call OStab :: l ++ [Noise.Call OStab; Noise.Call (read_op isx)] -> Forall (body_ev dh dw) l ->
  syndromes_clean q k0.2 -> exec is k0 k1 -> possible k1 ->
  run_evs q (own i prog) s = (si, Ok tt) -> cregs si = rs ++ [rd] ->
  observed isx dh dw rs.*1 misread k1.1 cs' -> cs' (rd.1, 0) = k1.1 (rd.1, 0) ->
  let N := Z.of_nat (length rs) in
  (forall m, m ∈ misread -> 1 <= m.1 < N - 1 /\ 0 <= m.2 < nsyn isx dh dw) ->
  Z.of_nat (length (flips_of isx (lat_code (tq_lat q)) dh dw 0 l) + length misread) <= (extent isx dh dw - 1) / 2 ->
  decoder_for isx dh dw T D -> N - 1 <= T -> rx_ok rx ->
  correct_readout rx D ep (own_part (counts_key cs' (cregs s')) (cregs s') (cregs si)) isx = Ok (Z.b2z (Nat.odd (count (inverts isx) (calls l)))).
Proof.
  intros Hdec Htg Hq Hok H1 Hcr Hown Hr Hem Ho Hl Hcl He Hp Hri Hrs Hobs Hrd N Hmis Hw HD HT Hrx.
  rewrite (C53_own_part cs' qs i q prog s s' si) by done.
  destruct (C53_noninterference R qs i q prog s s' is k0) as (si' & js & mine & all & A1 & A2 & _ & A4 & _ & _ & _ & A8 & _); [done..|].
  rewrite Hri in A1. injection A1 as <-. destruct (A8 k1 He Hp) as (k1' & He' & Hp' & Hv).
  assert (Hbit : forall r, r ∈ cregs si -> forall j, k1'.1 (r.1, j) = k1.1 (r.1, j)).
  { rewrite (cregs_app _ _ _ A4), Hcr. cbn [app]. intros r (x & -> & [_ Hx]%elem_of_list_filter)%elem_of_list_fmap j. by apply Hv. }
  rewrite Ho in Hri. eapply (C27_end_to_end R isx s q dh dw l si js k0 k1' rs rd T D rx ep misread cs'); try done.
  - intros t nm loc Hnm Hloc. rewrite (Hobs t nm loc Hnm Hloc). f_equal. symmetry.
    apply list_lookup_fmap_inv in Hnm as (r & -> & Hr'). apply Hbit. rewrite Hrs. apply elem_of_app. left. by eapply elem_of_list_lookup_2.
  - rewrite Hrd. symmetry. apply Hbit. rewrite Hrs. apply elem_of_app. right. by left.
Qed.
Print Assumptions C53_end_to_end.
(** ... and C44. *)
Theorem C53_end_to_end_lattice (R : Amp) qs i q dh dw l prog s s' si is (k0 k1 : config R) rs rd T D rx ep misread cs' :
  (forall x : R, x = a0 \/ x <> a0) ->
  together s qs -> qs !! i = Some q -> lat_ok s q dh dw -> 1 < dh * dw -> cregs s = [] ->
  Forall (fun e => own_register e.2) prog -> mrun qs prog s = (s', Ok tt) -> emitted s s' is ->
  own i prog = Noise.Call OResetZ :: Noise.Call OStab :: l ++ [Noise.Call OLatZ] -> Forall (body_ev dh dw) l ->
  syndromes_clean q k0.2 -> exec is k0 k1 -> possible k1 ->
  run_evs q (own i prog) s = (si, Ok tt) -> cregs si = rs ++ [rd] ->
  observed false dh dw rs.*1 misread k1.1 cs' -> (forall j, 0 <= j < dh * dw -> cs' (rd.1, j) = k1.1 (rd.1, j)) ->
  let N := Z.of_nat (length rs) in
  (forall m, m ∈ misread -> 1 <= m.1 < N /\ 0 <= m.2 < nsyn false dh dw) ->
  Z.of_nat (length (flips_of false (lat_code (tq_lat q)) dh dw 0 l) + length misread) <= (dh - 1) / 2 ->
  decoder_for false dh dw T D -> N <= T -> rx_ok rx ->
  correct_readout rx D ep (own_part (counts_key cs' (cregs s')) (cregs s') (cregs si)) false = Ok (Z.b2z (Nat.odd (count is_x (calls l)))).
Proof.
  intros Hdec Htg Hq Hok H1 Hcr Hown Hr Hem Ho Hl Hcl He Hp Hri Hrs Hobs Hrd N Hmis Hw HD HT Hrx.
  rewrite (C53_own_part cs' qs i q prog s s' si) by done.
  destruct (C53_noninterference R qs i q prog s s' is k0) as (si' & js & mine & all & A1 & A2 & _ & A4 & _ & _ & _ & A8 & _); [done..|].
  rewrite Hri in A1. injection A1 as <-. destruct (A8 k1 He Hp) as (k1' & He' & Hp' & Hv).
  assert (Hbit : forall r, r ∈ cregs si -> forall j, k1'.1 (r.1, j) = k1.1 (r.1, j)).
  { rewrite (cregs_app _ _ _ A4), Hcr. cbn [app]. intros r (x & -> & [_ Hx]%elem_of_list_filter)%elem_of_list_fmap j. by apply Hv. }
  rewrite Ho in Hri. eapply (C44_end_to_end_lattice R s q dh dw l si js k0 k1' rs rd T D rx ep misread cs'); try done.
  - intros t nm loc Hnm Hloc. rewrite (Hobs t nm loc Hnm Hloc). f_equal. symmetry.
    apply list_lookup_fmap_inv in Hnm as (r & -> & Hr'). apply Hbit. rewrite Hrs. apply elem_of_app. left. by eapply elem_of_list_lookup_2.
  - intros j Hj. rewrite Hrd by done. symmetry. apply Hbit. rewrite Hrs. apply elem_of_app. right. by left.
Qed.
Print Assumptions C53_end_to_end_lattice.

(** Qubits constructed on one circuit, each from its own dictionary, and the qubits of a register
    are of this kind. *)
Lemma shared_run h0 R0 prog : forall s qs szs nms seen s' qs', shared h0 R0 (prog_dicts prog) s qs szs nms seen -> NoDup (prog_dicts prog) ->
  sensible h0 szs prog -> (forall x, x ∈ R0 -> foreign x (nms ++ prog_names prog)) -> run_prog prog qs s = (s', Ok qs') ->
  exists szs' nms' seen', shared h0 R0 [] s' qs' szs' nms' seen'.
Proof.
  induction prog as [|[t l name|i o] prog IHp]; intros s qs szs nms seen s' qs' Hs Hnd Hsen HR Hr.
  - injection Hr as <- <-. eauto.
  - destruct Hsen as (p & dh & dw & Hp & Ha & Hv & Hsen). change (prog_dicts (New t l name :: prog)) with (l :: prog_dicts prog) in *.
    change (prog_names (New t l name :: prog)) with (name :: prog_names prog) in *. cbn [run_prog] in Hr. rewrite (cons_middle name nms) in *. rewrite app_assoc in *.
    destruct (decide (name ∈ nms)) as [Hin|Hin].
    + apply elem_of_list_lookup in Hin as [i Hi].
      pose proof (sh_rest _ _ _ _ _ _ _ _ Hs l ltac:(by left)) as Hl. rewrite Hp in Hl.
      destruct (new_tqubit_taken t l name s p dh dw Hl Ha Hv) as [s1 E]; [by eapply sh_data|]. by erewrite mbind_err in Hr by exact E.
    + destruct (shared_new h0 R0 (prog_dicts prog) s qs szs nms seen t l p dh dw name Hs Hnd) as (s1 & q & E & Hs'); [by eapply sensible_dicts| |done..|].
      { intros x Hx nm Hnm. apply (HR x Hx). apply elem_of_app. by left. }
      erewrite mbind_ok in Hr by exact E. apply NoDup_cons in Hnd as [_ Hnd]. by eapply (IHp s1 (qs ++ [q]) (szs ++ [(t, (dh, dw))])).
  - destruct Hsen as [(t & dh & dw & Hsz & Hsup) Hsen]. change (prog_dicts (P_Share.Call i o :: prog)) with (prog_dicts prog) in *.
    change (prog_names (P_Share.Call i o :: prog)) with (prog_names prog) in *.
    cbn [run_prog] in Hr. destruct (qs !! i) as [q|] eqn:Hq; [|done].
    destruct (shared_call h0 R0 (prog_dicts prog) s qs szs nms seen i o q t dh dw Hs) as [(s1 & E & Hs')|[[s1 E] HC]]; [|done..| |].
    + intros x Hx nm Hnm. apply (HR x Hx). apply elem_of_app. by left.
    + erewrite mbind_ok in Hr by exact E. by eapply (IHp s1 qs szs).
    + by erewrite mbind_err in Hr by exact E.
Qed.
Theorem C53_constructed prog s s' qs : NoDup (prog_dicts prog) -> sensible (s_heap s) [] prog -> heap_fresh s ->
  (forall x, x ∈ names s -> foreign x (prog_names prog)) -> run_prog prog [] s = (s', Ok qs) -> together s' qs.
Proof.
  intros Hnd Hsen Hh HR Hr. destruct (shared_run (s_heap s) (names s) prog s [] [] [] [] s' qs) as (szs & nms & seen & Hs); [|done|done|done|done|].
  - constructor; try done; try (by intros; apply NoDup_nil_2).
    + intros q Hq. by apply elem_of_nil in Hq.
    + intros x Hx. by left.
    + intros (i & j & nm & o & o' & H & _). done.
    + intros e He. by apply elem_of_nil in He.
  - pose proof (sh_len _ _ _ _ _ _ _ _ Hs) as L1. pose proof (sh_len' _ _ _ _ _ _ _ _ Hs) as L2.
    assert (Hall : forall i q, qs !! i = Some q -> exists t dh dw nm, nms !! i = Some nm /\ lat_name (tq_lat q) = nm /\ lat_ok s' q dh dw /\ szs !! i = Some (t, (dh, dw))).
    { intros i q Hq. pose proof (lookup_lt_Some _ _ _ Hq) as Hi. destruct (lookup_lt_is_Some_2 szs i) as [[t [dh dw]] Hz]; [lia|]. destruct (lookup_lt_is_Some_2 nms i) as [nm Hnm]; [lia|].
      destruct (sh_q _ _ _ _ _ _ _ _ Hs _ _ _ _ _ _ Hq Hz Hnm) as (_ & ? & ? & _). eauto 10. }
    split.
    + intros q [i Hi]%elem_of_list_lookup. destruct (Hall i q Hi) as (t & dh & dw & nm & _ & _ & ? & _). eauto.
    + assert (lat_name ∘ tq_lat <$> qs = nms) as ->; [|apply Hs]. apply list_eq. intros i. rewrite list_lookup_fmap. destruct (qs !! i) as [q|] eqn:Hi; cbn.
      * destruct (Hall i q Hi) as (t & dh & dw & nm & Hnm & <- & _). done.
      * symmetry. apply lookup_ge_None. apply lookup_ge_None in Hi. lia.
    + apply Hs.
Qed.
Print Assumptions C53_constructed.
(** Constructing adds no classical registers. *)
Definition qonly {A} (m : M A) : Prop := forall s, cregs (m s).1 = cregs s.
Lemma qonly_bind {A B} (m : M A) (f : A -> M B) : qonly m -> (forall a, qonly (f a)) -> qonly (mbind' m f).
Proof.
  intros Hm Hf s. unfold mbind'. destruct (m s) as [s1 [a|e]] eqn:E; pose proof (Hm s) as H; rewrite E in H; cbn in *; [|done]. by rewrite (Hf a s1).
Qed.
Lemma qonly_get l : qonly (get_params l).
Proof. intros s. unfold get_params. by destruct (s_heap s !! l). Qed.
Lemma qonly_add_reg n z : qonly (add_reg (Reg true n z)).
Proof. intros s. unfold add_reg. repeat case_bool_decide; [done..|]. unfold cregs. cbn. rewrite filter_app. cbn. by rewrite app_nil_r. Qed.
Lemma qonly_mfor {A} (l : list A) f : (forall x, qonly (f x)) -> qonly (mfor l f).
Proof. intros Hf. induction l as [|x l IHl]; cbn [mfor]; [done|]. by apply qonly_bind. Qed.
Lemma qonly_new t l name : qonly (new_tqubit t l name).
Proof.
  unfold new_tqubit. apply qonly_bind.
  { destruct l as [l|]; cbn [or_new]; [|done]. apply qonly_bind; [apply qonly_get|]. intros p. by destruct (params_empty p). }
  intros l'. apply qonly_bind.
  { destruct t; [|done..]. unfold rep_validate. apply qonly_bind; [apply qonly_get|]. intros p.
    apply qonly_bind; [done|]. intros _. by apply qonly_bind. }
  intros _. apply qonly_bind; [|done]. unfold new_lattice. apply qonly_bind.
  - unfold params_validate_and_generate. apply qonly_bind; [apply qonly_get|]. intros p. repeat (apply qonly_bind; [done|]; intros ?). done.
  - intros hw. cbn zeta. apply qonly_bind; [apply qonly_mfor; intros; apply qonly_add_reg|]. intros _. by apply qonly_bind.
Qed.
Lemma qonly_add sub c p : qonly (add_tqubit sub c p).
Proof.
  intros s. unfold add_tqubit. erewrite mbind_ok by done.
  set (s1 := match dict_get sub (s_tq s) with None => set_tq s (s_n s) (dict_set sub [] (s_tq s)) | Some _ => s end).
  assert (E1 : cregs s1 = cregs s) by (unfold s1; by destruct (dict_get sub (s_tq s))).
  erewrite (mbind_ok _ _ s s1 tt) by (unfold s1; by destruct (dict_get sub (s_tq s))).
  rewrite <-E1. generalize s1. intros u. destruct (str2qtype c) as [t|]; [|done]. cbn [key].
  erewrite mbind_ok by done. pose proof (qonly_new t (Some p) (s_tname s +:+ "_" +:+ py_str (s_n s))%string u) as H.
  unfold mbind' at 1. destruct (new_tqubit t (Some p) _ u) as [s2 [q|e]]; [|done]. cbn in H. rewrite <-H.
  erewrite mbind_ok by done. by destruct (dict_get sub (s_tq s2)).
Qed.
Lemma qonly_treg name cs ps s : cregs (new_treg name cs ps s).1 = [].
Proof.
  unfold new_treg. erewrite mbind_ok by done. erewrite mbind_ok by done. set (s1 := St _ _ _ _ _ _ _ _ _).
  assert (HQ : qonly (add_tqubits "data" cs ps)); [|by rewrite (HQ s1)].
  unfold add_tqubits. case_match; [done|]. case_match; [done|]. apply qonly_mfor. intros cp. apply qonly_add.
Qed.
Theorem C53_register rs name s : heap_fresh s -> NoDup (rq_params <$> rs) -> Forall (request_ok s) rs ->
  exists s' qs, new_treg name (rq_type <$> rs) (rq_params <$> rs) s = (s', Ok tt) /\ length qs = length rs /\
    (forall i q, qs !! i = Some q -> treg_lookup (s_tq s') (Z.of_nat i) = Ok q) /\ together s' qs /\ cregs s' = [].
Proof.
  intros Hhf Hnd Hok. destruct (new_treg_ready rs name s Hhf Hnd Hok) as (s' & E & Hr & Hn & _).
  pose proof (rd_n _ _ _ Hr) as HN. unfold request_sizes in HN. rewrite fmap_length in HN.
  assert (Hex : forall i, (i < length rs)%nat -> exists q dh dw, treg_lookup (s_tq s') (Z.of_nat i) = Ok q /\ lat_name (tq_lat q) = qname name (Z.of_nat i) /\ lat_ok s' q dh dw).
  { intros i Hi. destruct (lookup_lt_is_Some_2 rs i Hi) as [r Hri].
    destruct (rd_q _ _ _ Hr (Z.of_nat i) (rq_t r) (rq_h r) (rq_w r)) as (q & Hq & _ & _ & Hnm & Hlo & _); [lia| |].
    - rewrite Nat2Z.id. unfold request_sizes. by rewrite list_lookup_fmap, Hri.
    - rewrite Hn in Hnm. eauto 10. }
  assert (exists qs : list tqubit, length qs = length rs /\ forall i q, qs !! i = Some q -> treg_lookup (s_tq s') (Z.of_nat i) = Ok q) as (qs & Hlen & Hqs).
  { assert (HI : forall k, (k <= length rs)%nat -> exists qs : list tqubit, length qs = k /\ forall i q, qs !! i = Some q -> treg_lookup (s_tq s') (Z.of_nat i) = Ok q); [|by apply HI].
    induction k as [|k IHk]; intros Hk; [by exists []|]. destruct IHk as (qs & HL & HQ); [lia|]. destruct (Hex k ltac:(lia)) as (q & _ & _ & Hq & _).
    exists (qs ++ [q]). rewrite app_length. cbn. split; [lia|]. intros i q' Hi. apply lookup_app_Some in Hi as [Hi|[Hi Hi']]; [by apply HQ|].
    apply list_lookup_singleton_Some in Hi' as [Hi' <-]. by replace i with k by lia. }
  exists s', qs. split_and!; [done|done|done| |].
  - assert (HA : forall i q, qs !! i = Some q -> exists dh dw, lat_name (tq_lat q) = qname name (Z.of_nat i) /\ lat_ok s' q dh dw /\ 0 <= Z.of_nat i < s_n s').
    { intros i q Hi. pose proof (lookup_lt_Some _ _ _ Hi) as Hlt. destruct (Hex i ltac:(lia)) as (q' & dh & dw & Hq' & ? & ?).
      rewrite (Hqs _ _ Hi) in Hq'. injection Hq' as <-. exists dh, dw. split_and!; try done; lia. }
    split.
    + intros q [i Hi]%elem_of_list_lookup. destruct (HA i q Hi) as (dh & dw & _ & ? & _). eauto.
    + apply NoDup_alt. intros i j x Hi Hj. apply list_lookup_fmap_inv in Hi as (q & -> & Hi). apply list_lookup_fmap_inv in Hj as (q' & Eq & Hj).
      destruct (HA i q Hi) as (_ & _ & N1 & _), (HA j q' Hj) as (_ & _ & N2 & _). cbn in Eq. rewrite N1, N2 in Eq.
      destruct (qname_sep name (Z.of_nat i) (Z.of_nat j) "" "") as [? _]; [lia|lia|by rewrite Eq|lia].
    + apply NoDup_alt. intros i j x Hi Hj. apply list_lookup_fmap_inv in Hi as (q & -> & Hi). apply list_lookup_fmap_inv in Hj as (q' & Eq & Hj).
      destruct (HA i q Hi) as (_ & _ & _ & _ & N1), (HA j q' Hj) as (_ & _ & _ & _ & N2). cbn in Eq.
      assert (Z.of_nat i = Z.of_nat j) by (eapply (rd_sep _ _ _ Hr); eauto). lia.
  - pose proof (qonly_treg name (rq_type <$> rs) (rq_params <$> rs) s) as HC. by rewrite E in HC.
Qed.
Print Assumptions C53_register.

(** ** The whole key *)
(** TopologicalCircuit.parse_readout (circ.py:368-396) passes the whole key on to the qubit named;
    the readout it reports is that of the register created last, whichever qubit that belongs to. *)
Theorem C53_whole_key dh dw cs regs nm ty : valid_size dh dw -> 1 < dh * dw -> (forall r, r ∈ regs -> 0 < r.2) ->
  exists e, parse_readout dh dw (counts_key cs (regs ++ [(nm, 1)])) ty = Ok (Z.b2z (cs (nm, 0)), e).
Proof.
  intros Hv H1 Hpos. unfold counts_key. rewrite fmap_app, reverse_app. cbn [fmap list_fmap]. change (reverse [?x]) with [x]. cbn [app].
  unfold parse_readout. rewrite split_join; [|done|].
  2: { constructor; [apply sob_no_blank|]. apply Forall_reverse, Forall_fmap, list.Forall_forall. intros; apply sob_no_blank. }
  rewrite bool_decide_eq_false_2 by (change (creg_string cs (nm, 1)) with (bits_str 1 (fun i => cs (nm, i))); rewrite bits_len; cbn; lia).
  assert (E : py_int_short (creg_string cs (nm, 1)) = Ok (Z.b2z (cs (nm, 0)))).
  { unfold creg_string. cbn [fst snd]. change (seqZ 0 1) with [0]. cbn. apply digit_sob. }
  rewrite E. clear E. rewrite reverse_involutive.
  assert (E : exists ints, rmap py_int2 (creg_string cs <$> regs) = Ok ints).
  { eexists. rewrite (rmap_ok _ (fun w => match py_int2 w with Ok v => v | Err _ => 0 end)); [done|].
    intros w (r & -> & Hr)%elem_of_list_fmap. destruct r as [n z]. specialize (Hpos _ Hr). cbn in Hpos.
    change (creg_string cs (n, z)) with (bits_str z (fun i => cs (n, i))). by rewrite py_int2_bits. }
  destruct E as [ints ->]. cbv zeta. destruct (counts_pos dh dw Hv H1) as (Hx & Hz & Hs).
  set (nx := num_syn_x dh dw) in *. set (nz := num_syn_z dh dw) in *. set (n := dh * dw - 1) in *.
  assert (EX : py_int2 (str_rep (Z.to_nat nx) "1"%char +:+ str_rep (Z.to_nat nz) "0"%char)%string = Ok (bits_val n (fun i => bool_decide (nz <= i)))).
  { change "1"%char with (char_of_bit true). change "0"%char with (char_of_bit false). rewrite !rep_bits.
    rewrite <-(py_int2_bits n) by lia. f_equal. replace n with (nz + nx) by lia. rewrite bits_split by done. f_equal; apply bits_ext.
    - intros i Hi. by rewrite bool_decide_eq_true_2 by lia.
    - intros i Hi. by rewrite bool_decide_eq_false_2 by lia. }
  rewrite (rmap_ok _ (fun x => Z.shiftr (Z.land x (bits_val n (fun i => bool_decide (nz <= i)))) nz)) by (intros; by rewrite EX).
  case_bool_decide as Em; [by eexists|].
  assert (Hnz : 0 < nz) by (destruct (decide (nz = 0)) as [E'|]; [by rewrite E' in Em|lia]).
  assert (EZ : py_int2 (str_rep (Z.to_nat nz) "1"%char) = Ok (bits_val nz (fun _ => true))).
  { change "1"%char with (char_of_bit true). rewrite rep_bits. by apply py_int2_bits. }
  rewrite (rmap_ok _ (fun x => Z.land x (bits_val nz (fun _ => true)))) by (intros; by rewrite EZ). by eexists.
Qed.
Print Assumptions C53_whole_key.

(** ** A run of two qubits *)
(** An XXZZ and an XZZX lattice, both 3x3, in one circuit; the calls on them interleave, x() is
    called on the first and data qubit 4 of the second suffers X. *)
Definition mul_q : st * res (list tqubit) := run_prog [New TXXZZ 0%nat "tq_0"; New TXZZX 1%nat "tq_1"] [] ex_st.
Definition mul_body0 : list ev := [Noise.Call OX].
Definition mul_body1 : list ev := [Fault true 4].
Definition mul_prog : list (nat * ev) :=
  [(0%nat, Noise.Call OResetZ); (1%nat, Noise.Call OResetZ); (1%nat, Noise.Call OStab); (0%nat, Noise.Call OStab); (1%nat, Fault true 4);
   (0%nat, Noise.Call OX); (0%nat, Noise.Call OStab); (1%nat, Noise.Call OStab); (0%nat, Noise.Call (OReadZ None)); (1%nat, Noise.Call (OReadZ None))].
Definition mul_run (l : list (nat * ev)) : st * res unit := match mul_q with (s, Ok qs) => mrun qs l s | (s, Err e) => (s, Err e) end.
Definition mul_regs : list (string * Z) := [("tq_1_c0", 8); ("tq_0_c0", 8); ("tq_0_c1", 8); ("tq_1_c1", 8); ("tq_0_readout_0", 1); ("tq_1_readout_0", 1)]%string.
Lemma mul_ok : exists q0 q1, mul_q.2 = Ok [q0; q1] /\ together mul_q.1 [q0; q1] /\ cregs mul_q.1 = [] /\
  lat_ok mul_q.1 q0 3 3 /\ lat_ok mul_q.1 q1 3 3 /\ lat_code (tq_lat q0) = XXZZ /\ lat_code (tq_lat q1) = XZZX.
Proof.
  destruct (mul_q.2) as [l|e] eqn:E; [|vm_compute in E; discriminate].
  assert (Hl : exists q0 q1, l = [q0; q1] /\ lat_ok mul_q.1 q0 3 3 /\ lat_ok mul_q.1 q1 3 3 /\ lat_code (tq_lat q0) = XXZZ /\ lat_code (tq_lat q1) = XZZX).
  { vm_compute in E. injection E as <-. eexists _, _. split; [reflexivity|].
    split_and!; [| |reflexivity|reflexivity]; (split; [done|vm_compute; reflexivity|]); eexists _, _, _, _, _; split_and!; vm_compute; reflexivity. }
  destruct Hl as (q0 & q1 & -> & H0 & H1 & Hc0 & Hc1). exists q0, q1. split; [done|]. split_and!; try done.
  - eapply (C53_constructed [New TXXZZ 0%nat "tq_0"; New TXZZX 1%nat "tq_1"] ex_st); [| | | |].
    + cbn. repeat constructor; set_solver.
    + assert (Hv : valid_size 3 3) by done.
      eexists _, 3, 3. split; [reflexivity|]. split; [reflexivity|]. split; [done|]. eexists _, 3, 3. split; [reflexivity|]. split; [reflexivity|]. by split.
    + intros x Hx. cbn. destruct x as [|[|x]]; cbn in Hx; [lia..|]. by rewrite !lookup_insert_ne.
    + intros x Hx. by apply elem_of_nil in Hx.
    + fold mul_q. rewrite <-E. by destruct mul_q.
Qed.
Lemma mul_fine (qs : list tqubit) l : mul_q.2 = Ok qs -> (mul_run l).2 = Ok tt -> mrun qs l mul_q.1 = ((mul_run l).1, Ok tt).
Proof. unfold mul_run. destruct mul_q as [s r]. cbn [fst snd]. intros ->. destruct (mrun qs l s) as [s' r]. cbn. by intros ->. Qed.
Definition mul_solo (i : nat) : st * res unit := match mul_q with (s, Ok qs) => match qs !! i with Some q => run_evs q (own i mul_prog) s | None => (s, Err IndexError) end | (s, Err e) => (s, Err e) end.
Lemma mul_solo_fine qs i q : mul_q.2 = Ok qs -> qs !! i = Some q -> (mul_solo i).2 = Ok tt -> run_evs q (own i mul_prog) mul_q.1 = ((mul_solo i).1, Ok tt).
Proof. unfold mul_solo. destruct mul_q as [s r]. cbn [fst snd]. intros -> ->. destruct (run_evs _ _ s) as [s' r]. cbn. by intros ->. Qed.
Lemma observed_same dh dw names cs : observed false dh dw names [] cs cs.
Proof. intros t nm loc _ _. change (xorl (_ <$> [])) with false. by rewrite xorb_false_r. Qed.
Lemma v33 : valid_size 3 3. Proof. done. Qed.
Lemma mul_fine' : (mul_run mul_prog).2 = Ok tt. Proof. vm_compute. reflexivity. Qed.
Lemma mul_regs' : cregs (mul_run mul_prog).1 = mul_regs. Proof. vm_compute. reflexivity. Qed.
Lemma mul_solo' : (mul_solo 0).2 = Ok tt /\ (mul_solo 1).2 = Ok tt. Proof. split; vm_compute; reflexivity. Qed.
Lemma mul_solo_regs : cregs (mul_solo 0).1 = [("tq_0_c0", 8); ("tq_0_c1", 8); ("tq_0_readout_0", 1)]%string /\
  cregs (mul_solo 1).1 = [("tq_1_c0", 8); ("tq_1_c1", 8); ("tq_1_readout_0", 1)]%string.
Proof. split; vm_compute; reflexivity. Qed.
Lemma mul_solo_last : (exists z, last (s_regs (mul_solo 0).1) = Some (Reg false "tq_0_readout_0" z)) /\
  (exists z, last (s_regs (mul_solo 1).1) = Some (Reg false "tq_1_readout_0" z)).
Proof. split; eexists; vm_compute; reflexivity. Qed.
Opaque mul_q mul_run mul_solo.
Example C53_ex : exists q0 q1 s' is (k1 : config ZAmp) D,
  mul_q.2 = Ok [q0; q1] /\ mrun [q0; q1] mul_prog mul_q.1 = (s', Ok tt) /\ emitted mul_q.1 s' is /\
  exec is (fun _ => false, zero_state) k1 /\ possible k1 /\ cregs s' = mul_regs /\ rotated_decoder (Some (DNum 3)) (Some 1) = Ok D /\
  correct_readout rx_ref D EPNone (own_part (counts_key k1.1 mul_regs) mul_regs [("tq_0_c0", 8); ("tq_0_c1", 8); ("tq_0_readout_0", 1)]%string) false = Ok 1 /\
  correct_readout rx_ref D EPNone (own_part (counts_key k1.1 mul_regs) mul_regs [("tq_1_c0", 8); ("tq_1_c1", 8); ("tq_1_readout_0", 1)]%string) false = Ok 0.
Proof.
  destruct mul_ok as (q0 & q1 & Hq & Htg & Hcr & H0 & H1 & Hc0 & Hc1).
  assert (Hown : Forall (fun e => own_register e.2) mul_prog) by (repeat constructor).
  assert (Hr : mrun [q0; q1] mul_prog mul_q.1 = ((mul_run mul_prog).1, Ok tt)) by (exact (mul_fine _ _ Hq mul_fine')).
  set (s' := (mul_run mul_prog).1) in *.
  destruct (lat_ok_cnt _ _ _ _ H0) as [n Hn].
  destruct (mrun_split mul_prog [q0; q1] 0 q0 3 3 mul_q.1 mul_q.1 n s' Htg eq_refl H0 Hn H0 Hn) as (_ & _ & is & _ & _ & _ & _ & Hem & _); [done|done|done|].
  assert (Hdec : forall x : ZAmp, x = a0 \/ x <> a0) by (intros x; destruct (ZAmp_dec x); [by left|by right]).
  destruct (C53_noninterference ZAmp [q0; q1] 0 q0 mul_prog mul_q.1 s' is (fun _ => false, zero_state)) as (si & js & mine & all & A1 & A2 & _ & A4 & _ & _ & _ & _ & A9); [done..|].
  destruct (evs_possible _ _ _ _ _ _ _ ((fun _ => false), zero_state) H0 A1 A2 (zero_possible _)) as (ka & Hea & Hpa).
  destruct (A9 ka Hea Hpa) as (k1 & He & Hp & _).
  destruct (decoder_for_rotated false 3 3 1 v33) as (D & ED & HD).
  assert (Hregs : cregs s' = mul_regs) by exact mul_regs'.
  assert (S0 : run_evs q0 (own 0 mul_prog) mul_q.1 = ((mul_solo 0).1, Ok tt)) by (eapply mul_solo_fine; [exact Hq|reflexivity|apply mul_solo']).
  assert (S1 : run_evs q1 (own 1 mul_prog) mul_q.1 = ((mul_solo 1).1, Ok tt)) by (eapply mul_solo_fine; [exact Hq|reflexivity|apply mul_solo']).
  destruct mul_solo_regs as [R0 R1].
  exists q0, q1, s', is, k1, D. do 6 (split; [done|]). split; [exact ED|]. rewrite <-Hregs. split.
  - rewrite <-R0.
    refine (C53_end_to_end ZAmp false [q0; q1] 0 q0 3 3 mul_body0 mul_prog mul_q.1 s' (mul_solo 0).1 is (fun _ => false, zero_state) k1 [("tq_0_c0", 8); ("tq_0_c1", 8)]%string ("tq_0_readout_0", 1)%string 1 D rx_ref EPNone [] k1.1
      Hdec Htg eq_refl H0 eq_refl Hcr Hown Hr Hem eq_refl _ (C10_initially_clean ZAmp q0) He Hp S0 R0 (observed_same 3 3 _ _) eq_refl _ _ HD _ rx_ref_ok).
    + repeat constructor.
    + intros m Hm. clear -Hm. by apply elem_of_nil in Hm.
    + rewrite Hc0. vm_compute. discriminate.
    + clear. cbn. lia.
  - rewrite <-R1.
    refine (C53_end_to_end ZAmp false [q0; q1] 1 q1 3 3 mul_body1 mul_prog mul_q.1 s' (mul_solo 1).1 is (fun _ => false, zero_state) k1 [("tq_1_c0", 8); ("tq_1_c1", 8)]%string ("tq_1_readout_0", 1)%string 1 D rx_ref EPNone [] k1.1
      Hdec Htg eq_refl H1 eq_refl Hcr Hown Hr Hem eq_refl _ (C10_initially_clean ZAmp q1) He Hp S1 R1 (observed_same 3 3 _ _) eq_refl _ _ HD _ rx_ref_ok).
    + repeat constructor; clear; cbn; lia.
    + intros m Hm. clear -Hm. by apply elem_of_nil in Hm.
    + rewrite Hc1. vm_compute. discriminate.
    + clear. cbn. lia.
Qed.
(** In the same run, whatever the outcomes, the whole key reports 0 for the first qubit (the
    readout of the second), although 1 is what was read from it. *)
Theorem C53_whole_key_refuted : exists q0 q1 s' is (k1 : config ZAmp),
  mul_q.2 = Ok [q0; q1] /\ mrun [q0; q1] mul_prog mul_q.1 = (s', Ok tt) /\ emitted mul_q.1 s' is /\
  exec is (fun _ => false, (zero_state : state ZAmp)) k1 /\ possible k1 /\ cregs s' = mul_regs /\
  forall k : config ZAmp, exec is (fun _ => false, zero_state) k -> possible k ->
    k.1 ("tq_0_readout_0"%string, 0) = true /\ exists e, parse_readout 3 3 (counts_key k.1 mul_regs) None = Ok (0, e).
Proof.
  destruct C53_ex as (q0 & q1 & s' & is & k1 & _ & Hq & Hr & Hem & He & Hp & Hregs & _). exists q0, q1, s', is, k1. do 6 (split; [done|]).
  clear k1 He Hp. intros k He Hp. destruct mul_ok as (q0' & q1' & Hq' & Htg & Hcr & H0 & H1 & Hc0 & Hc1).
  rewrite Hq in Hq'. injection Hq' as <- <-.
  assert (Hown : Forall (fun e => own_register e.2) mul_prog) by (repeat constructor).
  assert (Hdec : forall x : ZAmp, x = a0 \/ x <> a0) by (intros x; destruct (ZAmp_dec x); [by left|by right]).
  assert (HB : forall i q, [q0; q1] !! i = Some q -> lat_ok mul_q.1 q 3 3 -> forall l nm,
    own i mul_prog = Noise.Call OResetZ :: l ++ [Noise.Call (OReadZ None)] -> Forall (fun e => safe_ev z_safe e = true) l ->
    (mul_solo i).2 = Ok tt -> (exists z, last (s_regs (mul_solo i).1) = Some (Reg false nm z)) ->
    k.1 (nm, 0) = xorb (Nat.odd (count is_x (calls l))) (anti (log_z (lat_code (tq_lat q)) 3 3) (faults l))).
  { intros i q Hi Hok l nm Ho Hl Hs [z Hz].
    destruct (C53_noninterference ZAmp [q0; q1] i q mul_prog mul_q.1 s' is (fun _ => false, zero_state)) as (si & js & mine & all & A1 & A2 & _ & A4 & _ & _ & _ & A8 & _); [done..|].
    pose proof (mul_solo_fine _ _ _ Hq Hi Hs) as S0. rewrite S0 in A1. injection A1 as <-.
    destruct (A8 k He Hp) as (k' & He' & Hp' & Hv). rewrite Ho in S0.
    rewrite <-(C11_z_with_faults ZAmp mul_q.1 q 3 3 l None (mul_solo i).1 js (nm, 0) _ k' Hok S0 A2 Hl He' Hp'); [|by exists (Reg false nm z)].
    symmetry. apply (Hv (Reg false nm z)). rewrite A4 in Hz. destruct mine as [|r mine _] using rev_ind.
    - exfalso. rewrite app_nil_r in Hz. apply last_Some_elem_of in Hz.
      assert (Hc : (nm, z) ∈ cregs mul_q.1); [|rewrite Hcr in Hc; by apply elem_of_nil in Hc].
      unfold cregs. apply elem_of_list_fmap. exists (Reg false nm z). split; [done|]. by apply elem_of_list_filter.
    - rewrite app_assoc, last_snoc in Hz. injection Hz as ->. apply elem_of_app. right. by left. }
  split.
  - rewrite (HB 0%nat q0 eq_refl H0 [Noise.Call OStab; Noise.Call OX; Noise.Call OStab] "tq_0_readout_0"%string); [| |by repeat constructor| |]; [|reflexivity|apply mul_solo'|apply mul_solo_last].
    rewrite Hc0. vm_compute. reflexivity.
  - assert (E : k.1 ("tq_1_readout_0"%string, 0) = false).
    { rewrite (HB 1%nat q1 eq_refl H1 [Noise.Call OStab; Fault true 4; Noise.Call OStab] "tq_1_readout_0"%string); [| |by repeat constructor| |]; [|reflexivity|apply mul_solo'|apply mul_solo_last].
      rewrite Hc1. vm_compute. reflexivity. }
    destruct (C53_whole_key 3 3 k.1 (take 5 mul_regs) "tq_1_readout_0"%string None) as (e & HE); [done|lia| |].
    + intros r Hr'. unfold mul_regs in Hr'. cbn in Hr'. repeat (apply elem_of_cons in Hr' as [->|Hr']; [cbn; lia|]). by apply elem_of_nil in Hr'.
    + exists e. rewrite E in HE. exact HE.
Qed.
Print Assumptions C53_whole_key_refuted.
