(** Logical CNOT: truth table and loss of coherence (C15), usability of the control
    afterwards (C17), recovery from a failed call (C20).
    Model: qtcodes/circuits/circ.py:239-310. *)
From Coq Require Import Ascii.
From Verif Require Export CxHist.
From stdpp Require Export list.
Open Scope Z_scope.

(** ** From the constructor to the invariant *)
Lemma weak_raise s szs n0 : weak s szs n0 -> dict_get "ancilla"%string (s_tq s) = None -> weak s szs (s_n s).
Proof. intros Hw Hd. pose proof (wk_n0 _ _ _ Hw). constructor; try apply Hw; [lia|]. by rewrite Hd. Qed.
Lemma build_weak rs s szs : ready s szs [] -> weak s szs 0 ->
  NoDup (rq_params <$> rs) -> Forall (request_ok s) rs ->
  (forall r i q, r ∈ rs -> treg_lookup (s_tq s) i = Ok q -> lat_params (tq_lat q) <> rq_params r) ->
  forall s', mfor (zip (rq_type <$> rs) (rq_params <$> rs)) (fun cp => add_tqubit "data" cp.1 cp.2) s = (s', Ok tt) ->
  weak s' (szs ++ request_sizes rs) 0.
Proof.
  revert s szs. induction rs as [|r rs IH]; intros s szs Hr Hw Hnd Hok Hown s'.
  - cbn. intros [= <-]. by rewrite app_nil_r.
  - rewrite fmap_cons, NoDup_cons in Hnd. destruct Hnd as [Hni Hnd].
    apply Forall_cons in Hok as [(Ht & Hv & p & Hp & Ha) Hok]. pose proof (wk_heap _ _ _ Hw) as Hhf.
    destruct (add_ready s szs [] "data" _ _ _ p _ _ Hr Hhf Ht Hp Ha Hv) as (s1 & E1 & Hr1 & Hf1 & Hh1 & Hq1 & _).
    { intros i q. apply Hown. by left. }
    destruct (add_weak s szs 0 "data" _ _ _ p _ _ Hw Ht Hp Ha Hv) as (s1' & q1 & E1' & Hw1 & _).
    { intros i q Hq El. exfalso. eapply Hown; [by left|exact Hq|done]. }
    { done. }
    rewrite E1 in E1'. injection E1' as <-.
    rewrite !fmap_cons. cbn [zip zip_with mfor]. cbn [fst snd]. erewrite mbind_ok by exact E1. intros E2.
    unfold request_sizes. rewrite fmap_cons. rewrite cons_middle, app_assoc. apply (IH s1); try done.
    + apply list.Forall_forall. intros r' Hr'. rewrite list.Forall_forall in Hok. destruct (Hok r' Hr') as (? & ? & p' & Hp' & ?).
      split_and!; try done. exists p'. split; [|done]. rewrite Hh1; [done| |congruence].
      intros E. apply Hni. rewrite <-E. by apply elem_of_list_fmap_1.
    + intros r' i q Hr' Hq. destruct (Hq1 i q Hq) as [Hq'|[->|Hq']].
      * eapply Hown; [by right|done].
      * intros E. apply Hni. rewrite E. by apply elem_of_list_fmap_1.
      * intros E. rewrite list.Forall_forall in Hok. destruct (Hok r' Hr') as (? & ? & p' & Hp' & ?). congruence.
Qed.
Lemma new_treg_weak rs name s : heap_fresh s -> NoDup (rq_params <$> rs) -> Forall (request_ok s) rs ->
  exists s', new_treg name (rq_type <$> rs) (rq_params <$> rs) s = (s', Ok tt) /\
    ready s' (request_sizes rs) [] /\ weak s' (request_sizes rs) (Z.of_nat (length rs)) /\ s_tname s' = name /\
    s_instrs s' = [] /\ dict_get "ancilla"%string (s_tq s') = None.
Proof.
  intros Hhf Hnd Hok. destruct (new_treg_ready rs name s Hhf Hnd Hok) as (s' & E & Hr & HT & HI & _ & _ & _ & _ & _ & _ & HD).
  exists s'. split_and!; try done.
  pose proof (rd_n _ _ _ Hr) as Hn. unfold request_sizes in Hn. rewrite fmap_length in Hn. rewrite <-Hn.
  apply (weak_raise s' _ 0); [|done].
  unfold new_treg in E. erewrite mbind_ok in E by done. erewrite mbind_ok in E by done.
  rewrite C19_accepts in E; [|by rewrite !fmap_length|].
  2:{ intros c (r & -> & Hr')%elem_of_list_fmap. rewrite list.Forall_forall in Hok. destruct (Hok r Hr') as [E' _].
      destruct (decide (known_type (rq_type r))) as [|Hk]; [done|]. apply known_type_spec in Hk. congruence. }
  change (request_sizes rs) with ([] ++ request_sizes rs).
  eapply build_weak; [| | | | |exact E]; try done.
  - constructor; cbn; try done; try lia; try apply NoDup_nil_2; intros x Hx; by apply elem_of_nil in Hx.
  - constructor; cbn; try done; try lia; try (intros x Hx; by apply elem_of_nil in Hx).
    split; [intros x _|]; left; (split; [done|]); intros Hx; by apply elem_of_nil in Hx.
Qed.

(** ** Calls on a qubit do not touch the register *)
Notation yT m := (yields m (fun _ => True)).
Lemma yT_bind {A B} (m : M A) (f : A -> M B) : yT m -> (forall a, yT (f a)) -> yT (mbind' m f).
Proof. intros Hm Hf. eapply yields_bind; [exact Hm|]. intros a _. apply Hf. Qed.
Lemma yT_emit l : yT (emit l). Proof. done. Qed.
Lemma yT_emit1 f l : yT (emit1 f l). Proof. intros s. by destruct l. Qed.
Lemma yT_ret {A} (a : A) : yT (Circ.mret a). Proof. done. Qed.
Lemma yT_key {A} (o : option A) : yT (key o). Proof. intros s. by destruct o. Qed.
Ltac yk := repeat first
  [ apply yT_ret | apply yT_emit | apply yT_emit1 | apply yields_add_reg | apply yields_get | apply yields_put | apply yT_key | apply yields_lift
  | apply yields_mfor; intros ? | apply yT_bind; [|intros ?]
  | progress unfold emit_meas | match goal with |- yields (match ?b with _ => _ end) _ => destruct b end ].
Lemma yT_col q : yT (col_idx q). Proof. unfold col_idx, get_dim. yk. Qed.
Lemma yT_row q : yT (row_idx q). Proof. unfold row_idx, get_dim. yk. Qed.
Lemma yT_rx q : yT (readout_x_into_ancilla q).
Proof. unfold readout_x_into_ancilla. destruct (lat_code (tq_lat q)); repeat first [apply yT_col|apply yT_emit|apply yields_mfor; intros ?|apply yT_emit1|apply yields_lift|apply yT_bind; [|intros ?]]. Qed.
Lemma yT_rz q : yT (readout_z_into_ancilla q).
Proof. unfold readout_z_into_ancilla. destruct (lat_code (tq_lat q)); repeat first [apply yT_row|apply yT_emit|apply yields_mfor; intros ?|apply yT_emit1|apply yields_lift|apply yT_bind; [|intros ?]]. Qed.
Lemma yT_op q o : yT (run_op q o).
Proof.
  assert (HR : forall r, yT (readout_register q r)).
  { intros [h|]; unfold readout_register; cbn zeta; [case_bool_decide|]; yk. }
  destruct o; cbn [run_op].
  - unfold stabilize, entangle. cbn zeta. yk.
  - unfold readout_x, measure_ancilla. apply yT_bind; [apply HR|intros ?]. apply yT_bind; [apply yT_rx|intros ?]. yk.
  - unfold readout_z, measure_ancilla. apply yT_bind; [apply HR|intros ?]. apply yT_bind; [apply yT_rz|intros ?]. yk.
  - unfold lattice_readout_x, lattice_readout. cbn zeta. yk.
  - unfold lattice_readout_z, lattice_readout. cbn zeta. yk.
  - unfold reset_x. cbn zeta. yk.
  - unfold reset_z. cbn zeta. yk.
  - unfold logical_x. apply yT_bind; [apply yT_col|intros ?]. yk.
  - unfold logical_z. apply yT_bind; [apply yT_row|intros ?]. yk.
  - unfold id_all. cbn zeta. yk.
  - unfold id_data. yk.
Qed.
Lemma run_call_book e s : book (run_call e s).1 = book s.
Proof.
  unfold run_call, mbind', treg_get. destruct (treg_lookup (s_tq s) e.1) as [q|]; [|done]. apply (yT_op q e.2 s).
Qed.

(** ** One cx, any session *)
Lemma cx_event s szs n0 i j anc : weak s szs n0 -> event_ok (ECx i j anc) ->
  exists s' r ext, run_event (ECx i j anc) s = (s', r) /\ weak s' (szs ++ ext) n0 /\ s_tname s' = s_tname s /\
    (forall x, x ∈ names s -> x ∈ names s') /\
    (r = Ok tt -> exists dc dt da k, is_side (s_tname s) (szs ++ ext) i dc /\ is_side (s_tname s) (szs ++ ext) j dt /\
       is_side (s_tname s) (szs ++ ext) k da /\ n0 <= k /\ 0 <= i < s_n s /\ 0 <= j < s_n s /\
       s_instrs s' = s_instrs s ++ cx_code dc dt da).
Proof.
  intros Hw He.
  destruct (decide (0 <= i < s_n s /\ 0 <= j < s_n s)) as [[Hi Hj]|Hb].
  2:{ assert (HB : forall s1, s_tq s1 = s_tq s -> treg_lookup (s_tq s1) i = Err ValueError \/ treg_lookup (s_tq s1) j = Err ValueError).
      { intros s1 ->. destruct (decide (0 <= i < s_n s)) as [Hi|Hi]; [right|left]; apply (wk_none _ _ _ Hw); tauto. }
      destruct anc as [[c p]|]; cbn [run_event].
      - exists (with_dict s p), (Err ValueError), []. rewrite app_nil_r. split_and!; try done; [|by apply weak_dict].
        erewrite mbind_ok by reflexivity. apply c_cx_bad; [|done]. apply HB. done.
      - exists s, (Err ValueError), []. rewrite app_nil_r. split_and!; try done. apply c_cx_bad; [|done]. by apply HB. }
  assert (HS : forall s1, s_tq s1 = s_tq s -> s_tname s1 = s_tname s -> s_n s1 = s_n s -> weak s1 szs n0 -> exists dc qc dt qt,
    is_side (s_tname s1) szs i dc /\ is_side (s_tname s1) szs j dt /\ treg_lookup (s_tq s1) i = Ok qc /\ treg_lookup (s_tq s1) j = Ok qt /\
    lat_ok s1 qc (sd_h dc) (sd_w dc)).
  { intros s1 H1 H2 H3 Hw1. destruct (is_side_ex s1 szs n0 i Hw1) as (dc & qc & ? & ? & ?); [congruence|].
    destruct (is_side_ex s1 szs n0 j Hw1) as (dt & qt & ? & ? & ?); [congruence|]. exists dc, qc, dt, qt. done. }
  destruct anc as [[c p]|]; cbn [run_event].
  - destruct He as (t & dh & dw & Hc & Ha & Hv). pose proof (weak_dict s szs n0 p Hw) as Hw1.
    destruct (HS (with_dict s p)) as (dc & qc & dt & qt & Hdc & Hdt & Hqc & Hqt & _); [done..|].
    erewrite mbind_ok by reflexivity. fold (with_dict s p). rewrite (c_cx_explicit _ _ _ _ _ _ _ Hqc Hqt).
    destruct (cx_core (with_dict s p) szs n0 i j qc qt dc dt c (s_next s) p t dh dw Hw1 Hqc Hqt Hdc Hdt Hc) as (s' & r & ext & k & da & E & Hw' & HT & HN & HL & HD & Hk & Hda & HR & _); try done.
    { cbn. apply lookup_insert. }
    { intros i' q' Hq' El. exfalso. destruct (weak_get _ _ _ i' Hw (lookup_bound _ _ _ _ _ Hw Hq')) as (? & ? & ? & q0 & p0 & _ & Hq0 & _ & _ & _ & _ & Hp0 & _).
      cbn in Hq'. rewrite Hq' in Hq0. injection Hq0 as <-. rewrite El, (wk_heap _ _ _ Hw) in Hp0 by lia. done. }
    exists s', r, ext. split_and!; try done. intros ->. exists dc, dt, da, k. split_and!; try done; try lia.
    + by apply is_side_app.
    + by apply is_side_app.
    + destruct (side_supported dc da); [apply HR|naive_solver].
  - destruct (HS s) as (dc & qc & dt & qt & Hdc & Hdt & Hqc & Hqt & _); [done..|]. rewrite (c_cx_default _ _ _ _ _ Hqc Hqt).
    destruct (weak_get _ _ _ i Hw Hi) as (t & dh & dw & q & p & Hsz & Hq & Ht & Hc & Hnm & Hok & Hp & Ha). rewrite Hqc in Hq. injection Hq as <-.
    destruct (cx_core s szs n0 i j qc qt dc dt (type_name (tq_type qc)) (lat_params (tq_lat qc)) p t dh dw Hw Hqc Hqt Hdc Hdt) as (s' & r & ext & k & da & E & Hw' & HT & HN & HL & HD & Hk & Hda & HR & _); try done.
    { rewrite type_name_inv. by f_equal. }
    { apply Hok. }
    { intros i' q' Hq' El. rewrite <-Hsz. apply (wk_share _ _ _ Hw i' i q' qc); try done. by eapply lookup_bound. }
    exists s', r, ext. split_and!; try done. intros ->. exists dc, dt, da, k. split_and!; try done; try lia.
    + by apply is_side_app.
    + by apply is_side_app.
    + destruct (side_supported dc da); [apply HR|naive_solver].
Qed.
Lemma events_weak l s szs n0 : weak s szs n0 -> Forall event_ok l ->
  exists ext, weak (run_events l s).1 (szs ++ ext) n0 /\ s_tname (run_events l s).1 = s_tname s.
Proof.
  revert s szs. induction l as [|e l IH]; intros s szs Hw Hl.
  - exists []. by rewrite app_nil_r.
  - apply Forall_cons in Hl as [He Hl]. cbn [run_events].
    assert (exists ext, weak (run_event e s).1 (szs ++ ext) n0 /\ s_tname (run_event e s).1 = s_tname s) as (ext & Hw1 & HT).
    { destruct e as [i o|i j anc].
      - exists []. rewrite app_nil_r. split; [by apply weak_call|]. pose proof (run_call_book (i, o) s) as HB. unfold book in HB. by injection HB.
      - destruct (cx_event s szs n0 i j anc Hw He) as (s' & r & ext & E & Hw' & HT & _). exists ext. by rewrite E. }
    destruct (IH _ _ Hw1 Hl) as (ext' & Hw2 & HT2). exists (ext ++ ext'). rewrite app_assoc. cbn [fst]. split; [done|congruence].
Qed.

(** ** C15 *)
Lemma within_suf (name : string) (q : qubit) : within name q -> exists suf, suf ∈ q_sufs /\ q.1 = (name +:+ suf)%string.
Proof.
  unfold within, q_sufs. intros [H|[H|[H|H]]]; eexists; (split; [|exact H]); set_solver.
Qed.
Lemma within_apart t i j (q : qubit) : 0 <= i -> 0 <= j -> within (qname t i) q -> within (qname t j) q -> i = j.
Proof.
  intros Hi Hj (suf & Hs & E)%within_suf (suf' & Hs' & E')%within_suf. rewrite E in E'. by apply q_suf_inj in E' as [-> _].
Qed.
Lemma side_valid s szs n0 i d : weak s szs n0 -> is_side (s_tname s) szs i d -> valid_size (sd_h d) (sd_w d).
Proof. intros Hw (t & dh & dw & Hi & Hsz & ->). destruct (wk_q _ _ _ Hw i t dh dw Hi Hsz) as (q & _ & _ & _ & _ & [Hv _ _] & _). done. Qed.
Lemma sides_separate s szs n0 i j k dc dt da : weak s szs n0 -> is_side (s_tname s) szs i dc -> is_side (s_tname s) szs j dt -> is_side (s_tname s) szs k da ->
  i <> j -> i <> k -> j <> k -> separate [dc; dt; da].
Proof.
  intros Hw Hc Ht Ha Hij Hik Hjk. split.
  - intros a Hin. assert (exists m, is_side (s_tname s) szs m a) as [m Hm].
    { rewrite !elem_of_cons in Hin. destruct Hin as [->|[->|[->|Hin]]]; [eauto..|by apply elem_of_nil in Hin]. }
    split; [by eapply side_valid|]. destruct Hm as (? & ? & ? & _ & _ & ->). cbn. intros (suf & Hs & E)%within_suf. cbn in E.
    eapply cx_q_ne; [|exact Hs|exact E]. apply cx_names_in. tauto.
  - assert (HI : forall x a, [dc; dt; da] !! x = Some a -> is_side (s_tname s) szs ([i; j; k] !!! x) a).
    { intros [|[|[|x]]] a; cbn; try done; by intros [= <-]. }
    intros x y a b q Hx Hy Hxy Ha' Hb'. pose proof (HI _ _ Hx) as (? & ? & ? & Hi1 & _ & ->). pose proof (HI _ _ Hy) as (? & ? & ? & Hi2 & _ & ->). cbn in Ha', Hb'.
    pose proof (within_apart _ _ _ _ Hi1 Hi2 Ha' Hb') as E.
    apply lookup_lt_Some in Hx. apply lookup_lt_Some in Hy. cbn in Hx, Hy.
    destruct x as [|[|[|x]]], y as [|[|[|y]]]; try lia; cbn in E; lia.
Qed.

(** Operators of a validly sized qubit of the register, on the physical qubits. *)
Definition onq (name : string) (i : Z) (P : pauli Z) : pauli qubit := pmap (dq (qname name i)) P.
Notation rcode r := (code_of (rq_t r)).
Definition LZ (name : string) (i : Z) (r : request) : pauli qubit := onq name i (log_z (rcode r) (rq_h r) (rq_w r)).
Definition LX (name : string) (i : Z) (r : request) : pauli qubit := onq name i (log_x (rcode r) (rq_h r) (rq_w r)).

(** Every qubit the register was created with keeps its type and size. *)
Lemma data_side name rs ext i d (r : request) : is_side name (request_sizes rs ++ ext) i d -> rs !! Z.to_nat i = Some r ->
  d = Side (rcode r) (qname name i) (rq_h r) (rq_w r).
Proof.
  intros (t & dh & dw & Hi & Hsz & ->) Hr. unfold request_sizes in Hsz. rewrite lookup_app_l in Hsz.
  - rewrite list_lookup_fmap, Hr in Hsz. cbn in Hsz. by injection Hsz as <- <- <-.
  - rewrite fmap_length. by apply lookup_lt_Some in Hr.
Qed.
Lemma data_only_onq name i P : data_only (qname name i) (onq name i P).
Proof. intros q Hq. split; unfold onq, pmap; cbn [px pz]; apply mem_false; intros (z & -> & _)%elem_of_map; by apply (Hq z). Qed.

(** What one cx does in any session, in one statement. *)
Lemma cx_session (R : Amp) rs name s0 l i j anc (ri rj : request) :
  heap_fresh s0 -> NoDup (rq_params <$> rs) -> Forall (request_ok s0) rs -> Forall event_ok (l ++ [ECx i j anc]) ->
  0 <= i -> 0 <= j -> i <> j -> rs !! Z.to_nat i = Some ri -> rs !! Z.to_nat j = Some rj ->
  exists s1, new_treg name (rq_type <$> rs) (rq_params <$> rs) s0 = (s1, Ok tt) /\
  forall s3, run_event (ECx i j anc) (run_events l s1).1 = (s3, Ok tt) ->
  exists k da, Z.of_nat (length rs) <= k /\ sd_n da = qname name k /\ emitted (run_events l s1).1 s3
      (cx_code (Side (rcode ri) (qname name i) (rq_h ri) (rq_w ri)) (Side (rcode rj) (qname name j) (rq_h rj) (rq_w rj)) da) /\
    separate [Side (rcode ri) (qname name i) (rq_h ri) (rq_w ri); Side (rcode rj) (qname name j) (rq_h rj) (rq_w rj); da].
Proof.
  intros Hhf Hnd Hok Hev Hi Hj Hij Hri Hrj.
  destruct (new_treg_weak rs name s0 Hhf Hnd Hok) as (s1 & E & Hr & Hw & HT & _). exists s1. split; [done|].
  apply Forall_app in Hev as [Hl He]. apply Forall_cons in He as [He _].
  destruct (events_weak l s1 _ _ Hw Hl) as (ext & Hw2 & HT2). intros s3 E3.
  destruct (cx_event _ _ _ i j anc Hw2 He) as (s' & r & ext' & E' & Hw3 & HT3 & _ & HR). rewrite E3 in E'. injection E' as <- <-.
  destruct (HR eq_refl) as (dc & dt & da & k & Hdc & Hdt & Hda & Hk & Hib & Hjb & HI). rewrite HT2, HT in Hdc, Hdt, Hda.
  rewrite <-app_assoc in Hdc, Hdt, Hda.
  pose proof (data_side _ _ _ _ _ _ Hdc Hri) as ->. pose proof (data_side _ _ _ _ _ _ Hdt Hrj) as ->.
  exists k, da. split_and!; [done|by destruct Hda as (? & ? & ? & _ & _ & ->)|exact HI|].
  apply lookup_lt_Some in Hri, Hrj.
  eapply (sides_separate s3); [exact Hw3|..]; rewrite ?HT3, ?HT2, ?HT, <-?app_assoc; try done; lia.
Qed.

(** The truth table, for every register, every session before the call (any calls with any
    arguments, other CNOTs included, failing or not), every default or explicit ancilla,
    every measurement outcome.  Logical values are eigenvalues of the logical operators. *)
Theorem C15_truth_table (R : Amp) rs name s0 l i j anc (ri rj : request) :
  heap_fresh s0 -> NoDup (rq_params <$> rs) -> Forall (request_ok s0) rs -> Forall event_ok (l ++ [ECx i j anc]) ->
  0 <= i -> 0 <= j -> i <> j -> rs !! Z.to_nat i = Some ri -> rs !! Z.to_nat j = Some rj ->
  exists s1, new_treg name (rq_type <$> rs) (rq_params <$> rs) s0 = (s1, Ok tt) /\
  forall s3, run_event (ECx i j anc) (run_events l s1).1 = (s3, Ok tt) ->
  exists is, emitted (run_events l s1).1 s3 is /\ forall k0 k1 : config R, exec is k0 k1 ->
    forall bc bt, stab k0.2 (LZ name i ri) bc -> stab k0.2 (LZ name j rj) bt ->
      stab k1.2 (LZ name i ri) bc /\ stab k1.2 (LZ name j rj) (xorb bt bc).
Proof.
  intros Hhf Hnd Hok Hev Hi Hj Hij Hri Hrj.
  destruct (cx_session R rs name s0 l i j anc ri rj) as (s1 & E & H); try done. exists s1. split; [done|].
  intros s3 E3. destruct (H s3 E3) as (k & da & Hk & Hn & Hem & Hsep). eexists. split; [exact Hem|]. intros k0 k1 He bc bt Hc Ht.
  destruct (cx_spec _ _ _ Hsep k0 k1 He) as [HT _]. by apply HT.
Qed.
Print Assumptions C15_truth_table.

(** The call leaves every plaquette operator of every qubit of the register, every logical
    operator of the other qubits, and the target's X value as they were. *)
Theorem C15_frame (R : Amp) rs name s0 l i j anc (ri rj : request) :
  heap_fresh s0 -> NoDup (rq_params <$> rs) -> Forall (request_ok s0) rs -> Forall event_ok (l ++ [ECx i j anc]) ->
  0 <= i -> 0 <= j -> i <> j -> rs !! Z.to_nat i = Some ri -> rs !! Z.to_nat j = Some rj ->
  exists s1, new_treg name (rq_type <$> rs) (rq_params <$> rs) s0 = (s1, Ok tt) /\
  forall s3, run_event (ECx i j anc) (run_events l s1).1 = (s3, Ok tt) ->
  exists is, emitted (run_events l s1).1 s3 is /\ forall k0 k1 : config R, exec is k0 k1 ->
    (forall v, stab k0.2 (LX name j rj) v -> stab k1.2 (LX name j rj) v) /\
    forall m rm, 0 <= m -> rs !! Z.to_nat m = Some rm ->
      (forall P v, P ∈ stabilizers (rcode rm) (rq_h rm) (rq_w rm) -> stab k0.2 (onq name m P) v -> stab k1.2 (onq name m P) v) /\
      (m <> i -> m <> j -> forall P v, stab k0.2 (onq name m P) v -> stab k1.2 (onq name m P) v).
Proof.
  intros Hhf Hnd Hok Hev Hi Hj Hij Hri Hrj.
  destruct (cx_session R rs name s0 l i j anc ri rj) as (s1 & E & H); try done. exists s1. split; [done|].
  intros s3 E3. destruct (H s3 E3) as (k & da & Hk & Hn & Hem & Hsep). eexists. split; [exact Hem|]. intros k0 k1 He.
  destruct (cx_spec _ _ _ Hsep k0 k1 He) as (_ & HF & _). cbn [sd_n] in HF. rewrite Hn in HF.
  assert (HV : forall m rm, rs !! Z.to_nat m = Some rm -> valid_size (rq_h rm) (rq_w rm)).
  { intros m rm Hm. rewrite list.Forall_forall in Hok. destruct (Hok rm) as (_ & Hv & _); [by eapply elem_of_list_lookup_2|done]. }
  assert (HD : forall m rm P, 0 <= m -> rs !! Z.to_nat m = Some rm -> clear_of (qname name k) (onq name m P) /\ off (ancq (qname name i)) (onq name m P) /\ off ro (onq name m P)).
  { intros m rm P Hm Hrm. apply lookup_lt_Some in Hrm. split_and!.
    - eapply data_clear; [apply data_only_onq|]. intros q H1 H2. pose proof (within_apart name m k q Hm ltac:(lia) H1 H2). lia.
    - apply data_only_onq. intros z Ez. unfold ancq, dq in Ez. injection Ez as Ez _. apply q_suf_inj in Ez as [_ Ez]; [done|lia|lia|unfold q_sufs; set_solver..].
    - apply data_only_onq. intros z Ez. unfold ro, dq in Ez. injection Ez as Ez _. eapply (cx_q_ne name m "_data"); [|unfold q_sufs; set_solver|exact Ez]. apply cx_names_in. tauto. }
  assert (HC : forall m m' P P', 0 <= m -> 0 <= m' -> m <> m' -> commute (onq name m P) (onq name m' P')).
  { intros m m' P P' Hm Hm' Hne. apply anti_disjoint. intros q. destruct (decide (q.1 = (qname name m +:+ "_data")%string)) as [Eq|Hq].
    - right. apply data_only_onq. intros z ->. apply q_suf_inj in Eq as [Eq _]; [by symmetry in Eq|lia|lia|unfold q_sufs; set_solver..].
    - left. apply data_only_onq. intros z ->. done. }
  change (sLZ _) with (LZ name i ri) in HF. change (sLX _) with (LX name j rj) in HF.
  split.
  - intros v Hv. destruct (HD j rj (log_x (rcode rj) (rq_h rj) (rq_w rj))) as (D1 & D2 & D3); [done..|].
    apply HF; try done; [by apply HC|apply anti_self].
  - intros m rm Hm Hrm. split.
    + intros P v HP Hv. destruct (HD m rm P) as (D1 & D2 & D3); [done..|]. apply HF; try done.
      * destruct (decide (m = i)) as [->|Hne]; [|by apply HC]. rewrite Hri in Hrm. injection Hrm as <-.
        unfold commute, LZ, onq. rewrite anti_pmap by apply _. by apply (logical_commute (rcode ri) _ _ P (HV _ _ Hri)).
      * destruct (decide (m = j)) as [->|Hne]; [|by apply HC]. rewrite Hrj in Hrm. injection Hrm as <-.
        unfold commute, LX, onq. rewrite anti_pmap by apply _. by apply (logical_commute (rcode rj) _ _ P (HV _ _ Hrj)).
    + intros Hmi Hmj P v Hv. destruct (HD m rm P) as (D1 & D2 & D3); [done..|]. apply HF; try done; by apply HC.
Qed.
Print Assumptions C15_frame.

(** A nonzero state is not an eigenstate of two anticommuting operators. *)
Lemma stab_anti {R : Amp} (ψ : state R) P Q u v : anti P Q = true -> stab ψ P u -> stab ψ Q v -> (exists b, ψ b <> a0) -> False.
Proof.
  intros Ha HP HQ [b Hb]. pose proof (stab_mul _ _ _ _ _ HP HQ) as H1. pose proof (stab_mul _ _ _ _ _ HQ HP) as H2.
  assert (pmul Q P = pmul P Q) as E by apply pmul_comm. rewrite E in H2.
  pose proof (stab_unique _ _ _ _ H1 H2 (ex_intro _ b Hb)) as H. unfold anti in Ha. rewrite (dot_comm (pz P)) in Ha.
  destruct u, v, (dot (px P) (pz Q)), (dot (px Q) (pz P)); done.
Qed.

Lemma cx_proper c t a : separate [c; t; a] -> forall i, i ∈ cx_code c t a -> proper i.
Proof.
  intros Hsep.
  assert (HR : forall d, d ∈ [c; t; a] -> (forall i, i ∈ rd_z (sd_c d) (sd_n d) (sd_w d) ("m3"%string, 1) -> proper i) /\
    (forall i, i ∈ rs_x (sd_c d) (sd_n d) (num_data (sd_h d) (sd_w d)) -> proper i) /\ ancq (sd_n d) <> ro /\ (forall z, ro <> dq (sd_n d) z)).
  { intros d Hd. destruct (proj1 Hsep d Hd) as [Hv Hro]. split_and!.
    - intros i Hi. destruct (op_touch (sd_c d) (sd_n d) (sd_h d) (sd_w d) (Cnt 0 0 0) (OReadZ (Some ("m3"%string, 1))) i Hv) as [? _]; done.
    - intros i Hi. destruct (op_touch (sd_c d) (sd_n d) (sd_h d) (sd_w d) (Cnt 0 0 0) OResetX i Hv) as [? _]; done.
    - intros E. apply Hro. rewrite <-E. apply within_anc.
    - intros z E. apply Hro. rewrite E. apply within_dq. }
  destruct (HR c) as (_ & _ & Cc & _); [by left|]. destruct (HR a) as (Ra & Sa & Ca & Da); [right; right; by left|]. destruct (HR t) as (_ & _ & _ & Dt); [right; by left|].
  assert (RC : forall i, i ∈ into_z (sd_c c) (sd_n c) (sd_w c) -> proper i).
  { intros i Hi. destruct (HR c) as (Rc & _); [by left|]. apply Rc. unfold rd_z. apply elem_of_app. by left. }
  assert (RA : forall i, i ∈ into_z (sd_c a) (sd_n a) (sd_w a) -> proper i).
  { intros i Hi. apply Ra. unfold rd_z. apply elem_of_app. by left. }
  assert (HX : forall (f : Z -> instr) (l : list Z) i, (forall z, proper (f z)) -> i ∈ f <$> l -> proper i).
  { intros f l i Hf (z & -> & _)%elem_of_list_fmap. apply Hf. }
  assert (HG : forall d z, (forall z, ro <> dq (sd_n d) z) -> proper (cxgate (sd_c d) (sd_n d) ro z)).
  { intros d z Hd. unfold cxgate. destruct (sd_c d); [apply Hd|]. case_bool_decide; [apply Hd|done]. }
  assert (HI1 : forall d h z, proper (zifgate (sd_c d) (sd_n d) h 1 z)) by (intros d h z; unfold zifgate; destruct (sd_c d); [done|]; by case_bool_decide).
  assert (HI2 : forall d h z, proper (xifgate (sd_c d) (sd_n d) h 1 z)) by (intros d h z; unfold xifgate; destruct (sd_c d); [done|]; by case_bool_decide).
  intros i. unfold cx_code, cx_pre, cx_mid, cx_post. rewrite !elem_of_app.
  intros Hi. repeat match goal with H : _ \/ _ |- _ => destruct H as [H|H] end; try (by apply Sa); try (by apply RC); try (by apply RA); try (by apply Ra);
    try (by eapply HX; [|exact Hi]; intros; apply HG); try (by eapply HX; [|exact Hi]; intros; apply HI1); try (by eapply HX; [|exact Hi]; intros; apply HI2);
    repeat (apply elem_of_cons in Hi as [->|Hi]; [done|]); by apply elem_of_nil in Hi.
Qed.

(** cx is not coherent: whatever the input, every execution ends with the control in a
    definite Z_L state, so it never produces an eigenstate of X_L (control) x X_L (target),
    as a CNOT does on control |+>, target |0>. *)
Theorem C15_not_coherent (R : Amp) rs name s0 l i j anc (ri rj : request) :
  heap_fresh s0 -> NoDup (rq_params <$> rs) -> Forall (request_ok s0) rs -> Forall event_ok (l ++ [ECx i j anc]) ->
  0 <= i -> 0 <= j -> i <> j -> rs !! Z.to_nat i = Some ri -> rs !! Z.to_nat j = Some rj ->
  exists s1, new_treg name (rq_type <$> rs) (rq_params <$> rs) s0 = (s1, Ok tt) /\
  forall s3, run_event (ECx i j anc) (run_events l s1).1 = (s3, Ok tt) ->
  exists is, emitted (run_events l s1).1 s3 is /\
    (forall k0 : config ZAmp, possible k0 -> exists k1, exec is k0 k1 /\ possible k1) /\
    forall k0 k1 : config R, exec is k0 k1 -> possible k1 ->
      (exists v, stab k1.2 (LZ name i ri) v) /\ ~ exists v, stab k1.2 (pmul (LX name i ri) (LX name j rj)) v.
Proof.
  intros Hhf Hnd Hok Hev Hi Hj Hij Hri Hrj.
  destruct (cx_session R rs name s0 l i j anc ri rj) as (s1 & E & H); try done. exists s1. split; [done|].
  intros s3 E3. destruct (H s3 E3) as (k & da & Hk & Hn & Hem & Hsep). eexists. split; [exact Hem|]. split.
  - intros k0 Hp. apply exec_possible_Z; [|done]. by apply cx_proper.
  - intros k0 k1 He Hp. destruct (cx_spec _ _ _ Hsep k0 k1 He) as (_ & _ & v & Hv). change (sLZ _) with (LZ name i ri) in Hv.
    split; [by exists v|]. intros [w Hw]. eapply (stab_anti k1.2); [|exact Hv|exact Hw|exact Hp].
    assert (Hvi : valid_size (rq_h ri) (rq_w ri)).
    { rewrite list.Forall_forall in Hok. destruct (Hok ri) as (_ & Hv' & _); [by eapply elem_of_list_lookup_2|done]. }
    rewrite anti_pmul_r. assert (anti (LZ name i ri) (LX name j rj) = false) as ->.
    { apply anti_disjoint. intros q. destruct (decide (q.1 = (qname name i +:+ "_data")%string)) as [Eq|Hq].
      - right. apply data_only_onq. intros z ->. apply q_suf_inj in Eq as [Eq _]; [by symmetry in Eq|lia|lia|unfold q_sufs; set_solver..].
      - left. apply data_only_onq. intros z ->. done. }
    rewrite xorb_false_r. unfold LZ, LX, onq. rewrite anti_pmap by apply _. rewrite anti_comm. by apply logical_anticommute.
Qed.
Print Assumptions C15_not_coherent.

(** ** C17 *)
(** A register name created for qubit [i] in a session is in use afterwards. *)
Lemma created_0 tname seen l i k : 0 < uses k i (seen ++ l) -> uses k i seen = 0 ->
  (tname +:+ "_" +:+ py_str i +:+ k +:+ py_str 0)%string ∈ all_created tname seen l.
Proof.
  revert seen. induction l as [|[i' o] l IH]; intros seen H1 H0.
  - rewrite app_nil_r in H1. lia.
  - cbn [all_created]. apply elem_of_app. pose proof (uses_app k i seen (i', o)) as HU. cbn [fst snd] in HU.
    destruct (bool_decide_reflect (i' = i /\ kind o = Some k)) as [[-> Hk]|Hn].
    + left. unfold created. cbn [fst snd]. rewrite Hk. rewrite H0. by left.
    + right. apply IH; [by rewrite <-app_assoc|]. lia.
Qed.
(** With the default ancilla: after any session on a register, if qubit [i] has already
    created a register of some kind (say by a round of stabilize), then after cx(i, j), for
    any j, its next call of that kind raises CircuitError. *)
Theorem C17_default_ancilla_clash rs name s0 l i j o k :
  heap_fresh s0 -> NoDup (rq_params <$> rs) -> Forall (request_ok s0) rs ->
  (forall e, e ∈ l -> 0 <= e.1 < Z.of_nat (length rs)) -> 0 <= i < Z.of_nat (length rs) -> 0 <= j < Z.of_nat (length rs) ->
  kind o = Some k -> 0 < uses k i l ->
  exists s1, new_treg name (rq_type <$> rs) (rq_params <$> rs) s0 = (s1, Ok tt) /\
    (run_call (i, o) (run_event (ECx i j None) (session l s1).1).1).2 = Err CircuitError.
Proof.
  intros Hhf Hnd Hok Hl Hi Hj Hk Hu.
  destruct (new_treg_weak rs name s0 Hhf Hnd Hok) as (s1 & E & Hr & Hw & HT & _ & HD). exists s1. split; [done|].
  pose proof (rd_n _ _ _ Hr) as Hn. unfold request_sizes in Hn. rewrite fmap_length in Hn.
  destruct (session_ready l s1 _ [] Hr) as (R1 & R2 & _). { intros e He. rewrite Hn. by apply Hl. }
  assert (HS : forall l s, weak s (request_sizes rs) (Z.of_nat (length rs)) -> weak (session l s).1 (request_sizes rs) (Z.of_nat (length rs)) /\ book (session l s).1 = book s).
  { clear. induction l as [|e l IH]; intros s Hw; [done|]. cbn [session fst]. pose proof (run_call_book e s) as HB.
    destruct (IH _ (weak_call _ _ _ e Hw)) as [H1 H2]. split; [done|]. by rewrite H2. }
  destruct (HS l s1 Hw) as [Hw2 HB]. clear HS. set (s2 := (session l s1).1) in *.
  assert (s_tname s2 = name /\ s_n s2 = Z.of_nat (length rs) /\ dict_get "ancilla"%string (s_tq s2) = None) as (HT2 & HN2 & HD2).
  { unfold book in HB. injection HB as -> -> ->. done. }
  clearbody s2. cbn [run_event].
  destruct (weak_get _ _ _ i Hw2) as (t & dh & dw & q & p & Hsz & Hq & Ht & Hc & Hnm & Hqok & Hp & Ha); [lia|].
  destruct (is_side_ex s2 _ _ i Hw2) as (dc & qc & Hdc & Hqc & _); [lia|]. rewrite Hq in Hqc. injection Hqc as <-.
  destruct (is_side_ex s2 _ _ j Hw2) as (dt & qt & Hdt & Hqt & _); [lia|].
  rewrite (c_cx_default _ _ _ _ _ Hq Hqt).
  destruct (cx_core s2 _ _ i j q qt dc dt (type_name (tq_type q)) (lat_params (tq_lat q)) p t dh dw Hw2 Hq Hqt Hdc Hdt) as (s' & r & ext & k' & da & E' & Hw' & HT' & HN' & HL' & _ & _ & _ & _ & HC & _); try done.
  { rewrite type_name_inv. by f_equal. }
  { apply Hqok. }
  { intros i' q' Hq' El. rewrite <-Hsz. apply (wk_share _ _ _ Hw2 i' i q' q); try done; [by eapply lookup_bound|lia]. }
  rewrite E'. cbn [fst]. specialize (HC HD2 (lat_ok_nonempty _ _ _ _ _ Hqok Hp) q eq_refl).
  unfold run_call. cbn [fst snd]. erewrite mbind_ok by (unfold treg_get; rewrite HL' by lia; by rewrite Hq).
  destruct (wk_q _ _ _ Hw' i t dh dw) as (q' & Hq' & _ & _ & _ & Hok' & _); [lia|by apply lookup_app_l_Some|].
  rewrite HL', Hq in Hq' by lia. injection Hq' as <-.
  destruct (run_op_clash s' q dh dw _ o Hok' HC) as (s4 & E4 & _); [|by rewrite E4].
  intros Hf. assert (HX : (name +:+ "_" +:+ py_str i +:+ k +:+ py_str 0)%string ∈ names s').
  { apply HN'. rewrite R2, HT. apply elem_of_app. right. apply created_0; [done|]. done. }
  pose proof (op_reg_created name i dh dw [] o) as HO. unfold created in HO. cbn [fst snd] in HO. rewrite Hk in HO.
  change (cnt_of i []) with (Cnt (-1) (-1) (-1)) in HO. change (uses k i []) with 0 in HO.
  assert (HI : (name +:+ "_" +:+ py_str i +:+ k +:+ py_str 0)%string ∈ r_name <$> op_reg (lat_name (tq_lat q)) dh dw (Cnt (-1) (-1) (-1)) o).
  { rewrite Hnm, HT2, HO. by left. }
  apply elem_of_list_fmap in HI as (r' & Er & Hr'). apply (Hf r' Hr'). by rewrite <-Er.
Qed.
Print Assumptions C17_default_ancilla_clash.

(** With an ancilla requested explicitly (so that it owns its params dictionary), cx leaves
    everything else usable: whatever calls and logical CNOTs are made, in any order, no two
    registers share a name, the k-th round, readout and lattice readout of each qubit writes
    to the register of that number, and no call fails except those which the code does not
    support on a width-1 XZZX lattice. *)
Definition explicit_in (n : Z) (e : event) : Prop :=
  match e with
  | ECall i _ => 0 <= i < n
  | ECx i j a => 0 <= i < n /\ 0 <= j < n /\ a <> None end.
Fixpoint calls (l : list event) : list (Z * op) :=
  match l with [] => [] | ECall i o :: l' => (i, o) :: calls l' | _ :: l' => calls l' end.
(** A size requested as an ancilla by some cx of the list. *)
Definition anc_requested (l : list event) (t : qtype) (dh dw : Z) : Prop :=
  exists i j c p, ECx i j (Some (c, p)) ∈ l /\ str2qtype c = Some t /\ asked t p = Some (dh, dw).
(** What the result of an event may be. *)
Definition usable (L : list event) (szs : list (qtype * (Z * Z))) (e : event) (r : res unit) : Prop :=
  r = Ok tt \/ (r = Err ValueError \/ r = Err CircuitError) /\
  match e with
  | ECall i o => exists t dh dw, szs !! Z.to_nat i = Some (t, (dh, dw)) /\ unsupported t dh dw o
  | ECx i j _ => (exists dh, szs !! Z.to_nat i = Some (TXZZX, (dh, 1))) \/ exists dh, anc_requested L TXZZX dh 1
  end.

Lemma unsupported_side name szs i k dc da (Q : qtype -> Z -> Z -> Prop) :
  is_side name szs i dc -> is_side name szs k da -> (forall t dh dw, (t, (dh, dw)) ∈ szs -> valid_size dh dw) ->
  side_supported dc da = false ->
  (exists dh, szs !! Z.to_nat i = Some (TXZZX, (dh, 1))) \/ (exists dh, szs !! Z.to_nat k = Some (TXZZX, (dh, 1))).
Proof.
  intros (t & dh & dw & _ & Hi & ->) (t' & dh' & dw' & _ & Hk & ->) Hv. unfold side_supported. cbn [sd_c sd_w sd_h].
  pose proof (Hv _ _ _ (elem_of_list_lookup_2 _ _ _ Hi)) as V1. pose proof (Hv _ _ _ (elem_of_list_lookup_2 _ _ _ Hk)) as V2.
  unfold valid_size in V1, V2.
  assert (A1 : dw = 1 \/ 3 <= dw) by (apply odd_size_1_3; naive_solver). assert (A2 : dw' = 1 \/ 3 <= dw') by (apply odd_size_1_3; naive_solver).
  assert (A3 : 0 < dh') by naive_solver.
  intros HF. apply andb_false_iff in HF as [HF|HF]; [apply andb_false_iff in HF as [HF|HF]|].
  - left. destruct t; cbn in HF; try done. apply bool_decide_eq_false in HF. exists dh. rewrite Hi. repeat f_equal. lia.
  - right. destruct t'; cbn in HF; try done. apply bool_decide_eq_false in HF. exists dh'. rewrite Hk. repeat f_equal. lia.
  - right. destruct t'; cbn in HF; try done. apply bool_decide_eq_false in HF. exists dh'. rewrite Hk. repeat f_equal. unfold num_data in HF. nia.
Qed.

Lemma explicit_session L rs n l s szs seen :
  ready s szs seen -> weak s szs n -> n = Z.of_nat (length rs) -> (forall k, (k < length rs)%nat -> szs !! k = rs !! k) ->
  (forall k t dh dw, (length rs <= k)%nat -> szs !! k = Some (t, (dh, dw)) -> anc_requested L t dh dw) ->
  (forall t dh dw, (t, (dh, dw)) ∈ szs -> valid_size dh dw) ->
  Forall event_ok l -> Forall (explicit_in n) l -> l ⊆ L ->
  NoDup (names (run_events l s).1) /\ (forall x, x ∈ names s -> x ∈ names (run_events l s).1) /\
  (forall x, x ∈ all_created (s_tname s) seen (calls l) -> x ∈ names (run_events l s).1) /\
  Forall2 (usable L rs) l (run_events l s).2.
Proof.
  intros Hr Hw Hn. revert s szs seen Hr Hw. induction l as [|e l IH]; intros s szs seen Hr Hw Hrs Hanc Hval Hok Hin Hsub.
  - cbn. split_and!; [apply (rd_nodup _ _ _ Hr)|done|set_solver|constructor].
  - apply Forall_cons in Hok as [He Hok]. apply Forall_cons in Hin as [Hi Hin].
    assert (Hl : l ⊆ L) by set_solver. assert (HeL : e ∈ L) by set_solver.
    pose proof (wk_n0 _ _ _ Hw) as Hn0.
    destruct e as [i o|i j [[c p]|]]; cbn [explicit_in] in Hi; [| |by destruct Hi as (_ & _ & [])].
    + destruct (call_ready s szs seen i o Hr) as (s' & r & E & Hr' & HN & Ht & HNn & _ & _ & HR); [lia|].
      pose proof (weak_call _ _ _ (i, o) Hw) as Hw'. rewrite E in Hw'. cbn [fst] in Hw'.
      cbn [run_events run_event calls all_created]. rewrite E. cbn [fst snd].
      destruct (IH s' szs (seen ++ [(i, o)])) as (I1 & I2 & I3 & I4); try done.
      split_and!; [done| | |].
      * intros x Hx. apply I2. rewrite HN. apply elem_of_app. by left.
      * intros x [Hx|Hx]%elem_of_app; [apply I2; rewrite HN; apply elem_of_app; by right|]. apply I3. by rewrite Ht.
      * constructor; [|done]. destruct HR as [->|(t & dh & dw & Hs & Hu & HR)]; [by left|right]. split; [done|].
        exists t, dh, dw. split; [|done]. rewrite <-Hrs by lia. done.
    + destruct Hi as (Hi & Hj & _). cbn [run_events calls].
      destruct He as (t & dh & dw & Hc & Ha & Hv). pose proof (weak_dict s szs n p Hw) as Hw1.
      pose proof (ready_dict s szs seen p (wk_heap _ _ _ Hw) Hr) as Hr1.
      destruct (is_side_ex (with_dict s p) szs n i Hw1) as (dc & qc & Hdc & Hqc & _); [cbn; lia|].
      destruct (is_side_ex (with_dict s p) szs n j Hw1) as (dt & qt & Hdt & Hqt & _); [cbn; lia|].
      assert (Hfr : forall i' q', treg_lookup (s_tq (with_dict s p)) i' = Ok q' -> lat_params (tq_lat q') <> s_next s).
      { intros i' q' Hq' El. destruct (weak_get _ _ _ i' Hw (lookup_bound _ _ _ _ _ Hw Hq')) as (? & ? & ? & q0 & p0 & _ & Hq0 & _ & _ & _ & _ & Hp0 & _).
        cbn in Hq'. rewrite Hq' in Hq0. injection Hq0 as <-. rewrite El, (wk_heap _ _ _ Hw) in Hp0 by lia. done. }
      assert (Hlk : s_heap (with_dict s p) !! s_next s = Some p) by (cbn; apply lookup_insert).
      destruct (cx_core (with_dict s p) szs n i j qc qt dc dt c (s_next s) p t dh dw Hw1 Hqc Hqt Hdc Hdt Hc Hlk Ha Hv) as (s' & r & ext & k & da & E & Hw' & HT & HN & HL & HD & Hk & Hda & HR & _ & _ & s1 & EA & HP & HA1 & HA2).
      { intros i' q' Hq' El. by destruct (Hfr i' q' Hq'). }
      assert (EE : run_event (ECx i j (Some (c, p))) s = (s', r)).
      { cbn [run_event]. erewrite mbind_ok by reflexivity. fold (with_dict s p). by rewrite (c_cx_explicit _ _ _ _ _ _ _ Hqc Hqt). }
      rewrite EE. cbn [fst snd].
      assert (HX : ready s' (szs ++ ext) seen /\ (ext = [] \/ ext = [(t, (dh, dw))])).
      { destruct (dict_get "ancilla"%string (s_tq (with_dict s p))) as [sb|] eqn:Ed.
        - destruct HA2 as [-> ->]; [done|]. split; [|by left]. rewrite app_nil_r. by eapply ready_cxpost.
        - destruct HA1 as [EA1 ->]; [done|]. split; [|by right].
          destruct (add_ready (with_dict s p) szs seen "ancilla" c t (s_next s) p dh dw Hr1 (wk_heap _ _ _ Hw1) Hc Hlk Ha Hv Hfr) as (s1' & EA' & Hr2 & _).
          rewrite EA1 in EA'. injection EA' as <-. by eapply ready_cxpost. }
      destruct HX as [Hr' Hext].
      assert (Hval' : forall t dh dw, (t, (dh, dw)) ∈ szs ++ ext -> valid_size dh dw).
      { intros t' dh' dw' [Hx|Hx]%elem_of_app; [by eapply Hval|]. destruct Hext as [->| ->]; [by apply elem_of_nil in Hx|].
        apply elem_of_list_singleton in Hx. by injection Hx as -> -> ->. }
      assert (Hlen : (length rs <= length szs)%nat) by (pose proof (wk_n _ _ _ Hw); lia).
      assert (Hanc' : forall k t dh dw, (length rs <= k)%nat -> (szs ++ ext) !! k = Some (t, (dh, dw)) -> anc_requested L t dh dw).
      { intros k' t' dh' dw' Hk' Hx. apply lookup_app_Some in Hx as [Hx|[Hlk' Hx]]; [by eapply Hanc|].
        destruct Hext as [->| ->]; [done|]. destruct (k' - length szs)%nat; [|done]. injection Hx as <- <- <-. by exists i, j, c, p. }
      assert (Hrs' : forall k, (k < length rs)%nat -> (szs ++ ext) !! k = rs !! k).
      { intros k' Hk'. rewrite lookup_app_l by lia. by apply Hrs. }
      destruct (IH s' (szs ++ ext) seen) as (I1 & I2 & I3 & I4); try done.
      change (s_tname (with_dict s p)) with (s_tname s) in HT. change (names (with_dict s p)) with (names s) in HN.
      split_and!; [done| | |].
      * intros x Hx. by apply I2, HN.
      * intros x Hx. apply I3. by rewrite HT.
      * constructor; [|done]. destruct (side_supported dc da) eqn:Es; [left; apply HR|right].
        split; [done|]. destruct (unsupported_side _ (szs ++ ext) i k dc da (fun _ _ _ => True) (is_side_app _ _ _ _ _ Hdc) Hda Hval' Es) as [(dh' & Hx)|(dh' & Hx)].
        -- left. exists dh'. by rewrite <-Hrs' by lia.
        -- right. exists dh'. eapply Hanc'; [|exact Hx]. lia.
Qed.
Theorem C17_explicit_ancilla rs name s0 l :
  heap_fresh s0 -> NoDup (rq_params <$> rs) -> Forall (request_ok s0) rs ->
  Forall event_ok l -> Forall (explicit_in (Z.of_nat (length rs))) l ->
  exists s1, new_treg name (rq_type <$> rs) (rq_params <$> rs) s0 = (s1, Ok tt) /\
    NoDup (names (run_events l s1).1) /\
    (forall x, x ∈ all_created name [] (calls l) -> x ∈ names (run_events l s1).1) /\
    Forall2 (usable l (request_sizes rs)) l (run_events l s1).2.
Proof.
  intros Hhf Hnd Hok Hev Hin.
  destruct (new_treg_weak rs name s0 Hhf Hnd Hok) as (s1 & E & Hr & Hw & HT & _ & HD). exists s1. split; [done|].
  assert (HLN : length (request_sizes rs) = length rs) by (unfold request_sizes; by rewrite fmap_length).
  destruct (explicit_session l (request_sizes rs) (Z.of_nat (length rs)) l s1 (request_sizes rs) [] Hr Hw) as (H1 & _ & H3 & H4); try done.
  - by rewrite HLN.
  - intros k t dh dw Hk Hx. apply lookup_lt_Some in Hx. lia.
  - intros t dh dw Hx. unfold request_sizes in Hx. apply elem_of_list_fmap in Hx as (r & Er & Hx). rewrite list.Forall_forall in Hok.
    destruct (Hok r Hx) as (_ & Hv & _). by injection Er as -> -> ->.
  - by rewrite HT in H3.
Qed.
Print Assumptions C17_explicit_ancilla.

(** ** C20 *)
(** A cx whose explicit ancilla type is unknown raises KeyError, and from then on no cx on
    that register ever succeeds, whatever is done in between. *)
Lemma poisoned e s : dict_get "ancilla"%string (s_tq s) = Some [] ->
  dict_get "ancilla"%string (s_tq (run_event e s).1) = Some [] /\
  match e with ECall _ _ => True | ECx _ _ _ => (run_event e s).2 = Err IndexError \/ (run_event e s).2 = Err ValueError end.
Proof.
  intros Hd. destruct e as [i o|i j anc].
  - split; [|done]. cbn [run_event]. pose proof (run_call_book (i, o) s) as HB. unfold book in HB. injection HB as _ _ HB. by rewrite HB.
  - assert (HS : forall s1 c l, s_tq s1 = s_tq s -> (c = None <-> l = None) ->
      c_cx (ByIdx i) (ByIdx j) c l s1 = (s1, Err IndexError) \/ c_cx (ByIdx i) (ByIdx j) c l s1 = (s1, Err ValueError)).
    { intros s1 c l Es Hcl. destruct (treg_lookup (s_tq s) i) as [qc|e] eqn:Ei.
      2:{ right. apply c_cx_bad; [left|done]. rewrite Es, Ei. by rewrite (treg_lookup_err _ _ _ Ei). }
      destruct (treg_lookup (s_tq s) j) as [qt|e] eqn:Ej.
      2:{ right. apply c_cx_bad; [right|done]. rewrite Es, Ej. by rewrite (treg_lookup_err _ _ _ Ej). }
      left. rewrite <-Es in Ei, Ej, Hd.
      assert (HH : forall c l, (anc_sub c l ;;; let* a := last_anc in cx_body qc qt a) s1 = (s1, Err IndexError)).
      { intros c' l'. erewrite mbind_ok by (unfold anc_sub; erewrite mbind_ok by done; rewrite Hd; done).
        erewrite mbind_err; [done|]. unfold last_anc. erewrite mbind_ok by done. rewrite Hd. done. }
      destruct c as [c|], l as [l|]; try (exfalso; by destruct Hcl as [H1 H2]; (discriminate (H1 eq_refl) || discriminate (H2 eq_refl))).
      - by rewrite (c_cx_explicit _ _ _ _ _ _ _ Ei Ej).
      - by rewrite (c_cx_default _ _ _ _ _ Ei Ej). }
    destruct anc as [[c p]|]; cbn [run_event].
    + erewrite mbind_ok by reflexivity. fold (with_dict s p). destruct (HS (with_dict s p) (Some c) (Some (s_next s))) as [-> | ->]; try done; cbn; tauto.
    + destruct (HS s None None) as [-> | ->]; try done; cbn; tauto.
Qed.
Lemma poisoned_all l s m : dict_get "ancilla"%string (s_tq s) = Some [] ->
  (exists i j anc, l !! m = Some (ECx i j anc)) ->
  (run_events l s).2 !! m = Some (Err IndexError) \/ (run_events l s).2 !! m = Some (Err ValueError).
Proof.
  revert s m. induction l as [|e l IH]; intros s m Hd (i & j & anc & Hm); [done|].
  destruct (poisoned e s Hd) as [Hd' He]. cbn [run_events snd]. destruct m as [|m].
  - cbn in Hm. injection Hm as ->. cbn [lookup list_lookup]. destruct He as [->| ->]; tauto.
  - apply IH; [done|]. by exists i, j, anc.
Qed.
(** The register may be any one built as in C16 and used by any calls before the bad cx. *)
Theorem C20_failed_cx_disables_cx rs name s0 l0 i j c p l m :
  heap_fresh s0 -> NoDup (rq_params <$> rs) -> Forall (request_ok s0) rs ->
  0 <= i < Z.of_nat (length rs) -> 0 <= j < Z.of_nat (length rs) -> ~ known_type c ->
  (exists i' j' anc, l !! m = Some (ECx i' j' anc)) ->
  exists s1, new_treg name (rq_type <$> rs) (rq_params <$> rs) s0 = (s1, Ok tt) /\
  let bad := run_event (ECx i j (Some (c, p))) (session l0 s1).1 in
  bad.2 = Err KeyError /\
  ((run_events l bad.1).2 !! m = Some (Err IndexError) \/ (run_events l bad.1).2 !! m = Some (Err ValueError)).
Proof.
  intros Hhf Hnd Hok Hi Hj Hc Hm. apply known_type_spec in Hc.
  destruct (new_treg_weak rs name s0 Hhf Hnd Hok) as (s1 & E & Hr & Hw & HT & _ & HD). exists s1. split; [done|].
  assert (HS : forall l s, weak s (request_sizes rs) (Z.of_nat (length rs)) -> weak (session l s).1 (request_sizes rs) (Z.of_nat (length rs)) /\ book (session l s).1 = book s).
  { clear. induction l as [|e l IH]; intros s Hw; [done|]. cbn [session fst]. pose proof (run_call_book e s) as HB.
    destruct (IH _ (weak_call _ _ _ e Hw)) as [H1 H2]. split; [done|]. by rewrite H2. }
  pose proof (rd_n _ _ _ Hr) as Hn. unfold request_sizes in Hn. rewrite fmap_length in Hn.
  destruct (HS l0 s1 Hw) as [Hw2 HB]. set (s := (session l0 s1).1) in *.
  assert (s_n s = Z.of_nat (length rs) /\ dict_get "ancilla"%string (s_tq s) = None) as (HN2 & Hd).
  { unfold book in HB. injection HB as _ -> ->. done. }
  clearbody s.
  destruct (is_side_ex s _ _ i Hw2) as (dc & qc & Hdc & Hqc & _); [lia|].
  destruct (is_side_ex s _ _ j Hw2) as (dt & qt & Hdt & Hqt & _); [lia|].
  assert (HE : exists s1, run_event (ECx i j (Some (c, p))) s = (s1, Err KeyError) /\ dict_get "ancilla"%string (s_tq s1) = Some []).
  { cbn [run_event]. erewrite mbind_ok by reflexivity. fold (with_dict s p). rewrite (c_cx_explicit i j c (s_next s) (with_dict s p) qc qt Hqc Hqt).
    unfold anc_sub, mbind', get_st. change (s_tq (with_dict s p)) with (s_tq s). rewrite Hd.
    unfold add_tqubit, mbind', get_st. cbn. rewrite Hd, Hc. cbn. eexists. split; [reflexivity|]. cbn.
    rewrite dict_get_set. by rewrite bool_decide_eq_true_2. }
  destruct HE as (s2 & -> & Hd1). cbn [fst snd]. split; [done|]. by apply poisoned_all.
Qed.
Print Assumptions C20_failed_cx_disables_cx.

(** ** The hypotheses are met by the registers of [C16_ex] *)
Definition ex_reg : st := (new_treg "treg" (rq_type <$> ex_rs) (rq_params <$> ex_rs) ex_heap).1.
Example C15_ex :
  Forall event_ok ([ECall 0 OStab; ECall 1 OResetX] ++ [ECx 0 1 None]) /\
  (run_event (ECx 0 1 None) (run_events [ECall 0 OStab; ECall 1 OResetX] ex_reg).1).2 = Ok tt /\
  (run_event (ECx 0 2 (Some ("Repetition"%string, empty_params))) ex_reg).2 = Ok tt.
Proof. split_and!; [repeat constructor|vm_compute; reflexivity..]. Qed.
Example C17_ex :
  (run_events [ECall 0 OStab; ECall 0 OStab] ex_reg).2 = [Ok tt; Ok tt] /\
  (run_events [ECall 0 OStab; ECx 0 1 None; ECall 0 OStab] ex_reg).2 = [Ok tt; Ok tt; Err CircuitError] /\
  (run_events [ECall 0 OStab; ECx 0 1 (Some ("XXZZ"%string, set_d empty_params (Some (DNum 3)))); ECall 0 OStab] ex_reg).2 = [Ok tt; Ok tt; Ok tt].
Proof. split_and!; vm_compute; reflexivity. Qed.
Example C20_ex : ~ known_type "toric" /\
  (run_events [ECx 0 1 (Some ("toric"%string, empty_params)); ECx 0 1 None; ECx 0 7 None] ex_reg).2 = [Err KeyError; Err IndexError; Err ValueError].
Proof. split; [unfold known_type; naive_solver|vm_compute; reflexivity]. Qed.
