(** Registers of a circuit are only ever appended, and their names differ. *)
From Verif Require Import SpecSpread.
From stdpp Require Export list.
Open Scope Z_scope.

(** ** Registers are only ever appended *)
Definition appends {A} (m : M A) : Prop := forall s, exists l, s_regs (m s).1 = s_regs s ++ l /\ (NoDup (names s) -> NoDup (names (m s).1)).
Lemma ap_same {A} (m : M A) : (forall s, s_regs (m s).1 = s_regs s) -> appends m.
Proof. intros H s. exists []. rewrite app_nil_r. split; [apply H|]. unfold names. by rewrite H. Qed.
Lemma ap_bind {A B} (m : M A) (f : A -> M B) : appends m -> (forall a, appends (f a)) -> appends (mbind' m f).
Proof.
  intros Hm Hf s. unfold mbind'. destruct (Hm s) as (l & E & HN). destruct (m s) as [s1 [a|e]]; cbn in *; [|by exists l].
  destruct (Hf a s1) as (l' & E' & HN'). exists (l ++ l'). rewrite E', E, app_assoc. auto.
Qed.
Lemma ap_ret {A} (a : A) : appends (Circ.mret a). Proof. by apply ap_same. Qed.
Lemma ap_raise {A} e : appends (@mraise A e). Proof. by apply ap_same. Qed.
Lemma ap_lift {A} (r : res A) : appends (mlift r). Proof. by apply ap_same. Qed.
Lemma ap_key {A} (o : option A) : appends (key o). Proof. apply ap_same. by destruct o. Qed.
Lemma ap_get l : appends (get_params l). Proof. apply ap_same. intros s. unfold get_params. by destruct (s_heap s !! l). Qed.
Lemma ap_put l p : appends (put_params l p). Proof. by apply ap_same. Qed.
Lemma ap_new p : appends (new_params p). Proof. by apply ap_same. Qed.
Lemma ap_emit l : appends (emit l). Proof. by apply ap_same. Qed.
Lemma ap_emit1 f l : appends (emit1 f l). Proof. destruct l; [apply ap_raise|apply ap_emit]. Qed.
Lemma ap_tget i : appends (treg_get i). Proof. by apply ap_same. Qed.
Lemma ap_add r : appends (add_reg r).
Proof.
  intros s. unfold add_reg. repeat case_bool_decide; cbn [fst]; try (exists []; by rewrite app_nil_r). exists [r]. split; [done|].
  intros HN. unfold names. cbn. rewrite fmap_app. apply NoDup_app. split_and!; [done| |apply NoDup_singleton]. intros x Hx ->%elem_of_list_singleton. done.
Qed.
Lemma ap_mfor {A} (l : list A) f : (forall x, appends (f x)) -> appends (mfor l f).
Proof. intros Hf. induction l as [|x l IHl]; cbn [mfor]; [apply ap_ret|]. apply ap_bind; [apply Hf|done]. Qed.
Lemma ap_st {A} (f : st -> M A) : (forall s, exists l, s_regs (f s s).1 = s_regs s ++ l /\ (NoDup (names s) -> NoDup (names (f s s).1))) -> appends (let* s := get_st in f s).
Proof. intros H s. unfold mbind', get_st. apply H. Qed.
Lemma ap_st' {A} (f : st -> M A) : (forall s, appends (f s)) -> appends (let* s := get_st in f s).
Proof. intros H. apply ap_st. intros s. apply H. Qed.
Ltac ap := repeat (lazymatch goal with
  | |- appends (mbind' get_st _) => apply ap_st'; intros ?
  | |- appends (mbind' _ _) => apply ap_bind; [|intros ?]
  | |- appends (Circ.mret _) => apply ap_ret
  | |- appends (mraise _) => apply ap_raise
  | |- appends (mlift _) => apply ap_lift
  | |- appends (key _) => apply ap_key
  | |- appends (get_params _) => apply ap_get
  | |- appends (put_params _ _) => apply ap_put
  | |- appends (new_params _) => apply ap_new
  | |- appends (emit _) => apply ap_emit
  | |- appends (emit1 _ _) => apply ap_emit1
  | |- appends (treg_get _) => apply ap_tget
  | |- appends (add_reg _) => apply ap_add
  | |- appends (mfor _ _) => apply ap_mfor; intros ?
  | |- appends (match ?b with _ => _ end) => destruct b
  end).
Lemma ap_dim p i : appends (get_dim p i). Proof. unfold get_dim. ap. Qed.
Lemma ap_gen l : appends (params_validate_and_generate l).
Proof. unfold params_validate_and_generate. ap. Qed.
Lemma ap_rep l : appends (rep_validate l).
Proof. unfold rep_validate. ap. Qed.
Lemma ap_op q o : appends (run_op q o).
Proof.
  assert (HR : forall r, appends (readout_register q r)) by (intros r; unfold readout_register; cbn zeta; ap).
  assert (HC : appends (col_idx q)) by (unfold col_idx; ap; apply ap_dim).
  assert (HW : appends (row_idx q)) by (unfold row_idx; ap; apply ap_dim).
  assert (HM : forall qs cs, appends (emit_meas qs cs)) by (intros; unfold emit_meas; ap).
  destruct o; cbn [run_op].
  - unfold stabilize, entangle. cbn zeta. ap; apply HM.
  - unfold readout_x, readout_x_into_ancilla, measure_ancilla. ap; first [apply HR|apply HC|apply HM].
  - unfold readout_z, readout_z_into_ancilla, measure_ancilla. ap; first [apply HR|apply HW|apply HM].
  - unfold lattice_readout_x, lattice_readout. cbn zeta. ap; apply HM.
  - unfold lattice_readout_z, lattice_readout. cbn zeta. ap; apply HM.
  - unfold reset_x. cbn zeta. ap.
  - unfold reset_z. cbn zeta. ap.
  - unfold logical_x. ap; apply HC.
  - unfold logical_z. ap; apply HW.
  - unfold id_all. cbn zeta. ap.
  - unfold id_data. ap.
Qed.
Lemma ap_creg n x : appends (add_creg n x).
Proof.
  unfold add_creg. apply ap_st. intros s. destruct (dict_get x (s_tcreg s)); [apply ap_ret|]. case_bool_decide; [apply ap_raise|].
  unfold mbind', put_st. destruct (ap_add (Reg false x n) (set_tregs s (s_tqreg s) (dict_set x (x, n) (s_tcreg s)))) as (l & E & HN). exists l. done.
Qed.
Lemma ap_qreg n x : appends (add_qreg n x).
Proof.
  unfold add_qreg. apply ap_st. intros s. destruct (dict_get x (s_tqreg s)); [apply ap_ret|]. case_bool_decide; [apply ap_raise|].
  unfold mbind', put_st. destruct (ap_add (Reg true x n) (set_tregs s (dict_set x (x, n) (s_tqreg s)) (s_tcreg s))) as (l & E & HN). exists l. done.
Qed.
Definition appends_at {A} (s : st) (m : M A) : Prop := exists l, s_regs (m s).1 = s_regs s ++ l /\ (NoDup (names s) -> NoDup (names (m s).1)).
Lemma ap_at {A B} s (m : M A) (f : A -> M B) : appends_at s m -> (forall a, appends (f a)) -> appends_at s (mbind' m f).
Proof.
  intros (l & E & HN) Hf. unfold appends_at, mbind'. destruct (m s) as [s1 [a|e]]; cbn in *; [|by exists l].
  destruct (Hf a s1) as (l' & E' & HN'). exists (l ++ l'). rewrite E', E, app_assoc. auto.
Qed.
Lemma ap_put_st s s' : s_regs s' = s_regs s -> appends_at s (put_st s').
Proof. intros E. exists []. cbn. rewrite app_nil_r. split; [done|]. unfold names. by rewrite E. Qed.
Lemma ap_tq sub c l : appends (add_tqubit sub c l).
Proof.
  unfold add_tqubit. apply ap_st. intros s. apply ap_at.
  - destruct (dict_get sub (s_tq s)); [apply ap_ret|by apply ap_put_st].
  - intros _. apply ap_bind; [apply ap_key|intros t]. apply ap_bind.
    + unfold new_tqubit. apply ap_bind; [unfold or_new; ap|intros l']. apply ap_bind; [destruct t; [apply ap_rep|apply ap_ret..]|intros _].
      apply ap_bind; [|intros; apply ap_ret]. unfold new_lattice. apply ap_bind; [apply ap_gen|intros hw]. cbn zeta. ap.
    + intros q. apply ap_st. intros s'. unfold mbind', key. destruct (dict_get sub (s_tq s')); cbn; exists []; by rewrite app_nil_r.
Qed.
Lemma ap_cx a b t p : appends (c_cx a b t p).
Proof.
  assert (HI : forall r, appends (get_index r)) by (intros []; [apply ap_tget|apply ap_ret]).
  assert (HC : forall q, appends (col_idx q)) by (intros q; unfold col_idx; ap; apply ap_dim).
  assert (HW : forall q, appends (row_idx q)) by (intros q; unfold row_idx; ap; apply ap_dim).
  assert (HZ : forall q, appends (readout_z_into_ancilla q)) by (intros q; unfold readout_z_into_ancilla; ap; apply HW).
  assert (HT : forall q c d, appends (tq_cx q c d)) by (intros q c d; unfold tq_cx; ap; first [apply HC|apply HZ]).
  unfold c_cx. apply ap_bind; [ap|intros _]. apply ap_bind; [ap; apply HI|intros ap0]. apply ap_bind; [apply HI|intros qc]. apply ap_bind; [apply HI|intros qt].
  apply ap_st'. intros s. apply ap_bind; [destruct (dict_get _ _); [apply ap_ret|apply ap_tq]|intros _]. apply ap_st'. intros s'. apply ap_bind; [apply ap_key|intros d].
  apply ap_bind; [ap|intros qa]. do 3 (apply ap_bind; [apply ap_creg|intros _]). apply ap_bind; [apply (ap_op qa OResetX)|intros _]. apply ap_bind; [apply ap_qreg|intros _].
  apply ap_bind; [unfold get_qreg; ap|intros qr]. apply ap_bind; [apply ap_lift|intros ro']. do 3 (apply ap_bind; [unfold get_creg; ap|intros ?]).
  do 2 (apply ap_bind; [apply ap_lift|intros ?]). apply ap_bind; [apply ap_emit|intros _]. do 2 (apply ap_bind; [apply HT|intros _]). do 2 (apply ap_bind; [apply ap_emit|intros _]).
  do 2 (apply ap_bind; [apply HT|intros _]). apply ap_bind; [apply ap_emit|intros _]. apply ap_bind; [apply (ap_op qa (OReadZ _))|intros _].
  unfold z_c_if, x_c_if. ap; first [apply HC|apply HW].
Qed.
Lemma ap_event e : appends (run_event e).
Proof.
  destruct e as [i o|i j [[c p]|]]; cbn [run_event].
  - unfold run_call. apply ap_bind; [apply ap_tget|intros q; apply ap_op].
  - apply ap_bind; [apply ap_new|intros l; apply ap_cx].
  - apply ap_cx.
Qed.
Lemma ap_nev e : appends (run_nev e).
Proof. destruct e as [e|x m i]; cbn [run_nev]; [apply ap_event|]. ap. Qed.
Lemma ap_events l s : NoDup (names s) -> NoDup (names (run_events l s).1).
Proof. revert s. induction l as [|e l IHl]; intros s Hs; [done|]. cbn [run_events fst]. apply IHl. by destruct (ap_event e s) as (? & _ & H); apply H. Qed.
Lemma ap_nevs l s : exists rs, s_regs (run_nevs l s).1 = s_regs s ++ rs /\ (NoDup (names s) -> NoDup (names (run_nevs l s).1)).
Proof.
  revert s. induction l as [|e l IHl]; intros s; [exists []; by rewrite app_nil_r|]. cbn [run_nevs fst]. destruct (ap_nev e s) as (l1 & E & HN).
  destruct (IHl (run_nev e s).1) as (l2 & E2 & HN2). exists (l1 ++ l2). rewrite E2, E, app_assoc. auto.
Qed.
Lemma new_names rs name s s' : new_treg name (rq_type <$> rs) (rq_params <$> rs) s = (s', Ok tt) -> NoDup (names s').
Proof.
  unfold new_treg, mbind', get_st, put_st. intros E.
  assert (H : appends (add_tqubits "data" (rq_type <$> rs) (rq_params <$> rs))).
  { unfold add_tqubits. ap. apply ap_tq. }
  destruct (H (St (s_heap s) (s_next s) [] [] name 0 [] [] [])) as (l & _ & HN). rewrite E in HN. apply HN. cbn. constructor.
Qed.
