(** Constructed lattices in closed form, and what each method appends to the circuit. *)
From Verif Require Export DistanceFacts TCirc.
Open Scope Z_scope.

(** ** Monad *)
Lemma mbind_ok {A B} (m : M A) (f : A -> M B) s s1 a : m s = (s1, Ok a) -> mbind' m f s = f a s1.
Proof. unfold mbind'. by intros ->. Qed.
Lemma mbind_err {A B} (m : M A) (f : A -> M B) s s1 e : m s = (s1, Err e) -> mbind' m f s = (s1, Err e).
Proof. unfold mbind'. by intros ->. Qed.
Lemma mlift_ok {A} (r : res A) a s : r = Ok a -> mlift r s = (s, Ok a).
Proof. unfold mlift. by intros ->. Qed.
Lemma get_params_ok l p s : s_heap s !! l = Some p -> get_params l s = (s, Ok p).
Proof. unfold get_params. by intros ->. Qed.

Lemma set_instrs_twice s a b : set_instrs (set_instrs s a) b = set_instrs s b.
Proof. done. Qed.
Lemma set_instrs_same s : set_instrs s (s_instrs s) = s.
Proof. by destruct s. Qed.
Definition app_instrs (s : st) (l : list instr) : st := set_instrs s (s_instrs s ++ l).
Lemma emit_eq l s : emit l s = (app_instrs s l, Ok tt).
Proof. done. Qed.
Lemma app_instrs_app s a b : app_instrs (app_instrs s a) b = app_instrs s (a ++ b).
Proof. unfold app_instrs; cbn. by rewrite <-app_assoc. Qed.
Lemma app_instrs_nil s : app_instrs s [] = s.
Proof. unfold app_instrs. rewrite app_nil_r. apply set_instrs_same. Qed.
Lemma heap_app_instrs s l : s_heap (app_instrs s l) = s_heap s.
Proof. done. Qed.

Lemma mfor_emit {A} (l : list A) (f : A -> M unit) (g : A -> list instr) s :
  (forall x s, x ∈ l -> f x s = (app_instrs s (g x), Ok tt)) ->
  mfor l f s = (app_instrs s (mjoin (g <$> l)), Ok tt).
Proof.
  revert s. induction l as [|x l IH]; intros s Hf; [by rewrite app_instrs_nil|].
  cbn [mfor]. erewrite mbind_ok by (apply Hf; by left). rewrite IH.
  - by rewrite app_instrs_app.
  - intros; apply Hf. by right.
Qed.

(** ** Closed form of a lattice *)
Definition data_reg (name : string) (dh dw : Z) : rhandle := ((name +:+ "_data")%string, num_data dh dw).
Definition mz_reg (name : string) (dh dw : Z) : rhandle := ((name +:+ "_mz")%string, num_syn_z dh dw).
Definition mx_reg (name : string) (dh dw : Z) : rhandle := ((name +:+ "_mx")%string, num_syn_x dh dw).
Definition anc_reg (name : string) : rhandle := ((name +:+ "_ancilla")%string, 1).
Definition opt_reg (r : rhandle) : option rhandle := if bool_decide (r.2 > 0) then Some r else None.
Definition dq (name : string) (k : Z) : qubit := ((name +:+ "_data")%string, k).
Definition lift_plaq (name : string) (sreg : string) (p : plaq) : qplaq :=
  QPlaq (sreg, p_syn p) (dq name <$> top_l p) (dq name <$> top_r p) (dq name <$> bot_l p) (dq name <$> bot_r p).
Definition the_lattice (c : code) (name : string) (l : nat) (dh dw : Z) : lattice :=
  Lattice c name l (data_reg name dh dw) (opt_reg (mz_reg name dh dw)) (opt_reg (mx_reg name dh dw))
    (anc_reg name) (geometry_mx dh dw, geometry_mz dh dw)
    ((pair (shortname_mx c) <$> (lift_plaq name (name +:+ "_mx") <$> geometry_mx dh dw)) ++
     (pair (shortname_mz c) <$> (lift_plaq name (name +:+ "_mz") <$> geometry_mz dh dw))).

Lemma reg_get_ok r i : 0 <= i < r.2 -> reg_get r i = Ok (r.1, i).
Proof. intros. unfold reg_get. by rewrite bool_decide_eq_true_2. Qed.
Lemma rmap_ok {A B} (f : A -> res B) (g : A -> B) (l : list A) :
  (forall x, x ∈ l -> f x = Ok (g x)) -> rmap f l = Ok (g <$> l).
Proof.
  induction l as [|x l IH]; intros Hf; [done|]. cbn. rewrite (Hf x) by (by left).
  rewrite IH; [done|]. intros; apply Hf; by right.
Qed.
Lemma opt_get_pt name dh dw i j : valid_size dh dw ->
  opt_get (data_reg name dh dw) (pt dh dw i j) = Ok (dq name <$> pt dh dw i j).
Proof.
  intros Hv. destruct (pt dh dw i j) as [k|] eqn:E; [|done]. cbn.
  rewrite reg_get_ok; [done|]. cbn. unfold num_data. eapply pt_in; [|done]. unfold valid_size in Hv; lia.
Qed.
Lemma gen_stabs_ok c name dh dw : valid_size dh dw ->
  gen_stabs c (opt_reg (mx_reg name dh dw)) (opt_reg (mz_reg name dh dw)) (data_reg name dh dw)
    (geometry_mx dh dw, geometry_mz dh dw) =
  Ok ((pair (shortname_mx c) <$> (lift_plaq name (name +:+ "_mx") <$> geometry_mx dh dw)) ++
      (pair (shortname_mz c) <$> (lift_plaq name (name +:+ "_mz") <$> geometry_mz dh dw))).
Proof.
  intros Hv. unfold gen_stabs. cbn [fst snd].
  rewrite (rmap_ok (gen_plaq (opt_reg (mx_reg name dh dw)) _) (lift_plaq name (name +:+ "_mx"))).
  2:{ intros p Hp. apply elem_of_list_fmap in Hp as (loc & -> & Hl%elem_of_seqZ).
      unfold opt_reg. rewrite bool_decide_eq_true_2 by (cbn; lia). rewrite geom_x_pt by (done || lia). unfold gen_plaq.
      cbn [p_syn top_l top_r bot_l bot_r]. rewrite reg_get_ok by (cbn; lia). cbn -[opt_get].
      rewrite !opt_get_pt by done. done. }
  rewrite (rmap_ok (gen_plaq (opt_reg (mz_reg name dh dw)) _) (lift_plaq name (name +:+ "_mz"))).
  2:{ intros p Hp. apply elem_of_list_fmap in Hp as (loc & -> & Hl%elem_of_seqZ).
      unfold opt_reg. rewrite bool_decide_eq_true_2 by (cbn; lia). rewrite geom_z_pt by (done || lia). unfold gen_plaq.
      cbn [p_syn top_l top_r bot_l bot_r]. rewrite reg_get_ok by (cbn; lia). cbn -[opt_get].
      rewrite !opt_get_pt by done. done. }
  done.
Qed.

(** ** Adding registers *)
Definition app_regs (s : st) (l : list reg) : st := set_regs s (s_regs s ++ l).
Definition names (s : st) : list string := r_name <$> s_regs s.
Lemma app_regs_nil s : app_regs s [] = s.
Proof. unfold app_regs. rewrite app_nil_r. by destruct s. Qed.
Lemma app_regs_app s a b : app_regs (app_regs s a) b = app_regs s (a ++ b).
Proof. unfold app_regs; cbn. by rewrite <-app_assoc. Qed.
Lemma add_reg_ok r s : 0 <= r_size r -> r_name r ∉ names s -> add_reg r s = (app_regs s [r], Ok tt).
Proof.
  intros. unfold add_reg. rewrite bool_decide_eq_false_2 by lia. by rewrite bool_decide_eq_false_2.
Qed.
Lemma add_regs_ok (l : list rhandle) s :
  Forall (fun h => 0 <= h.2) l -> NoDup (fst <$> l) -> (forall n, n ∈ fst <$> l -> n ∉ names s) ->
  mfor l (fun h => add_reg (Reg true h.1 h.2)) s = (app_regs s ((fun h => Reg true h.1 h.2) <$> l), Ok tt).
Proof.
  revert s. induction l as [|h l IH]; intros s Hsz Hnd Hf; [by rewrite app_regs_nil|].
  inversion Hsz as [|? ? H1 H2]; subst. rewrite fmap_cons in Hnd. apply NoDup_cons in Hnd as [Hn Hnd].
  cbn [mfor]. erewrite mbind_ok by (apply add_reg_ok; [done|apply Hf; rewrite fmap_cons; by left]).
  rewrite IH; [by rewrite app_regs_app|done|done|].
  intros n Hin. unfold names, app_regs. cbn. rewrite fmap_app, elem_of_app. cbn. rewrite elem_of_list_singleton.
  intros [Hs| ->]; [|done]. apply (Hf n); [rewrite fmap_cons; by right|done].
Qed.

Lemma append_inj_l (n a b : string) : (n +:+ a)%string = (n +:+ b)%string -> a = b.
Proof. induction n as [|c n IH]; cbn; [done|]. intros [=]. auto. Qed.

Definition lattice_regs (name : string) (dh dw : Z) : list rhandle :=
  [data_reg name dh dw] ++ option_list (opt_reg (mz_reg name dh dw)) ++
  option_list (opt_reg (mx_reg name dh dw)) ++ [anc_reg name].
(** No register of the lattice's own names exists yet. *)
Definition fresh_lattice (s : st) (name : string) : Prop :=
  forall suf, suf ∈ ["_data"; "_mz"; "_mx"; "_ancilla"]%string -> (name +:+ suf)%string ∉ names s.

Lemma valid_counts dh dw : valid_size dh dw ->
  0 < num_data dh dw /\ 0 <= num_syn_x dh dw /\ 0 <= num_syn_z dh dw /\
  num_syn_x dh dw + num_syn_z dh dw = num_data dh dw - 1.
Proof.
  intros Hv. destruct (valid_size_inv _ _ Hv) as (h & w & -> & -> & ? & ?).
  unfold num_data, num_syn_x, num_syn_z. rewrite !half_p. nia.
Qed.

Definition new_params_of (p : params) (dl : list Z) (dh dw : Z) : params :=
  Params (Some (DTup dl)) (Some (-1)) (pfp_of p) (Some (-1)) (Some (-1))
    (Some (num_data dh dw)) (Some (num_syn_x dh dw, num_syn_z dh dw)).

Lemma check_d_ok dl dh dw : py_index dl 0 = Ok dh -> py_index dl 1 = Ok dw -> valid_size dh dw ->
  check_d dl = Ok (dh, dw).
Proof.
  intros H0 H1 (?&?&Oh&Ow). unfold check_d. rewrite H0, H1.
  pose proof (odd_half _ Oh). pose proof (odd_half _ Ow).
  pose proof (Z.div_mod dh 2 ltac:(lia)). pose proof (Z.div_mod dw 2 ltac:(lia)).
  rewrite !bool_decide_eq_false_2 by lia. done.
Qed.

Lemma new_lattice_ok c l name s p dl dh dw :
  s_heap s !! l = Some p -> norm_d (d_of p) = Ok dl ->
  py_index dl 0 = Ok dh -> py_index dl 1 = Ok dw -> valid_size dh dw -> fresh_lattice s name ->
  new_lattice c l name s =
    (app_regs (set_heap s (<[l := new_params_of p dl dh dw]> (s_heap s)))
              ((fun h => Reg true h.1 h.2) <$> lattice_regs name dh dw),
     Ok (the_lattice c name l dh dw)).
Proof.
  intros Hp Hn H0 H1 Hv Hf. unfold new_lattice.
  set (s1 := set_heap s (<[l := new_params_of p dl dh dw]> (s_heap s))).
  assert (Hpv : params_validate_and_generate l s = (s1, Ok (dh, dw))).
  { unfold params_validate_and_generate. erewrite mbind_ok by (by apply get_params_ok).
    erewrite mbind_ok by (by apply mlift_ok). erewrite mbind_ok by done.
    erewrite mbind_ok by (apply mlift_ok; by apply check_d_ok).
    erewrite mbind_ok by done. unfold mret, s1, set_heap. cbn. by rewrite insert_insert. }
  erewrite mbind_ok by exact Hpv. cbn [fst snd].
  pose proof (valid_counts _ _ Hv) as (Hc1&Hc2&Hc3&Hc4).
  change (if bool_decide (num_syn_z dh dw > 0) then Some ((name +:+ "_mz")%string, num_syn_z dh dw) else None)
    with (opt_reg (mz_reg name dh dw)).
  change (if bool_decide (num_syn_x dh dw > 0) then Some ((name +:+ "_mx")%string, num_syn_x dh dw) else None)
    with (opt_reg (mx_reg name dh dw)).
  change ((name +:+ "_data")%string, num_data dh dw) with (data_reg name dh dw).
  change ((name +:+ "_ancilla")%string, 1) with (anc_reg name).
  erewrite mbind_ok.
  2:{ apply (add_regs_ok (lattice_regs name dh dw)).
      - unfold lattice_regs. repeat (apply Forall_app; split); try (apply Forall_singleton; cbn; lia).
        + unfold opt_reg. case_bool_decide; cbn; [apply Forall_singleton; cbn; lia|constructor].
        + unfold opt_reg. case_bool_decide; cbn; [apply Forall_singleton; cbn; lia|constructor].
      - unfold lattice_regs, opt_reg. do 2 case_bool_decide; cbn;
          repeat constructor; rewrite ?elem_of_cons, ?elem_of_nil; intros Hx; destruct_or?; try done;
          apply append_inj_l in Hx; done.
      - intros n Hin. change (n ∉ names s).
        assert (Hex : exists suf, suf ∈ ["_data"; "_mz"; "_mx"; "_ancilla"]%string /\ n = (name +:+ suf)%string).
        { revert Hin. unfold lattice_regs, opt_reg. do 2 case_bool_decide; cbn;
            rewrite ?elem_of_cons, ?elem_of_nil; intros Hx; destruct_or?; try done; subst; eexists; (split; [|done]);
            rewrite ?elem_of_cons; auto 10. }
        destruct Hex as (suf & Hs & ->). by apply Hf. }
  cbn beta. erewrite mbind_ok by (apply mlift_ok; by apply gen_stabs_ok).
  done.
Qed.

(** ** Well-formed qubits *)
Record lat_ok (s : st) (q : tqubit) (dh dw : Z) : Prop := {
  lo_valid : valid_size dh dw;
  lo_lat : tq_lat q = the_lattice (lat_code (tq_lat q)) (lat_name (tq_lat q)) (lat_params (tq_lat q)) dh dw;
  lo_heap : exists p dl T a b, s_heap s !! lat_params (tq_lat q) = Some p /\
    d_of p = Some (DTup dl) /\ py_index dl 0 = Ok dh /\ py_index dl 1 = Ok dw /\
    T_of p = Some T /\ num_readout_of p = Some a /\ num_lattice_readout_of p = Some b /\
    num_data_of p = Some (num_data dh dw) /\ num_syn_of p = Some (num_syn_x dh dw, num_syn_z dh dw) }.
