(** Closed forms of the encoder methods on a well-formed qubit. *)
From Verif Require Export LatFacts.
Open Scope Z_scope.

(** ** Instruction lists *)
Definition ent (cls : stabcls) (p : qplaq) : list instr :=
  match entangle_plaq cls p with Ok l => l | Err _ => [] end.
Definition ent_instrs (l : list (stabcls * qplaq)) : list instr :=
  mjoin ((fun sp => ent sp.1 sp.2 ++ [IBarrier]) <$> l).
Definition cname (name : string) (T : Z) : string := (name +:+ "_c" +:+ py_str T)%string.
Definition meas_instrs (name : string) (dh dw T : Z) : list instr :=
  ((fun i => IMeas ((name +:+ "_mz")%string, i) (cname name T, i)) <$> seqZ 0 (num_syn_z dh dw)) ++
  ((fun i => IMeas ((name +:+ "_mx")%string, i) (cname name T, num_syn_z dh dw + i)) <$> seqZ 0 (num_syn_x dh dw)).
Definition reset_instrs (name : string) (dh dw : Z) : list instr :=
  ((fun i => IReset ((name +:+ "_mz")%string, i)) <$> seqZ 0 (num_syn_z dh dw)) ++
  ((fun i => IReset ((name +:+ "_mx")%string, i)) <$> seqZ 0 (num_syn_x dh dw)).
Definition round_instrs (c : code) (name : string) (dh dw T : Z) : list instr :=
  ent_instrs (lat_stabs (the_lattice c name 0 dh dw)) ++ meas_instrs name dh dw T ++
  reset_instrs name dh dw ++ [IBarrier].
(** left column, top row *)
Definition col_list (dh dw : Z) : list Z := (fun i => i * dw) <$> seqZ 0 dh.
Definition row_list (dw : Z) : list Z := seqZ 0 dw.
Definition xgate (c : code) (name : string) (k : Z) : instr :=
  match c with
  | XXZZ => IX (dq name k)
  | XZZX => if bool_decide (k mod 2 = 1) then IX (dq name k) else IZ (dq name k) end.
Definition zgate (c : code) (name : string) (k : Z) : instr :=
  match c with
  | XXZZ => IZ (dq name k)
  | XZZX => if bool_decide (k mod 2 = 0) then IX (dq name k) else IZ (dq name k) end.
Definition logx_instrs (c : code) (name : string) (dh dw : Z) : list instr :=
  (xgate c name <$> col_list dh dw) ++ [IBarrier].
Definition logz_instrs (c : code) (name : string) (dw : Z) : list instr :=
  (zgate c name <$> row_list dw) ++ [IBarrier].

(** ** Lists *)
Lemma col_range dh dw : 0 < dw -> py_range_step (num_data dh dw) dw = col_list dh dw.
Proof.
  intros. unfold py_range_step, col_list, num_data. rewrite bool_decide_eq_true_2 by done. f_equal. f_equal.
  replace (dh * dw + dw - 1) with (dh * dw + (dw - 1)) by lia. apply idx_div. lia.
Qed.
Lemma reg_bits_eq (n : string) sz : reg_bits (n, sz) = (fun i => (n, i)) <$> seqZ 0 sz.
Proof. done. Qed.
Lemma take_seqZ n k : 0 <= k <= n -> take (Z.to_nat k) (seqZ 0 n) = seqZ 0 k.
Proof.
  intros. rewrite <-(Z2Nat.id k) at 2 by lia. replace n with (k + (n - k)) by lia.
  rewrite seqZ_app by lia. rewrite take_app_alt; [by rewrite Z2Nat.id by lia|]. rewrite seqZ_length. lia.
Qed.
Lemma drop_seqZ n k : 0 <= k <= n -> drop (Z.to_nat k) (seqZ 0 n) = seqZ k (n - k).
Proof.
  intros. replace n with (k + (n - k)) at 1 by lia.
  rewrite seqZ_app by lia. rewrite drop_app_alt; [done|]. rewrite seqZ_length. lia.
Qed.
Lemma seqZ_shift a n : seqZ a n = (fun i => a + i) <$> seqZ 0 n.
Proof. rewrite fmap_add_seqZ. f_equal. lia. Qed.
Lemma zip_with_fmap2 {A B C D} (f : B -> C -> D) (g : A -> B) (h : A -> C) l :
  zip_with f (g <$> l) (h <$> l) = (fun x => f (g x) (h x)) <$> l.
Proof. induction l as [|x l IH]; [done|]. cbn. f_equal. apply IH. Qed.

(** ** State facts *)
Lemma lat_ok_heap s s' q dh dw : s_heap s' = s_heap s -> lat_ok s q dh dw -> lat_ok s' q dh dw.
Proof. intros He [Hv Hl Hh]. constructor; [done|done|]. by rewrite He. Qed.
Lemma lat_ok_app s q dh dw l : lat_ok s q dh dw -> lat_ok (app_instrs s l) q dh dw.
Proof. by apply lat_ok_heap. Qed.
Lemma lat_ok_regs s q dh dw l : lat_ok s q dh dw -> lat_ok (app_regs s l) q dh dw.
Proof. by apply lat_ok_heap. Qed.
Lemma lat_ok_Tupd s q dh dw p T : lat_ok s q dh dw -> s_heap s !! lat_params (tq_lat q) = Some p ->
  lat_ok (set_heap s (<[lat_params (tq_lat q) := upd_T p T]> (s_heap s))) q dh dw.
Proof.
  intros [Hv Hl (p' & dl & T' & a & b & Hp & ?)] Hp'. constructor; [done|done|].
  rewrite Hp in Hp'. injection Hp' as ->. exists (upd_T p T), dl, T, a, b. cbn. rewrite lookup_insert.
  naive_solver.
Qed.

Lemma data_of s q dh dw : lat_ok s q dh dw -> lat_data (tq_lat q) = data_reg (lat_name (tq_lat q)) dh dw.
Proof. intros [_ Hl _]. by rewrite Hl. Qed.
Lemma data_get s q dh dw k : lat_ok s q dh dw -> 0 <= k < dh * dw ->
  reg_get (lat_data (tq_lat q)) k = Ok (dq (lat_name (tq_lat q)) k).
Proof. intros Hk ?. rewrite (data_of _ _ _ _ Hk). by rewrite reg_get_ok. Qed.
Lemma col_idx_ok s q dh dw : lat_ok s q dh dw -> col_idx q s = (s, Ok (col_list dh dw)).
Proof.
  intros [Hv Hl (p & dl & T & a & b & Hp & Hd & H0 & H1 & ? & ? & ? & Hnd & ?)].
  unfold col_idx. erewrite mbind_ok by (by apply get_params_ok). rewrite Hnd. cbn [key].
  erewrite mbind_ok by done. unfold get_dim. rewrite Hd. cbn [key].
  erewrite mbind_ok.
  2:{ erewrite mbind_ok by done. cbn. apply mlift_ok, H1. }
  unfold valid_size in Hv. rewrite bool_decide_eq_false_2 by lia. unfold mret. rewrite col_range; [done|lia].
Qed.
Lemma row_idx_ok s q dh dw : lat_ok s q dh dw -> row_idx q s = (s, Ok (row_list dw)).
Proof.
  intros [Hv Hl (p & dl & T & a & b & Hp & Hd & H0 & H1 & ? & ? & ? & Hnd & ?)].
  unfold row_idx. erewrite mbind_ok by (by apply get_params_ok).
  unfold get_dim. rewrite Hd. cbn [key].
  erewrite mbind_ok.
  2:{ erewrite mbind_ok by done. cbn. apply mlift_ok, H1. }
  done.
Qed.
Lemma col_list_range dh dw k : valid_size dh dw -> k ∈ col_list dh dw -> 0 <= k < dh * dw.
Proof. intros Hv (i & -> & Hi%elem_of_seqZ)%elem_of_list_fmap. unfold valid_size in Hv. nia. Qed.
Lemma row_list_range dh dw k : valid_size dh dw -> k ∈ row_list dw -> 0 <= k < dh * dw.
Proof. intros Hv Hi%elem_of_seqZ. unfold valid_size in Hv. nia. Qed.

(** A loop emitting one instruction per index. *)
Lemma for_idx (q : tqubit) s dh dw (l : list Z) (f : Z -> qubit -> list instr) :
  lat_ok s q dh dw -> (forall k, k ∈ l -> 0 <= k < dh * dw) ->
  mfor l (fun i => let* d := mlift (reg_get (lat_data (tq_lat q)) i) in emit (f i d)) s =
    (app_instrs s (mjoin ((fun k => f k (dq (lat_name (tq_lat q)) k)) <$> l)), Ok tt).
Proof.
  intros Hk Hl. apply mfor_emit. intros x s' Hx.
  erewrite mbind_ok by (apply mlift_ok; eapply data_get; [done|by apply Hl]). done.
Qed.
Lemma mjoin_singletons {A B} (f : A -> B) l : mjoin ((fun x => [f x]) <$> l) = f <$> l.
Proof. induction l as [|x l IH]; [done|]. cbn. f_equal. apply IH. Qed.

Lemma mfor_ext {A} (l : list A) (f g : A -> M unit) s : (forall x s, f x s = g x s) -> mfor l f s = mfor l g s.
Proof.
  intros Hf. revert s. induction l as [|x l IH]; intros s; [done|]. cbn. unfold mbind'. rewrite Hf.
  destruct (g x s) as [s1 [a|e]]; [apply IH|done].
Qed.

Ltac idxloop Hok lem rng :=
  erewrite mbind_ok by (by eapply lem);
  erewrite mbind_ok;
  [| erewrite mfor_ext; [eapply for_idx; [exact Hok|]; intros k Hk; by eapply rng; [apply Hok|]|] ].

Lemma logical_x_ok s q dh dw : lat_ok s q dh dw ->
  logical_x q s = (app_instrs s (logx_instrs (lat_code (tq_lat q)) (lat_name (tq_lat q)) dh dw), Ok tt).
Proof.
  intros Hok. unfold logical_x. erewrite mbind_ok by (by eapply col_idx_ok).
  erewrite mbind_ok.
  2:{ erewrite mfor_ext.
      - eapply (for_idx q s dh dw (col_list dh dw)
          (fun i d => match lat_code (tq_lat q) with
             | XXZZ => [IX d] | XZZX => [if bool_decide (i mod 2 = 1) then IX d else IZ d] end)); [done|].
        intros k Hk. eapply col_list_range; [apply Hok|done].
      - intros x s'. destruct (lat_code (tq_lat q)); done. }
  cbn beta. rewrite emit_eq, app_instrs_app. f_equal. f_equal. unfold logx_instrs. f_equal.
  unfold xgate. destruct (lat_code (tq_lat q)); apply mjoin_singletons.
Qed.
Lemma logical_z_ok s q dh dw : lat_ok s q dh dw ->
  logical_z q s = (app_instrs s (logz_instrs (lat_code (tq_lat q)) (lat_name (tq_lat q)) dw), Ok tt).
Proof.
  intros Hok. unfold logical_z. erewrite mbind_ok by (by eapply row_idx_ok).
  erewrite mbind_ok.
  2:{ erewrite mfor_ext.
      - eapply (for_idx q s dh dw (row_list dw)
          (fun i d => match lat_code (tq_lat q) with
             | XXZZ => [IZ d] | XZZX => [if bool_decide (i mod 2 = 0) then IX d else IZ d] end)); [done|].
        intros k Hk. eapply row_list_range; [apply Hok|done].
      - intros x s'. destruct (lat_code (tq_lat q)); done. }
  cbn beta. rewrite emit_eq, app_instrs_app. f_equal. f_equal. unfold logz_instrs. f_equal.
  unfold zgate. destruct (lat_code (tq_lat q)); apply mjoin_singletons.
Qed.

(** ** Plaquette circuits never raise *)
Definition x_like (dh dw : Z) (cls : stabcls) (r c : Z) : Prop :=
  match cls with
  | SXXXX => 0 <= c <= dw - 2
  | SZZZZ => 0 <= r <= dh - 2
  | SXZZX => True end.
Lemma entangle_pt_ok dh dw cls name sreg syn r c : x_like dh dw cls r c ->
  exists l, entangle_plaq cls (lift_plaq name sreg
    (Plaq syn (pt dh dw r c) (pt dh dw r (c+1)) (pt dh dw (r+1) c) (pt dh dw (r+1) (c+1)))) = Ok l.
Proof.
  intros Hx. unfold lift_plaq. cbn [p_syn top_l top_r bot_l bot_r]. destruct cls; cbn in Hx.
  - unfold entangle_plaq, entangle_xxxx, pt. cbn [q_syn q_tl q_tr q_bl q_br].
    repeat case_bool_decide; try lia; cbn; eauto.
  - unfold entangle_plaq, entangle_zzzz, pt. cbn [q_syn q_tl q_tr q_bl q_br].
    repeat case_bool_decide; try lia; cbn; eauto.
  - cbn. eauto.
Qed.
Lemma lat_stabs_elem c name l dh dw sp : valid_size dh dw -> sp ∈ lat_stabs (the_lattice c name l dh dw) ->
  (exists loc, 0 <= loc < num_syn_x dh dw /\
     sp = (shortname_mx c, lift_plaq name (name +:+ "_mx") (geom_x dh dw loc))) \/
  (exists loc, 0 <= loc < num_syn_z dh dw /\
     sp = (shortname_mz c, lift_plaq name (name +:+ "_mz") (geom_z dh dw loc))).
Proof.
  intros Hv. cbn. rewrite elem_of_app. unfold geometry_mx, geometry_mz.
  intros [(? & -> & (? & -> & (loc & -> & Hl%elem_of_seqZ)%elem_of_list_fmap)%elem_of_list_fmap)%elem_of_list_fmap
         |(? & -> & (? & -> & (loc & -> & Hl%elem_of_seqZ)%elem_of_list_fmap)%elem_of_list_fmap)%elem_of_list_fmap];
    [left|right]; exists loc; (split; [lia|done]).
Qed.
Lemma entangle_stab_ok c name l dh dw sp : valid_size dh dw -> sp ∈ lat_stabs (the_lattice c name l dh dw) ->
  entangle_plaq sp.1 sp.2 = Ok (ent sp.1 sp.2).
Proof.
  intros Hv Hsp. assert (exists l', entangle_plaq sp.1 sp.2 = Ok l') as [l' Hl'];
    [|unfold ent; by rewrite Hl'].
  apply lat_stabs_elem in Hsp as [(loc & Hl & ->)|(loc & Hl & ->)]; [| |done]; cbn [fst snd].
  - rewrite geom_x_pt by done. apply entangle_pt_ok. destruct (x_loc_corner _ _ _ Hv Hl) as (?&?&_). by destruct c.
  - rewrite geom_z_pt by done. apply entangle_pt_ok. destruct (z_loc_corner _ _ _ Hv Hl) as (?&?&_). by destruct c.
Qed.
Lemma mfor_entangle (L : list (stabcls * qplaq)) s :
  (forall sp, sp ∈ L -> entangle_plaq sp.1 sp.2 = Ok (ent sp.1 sp.2)) ->
  mfor L (fun sp => let* is := mlift (entangle_plaq sp.1 sp.2) in emit (is ++ [IBarrier])) s =
    (app_instrs s (ent_instrs L), Ok tt).
Proof.
  intros HL. apply (mfor_emit L _ (fun sp => ent sp.1 sp.2 ++ [IBarrier])). intros sp s' Hsp.
  erewrite mbind_ok by (apply mlift_ok; by apply HL). done.
Qed.
Lemma lat_stabs_ok s q dh dw : lat_ok s q dh dw ->
  lat_stabs (tq_lat q) = lat_stabs (the_lattice (lat_code (tq_lat q)) (lat_name (tq_lat q)) 0 dh dw).
Proof. intros [_ Hl _]. by rewrite Hl at 1. Qed.
Lemma entangle_ok s q dh dw : lat_ok s q dh dw ->
  entangle (tq_lat q) None s = (app_instrs s (ent_instrs (lat_stabs (tq_lat q))), Ok tt).
Proof.
  intros Hok. unfold entangle. apply mfor_entangle. intros sp Hsp.
  rewrite (lat_stabs_ok _ _ _ _ Hok) in Hsp. eapply entangle_stab_ok; [apply Hok|done].
Qed.

(** ** stabilize *)
Definition round_state (s : st) (q : tqubit) (dh dw T : Z) (p : params) : st :=
  app_instrs (app_regs (set_heap s (<[lat_params (tq_lat q) := upd_T p (T + 1)]> (s_heap s)))
     [Reg false (cname (lat_name (tq_lat q)) (T + 1)) (num_syn_x dh dw + num_syn_z dh dw)])
    (round_instrs (lat_code (tq_lat q)) (lat_name (tq_lat q)) dh dw (T + 1)).

Lemma emit_nil s : emit [] s = (s, Ok tt).
Proof. rewrite emit_eq. by rewrite app_instrs_nil. Qed.

Lemma emit_meas_eq qs cs : length qs = length cs -> emit_meas qs cs = emit (zip_with IMeas qs cs).
Proof. intros H. unfold emit_meas. by rewrite bool_decide_eq_true_2. Qed.
Lemma stabilize_ok s q dh dw p T : lat_ok s q dh dw ->
  s_heap s !! lat_params (tq_lat q) = Some p -> T_of p = Some T ->
  cname (lat_name (tq_lat q)) (T + 1) ∉ names s ->
  stabilize q s = (round_state s q dh dw T p, Ok tt).
Proof.
  intros Hok Hp HT Hf. pose proof Hok as [Hv Hl (p' & dl & T' & a & b & Hp' & Hd & H0 & H1 & _ & _ & _ & Hnd & Hns)].
  rewrite Hp in Hp'. injection Hp' as <-.
  pose proof (valid_counts _ _ Hv) as (Hc1&Hc2&Hc3&Hc4).
  unfold stabilize. erewrite mbind_ok by (by apply get_params_ok).
  rewrite Hns. cbn [key]. erewrite mbind_ok by done. rewrite HT. cbn [key]. erewrite mbind_ok by done.
  erewrite mbind_ok by done. cbn [fst snd].
  set (s1 := set_heap s _).
  erewrite mbind_ok by (apply add_reg_ok; [cbn; lia|exact Hf]).
  set (s2 := app_regs s1 _).
  assert (Hok2 : lat_ok s2 q dh dw) by (apply lat_ok_regs, lat_ok_Tupd; done).
  erewrite mbind_ok by (by eapply entangle_ok).
  rewrite (lat_stabs_ok _ _ _ _ Hok).
  set (name := lat_name (tq_lat q)) in *. set (c := lat_code (tq_lat q)) in *.
  change ((name +:+ "_c" +:+ py_str (T + 1))%string) with (cname name (T + 1)).
  rewrite reg_bits_eq. rewrite <-!fmap_take, <-fmap_drop.
  rewrite take_seqZ, drop_seqZ by lia. replace (num_syn_x dh dw + num_syn_z dh dw - num_syn_z dh dw) with (num_syn_x dh dw) by lia.
  set (e := ent_instrs _).
  assert (Hmz : lat_mz (tq_lat q) = opt_reg (mz_reg name dh dw)) by (by rewrite Hl).
  assert (Hmx : lat_mx (tq_lat q) = opt_reg (mx_reg name dh dw)) by (by rewrite Hl).
  (* the four optional blocks *)
  assert (HB : forall (n : Z) (o : option rhandle) (h : rhandle) (f : rhandle -> list instr) s',
     o = opt_reg h -> n = h.2 -> (h.2 <= 0 -> f h = []) ->
     (if bool_decide (n > 0) then let* m := key o in emit (f m) else mret tt) s' = (app_instrs s' (f h), Ok tt)).
  { intros n o h f s' -> -> Hz. unfold opt_reg. case_bool_decide.
    - done.
    - rewrite Hz by lia. by rewrite app_instrs_nil. }
  assert (HM : forall (n : Z) (o : option rhandle) (h : rhandle) (cs : list clbit) s',
     o = opt_reg h -> n = h.2 -> length cs = Z.to_nat h.2 ->
     (if bool_decide (n > 0) then let* m := key o in emit_meas (reg_bits m) cs else mret tt) s' =
       (app_instrs s' (zip_with IMeas (reg_bits h) cs), Ok tt)).
  { intros n o h cs s' -> -> Hz. unfold opt_reg. case_bool_decide.
    - cbn [key]. erewrite mbind_ok by done. rewrite emit_meas_eq; [done|].
      destruct h as [hn hz]. rewrite reg_bits_eq, fmap_length, seqZ_length. done.
    - destruct h as [hn hz]. cbn [snd] in *. rewrite reg_bits_eq, seqZ_nil by lia. cbn [fmap list_fmap zip_with]. by rewrite app_instrs_nil. }
  erewrite mbind_ok.
  2:{ apply (HM _ _ (mz_reg name dh dw)); [done|done|]. rewrite ?take_ge; rewrite !fmap_length, seqZ_length; done. }
  erewrite mbind_ok.
  2:{ apply (HM _ _ (mx_reg name dh dw)); [done|done|]. rewrite ?take_ge; rewrite !fmap_length, seqZ_length; [done|unfold mx_reg; cbn; lia]. }
  erewrite mbind_ok.
  2:{ apply (HB _ _ (mz_reg name dh dw) (fun mz => IReset <$> reg_bits mz)); [done|done|].
      intros Hle. unfold mz_reg, mx_reg in *. cbn [snd] in Hle. cbn beta. rewrite reg_bits_eq, seqZ_nil by lia. done. }
  erewrite mbind_ok.
  2:{ apply (HB _ _ (mx_reg name dh dw) (fun mz => IReset <$> reg_bits mz)); [done|done|].
      intros Hle. unfold mz_reg, mx_reg in *. cbn [snd] in Hle. cbn beta. rewrite reg_bits_eq, seqZ_nil by lia. done. }
  rewrite emit_eq, !app_instrs_app. unfold round_state, round_instrs. fold name c e.
  f_equal. unfold s2, s1. f_equal.
  rewrite take_ge.
  2:{ rewrite fmap_length, seqZ_length. lia. }
  unfold meas_instrs, reset_instrs, mz_reg, mx_reg. rewrite !reg_bits_eq.
  rewrite (seqZ_shift (num_syn_z dh dw)), <-list_fmap_compose, !zip_with_fmap2, <-!list_fmap_compose.
  rewrite <-!app_assoc. done.
Qed.
