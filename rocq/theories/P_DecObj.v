(** Property C54: decoders and qubits that share a params dictionary. *)
From Verif Require Import DecObj P_Hist ParseFacts P_Code ConstructFacts DecodeFacts RunFacts RxRef P_Decode P_EndToEnd P_Logical.
From stdpp Require Export list.
Open Scope Z_scope.

(** ** What library calls never change *)
(** A tuple stored under "d", and the flag of a repetition code. *)
Definition pkeep (p p' : params) : Prop :=
  (forall dl, d_of p = Some (DTup dl) -> d_of p' = Some (DTup dl)) /\ (forall b, pfp_of p = Some b -> pfp_of p' = Some b).
Record holds (s s' : st) : Prop := {
  kp_next : (s_next s <= s_next s')%nat;
  kp_fresh : heap_fresh s';
  kp_heap : forall l p, s_heap s !! l = Some p -> exists p', s_heap s' !! l = Some p' /\ pkeep p p' }.
Definition keeps (s s' : st) : Prop := heap_fresh s -> holds s s'.
Lemma pkeep_refl p : pkeep p p. Proof. done. Qed.
Lemma pkeep_trans p q r : pkeep p q -> pkeep q r -> pkeep p r.
Proof. intros [A1 A2] [B1 B2]. split; eauto. Qed.
Lemma keeps_refl s : keeps s s. Proof. intros Hf. constructor; [done|done|]. intros l p Hp. eauto using pkeep_refl. Qed.
Lemma keeps_trans a b c : keeps a b -> keeps b c -> keeps a c.
Proof.
  intros HA HB Hf. destruct (HA Hf) as [A1 A2 A3]. destruct (HB A2) as [B1 B2 B3]. constructor; [lia|done|]. intros l p Hp. destruct (A3 l p Hp) as (p' & Hp' & HK).
  destruct (B3 l p' Hp') as (p'' & Hp'' & HK'). eauto using pkeep_trans.
Qed.
Lemma keeps_same s s' : s_heap s' = s_heap s -> s_next s' = s_next s -> keeps s s'.
Proof. intros E1 E2 Hf. constructor; [lia| |]. - revert Hf. unfold heap_fresh. by rewrite E1, E2. - rewrite E1. intros l p Hp. eauto using pkeep_refl. Qed.
Lemma keeps_put s l p p' : s_heap s !! l = Some p -> pkeep p p' -> keeps s (put_params l p' s).1.
Proof.
  intros Hp HK Hf. constructor; [done| |].
  - intros x Hx. cbn in *. destruct (decide (x = l)) as [->|]; [by rewrite (Hf l Hx) in Hp|]. rewrite lookup_insert_ne by done. by apply Hf.
  - intros l' q Hq. cbn. destruct (decide (l' = l)) as [->|].
    + rewrite lookup_insert. rewrite Hp in Hq. injection Hq as <-. eauto.
    + rewrite lookup_insert_ne by done. eauto using pkeep_refl.
Qed.
Definition mild {A} (m : M A) : Prop := forall s, keeps s (m s).1.
Lemma mild_bind {A B} (m : M A) (f : A -> M B) : mild m -> (forall a, mild (f a)) -> mild (mbind' m f).
Proof.
  intros Hm Hf s. unfold mbind'. pose proof (Hm s) as H1. destruct (m s) as [s1 [a|e]]; cbn in *; [|done]. eapply keeps_trans; [done|apply Hf].
Qed.
Lemma mild_ret {A} (a : A) : mild (Circ.mret a). Proof. intros s. apply keeps_refl. Qed.
Lemma mild_raise {A} e : mild (@mraise A e). Proof. intros s. apply keeps_refl. Qed.
Lemma mild_lift {A} (r : res A) : mild (mlift r). Proof. intros s. apply keeps_refl. Qed.
Lemma mild_key {A} (o : option A) : mild (key o). Proof. intros s. destruct o; apply keeps_refl. Qed.
Lemma mild_get l : mild (get_params l). Proof. intros s. unfold get_params. destruct (s_heap s !! l); apply keeps_refl. Qed.
Lemma mild_emit l : mild (emit l). Proof. intros s. by apply keeps_same. Qed.
Lemma mild_emit1 f l : mild (emit1 f l). Proof. destruct l; [apply mild_raise|apply mild_emit]. Qed.
Lemma mild_add r : mild (add_reg r). Proof. intros s. unfold add_reg. repeat case_bool_decide; by apply keeps_same. Qed.
Lemma mild_mfor {A} (l : list A) f : (forall x, mild (f x)) -> mild (mfor l f).
Proof. intros Hf. induction l as [|x l IHl]; cbn [mfor]; [apply mild_ret|]. apply mild_bind; [apply Hf|done]. Qed.
Lemma mild_dim p i : mild (get_dim p i). Proof. unfold get_dim. apply mild_bind; [apply mild_key|]. intros []; [apply mild_raise|apply mild_lift|apply mild_raise]. Qed.
(** Reading a dictionary, changing it and going on. *)
Lemma mild_update {A} l (g : params -> M A) : (forall p s, s_heap s !! l = Some p -> keeps s (g p s).1) -> mild (let* p := get_params l in g p).
Proof.
  intros Hg s. unfold mbind', get_params. destruct (s_heap s !! l) as [p|] eqn:E; [by apply Hg|apply keeps_refl].
Qed.
Lemma put_then {A} l p p' (k : M A) s : s_heap s !! l = Some p -> pkeep p p' -> mild k -> keeps s ((put_params l p' ;;; k) s).1.
Proof. intros Hp HK Hk. unfold mbind'. cbn. eapply keeps_trans; [by apply (keeps_put s l p p')|]. apply Hk. Qed.
Lemma put_put {A} l p p' (g : M A) s : s_heap s !! l = Some p -> pkeep p p' -> (forall s1, s_heap s1 !! l = Some p' -> keeps s1 (g s1).1) -> keeps s ((put_params l p' ;;; g) s).1.
Proof. intros Hp HK Hg. unfold mbind'. cbn. eapply keeps_trans; [by apply (keeps_put s l p p')|]. apply Hg. cbn. apply lookup_insert. Qed.
Lemma lift_then {A B} (r : res A) (k : A -> M B) s : (forall a, r = Ok a -> keeps s (k a s).1) -> keeps s ((let* a := mlift r in k a) s).1.
Proof. intros Hk. unfold mbind', mlift. destruct r; [by apply Hk|apply keeps_refl]. Qed.
Lemma key_then {A B} (r : option A) (k : A -> M B) s : (forall a, r = Some a -> keeps s (k a s).1) -> keeps s ((let* a := key r in k a) s).1.
Proof. intros Hk. unfold mbind'. destruct r; cbn; [by apply Hk|apply keeps_refl]. Qed.
Ltac mild := repeat (first [apply mild_bind; [|intros ?] | apply mild_ret | apply mild_raise | apply mild_lift | apply mild_key | apply mild_get | apply mild_emit | apply mild_emit1
  | apply mild_add | apply mild_dim | (apply mild_mfor; intros ?) | case_match]).

Lemma mild_generate l : mild (params_validate_and_generate l).
Proof.
  apply mild_update. intros p s Hp. apply lift_then. intros dl Hdl. eapply put_put; [done| |].
  - split; cbn; [|done]. intros dl' E. rewrite E in Hdl. by injection Hdl as ->.
  - intros s1 H1. apply lift_then. intros hw _. eapply put_then; [done| |apply mild_ret]. by split.
Qed.
Lemma mild_rep l : mild (rep_validate l).
Proof.
  apply mild_update. intros p s Hp. eapply put_put; [done| |].
  - split; cbn; [done|]. intros b E. by rewrite E.
  - intros s1 H1. apply lift_then. intros dl Hdl. apply (keeps_put s1 l _ _ H1). split; cbn; [|done].
    intros dl' E. rewrite E in Hdl. f_equal. f_equal. cbn in Hdl.
    destruct (default false (pfp_of p)); destruct (py_index dl' _) as [z|]; cbn in Hdl; try done; case_bool_decide; try done; by injection Hdl as ->.
Qed.
Lemma mild_new_params p : mild (new_params p).
Proof.
  intros s Hf. constructor; cbn; [lia| |].
  - intros x Hx. cbn in *. rewrite lookup_insert_ne by lia. apply Hf. lia.
  - intros l q Hq. destruct (decide (l = s_next s)) as [->|]; [|rewrite lookup_insert_ne by done; eauto using pkeep_refl]. by rewrite (Hf _ (le_n _)) in Hq.
Qed.
Lemma mild_or_new l : mild (or_new l).
Proof. destruct l as [l|]; cbn [or_new]; [|apply mild_new_params]. apply mild_bind; [apply mild_get|]. intros p. destruct (params_empty p); [apply mild_new_params|apply mild_ret]. Qed.
Lemma mild_new t l name : mild (new_tqubit t l name).
Proof.
  unfold new_tqubit. apply mild_bind; [apply mild_or_new|]. intros l'. apply mild_bind; [destruct t; [apply mild_rep|apply mild_ret..]|]. intros _.
  apply mild_bind; [|intros; apply mild_ret]. unfold new_lattice. apply mild_bind; [apply mild_generate|]. intros hw. cbv zeta.
  apply mild_bind; [apply mild_mfor; intros; apply mild_add|]. intros _. apply mild_bind; [apply mild_lift|]. intros; apply mild_ret.
Qed.
Lemma mild_entangle lat a : mild (entangle lat a).
Proof. unfold entangle. apply mild_mfor. intros x. apply mild_bind; [apply mild_lift|]. intros; apply mild_emit. Qed.
Lemma mild_stab q : mild (stabilize q).
Proof.
  apply mild_update. intros p s Hp. apply key_then. intros ns _. cbv zeta. apply key_then. intros T _. eapply put_then; [done|by split|].
  apply mild_bind; [apply mild_add|]. intros _. apply mild_bind; [apply mild_entangle|]. intros _. unfold emit_meas. mild.
Qed.
Lemma mild_register q r : mild (readout_register q r).
Proof.
  assert (H : mild (let* p := get_params (lat_params (tq_lat q)) in
     let* n := key (num_readout_of p) in
     put_params (lat_params (tq_lat q)) (upd_num_readout p (n + 1)) ;;;
     let h := ((lat_name (tq_lat q) +:+ "_readout_" +:+ py_str (n + 1))%string, 1) in
     add_reg (Reg false h.1 h.2) ;;; Circ.mret h)).
  { apply mild_update. intros p s Hp. apply key_then. intros n _. eapply put_then; [done|by split|]. mild. }
  unfold readout_register. cbv zeta in H |- *. destruct r as [h|]; [|done]. case_bool_decide; [done|apply mild_ret].
Qed.
Lemma mild_col q : mild (col_idx q). Proof. unfold col_idx. mild. Qed.
Lemma mild_row q : mild (row_idx q). Proof. unfold row_idx. mild. Qed.
Lemma mild_op q o : mild (run_op q o).
Proof.
  destruct o; cbn [run_op].
  - apply mild_stab.
  - unfold readout_x. apply mild_bind; [apply mild_register|]. intros h. apply mild_bind; [|intros _; unfold measure_ancilla; mild].
    unfold readout_x_into_ancilla. apply mild_bind; [mild|]. intros _. case_match.
    + apply mild_bind; [mild|]. intros _. apply mild_bind; [apply mild_col|]. intros is. mild.
    + apply mild_bind; [apply mild_col|]. intros is. mild.
  - unfold readout_z. apply mild_bind; [apply mild_register|]. intros h. apply mild_bind; [|intros _; unfold measure_ancilla; mild].
    unfold readout_z_into_ancilla. apply mild_bind; [mild|]. intros _. case_match; (apply mild_bind; [apply mild_row|]; intros is; mild).
  - unfold lattice_readout_x, lattice_readout. apply mild_update. intros p s Hp. apply key_then. intros n _. eapply put_then; [done|by split|]. unfold emit_meas. mild.
  - unfold lattice_readout_z, lattice_readout. apply mild_update. intros p s Hp. apply key_then. intros n _. eapply put_then; [done|by split|]. unfold emit_meas. mild.
  - unfold reset_x. cbv zeta. case_match; mild.
  - unfold reset_z. cbv zeta. case_match; mild.
  - unfold logical_x. apply mild_bind; [apply mild_col|]. intros is. mild.
  - unfold logical_z. apply mild_bind; [apply mild_row|]. intros is. mild.
  - unfold id_all. mild.
  - unfold id_data. mild.
Qed.
Lemma mild_validate l : mild (validate_rotated l).
Proof.
  apply mild_update. intros p s Hp. destruct (d_of p) as [[z|dl|]|] eqn:Ed; try (apply mild_bind; [apply mild_ret|intros; apply mild_lift]).
  destruct (T_of p); [|apply mild_bind; [apply mild_ret|intros; apply mild_lift]]. eapply put_then; [done| |apply mild_lift].
  split; [|done]. intros dl. by rewrite Ed.
Qed.
Lemma mild_decoder rep l : mild (new_decoder rep l).
Proof.
  unfold new_decoder. apply mild_bind; [destruct rep; [apply mild_or_new|apply mild_ret]|]. intros l'. apply mild_bind; [destruct rep; [apply mild_rep|apply mild_ret]|].
  intros _. apply mild_bind; [apply mild_validate|]. intros ?. mild.
Qed.
Lemma mild_new_circuit {A} (m : M A) : mild m -> mild (on_new_circuit m).
Proof. intros Hm s Hf. destruct (Hm (set_instrs (set_regs s []) []) Hf) as [A1 A2 A3]. constructor; cbn in *; done. Qed.
Lemma mild_encoder o : mild (encoder o).
Proof.
  unfold encoder. destruct (do_enc o); [apply mild_ret|]. apply mild_bind; [apply mild_get|]. intros p. apply mild_bind; [apply mild_new_params|]. intros l.
  apply mild_new_circuit, mild_new.
Qed.
Lemma mild_parse q k ty : mild (qubit_parse q k ty).
Proof. unfold qubit_parse. mild. Qed.
Lemma mild_setT l T : mild (let* p := get_params l in put_params l (upd_T p T)).
Proof. apply mild_update. intros p s Hp. by apply (keeps_put s l p). Qed.
Lemma mild_k rx w c : keeps (w_st w) (w_st (run_k rx w c).1).
Proof.
  destruct c as [t l name|i o|rep l|l T|p|j ep ky isx]; cbn [run_k].
  - pose proof (mild_new t (Some l) name (w_st w)) as H. by destruct (new_tqubit _ _ _ _) as [s [q|e]].
  - destruct (w_qs w !! i); [apply mild_op|apply keeps_refl].
  - pose proof (mild_decoder rep l (w_st w)) as H. by destruct (new_decoder _ _ _) as [s [q|e]].
  - apply mild_setT.
  - apply mild_new_params.
  - destruct (w_ds w !! j) as [o|]; [|apply keeps_refl]. pose proof (mild_encoder o (w_st w)) as H. destruct (encoder o (w_st w)) as [s [q|e]]; [|done]. cbn in H.
    pose proof (mild_parse q ky (Some (type_string isx)) s) as H'. destruct (qubit_parse _ _ _ _) as [s' [[lv [X Z']]|e]]; cbn in *; eauto using keeps_trans.
Qed.

(** ** One decoder in the course of a program *)
Definition pure_decoder (rep : bool) (p : params) : res decoder :=
  if rep then repetition_decoder (pfp_of p) (d_of p) (T_of p) else rotated_decoder (d_of p) (T_of p).
(** The decoder's dictionary, and that of its encoder, have the size of its graphs. *)
Record fit (s : st) (o : dobj) : Prop := {
  ft_params : exists p, s_heap s !! do_params o = Some p /\ d_of p = Some (DTup [dec_h (do_dec o); dec_w (do_dec o)]) /\
    (do_rep o = true -> exists b, pfp_of p = Some b /\ rep_d b (d_of p) = Ok [dec_h (do_dec o); dec_w (do_dec o)]);
  ft_enc : forall q, do_enc o = Some q -> exists p dl, s_heap s !! lat_params (tq_lat q) = Some p /\ d_of p = Some (DTup dl) /\
    py_index dl 0 = Ok (dec_h (do_dec o)) /\ py_index dl 1 = Ok (dec_w (do_dec o)) }.
Lemma fit_keeps s s' o : heap_fresh s -> keeps s s' -> fit s o -> fit s' o.
Proof.
  intros Hf HK [(p & Hp & Hd & Hr) He]. destruct (HK Hf) as [_ _ HH]. split.
  - destruct (HH _ _ Hp) as (p' & Hp' & [K1 K2]). exists p'. split; [done|]. split; [by apply K1|]. intros E. destruct (Hr E) as (b & Hb & Hrd). exists b. split; [by apply K2|].
    rewrite (K1 _ Hd). by rewrite <-Hd.
  - intros q Hq. destruct (He q Hq) as (p' & dl & Hp' & Hd' & ?). destruct (HH _ _ Hp') as (p'' & Hp'' & [K1 _]). exists p'', dl. split; [done|]. split; [by apply K1|done].
Qed.
Lemma build_h rep isx dh dw T D : build_graphs rep isx (dh, dw, T) = Ok D -> dec_h D = dh /\ dec_w D = dw.
Proof. unfold build_graphs. repeat case_match; intros E; try done; by injection E as <-. Qed.
Lemma decoder_d_shape d T dh dw T' : decoder_d d T = Ok (dh, dw, T') -> d = Some (DTup [dh; dw]) \/ exists z, d = Some (DNum z) /\ dh = z /\ dw = z.
Proof.
  unfold decoder_d. destruct d as [[z|dl|]|], T as [T|]; try done.
  - case_match; intros E; try done. injection E as <- <- <-. right. eauto.
  - destruct dl as [|a [|b [|]]]; try done. case_match; intros E; try done. injection E as <- <- <-. by left.
Qed.
Lemma validate_spec l s p : s_heap s !! l = Some p ->
  exists s' p', validate_rotated l s = (s', decoder_d (d_of p) (T_of p)) /\ s_heap s' !! l = Some p' /\ pfp_of p' = pfp_of p /\
    (forall dh dw T, decoder_d (d_of p) (T_of p) = Ok (dh, dw, T) -> d_of p' = Some (DTup [dh; dw])).
Proof.
  intros Hp. unfold validate_rotated, mbind', get_params. rewrite Hp.
  destruct (d_of p) as [[z|dl|]|] eqn:Ed.
  2-4: exists s, p; split; [done|]; split; [done|]; split; [done|]; intros dh dw T E; destruct (decoder_d_shape _ _ _ _ _ E) as [E'|(z & E' & _)]; try done; congruence.
  destruct (T_of p) as [T|].
  - eexists _, _. split; [done|]. split; [cbn; apply lookup_insert|]. split; [done|]. intros dh dw T' E. destruct (decoder_d_shape _ _ _ _ _ E) as [E'|(z' & E' & -> & ->)]; [done|]. by injection E' as ->.
  - exists s, p. split; [done|]. split; [done|]. split; [done|]. done.
Qed.
Lemma rep_validate_eq l s p : s_heap s !! l = Some p -> let b := default false (pfp_of p) in
  rep_validate l s = match rep_d b (d_of p) with
    | Ok dl => (set_heap s (<[l := set_d (set_pfp p b) (Some (DTup dl))]> (<[l := set_pfp p b]> (s_heap s))), Ok tt)
    | Err e => (set_heap s (<[l := set_pfp p b]> (s_heap s)), Err e) end.
Proof.
  intros Hp b. unfold rep_validate, mbind' at 1, get_params. rewrite Hp. fold b. unfold mbind', put_params, mlift. by destruct (rep_d b (d_of p)).
Qed.
(** A decoder is built, or fails, as determined by "d", "T" and "phase-flip-protected" in its
    dictionary at that time. *)
Theorem C54_construct rep l p s : s_heap s !! l = Some p ->
  match pure_decoder rep p with
  | Ok D => exists s' o, new_decoder rep l s = (s', Ok o) /\ do_dec o = D /\ do_rep o = rep /\ do_enc o = None /\ fit s' o /\ do_params o = l
  | Err e => exists s', new_decoder rep l s = (s', Err e)
  end.
Proof.
  intros Hp. assert (HG : forall r, new_decoder rep l s = r -> match pure_decoder rep p with
    | Ok D => exists s' o, r = (s', Ok o) /\ do_dec o = D /\ do_rep o = rep /\ do_enc o = None /\ fit s' o /\ do_params o = l
    | Err e => exists s', r = (s', Err e) end); [|by apply HG].
  intros r Er. unfold new_decoder in Er. destruct rep; cbn [pure_decoder].
  - unfold repetition_decoder. cbv zeta. destruct (params_empty p) eqn:Ee.
    + destruct p as [[?|] [?|] [?|] [?|] [?|] [?|] [?|]]; try done. cbn [pfp_of d_of T_of default from_option rep_d]. cbn [decoder_d].
      assert (E0 : or_new (Some l) s = new_params empty_params s) by (cbn; unfold mbind', get_params; by rewrite Hp).
      unfold mbind' at 1 in Er. rewrite E0 in Er. cbn [new_params] in Er. set (s0 := St _ _ _ _ _ _ _ _ _) in Er. unfold mbind' at 1 in Er.
      rewrite (rep_validate_eq (s_next s) s0 empty_params) in Er by (cbn; apply lookup_insert). cbn [pfp_of d_of empty_params default from_option rep_d] in Er. set (s1 := set_heap s0 _) in Er.
      assert (H1 : s_heap s1 !! s_next s = Some (set_d (set_pfp empty_params false) (Some (DTup [3; 1])))) by (cbn; apply lookup_insert).
      destruct (validate_spec _ s1 _ H1) as (s2 & p2 & Ev & _). cbn [d_of T_of set_d set_pfp empty_params] in Ev. unfold mbind' in Er. rewrite Ev in Er. cbn [decoder_d] in Er. eauto.
    + assert (E0 : or_new (Some l) s = (s, Ok l)) by (cbn; unfold mbind', get_params; by rewrite Hp, Ee).
      unfold mbind' at 1 in Er. rewrite E0 in Er. unfold mbind' at 1 in Er. set (b := default false (pfp_of p)) in *.
      rewrite (rep_validate_eq l s p Hp) in Er. fold b in Er. destruct (rep_d b (d_of p)) as [dl|e] eqn:Erd; [|eauto].
      set (s1 := set_heap s _) in Er. set (p1 := set_d (set_pfp p b) (Some (DTup dl))) in *.
      assert (H1 : s_heap s1 !! l = Some p1) by (cbn; apply lookup_insert).
      destruct (validate_spec l s1 p1 H1) as (s2 & p2 & Ev & Hp2 & Hpf & Hd2). cbn [d_of T_of p1 set_d set_pfp] in Ev, Hd2.
      unfold mbind' at 1 in Er. rewrite Ev in Er. destruct (decoder_d (Some (DTup dl)) (T_of p)) as [[[dh dw] T]|e] eqn:Edd; [|eauto].
      unfold mbind' at 1, get_params in Er. rewrite Hp2, Hpf in Er. cbn [pfp_of p1 set_d set_pfp default from_option id] in Er.
      unfold mbind', mlift in Er. cbn [build_graphs] in Er. destruct (make_syndrome_graph b dh dw T) as [g|e]; [|eauto].
      eexists _, _. split; [symmetry; exact Er|]. split_and!; try done. split; [|done]. cbn [do_params do_dec do_rep]. exists p2. split; [done|].
      assert (Eh : forall A B : option (lgraph Z), dec_h (if b then Dec dh dw T A B else Dec dh dw T B A) = dh /\ dec_w (if b then Dec dh dw T A B else Dec dh dw T B A) = dw) by (intros; by destruct b).
      destruct (Eh (Some g) None) as [-> ->]. specialize (Hd2 _ _ _ eq_refl). split; [done|]. intros _. exists b. split; [by rewrite Hpf|]. rewrite Hd2.
      destruct (decoder_d_shape _ _ _ _ _ Edd) as [Ed|(z & Ed & _)]; [|done]. injection Ed as ->.
      unfold rep_d in Erd |- *. clear -Erd. destruct (d_of p) as [[z|l|]|]; [| |done|].
      * destruct b; injection Erd as <- <-; by vm_compute.
      * destruct b; destruct (py_index l _) as [x|] eqn:Ex; cbn in Erd; try done; case_bool_decide; try done; injection Erd as ->; rewrite Ex; cbn; by case_bool_decide.
      * destruct b; injection Erd as <- <-; by vm_compute.
  - unfold mbind' at 1 in Er. cbn [Circ.mret] in Er. unfold mbind' at 1 in Er. cbn [Circ.mret] in Er. destruct (validate_spec l s p Hp) as (s2 & p2 & Ev & Hp2 & Hpf & Hd2).
    unfold mbind' at 1 in Er. rewrite Ev in Er. unfold rotated_decoder. destruct (decoder_d (d_of p) (T_of p)) as [[[dh dw] T]|e] eqn:Edd; [|eauto].
    unfold mbind' at 1, get_params in Er. rewrite Hp2 in Er. unfold mbind', mlift in Er. cbn [build_graphs] in Er.
    destruct (make_syndrome_graph true dh dw T) as [g|e]; [|eauto]. destruct (make_syndrome_graph false dh dw T) as [g'|e]; [|eauto].
    eexists _, _. split; [symmetry; exact Er|]. split_and!; try done. split; [|done]. exists p2. split; [done|]. split; [by apply (Hd2 _ _ T)|done].
Qed.
Print Assumptions C54_construct.

Lemma encoder_fit s o : heap_fresh s -> fit s o -> valid_size (dec_h (do_dec o)) (dec_w (do_dec o)) ->
  exists s' q, encoder o s = (s', Ok q) /\ fit s' (set_enc o q) /\ s_regs s' = s_regs s /\ s_instrs s' = s_instrs s /\ s_tq s' = s_tq s /\ s_n s' = s_n s /\
    forall l p, s_heap s !! l = Some p -> s_heap s' !! l = Some p.
Proof.
  intros Hf Hfit Hv. pose proof Hfit as [(p & Hp & Hd & Hr) He]. unfold encoder. destruct (do_enc o) as [q|] eqn:Eo.
  - exists s, q. split; [done|]. split; [|done]. split; [by exists p|]. intros q' Hq. injection Hq as <-. by apply He.
  - unfold mbind' at 1, get_params. rewrite Hp. unfold mbind' at 1. cbn [new_params]. set (s1 := St _ _ _ _ _ _ _ _ _).
    assert (H1 : s_heap s1 !! s_next s = Some p) by (cbn; apply lookup_insert).
    set (dh := dec_h (do_dec o)) in *. set (dw := dec_w (do_dec o)) in *.
    set (s2 := set_instrs (set_regs s1 []) []).
    assert (Hfr : fresh_lattice s2 "tq") by (intros suf _; apply not_elem_of_nil).
    assert (HN : exists s3 q, new_tqubit (if do_rep o then TRepetition else TXXZZ) (Some (s_next s)) "tq" s2 = (s3, Ok q) /\ lat_ok s3 q dh dw /\
      forall l p, s_heap s !! l = Some p -> s_heap s3 !! l = Some p).
    { assert (HL : forall l p', s_heap s !! l = Some p' -> l <> s_next s) by (intros l p' Hl ->; by rewrite (Hf _ (le_n _)) in Hl).
      destruct (do_rep o).
      - destruct (Hr eq_refl) as (b & Hb & Erd). rewrite (new_rep_unfold (s_next s) "tq" s2 p H1) by (by eapply d_not_empty). rewrite Hb. cbn [default from_option id]. rewrite Erd.
        erewrite (new_lattice_ok XXZZ (s_next s) "tq" _ _ [dh; dw] dh dw); [|apply lookup_insert|done|done|done|done|exact Hfr].
        eexists _, _. split; [done|]. split; [by apply new_params_lat_ok|]. intros l p' Hl. cbn. rewrite !lookup_insert_ne by (intros <-; by eapply HL). done.
      - destruct (new_surface_ok TXXZZ (s_next s) "tq" s2 p (DTup [dh; dw]) dh dw) as (dl & D0 & D1 & ->); try done.
        eexists _, _. split; [done|]. split; [by apply new_params_lat_ok|]. intros l p' Hl. cbn. rewrite !lookup_insert_ne by (intros <-; by eapply HL). done. }
    destruct HN as (s3 & q & EN & Hok & Hold). unfold on_new_circuit. fold s2. rewrite EN. cbn [fst snd].
    eexists _, q. split; [done|]. split.
    + split; cbn [set_enc do_params do_dec do_rep do_enc s_heap].
      * exists p. split; [by apply Hold|]. split; [done|]. done.
      * intros q' Hq. injection Hq as <-. destruct (lo_heap _ _ _ _ Hok) as (p' & dl & _ & _ & _ & Hp' & Hd' & D0 & D1 & _). exists p', dl. done.
    + split_and!; done.
Qed.
Lemma parse_fit s q o ky ty p dl : s_heap s !! lat_params (tq_lat q) = Some p -> d_of p = Some (DTup dl) ->
    py_index dl 0 = Ok (dec_h (do_dec o)) -> py_index dl 1 = Ok (dec_w (do_dec o)) ->
  qubit_parse q ky ty s = (s, parse_readout (dec_h (do_dec o)) (dec_w (do_dec o)) ky ty).
Proof.
  intros Hp Hd H0 H1. unfold qubit_parse, mbind', get_params. rewrite Hp. unfold get_dim, mbind'. rewrite Hd. cbn [key Circ.mret]. unfold mlift. rewrite H0, H1. done.
Qed.
(** The answer of a decoder at any time. *)
Lemma correct_fit rx w j o ep ky isx : heap_fresh (w_st w) -> w_ds w !! j = Some o -> fit (w_st w) o -> valid_size (dec_h (do_dec o)) (dec_w (do_dec o)) ->
  exists s' o', run_k rx w (KCorrect j ep ky isx) = (World s' (w_qs w) (<[j := o']> (w_ds w)), Some (correct_readout rx (do_dec o) ep ky isx)) /\
    fit s' o' /\ do_dec o' = do_dec o /\ s_regs s' = s_regs (w_st w) /\ s_instrs s' = s_instrs (w_st w) /\ s_tq s' = s_tq (w_st w) /\ s_n s' = s_n (w_st w) /\
    forall l p, s_heap (w_st w) !! l = Some p -> s_heap s' !! l = Some p.
Proof.
  intros Hf Hj Hfit Hv. cbn [run_k]. rewrite Hj. destruct (encoder_fit _ _ Hf Hfit Hv) as (s1 & q & -> & Hfit' & Hrest).
  destruct (ft_enc _ _ Hfit' q eq_refl) as (p & dl & Hp & Hd & H0 & H1). cbn [set_enc do_dec] in H0, H1.
  rewrite (parse_fit s1 q o ky _ p dl Hp Hd H0 H1). unfold correct_readout.
  destruct (parse_readout _ _ _ _) as [[lv [X Z']]|e]; eexists _, (set_enc o q); split; try done; split; try done.
Qed.

(** Whatever is done with the library before and after, on the same dictionary or others
    (constructing qubits and decoders, calling qubits, decoding, the caller storing other
    numbers of rounds), a decoder answers as determined by its dictionary at its construction. *)
Section program.
Context (rx : retworkx) (j : nat) (D : decoder) (Hv : valid_size (dec_h D) (dec_w D)).
Lemma fit_k w c o : heap_fresh (w_st w) -> w_ds w !! j = Some o -> do_dec o = D -> fit (w_st w) o ->
  heap_fresh (w_st (run_k rx w c).1) /\ exists o', w_ds (run_k rx w c).1 !! j = Some o' /\ do_dec o' = D /\ fit (w_st (run_k rx w c).1) o'.
Proof.
  intros Hf Hj HD Hfit. pose proof (mild_k rx w c) as HK. split; [by destruct (HK Hf)|]. pose proof (fit_keeps _ _ _ Hf HK Hfit) as Hfit'.
  destruct c as [t l name|i o'|rep l|l T|p|j' ep ky isx].
  1-5: exists o; split; [|done].
  1: cbn [run_k]; by destruct (new_tqubit _ _ _ _) as [s [q|e]].
  1: cbn [run_k]; by destruct (w_qs w !! i).
  1: cbn [run_k]; destruct (new_decoder _ _ _) as [s [q|e]]; [|done]; cbn; by apply lookup_app_l_Some.
  1-2: done.
  destruct (decide (j' = j)) as [->|Hne].
  - rewrite <-HD in Hv. destruct (correct_fit rx w j o ep ky isx Hf Hj Hfit Hv) as (s' & o' & -> & Ho & HD' & _). cbn [fst w_ds w_st]. exists o'.
    split; [apply list_lookup_insert; by eapply lookup_lt_Some|]. split; [congruence|done].
  - exists o. split; [|done]. cbn [run_k]. destruct (w_ds w !! j') as [o'|]; [|done]. destruct (encoder o' (w_st w)) as [s [q|e]]; [|done].
    destruct (qubit_parse _ _ _ _) as [s' [[lv [X Z']]|e]]; cbn [fst w_ds]; by rewrite list_lookup_insert_ne.
Qed.
Lemma fit_ks l : forall w o, heap_fresh (w_st w) -> w_ds w !! j = Some o -> do_dec o = D -> fit (w_st w) o ->
  heap_fresh (w_st (run_ks rx w l)) /\ exists o', w_ds (run_ks rx w l) !! j = Some o' /\ do_dec o' = D /\ fit (w_st (run_ks rx w l)) o'.
Proof.
  induction l as [|c l IHl]; intros w o Hf Hj HD Hfit; [eauto|]. cbn. destruct (fit_k w c o Hf Hj HD Hfit) as (Hf' & o' & Hj' & HD' & Hfit'). by eapply IHl.
Qed.
End program.
Lemma run_ks_fresh rx l : forall w, heap_fresh (w_st w) -> heap_fresh (w_st (run_ks rx w l)).
Proof. induction l as [|c l IHl]; intros w Hf; [done|]. cbn. apply IHl. by destruct (mild_k rx w c Hf). Qed.
Theorem C54_decoder_fixed rx w0 pre rep l p post D ep ky isx : heap_fresh (w_st w0) ->
  let w1 := run_ks rx w0 pre in
  s_heap (w_st w1) !! l = Some p -> pure_decoder rep p = Ok D -> valid_size (dec_h D) (dec_w D) ->
  let w2 := run_ks rx w0 (pre ++ KDec rep l :: post) in
  (run_k rx w2 (KCorrect (length (w_ds w1)) ep ky isx)).2 = Some (correct_readout rx D ep ky isx).
Proof.
  intros Hf w1 Hp HD Hv w2. assert (Hf1 : heap_fresh (w_st w1)) by (by apply run_ks_fresh).
  pose proof (C54_construct rep l p (w_st w1) Hp) as HC. rewrite HD in HC. destruct HC as (s' & o & EN & Ho & Hrep & Henc & Hfit & _).
  set (w3 := World s' (w_qs w1) (w_ds w1 ++ [o])).
  assert (E3 : run_k rx w1 (KDec rep l) = (w3, None)) by (cbn [run_k]; by rewrite EN).
  assert (Hf3 : heap_fresh (w_st w3)). { pose proof (mild_k rx w1 (KDec rep l)) as HK. rewrite E3 in HK. by destruct (HK Hf1). }
  assert (E2 : w2 = run_ks rx w3 post). { unfold w2, run_ks. rewrite foldl_app. cbn [foldl]. fold (run_ks rx w0 pre). fold w1. by rewrite E3. }
  destruct (fit_ks rx (length (w_ds w1)) D Hv post w3 o) as (Hf2 & o' & Hj & HD' & Hfit'); try done.
  { cbn. rewrite lookup_app_r by lia. by rewrite Nat.sub_diag. }
  rewrite <-E2 in *. rewrite <-HD' in Hv. destruct (correct_fit rx w2 _ o' ep ky isx Hf2 Hj Hfit' Hv) as (s4 & o4 & -> & _). cbn. by rewrite HD'.
Qed.
Print Assumptions C54_decoder_fixed.

(** Decoding changes no circuit, qubit or dictionary that exists. *)
Theorem C54_decoding_harmless rx w0 pre rep l p post D ep ky isx : heap_fresh (w_st w0) ->
  let w1 := run_ks rx w0 pre in
  s_heap (w_st w1) !! l = Some p -> pure_decoder rep p = Ok D -> valid_size (dec_h D) (dec_w D) ->
  let w2 := run_ks rx w0 (pre ++ KDec rep l :: post) in
  let w3 := (run_k rx w2 (KCorrect (length (w_ds w1)) ep ky isx)).1 in
  s_regs (w_st w3) = s_regs (w_st w2) /\ s_instrs (w_st w3) = s_instrs (w_st w2) /\ w_qs w3 = w_qs w2 /\
  forall l' p', s_heap (w_st w2) !! l' = Some p' -> s_heap (w_st w3) !! l' = Some p'.
Proof.
  intros Hf w1 Hp HD Hv w2. cbn zeta. assert (Hf1 : heap_fresh (w_st w1)) by (by apply run_ks_fresh).
  pose proof (C54_construct rep l p (w_st w1) Hp) as HC. rewrite HD in HC. destruct HC as (s' & o & EN & Ho & Hrep & Henc & Hfit & _).
  set (w3 := World s' (w_qs w1) (w_ds w1 ++ [o])).
  assert (E3 : run_k rx w1 (KDec rep l) = (w3, None)) by (cbn [run_k]; by rewrite EN).
  assert (Hf3 : heap_fresh (w_st w3)). { pose proof (mild_k rx w1 (KDec rep l)) as HK. rewrite E3 in HK. by destruct (HK Hf1). }
  assert (E2 : w2 = run_ks rx w3 post). { unfold w2, run_ks. rewrite foldl_app. cbn [foldl]. fold (run_ks rx w0 pre). fold w1. by rewrite E3. }
  destruct (fit_ks rx (length (w_ds w1)) D Hv post w3 o) as (Hf2 & o' & Hj & HD' & Hfit'); try done.
  { cbn. rewrite lookup_app_r by lia. by rewrite Nat.sub_diag. }
  rewrite <-E2 in *. rewrite <-HD' in Hv. destruct (correct_fit rx w2 _ o' ep ky isx Hf2 Hj Hfit' Hv) as (s4 & o4 & -> & _ & _ & H1 & H2 & _ & _ & H3). done.
Qed.
Print Assumptions C54_decoding_harmless.

(** ** A decoder made from the dictionary of a qubit *)
Lemma mild_evs q l : mild (run_evs q l).
Proof. apply mild_mfor. intros [o|x i]; cbn [run_ev]; [apply mild_op|apply mild_emit]. Qed.
Lemma evs_T n l : cT (evs_next n l) = cT n + Z.of_nat (count is_stab (calls l)).
Proof.
  revert n. induction l as [|e l IHl]; intros n; [cbn; lia|]. cbn [evs_next]. rewrite IHl, calls_cons. destruct e as [o|x i]; cbn [ev_next]; [|done].
  rewrite count_step. destruct o; cbn [op_next is_stab bump_T cT]; try case_match; cbn [bump_R bump_L cT]; lia.
Qed.
(** The size and the number of rounds recorded in the dictionary of a qubit. *)
Definition own_dict (s : st) (q : tqubit) (dh dw T : Z) : Prop :=
  exists p, s_heap s !! lat_params (tq_lat q) = Some p /\ d_of p = Some (DTup [dh; dw]) /\ T_of p = Some T.
Theorem C54_own_dict_new t l name s p dh dw :
  t <> TRepetition -> s_heap s !! l = Some p -> d_of p = Some (DTup [dh; dw]) \/ (d_of p = Some (DNum dh) /\ dw = dh) ->
  valid_size dh dw -> fresh_lattice s name ->
  exists s' q, new_tqubit t (Some l) name s = (s', Ok q) /\ lat_params (tq_lat q) = l /\ own_dict s' q dh dw (-1).
Proof.
  intros Ht Hp Hd Hv Hf. assert (Hn : norm_d (d_of p) = Ok [dh; dw]) by (by destruct Hd as [->|[-> ->]]).
  assert (He : params_empty p = false) by (destruct Hd as [Hd|[Hd _]]; by eapply d_not_empty).
  unfold new_tqubit. erewrite mbind_ok by (by eapply or_new_keep).
  assert (forall (m : M unit), (match t with TRepetition => m | _ => Circ.mret tt end) s = (s, Ok tt)) as Hm by (by destruct t).
  erewrite mbind_ok by apply Hm. erewrite mbind_ok by (eapply new_lattice_ok; [done|exact Hn|done|done|done|done]).
  eexists _, _. split; [done|]. split; [done|]. eexists. split; [cbn; apply lookup_insert|done].
Qed.
Print Assumptions C54_own_dict_new.
(** After k rounds the dictionary gives a decoder for T = k - 1. *)
Theorem C54_own_dict s q dh dw T l s' : heap_fresh s -> lat_ok s q dh dw -> own_dict s q dh dw T -> run_evs q l s = (s', Ok tt) ->
  let T' := T + Z.of_nat (count is_stab (calls l)) in
  own_dict s' q dh dw T' /\
  exists D o s'', rotated_decoder (Some (DTup [dh; dw])) (Some T') = Ok D /\
    new_decoder false (lat_params (tq_lat q)) s' = (s'', Ok o) /\ do_dec o = D.
Proof.
  intros Hf Hok (p & Hp & Hd & HT) Hr T'. destruct (lat_ok_cnt _ _ _ _ Hok) as [n Hn]. pose proof (run_evs_inv _ _ _ _ _ _ _ Hok Hn Hr) as HP.
  pose proof (po_cnt _ _ _ _ _ _ _ _ HP) as (p' & Hp' & HT' & _). rewrite evs_T in HT'.
  destruct Hn as (p0 & Hp0 & HT0 & _). rewrite Hp in Hp0. injection Hp0 as <-. rewrite HT in HT0. injection HT0 as ET. rewrite <-ET in HT'. fold T' in HT'.
  pose proof (mild_evs q l s Hf) as [_ _ HH]. rewrite Hr in HH. cbn [fst] in HH. destruct (HH _ _ Hp) as (p2 & Hp2 & [K1 _]). rewrite Hp' in Hp2. injection Hp2 as <-. specialize (K1 _ Hd).
  split; [by exists p'|]. destruct (decoder_for_rotated false dh dw T' (lo_valid _ _ _ _ Hok)) as (D & ED & _).
  pose proof (C54_construct false _ p' s' Hp') as HC. cbn [pure_decoder] in HC. rewrite K1, HT', ED in HC.
  destruct HC as (s2 & o & EN & Ho & _). exists D, o, s2. done.
Qed.
Print Assumptions C54_own_dict.
(** That is enough to decode the logical readout that ends a run: C27 with the decoder made
    from the dictionary of the qubit at the end of the run. *)
Theorem C54_own_dict_decodes (R : Amp) isx s q dh dw l s' is (k0 k1 : config R) rs rd rx ep misread cs' :
  heap_fresh s -> own_dict s q dh dw (-1) ->
  lat_ok s q dh dw -> 1 < dh * dw -> cregs s = [] ->
  run_evs q (Call (reset_op isx) :: Call OStab :: l ++ [Call OStab; Call (read_op isx)]) s = (s', Ok tt) ->
  emitted s s' is -> Forall (body_ev dh dw) l ->
  syndromes_clean q k0.2 -> exec is k0 k1 -> possible k1 ->
  cregs s' = rs ++ [rd] ->
  observed isx dh dw rs.*1 misread k1.1 cs' -> cs' (rd.1, 0) = k1.1 (rd.1, 0) ->
  let N := Z.of_nat (length rs) in
  (forall m, m ∈ misread -> 1 <= m.1 < N - 1 /\ 0 <= m.2 < nsyn isx dh dw) ->
  Z.of_nat (length (flips_of isx (lat_code (tq_lat q)) dh dw 0 l) + length misread) <= (extent isx dh dw - 1) / 2 ->
  rx_ok rx ->
  exists o s'', new_decoder false (lat_params (tq_lat q)) s' = (s'', Ok o) /\
  correct_readout rx (do_dec o) ep (counts_key cs' (cregs s')) isx = Ok (Z.b2z (Nat.odd (count (inverts isx) (calls l)))).
Proof.
  intros Hf Hown Hok H1 Hcr Hr Hem Hl Hcl He Hp Hrs Hobs Hrd N Hmis Hw Hrx.
  destruct (C54_own_dict s q dh dw (-1) _ s' Hf Hok Hown Hr) as (_ & D & o & s2 & ED & EN & HD).
  set (T' := -1 + _) in ED. exists o, s2. split; [done|].
  destruct (lat_ok_cnt _ _ _ _ Hok) as [n Hn].
  destruct (logical_record R isx s q dh dw l s' is k0 k1 rs rd misread cs' n Hok Hn Hcr Hr Hem Hl Hcl He Hp Hrs Hobs Hrd Hmis) as (HN & _).
  assert (HT' : T' = N - 1).
  { unfold T'. fold N in HN. rewrite HN. rewrite !calls_cons, !count_step, calls_app, count_app, !calls_cons, !count_step. destruct isx; cbn [reset_op read_op is_stab calls omap list_omap count filter list_filter length]; rewrite ?Nat.add_0_l; change (count is_stab (calls [])) with 0%nat; lia. }
  destruct (decoder_for_rotated isx dh dw T' (lo_valid _ _ _ _ Hok)) as (D' & ED' & HDf). rewrite ED in ED'. injection ED' as <-.
  rewrite HD. refine (proj2 (C27_end_to_end R isx s q dh dw l s' is k0 k1 rs rd T' D rx ep misread cs' Hok H1 Hcr Hr Hem Hl Hcl He Hp Hrs Hobs Hrd Hmis Hw HDf _ Hrx)). fold N. lia.
Qed.
Print Assumptions C54_own_dict_decodes.
Lemma xorl_split {A} (f g h : A -> bool) l : (forall x, h x = xorb (f x) (g x)) -> xorl (h <$> l) = xorb (xorl (f <$> l)) (xorl (g <$> l)).
Proof.
  intros E. induction l as [|x l IHl]; [done|]. rewrite !fmap_cons, !xorl_cons, IHl, E. destruct (f x), (g x), (xorl (f <$> l)), (xorl (g <$> l)); done.
Qed.
(** It is one round short for a readout of the whole lattice: whatever the outcomes, if the
    faults after the last round change some stabilizer then that decoder raises KeyError. *)
Theorem C54_own_dict_lattice (R : Amp) s q dh dw l s' is (k0 k1 : config R) rs rd rx ep :
  heap_fresh s -> own_dict s q dh dw (-1) ->
  lat_ok s q dh dw -> 1 < dh * dw -> cregs s = [] ->
  run_evs q (Call OResetZ :: Call OStab :: l ++ [Call OLatZ]) s = (s', Ok tt) ->
  emitted s s' is -> Forall (body_ev dh dw) l ->
  syndromes_clean q k0.2 -> exec is k0 k1 -> possible k1 ->
  cregs s' = rs ++ [rd] -> rx_ok rx ->
  let N := Z.of_nat (length rs) in let c := lat_code (tq_lat q) in
  (exists loc, 0 <= loc < nsyn false dh dw /\
    xorl ((fun f => bool_decide (f.1 = N - 1) && anti (err_at false c dh dw f.2) (stabk false c dh dw loc)) <$> flips_of false c dh dw 0 l) = true) ->
  exists o s'', new_decoder false (lat_params (tq_lat q)) s' = (s'', Ok o) /\
  correct_readout rx (do_dec o) ep (counts_key k1.1 (cregs s')) false = Err KeyError.
Proof.
  intros Hf Hown Hok H1 Hcr Hr Hem Hl Hcl He Hp Hrs Hrx N c (loc & Hloc & Hx).
  destruct (C54_own_dict s q dh dw (-1) _ s' Hf Hok Hown Hr) as (_ & D & o & s2 & ED & EN & HD).
  set (T' := -1 + _) in ED. exists o, s2. split; [done|].
  destruct (lat_ok_cnt _ _ _ _ Hok) as [n Hn]. pose proof (lo_valid _ _ _ _ Hok) as Hv.
  destruct (lattice_record R s q dh dw l s' is k0 k1 rs rd [] k1.1 n Hok Hn Hcr Hr Hem Hl Hcl He Hp Hrs) as (HN & names & nm & _ & Hcregs & HL & _ & Hrep & _).
  { intros ? ? ? _ _. cbn. by rewrite xorb_false_r. } { done. } { intros m Hm. by apply elem_of_nil in Hm. }
  fold N c in HN, HL, Hrep.
  assert (HT' : T' = N - 1).
  { unfold T'. rewrite HN. rewrite !calls_cons, !count_step, calls_app, count_app, !calls_cons, !count_step. cbn [is_stab]. change (count is_stab (calls [])) with 0%nat. lia. }
  destruct (decoder_for_rotated false dh dw T' Hv) as (D' & ED' & HDf). rewrite ED in ED'. injection ED' as <-.
  rewrite HD, Hcregs. eapply C22_late_event_lattice_z; [done|done|exact HDf|done|].
  set (rounds := recorded _ _ ++ [final_round _ _ _ _]) in *.
  destruct (lookup_lt_is_Some_2 rounds (Z.to_nat (N - 1))) as [r Er]; [lia|]. destruct (lookup_lt_is_Some_2 rounds (S (Z.to_nat (N - 1)))) as [r' Er']; [lia|].
  exists (Z.of_nat (Z.to_nat (N - 1))), (coord_z dw loc).1, (coord_z dw loc).2. split; [lia|]. exists (Z.to_nat (N - 1)), r, r', loc. split; [exact Er|]. split; [exact Er'|]. split; [exact Hloc|]. split; [|reflexivity].
  pose proof (Hrep _ _ loc Er Hloc) as E1. pose proof (Hrep _ _ loc Er' Hloc) as E2. unfold syn_off in E1, E2. rewrite E1, E2. unfold SpecFault.syn_bit.
  replace (Z.of_nat (S (Z.to_nat (N - 1)))) with N by lia. replace (Z.of_nat (Z.to_nat (N - 1))) with (N - 1) by lia.
  change (xorl (_ <$> [])) with false. rewrite !xorb_false_r.
  rewrite (xorl_split (fun f => bool_decide (f.1 < N - 1) && anti (err_at false c dh dw f.2) (stabk false c dh dw loc))
    (fun f => bool_decide (f.1 = N - 1) && anti (err_at false c dh dw f.2) (stabk false c dh dw loc)) (fun f => bool_decide (f.1 < N) && anti (err_at false c dh dw f.2) (stabk false c dh dw loc))).
  - rewrite Hx. set (a := first_values _ _ _ _ _ _ _). set (b := xorl _). clearbody a b. clear. destruct a, b; done.
  - intros f. set (a := anti _ _). clearbody a. clear. destruct a; rewrite ?andb_false_r, ?andb_true_r; [|done]. repeat case_bool_decide; done || lia.
Qed.
Print Assumptions C54_own_dict_lattice.

(** Concrete programs.  A decoder and then a qubit are made from one dictionary, which the
    qubit resets; the decoder still is the one for T = 4. *)
Definition c54_w : world := World (heap1 (upd_T (with_d (DTup [5; 3])) 4)) [] [].
Lemma heap1_fresh p : heap_fresh (heap1 p).
Proof. intros x Hx. cbn in *. apply lookup_singleton_ne. lia. Qed.
Example C54_fixed_ex : exists D,
  rotated_decoder (Some (DTup [5; 3])) (Some 4) = Ok D /\
  let prog := [KDec false 0; KNew TXZZX 0 "a"; KCall 0 OStab; KCall 0 OStab; KSetT 0 17] in
  T_of <$> (s_heap (w_st (run_ks rx_ref c54_w prog)) !! 0%nat) = Some (Some 17) /\
  length (w_qs (run_ks rx_ref c54_w prog)) = 1%nat /\
  forall ep ky isx, (run_k rx_ref (run_ks rx_ref c54_w prog) (KCorrect 0 ep ky isx)).2 = Some (correct_readout rx_ref D ep ky isx).
Proof.
  destruct (decoder_for_rotated false 5 3 4 v53) as (D & ED & HD). exists D. split; [done|]. split; [vm_compute; reflexivity|]. split; [vm_compute; reflexivity|].
  intros ep ky isx. destruct HD as (Hh & Hw & _).
  refine (C54_decoder_fixed rx_ref c54_w [] false 0 _ [KNew TXZZX 0 "a"; KCall 0 OStab; KCall 0 OStab; KSetT 0 17] D ep ky isx (heap1_fresh _) eq_refl ED _).
  rewrite Hh, Hw. exact v53.
Qed.
Lemma e2e_own : exists q, e2e_q.2 = Ok q /\ lat_ok e2e_q.1 q 5 3 /\ lat_code (tq_lat q) = XZZX /\ heap_fresh e2e_q.1 /\ own_dict e2e_q.1 q 5 3 (-1).
Proof.
  destruct e2e_ok as (q & Hq & Hok & Hc). exists q. do 3 (split; [done|]). split.
  - assert (Hf : heap_fresh (heap1 (with_d (DTup [5; 3])))) by apply heap1_fresh.
    exact (kp_fresh _ _ (mild_new TXZZX (Some 0%nat) "tq" _ Hf)).
  - destruct (C54_own_dict_new TXZZX 0 "tq" (heap1 (with_d (DTup [5; 3]))) (with_d (DTup [5; 3])) 5 3) as (s' & q' & E & _ & Ho); try done; [by left|intros suf _; apply not_elem_of_nil|].
    unfold e2e_q in Hq |- *. rewrite E in Hq |- *. cbn in Hq. injection Hq as <-. done.
Qed.
(** The run of [C27_ex], decoded with the qubit's own dictionary. *)
Example C54_own_dict_ex : exists q s' is (k1 : config ZAmp) o s'' cs',
  e2e_q.2 = Ok q /\ run_evs q (Call OResetZ :: Call OStab :: e2e_hist ++ [Call OStab; Call (OReadZ None)]) e2e_q.1 = (s', Ok tt) /\
  emitted e2e_q.1 s' is /\ exec is (fun _ => false, zero_state) k1 /\ possible k1 /\
  observed false 5 3 e2e_names [(1, 3)] k1.1 cs' /\ cs' ("tq_c1"%string, 3) <> k1.1 ("tq_c1"%string, 3) /\
  new_decoder false (lat_params (tq_lat q)) s' = (s'', Ok o) /\
  correct_readout rx_ref (do_dec o) EPNone (counts_key cs' (cregs s')) false = Ok 1.
Proof.
  destruct e2e_own as (q & Hq & Hok & Hc & Hf & Hown).
  assert (Hrun : run_ok e2e_q (Call OResetZ :: Call OStab :: e2e_hist ++ [Call OStab; Call (OReadZ None)]) = true) by (vm_compute; reflexivity).
  destruct (run_ok_inv _ _ _ _ _ Hq Hok Hrun) as (s' & is & Hr & Hem).
  destruct (evs_possible _ _ _ _ _ _ _ ((fun _ => false), zero_state) Hok Hr Hem (zero_possible _)) as (k1 & He & Hp).
  assert (Hregs : cregs s' = ((., 14) <$> e2e_names) ++ [("tq_readout_0"%string, 1)]).
  { rewrite <-(run_regs_eq _ _ _ _ Hq Hr). vm_compute. reflexivity. }
  pose proof (observed_invert e2e_names 1 _ 3 k1.1 eq_refl (e2e_nodup 4)) as Hobs.
  destruct (C54_own_dict_decodes ZAmp false _ q 5 3 e2e_hist s' is (fun _ => false, zero_state) k1 _ _ rx_ref EPNone [(1, 3)] (invert k1.1 ("tq_c1"%string, 3)) Hf Hown Hok eq_refl e2e_empty Hr Hem e2e_body
    (C10_initially_clean ZAmp q) He Hp Hregs Hobs) as (o & s2 & EN & HC).
  - apply invert_other. discriminate.
  - apply (misread_range 1 3 3); clear; lia.
  - exact (e2e_weight q _ Hc).
  - exact rx_ref_ok.
  - exists q, s', is, k1, o, s2, (invert k1.1 ("tq_c1"%string, 3)). do 6 (split; [assumption|]). split; [apply invert_same|]. split; assumption.
Qed.
(** A single error after the last round of a run that ends with a readout of the lattice: the
    decoder for the number of rounds that C44 asks for gives the logical value, the one made
    from the qubit's dictionary raises KeyError. *)
Definition late_hist : list ev := [Call OStab; Fault true 7].
Lemma late_flips : flips_of false XZZX 5 3 0 late_hist = [(1, 7)]. Proof. vm_compute. reflexivity. Qed.
Theorem C54_own_dict_lattice_refuted : exists q s' is (k1 : config ZAmp) o s'' D,
  e2e_q.2 = Ok q /\ run_evs q (Call OResetZ :: Call OStab :: late_hist ++ [Call OLatZ]) e2e_q.1 = (s', Ok tt) /\
  emitted e2e_q.1 s' is /\ exec is (fun _ => false, zero_state) k1 /\ possible k1 /\
  new_decoder false (lat_params (tq_lat q)) s' = (s'', Ok o) /\
  correct_readout rx_ref (do_dec o) EPNone (counts_key k1.1 (cregs s')) false = Err KeyError /\
  rotated_decoder (Some (DTup [5; 3])) (Some 2) = Ok D /\
  correct_readout rx_ref D EPNone (counts_key k1.1 (cregs s')) false = Ok 0.
Proof.
  destruct e2e_own as (q & Hq & Hok & Hc & Hf & Hown).
  assert (Hrun : run_ok e2e_q (Call OResetZ :: Call OStab :: late_hist ++ [Call OLatZ]) = true) by (vm_compute; reflexivity).
  destruct (run_ok_inv _ _ _ _ _ Hq Hok Hrun) as (s' & is & Hr & Hem).
  destruct (evs_possible _ _ _ _ _ _ _ ((fun _ => false), zero_state) Hok Hr Hem (zero_possible _)) as (k1 & He & Hp).
  destruct (decoder_for_rotated false 5 3 2 v53) as (D & ED & HD).
  assert (Hregs : exists nm, cregs s' = ((., 14) <$> take 2 e2e_names) ++ [(nm, 15)]).
  { rewrite <-(run_regs_eq _ _ _ _ Hq Hr). eexists. vm_compute; reflexivity. }
  destruct Hregs as (nm & Hregs).
  assert (Hbody : Forall (body_ev 5 3) late_hist) by (repeat constructor; cbn; lia).
  destruct (C54_own_dict_lattice ZAmp _ q 5 3 late_hist s' is (fun _ => false, zero_state) k1 _ _ rx_ref EPNone Hf Hown Hok eq_refl e2e_empty Hr Hem Hbody
    (C10_initially_clean ZAmp q) He Hp Hregs rx_ref_ok) as (o & s2 & EN & HC).
  { rewrite Hc, late_flips. exists 3. split; [change (nsyn false 5 3) with 8; clear; lia|]. vm_compute. reflexivity. }
  exists q, s', is, k1, o, s2, D. do 8 (split; [assumption|]).
  refine (proj2 (C44_end_to_end_lattice ZAmp _ q 5 3 late_hist s' is (fun _ => false, zero_state) k1 _ _ 2 D rx_ref EPNone [] k1.1 Hok eq_refl e2e_empty Hr Hem Hbody
    (C10_initially_clean ZAmp q) He Hp Hregs _ _ _ _ HD _ rx_ref_ok)).
  - clear. intros ? ? ? _ _. symmetry. apply xorb_false_r.
  - intros j _. reflexivity.
  - clear. intros m Hm. exfalso. exact (not_elem_of_nil _ Hm).
  - rewrite Hc, late_flips. clear. vm_compute. discriminate.
  - clear. vm_compute. discriminate.
Qed.
Print Assumptions C54_own_dict_lattice_refuted.
(** A decoder made from the dictionary of a qubit before any round has no layers: every event
    makes it raise KeyError. *)
Theorem C54_too_early s q dh dw l s' isx rx ep cs names last : heap_fresh s -> lat_ok s q dh dw -> 1 < dh * dw -> own_dict s q dh dw (-1) ->
  run_evs q l s = (s', Ok tt) -> count is_stab (calls l) = 0%nat -> rx_ok rx ->
  exists o s'', new_decoder false (lat_params (tq_lat q)) s' = (s'', Ok o) /\
  ((exists e, changes (recorded cs names) (nsyn isx dh dw) (syn_off isx dh dw) (coordk isx dw) e) ->
   correct_readout rx (do_dec o) ep (counts_key cs (((., dh * dw - 1) <$> names) ++ [(last, 1)])) isx = Err KeyError).
Proof.
  intros Hf Hok H1 Hown Hr H0 Hrx. destruct (C54_own_dict s q dh dw (-1) l s' Hf Hok Hown Hr) as (_ & D & o & s2 & ED & EN & HD). rewrite H0 in ED. change (-1 + Z.of_nat 0) with (-1) in ED.
  exists o, s2. split; [done|]. intros ([[t y] x] & Hch). rewrite HD.
  destruct (decoder_for_rotated isx dh dw (-1) (lo_valid _ _ _ _ Hok)) as (D' & ED' & HDf). rewrite ED in ED'. injection ED' as <-.
  eapply C22_late_event; [apply Hok|done|exact HDf|done|]. exists t, y, x. split; [|done]. destruct Hch as (k & ? & ? & ? & ? & ? & ? & ? & E). injection E as Et _ _. rewrite Et. clear. lia.
Qed.
Print Assumptions C54_too_early.
Example C54_too_early_ex : exists q s' o s'', e2e_q.2 = Ok q /\ run_evs q [Call OResetZ] e2e_q.1 = (s', Ok tt) /\
  new_decoder false (lat_params (tq_lat q)) s' = (s'', Ok o) /\
  let cs := fun b : clbit => bool_decide (b = ("b"%string, 2)) in
  correct_readout rx_ref (do_dec o) EPNone (counts_key cs [("a"%string, 14); ("b"%string, 14); ("r"%string, 1)]) false = Err KeyError.
Proof.
  destruct e2e_own as (q & Hq & Hok & Hc & Hf & Hown).
  assert (Hrun : run_ok e2e_q [Call OResetZ] = true) by (vm_compute; reflexivity).
  destruct (run_ok_inv _ _ _ _ _ Hq Hok Hrun) as (s' & is & Hr & Hem).
  set (cs := fun b : clbit => bool_decide (b = ("b"%string, 2))).
  destruct (C54_too_early _ q 5 3 _ s' false rx_ref EPNone cs ["a"%string; "b"%string] "r"%string Hf Hok eq_refl Hown Hr eq_refl rx_ref_ok) as (o & s2 & EN & HC).
  exists q, s', o, s2. do 3 (split; [assumption|]). refine (HC _). eexists. exists 0%nat, (fun i => cs ("a"%string, i)), (fun i => cs ("b"%string, i)), 2.
  split; [done|]. split; [done|]. split; [change (nsyn false 5 3) with 8; clear; lia|]. split; [|reflexivity]. vm_compute. discriminate.
Qed.
