(** Property C49, continued: half the distance is too much for faults within rounds. *)
From Verif Require Import FrameDecode RxRef P_Decode P_CircuitFaults.
From stdpp Require Export list.
Open Scope Z_scope.

(** If every set of edges no larger than [F] that explains the events has one parity at the
    readout side, decoding adds that parity. *)
Lemma decode_short isx dh dw T g rx D ep b ev F v : valid_size dh dw -> 3 <= extent isx dh dw -> 1 <= T -> make_syndrome_graph isx dh dw T = Ok g ->
  rx_ok rx -> dec_h D = dh /\ dec_w D = dw /\ dec_graph D isx = Some g ->
  event_list g ev -> ev <> [] -> (forall e, e ∈ F -> edge_w g e.1 e.2 1) ->
  (forall n, 0 <= n_time n -> lpar (pends F) n = bool_decide (n ∈ ev)) ->
  (forall P, (forall e, e ∈ P -> edge_w g e.1 e.2 1) -> (length P <= length F)%nat -> (forall n, 0 <= n_time n -> lpar (pends P) n = bool_decide (n ∈ ev)) ->
     xorl ((fun e => xorb (tops isx e.1) (tops isx e.2)) <$> P) = v) ->
  (correct_events rx D ep isx (Z.b2z b) ev).2 = Ok (Z.b2z (xorb b v)).
Proof.
  intros Hv Hext HT Hg Hrx (Hh & Hw & HDg) Hev Hne HF Hpar Huniq. unfold correct_events, corrections. cbn [snd].
  destruct ev as [|n0 ev0]; [done|]. set (ev := n0 :: ev0) in *.
  destruct (matching_explains rx Hrx isx dh dw T g Hv Hext HT Hg ev F (scale ep) (scale_pos ep) Hev HF Hpar)
    as (eg & ms & P & E & Hr & Hms & HP & HPL & HPp & HPx).
  rewrite HDg, Hh, Hw. fold (virt isx dh dw). rewrite E. cbn [fst snd]. rewrite run_scale, Hr.
  rewrite fold_crossing. do 3 f_equal.
  assert (Ec : xorl (is_crossing isx <$> ms) = xorl ((fun m => xorb (tops isx m.1) (tops isx m.2)) <$> ms)).
  { apply xorl_ext. intros m Hm. apply (crossing_top isx dh dw T g Hext Hg). by apply Hms. }
  rewrite Ec, <-HPx. by apply Huniq.
Qed.

(** ** All small sets of edges of one graph *)
(** Each edge once. *)
Definition edge_list (g : lgraph Z) : list (node * node) :=
  let ns := imap pair (pg_nodes (lg_g g)) in
  ns ≫= fun a => ns ≫= fun b => if bool_decide (a.1 <= b.1)%nat then match pg_edges (lg_g g) !! ekey a.1 b.1 with Some _ => [(a.2, b.2)] | None => [] end else [].
Lemma edge_list_complete g a b w : edge_w g a b w -> (a, b) ∈ edge_list g \/ (b, a) ∈ edge_list g.
Proof.
  assert (H : forall i j a b, (i <= j)%nat -> pg_nodes (lg_g g) !! i = Some a -> pg_nodes (lg_g g) !! j = Some b -> pg_edges (lg_g g) !! ekey i j = Some w -> (a, b) ∈ edge_list g).
  { clear a b. intros i j a b Hij Hi Hj He. unfold edge_list. apply elem_of_list_bind. exists (i, a). split.
    - apply elem_of_list_bind. exists (j, b). cbn [fst snd]. split; [rewrite bool_decide_eq_true_2, He by done; left|]. apply elem_of_lookup_imap. eauto.
    - apply elem_of_lookup_imap. eauto. }
  intros (i & j & Hi & Hj & He). destruct (decide (i <= j)%nat); [left; by apply (H i j)|right; rewrite ekey_comm in He; apply (H j i); [lia|done..]].
Qed.
(** The edges of a set, each as it is listed. *)
Lemma listed g P : (forall e : node * node, e ∈ P -> edge_w g e.1 e.2 1) -> exists Q, (forall e, e ∈ Q -> e ∈ edge_list g) /\ length Q = length P /\
  (forall n, lpar (pends Q) n = lpar (pends P) n) /\ (forall f : node -> bool, xorl ((fun e => xorb (f e.1) (f e.2)) <$> Q) = xorl ((fun e => xorb (f e.1) (f e.2)) <$> P)).
Proof.
  induction P as [|[a b] P IHP]; intros HP; [exists []; split; [by intros e []%elem_of_nil|done]|].
  destruct IHP as (Q & H1 & H2 & H3 & H4); [intros; apply HP; by right|].
  assert (Hp : forall (x y : node) L n, lpar (pends ((x, y) :: L)) n = xorb (bool_decide (x = n)) (xorb (bool_decide (y = n)) (lpar (pends L) n))) by done.
  destruct (edge_list_complete g a b 1) as [Hin|Hin]; [apply (HP (a, b)); by left| |].
  - exists ((a, b) :: Q). split; [intros e [-> |He]%elem_of_cons; auto|]. split; [cbn; lia|]. split; [intros n; by rewrite !Hp, H3|].
    intros f. by rewrite !fmap_cons, !xorl_cons, H4.
  - exists ((b, a) :: Q). split; [intros e [-> |He]%elem_of_cons; auto|]. split; [cbn; lia|]. split.
    + intros n. rewrite !Hp, H3. by destruct (bool_decide (a = n)), (bool_decide (b = n)), (lpar (pends P) n).
    + intros f. rewrite !fmap_cons, !xorl_cons, H4. cbn [fst snd]. by rewrite (xorb_comm (f b)).
Qed.
Fixpoint words {A} (E : list A) (n : nat) : list (list A) := match n with O => [[]] | S n => [] :: (E ≫= fun e => cons e <$> words E n) end.
Lemma words_complete {A} (E : list A) n l : (forall e, e ∈ l -> e ∈ E) -> (length l <= n)%nat -> l ∈ words E n.
Proof.
  revert n. induction l as [|e l IHl]; intros n He Hn; [destruct n; left|]. destruct n as [|n]; [cbn in Hn; lia|]. cbn [words]. right.
  apply elem_of_list_bind. exists e. split; [|apply He; left]. apply elem_of_list_fmap. exists l. split; [done|]. apply IHl; [intros; apply He; by right|cbn in Hn; lia].
Qed.
Definition only_parity (g : lgraph Z) (isx : bool) (ev : list node) (v : bool) (P : list (node * node)) : bool :=
  if forallb (fun n => Bool.eqb (lpar (pends P) n) (bool_decide (n ∈ ev))) (filter (fun n => 0 <= n_time n) (pg_nodes (lg_g g)))
  then Bool.eqb (xorl ((fun e => xorb (tops isx e.1) (tops isx e.2)) <$> P)) v else true.
Lemma only_parity_sound g isx ev v n : forallb (only_parity g isx ev v) (words (edge_list g) n) = true ->
  forall P, (forall e, e ∈ P -> edge_w g e.1 e.2 1) -> (length P <= n)%nat -> (forall n, 0 <= n_time n -> lpar (pends P) n = bool_decide (n ∈ ev)) ->
     xorl ((fun e => xorb (tops isx e.1) (tops isx e.2)) <$> P) = v.
Proof.
  intros Hc P0 HP0 HL Hpar. destruct (listed g P0 HP0) as (P & HP & HL' & Hpar' & Hx). rewrite <-Hx. clear Hx.
  rewrite forallb_forall in Hc. specialize (Hc P). apply eqb_prop. unfold only_parity in Hc.
  assert (forallb (fun n => Bool.eqb (lpar (pends P) n) (bool_decide (n ∈ ev))) (filter (fun n => 0 <= n_time n) (pg_nodes (lg_g g))) = true) as E.
  { apply forallb_forall. intros m Hm. apply elem_of_list_In in Hm. apply elem_of_list_filter in Hm as [Hm _]. rewrite Hpar', Hpar by done. apply eqb_reflx. }
  rewrite E in Hc. apply Hc. apply elem_of_list_In. apply words_complete; [done|lia].
Qed.

(** The graph of the repetition code of distance 5 and three intervals between rounds. *)
Definition rep_dec : decoder := match repetition_decoder None (Some (DNum 5)) (Some 3) with Ok D => D | Err _ => Dec 0 0 0 None None end.
Definition rep_g : lgraph Z := match make_syndrome_graph false 5 1 3 with Ok g => g | Err _ => lg_empty end.
Definition rep_ev : list node := [at_loc false 1 0 2; at_loc false 1 2 0].
Definition rep_F : list (node * node) := [((0, 5, 1), (0, 7, -1)); ((0, 7, -1), (-1, 9, 1)); ((2, 1, 1), (-1, -1, -1))].
Lemma v51 : valid_size 5 1. Proof. done. Qed.
Lemma rep_g_ok : make_syndrome_graph false 5 1 3 = Ok rep_g. Proof. vm_compute. reflexivity. Qed.
Lemma rep_dec_ok : decoder_for false 5 1 3 rep_dec.
Proof. split; [vm_compute; reflexivity|]. split; [vm_compute; reflexivity|]. right. exists None, (Some (DNum 5)). split; [vm_compute; reflexivity|done]. Qed.
Definition edge_wb (g : lgraph Z) (e : node * node) : bool :=
  match list_find (e.1 =.) (pg_nodes (lg_g g)), list_find (e.2 =.) (pg_nodes (lg_g g)) with
  | Some (i, _), Some (j, _) => bool_decide (pg_edges (lg_g g) !! ekey i j = Some 1) | _, _ => false end.
Lemma edge_wb_sound g e : edge_wb g e = true -> edge_w g e.1 e.2 1.
Proof.
  unfold edge_wb. destruct (list_find (e.1 =.) _) as [[i a]|] eqn:Ei; [|done]. destruct (list_find (e.2 =.) _) as [[j b]|] eqn:Ej; [|done].
  apply list_find_Some in Ei as (Ei & <- & _). apply list_find_Some in Ej as (Ej & <- & _). intros H%bool_decide_eq_true. exists i, j. done.
Qed.
Lemma rep_F_ok e : e ∈ rep_F -> edge_w rep_g e.1 e.2 1.
Proof.
  assert (H : forallb (edge_wb rep_g) rep_F = true) by (vm_compute; reflexivity). rewrite forallb_forall in H.
  intros He. apply edge_wb_sound, H. by apply elem_of_list_In.
Qed.
Lemma rep_only : forallb (only_parity rep_g false rep_ev true) (words (edge_list rep_g) 3) = true.
Proof. vm_compute. reflexivity. Qed.
(** Events 0 and 2 of the two outer intervals are matched to the boundaries by every matcher. *)
Lemma rep_decode rx ep ev b : rx_ok rx -> NoDup ev -> (forall e, e ∈ ev <-> e ∈ rep_ev) ->
  (correct_events rx rep_dec ep false (Z.b2z b) ev).2 = Ok (Z.b2z (negb b)).
Proof.
  intros Hrx Hnd Hev. rewrite <-xorb_true_r. eapply (decode_short false 5 1 3 rep_g rx rep_dec ep b ev rep_F); [done|done|lia|apply rep_g_ok|done|by vm_compute| | |apply rep_F_ok| |].
  - split; [done|]. intros n [-> |[-> |[]%elem_of_nil]%elem_of_cons]%Hev%elem_of_cons; (split; [unfold has_node; apply (bool_decide_unpack _); vm_compute; exact I|vm_compute; discriminate]).
  - intros ->. eapply not_elem_of_nil, Hev. left.
  - intros n Hn. rewrite (bool_decide_ext _ _ (Hev n)). unfold rep_F, rep_ev. cbn [pends mbind list_bind app fst snd]. rewrite !lpar_cons, lpar_nil.
    change (at_loc false 1 0 2) with (0, 5, 1). change (at_loc false 1 2 0) with (2, 1, 1).
    rewrite (bool_decide_ext (n ∈ _) (n = (0, 5, 1) \/ n = (2, 1, 1))) by set_solver.
    rewrite (bool_decide_eq_false_2 ((-1, 9, 1) = n)) by (intros <-; by apply Hn). rewrite (bool_decide_eq_false_2 ((-1, -1, -1) = n)) by (intros <-; by apply Hn).
    repeat case_bool_decide; subst; try done; naive_solver.
  - intros P HP HL Hpar. eapply (only_parity_sound rep_g false rep_ev true 3 rep_only P HP); [exact HL|]. intros n Hn. rewrite Hpar by done. by apply bool_decide_ext.
Qed.

(** ** The run *)
Lemma exec_frel {R : Amp} is f (k k' k1' : config R) : Forall framed is -> frel f k k' -> exec is k' k1' -> exists k1, exec is k k1 /\ frel (push is f) k1 k1'.
Proof.
  intros Hf. revert f k k'. induction Hf as [|i is Hi Hf IHf]; intros f k k' Hr He.
  - inversion He; subst. exists k. split; [constructor|done].
  - inversion He as [|? ? ? km ? Hst He']; subst. destruct (frel_step _ _ _ _ _ Hi Hr Hst) as (k2 & Hs2 & Hr2).
    destruct (IHf _ _ _ Hr2 He') as (k3 & He3 & Hr3). exists k3. split; [by eapply EStep|]. by rewrite push_cons.
Qed.
Lemma exec_X {R : Amp} q (k k' : config R) : exec [IX q] k k' -> k' = (k.1, gX q k.2).
Proof. intros He. inversion He as [|? ? ? km ? Hst He']; subst. inversion He'; subst. by inversion Hst; subst. Qed.

Definition rep_q : st * res tqubit := new_tqubit TRepetition (Some 0%nat) "tq" (heap1 (with_d (DNum 5))).
Definition rep_ops : list op := [OStab; OStab].
(** The code after the first round ... *)
Definition rep_code : list instr := evs_code XXZZ "tq" 5 1 (bump_T (Cnt (-1) (-1) (-1))) (Call <$> rep_ops ++ [OLatZ]).
(** ... with X on data qubit 2 after 5 instructions and on data qubit 1 after 23. *)
Definition rep_noisy : list instr := take 5 rep_code ++ [IX (dq "tq" 2)] ++ take 18 (drop 5 rep_code) ++ [IX (dq "tq" 1)] ++ drop 23 rep_code.
Definition rep_frame : frame := push (drop 23 rep_code) (fadd (push (take 18 (drop 5 rep_code)) (Fr (Xon {[dq "tq" 2]}) fnone)) (Fr (Xon {[dq "tq" 1]}) fnone)).
Definition rep_flip (k : nat) (loc : Z) : bool :=
  match k with O => false | 1%nat | 2%nat => bool_decide (loc = 2) | _ => bool_decide (loc = 0 \/ loc = 2) end.
Lemma rep_names : round_regs "tq" (Cnt (-1) (-1) (-1)) 3 = ["tq_c0"; "tq_c1"; "tq_c2"]%string.
Proof. vm_compute. reflexivity. Qed.
Lemma rep_frame_round k nm : ["tq_c0"; "tq_c1"; "tq_c2"]%string !! k = Some nm -> forall loc, 0 <= loc < 4 -> ff rep_frame (nm, loc) = rep_flip k loc.
Proof.
  intros Hk loc Hl. destruct k as [|[|[|k]]]; cbn in Hk; [injection Hk as <-..|done];
  (assert (loc = 0 \/ loc = 1 \/ loc = 2 \/ loc = 3) as [-> |[-> |[-> | -> ]]] by lia); vm_compute; reflexivity.
Qed.
Lemma rep_frame_data loc : 0 <= loc < 4 -> xorl ((fun j => ff rep_frame ("tq_lattice_readout_0"%string, j)) <$> plaq_data (geom_z 5 1 loc)) = rep_flip 3 loc.
Proof. intros Hl. (assert (loc = 0 \/ loc = 1 \/ loc = 2 \/ loc = 3) as [-> |[-> |[-> | -> ]]] by lia); vm_compute; reflexivity. Qed.
Lemma rep_frame_top : ff rep_frame ("tq_lattice_readout_0"%string, 0) = false.
Proof. vm_compute. reflexivity. Qed.
Lemma rep_framed : Forall framed rep_code.
Proof. unfold rep_code. rewrite hist_app. apply Forall_app_2; [apply hist_framed; repeat constructor|]. cbn [fmap list_fmap evs_code ev_code]. rewrite app_nil_r. apply lat_framed. Qed.
Lemma rep_inject : inject rep_code rep_noisy 2.
Proof.
  assert (H : forall a b c : list instr, forall x y, inject (a ++ b ++ c) (a ++ [IX x] ++ b ++ [IX y] ++ c) 2).
  { intros a b c x y. assert (K : forall a b js w, inject b js w -> inject (a ++ b) (a ++ js) w).
    { intros a' b' js w Hi. induction a' as [|i a' IHa]; [done|]. cbn. by constructor. }
    apply K. apply (InjFault GX). apply K. apply (InjFault GX). apply inject_refl. }
  pose proof (H (take 5 rep_code) (take 18 (drop 5 rep_code)) (drop 23 rep_code) (dq "tq" 2) (dq "tq" 1)) as Hi.
  replace (drop 23 rep_code) with (drop 18 (drop 5 rep_code)) in Hi by (by rewrite drop_drop). rewrite !take_drop in Hi.
  rewrite drop_drop in Hi. exact Hi.
Qed.
Definition start_cnt (m : st * res tqubit) : bool :=
  match m with
  | (s, Ok q) => match s_heap s !! lat_params (tq_lat q) with
                 | Some p => bool_decide (T_of p = Some (-1) /\ num_readout_of p = Some (-1) /\ num_lattice_readout_of p = Some (-1)) &&
                             bool_decide (lat_name (tq_lat q) = "tq"%string) && match lat_code (tq_lat q) with XXZZ => true | _ => false end
                 | None => false end
  | _ => false end.
Lemma rep_ok : exists q, rep_q.2 = Ok q /\ lat_ok rep_q.1 q 5 1 /\ has_cnt rep_q.1 q (Cnt (-1) (-1) (-1)) /\ lat_name (tq_lat q) = "tq"%string /\ lat_code (tq_lat q) = XXZZ.
Proof.
  destruct (C41_number 0 "tq" (heap1 (with_d (DNum 5))) (with_d (DNum 5)) 5) as (s' & q & E & Hok); [done|done|done|done| |].
  { intros suf _. apply not_elem_of_nil. }
  cbn [pfp_of] in Hok. change (lat_ok s' q 5 1) in Hok.
  assert (Hc : start_cnt rep_q = true) by (vm_compute; reflexivity).
  unfold rep_q in *. rewrite E in *. cbn [fst snd]. exists q. split; [done|]. split; [done|]. unfold start_cnt in Hc.
  destruct (s_heap s' !! lat_params (tq_lat q)) as [p|] eqn:Ep; [|done].
  apply andb_prop in Hc as [[Hc1%bool_decide_eq_true Hc2%bool_decide_eq_true]%andb_prop Hc3].
  split; [by exists p|]. split; [done|]. by destruct (lat_code (tq_lat q)).
Qed.
Lemma rep_empty : cregs rep_q.1 = []. Proof. vm_compute. reflexivity. Qed.
Lemma rep_body : Forall body_op rep_ops. Proof. repeat constructor. Qed.

Section half.
Context {R : Amp}.
Implicit Types (k : config R).
Lemma rep_noisy_frame (ka k1 : config R) : exec rep_noisy ka k1 -> exists kc, exec rep_code ka kc /\ frel rep_frame kc k1.
Proof.
  intros He. unfold rep_noisy in He. apply exec_app in He as (k2 & He1 & He). apply exec_app in He as (k3 & E2%exec_X & He). subst k3.
  apply exec_app in He as (k4 & He3 & He). apply exec_app in He as (k5 & E4%exec_X & He5). subst k5.
  pose proof rep_framed as Hf. rewrite <-(take_drop 5), Forall_app in Hf. destruct Hf as [_ Hf].
  pose proof Hf as Hf'. rewrite <-(take_drop 18), Forall_app in Hf'. destruct Hf' as [Hf1 Hf2]. rewrite drop_drop in Hf2.
  assert (H0 : frel (Fr (Xon {[dq "tq" 2]}) fnone) k2 (k2.1, gX (dq "tq" 2) k2.2)).
  { eapply frel_feq; [|apply (frel_X (Fr pid fnone) k2 k2)].
    - split; [cbn; unfold pmul, Xon, pid; cbn; f_equal; apply sd_empty_l|done].
    - split; [intros b; cbn; by rewrite xorb_false_r|]. exists false. apply tied_id. }
  destruct (exec_frel _ _ _ _ _ Hf1 H0 He3) as (k6 & He6 & Hr6).
  destruct (exec_frel _ _ _ _ _ Hf2 (frel_X _ _ _ (dq "tq" 1) Hr6) He5) as (k7 & He7 & Hr7).
  exists k7. split; [|exact Hr7]. rewrite <-(take_drop 5 rep_code). apply exec_app. exists k2. split; [done|].
  rewrite <-(take_drop 18 (drop 5 rep_code)). apply exec_app. exists k6. split; [done|]. rewrite drop_drop. exact He7.
Qed.

Lemma rep_read q sa is0 s' is1 (k0 k1 : config R) rx ep :
  rep_q.2 = Ok q -> run_evs q [Call OResetZ; Call OStab] rep_q.1 = (sa, Ok tt) -> emitted rep_q.1 sa is0 ->
  run_evs q (Call <$> rep_ops ++ [OLatZ]) sa = (s', Ok tt) -> emitted sa s' is1 ->
  is1 = rep_code /\
  (syndromes_clean q k0.2 -> exec (is0 ++ rep_noisy) k0 k1 -> possible k1 -> rx_ok rx -> correct_readout rx rep_dec ep (counts_key k1.1 (cregs s')) false = Ok 1).
Proof.
  intros Hq Hra Hea Hrb Heb. destruct rep_ok as (q' & Hq' & Hok & Hn & Hname & Hcode). rewrite Hq in Hq'. injection Hq' as <-.
  set (n := Cnt (-1) (-1) (-1)) in *.
  pose proof (run_evs_inv _ _ _ _ _ _ _ Hok Hn Hra) as HPa. change (evs_next n [Call OResetZ; Call OStab]) with (bump_T n) in HPa.
  pose proof (run_evs_inv _ _ _ _ _ _ _ (po_ok _ _ _ _ _ _ _ _ HPa) (po_cnt _ _ _ _ _ _ _ _ HPa) Hrb) as HPb.
  assert (E1 : is1 = rep_code).
  { pose proof (po_code _ _ _ _ _ _ _ _ HPb) as E. unfold emitted in Heb. rewrite Heb in E. apply app_inv_head in E. by rewrite Hname, Hcode in E. }
  split; [done|]. intros Hcl He Hp Hrx. apply exec_app in He as (ka & Hea' & Hej).
  destruct (rep_noisy_frame ka k1 Hej) as (kc & Hec & Hfr). pose proof (frel_possible _ _ _ Hfr Hp) as Hpc.
  assert (Hrun : run_evs q (Call OResetZ :: Call OStab :: (Call <$> rep_ops) ++ [Call OLatZ]) rep_q.1 = (s', Ok tt)).
  { rewrite fmap_app in Hrb. exact (run_evs_join _ _ _ _ _ _ Hra Hrb). }
  assert (Hexec : exec (is0 ++ is1) k0 kc) by (subst is1; apply exec_app; eauto).
  assert (Hregs0 : cregs s' = ((., 4) <$> ["tq_c0"; "tq_c1"; "tq_c2"]%string) ++ [("tq_lattice_readout_0"%string, 5)]).
  { rewrite <-(run_regs_eq _ _ _ _ Hq Hrun). vm_compute. reflexivity. }
  destruct (lattice_record R rep_q.1 q 5 1 (Call <$> rep_ops) s' (is0 ++ is1) k0 kc _ _ [] kc.1 n Hok Hn rep_empty Hrun (emitted_join _ _ _ _ _ Hea Heb) (body_ops_ev _ _ _ rep_body) Hcl Hexec Hpc Hregs0 (observed_id _ _ _ _ _))
    as (HN & names & nm & Enms & _ & _ & _ & Hrep & Hrow); [done|by intros m []%elem_of_nil|].
  rewrite flips_calls in *. rewrite Hname in *. assert (Enms' : ["tq_c0"; "tq_c1"; "tq_c2"]%string = names ++ [nm]) by (rewrite <-Enms; vm_compute; reflexivity). clear Enms. rename Enms' into Enms.
  change (["tq_c0"; "tq_c1"; "tq_c2"]%string) with (["tq_c0"; "tq_c1"]%string ++ ["tq_c2"%string]) in Enms.
  apply app_inj_tail in Enms as [<- <-].
  change (lrname "tq" (cL n + 1)) with "tq_lattice_readout_0"%string in *. set (last := "tq_lattice_readout_0"%string) in *.
  set (base := first_values false "tq" 5 1 n kc.1) in *.
  assert (Hk : forall b, k1.1 b = xorb (kc.1 b) (ff rep_frame b)) by apply Hfr.
  destruct (C14_lattice_z 5 1 k1.1 ["tq_c0"; "tq_c1"]%string "tq_c2"%string last v51 eq_refl) as (X & Zs & E & _ & Hnd & _ & Hev).
  unfold correct_readout. destruct (decoder_inv _ _ _ _ _ rep_dec_ok) as (-> & -> & _). cbn [type_string]. rewrite Hregs0.
  change (((., 4) <$> ["tq_c0"; "tq_c1"; "tq_c2"]%string) ++ [(last, 5)]) with (((., 5 * 1 - 1) <$> ["tq_c0"; "tq_c1"]%string ++ ["tq_c2"%string]) ++ [(last, 5 * 1)]). rewrite E.
  assert (Hv0 : xorl ((fun j => k1.1 (last, j)) <$> seqZ 0 1) = false).
  { change (seqZ 0 1) with [0] in *. cbn [fmap list_fmap] in *. rewrite xorl_cons in *. rewrite Hk. rewrite (rep_frame_top : ff rep_frame (last, 0) = false), xorb_false_r. exact Hrow. }
  rewrite Hv0. apply (rep_decode rx ep Zs false Hrx Hnd). intros e. rewrite Hev. clear E Hnd Hev X Zs.
  set (rounds := recorded k1.1 _ ++ _).
  assert (HR : forall t r loc, rounds !! t = Some r -> 0 <= loc < 4 -> r (0 + loc) = xorb (base loc) (rep_flip t loc)).
  { intros t r loc Ht Hl. unfold rounds in Ht. apply lookup_app_Some in Ht as [Ht|[Hge Ht]].
    - unfold recorded in Ht. apply list_lookup_fmap_inv in Ht as (nm & -> & Hnm). rewrite Hk, (rep_frame_round t nm Hnm) by lia. rewrite Z.add_0_l. f_equal.
      specialize (Hrep t (fun i => kc.1 (nm, i)) loc). unfold syn_off in Hrep. rewrite Z.add_0_l in Hrep. rewrite Hrep; [unfold SpecFault.syn_bit; cbn; by rewrite !xorb_false_r| |done].
      apply lookup_app_l_Some. unfold recorded. rewrite list_lookup_fmap, Hnm. done.
    - cbn in Hge, Ht. apply list_lookup_singleton_Some in Ht as [Et <-]. assert (t = 3%nat) as -> by lia.
      specialize (Hrep 3%nat (final_round 5 1 (fun j => kc.1 (last, j)) (fun i => kc.1 ("tq_c2"%string, i))) loc). unfold final_round, syn_off in *.
      rewrite Z.add_0_l, !bool_decide_eq_true_2 in * by (change (num_syn_z 5 1) with 4; lia). rewrite <-rep_frame_data by done.
      rewrite (xorl_ext _ (fun j => xorb (kc.1 (last, j)) (ff rep_frame (last, j)))) by (intros; apply Hk). rewrite <-xorl_xor. f_equal.
      rewrite Hrep; [unfold SpecFault.syn_bit; cbn; by rewrite !xorb_false_r|done|done]. }
  assert (Hlen : length rounds = 4%nat) by done. unfold rep_ev. split.
  - intros (k & r & r' & loc & Hr & Hr' & Hl & Hne & ->). change (num_syn_z 5 1) with 4 in Hl.
    rewrite (HR _ _ _ Hr Hl), (HR _ _ _ Hr' Hl) in Hne. apply lookup_lt_Some in Hr'. rewrite Hlen in Hr'.
    assert (Hf : rep_flip k loc <> rep_flip (S k) loc) by (intros E; by rewrite E in Hne). clear Hne.
    (assert (loc = 0 \/ loc = 1 \/ loc = 2 \/ loc = 3) as [-> |[-> |[-> | -> ]]] by lia); destruct k as [|[|[|k]]]; try lia; try (by vm_compute in Hf); [right|]; left.
  - assert (Hmk : forall (k : nat) loc, (k < 3)%nat -> 0 <= loc < 4 -> rep_flip k loc <> rep_flip (S k) loc -> changes rounds 4 0 (coord_z 1) (Z.of_nat k, (coord_z 1 loc).1, (coord_z 1 loc).2)).
    { intros k loc Hkk Hl Hf. destruct (lookup_lt_is_Some_2 rounds k) as [r Hr]; [lia|]. destruct (lookup_lt_is_Some_2 rounds (S k)) as [r' Hr']; [lia|].
      exists k, r, r', loc. split; [done|]. split; [done|]. split; [done|]. split; [|done]. rewrite (HR _ _ _ Hr Hl), (HR _ _ _ Hr' Hl). intros E. apply Hf. by destruct (base loc), (rep_flip k loc), (rep_flip (S k) loc). }
    intros [-> |[-> |[]%elem_of_nil]%elem_of_cons]%elem_of_cons; [apply (Hmk 0%nat 2)|apply (Hmk 2%nat 0)]; (lia || done).
Qed.
End half.

(** * C49 at half the distance *)
(** The bound cannot be read as (d-1)/2 faults: a repetition code of distance 5, three rounds and
    the lattice readout, no logical gate, and X on two data qubits in the middle of two rounds.
    Two is (d-1)/2, and all other hypotheses of C49_lattice hold, for every matcher and every
    outcome, but the value decoded is always 1 instead of 0. *)
Theorem C49_half_refuted : exists q l s sa is0 s' is1 js rs rd D,
  lat_ok s q 5 1 /\ cregs s = [] /\
  run_evs q [Call OResetZ; Call OStab] s = (sa, Ok tt) /\ emitted s sa is0 /\
  run_evs q (Call <$> l ++ [OLatZ]) sa = (s', Ok tt) /\ emitted sa s' is1 /\
  Forall body_op l /\ inject is1 js 2 /\ Z.of_nat 2 <= (5 - 1) / 2 /\
  cregs s' = rs ++ [rd] /\ decoder_for false 5 1 3 D /\ Z.of_nat (length rs) <= 3 /\ count is_x l = 0%nat /\
  (exists k1 : config ZAmp, exec (is0 ++ js) (fun _ => false, zero_state) k1 /\ possible k1) /\
  forall (R : Amp) (k0 k1 : config R) rx ep, syndromes_clean q k0.2 -> exec (is0 ++ js) k0 k1 -> possible k1 -> rx_ok rx ->
    correct_readout rx D ep (counts_key k1.1 (cregs s')) false = Ok 1.
Proof.
  destruct rep_ok as (q & Hq & Hok & _).
  assert (Hrun : run_ok rep_q ([Call OResetZ; Call OStab] ++ (Call <$> rep_ops ++ [OLatZ])) = true) by (vm_compute; reflexivity).
  destruct (run_ok_inv _ _ _ _ _ Hq Hok Hrun) as (s' & is & Hr & Hem).
  destruct (run_split _ _ _ _ _ _ _ Hok Hr) as (sa & is0 & is1 & Hra & Hea & Hrb & Heb).
  assert (Hoka : lat_ok sa q 5 1) by (destruct (lat_ok_cnt _ _ _ _ Hok) as [n Hn]; exact (po_ok _ _ _ _ _ _ _ _ (run_evs_inv _ _ _ _ _ _ _ Hok Hn Hra))).
  assert (E1 : is1 = rep_code) by (eapply (proj1 (rep_read (R := ZAmp) q sa is0 s' is1 (fun _ => false, zero_state) (fun _ => false, zero_state) rx_ref EPNone Hq Hra Hea Hrb Heb))).
  pose proof rep_inject as Hinj. rewrite <-E1 in Hinj.
  assert (Hregs : cregs s' = ((., 4) <$> ["tq_c0"; "tq_c1"; "tq_c2"]%string) ++ [("tq_lattice_readout_0"%string, 5)]).
  { rewrite <-(run_regs_eq _ _ _ _ Hq Hr). vm_compute. reflexivity. }
  eexists q, rep_ops, rep_q.1, sa, is0, s', is1, rep_noisy, _, _, rep_dec. split; [exact Hok|]. split; [exact rep_empty|]. do 4 (split; [assumption|]).
  split; [exact rep_body|]. split; [exact Hinj|]. split; [vm_compute; discriminate|]. split; [exact Hregs|]. split; [exact rep_dec_ok|].
  split; [vm_compute; discriminate|]. split; [vm_compute; reflexivity|]. split.
  - apply exec_possible_Z; [|apply zero_possible]. intros i [Hi|Hi]%elem_of_app; [by eapply (evs_proper _ _ _ _ _ _ _ Hok Hra Hea)|].
    eapply inject_proper; [exact Hinj| |done]. by apply (evs_proper _ _ _ _ _ _ _ Hoka Hrb Heb).
  - intros R k0 k1 rx ep Hcl He Hp Hrx. exact (proj2 (rep_read q sa is0 s' is1 k0 k1 rx ep Hq Hra Hea Hrb Heb) Hcl He Hp Hrx).
Qed.
Print Assumptions C49_half_refuted.
