(** Decoding a repetition code with an error probability and one round of events. *)
From Coq Require Import Reals Lra.
From Verif Require Export LineGraph DegenDecode.
From stdpp Require Export list.
Open Scope Z_scope.

Lemma trunc_IZR z : trunc (IZR z) = z.
Proof.
  pose proof (trunc_bound (IZR z)) as H. rewrite <- minus_IZR in H. destruct H as [H1 H2].
  apply (lt_IZR (-1)) in H1. apply (lt_IZR _ 1) in H2. lia.
Qed.

Section line.
Context (isx : bool) (dh dw : Z) (g : lgraph Z) (rx : retworkx) (p : R).
Hypothesis Hsize : valid_size dh dw.
Hypothesis Hnd : 3 <= extent isx dh dw.
Hypothesis Hg : make_syndrome_graph isx dh dw 1 = Ok g.
Hypothesis Hone : n_chains isx dh dw = 1.
Hypothesis Hrx : rx_ok rx.
Hypothesis Hp : (0 < p < 1 /\ p <> / 2)%R.
Notation Dz := (dz g rx).
Notation wdv := (wd isx dh dw g rx p).
Notation real := (filter (fun m : node * node => ~ (n_time m.1 = -1 /\ n_time m.2 = -1))).
Context (D : decoder).
Hypothesis HD : dec_h D = dh /\ dec_w D = dw /\ dec_graph D isx = Some g.
Let HT : 1 <= 1. Proof. done. Qed.

Lemma line_weight a b : has_node g a -> has_node g b -> ~ (n_time a = -1 /\ n_time b = -1) -> deg_wfn (wdv a b) = - (10000 * Dz a b).
Proof.
  intros Ha Hb Hvv. unfold deg_wfn, wd. rewrite (line_dg isx dh dw g Hsize Hnd Hg Hone rx Hrx a b Ha Hb Hvv). rewrite ln_1.
  replace (-1 * (IZR (Dz a b) - 0 / lnr p) * 10000)%R with (IZR (- (10000 * Dz a b))); [apply trunc_IZR|].
  rewrite opp_IZR, mult_IZR. unfold Rdiv. rewrite Rmult_0_l. lra.
Qed.
Theorem line_value b ev (F : list (node * node)) : event_list g ev ->
  (forall e, e ∈ F -> edge_w g e.1 e.2 1) ->
  (forall n, 0 <= n_time n -> lpar (pends F) n = bool_decide (n ∈ ev)) ->
  2 * Z.of_nat (length F) < extent isx dh dw ->
  (correct_events_p rx D (Some p) isx (Z.b2z b) ev).2 = Ok (Z.b2z (xorb b (xorl ((fun e => xorb (tops isx e.1) (tops isx e.2)) <$> F)))).
Proof.
  intros Hev HF Hpar HL.
  destruct (decide (ev = [])) as [-> |Hne].
  - unfold correct_events_p, corrections_p. destruct (Req_EM_T p 0) as [H0|H0]; [lra|]. cbn [snd foldl].
    rewrite (cut_parity isx dh dw 1 g Hsize Hnd HT Hg F); [by rewrite xorb_false_r|done| |lia].
    intros n Hn. rewrite Hpar by done. apply bool_decide_eq_false. apply not_elem_of_nil.
  - destruct (decode_matching isx dh dw 1 g rx p Hsize Hnd HT Hg Hrx Hp D HD b ev Hev Hne) as (eg & M & Hes & HM & HE & Hopt & ->).
    destruct (matching_paths isx dh dw 1 g Hsize Hnd HT Hg 0%R wdv rx Hrx ev eg M Hev Hes HM HE) as (Hms & P & HP & HPL & HPp & HPx).
    destruct (explain_matching isx dh dw 1 g Hsize Hnd HT Hg 0%R wdv rx Hrx ev F eg Hev HF Hpar Hes) as (M0 & HM0 & HE0 & Hc0).
    destruct (matching_paths isx dh dw 1 g Hsize Hnd HT Hg 0%R wdv rx Hrx ev eg M0 Hev Hes HM0 HE0) as (Hms0 & _).
    specialize (Hopt M0 HM0 HE0). rewrite !gweight_real in Hopt by exact Hp.
    assert (Hw : forall ms : list (node * node), (forall m, m ∈ ms -> ~ (n_time m.1 = -1 /\ n_time m.2 = -1) /\ has_node g m.1 /\ has_node g m.2 /\ m.1 <> m.2) ->
      foldr Z.add 0 ((fun m => deg_wfn (wdv m.1 m.2)) <$> ms) = - (10000 * cost Dz ms)).
    { induction ms as [|m ms IHms]; intros Hm; [done|]. rewrite cost_cons, fmap_cons. cbn [foldr].
      rewrite IHms by (intros; apply Hm; by right). destruct (Hm m ltac:(left)) as (H1 & H2 & H3 & H4). rewrite line_weight by done. lia. }
    rewrite (Hw (real M) Hms), (Hw (real M0) Hms0) in Hopt.
    rewrite <- HPx. do 3 f_equal. apply xorb_eq. rewrite <- xorl_app, <- fmap_app. apply (cut_parity isx dh dw 1 g Hsize Hnd HT Hg).
    + intros e [He|He]%elem_of_app; auto.
    + intros n Hn. rewrite pends_app, lpar_app, HPp, Hpar by done. apply xorb_nilpotent.
    + rewrite app_length. lia.
Qed.
(** The probability does not matter, nor does the matching that retworkx finds. *)
Theorem line_same rx' ep b ev : rx_ok rx' -> event_list g ev ->
  (correct_events_p rx D (Some p) isx (Z.b2z b) ev).2 = (correct_events rx' D ep isx (Z.b2z b) ev).2.
Proof.
  intros Hrx' Hev. destruct (links_short isx dh dw Hsize Hnd ev) as [c Hc].
  pose proof (links_edge isx dh dw g Hsize Hnd Hg Hone ev c) as H1. pose proof (fun n => links_par isx dh dw g Hsize Hnd Hg Hone ev c n Hev) as H2.
  rewrite (line_value b ev (links isx dh dw ev c)) by done.
  by rewrite (decode_value isx dh dw 1 g Hsize Hnd HT Hg rx' Hrx' D HD ep b ev (links isx dh dw ev c)).
Qed.
End line.
