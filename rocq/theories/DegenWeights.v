(** The weights of the decoder with an error probability. *)
From Coq Require Import Reals Lra.
From Verif Require Export DegenFacts MwpmGen DecodeFacts.
From stdpp Require Export list.
Open Scope Z_scope.

(** ** Truncation *)
Lemma trunc_bound x : (-1 < IZR (trunc x) - x < 1)%R.
Proof.
  unfold trunc. destruct (Rle_dec 0 x) as [H|H].
  - pose proof (base_Int_part x). lra.
  - pose proof (base_Int_part (- x)). rewrite opp_IZR. lra.
Qed.
Lemma trunc_ge x z : (IZR z <= x)%R -> z <= 0 -> z <= trunc x.
Proof.
  intros H Hz. unfold trunc. destruct (Rle_dec 0 x) as [Hx|Hx].
  - pose proof (base_Int_part x) as [_ Hb].
    assert (H0 : (-1 < IZR (Int_part x))%R) by lra. apply (lt_IZR (-1)) in H0. lia.
  - pose proof (base_Int_part (- x)) as [Hb _].
    assert (H0 : (IZR (Int_part (- x)) <= IZR (- z))%R) by (rewrite opp_IZR; lra). apply le_IZR in H0. lia.
Qed.
Lemma trunc_0 : trunc 0 = 0.
Proof.
  pose proof (trunc_bound 0) as H. rewrite Rminus_0_r in H. destruct H as [H1 H2].
  apply (lt_IZR (-1)) in H1. apply (lt_IZR _ 1) in H2. lia.
Qed.
Lemma deg_wfn_0 : deg_wfn 0 = 0. Proof. unfold deg_wfn. rewrite Rmult_0_l. apply trunc_0. Qed.

Definition rsum (l : list R) : R := foldr Rplus 0%R l.
Definition rprod (l : list R) : R := foldr Rmult 1%R l.

(** ** Weights *)
Section weights.
Context (isx : bool) (dh dw T : Z) (g : lgraph Z) (rx : retworkx) (p : R).
Hypothesis Hsize : valid_size dh dw.
Hypothesis Hnd : 3 <= extent isx dh dw.
Hypothesis HT : 1 <= T.
Hypothesis Hg : make_syndrome_graph isx dh dw T = Ok g.
Hypothesis Hrx : rx_ok rx.
Hypothesis Hp : (0 < p < 1 /\ p <> / 2)%R.
Notation virt := (virtual_nodes isx dh dw).
Notation D := (dz g rx).
Notation vv a b := (n_time a = -1 /\ n_time b = -1).
Notation dgv := (dg g rx virt).
Let Hconn := sg_conn isx dh dw T g Hsize Hnd HT Hg.

Definition lnr : R := (ln (1 - p) - ln p)%R.
Lemma lnr_ratio : lnr = ln ((1 - p) / p).
Proof. unfold lnr, Rdiv. rewrite ln_mult, ln_Rinv; [lra|lra|lra|]. apply Rinv_0_lt_compat; lra. Qed.
Lemma lnr_neq : lnr <> 0%R.
Proof.
  intros H. unfold lnr in H. assert (E : ln (1 - p) = ln p) by lra. apply ln_inv in E; [|lra|lra]. apply (proj2 Hp). lra.
Qed.
Lemma lnr_pos : (p < / 2)%R -> (0 < lnr)%R.
Proof. intros H. unfold lnr. assert (ln p < ln (1 - p))%R; [|lra]. apply ln_increasing; lra. Qed.
Definition wd (a b : node) : R := (-1 * (IZR (D a b) - ln (IZR (dgv a b)) / lnr))%R.

Lemma virt_fact v : v ∈ virt -> has_node g v /\ n_time v = -1.
Proof. apply (virt_node isx dh dw T g Hsize Hnd HT Hg). Qed.
Lemma dgv_pos a b : has_node g a -> has_node g b -> ~ vv a b -> 1 <= dgv a b.
Proof.
  intros Ha Hb Hvv. destruct (sg_facts isx dh dw T g Hsize Hnd HT Hg) as (Hok & Hu & _). pose proof (virt_NoDup isx dh dw T g Hsize Hnd Hg) as HN.
  assert (Hvn : forall n, has_node g n -> n_time n = -1 -> n ∈ virt) by (intros n H1 H2; by apply (virt_node isx dh dw T g Hsize Hnd HT Hg)).
  unfold dg. repeat case_bool_decide.
  - apply (bdeg_pos g Hok Hu rx Hrx Hconn); [apply virt_fact|done|by apply Hvn|done].
  - apply (bdeg_pos g Hok Hu rx Hrx Hconn); [apply virt_fact|done|by apply Hvn|done].
  - by apply (np_pos g Hok Hu rx Hrx Hconn).
Qed.
Lemma weigh_deg_ok a b c : has_node g a -> has_node g b -> a <> b -> ~ vv a b -> cache_ok g rx c ->
  exists c', weigh_deg rx g virt p a b c = Ok (wd a b, c') /\ cache_ok g rx c'.
Proof.
  intros Ha Hb Hab Hvv Hc. destruct (sg_facts isx dh dw T g Hsize Hnd HT Hg) as (Hok & Hu & _). unfold weigh_deg.
  destruct (dz_spec g Hok Hu rx Hrx Hconn a b Ha Hb) as (-> & _).
  destruct (path_degeneracy_ok g Hok Hu rx Hrx Hconn virt virt_fact a b c Ha Hb Hab Hvv Hc) as (c' & -> & Hc').
  pose proof (dgv_pos a b Ha Hb Hvv) as Hd. exists c'. split; [|done].
  assert (E1 : py_log (IZR (dgv a b)) = Ok (ln (IZR (dgv a b)))).
  { unfold py_log. destruct (Rlt_dec _ _) as [H|H]; [done|]. destruct H. apply IZR_lt. lia. }
  assert (E2 : py_log (1 - p) = Ok (ln (1 - p))).
  { unfold py_log. destruct (Rlt_dec _ _) as [H|H]; [done|]. destruct H. lra. }
  assert (E3 : py_log p = Ok (ln p)).
  { unfold py_log. destruct (Rlt_dec _ _) as [H|H]; [done|]. destruct H. lra. }
  rewrite E1, E2, E3. destruct (Req_EM_T _ _) as [H|H]; [by apply lnr_neq in H|]. done.
Qed.
Lemma wd_sym a b : has_node g a -> has_node g b -> ~ vv a b -> wd a b = wd b a.
Proof.
  intros Ha Hb Hvv. destruct (sg_facts isx dh dw T g Hsize Hnd HT Hg) as (Hok & Hu & _). unfold wd.
  rewrite (dz_sym g Hok Hu rx Hrx Hconn a b), (dg_sym g Hok Hu rx Hrx Hconn virt a b) by done. done.
Qed.

(** The likelihood of a pair: as many paths as its degeneracy, each as likely as its number of
    errors, relative to none. *)
Definition lik (a b : node) : R := (IZR (dgv a b) * (p / (1 - p)) ^ Z.to_nat (D a b))%R.
Lemma ratio_pos : (0 < p / (1 - p))%R. Proof. apply Rdiv_lt_0_compat; lra. Qed.
Lemma lik_pos a b : has_node g a -> has_node g b -> ~ vv a b -> (0 < lik a b)%R.
Proof.
  intros Ha Hb Hvv. apply Rmult_lt_0_compat; [|apply pow_lt, ratio_pos]. apply IZR_lt. pose proof (dgv_pos a b Ha Hb Hvv). lia.
Qed.
Lemma wd_lik a b : has_node g a -> has_node g b -> ~ vv a b -> (wd a b * lnr = ln (lik a b))%R.
Proof.
  intros Ha Hb Hvv. destruct (sg_facts isx dh dw T g Hsize Hnd HT Hg) as (Hok & Hu & _). unfold wd, lik.
  pose proof (dgv_pos a b Ha Hb Hvv) as Hd. pose proof (dz_nonneg g Hok Hu rx Hrx Hconn a b Ha Hb) as H0.
  rewrite ln_mult; [|apply IZR_lt; lia|apply pow_lt, ratio_pos]. rewrite ln_pow by apply ratio_pos.
  rewrite INR_IZR_INZ, Z2Nat.id by done.
  assert (E : ln (p / (1 - p)) = (- lnr)%R).
  { unfold lnr, Rdiv. rewrite ln_mult, ln_Rinv; [lra|lra|lra|]. apply Rinv_0_lt_compat; lra. }
  rewrite E. pose proof lnr_neq. field. done.
Qed.
Notation proper m := (~ vv m.1 m.2 /\ has_node g m.1 /\ has_node g m.2 /\ m.1 <> m.2).
Notation lik_of := (fun m : node * node => lik m.1 m.2).
Notation wd_of := (fun m : node * node => wd m.1 m.2).
Lemma lik_prod_pos ms : (forall m, m ∈ ms -> proper m) -> (0 < rprod (lik_of <$> ms))%R.
Proof.
  induction ms as [|m ms IH]; intros H; [cbn; lra|]. destruct (H m ltac:(left)) as (H1 & H2 & H3 & _).
  cbn. apply Rmult_lt_0_compat; [by apply lik_pos|]. apply IH. intros; apply H; by right.
Qed.
Lemma wd_sum ms : (forall m, m ∈ ms -> proper m) -> (rsum (wd_of <$> ms) * lnr = ln (rprod (lik_of <$> ms)))%R.
Proof.
  induction ms as [|m ms IH]; intros H; [cbn; rewrite ln_1; lra|]. destruct (H m ltac:(left)) as (H1 & H2 & H3 & _).
  assert (H' : forall m, m ∈ ms -> proper m) by (intros; apply H; by right).
  rewrite !fmap_cons. change (((wd m.1 m.2 + rsum (wd_of <$> ms)) * lnr = ln (lik m.1 m.2 * rprod (lik_of <$> ms)))%R).
  rewrite ln_mult; [|by apply lik_pos|by apply lik_prod_pos]. rewrite <- (IH H'), <- wd_lik by done. lra.
Qed.

(** ** What the matcher is given *)
Lemma deg_error_graph k ev : event_list g ev ->
  exists eg, make_error_graph 0%R (weigh_deg rx g virt p) virt (ev ++ vtimes isx dh dw k) ∅ = (ev ++ vtimes isx dh dw (S k), Ok eg) /\
    eg_spec isx dh dw 0%R wd ev eg.
Proof.
  intros Hev. apply (error_graph_gen isx dh dw T g Hsize Hnd HT Hg 0%R (weigh_deg rx g virt p) wd (cache_ok g rx)).
  - apply wd_sym.
  - apply weigh_deg_ok.
  - done.
  - apply cache_empty.
Qed.
Notation real := (filter (fun m : node * node => ~ (n_time m.1 = -1 /\ n_time m.2 = -1))).
Notation gwt := (gweight deg_wfn (gw 0%R wd)).
Lemma gweight_real M : gwt M = foldr Z.add 0 ((fun m => deg_wfn (wd m.1 m.2)) <$> real M).
Proof.
  unfold gweight. induction M as [|m M IH]; [done|]. rewrite filter_cons, fmap_cons. cbn [foldr]. rewrite IH.
  unfold gw at 1. destruct (decide (vv m.1 m.2)) as [H|H].
  - rewrite decide_False by tauto. rewrite deg_wfn_0. lia.
  - rewrite decide_True by tauto. rewrite fmap_cons. done.
Qed.
Lemma trunc_sum ms : (- INR (length ms) <= IZR (foldr Z.add 0%Z ((fun m => deg_wfn (wd m.1 m.2)) <$> ms)) - 10000 * rsum (wd_of <$> ms) <= INR (length ms))%R.
Proof.
  induction ms as [|m ms IH]; [cbn; lra|]. rewrite !fmap_cons. cbn [foldr length]. rewrite plus_IZR, S_INR.
  change (rsum (?x :: ?l)) with (x + rsum l)%R. pose proof (trunc_bound (wd m.1 m.2 * 10000)) as Hb. fold (deg_wfn (wd m.1 m.2)) in Hb. cbn beta. lra.
Qed.
(** Each pair has an event. *)
Lemma real_length ev eg M : event_list g ev -> eg_spec isx dh dw 0%R wd ev eg -> gmatching eg M -> (length (real M) <= length ev)%nat.
Proof.
  intros Hev Hes [HN HM].
  pose (f := fun m : node * node => if decide (m.1 ∈ ev) then m.1 else m.2).
  assert (Hf : forall m, m ∈ real M -> f m ∈ ev).
  { intros m [Hm1 Hm2]%elem_of_list_filter. destruct (HM m Hm2) as [w Hw].
    destruct (es_real _ _ _ _ _ _ _ Hes _ _ _ Hw Hm1) as [Ha Hb]. unfold f. destruct (decide _) as [|Hn]; [done|].
    apply elem_of_app in Ha as [Ha|Ha]; [done|]. apply elem_of_app in Hb as [Hb|Hb]; [done|].
    destruct Hm1. split; by apply virt_fact. }
  rewrite <- (fmap_length f). apply submseteq_length, NoDup_submseteq.
  - assert (HN' : NoDup (pends (real M))).
    { clear -HN. induction M as [|m M IH]; [done|]. rewrite pends_cons in HN. apply NoDup_cons in HN as [H1 HN]. apply NoDup_cons in HN as [H2 HN].
      specialize (IH HN). rewrite filter_cons. destruct (decide _); [|done].
      assert (Hsub : forall x, x ∈ pends (real M) -> x ∈ pends M).
      { intros x (q & Hq & Hx)%elem_of_pends. apply elem_of_pends. exists q. split; [|done]. by apply elem_of_list_filter in Hq as [_ ?]. }
      rewrite pends_cons. constructor; [|constructor; [by intros ?%Hsub|done]]. intros [E|Hin]%elem_of_cons; apply H1; [rewrite E; left|right; by apply Hsub]. }
    clear Hf. revert HN'. generalize (real M). intros ms. induction ms as [|m ms IH]; intros HNm; [constructor|].
    rewrite pends_cons in HNm. apply NoDup_cons in HNm as [H1 HNm]. apply NoDup_cons in HNm as [H2 HNm].
    rewrite fmap_cons. constructor; [|by apply IH]. intros (q & E & Hq)%elem_of_list_fmap.
    assert (Hin : f m ∈ pends ms) by (rewrite E; apply elem_of_pends; exists q; split; [done|]; unfold f; destruct (decide _); tauto).
    revert Hin. unfold f. destruct (decide _); [|done]. intros Hin. apply H1. by right.
  - intros x (m & -> & Hm)%elem_of_list_fmap. by apply Hf.
Qed.

(** The matching returned is the heaviest up to truncation. *)
Lemma deg_matching k ev : event_list g ev ->
  exists eg M, make_error_graph 0%R (weigh_deg rx g virt p) virt (ev ++ vtimes isx dh dw k) ∅ = (ev ++ vtimes isx dh dw (S k), Ok eg) /\
    eg_spec isx dh dw 0%R wd ev eg /\
    run_mwpm rx deg_wfn eg = Ok (real M) /\ gmatching eg M /\ pends M ≡ₚ pg_nodes (lg_g eg) /\
    (forall M', gmatching eg M' -> pends M' ≡ₚ pg_nodes (lg_g eg) -> gwt M' <= gwt M).
Proof.
  intros Hev. destruct (deg_error_graph k ev Hev) as (eg & E & Hes).
  destruct (perfect_exists_gen isx dh dw T g Hsize Hnd HT Hg 0%R wd rx Hrx ev eg Hev Hes) as (Mp & HMp & HMe).
  destruct (gperfect_match eg deg_wfn (es_ok _ _ _ _ _ _ _ Hes) (gw 0%R wd) (es_wt _ _ _ _ _ _ _ Hes) rx Mp Hrx HMp) as (M & HM); [by rewrite HMe|].
  exists eg, M. tauto.
Qed.
End weights.
