(** Decoding with an error probability: from the weights to the value. *)
From Coq Require Import Reals Lra.
From Verif Require Export DegenWeights P_Degen P_Decode.
From stdpp Require Export list.
Open Scope Z_scope.

Lemma ln_mono x y : (0 < x -> x <= y -> ln x <= ln y)%R.
Proof. intros Hx [H| ->]; [left; by apply ln_increasing|right; done]. Qed.

(** The numbers of walks grow at most geometrically. *)
Lemma nwalks_bound (g : pygraph node Z) k : forall i j, 0 <= nwalks g k i j <= Z.of_nat (length (pg_nodes g)) ^ Z.of_nat k.
Proof.
  induction k as [|k IH]; intros i j.
  - cbn. case_bool_decide; lia.
  - rewrite nwalks_S, Nat2Z.inj_succ, Z.pow_succ_r by lia.
    assert (HL : (length (neighbours g i) <= length (pg_nodes g))%nat).
    { unfold neighbours. etransitivity; [apply filter_length|]. by rewrite seq_length. }
    assert (Hs : forall l, 0 <= zsum ((fun l => nwalks g k l j) <$> l) <= Z.of_nat (length l) * Z.of_nat (length (pg_nodes g)) ^ Z.of_nat k).
    { induction l as [|x l IHl]; [cbn; lia|]. rewrite fmap_cons. change (zsum (?x :: ?l)) with (x + zsum l). cbn [length].
      specialize (IH x j). lia. }
    specialize (Hs (neighbours g i)). nia.
Qed.

Section decode.
Context (isx : bool) (dh dw T : Z) (g : lgraph Z) (rx : retworkx) (p : R).
Hypothesis Hsize : valid_size dh dw.
Hypothesis Hnd : 3 <= extent isx dh dw.
Hypothesis HT : 1 <= T.
Hypothesis Hg : make_syndrome_graph isx dh dw T = Ok g.
Hypothesis Hrx : rx_ok rx.
Hypothesis Hp : (0 < p < 1 /\ p <> / 2)%R.
Notation virt := (virtual_nodes isx dh dw).
Notation Dz := (dz g rx).
Notation dgv := (dg g rx virt).
Notation wdv := (wd isx dh dw g rx p).
Notation lnr := (lnr p).
Notation real := (filter (fun m : node * node => ~ (n_time m.1 = -1 /\ n_time m.2 = -1))).
Context (D : decoder).
Hypothesis HD : dec_h D = dh /\ dec_w D = dw /\ dec_graph D isx = Some g.

Lemma D_pos a b : has_node g a -> has_node g b -> a <> b -> 1 <= Dz a b.
Proof.
  intros Ha Hb Hab. destruct (sg_facts isx dh dw T g Hsize Hnd HT Hg) as (Hok & Hu & _).
  destruct (dz_spec g Hok Hu rx Hrx (sg_conn isx dh dw T g Hsize Hnd HT Hg) a b Ha Hb) as (_ & (P & HP & HPL) & _).
  destruct P; [by inversion HP|]. cbn in HPL. lia.
Qed.
(** Degeneracies grow at most geometrically with the distance. *)
Lemma dg_bound a b : has_node g a -> has_node g b -> a <> b -> ~ (n_time a = -1 /\ n_time b = -1) ->
  dgv a b <= (Z.of_nat (length (pg_nodes (lg_g g))) ^ 2) ^ Dz a b.
Proof.
  intros Ha Hb Hab Hvv. destruct (sg_facts isx dh dw T g Hsize Hnd HT Hg) as (Hok & Hu & _).
  pose proof (sg_conn isx dh dw T g Hsize Hnd HT Hg) as Hconn.
  set (n := Z.of_nat (length (pg_nodes (lg_g g)))).
  assert (Hn : 1 <= n). { apply elem_of_list_lookup in Ha as [i Hi]. apply lookup_lt_Some in Hi. lia. }
  assert (Hnp : forall u v, has_node g u -> has_node g v -> 0 <= np g rx u v <= n ^ Dz u v).
  { intros u v Hnu Hnv. destruct (has_node_map g u Hok Hnu) as (i & Hi & _). destruct (has_node_map g v Hok Hnv) as (j & Hj & _).
    rewrite (np_index g rx u v i j Hi Hj). pose proof (nwalks_bound (lg_g g) (Z.to_nat (Dz u v)) i j) as H.
    rewrite Z2Nat.id in H; [done|]. by apply (dz_nonneg g Hok Hu rx Hrx Hconn). }
  assert (Hb2 : forall u v, has_node g u -> has_node g v -> u <> v -> np g rx u v <= (n ^ 2) ^ Dz u v).
  { intros u v Hnu Hnv Huv. specialize (Hnp u v Hnu Hnv). pose proof (D_pos u v Hnu Hnv Huv). rewrite <- Z.pow_mul_r by lia.
    etransitivity; [apply Hnp|]. apply Z.pow_le_mono_r; lia. }
  assert (Hbd : forall u v, has_node g u -> has_node g v -> u <> v -> bdeg g rx virt u v <= (n ^ 2) ^ Dz u v).
  { intros u v Hnu Hnv Huv. unfold bdeg. case_bool_decide; [by apply Hb2|].
    pose proof (D_pos u v Hnu Hnv Huv).
    assert (Hs : forall l, (forall v', v' ∈ l -> has_node g v') -> zsum ((fun v' => if bool_decide (Dz u v' = Dz u v) then np g rx u v' else 0) <$> l) <= Z.of_nat (length l) * n ^ Dz u v).
    { induction l as [|x l IHl]; intros Hl; [cbn; lia|]. rewrite fmap_cons. change (zsum (?x :: ?l)) with (x + zsum l). cbn [length].
      specialize (IHl ltac:(intros; apply Hl; by right)). assert (0 <= n ^ Dz u v) by (apply Z.pow_nonneg; lia).
      assert ((if bool_decide (Dz u x = Dz u v) then np g rx u x else 0) <= n ^ Dz u v).
      { case_bool_decide as E; [|lia]. rewrite <- E. apply Hnp; [done|]. apply Hl. left. }
      lia. }
    specialize (Hs virt ltac:(intros v' Hv'; by apply (virt_fact isx dh dw T g))).
    assert (HL : Z.of_nat (length virt) <= n).
    { unfold n. apply Nat2Z.inj_le, submseteq_length, NoDup_submseteq; [by apply (virt_NoDup isx dh dw T g)|].
      intros x Hx. by apply (virt_fact isx dh dw T g). }
    etransitivity; [exact Hs|]. rewrite <- Z.pow_mul_r by lia.
    replace (2 * Dz u v) with (Dz u v + Dz u v) by lia. rewrite Z.pow_add_r by lia.
    assert (0 <= n ^ Dz u v) by (apply Z.pow_nonneg; lia).
    assert (n <= n ^ Dz u v). { rewrite <- (Z.pow_1_r n) at 1. apply Z.pow_le_mono_r; lia. }
    nia. }
  unfold dg. case_bool_decide; [|case_bool_decide].
  - rewrite (dz_sym g Hok Hu rx Hrx Hconn a b) by done. apply Hbd; done.
  - by apply Hbd.
  - by apply Hb2.
Qed.

(** What decoding returns: the crossings of an optimal matching. *)
Lemma decode_matching b ev : event_list g ev -> ev <> [] ->
  exists eg M, eg_spec isx dh dw 0%R wdv ev eg /\ gmatching eg M /\ pends M ≡ₚ pg_nodes (lg_g eg) /\
    (forall M', gmatching eg M' -> pends M' ≡ₚ pg_nodes (lg_g eg) -> gweight deg_wfn (gw 0%R wdv) M' <= gweight deg_wfn (gw 0%R wdv) M) /\
    (correct_events_p rx D (Some p) isx (Z.b2z b) ev).2 = Ok (Z.b2z (xorb b (xorl ((fun m => xorb (tops isx m.1) (tops isx m.2)) <$> real M)))).
Proof.
  intros Hev Hne. destruct HD as (Hh & Hw & HDg).
  destruct (deg_matching isx dh dw T g rx p Hsize Hnd HT Hg Hrx Hp 0 ev Hev) as (eg & M & E & Hes & Hr & HM & HE & Hopt).
  change (vtimes isx dh dw 0) with (@nil node) in E. rewrite app_nil_r in E.
  exists eg, M. split; [done|]. split; [done|]. split; [done|]. split; [done|].
  unfold correct_events_p, corrections_p. destruct (Req_EM_T p 0) as [H0|H0]; [lra|].
  destruct ev as [|n0 ev0]; [done|]. rewrite HDg, Hh, Hw. cbn [snd]. rewrite E. cbn [snd]. rewrite Hr.
  rewrite fold_crossing. do 3 f_equal. apply xorl_ext. intros m Hm. apply (crossing_top isx dh dw T g); try done. by apply elem_of_list_filter in Hm as [? _].
Qed.

(** If degeneracies are at most [rho] to the distance and the probability is small enough,
    then up to half the distance is decoded. *)
Definition small_p (rho : R) : Prop :=
  (p < / 2 /\ 1 <= rho /\ (ln rho / lnr + / 10000) * IZR (extent isx dh dw + 1) < 2)%R.
Theorem decode_value_p rho b ev (F : list (node * node)) : small_p rho ->
  (forall a b, has_node g a -> has_node g b -> a <> b -> ~ (n_time a = -1 /\ n_time b = -1) -> (IZR (dgv a b) <= rho ^ Z.to_nat (Dz a b))%R) ->
  event_list g ev ->
  (forall e, e ∈ F -> edge_w g e.1 e.2 1) ->
  (forall n, 0 <= n_time n -> lpar (pends F) n = bool_decide (n ∈ ev)) ->
  2 * Z.of_nat (length F) < extent isx dh dw ->
  (correct_events_p rx D (Some p) isx (Z.b2z b) ev).2 = Ok (Z.b2z (xorb b (xorl ((fun e => xorb (tops isx e.1) (tops isx e.2)) <$> F)))).
Proof.
  intros (Hhalf & Hrho & Hsmall) Hdg Hev HF Hpar HL.
  destruct (decide (ev = [])) as [-> |Hne].
  - unfold correct_events_p, corrections_p. destruct (Req_EM_T p 0) as [H0|H0]; [lra|]. cbn [snd foldl].
    rewrite (cut_parity isx dh dw T g Hsize Hnd HT Hg F); [by rewrite xorb_false_r|done| |lia].
    intros n Hn. rewrite Hpar by done. apply bool_decide_eq_false. apply not_elem_of_nil.
  - destruct (decode_matching b ev Hev Hne) as (eg & M & Hes & HM & HE & Hopt & ->).
    destruct (matching_paths isx dh dw T g Hsize Hnd HT Hg 0%R wdv rx Hrx ev eg M Hev Hes HM HE) as (Hms & P & HP & HPL & HPp & HPx).
    destruct (explain_matching isx dh dw T g Hsize Hnd HT Hg 0%R wdv rx Hrx ev F eg Hev HF Hpar Hes) as (M0 & HM0 & HE0 & Hc0).
    destruct (matching_paths isx dh dw T g Hsize Hnd HT Hg 0%R wdv rx Hrx ev eg M0 Hev Hes HM0 HE0) as (Hms0 & _).
    specialize (Hopt M0 HM0 HE0). rewrite !gweight_real in Hopt by exact Hp.
    pose proof (lnr_pos p Hp Hhalf) as Hlnr. destruct (sg_facts isx dh dw T g Hsize Hnd HT Hg) as (Hok & Hu & _).
    (* the explanation weighs at least this much *)
    assert (Hlow : forall ms : list (node * node), (forall m, m ∈ ms -> ~ (n_time m.1 = -1 /\ n_time m.2 = -1) /\ has_node g m.1 /\ has_node g m.2 /\ m.1 <> m.2) ->
      - (10000 * cost Dz ms) <= foldr Z.add 0 ((fun m => deg_wfn (wdv m.1 m.2)) <$> ms)).
    { induction ms as [|m ms IH]; intros Hm; [done|]. rewrite cost_cons, fmap_cons. cbn [foldr].
      specialize (IH ltac:(intros; apply Hm; by right)). destruct (Hm m ltac:(left)) as (H1 & H2 & H3 & H4).
      assert (- (10000 * Dz m.1 m.2) <= deg_wfn (wdv m.1 m.2)); [|lia].
      apply trunc_ge.
      - unfold wd. pose proof (dgv_pos isx dh dw T g rx Hsize Hnd HT Hg Hrx m.1 m.2 H2 H3 H1) as Hd.
        assert (0 <= ln (IZR (dgv m.1 m.2)))%R by (rewrite <- ln_1; apply ln_mono; [lra|]; apply IZR_le; lia).
        assert (0 <= ln (IZR (dgv m.1 m.2)) / lnr)%R by (apply Rmult_le_pos; [done|]; left; by apply Rinv_0_lt_compat).
        rewrite opp_IZR, mult_IZR. lra.
      - pose proof (D_pos m.1 m.2 H2 H3 H4). lia. }
    (* the matching found at most this *)
    assert (Hhigh : forall ms : list (node * node), (forall m, m ∈ ms -> ~ (n_time m.1 = -1 /\ n_time m.2 = -1) /\ has_node g m.1 /\ has_node g m.2 /\ m.1 <> m.2) ->
      (IZR (foldr Z.add 0%Z ((fun m => deg_wfn (wdv m.1 m.2)) <$> ms)) <= - (10000 * IZR (cost Dz ms)) * (1 - (ln rho / lnr + / 10000)))%R).
    { induction ms as [|m ms IH]; intros Hm; [cbn; lra|]. rewrite cost_cons, fmap_cons. cbn [foldr].
      specialize (IH ltac:(intros; apply Hm; by right)). destruct (Hm m ltac:(left)) as (H1 & H2 & H3 & H4).
      rewrite !plus_IZR.
      assert (IZR (deg_wfn (wdv m.1 m.2)) <= - (10000 * IZR (Dz m.1 m.2)) * (1 - (ln rho / lnr + / 10000)))%R; [|lra].
      pose proof (trunc_bound (wdv m.1 m.2 * 10000)) as Hb. fold (deg_wfn (wdv m.1 m.2)) in Hb.
      pose proof (D_pos m.1 m.2 H2 H3 H4) as H1d. assert (H1r : (1 <= IZR (Dz m.1 m.2))%R) by (by apply IZR_le).
      pose proof (dgv_pos isx dh dw T g rx Hsize Hnd HT Hg Hrx m.1 m.2 H2 H3 H1) as Hd.
      assert (Hln : (ln (IZR (dgv m.1 m.2)) <= IZR (Dz m.1 m.2) * ln rho)%R).
      { apply (Rle_trans _ (ln (rho ^ Z.to_nat (Dz m.1 m.2)))); [apply ln_mono; [apply IZR_lt; lia|by apply Hdg]|].
        rewrite ln_pow by lra. rewrite INR_IZR_INZ, Z2Nat.id by lia. lra. }
      assert (Hq : (ln (IZR (dgv m.1 m.2)) / lnr <= IZR (Dz m.1 m.2) * (ln rho / lnr))%R).
      { unfold Rdiv. rewrite <- Rmult_assoc. apply Rmult_le_compat_r; [|done]. left. by apply Rinv_0_lt_compat. }
      unfold wd in Hb. unfold wd. lra. }
    specialize (Hlow (real M0) Hms0). specialize (Hhigh (real M) Hms).
    assert (Hcost : cost Dz (real M) + Z.of_nat (length F) < extent isx dh dw).
    { destruct (decide (cost Dz (real M) <= Z.of_nat (length F))) as [|Hgt]; [lia|]. exfalso.
      set (CM := cost Dz (real M)) in *. set (f := Z.of_nat (length F)) in *. set (dl := (ln rho / lnr + / 10000)%R) in *.
      set (W := foldr Z.add 0 ((fun m => deg_wfn (wdv m.1 m.2)) <$> real M)) in *.
      assert (HW : (IZR (- (10000 * f)) <= IZR W)%R) by (apply IZR_le; lia). rewrite opp_IZR, mult_IZR in HW.
      assert (Hf : (IZR (f + 1) <= IZR CM)%R) by (apply IZR_le; lia). rewrite plus_IZR in Hf.
      assert (Hdl : (0 <= ln rho / lnr)%R).
      { apply Rmult_le_pos; [rewrite <- ln_1; apply ln_mono; lra|]. left. by apply Rinv_0_lt_compat. }
      assert (Hx : (IZR (2 * (f + 1)) <= IZR (extent isx dh dw + 1))%R) by (apply IZR_le; lia). rewrite mult_IZR, plus_IZR in Hx.
      assert (Hf0 : (0 <= IZR f)%R) by (apply IZR_le; lia).
      assert (Hdl0 : (0 < dl)%R) by (unfold dl; lra).
      assert (Hkey : (dl * (IZR f + 1) < 1)%R) by nra.
      assert (Hdl1 : (dl < 1)%R) by nra.
      assert (10000 * IZR CM * (1 - dl) <= 10000 * IZR f)%R by lra.
      assert ((IZR f + 1) * (1 - dl) <= IZR CM * (1 - dl))%R by (apply Rmult_le_compat_r; lra). lra. }
    rewrite <- HPx. do 3 f_equal. apply xorb_eq. rewrite <- xorl_app, <- fmap_app. apply (cut_parity isx dh dw T g Hsize Hnd HT Hg).
    + intros e [He|He]%elem_of_app; auto.
    + intros n Hn. rewrite pends_app, lpar_app, HPp, Hpar by done. apply xorb_nilpotent.
    + rewrite app_length. lia.
Qed.
End decode.
