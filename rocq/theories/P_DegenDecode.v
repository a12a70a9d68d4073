(** Properties C31, C45 and C46: decoding with an error probability.  Real numbers stand for
    the floats of the library. *)
From Coq Require Import Reals Lra.
From Verif Require Import FaultFacts Parse P_Parse DegenDecode RxRef.
From stdpp Require Export list.
Open Scope Z_scope.

(** The likelihood of joining two nodes: as many shortest paths as their degeneracy (see
    P_Degen.v), each as likely as that many errors, relative to no error. *)
Definition likelihood (isx : bool) (g : lgraph Z) (virt : list node) (p : R) (m : node * node) (x : R) : Prop :=
  exists n P, degeneracy isx g virt m.1 m.2 n /\ shortest_path g m.1 m.2 P /\ x = (IZR n * (p / (1 - p)) ^ length P)%R.

Lemma degeneracy_unique isx g virt a b n m : degeneracy isx g virt a b n -> degeneracy isx g virt a b m -> n = m.
Proof. unfold degeneracy. repeat case_bool_decide; apply counts_unique. Qed.

Section likelihood.
Context (isx : bool) (dh dw T : Z) (g : lgraph Z) (rx : retworkx).
Hypothesis Hv : valid_size dh dw.
Hypothesis Hext : 3 <= extent isx dh dw.
Hypothesis HT : 1 <= T.
Hypothesis Hg : make_syndrome_graph isx dh dw T = Ok g.
Hypothesis Hrx : rx_ok rx.
Notation virt := (virtual_nodes isx dh dw).
Lemma likelihood_lik p m x : proper_pair g m -> likelihood isx g virt p m x <-> x = lik isx dh dw g rx p m.1 m.2.
Proof.
  intros Hm. pose proof (dg_degeneracy isx dh dw T g rx Hv Hext HT Hg Hrx m Hm) as Hd.
  destruct Hm as (Ha & Hb & _ & Hvv). destruct (sg_facts isx dh dw T g Hv Hext HT Hg) as (Hok & Hu & _).
  pose proof (sg_conn isx dh dw T g Hv Hext HT Hg) as Hconn. unfold lik. split.
  - intros (n & P & Hn & HP & ->). rewrite (degeneracy_unique _ _ _ _ _ _ _ Hn Hd).
    apply (shortest_path_length g Hok Hu rx Hrx Hconn) in HP as [_ HP]; [|done..]. by rewrite <- HP, Nat2Z.id.
  - intros ->. destruct (dz_spec g Hok Hu rx Hrx Hconn m.1 m.2 Ha Hb) as (_ & (P & HP & HPL) & _).
    exists (dg g rx virt m.1 m.2), P. split; [done|]. split; [by apply (shortest_path_length g Hok Hu rx Hrx Hconn)|].
    by rewrite <- HPL, Nat2Z.id.
Qed.
Lemma likelihoods p ms xs : (forall m, m ∈ ms -> proper_pair g m) ->
  Forall2 (likelihood isx g virt p) ms xs <-> xs = (fun m => lik isx dh dw g rx p m.1 m.2) <$> ms.
Proof.
  revert xs. induction ms as [|m ms IH]; intros xs Hms.
  - split; [by intros ->%Forall2_nil_inv_l|]. intros ->. constructor.
  - rewrite fmap_cons. split.
    + intros (x & xs' & Hx & Hxs & ->)%Forall2_cons_inv_l. f_equal.
      * apply likelihood_lik; [|done]. apply Hms. left.
      * apply IH; [|done]. intros; apply Hms; by right.
    + intros ->. constructor; [apply likelihood_lik; [apply Hms; left|done]|]. apply IH; [|done]. intros; apply Hms; by right.
Qed.
End likelihood.

(** * C31 *)
(** After any history of questions, the weight of two nodes is the logarithm of their
    likelihood in the base (1-p)/p. *)
Theorem C31_weight isx dh dw T g rx p qs ns c a b : valid_size dh dw -> 3 <= extent isx dh dw -> 1 <= T ->
  make_syndrome_graph isx dh dw T = Ok g -> rx_ok rx -> (0 < p < 1 /\ p <> / 2)%R ->
  (forall q, q ∈ qs -> proper_pair g q) -> ask rx g (virtual_nodes isx dh dw) qs ∅ = Ok (ns, c) -> proper_pair g (a, b) ->
  exists x c', likelihood isx g (virtual_nodes isx dh dw) p (a, b) x /\
    weigh_deg rx g (virtual_nodes isx dh dw) p a b c = Ok ((ln x / ln ((1 - p) / p))%R, c').
Proof.
  intros Hv Hext HT Hg Hrx Hp Hqs Ha Hab.
  destruct (ask_ok isx dh dw T g rx Hv Hext HT Hg Hrx qs Hqs ∅ (cache_empty g rx)) as (c1 & E & Hc).
  rewrite Ha in E. injection E as _ ->. pose proof Hab as (H1 & H2 & H3 & H4). cbn [fst snd] in *.
  destruct (weigh_deg_ok isx dh dw T g rx p Hv Hext HT Hg Hrx Hp a b c1 H1 H2 H3 H4 Hc) as (c' & E' & _).
  exists (lik isx dh dw g rx p a b), c'. split; [by apply (likelihood_lik isx dh dw T g rx)|].
  rewrite E', <- (wd_lik isx dh dw T g rx p Hv Hext HT Hg Hrx Hp a b H1 H2 H4), (lnr_ratio p Hp).
  pose proof (lnr_neq p Hp) as Hn. rewrite (lnr_ratio p Hp) in Hn. do 2 f_equal. field. done.
Qed.
Print Assumptions C31_weight.

(** The likelihood of a pairing of all events is the product over its pairs.  For an error
    probability below 1/2, the value returned is the value read plus the number of pairs with
    one end on the readout side, for a pairing that is the most likely up to the rounding of
    weights to four decimals: a factor of ((1-p)/p)^(1/5000) per event. *)
Theorem C31_most_likely isx dh dw T D rx p b ev g : valid_size dh dw -> 3 <= extent isx dh dw -> 1 <= T ->
  decoder_for isx dh dw T D -> rx_ok rx -> (0 < p < / 2)%R -> dec_graph D isx = Some g ->
  NoDup ev -> (forall n, n ∈ ev -> n ∈ pg_nodes (lg_g g) /\ 0 <= n_time n) ->
  exists ms xs, pairing ev (virtual_nodes isx dh dw) ms /\ Forall2 (likelihood isx g (virtual_nodes isx dh dw) p) ms xs /\
    (correct_events_p rx D (Some p) isx (Z.b2z b) ev).2 =
      Ok (Z.b2z (xorb b (xorl ((fun m => xorb (bool_decide (readout_side isx m.1)) (bool_decide (readout_side isx m.2))) <$> ms)))) /\
    forall ms' xs', pairing ev (virtual_nodes isx dh dw) ms' -> Forall2 (likelihood isx g (virtual_nodes isx dh dw) p) ms' xs' ->
      (rprod xs' <= rprod xs * Rpower ((1 - p) / p) (INR (length ev) / 5000))%R.
Proof.
  intros Hv Hext HT HD Hrx Hp Hg Hnd Hev. destruct (decoder_inv isx dh dw T D HD) as (Hh & Hw & g' & Hg' & Eg).
  rewrite Hg in Hg'. injection Hg' as <-.
  assert (Hp' : (0 < p < 1 /\ p <> / 2)%R) by lra.
  set (virt := virtual_nodes isx dh dw).
  assert (Hpp : forall ms, pairing ev virt ms -> forall m, m ∈ ms -> proper_pair g m).
  { intros ms (P1 & P2 & P3 & P4) m Hm.
    assert (Hn : forall n, n ∈ pends ms -> has_node g n).
    { intros n Hn. apply P2, elem_of_app in Hn as [Hn|Hn]; [by apply Hev|]. by apply (virt_fact isx dh dw T g). }
    split; [apply Hn, elem_of_pends; eauto|]. split; [apply Hn, elem_of_pends; eauto|]. split; [by eapply NoDup_pairs|by apply P4]. }
  destruct (decide (ev = [])) as [-> |Hne].
  - exists [], []. split; [|split; [constructor|split]].
    + split; [constructor|]. split; [intros n Hn; by apply elem_of_nil in Hn|]. split; [intros n Hn; by apply elem_of_nil in Hn|]. intros m Hm; by apply elem_of_nil in Hm.
    + unfold correct_events_p, corrections_p. destruct (Req_EM_T p 0); [lra|]. cbn [snd foldl]. by rewrite xorb_false_r.
    + intros ms' xs' (P1 & P2 & P3 & P4) Hxs. destruct ms' as [|m ms'].
      * apply Forall2_nil_inv_l in Hxs as ->. cbn [length rprod foldr INR]. unfold Rdiv at 2. rewrite Rmult_0_l, Rpower_O; [lra|]. apply Rdiv_lt_0_compat; lra.
      * exfalso. apply (P4 m ltac:(left)).
        assert (Hn : forall n, n ∈ pends (m :: ms') -> n_time n = -1).
        { intros n Hn%P2. apply elem_of_app in Hn as [Hn|Hn]; [by apply elem_of_nil in Hn|]. by apply (virt_fact isx dh dw T g) in Hn as [_ ?]. }
        split; apply Hn, elem_of_pends; exists m; (split; [left|auto]).
  - destruct (decode_matching isx dh dw T g rx p Hv Hext HT Eg Hrx Hp' D (conj Hh (conj Hw Hg)) b ev (conj Hnd Hev) Hne) as (eg & M & Hes & HM & HE & Hopt & E).
    set (ms := filter (fun m : node * node => ~ (n_time m.1 = -1 /\ n_time m.2 = -1)) M) in *.
    pose proof (real_pairing isx dh dw g 0%R (wd isx dh dw g rx p) ev eg M (conj Hnd Hev) Hes HM HE) as Hpair. fold ms in Hpair.
    exists ms, ((fun m => lik isx dh dw g rx p m.1 m.2) <$> ms). split; [done|]. split; [apply (likelihoods isx dh dw T g rx Hv Hext HT Eg Hrx); [by apply Hpp|done]|]. split; [exact E|].
    intros ms' xs' Hpair' Hxs.
    apply (likelihoods isx dh dw T g rx Hv Hext HT Eg Hrx) in Hxs; [|by apply Hpp]. subst xs'.
    destruct (extend_pairing isx dh dw T g Hv Hext HT Eg 0%R (wd isx dh dw g rx p) ev eg ms' (conj Hnd Hev) Hes Hpair') as (M' & HM' & HE' & Hr').
    specialize (Hopt M' HM' HE'). rewrite !gweight_real in Hopt by exact Hp'. rewrite Hr' in Hopt. fold ms in Hopt.
    pose proof (real_length isx dh dw T g rx p Hv Hext HT Eg Hp' ev eg M (conj Hnd Hev) Hes HM) as HL. fold ms in HL.
    pose proof (real_length isx dh dw T g rx p Hv Hext HT Eg Hp' ev eg M' (conj Hnd Hev) Hes HM') as HL'. rewrite Hr' in HL'.
    pose proof (trunc_sum isx dh dw g rx p ms) as Ht. pose proof (trunc_sum isx dh dw g rx p ms') as Ht'.
    apply IZR_le in Hopt. apply le_INR in HL, HL'.
    assert (Hprop : forall l, pairing ev virt l -> forall m, m ∈ l -> ~ (n_time m.1 = -1 /\ n_time m.2 = -1) /\ has_node g m.1 /\ has_node g m.2 /\ m.1 <> m.2).
    { intros l Hl m Hm. destruct (Hpp l Hl m Hm) as (? & ? & ? & ?). done. }
    pose proof (wd_sum isx dh dw T g rx p Hv Hext HT Eg Hrx Hp' ms (Hprop _ Hpair)) as Hs.
    pose proof (wd_sum isx dh dw T g rx p Hv Hext HT Eg Hrx Hp' ms' (Hprop _ Hpair')) as Hs'.
    pose proof (lik_prod_pos isx dh dw T g rx p Hv Hext HT Eg Hrx Hp' ms (Hprop _ Hpair)) as Hpos.
    pose proof (lik_prod_pos isx dh dw T g rx p Hv Hext HT Eg Hrx Hp' ms' (Hprop _ Hpair')) as Hpos'.
    pose proof (lnr_pos p Hp' ltac:(lra)) as Hlnr.
    set (S := rsum ((fun m => wd isx dh dw g rx p m.1 m.2) <$> ms)) in *. set (S' := rsum ((fun m => wd isx dh dw g rx p m.1 m.2) <$> ms')) in *.
    set (X := rprod ((fun m => lik isx dh dw g rx p m.1 m.2) <$> ms)) in *. set (X' := rprod ((fun m => lik isx dh dw g rx p m.1 m.2) <$> ms')) in *.
    assert (HS : (S' - S <= INR (length ev) / 5000)%R) by lra.
    assert (Hln : (ln X' <= ln (X * Rpower ((1 - p) / p) (INR (length ev) / 5000)))%R).
    { rewrite ln_mult; [|done|apply exp_pos]. unfold Rpower. rewrite ln_exp, <- (lnr_ratio p Hp'), <- Hs, <- Hs'. nra. }
    apply Rnot_lt_le. intros Hlt. apply ln_increasing in Hlt; [lra|]. apply Rmult_lt_0_compat; [done|apply exp_pos].
Qed.
Print Assumptions C31_most_likely.

(** * C45 *)
(** If no proper pair can be weighed, building the graph fails on the first one. *)
Lemma first_pair_fails {W C} (weigh : node -> node -> C -> res (W * C)) (zero : W) vt (Inv : C -> Prop) e (ps : list (node * node)) : forall gr c, lg_ok gr ->
  (forall q, q ∈ ps -> has_node gr q.1 /\ has_node gr q.2) -> Inv c ->
  (forall q c, q ∈ ps -> ~ (q.1 ∈ vt /\ q.2 ∈ vt) -> Inv c -> weigh q.1 q.2 c = Err e) ->
  (exists q, q ∈ ps /\ ~ (q.1 ∈ vt /\ q.2 ∈ vt)) ->
  rfold (add_pair zero weigh vt) (gr, c) ps = Err e.
Proof.
  induction ps as [|q ps IH]; intros gr c Hok Hn Hc Hw (q' & Hq' & Hqv); [by apply elem_of_nil in Hq'|].
  cbn [rfold]. unfold add_pair at 1. cbn [fst snd]. destruct (Hn q ltac:(left)) as [Hq1 Hq2].
  destruct (bool_decide (q.1 ∈ vt) && bool_decide (q.2 ∈ vt)) eqn:Eb.
  - apply andb_true_iff in Eb as [E1 E2]. apply bool_decide_eq_true in E1, E2.
    destruct (lg_add_edge_ok gr q.1 q.2 zero Hok Hq1 Hq2) as (g' & -> & Hok' & Hn' & _). apply IH; [done| |done| |].
    + intros x Hx. unfold has_node. rewrite Hn'. apply Hn. by right.
    + intros x c' Hx. apply Hw. by right.
    + exists q'. split; [|done]. apply elem_of_cons in Hq' as [-> |?]; [tauto|done].
  - rewrite Hw; [done|left| |done]. intros [E1 E2]. by rewrite !bool_decide_eq_true_2 in Eb.
Qed.
(** What decoding some events does for each error probability. *)
Theorem C45_outcome isx dh dw T D rx p b ev g : valid_size dh dw -> 3 <= extent isx dh dw -> 1 <= T ->
  decoder_for isx dh dw T D -> rx_ok rx -> dec_graph D isx = Some g ->
  ev <> [] -> NoDup ev -> (forall n, n ∈ ev -> n ∈ pg_nodes (lg_g g) /\ 0 <= n_time n) ->
  let r := (correct_events_p rx D (Some p) isx (Z.b2z b) ev).2 in
  ((0 <= p < 1 /\ p <> / 2)%R -> exists b', r = Ok (Z.b2z b')) /\
  ((p = / 2)%R -> r = Err ZeroDivisionError) /\
  ((p < 0 \/ 1 <= p)%R -> r = Err ValueError).
Proof.
  intros Hv Hext HT HD Hrx Hg Hne Hnd Hev r. destruct (decoder_inv isx dh dw T D HD) as (Hh & Hw & g' & Hg' & Eg).
  rewrite Hg in Hg'. injection Hg' as <-. set (virt := virtual_nodes isx dh dw).
  destruct (sg_facts isx dh dw T g Hv Hext HT Eg) as (Hok & Hu & _). pose proof (sg_conn isx dh dw T g Hv Hext HT Eg) as Hconn.
  assert (Hgen : forall e, (p <> 0)%R -> (forall a b' c, has_node g a -> has_node g b' -> a <> b' -> ~ (n_time a = -1 /\ n_time b' = -1) -> cache_ok g rx c -> weigh_deg rx g virt p a b' c = Err e) -> r = Err e).
  { intros e Hp0 Hwe. unfold r, correct_events_p, corrections_p. destruct (Req_EM_T p 0) as [|_]; [done|].
    destruct ev as [|n0 ev0] eqn:Eev; [done|]. rewrite <- Eev in *. rewrite Hg, Hh, Hw. fold virt. cbn [fst snd]. unfold make_error_graph. cbn [snd].
    destruct (ensure_all (weigh_deg rx g virt p) (fun _ _ => 0%R) (ev ++ virt) (@lg_empty R) lg_empty_ok) as (G1 & G2 & _ & _).
    rewrite (first_pair_fails _ _ _ (cache_ok g rx) e); [done|done|..].
    - intros [x y] [Ha Hb]%elem_combinations. split; apply G2; by right.
    - apply cache_empty.
    - intros q c Hq Hqv Hc. assert (Hq2 : q.1 ∈ ev ++ virt /\ q.2 ∈ ev ++ virt) by (apply elem_combinations; by rewrite <- surjective_pairing). destruct Hq2 as [Ha Hb].
      assert (Hn : forall n, n ∈ ev ++ virt -> has_node g n /\ (n ∈ virt <-> n_time n = -1)).
      { intros n [Hn|Hn]%elem_of_app.
        - destruct (Hev n Hn) as [H1 H2]. split; [done|]. split; [|lia]. intros Hvv. by apply (virt_fact isx dh dw T g) in Hvv as [_ ?].
        - pose proof (virt_fact isx dh dw T g Hv Hext HT Eg n Hn) as [H1 H2]. done. }
      destruct (Hn _ Ha) as [Ha1 Ha2], (Hn _ Hb) as [Hb1 Hb2]. apply Hwe; try done; [|by rewrite <- Ha2, <- Hb2].
      intros Eq. rewrite (surjective_pairing q), <- Eq in Hq. apply comb_same in Hq; [|done|].
      + apply Hqv. rewrite <- Eq. done.
      + intros x Hx Hxv. destruct (Hev x Hx) as [_ H]. apply (virt_fact isx dh dw T g) in Hxv as [_ ?]; [lia|done..].
    - destruct (virt_nonempty isx dh dw T g Hv Hext Eg) as (v0 & vs & Evirt). change (MwpmGraph.virt isx dh dw) with virt in Evirt.
      assert (Hn0 : n0 ∈ ev) by (rewrite Eev; left). destruct (Hev n0 Hn0) as [_ Ht].
      assert (Hv0 : v0 ∈ virt) by (rewrite Evirt; left).
      assert (Hnv : n0 ∉ virt). { intros Hx. apply (virt_fact isx dh dw T g) in Hx as [_ ?]; [lia|done..]. }
      destruct (combinations_distinct (ev ++ virt) n0 v0) as [Hc|Hc].
      + intros ->. done.
      + apply elem_of_app. by left.
      + apply elem_of_app. by right.
      + exists (n0, v0). split; [done|]. cbn. tauto.
      + exists (v0, n0). split; [done|]. cbn. tauto. }
  assert (Hweigh : forall a b' c, has_node g a -> has_node g b' -> a <> b' -> ~ (n_time a = -1 /\ n_time b' = -1) -> cache_ok g rx c ->
    exists c' d n, weigh_deg rx g virt p a b' c = match Ok (ln n), py_log (1 - p), py_log p with
      | Ok ln_n, Ok ln_q, Ok ln_p => if Req_EM_T (ln_q - ln_p) 0 then Err ZeroDivisionError else Ok ((-1 * (IZR d - ln_n / (ln_q - ln_p)))%R, c')
      | Err e, _, _ | _, Err e, _ | _, _, Err e => Err e end).
  { intros a b' c Ha Hb Hab Hvv Hc. unfold weigh_deg. destruct (dz_spec g Hok Hu rx Hrx Hconn a b' Ha Hb) as (-> & _).
    destruct (path_degeneracy_ok g Hok Hu rx Hrx Hconn virt (virt_fact isx dh dw T g Hv Hext HT Eg) a b' c Ha Hb Hab Hvv Hc) as (c' & -> & Hc').
    exists c', (dz g rx a b'), (IZR (dg g rx virt a b')).
    pose proof (dgv_pos isx dh dw T g rx Hv Hext HT Eg Hrx a b' Ha Hb Hvv) as Hd. fold virt in Hd. unfold py_log at 1.
    destruct (Rlt_dec _ _) as [H|H]; [done|]. destruct H. apply IZR_lt. lia. }
  split_and!.
  - intros Hp. destruct (Req_dec p 0) as [-> |Hp0].
    + unfold r, correct_events_p, corrections_p. destruct (Req_EM_T 0 0) as [_|]; [|done].
      apply (decode_total isx dh dw T g Hv Hext HT Eg rx Hrx D (conj Hh (conj Hw Hg)) EPZero b ev (conj Hnd Hev)).
    + destruct (decode_matching isx dh dw T g rx p Hv Hext HT Eg Hrx ltac:(lra) D (conj Hh (conj Hw Hg)) b ev (conj Hnd Hev) Hne) as (eg & M & _ & _ & _ & _ & E).
      eexists. exact E.
  - intros ->. apply Hgen; [lra|]. intros a b' c H1 H2 H3 H4 H5. destruct (Hweigh a b' c H1 H2 H3 H4 H5) as (c' & d & n & ->).
    unfold py_log. destruct (Rlt_dec 0 (1 - / 2)) as [_|H]; [|destruct H; lra]. destruct (Rlt_dec 0 (/ 2)) as [_|H]; [|destruct H; lra].
    destruct (Req_EM_T _ _) as [_|H]; [done|]. destruct H. replace (1 - / 2)%R with (/ 2)%R by lra. lra.
  - intros Hp. apply Hgen; [lra|]. intros a b' c H1 H2 H3 H4 H5. destruct (Hweigh a b' c H1 H2 H3 H4 H5) as (c' & d & n & ->).
    unfold py_log. destruct (Rlt_dec 0 (1 - p)) as [Hq|H]; [|done]. destruct (Rlt_dec 0 p) as [H|_]; [lra|done].
Qed.
Print Assumptions C45_outcome.
(** Without events the value is returned as it is, whatever the probability. *)
Theorem C45_no_events rx D ep isx b : correct_events_p rx D ep isx (Z.b2z b) [] = ([], Ok (Z.b2z b)).
Proof. unfold correct_events_p, corrections_p. destruct ep as [p|]; [destruct (Req_EM_T p 0)|]; done. Qed.
Print Assumptions C45_no_events.
(** No probability is the decoder of P_Decode.v, and a zero probability is the one with scaled weights. *)
Theorem C45_plain rx D isx b ev s :
  correct_events_p rx D None isx b ev = correct_events rx D EPNone isx b ev /\
  correct_events_p rx D (Some 0%R) isx b ev = correct_events rx D EPZero isx b ev /\
  correct_readout_p rx D None s isx = correct_readout rx D EPNone s isx /\
  correct_readout_p rx D (Some 0%R) s isx = correct_readout rx D EPZero s isx.
Proof.
  assert (H1 : forall ev b, correct_events_p rx D None isx b ev = correct_events rx D EPNone isx b ev) by done.
  assert (H2 : forall ev b, correct_events_p rx D (Some 0%R) isx b ev = correct_events rx D EPZero isx b ev).
  { intros. unfold correct_events_p, corrections_p. by destruct (Req_EM_T 0 0). }
  split; [done|]. split; [done|]. split; [done|]. unfold correct_readout_p, correct_readout. destruct (parse_readout _ _ _ _) as [[lv [X Z']]|]; [|done]. by rewrite H2.
Qed.
Print Assumptions C45_plain.

(** * C46 *)
Section decode_rounds_p.
Context (dh dw T : Z) (D : decoder) (rx : retworkx) (p rho : R) (isx : bool) (c : code) (g : lgraph Z).
Hypothesis Hv : valid_size dh dw.
Hypothesis HD : decoder_for isx dh dw T D.
Hypothesis Hg : dec_graph D isx = Some g.
Hypothesis Hrx : rx_ok rx.
Hypothesis Hp : (0 < p < / 2)%R.
(** Degeneracies are at most [rho] to the distance ... *)
Definition degeneracy_bound (isx : bool) (g : lgraph Z) (virt : list node) (rho : R) : Prop :=
  (1 <= rho)%R /\ forall a b n P, proper_pair g (a, b) -> degeneracy isx g virt a b n -> shortest_path g a b P -> (IZR n <= rho ^ length P)%R.
(** ... and errors are rare compared to it. *)
Definition rare (rho p : R) (d : Z) : Prop := ((ln rho / ln ((1 - p) / p) + / 10000) * IZR (d + 1) < 2)%R.
Hypothesis Hbound : degeneracy_bound isx g (virtual_nodes isx dh dw) rho.
Hypothesis Hrare : rare rho p (extent isx dh dw).
Lemma decode_rounds_p base flips misread rounds ev v :
  let N := Z.of_nat (length rounds) in
  N - 1 <= T -> faults_within isx dh dw N flips misread -> reported isx c dh dw base flips misread rounds ->
  2 * Z.of_nat (length flips + length misread) < extent isx dh dw ->
  NoDup ev -> (forall e, e ∈ ev <-> changes rounds (nsyn isx dh dw) (syn_off isx dh dw) (coordk isx dw) e) ->
  (correct_events_p rx D (Some p) isx (Z.b2z (xorb v (logical_flip isx c dh dw flips))) ev).2 = Ok (Z.b2z v).
Proof.
  intros N HN Hw Hrep HL Hnd Hev. destruct (decoder_inv isx dh dw T D HD) as (Hh & Hww & g' & Hg' & Eg).
  rewrite Hg in Hg'. injection Hg' as <-.
  destruct (decide (flips = [] /\ misread = [])) as [[-> ->]|Hsome].
  - assert (ev = []) as ->.
    { apply no_events. intros e (k & r & r' & loc & Hr & Hr' & Hl & Hne & _)%Hev. apply Hne.
      rewrite (Hrep _ _ loc Hr Hl), (Hrep _ _ loc Hr' Hl). done. }
    unfold logical_flip. cbn [fmap list_fmap xorl foldr]. rewrite xorb_false_r. by rewrite C45_no_events.
  - assert (Hext : 3 <= extent isx dh dw).
    { assert (1 <= length flips + length misread)%nat by (destruct flips, misread; cbn; try lia; tauto).
      pose proof (size_pos dh dw Hv) as (G1 & G2 & G3 & G4). lia. }
    assert (HT : 1 <= T).
    { destruct Hw as [Hf Hm]. destruct flips as [|f fl]; [destruct misread as [|m ml]; [tauto|]|].
      - specialize (Hm m ltac:(left)). lia.
      - specialize (Hf f ltac:(left)). lia. }
    destruct (fault_events isx c dh dw T g Hv Hext HT Eg base flips misread rounds ev HN Hw Hrep Hnd Hev) as (He1 & He2 & He3).
    destruct (sg_facts isx dh dw T g Hv Hext HT Eg) as (Hok & Hu & _). pose proof (sg_conn isx dh dw T g Hv Hext HT Eg) as Hconn.
    assert (Hp' : (0 < p < 1 /\ p <> / 2)%R) by lra.
    rewrite (decode_value_p isx dh dw T g rx p Hv Hext HT Eg Hrx Hp' D (conj Hh (conj Hww Hg)) rho _ ev (fault_edges isx dh dw flips misread)).
    + rewrite (fault_top isx c dh dw T g Hv Hext Eg flips misread).
      * do 2 f_equal. rewrite xorb_assoc_reverse, xorb_nilpotent, xorb_false_r. done.
      * intros f Hf. by apply Hw.
      * intros m Hm. by apply Hw.
    + split; [lra|]. split; [apply Hbound|]. unfold rare in Hrare. by rewrite (lnr_ratio p Hp').
    + intros a b Ha Hb Hab Hvv. assert (Hpp : proper_pair g (a, b)) by done.
      destruct (dz_spec g Hok Hu rx Hrx Hconn a b Ha Hb) as (_ & (P & HP & HPL) & _).
      rewrite <- HPL, Nat2Z.id. apply (proj2 Hbound a b); [done|apply (dg_degeneracy isx dh dw T g rx Hv Hext HT Eg Hrx (a, b) Hpp)|].
      by apply (shortest_path_length g Hok Hu rx Hrx Hconn).
    + done.
    + done.
    + done.
    + unfold fault_edges. rewrite app_length, !fmap_length. done.
Qed.
End decode_rounds_p.

(** Decoding with an error probability corrects the same faults as without (C26) if errors are
    rare enough for the numbers of shortest paths not to outweigh their lengths. *)
Theorem C46_corrects c isx dh dw T D g rx p rho cs names last base flips misread v :
  valid_size dh dw -> 1 < dh * dw -> decoder_for isx dh dw T D -> dec_graph D isx = Some g -> rx_ok rx ->
  (0 < p < / 2)%R -> degeneracy_bound isx g (virtual_nodes isx dh dw) rho -> rare rho p (extent isx dh dw) ->
  let N := Z.of_nat (length names) in
  N - 1 <= T -> faults_within isx dh dw N flips misread ->
  reported isx c dh dw base flips misread (recorded cs names) ->
  cs (last, 0) = xorb v (logical_flip isx c dh dw flips) ->
  Z.of_nat (length flips + length misread) <= (extent isx dh dw - 1) / 2 ->
  correct_readout_p rx D (Some p) (counts_key cs (((., dh * dw - 1) <$> names) ++ [(last, 1)])) isx = Ok (Z.b2z v).
Proof.
  intros Hv H1 HD Hg Hrx Hp Hb Hr N HN Hw Hrep Hlast HL. unfold correct_readout_p.
  destruct (decoder_inv isx dh dw T D HD) as (-> & -> & _).
  destruct (parse_key dh dw cs names last isx (Some (type_string isx)) Hv H1) as ((X & Z') & -> & Hnd & Hev).
  assert (HR : length (recorded cs names) = length names) by apply fmap_length.
  rewrite Hlast. apply (decode_rounds_p dh dw T D rx p rho isx c g Hv HD Hg Hrx Hp Hb Hr base flips misread (recorded cs names)); try done.
  - by rewrite HR.
  - by rewrite HR.
  - zmod.
Qed.
Print Assumptions C46_corrects.
Theorem C46_corrects_lattice_z c dh dw T D g rx p rho cs names nm last base flips misread v :
  valid_size dh dw -> 1 < dh * dw -> decoder_for false dh dw T D -> dec_graph D false = Some g -> rx_ok rx ->
  (0 < p < / 2)%R -> degeneracy_bound false g (virtual_nodes false dh dw) rho -> rare rho p dh ->
  let rounds := recorded cs (names ++ [nm]) ++ [final_round dh dw (fun j => cs (last, j)) (fun i => cs (nm, i))] in
  let N := Z.of_nat (length rounds) in
  N - 1 <= T -> faults_within false dh dw N flips misread ->
  reported false c dh dw base flips misread rounds ->
  xorl ((fun j => cs (last, j)) <$> seqZ 0 dw) = xorb v (logical_flip false c dh dw flips) ->
  Z.of_nat (length flips + length misread) <= (dh - 1) / 2 ->
  correct_readout_p rx D (Some p) (counts_key cs (((., dh * dw - 1) <$> names ++ [nm]) ++ [(last, dh * dw)])) false = Ok (Z.b2z v).
Proof.
  intros Hv H1 HD Hg Hrx Hp Hb Hr rounds N HN Hw Hrep Hlast HL. unfold correct_readout_p.
  destruct (decoder_inv false dh dw T D HD) as (-> & -> & _).
  destruct (C14_lattice_z dh dw cs names nm last Hv H1) as (X & Z & E & _ & Hnd & _ & Hev). cbn [type_string]. rewrite E.
  rewrite Hlast. apply (decode_rounds_p dh dw T D rx p rho false c g Hv HD Hg Hrx Hp Hb Hr base flips misread rounds); try done.
  unfold extent. zmod.
Qed.
Print Assumptions C46_corrects_lattice_z.
(** The square of the number of nodes always bounds the degeneracies ... *)
Theorem C46_bound isx dh dw T g rx : valid_size dh dw -> 3 <= extent isx dh dw -> 1 <= T ->
  make_syndrome_graph isx dh dw T = Ok g -> rx_ok rx ->
  degeneracy_bound isx g (virtual_nodes isx dh dw) (IZR (Z.of_nat (length (pg_nodes (lg_g g))) ^ 2)).
Proof.
  intros Hv Hext HT Hg Hrx. destruct (sg_facts isx dh dw T g Hv Hext HT Hg) as (Hok & Hu & _). pose proof (sg_conn isx dh dw T g Hv Hext HT Hg) as Hconn.
  split.
  - apply IZR_le. destruct (virt_nonempty isx dh dw T g Hv Hext Hg) as (v0 & vs & Evirt).
    assert (Hn : has_node g v0) by (apply (virt_fact isx dh dw T g Hv Hext HT Hg); unfold virt in Evirt; rewrite Evirt; left).
    apply elem_of_list_lookup in Hn as [i Hi]. apply lookup_lt_Some in Hi. nia.
  - intros a b n P Hpp Hd HP. rewrite (degeneracy_unique _ _ _ _ _ _ _ Hd (dg_degeneracy isx dh dw T g rx Hv Hext HT Hg Hrx (a, b) Hpp)).
    destruct Hpp as (Ha & Hb & Hab & Hvv). cbn [fst snd] in *.
    apply (shortest_path_length g Hok Hu rx Hrx Hconn) in HP as [_ HP]; [|done..]. rewrite pow_IZR. apply IZR_le. rewrite HP.
    by apply (dg_bound isx dh dw T g rx).
Qed.
Print Assumptions C46_bound.
(** ... so for every bound below 19999 on the distance there are probabilities that are rare enough. *)
Theorem C46_rare rho d : (1 <= rho)%R -> 0 <= d < 19999 -> exists p0, (0 < p0 < / 2)%R /\ forall p, (0 < p <= p0)%R -> rare rho p d.
Proof.
  intros Hrho Hd.
  assert (Hd1 : (IZR (d + 1) < 20000)%R) by (apply (IZR_lt _ 20000); lia).
  assert (Hd0 : (1 <= IZR (d + 1))%R) by (apply (IZR_le 1); lia).
  set (e := IZR (d + 1)) in *.
  assert (Hln : (0 <= ln rho)%R) by (rewrite <- ln_1; apply ln_mono; lra).
  set (K := ((1 + ln rho * e) / (2 - e / 10000))%R).
  assert (Hden : (0 < 2 - e / 10000)%R) by lra.
  assert (HK : (0 < K)%R) by (apply Rdiv_lt_0_compat; [nra|done]).
  assert (HE : (1 < exp K)%R) by (rewrite <- exp_0; by apply exp_increasing).
  exists (/ (1 + exp K))%R. assert (Hp0 : (0 < / (1 + exp K) < / 2)%R).
  { split; [apply Rinv_0_lt_compat; lra|]. apply Rinv_lt_contravar; lra. }
  split; [done|]. intros p [Hp1 Hp2]. unfold rare.
  assert (HR : (exp K <= (1 - p) / p)%R).
  { apply (Rmult_le_reg_r p); [done|]. replace ((1 - p) / p * p)%R with (1 - p)%R by (field; lra).
    assert (p * (1 + exp K) <= 1)%R; [|lra]. apply (Rmult_le_reg_r (/ (1 + exp K))); [lra|].
    rewrite Rmult_assoc, Rinv_r by lra. lra. }
  set (L := ln ((1 - p) / p)). assert (HL : (K <= L)%R).
  { rewrite <- (ln_exp K). apply ln_mono; [apply exp_pos|done]. }
  fold e.
  assert (Hq : (ln rho / L * e < 2 - e / 10000)%R).
  { apply (Rmult_lt_reg_r L); [lra|]. replace (ln rho / L * e * L)%R with (ln rho * e)%R by (field; lra).
    assert (K * (2 - e / 10000) <= (2 - e / 10000) * L)%R by nra.
    assert (K * (2 - e / 10000) = 1 + ln rho * e)%R by (unfold K; field; lra). lra. }
  lra.
Qed.
Print Assumptions C46_rare.
(** For every size and number of rounds there are probabilities for which decoding with an
    error probability corrects up to half the distance. *)
Theorem C46_small_probability c isx dh dw T D rx : valid_size dh dw -> 1 < dh * dw -> 3 <= extent isx dh dw < 19999 -> 1 <= T ->
  decoder_for isx dh dw T D -> rx_ok rx ->
  exists p0, (0 < p0 < / 2)%R /\ forall p, (0 < p <= p0)%R ->
  forall cs names last base flips misread v,
  let N := Z.of_nat (length names) in
  N - 1 <= T -> faults_within isx dh dw N flips misread ->
  reported isx c dh dw base flips misread (recorded cs names) ->
  cs (last, 0) = xorb v (logical_flip isx c dh dw flips) ->
  Z.of_nat (length flips + length misread) <= (extent isx dh dw - 1) / 2 ->
  correct_readout_p rx D (Some p) (counts_key cs (((., dh * dw - 1) <$> names) ++ [(last, 1)])) isx = Ok (Z.b2z v).
Proof.
  intros Hv H1 Hext HT HD Hrx. destruct (decoder_inv isx dh dw T D HD) as (_ & _ & g & Hg & Eg).
  pose proof (C46_bound isx dh dw T g rx Hv (proj1 Hext) HT Eg Hrx) as Hb.
  destruct (C46_rare _ (extent isx dh dw) (proj1 Hb) ltac:(lia)) as (p0 & Hp0 & Hr).
  exists p0. split; [done|]. intros p Hp cs names last base flips misread v N HN Hw Hrep Hlast HL.
  eapply (C46_corrects c isx dh dw T D g rx p); try done; [lra|by apply Hr].
Qed.
Print Assumptions C46_small_probability.

(** * Examples *)
(** For d = 3 and two rounds degeneracies are at most 2 to the distance, and an error
    probability of 1/10 is rare enough. *)
Definition dg_check (g : lgraph Z) (virt : list node) : bool :=
  forallb (fun a => forallb (fun b => (bool_decide (a = b) || bool_decide (n_time a = -1 /\ n_time b = -1) || (dg g rx_ref virt a b <=? 2 ^ dz g rx_ref a b)) && (0 <=? dz g rx_ref a b))
     (pg_nodes (lg_g g))) (pg_nodes (lg_g g)).
Lemma dg_check_33 : dg_check g33 (virtual_nodes false 3 3) = true. Proof. vm_compute. reflexivity. Qed.
Lemma dg_check_bound isx dh dw T g : valid_size dh dw -> 3 <= extent isx dh dw -> 1 <= T -> make_syndrome_graph isx dh dw T = Ok g ->
  dg_check g (virtual_nodes isx dh dw) = true -> degeneracy_bound isx g (virtual_nodes isx dh dw) 2.
Proof.
  intros Hv Hext HT Hg Hc. pose proof rx_ref_ok as Hrx.
  destruct (sg_facts isx dh dw T g Hv Hext HT Hg) as (Hok & Hu & _). pose proof (sg_conn isx dh dw T g Hv Hext HT Hg) as Hconn.
  split; [lra|]. intros a b n P Hpp Hd HP.
  rewrite (degeneracy_unique _ _ _ _ _ _ _ Hd (dg_degeneracy isx dh dw T g rx_ref Hv Hext HT Hg Hrx (a, b) Hpp)).
  destruct Hpp as (Ha & Hb & Hab & Hvv). cbn [fst snd] in *.
  apply (shortest_path_length g Hok Hu rx_ref Hrx Hconn) in HP as [_ HP]; [|done..].
  unfold dg_check in Hc. rewrite forallb_forall in Hc. specialize (Hc a ltac:(by apply elem_of_list_In)). rewrite forallb_forall in Hc. specialize (Hc b ltac:(by apply elem_of_list_In)).
  apply andb_true_iff in Hc as [Hc H0]. rewrite bool_decide_eq_false_2, bool_decide_eq_false_2 in Hc by done. cbn [orb] in Hc.
  apply Z.leb_le in Hc. rewrite pow_IZR. apply IZR_le. by rewrite HP.
Qed.
Example C46_ex_bound : degeneracy_bound false g33 (virtual_nodes false 3 3) 2.
Proof.
  assert (Hv : valid_size 3 3) by (by vm_compute). assert (He : 3 <= extent false 3 3) by (by vm_compute). assert (HT : 1 <= 2) by lia.
  exact (dg_check_bound false 3 3 2 g33 Hv He HT g33_ok dg_check_33).
Qed.
Example C46_ex_rare : rare 2 (/ 10) 3.
Proof.
  unfold rare. replace ((1 - / 10) / / 10)%R with 9%R by field.
  assert (H2 : (0 < ln 2)%R) by (rewrite <- ln_1; apply ln_increasing; lra).
  assert (H9 : (3 * ln 2 <= ln 9)%R).
  { replace (3 * ln 2)%R with (ln (2 ^ 3)); [apply ln_mono; lra|]. rewrite ln_pow by lra. cbn. lra. }
  assert (Hq : (ln 2 / ln 9 <= / 3)%R).
  { apply (Rmult_le_reg_r (ln 9)); [lra|]. unfold Rdiv. rewrite Rmult_assoc, Rinv_l by lra. lra. }
  change (3 + 1) with 4. lra.
Qed.
(** The run of C26_ex, decoded with that probability. *)
Lemma ex_dec_graph : dec_graph ex_dec false = Some g33. Proof. vm_compute. reflexivity. Qed.
Example C46_ex : correct_readout_p rx_ref ex_dec (Some (/ 10)%R) "1 00001001 00001001 00000000" false = Ok 1.
Proof.
  pose proof C26_ex as H. cbn zeta in H. destruct H as (HD & Hrx & Hf & Hr & Hl & Hk & _).
  pose proof C46_ex_bound as Hb. pose proof ex_dec_graph as Hg. pose proof C46_ex_rare as Hrare. rewrite <- Hk.
  revert HD Hb Hg. generalize g33. generalize ex_dec. intros D g HD Hb Hg.
  apply (C46_corrects XZZX false 3 3 2 D g rx_ref (/ 10) 2 ex_bits ["a0"; "a1"; "a2"]%string "r"%string (fun _ => false) [(0, 4)] [] true);
    [by vm_compute|done|done|done|done|lra|done|done|done|done|done|done|done].
Qed.
