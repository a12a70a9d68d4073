(** The matching problem of the decoder for any weights (MwpmGraph.v has minus the distances). *)
From Verif Require Export MwpmGraph.
From stdpp Require Export list.
Open Scope Z_scope.

(** ** From the matcher's indices to labels *)
Section labels.
Context {W : Type} (eg : lgraph W) (wfn : W -> Z).
Hypothesis Hok : lg_ok eg.
Context (wf : node -> node -> W).
Hypothesis Hwf : forall a b w, edge_w eg a b w -> w = wf a b.
Let es : gmap (nat * nat) Z := wfn <$> pg_edges (lg_g eg).
Definition gmatching (M : list (node * node)) : Prop :=
  NoDup (pends M) /\ forall p, p ∈ M -> exists w, edge_w eg p.1 p.2 w.
(** The weight of a matching, as the matcher sees it. *)
Definition gweight (M : list (node * node)) : Z := foldr Z.add 0 ((fun p => wfn (wf p.1 p.2)) <$> M).

Lemma gmatching_index M : gmatching M ->
  exists Mi, matching es Mi /\ length Mi = length M /\ mweight es Mi = gweight M.
Proof.
  intros [Hn He]. pose (ix := fun n : node => default 0%nat (lg_map eg !! n)).
  exists (prod_map ix ix <$> M). split; [split|split].
  - rewrite pends_map. apply NoDup_fmap_2_strong; [|done].
    intros x y Hx Hy E.
    assert (Hin : forall z, z ∈ pends M -> exists i, lg_map eg !! z = Some i /\ pg_nodes (lg_g eg) !! i = Some z).
    { intros z (p & Hp & Hz)%elem_of_pends. destruct (He p Hp) as [w Hw]. apply edge_w_node in Hw as [H1 H2].
      apply has_node_map; [done|]. destruct Hz as [-> | ->]; done. }
    destruct (Hin x Hx) as (i & Hi & Hi'). destruct (Hin y Hy) as (j & Hj & Hj').
    unfold ix in E. rewrite Hi, Hj in E. cbn in E. congruence.
  - intros p (q & -> & Hq)%elem_of_list_fmap. destruct (He q Hq) as (w & i & j & Hi & Hj & Hw).
    apply (ok_map eg Hok) in Hi, Hj. change (is_Some (es !! ekey (ix q.1) (ix q.2))).
    assert (ix q.1 = i) as -> by (unfold ix; by rewrite Hi). assert (ix q.2 = j) as -> by (unfold ix; by rewrite Hj).
    unfold es. rewrite lookup_fmap, Hw. by eexists.
  - by rewrite fmap_length.
  - unfold mweight, gweight. clear Hn. induction M as [|q M IH]; [cbn; lia|].
    cbn [fmap list_fmap foldr]. change (list_fmap _ _ ?f ?l) with (f <$> l) in *. rewrite IH by (intros p Hp; apply He; by right).
    destruct (He q ltac:(left)) as (w & i & j & Hi & Hj & Hw).
    rewrite <- (Hwf q.1 q.2 w) by (by exists i, j).
    apply (ok_map eg Hok) in Hi, Hj. change (prod_map ix ix q) with (ix q.1, ix q.2). cbn [fst snd].
    assert (ix q.1 = i) as -> by (unfold ix; by rewrite Hi). assert (ix q.2 = j) as -> by (unfold ix; by rewrite Hj).
    unfold es. rewrite lookup_fmap, Hw. cbn. lia.
Qed.

Lemma gmatching_label Mi : matching es Mi ->
  exists M, gmatching M /\ length Mi = length M /\ mweight es Mi = gweight M /\
    rmap (fun ij => match pg_nodes (lg_g eg) !! fst ij, pg_nodes (lg_g eg) !! snd ij with
                        | Some a, Some b => Ok (a, b)
                        | _, _ => Err IndexError end) Mi = Ok M /\
    (forall i, i ∈ pends Mi -> (i < length (pg_nodes (lg_g eg)))%nat).
Proof.
  intros [Hn He].
  pose (lb := fun i : nat => default (0, 0, 0) (pg_nodes (lg_g eg) !! i)).
  assert (Hin : forall p, p ∈ Mi -> exists a b w, pg_nodes (lg_g eg) !! p.1 = Some a /\ pg_nodes (lg_g eg) !! p.2 = Some b /\ pg_edges (lg_g eg) !! ekey p.1 p.2 = Some w /\ es !! ekey p.1 p.2 = Some (wfn w)).
  { intros p Hp. destruct (He p Hp) as [w' Hw']. unfold es in Hw'. rewrite lookup_fmap in Hw'.
    apply fmap_Some in Hw' as (w & Hw & ->).
    destruct (ok_edges eg Hok _ _ _ Hw).
    destruct (lookup_lt_is_Some_2 (pg_nodes (lg_g eg)) p.1) as [a Ha]; [lia|].
    destruct (lookup_lt_is_Some_2 (pg_nodes (lg_g eg)) p.2) as [b Hb]; [lia|].
    exists a, b, w. unfold es. rewrite lookup_fmap, Hw. done. }
  assert (Hin2 : forall z, z ∈ pends Mi -> exists a, pg_nodes (lg_g eg) !! z = Some a).
  { intros z (p & Hp & Hz)%elem_of_pends. destruct (Hin p Hp) as (a & b & _ & Ha & Hb & _). destruct Hz as [-> | ->]; eauto. }
  exists (prod_map lb lb <$> Mi). split; [split|split; [|split; [|split]]].
  - rewrite pends_map. apply NoDup_fmap_2_strong; [|done].
    intros x y Hx Hy E. destruct (Hin2 x Hx) as [a Ha], (Hin2 y Hy) as [b Hb]. unfold lb in E. rewrite Ha, Hb in E. cbn in E. subst b.
    eapply (NoDup_lookup _ _ _ a (ok_nodup eg Hok)); done.
  - intros p (q & -> & Hq)%elem_of_list_fmap. destruct (Hin q Hq) as (a & b & w & Ha & Hb & Hw & _).
    exists w. change (prod_map lb lb q) with (lb q.1, lb q.2). cbn [fst snd].
    assert (lb q.1 = a) as -> by (unfold lb; by rewrite Ha). assert (lb q.2 = b) as -> by (unfold lb; by rewrite Hb).
    by exists q.1, q.2.
  - by rewrite fmap_length.
  - unfold mweight, gweight. clear Hn Hin2 He. induction Mi as [|q M IH]; [cbn; lia|].
    cbn [fmap list_fmap foldr]. change (list_fmap _ _ ?f ?l) with (f <$> l) in *. rewrite IH by (intros p Hp; apply Hin; by right).
    destruct (Hin q ltac:(left)) as (a & b & w & Ha & Hb & Hw & Hes).
    rewrite Hes. change (prod_map lb lb q) with (lb q.1, lb q.2). cbn [fst snd].
    assert (lb q.1 = a) as -> by (unfold lb; by rewrite Ha). assert (lb q.2 = b) as -> by (unfold lb; by rewrite Hb).
    cbn [default from_option]. rewrite <- (Hwf a b w) by (by exists q.1, q.2). cbn. lia.
  - clear Hn Hin2 He. induction Mi as [|q M IH]; [done|]. cbn [rmap].
    destruct (Hin q ltac:(left)) as (a & b & w & Ha & Hb & _). rewrite Ha, Hb, IH by (intros p Hp; apply Hin; by right).
    rewrite fmap_cons. change (prod_map lb lb q) with (lb q.1, lb q.2).
    assert (lb q.1 = a) as -> by (unfold lb; by rewrite Ha). assert (lb q.2 = b) as -> by (unfold lb; by rewrite Hb). done.
  - intros i Hi. destruct (Hin2 i Hi) as [a Ha]. by eapply lookup_lt_Some.
Qed.

(** If there is a perfect matching of the labels, what the matcher returns is one, and it is
    at least as heavy as any. *)
Lemma gperfect_match rx Mp : rx_ok rx -> gmatching Mp -> length (pends Mp) = length (pg_nodes (lg_g eg)) ->
  exists M, run_mwpm rx wfn eg = Ok (filter (fun m => ~ (n_time m.1 = -1 /\ n_time m.2 = -1)) M) /\
    gmatching M /\ pends M ≡ₚ pg_nodes (lg_g eg) /\
    (forall M', gmatching M' -> pends M' ≡ₚ pg_nodes (lg_g eg) -> gweight M' <= gweight M).
Proof.
  intros Hrx HMp HLp.
  set (n := length (pg_nodes (lg_g eg))) in *.
  assert (Hmax : max_matching es (rx_match rx n es)).
  { apply Hrx. intros i j w. unfold es. rewrite lookup_fmap. intros (w' & Hw & _)%fmap_Some. by apply (ok_edges eg Hok) in Hw. }
  destruct Hmax as [Hm Hopt].
  destruct (gmatching_label _ Hm) as (M & HM & HL & HW & Hr & Hlt).
  assert (HLM : (length (pends M) <= n)%nat).
  { rewrite pends_length, <- HL, <- pends_length.
    assert (Hsub : pends (rx_match rx n es) ⊆+ seq 0 n).
    { apply NoDup_submseteq; [apply Hm|]. intros i Hi. apply elem_of_seq. specialize (Hlt i Hi). lia. }
    apply submseteq_length in Hsub. by rewrite seq_length in Hsub. }
  assert (HLn : length (pends M) = n).
  { destruct (gmatching_index Mp HMp) as (Mi & HMi & HLi & _). destruct (Hopt Mi HMi) as [Hcard _].
    rewrite pends_length in *. lia. }
  exists M. split; [|split; [done|split]].
  - unfold run_mwpm. fold n. change (fmap (M := gmap (nat * nat)) _ _) with es. rewrite Hr. done.
  - apply submseteq_Permutation_length_eq; [done|].
    apply NoDup_submseteq; [apply HM|]. intros a (p & Hp & Ha)%elem_of_pends. destruct HM as [_ HM]. destruct (HM p Hp) as [w Hew].
    apply edge_w_node in Hew as [? ?]. destruct Ha as [-> | ->]; done.
  - intros M' HM' HP'. destruct (gmatching_index M' HM') as (Mi & HMi & HLi & HWi). destruct (Hopt Mi HMi) as [_ Hw].
    assert (HL' : length (pends M') = n) by (by rewrite HP').
    rewrite HWi, HW in Hw. apply Hw. rewrite pends_length in HLn, HL'. lia.
Qed.
End labels.

(** A pairing of all the events, with each other or with boundary nodes. *)
Definition pairing (ev virt : list node) (ms : list (node * node)) : Prop :=
  NoDup (pends ms) /\ (forall n, n ∈ pends ms -> n ∈ ev ++ virt) /\ (forall n, n ∈ ev -> n ∈ pends ms) /\
  forall m, m ∈ ms -> ~ (n_time m.1 = -1 /\ n_time m.2 = -1).

Lemma comb_same {A} (a : A) (l1 l2 : list A) : NoDup l1 -> (forall x, x ∈ l1 -> x ∉ l2) -> (a, a) ∈ combinations (l1 ++ l2) -> a ∈ l2.
Proof.
  induction l1 as [|x l1 IH]; intros HN Hd H; [apply elem_combinations in H as [H _]; done|].
  apply NoDup_cons in HN as [Hx HN]. cbn in H. apply elem_of_app in H as [(y & [= <- <-] & Hy)%elem_of_list_fmap | H].
  - exfalso. apply elem_of_app in Hy as [?|Hy]; [done|]. apply (Hd a); [left|done].
  - apply IH; [done| |done]. intros y Hy. apply Hd. by right.
Qed.

(** ** The error graph *)
Section error_graph.
Context (isx : bool) (dh dw T : Z) (g : lgraph Z).
Hypothesis Hsize : valid_size dh dw.
Hypothesis Hnd : 3 <= extent isx dh dw.
Hypothesis HT : 1 <= T.
Hypothesis Hg : make_syndrome_graph isx dh dw T = Ok g.
Context {W C : Type} (zero : W) (weigh : node -> node -> C -> res (W * C)) (wt : node -> node -> W) (Inv : C -> Prop).
Notation vv a b := (n_time a = -1 /\ n_time b = -1).
Hypothesis Hsym : forall a b, has_node g a -> has_node g b -> ~ vv a b -> wt a b = wt b a.
Hypothesis Hweigh : forall a b c, has_node g a -> has_node g b -> a <> b -> ~ vv a b -> Inv c -> exists c', weigh a b c = Ok (wt a b, c') /\ Inv c'.
Notation virt := (virt isx dh dw).

Definition gw (a b : node) : W := if decide (vv a b) then zero else wt a b.
(** The graph the matcher is given for the events [ev]. *)
Record eg_spec (ev : list node) (eg : lgraph W) : Prop := {
  es_ok : lg_ok eg;
  es_nodes : pg_nodes (lg_g eg) = eg_nodes isx dh dw ev;
  es_wt : forall a b w, edge_w eg a b w -> w = gw a b;
  es_edge : forall a b w, a <> b -> edge_w eg a b w <->
       (a ∈ ev ++ virt /\ b ∈ ev ++ virt /\ w = gw a b) \/
       (is_odd ev = true /\ ((a = extra_node /\ b ∈ virt) \/ (b = extra_node /\ a ∈ virt)) /\ w = zero);
  es_real : forall a b w, edge_w eg a b w -> ~ vv a b -> a ∈ ev ++ virt /\ b ∈ ev ++ virt }.

Lemma ensure_present_gen (l : list node) (gr : lgraph W) : lg_ok gr -> (forall n, n ∈ l -> has_node gr n) -> foldl (fun g n => lg_ensure n g) gr l = gr.
Proof.
  intros Hok. induction l as [|n l IH]; intros H; [done|]. cbn [foldl].
  assert (lg_ensure n gr = gr) as -> by (unfold lg_ensure; by rewrite bool_decide_eq_true_2 by (apply H; left)).
  apply IH. intros; apply H; by right.
Qed.
Lemma error_graph_gen k ev c : event_list g ev -> Inv c ->
  exists eg, make_error_graph zero weigh virt (ev ++ vtimes isx dh dw k) c = (ev ++ vtimes isx dh dw (S k), Ok eg) /\ eg_spec ev eg.
Proof.
  intros Hev Hc. destruct (sg_facts isx dh dw T g Hsize Hnd HT Hg) as (Hok & Hu & _ & _).
  set (vt := vtimes isx dh dw) in *.
  assert (Hin : forall n, n ∈ (ev ++ vt k) ++ virt <-> n ∈ ev ++ virt).
  { intros n. rewrite !elem_of_app. pose proof (vtimes_elem isx dh dw k n). tauto. }
  assert (Hnode : forall n, n ∈ ev ++ virt -> has_node g n) by (intros n; by apply (ev_virt isx dh dw T g Hsize Hnd HT Hg)).
  pose proof (ev_virt_NoDup isx dh dw T g Hsize Hnd HT Hg ev Hev) as HN.
  assert (Hvn : forall n, n ∈ virt <-> has_node g n /\ n_time n = -1) by (apply (virt_node isx dh dw T g Hsize Hnd HT Hg)).
  assert (Hv1 : forall n, n ∈ ev ++ virt -> n ∈ virt <-> n_time n = -1).
  { intros n Hn. rewrite Hvn. pose proof (Hnode n Hn). tauto. }
  assert (Hpw : forall a b, a ∈ ev ++ virt -> b ∈ ev ++ virt -> pair_weight zero virt wt a b = gw a b).
  { intros a b Ha Hb. unfold pair_weight, gw. destruct (decide _) as [[H1 H2]|H].
    - rewrite !bool_decide_eq_true_2 by (by apply Hv1). done.
    - destruct (bool_decide (a ∈ virt)) eqn:E1, (bool_decide (b ∈ virt)) eqn:E2; cbn; try done.
      apply bool_decide_eq_true in E1, E2. apply Hv1 in E1, E2; [tauto|done..]. }
  assert (Hgs : forall a b, a ∈ ev ++ virt -> b ∈ ev ++ virt -> gw a b = gw b a).
  { intros a b Ha Hb. unfold gw. destruct (decide _), (decide _); try tauto. apply Hsym; [by apply Hnode..|done]. }
  assert (Hvt : forall x, x ∈ vt k ++ virt -> x ∈ virt).
  { intros x [Hx|Hx]%elem_of_app; [by apply (vtimes_elem isx dh dw k)|done]. }
  assert (Hodd : bool_decide (Z.of_nat (length (ev ++ vt k)) mod 2 <> 0) = is_odd ev).
  { change (is_odd (ev ++ vt k) = is_odd ev). rewrite !is_odd_even, app_length, Nat.even_add.
    assert (Nat.even (length (vt k)) = true) as ->; [|by destruct (Nat.even _)].
    unfold vt. clear -Hnd Hg. induction k as [|k' IH]; [done|]. change (vtimes isx dh dw (S k')) with (virt ++ vtimes isx dh dw k').
    by rewrite app_length, Nat.even_add, (virt_even isx dh dw T g Hnd Hg), IH. }
  destruct (make_error_graph_ok zero weigh virt wt Inv (ev ++ vt k) c) as (eg & E & Heg & Hnodes & _ & Hedge).
  - done.
  - intros a b Ha%Hin Hb%Hin. rewrite !Hpw by done. by apply Hgs.
  - intros a b c' Hab Hnv Hc'. pose proof Hab as Hab'. apply elem_combinations in Hab' as [Ha%Hin Hb%Hin].
    apply Hweigh; [by apply Hnode..| | |done].
    + intros <-. rewrite <- app_assoc in Hab. apply comb_same in Hab.
      * apply Hnv. split; by apply Hvt.
      * apply Hev.
      * intros x Hx Hx'. apply Hvt in Hx'. apply NoDup_app in HN as (_ & HN & _). by apply (HN x).
    + intros [H1 H2]. apply Hnv. split; by apply Hv1.
  - rewrite Hin. intros H. apply (extra_not_node isx dh dw T g Hsize Hnd HT Hg). by apply Hnode.
  - rewrite Hodd in Hnodes, Hedge. exists eg. unfold vt in E. rewrite (vtimes_S isx dh dw k ev) in E. split; [done|].
    assert (Hreal : forall a b w, edge_w eg a b w -> ~ vv a b -> a ∈ ev ++ virt /\ b ∈ ev ++ virt).
    { intros a b w Hw Hnot. apply Hedge in Hw as [[H ->] | (_ & (v & Hv & Hs) & ->)].
      * rewrite <- !Hin. destruct H as [H|H]; apply elem_combinations in H; tauto.
      * destruct Hnot. apply Hvn in Hv as [_ Hv]. destruct Hs as [[-> ->] | [-> ->]]; by rewrite Hv. }
    split; [done| | | |done].
    + rewrite (proj1 Hnodes). unfold vt. rewrite (vtimes_S isx dh dw k ev). change (vtimes isx dh dw (S k)) with (virt ++ vtimes isx dh dw k). rewrite app_assoc, foldl_app.
      destruct (ensure_all weigh wt (ev ++ virt) (@lg_empty W) lg_empty_ok) as (G1 & G2 & _ & G4).
      rewrite ensure_present_gen; [|done|].
      * rewrite G4 by done. unfold eg_nodes. cbn. by rewrite app_assoc.
      * intros n Hn%vtimes_elem. apply G2. right. apply elem_of_app. by right.
    + intros a b w Hw. apply Hedge in Hw as [[H ->] | (_ & (v & Hv & Hs) & ->)].
      * assert (a ∈ ev ++ virt /\ b ∈ ev ++ virt) as [Ha Hb] by (rewrite <- !Hin; destruct H as [H|H]; apply elem_combinations in H; tauto).
        by apply Hpw.
      * unfold gw. rewrite decide_True; [done|]. apply Hvn in Hv as [_ Hv]. destruct Hs as [[-> ->] | [-> ->]]; by rewrite Hv.
    + intros a b w Hab. rewrite Hedge. split.
      * intros [[H ->] | (Ho & (v & Hv & Hs) & ->)].
        -- left. assert (a ∈ ev ++ virt /\ b ∈ ev ++ virt) as [Ha Hb] by (rewrite <- !Hin; destruct H as [H|H]; apply elem_combinations in H; tauto).
           split; [done|]. split; [done|]. by apply Hpw.
        -- right. split; [done|]. split; [|done]. destruct Hs as [[-> ->] | [-> ->]]; auto.
      * intros [(Ha & Hb & ->) | (Ho & Hs & ->)].
        -- left. split; [by apply combinations_distinct; [|apply Hin..]|]. symmetry. by apply Hpw.
        -- right. split; [done|]. split; [|done]. destruct Hs as [[-> Hv] | [-> Hv]]; eexists; (split; [exact Hv|]); [by left|by right].
Qed.

(** A perfect matching exists, and if the edges [F] explain the events there is one joining
    nodes by paths with no more edges than [F]. *)
Context (rx : retworkx) (Hrx : rx_ok rx).
Notation D := (dz g rx).
Notation real := (filter (fun m : node * node => ~ (n_time m.1 = -1 /\ n_time m.2 = -1))).
Lemma es_all ev eg : eg_spec ev eg -> forall a b, a ∈ ev ++ virt -> b ∈ ev ++ virt -> a <> b -> exists w, edge_w eg a b w.
Proof. intros H a b Ha Hb Hab. eexists. apply (es_edge _ _ H); [done|]. by left. Qed.
Lemma es_extra ev eg : event_list g ev -> eg_spec ev eg -> forall v, is_odd ev = true -> v ∈ virt -> exists w, edge_w eg extra_node v w.
Proof.
  intros Hev H v Ho Hv. eexists. apply (es_edge _ _ H); [|by right; auto].
  intros <-. apply (extra_not_node isx dh dw T g Hsize Hnd HT Hg). by apply (virt_node isx dh dw T g Hsize Hnd HT Hg).
Qed.
Lemma explain_matching ev (F : list (node * node)) eg : event_list g ev ->
  (forall e, e ∈ F -> edge_w g e.1 e.2 1) ->
  (forall n, 0 <= n_time n -> lpar (pends F) n = bool_decide (n ∈ ev)) -> eg_spec ev eg ->
  exists M, gmatching eg M /\ pends M ≡ₚ pg_nodes (lg_g eg) /\ cost D (real M) <= Z.of_nat (length F).
Proof.
  intros Hev HF Hpar Hes. destruct (sg_facts isx dh dw T g Hsize Hnd HT Hg) as (Hok & Hu & Hsn & _).
  pose proof (es_ok _ _ Hes) as Heg. pose proof (es_nodes _ _ Hes) as Hnodes. pose proof (es_all _ _ Hes) as Hall. pose proof (es_extra _ _ Hev Hes) as Hex.
  pose proof (sg_conn isx dh dw T g Hsize Hnd HT Hg) as Hconn.
  destruct (reduce D (has_node g)) with (Q := F) as (Q & HQd & HQn & HQs & HQp & HQc).
  { intros a b Ha Hb. by apply (dz_nonneg g Hok Hu rx Hrx Hconn). }
  { intros a b Ha Hb. by apply (dz_sym g Hok Hu rx Hrx Hconn). }
  { intros a b c Ha Hb Hc. by apply (dz_tri g Hok Hu rx Hrx Hconn). }
  { intros n (p & Hp & Hor)%elem_of_pends. apply HF, edge_w_node in Hp as [? ?]. by destruct Hor as [-> | ->]. }
  pose proof (ev_virt_NoDup isx dh dw T g Hsize Hnd HT Hg ev Hev) as HN.
  assert (Hvn : forall n, n ∈ virt <-> has_node g n /\ n_time n = -1) by (apply (virt_node isx dh dw T g Hsize Hnd HT Hg)).
  pose proof (node_time isx dh dw T g Hsize Hnd HT Hg) as Hnt.
  set (ex := if is_odd ev then [extra_node] else []) in *.
  assert (Hnodes' : pg_nodes (lg_g eg) = ev ++ virt ++ ex) by (rewrite Hnodes; done).
  assert (HNall : NoDup (ev ++ virt ++ ex)) by (rewrite <- Hnodes'; apply Heg).
  assert (HQev : forall n, 0 <= n_time n -> n ∈ pends Q <-> n ∈ ev).
  { intros n Hn. pose proof (lpar_NoDup _ n HQn) as H. rewrite HQp, Hpar in H by done.
    split; intros Hin; [|].
    - rewrite (bool_decide_eq_true_2 _ Hin) in H. by apply bool_decide_eq_true in H.
    - rewrite (bool_decide_eq_true_2 _ Hin) in H. symmetry in H. by apply bool_decide_eq_true in H. }
  set (rest := filter (fun n => n ∉ pends Q) (virt ++ ex)).
  assert (Hex1 : forall n, n ∈ virt ++ ex -> n_time n = -1).
  { intros n [Hn|Hn]%elem_of_app; [by apply Hvn|]. unfold ex in Hn. destruct (is_odd ev); [|by apply elem_of_nil in Hn].
    apply elem_of_list_singleton in Hn as ->. done. }
  assert (Hrest1 : NoDup rest).
  { apply NoDup_filter. apply NoDup_app in HNall. tauto. }
  assert (Hperm : pends Q ++ rest ≡ₚ ev ++ virt ++ ex).
  { apply NoDup_Permutation; [|done|].
    - apply NoDup_app. split_and!; [done| |done]. intros n Hn (Hn' & _)%elem_of_list_filter. done.
    - intros n. unfold rest. rewrite elem_of_app, elem_of_list_filter, (elem_of_app ev).
      split.
      + intros [Hn|[_ Hn]]; [|by right]. pose proof (HQd n Hn) as Hh. destruct (Hnt n Hh) as [Ht|Ht].
        * left. by apply HQev.
        * right. apply elem_of_app. left. by apply Hvn.
      + intros [Hn|Hn].
        * left. apply HQev; [by apply Hev|done].
        * destruct (decide (n ∈ pends Q)); [by left|by right]. }
  assert (Hlen : Nat.even (length (ev ++ virt ++ ex)) = true).
  { rewrite !app_length, !Nat.even_add, (virt_even isx dh dw T g Hnd Hg). unfold ex. rewrite is_odd_even. by destruct (Nat.even (length ev)). }
  assert (Hrest2 : Nat.even (length rest) = true).
  { rewrite <- Hperm, app_length, pends_length, Nat.even_add, Nat.even_mul in Hlen. cbn in Hlen. by destruct (Nat.even (length rest)). }
  assert (Hedge_virt : forall a b, a ∈ virt ++ ex -> b ∈ virt ++ ex -> a <> b -> exists w, edge_w eg a b w).
  { intros a b [Ha|Ha]%elem_of_app [Hb|Hb]%elem_of_app Hab.
    - apply Hall; [apply elem_of_app; by right..|done].
    - unfold ex in Hb. destruct (is_odd ev) eqn:Eo; [|by apply elem_of_nil in Hb]. apply elem_of_list_singleton in Hb as ->.
      destruct (Hex a eq_refl Ha) as [w Hww]. exists w. by apply edge_w_sym.
    - unfold ex in Ha. destruct (is_odd ev) eqn:Eo; [|by apply elem_of_nil in Ha]. apply elem_of_list_singleton in Ha as ->.
      by apply Hex.
    - unfold ex in Ha, Hb. destruct (is_odd ev) eqn:Eo; [|by apply elem_of_nil in Ha].
      apply elem_of_list_singleton in Ha as ->, Hb as ->. done. }
  assert (Hpsub : forall p, p ∈ pairup rest -> p.1 ∈ virt ++ ex /\ p.2 ∈ virt ++ ex).
  { intros p [H1 H2]%pairup_sub. unfold rest in H1, H2. rewrite !elem_of_list_filter in *. tauto. }
  assert (Hends : pends (Q ++ pairup rest) ≡ₚ pg_nodes (lg_g eg)).
  { rewrite pends_app, pairup_ends by done. by rewrite Hperm, Hnodes'. }
  exists (Q ++ pairup rest). split; [|split; [done|]].
  - assert (HNp : NoDup (pends (Q ++ pairup rest))) by (rewrite Hends; apply Heg).
    split; [done|]. intros p Hp. pose proof (NoDup_pairs _ p HNp Hp) as Hne.
    apply elem_of_app in Hp as [Hp|Hp].
    + assert (Hq : forall x, x ∈ pends Q -> x ∈ ev ++ virt).
      { intros x Hin. pose proof (HQd _ Hin) as Hh. apply elem_of_app. destruct (Hnt _ Hh) as [Ht|Ht]; [left; by apply HQev|right; by apply Hvn]. }
      apply Hall; [apply Hq, elem_of_pends; eauto..|done].
    + apply Hpsub in Hp as [H1 H2]. by apply Hedge_virt.
  - rewrite <- (cost_filter rx g), cost_app, (cost_zero rx g (pairup rest)).
    + assert (HQ0 : cost (cost0 rx g) Q <= cost D Q).
      { apply (cost0_le rx Hrx isx dh dw T g Hsize Hnd HT Hg). intros m Hm. split; apply HQd, elem_of_pends; eauto. }
      pose proof (cost_edges rx Hrx isx dh dw T g Hsize Hnd HT Hg F HF). lia.
    + intros m Hm. apply Hpsub in Hm as [? ?]. split; by apply Hex1.
Qed.
Lemma perfect_exists_gen ev eg : event_list g ev -> eg_spec ev eg -> exists M, gmatching eg M /\ pends M ≡ₚ pg_nodes (lg_g eg).
Proof.
  intros Hev Hes. pose proof (sg_conn isx dh dw T g Hsize Hnd HT Hg) as Hconn.
  destruct (virt_nonempty isx dh dw T g Hsize Hnd Hg) as (v & vs & Ev).
  assert (Hv : v ∈ virt) by (rewrite Ev; left). apply (virt_node isx dh dw T g Hsize Hnd HT Hg) in Hv as [Hv Hvt].
  (* one path from every event to the boundary *)
  assert (exists F, (forall e, e ∈ F -> edge_w g e.1 e.2 1) /\ (forall n, 0 <= n_time n -> lpar (pends F) n = bool_decide (n ∈ ev))) as (F & HF & Hpar).
  { destruct Hev as [HN Hin]. clear Hes. induction ev as [|n ev IH].
    - exists []. split; [intros e He; by apply elem_of_nil in He|]. intros n _. symmetry. apply bool_decide_eq_false, not_elem_of_nil.
    - apply NoDup_cons in HN as [Hn HN]. destruct (IH HN) as (F & HF & Hpar); [intros; apply Hin; by right|].
      destruct (Hconn n v) as [P HP]; [apply Hin; left|done|]. exists (P ++ F). split.
      + intros e [He|He]%elem_of_app; [by eapply lpath_edges|by apply HF].
      + intros m Hm. rewrite pends_app, lpar_app, (lpath_par g n v P m HP), Hpar by done.
        rewrite (bool_decide_eq_false_2 (v = m)) by (intros <-; lia). rewrite xorb_false_r.
        rewrite (bool_decide_ext (m ∈ n :: ev) (m = n \/ m ∈ ev)) by apply elem_of_cons. repeat case_bool_decide; subst; naive_solver. }
  destruct (explain_matching ev F eg Hev HF Hpar Hes) as (M & HM & HE & _). eauto.
Qed.
(** Perfect matchings are pairings of the events with each other and with boundary nodes. *)
Lemma extend_pairing ev eg ms : event_list g ev -> eg_spec ev eg -> pairing ev virt ms ->
  exists M, gmatching eg M /\ pends M ≡ₚ pg_nodes (lg_g eg) /\ real M = ms.
Proof.
  intros Hev Hes (Hp1 & Hp2 & Hp3 & Hp4).
  pose proof (es_ok _ _ Hes) as Heg. pose proof (es_nodes _ _ Hes) as Hnodes. pose proof (es_all _ _ Hes) as Hall. pose proof (es_extra _ _ Hev Hes) as Hex.
  assert (Hvn : forall n, n ∈ virt <-> has_node g n /\ n_time n = -1) by (apply (virt_node isx dh dw T g Hsize Hnd HT Hg)).
  set (ex := if is_odd ev then [extra_node] else []) in *.
  assert (Hnodes' : pg_nodes (lg_g eg) = ev ++ virt ++ ex) by (rewrite Hnodes; done).
  assert (HNall : NoDup (ev ++ virt ++ ex)) by (rewrite <- Hnodes'; apply Heg).
  set (rest := filter (fun n => n ∉ pends ms) (virt ++ ex)).
  assert (Hex1 : forall n, n ∈ virt ++ ex -> n_time n = -1).
  { intros n [Hn|Hn]%elem_of_app; [by apply Hvn|]. unfold ex in Hn. destruct (is_odd ev); [|by apply elem_of_nil in Hn].
    apply elem_of_list_singleton in Hn as ->. done. }
  assert (Hrest1 : NoDup rest) by (apply NoDup_filter; apply NoDup_app in HNall; tauto).
  assert (Hperm : pends ms ++ rest ≡ₚ ev ++ virt ++ ex).
  { apply NoDup_Permutation; [|done|].
    - apply NoDup_app. split_and!; [done| |done]. intros n Hn (Hn' & _)%elem_of_list_filter. done.
    - intros n. unfold rest. rewrite elem_of_app, elem_of_list_filter, (elem_of_app ev). split.
      + intros [Hn|[_ Hn]]; [|by right]. apply Hp2, elem_of_app in Hn as [?|?]; [by left|]. right. apply elem_of_app. by left.
      + intros [Hn|Hn]; [left; by apply Hp3|]. destruct (decide (n ∈ pends ms)); [by left|by right]. }
  assert (Hlen : Nat.even (length (ev ++ virt ++ ex)) = true).
  { rewrite !app_length, !Nat.even_add, (virt_even isx dh dw T g Hnd Hg). unfold ex. rewrite is_odd_even. by destruct (Nat.even (length ev)). }
  assert (Hrest2 : Nat.even (length rest) = true).
  { rewrite <- Hperm, app_length, pends_length, Nat.even_add, Nat.even_mul in Hlen. cbn in Hlen. by destruct (Nat.even (length rest)). }
  assert (Hedge_virt : forall a b, a ∈ virt ++ ex -> b ∈ virt ++ ex -> a <> b -> exists w, edge_w eg a b w).
  { intros a b [Ha|Ha]%elem_of_app [Hb|Hb]%elem_of_app Hab.
    - apply Hall; [apply elem_of_app; by right..|done].
    - unfold ex in Hb. destruct (is_odd ev) eqn:Eo; [|by apply elem_of_nil in Hb]. apply elem_of_list_singleton in Hb as ->.
      destruct (Hex a eq_refl Ha) as [w Hww]. exists w. by apply edge_w_sym.
    - unfold ex in Ha. destruct (is_odd ev) eqn:Eo; [|by apply elem_of_nil in Ha]. apply elem_of_list_singleton in Ha as ->.
      by apply Hex.
    - unfold ex in Ha, Hb. destruct (is_odd ev) eqn:Eo; [|by apply elem_of_nil in Ha].
      apply elem_of_list_singleton in Ha as ->, Hb as ->. done. }
  assert (Hpsub : forall p, p ∈ pairup rest -> p.1 ∈ virt ++ ex /\ p.2 ∈ virt ++ ex).
  { intros p [H1 H2]%pairup_sub. unfold rest in H1, H2. rewrite !elem_of_list_filter in *. tauto. }
  assert (Hends : pends (ms ++ pairup rest) ≡ₚ pg_nodes (lg_g eg)).
  { rewrite pends_app, pairup_ends by done. by rewrite Hperm, Hnodes'. }
  exists (ms ++ pairup rest). split; [|split; [done|]].
  - assert (HNp : NoDup (pends (ms ++ pairup rest))) by (rewrite Hends; apply Heg).
    split; [done|]. intros p Hp. pose proof (NoDup_pairs _ p HNp Hp) as Hne.
    apply elem_of_app in Hp as [Hp|Hp].
    + apply Hall; [apply Hp2, elem_of_pends; eauto..|done].
    + apply Hpsub in Hp as [H1 H2]. by apply Hedge_virt.
  - rewrite filter_app.
    assert (Hf1 : real ms = ms).
    { clear -Hp4. induction ms as [|m ms IH]; [done|]. rewrite filter_cons, decide_True by (apply Hp4; left). f_equal. apply IH. intros m' H. apply Hp4. by right. }
    assert (Hf2 : real (pairup rest) = []).
    { clear -Hpsub Hex1. induction (pairup rest) as [|m l IH]; [done|]. rewrite filter_cons, decide_False.
      - apply IH. intros m' H. apply Hpsub. by right.
      - intros H. apply H. destruct (Hpsub m ltac:(left)). split; by apply Hex1. }
    by rewrite Hf1, Hf2, app_nil_r.
Qed.
Lemma NoDup_real (M : list (node * node)) : NoDup (pends M) -> NoDup (pends (real M)).
Proof.
  intros HN. induction M as [|m M IH]; [done|]. rewrite pends_cons in HN. apply NoDup_cons in HN as [H1 HN]. apply NoDup_cons in HN as [H2 HN].
  specialize (IH HN). rewrite filter_cons. destruct (decide _); [|done].
  assert (Hsub : forall x, x ∈ pends (real M) -> x ∈ pends M).
  { intros x (q & Hq & Hx)%elem_of_pends. apply elem_of_pends. exists q. split; [|done]. by apply elem_of_list_filter in Hq as [_ ?]. }
  rewrite pends_cons. constructor; [|constructor; [by intros ?%Hsub|done]]. intros [E|Hin]%elem_of_cons; apply H1; [rewrite E; left|right; by apply Hsub].
Qed.
Lemma real_pairing ev eg M : event_list g ev -> eg_spec ev eg -> gmatching eg M -> pends M ≡ₚ pg_nodes (lg_g eg) -> pairing ev virt (real M).
Proof.
  intros Hev Hes [HN HM] HE. split; [by apply NoDup_real|]. split; [|split].
  - intros n (m & [Hm1 Hm2]%elem_of_list_filter & Hn)%elem_of_pends. destruct (HM m Hm2) as [w Hw].
    destruct (es_real _ _ Hes _ _ _ Hw Hm1). by destruct Hn as [-> | ->].
  - intros n Hn. assert (Hin : n ∈ pends M) by (rewrite HE, (es_nodes _ _ Hes); unfold eg_nodes; apply elem_of_app; by left).
    apply elem_of_pends in Hin as (m & Hm & Hx). apply elem_of_pends. exists m. split; [|done]. apply elem_of_list_filter. split; [|done].
    apply Hev in Hn as [_ Hn]. intros [H1 H2]. destruct Hx as [-> | ->]; lia.
  - intros m Hm. by apply elem_of_list_filter in Hm as [? _].
Qed.
(** Any perfect matching stands for paths with the right ends. *)
Lemma matching_paths ev eg M : event_list g ev -> eg_spec ev eg -> gmatching eg M -> pends M ≡ₚ pg_nodes (lg_g eg) ->
  (forall m, m ∈ real M -> ~ (n_time m.1 = -1 /\ n_time m.2 = -1) /\ has_node g m.1 /\ has_node g m.2 /\ m.1 <> m.2) /\
  exists P, (forall e, e ∈ P -> edge_w g e.1 e.2 1) /\ Z.of_nat (length P) = cost D (real M) /\
    (forall n, 0 <= n_time n -> lpar (pends P) n = bool_decide (n ∈ ev)) /\
    (forall f : node -> bool, xorl ((fun e => xorb (f e.1) (f e.2)) <$> P) = xorl ((fun m => xorb (f m.1) (f m.2)) <$> real M)).
Proof.
  intros Hev Hes HM HE.
  assert (Hms : forall m, m ∈ real M -> ~ (n_time m.1 = -1 /\ n_time m.2 = -1) /\ has_node g m.1 /\ has_node g m.2 /\ m.1 <> m.2).
  { intros m [Hm1 Hm2]%elem_of_list_filter. split; [done|]. destruct (proj2 HM m Hm2) as [w Hmw].
    destruct (es_real _ _ Hes _ _ _ Hmw Hm1) as [? ?]. split; [by eapply (ev_virt isx dh dw T g Hsize Hnd HT Hg ev)|].
    split; [by eapply (ev_virt isx dh dw T g Hsize Hnd HT Hg ev)|]. eapply NoDup_pairs; [apply HM|done]. }
  split; [done|]. destruct (paths_of rx Hrx isx dh dw T g Hsize Hnd HT Hg (real M)) as (P & HP1 & HP2 & HP3 & HP4).
  { intros m Hm. destruct (Hms m Hm) as (_ & ? & ? & _). done. }
  exists P. split; [done|]. split; [done|]. split; [|done].
  intros n Hn. rewrite HP4. rewrite lpar_filter by done. rewrite (lpar_perm _ _ n HE), lpar_NoDup by (apply (es_ok _ _ Hes)).
  apply bool_decide_ext. rewrite (es_nodes _ _ Hes). unfold eg_nodes. rewrite elem_of_app. split; [|tauto]. intros [?|[H|H]%elem_of_app]; [done|..].
  - apply (virt_node isx dh dw T g Hsize Hnd HT Hg) in H. lia.
  - destruct (is_odd ev); [|by apply elem_of_nil in H]. apply elem_of_list_singleton in H as ->. done.
Qed.
End error_graph.
