(** Minimum-weight perfect matching on the error graph. *)
From Verif Require Export TJoin ErrGraph.
From stdpp Require Export list.
Open Scope Z_scope.

(** ** Paths and distances between labels *)
Inductive lpath (g : lgraph Z) : node -> node -> list (node * node) -> Prop :=
| lpath_nil a : has_node g a -> lpath g a a []
| lpath_cons a b c P : edge_w g a b 1 -> lpath g b c P -> lpath g a c ((a, b) :: P).

Section paths.
Context (g : lgraph Z).
Hypothesis Hok : lg_ok g.
Hypothesis Hunit : unit_weights g.

Lemma lpath_nodes a b P : lpath g a b P -> has_node g a /\ has_node g b.
Proof. induction 1 as [a Ha|a b c P He Hp [IH1 IH2]]; [done|]. split; [|done]. exact (proj1 (edge_w_node _ _ _ _ He)). Qed.
Lemma lpath_app a b c P Q : lpath g a b P -> lpath g b c Q -> lpath g a c (P ++ Q).
Proof. induction 1; [done|]. intros. cbn. econstructor; eauto. Qed.
Lemma lpath_rev a b P : lpath g a b P -> exists Q, lpath g b a Q /\ length Q = length P.
Proof.
  induction 1 as [a Ha|a b c P He Hp (Q & HQ & HL)].
  - exists []. split; [by constructor|done].
  - exists (Q ++ [(b, a)]). split.
    + eapply lpath_app; [exact HQ|]. econstructor; [by apply edge_w_sym|]. constructor. exact (proj1 (edge_w_node _ _ _ _ He)).
    + rewrite app_length. cbn. lia.
Qed.
Lemma lpath_edges a b P : lpath g a b P -> forall e, e ∈ P -> edge_w g e.1 e.2 1.
Proof. induction 1 as [|a b c P He Hp IH]; intros e Hin; [by apply elem_of_nil in Hin|]. apply elem_of_cons in Hin as [-> | Hin]; [done|auto]. Qed.
Lemma lpath_xor (f : node -> bool) a b P : lpath g a b P ->
  xorl ((fun e => xorb (f e.1) (f e.2)) <$> P) = xorb (f a) (f b).
Proof.
  induction 1 as [a Ha|a b c P He Hp IH]; [by rewrite xorb_nilpotent|].
  rewrite fmap_cons, xorl_cons, IH. cbn. by destruct (f a), (f b), (f c).
Qed.
Lemma lpath_par a b P n : lpath g a b P -> lpar (pends P) n = xorb (bool_decide (a = n)) (bool_decide (b = n)).
Proof.
  induction 1 as [a Ha|a b c P He Hp IH]; [by rewrite xorb_nilpotent|].
  rewrite pends_cons, !lpar_cons, IH. cbn [fst snd]. by destruct (bool_decide (a = n)), (bool_decide (b = n)), (bool_decide (c = n)).
Qed.

Lemma walk_lpath k i j a b : pg_nodes (lg_g g) !! i = Some a -> pg_nodes (lg_g g) !! j = Some b ->
  walk (lg_g g) k i j <-> exists P, lpath g a b P /\ length P = k.
Proof.
  intros Hi Hj. split.
  - intros Hw. revert a Hi. induction Hw as [i Hl|k i j' l He Hw IH]; intros a Hi.
    + assert (a = b) as -> by congruence. exists []. split; [|done]. constructor. by eapply elem_of_list_lookup_2.
    + destruct He as [w He].
      assert (exists c, pg_nodes (lg_g g) !! j' = Some c) as [c Hc].
      { apply lookup_lt_is_Some. destruct (ok_edges g Hok _ _ _ He). lia. }
      destruct (IH Hj c Hc) as (P & HP & HL).
      exists ((a, c) :: P). split; [|cbn; lia]. econstructor; [|done].
      assert (edge_w g a c w) as Hew by (by exists i, j'). by rewrite (Hunit _ _ _ Hew) in Hew.
  - intros (P & HP & <-). revert i Hi. induction HP as [a Ha|a c b P He HP IH]; intros i Hi.
    + assert (i = j) as -> by (eapply (NoDup_lookup _ _ _ a (ok_nodup g Hok)); done). constructor. by eapply lookup_lt_Some.
    + destruct He as (i' & m & Hi' & Hm & He).
      assert (i' = i) as -> by (eapply (NoDup_lookup _ _ _ a (ok_nodup g Hok)); done).
      cbn. econstructor; [by eexists|]. by apply IH.
Qed.

Context (rx : retworkx).
Hypothesis Hrx : rx_ok rx.
Hypothesis Hconn : forall a b, has_node g a -> has_node g b -> exists P, lpath g a b P.
Definition dz (a b : node) : Z := match graph_dist rx g a b with Ok d => d | Err _ => 0 end.
Lemma dz_spec a b : has_node g a -> has_node g b ->
  graph_dist rx g a b = Ok (dz a b) /\ (exists P, lpath g a b P /\ Z.of_nat (length P) = dz a b) /\
  (forall P, lpath g a b P -> dz a b <= Z.of_nat (length P)).
Proof.
  intros Ha Hb. destruct (has_node_map g a Hok Ha) as (i & Hi & Hi'). destruct (has_node_map g b Hok Hb) as (j & Hj & Hj').
  unfold dz, graph_dist. rewrite Hi, Hj.
  pose proof (rx_dist_ok rx Hrx (lg_g g) i j) as Hd.
  assert (Hwf : pg_wf (lg_g g)) by (intros i' j' w; apply (ok_edges g Hok)).
  specialize (Hd Hwf (lookup_lt_Some _ _ _ Hi') (lookup_lt_Some _ _ _ Hj')).
  destruct (rx_dist rx (lg_g g) i j) as [d|].
  - destruct Hd as (k & -> & Hw & Hmin). split; [done|]. split.
    + apply (walk_lpath k i j a b Hi' Hj') in Hw as (P & HP & HL). exists P. split; [done|lia].
    + intros P HP. assert (walk (lg_g g) (length P) i j) as HwP by (apply (walk_lpath _ i j a b Hi' Hj'); eauto).
      apply Hmin in HwP. lia.
  - destruct (Hconn a b Ha Hb) as (P & HP). destruct (Hd (length P)). apply (walk_lpath _ i j a b Hi' Hj'); eauto.
Qed.
Lemma dz_nonneg a b : has_node g a -> has_node g b -> 0 <= dz a b.
Proof. intros Ha Hb. destruct (dz_spec a b Ha Hb) as (_ & (P & _ & <-) & _). lia. Qed.
Lemma dz_le_sym a b : has_node g a -> has_node g b -> dz a b <= dz b a.
Proof.
  intros Ha Hb. destruct (dz_spec a b Ha Hb) as (_ & _ & Hmin). destruct (dz_spec b a Hb Ha) as (_ & (P & HP & <-) & _).
  apply lpath_rev in HP as (Q & HQ & <-). by apply Hmin.
Qed.
Lemma dz_sym a b : has_node g a -> has_node g b -> dz a b = dz b a.
Proof. intros Ha Hb. pose proof (dz_le_sym a b Ha Hb). pose proof (dz_le_sym b a Hb Ha). lia. Qed.
Lemma dz_tri a b c : has_node g a -> has_node g b -> has_node g c -> dz a c <= dz a b + dz b c.
Proof.
  intros Ha Hb Hc. destruct (dz_spec a b Ha Hb) as (_ & (P & HP & <-) & _). destruct (dz_spec b c Hb Hc) as (_ & (Q & HQ & <-) & _).
  destruct (dz_spec a c Ha Hc) as (_ & _ & Hmin). pose proof (Hmin _ (lpath_app _ _ _ _ _ HP HQ)) as H. rewrite app_length in H. lia.
Qed.
Lemma dz_edge a b : edge_w g a b 1 -> dz a b <= 1.
Proof.
  intros He. pose proof (edge_w_node _ _ _ _ He) as [Ha Hb]. destruct (dz_spec a b Ha Hb) as (_ & _ & Hmin).
  apply (Hmin [(a, b)]). econstructor; [done|]. by constructor.
Qed.
End paths.

(** ** Pairing up a list *)
Fixpoint pairup {A} (l : list A) : list (A * A) :=
  match l with x :: y :: l' => (x, y) :: pairup l' | _ => [] end.
Lemma pairup_ends {A} (l : list A) : Nat.even (length l) = true -> pends (pairup l) = l.
Proof.
  remember (length l) as k eqn:Ek. revert l Ek. induction (lt_wf k) as [k _ IH]. intros l -> He.
  destruct l as [|x [|y l]]; [done|done|]. cbn [pairup]. rewrite (pends_cons (x, y)). cbn [fst snd].
  rewrite (IH (length l)); [done|cbn; lia|done|exact He].
Qed.
Lemma pairup_sub {A} (l : list A) p : p ∈ pairup l -> p.1 ∈ l /\ p.2 ∈ l.
Proof.
  remember (length l) as k eqn:Ek. revert l Ek. induction (lt_wf k) as [k _ IH]. intros l -> Hp.
  destruct l as [|x [|y l]]; [by apply elem_of_nil in Hp|by apply elem_of_nil in Hp|].
  cbn [pairup] in Hp. apply elem_of_cons in Hp as [-> | Hp]; cbn.
  - split; [left|right; left].
  - destruct (IH (length l) ltac:(cbn; lia) l eq_refl Hp). split; right; by right.
Qed.

Lemma pends_map {A B} (f : A -> B) (Q : list (A * A)) : pends (prod_map f f <$> Q) = f <$> pends Q.
Proof.
  induction Q as [|p Q IH]; [done|]. rewrite fmap_cons, !pends_cons, IH. done.
Qed.
Lemma NoDup_pairs {A} (M : list (A * A)) p : NoDup (pends M) -> p ∈ M -> p.1 <> p.2.
Proof.
  intros Hn Hp. apply elem_of_Permutation in Hp as [R HR].
  assert (HN : NoDup (pends (p :: R))) by (rewrite <- (pends_perm _ _ HR); done).
  rewrite pends_cons in HN. apply NoDup_cons in HN as [HN _]. intros E. apply HN. rewrite E. left.
Qed.

(** ** From the matcher's indices to labels *)
Section labels.
Context (eg : lgraph Z).
Hypothesis Hok : lg_ok eg.
Context (s : Z) (wf : node -> node -> Z).
Hypothesis Hwf : forall a b w, edge_w eg a b w -> w = wf a b.
Let es : gmap (nat * nat) Z := (fun w => w * s) <$> pg_edges (lg_g eg).
Definition lmatching (M : list (node * node)) : Prop :=
  NoDup (pends M) /\ forall p, p ∈ M -> exists w, edge_w eg p.1 p.2 w.
Definition lweight (M : list (node * node)) : Z := foldr Z.add 0 ((fun p => wf p.1 p.2) <$> M).

Lemma lmatching_index M : lmatching M ->
  exists Mi, matching es Mi /\ length Mi = length M /\ mweight es Mi = lweight M * s.
Proof.
  intros [Hn He]. pose (ix := fun n : node => default 0%nat (lg_map eg !! n)).
  exists (prod_map ix ix <$> M). split; [split|split].
  - rewrite pends_map. apply NoDup_fmap_2_strong; [|done].
    intros x y Hx Hy E.
    assert (Hin : forall z, z ∈ pends M -> exists i, lg_map eg !! z = Some i /\ pg_nodes (lg_g eg) !! i = Some z).
    { intros z (p & Hp & Hz)%elem_of_pends. destruct (He p Hp) as [w Hw]. apply edge_w_node in Hw as [H1 H2].
      apply has_node_map; [done|]. destruct Hz as [-> | ->]; done. }
    destruct (Hin x Hx) as (i & Hi & Hi'). destruct (Hin y Hy) as (j & Hj & Hj').
    unfold ix in E. rewrite Hi, Hj in E. cbn in E. congruence.
  - intros p (q & -> & Hq)%elem_of_list_fmap. destruct (He q Hq) as (w & i & j & Hi & Hj & Hw).
    apply (ok_map eg Hok) in Hi, Hj. change (is_Some (es !! ekey (ix q.1) (ix q.2))).
    assert (ix q.1 = i) as -> by (unfold ix; by rewrite Hi). assert (ix q.2 = j) as -> by (unfold ix; by rewrite Hj).
    unfold es. rewrite lookup_fmap, Hw. by eexists.
  - by rewrite fmap_length.
  - unfold mweight, lweight. clear Hn. induction M as [|q M IH]; [cbn; lia|].
    cbn [fmap list_fmap foldr]. change (list_fmap _ _ ?f ?l) with (f <$> l) in *. rewrite IH by (intros p Hp; apply He; by right).
    destruct (He q ltac:(left)) as (w & i & j & Hi & Hj & Hw).
    rewrite <- (Hwf q.1 q.2 w) by (by exists i, j).
    apply (ok_map eg Hok) in Hi, Hj. change (prod_map ix ix q) with (ix q.1, ix q.2). cbn [fst snd].
    assert (ix q.1 = i) as -> by (unfold ix; by rewrite Hi). assert (ix q.2 = j) as -> by (unfold ix; by rewrite Hj).
    unfold es. rewrite lookup_fmap, Hw. cbn. lia.
Qed.

Lemma matching_label Mi : matching es Mi ->
  exists M, lmatching M /\ length Mi = length M /\ mweight es Mi = lweight M * s /\
    rmap (fun ij => match pg_nodes (lg_g eg) !! fst ij, pg_nodes (lg_g eg) !! snd ij with
                        | Some a, Some b => Ok (a, b)
                        | _, _ => Err IndexError end) Mi = Ok M /\
    (forall i, i ∈ pends Mi -> (i < length (pg_nodes (lg_g eg)))%nat).
Proof.
  intros [Hn He].
  pose (lb := fun i : nat => default (0, 0, 0) (pg_nodes (lg_g eg) !! i)).
  assert (Hin : forall p, p ∈ Mi -> exists a b w, pg_nodes (lg_g eg) !! p.1 = Some a /\ pg_nodes (lg_g eg) !! p.2 = Some b /\ pg_edges (lg_g eg) !! ekey p.1 p.2 = Some w /\ es !! ekey p.1 p.2 = Some (w * s)).
  { intros p Hp. destruct (He p Hp) as [w' Hw']. unfold es in Hw'. rewrite lookup_fmap in Hw'.
    apply fmap_Some in Hw' as (w & Hw & ->).
    destruct (ok_edges eg Hok _ _ _ Hw).
    destruct (lookup_lt_is_Some_2 (pg_nodes (lg_g eg)) p.1) as [a Ha]; [lia|].
    destruct (lookup_lt_is_Some_2 (pg_nodes (lg_g eg)) p.2) as [b Hb]; [lia|].
    exists a, b, w. unfold es. rewrite lookup_fmap, Hw. done. }
  assert (Hin2 : forall z, z ∈ pends Mi -> exists a, pg_nodes (lg_g eg) !! z = Some a).
  { intros z (p & Hp & Hz)%elem_of_pends. destruct (Hin p Hp) as (a & b & _ & Ha & Hb & _). destruct Hz as [-> | ->]; eauto. }
  exists (prod_map lb lb <$> Mi). split; [split|split; [|split; [|split]]].
  - rewrite pends_map. apply NoDup_fmap_2_strong; [|done].
    intros x y Hx Hy E. destruct (Hin2 x Hx) as [a Ha], (Hin2 y Hy) as [b Hb]. unfold lb in E. rewrite Ha, Hb in E. cbn in E. subst b.
    eapply (NoDup_lookup _ _ _ a (ok_nodup eg Hok)); done.
  - intros p (q & -> & Hq)%elem_of_list_fmap. destruct (Hin q Hq) as (a & b & w & Ha & Hb & Hw & _).
    exists w. change (prod_map lb lb q) with (lb q.1, lb q.2). cbn [fst snd].
    assert (lb q.1 = a) as -> by (unfold lb; by rewrite Ha). assert (lb q.2 = b) as -> by (unfold lb; by rewrite Hb).
    by exists q.1, q.2.
  - by rewrite fmap_length.
  - unfold mweight, lweight. clear Hn Hin2 He. induction Mi as [|q M IH]; [cbn; lia|].
    cbn [fmap list_fmap foldr]. change (list_fmap _ _ ?f ?l) with (f <$> l) in *. rewrite IH by (intros p Hp; apply Hin; by right).
    destruct (Hin q ltac:(left)) as (a & b & w & Ha & Hb & Hw & Hes).
    rewrite Hes. change (prod_map lb lb q) with (lb q.1, lb q.2). cbn [fst snd].
    assert (lb q.1 = a) as -> by (unfold lb; by rewrite Ha). assert (lb q.2 = b) as -> by (unfold lb; by rewrite Hb).
    cbn [default from_option]. rewrite <- (Hwf a b w) by (by exists q.1, q.2). cbn. lia.
  - clear Hn Hin2 He. induction Mi as [|q M IH]; [done|]. cbn [rmap].
    destruct (Hin q ltac:(left)) as (a & b & w & Ha & Hb & _). rewrite Ha, Hb, IH by (intros p Hp; apply Hin; by right).
    rewrite fmap_cons. change (prod_map lb lb q) with (lb q.1, lb q.2).
    assert (lb q.1 = a) as -> by (unfold lb; by rewrite Ha). assert (lb q.2 = b) as -> by (unfold lb; by rewrite Hb). done.
  - intros i Hi. destruct (Hin2 i Hi) as [a Ha]. by eapply lookup_lt_Some.
Qed.

(** If there is a perfect matching of the labels, what the matcher returns is one, and it is
    at least as heavy. *)
Lemma perfect_match rx Mp : rx_ok rx -> 0 < s -> lmatching Mp -> length (pends Mp) = length (pg_nodes (lg_g eg)) ->
  exists M, run_mwpm rx (fun w => w * s) eg = Ok (filter (fun m => ~ (n_time m.1 = -1 /\ n_time m.2 = -1)) M) /\
    lmatching M /\ pends M ≡ₚ pg_nodes (lg_g eg) /\ lweight Mp <= lweight M.
Proof.
  intros Hrx Hs HMp HLp.
  set (n := length (pg_nodes (lg_g eg))) in *.
  assert (Hmax : max_matching es (rx_match rx n es)).
  { apply Hrx. intros i j w. unfold es. rewrite lookup_fmap. intros (w' & Hw & _)%fmap_Some. by apply (ok_edges eg Hok) in Hw. }
  destruct Hmax as [Hm Hopt].
  destruct (lmatching_index Mp HMp) as (Mi & HMi & HLi & HWi).
  destruct (matching_label _ Hm) as (M & HM & HL & HW & Hr & Hlt).
  destruct (Hopt Mi HMi) as [Hcard Hw].
  assert (HLM : (length (pends M) <= n)%nat).
  { rewrite pends_length, <- HL, <- pends_length.
    assert (Hsub : pends (rx_match rx n es) ⊆+ seq 0 n).
    { apply NoDup_submseteq; [apply Hm|]. intros i Hi. apply elem_of_seq. specialize (Hlt i Hi). lia. }
    apply submseteq_length in Hsub. by rewrite seq_length in Hsub. }
  assert (Heq : length Mi = length (rx_match rx n es)).
  { rewrite pends_length in HLM, HLp. lia. }
  exists M. split; [|split; [done|split]].
  - unfold run_mwpm. fold n. change (fmap (M := gmap (nat * nat)) _ _) with es. rewrite Hr. done.
  - apply submseteq_Permutation_length_eq.
    + rewrite pends_length in *. lia.
    + apply NoDup_submseteq; [apply HM|]. intros a (p & Hp & Ha)%elem_of_pends. destruct HM as [_ HM]. destruct (HM p Hp) as [w Hew].
      apply edge_w_node in Hew as [? ?]. destruct Ha as [-> | ->]; done.
  - specialize (Hw Heq). rewrite HWi, HW in Hw. nia.
Qed.
End labels.
