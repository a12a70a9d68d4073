(** What a single fault in a round can do, for one type of stabilizers: at most two data flips
    and misread bits account for it. *)
From Verif Require Export FrameRound.
From stdpp Require Export list.
Open Scope Z_scope.

Lemma xorl_mem (m : list Z) loc : NoDup m -> xorl ((fun l => bool_decide (l = loc)) <$> m) = bool_decide (loc ∈ m).
Proof.
  induction 1 as [|l m Hl Hn IH]; [done|]. rewrite fmap_cons, xorl_cons, IH. destruct (decide (l = loc)) as [->|Hne].
  - rewrite (bool_decide_eq_true_2 (loc = loc)), (bool_decide_eq_false_2 (loc ∈ m)), bool_decide_eq_true_2; [done|by left|done|done].
  - rewrite (bool_decide_eq_false_2 (l = loc)) by done. rewrite xorb_false_l. apply bool_decide_ext. rewrite elem_of_cons. naive_solver.
Qed.

Section fault.
Context (c : code) (name : string) (dh dw : Z) (Hv : valid_size dh dw) (isx : bool).
Notation PK k := (pmap (dq name) (stabP c dh dw k)).
Notation typ isx A := (pmap (dq name) (typed c dh dw isx A)).
Notation entk := (ent_k c name dh dw).
Notation nloc := (P_Graph.nsyn isx dh dw).

(** [e1]: data flips before the round; [e2]: after it; [m]: misread stabilizers.  [fl] tells
    which bits of the round differ, [P3] is the error left after the round. *)
Definition explained (P3 : pauli qubit) (fl : Z -> bool) (e1 e2 m : list Z) : Prop :=
  (length e1 + length e2 + length m <= 2)%nat /\
  (forall i, i ∈ e1 ++ e2 -> 0 <= i < dh * dw) /\ (forall l, l ∈ m -> 0 <= l < nloc) /\
  (forall loc, 0 <= loc < nloc -> fl loc = xorb (xorl ((fun i => mem i (tset dh dw (isx, loc))) <$> e1)) (xorl ((fun l => bool_decide (l = loc)) <$> m))) /\
  (forall A, obs dh dw isx A -> anti P3 (typ isx A) = xorl ((fun i => mem i A) <$> e1 ++ e2)).

Lemma obs_loc loc : 0 <= loc < nloc -> obs dh dw isx (tset dh dw (isx, loc)).
Proof. intros Hl. left. eauto. Qed.
Lemma expl_none P3 fl : (forall loc, 0 <= loc < nloc -> fl loc = false) -> (forall A, obs dh dw isx A -> anti P3 (typ isx A) = false) -> explained P3 fl [] [] [].
Proof. intros H1 H2. split_and!; [cbn; lia|intros i []%elem_of_nil|intros i []%elem_of_nil|done|done]. Qed.
Lemma expl_misread P3 fl loc0 : 0 <= loc0 < nloc -> (forall loc, 0 <= loc < nloc -> fl loc = bool_decide (loc = loc0)) ->
  (forall A, obs dh dw isx A -> anti P3 (typ isx A) = false) -> explained P3 fl [] [] [loc0].
Proof.
  intros H0 H1 H2. split_and!; [cbn; lia|intros i []%elem_of_nil|intros i ->%elem_of_list_singleton; done| |done].
  intros loc Hl. rewrite H1, xorl_mem by (done || apply NoDup_singleton). rewrite fmap_nil. change (xorl []) with false. rewrite xorb_false_l. apply bool_decide_ext. by rewrite elem_of_list_singleton.
Qed.
Lemma expl_if_misread P3 fl loc0 b : 0 <= loc0 < nloc -> (forall loc, 0 <= loc < nloc -> fl loc = b && bool_decide (loc = loc0)) ->
  (forall A, obs dh dw isx A -> anti P3 (typ isx A) = false) -> exists e1 e2 m, explained P3 fl e1 e2 m.
Proof.
  intros H0 H1 H2. destruct b; [exists [], [], [loc0]; by apply expl_misread|exists [], [], []; by apply expl_none].
Qed.
Lemma expl_data P3 fl i b (seen : Z -> bool) : (forall A, obs dh dw isx A -> anti P3 (typ isx A) = b && mem i A) ->
  (forall loc, 0 <= loc < nloc -> fl loc = seen loc && (b && mem i (tset dh dw (isx, loc)))) -> exists e1 e2 m, explained P3 fl e1 e2 m.
Proof.
  intros HA Hf. destruct (decide (b = true /\ 0 <= i < dh * dw)) as [[-> Hi]|Hn].
  - destruct (touched dh dw Hv isx i Hi) as (tl & Hnd & Hlen & Htl).
    set (u := filter (fun loc => seen loc = false) tl).
    assert (Hu : forall loc, loc ∈ u <-> seen loc = false /\ loc ∈ tl) by (intros loc; unfold u; by rewrite elem_of_list_filter).
    destruct (decide (Forall (fun loc => seen loc = false) tl)) as [Hall|Hall].
    + exists [], [i], []. split_and!; [cbn; lia|intros j ->%elem_of_list_singleton; done|intros j []%elem_of_nil| |].
      * intros loc Hl. rewrite Hf by done. cbn. destruct (mem i _) eqn:E; [|apply andb_false_r]. rewrite list.Forall_forall in Hall.
        rewrite Hall; [done|]. by apply Htl.
      * intros A HA'. rewrite HA by done. cbn. by rewrite xorb_false_r.
    + exists [i], [], u. split_and!.
      * cbn. assert (length u < length tl)%nat; [|lia]. unfold u. clear -Hall. induction tl as [|l tl IH]; [by exfalso; apply Hall|].
        rewrite filter_cons. destruct (decide (seen l = false)) as [Hs|Hs]; cbn.
        -- assert (length (filter (fun loc => seen loc = false) tl) < length tl)%nat; [|lia]. apply IH. intros H. apply Hall. by constructor.
        -- pose proof (filter_length (fun loc => seen loc = false) tl). lia.
      * intros j ->%elem_of_list_singleton. done.
      * intros l [_ [Hl _]%Htl]%Hu. done.
      * intros loc Hl. rewrite Hf by done. rewrite xorl_mem by (by apply NoDup_filter). rewrite fmap_cons, fmap_nil, xorl_cons. change (xorl []) with false. cbv beta. rewrite xorb_false_r. cbn [andb].
        rewrite (bool_decide_ext _ _ (Hu loc)). destruct (mem i (tset dh dw (isx, loc))) eqn:E.
        -- assert (loc ∈ tl) by (by apply Htl). destruct (seen loc) eqn:Es.
           ++ rewrite bool_decide_eq_false_2; [reflexivity|]. intros [? _]. congruence.
           ++ rewrite bool_decide_eq_true_2; [done|]. done.
        -- rewrite andb_false_r. rewrite bool_decide_eq_false_2; [done|]. intros [_ [_ ?]%Htl]. congruence.
      * intros A HA'. rewrite HA by done. cbn. by rewrite xorb_false_r.
  - assert (Hz : forall A, A ⊆ data_set dh dw -> b && mem i A = false).
    { intros A HA'. destruct b; [|done]. cbn. apply mem_false. intros Hi. apply HA', elem_of_data_set in Hi. by apply Hn. }
    exists [], [], []. apply expl_none.
    + intros loc Hl. rewrite Hf by done. rewrite Hz; [apply andb_false_r|]. apply (obs_data dh dw Hv isx). by apply obs_loc.
    + intros A HA'. rewrite HA by done. by apply Hz, (obs_data dh dw Hv isx).
Qed.
Lemma dot_list_l (B : list Z) (A : gset Z) : NoDup B -> dot (list_to_set B) A = xorl ((fun i => mem i A) <$> B).
Proof. intros Hn. rewrite dot_comm. by apply dot_list. Qed.
Lemma expl_before P3 fl B : NoDup B -> (length B <= 2)%nat -> (forall i, i ∈ B -> 0 <= i < dh * dw) ->
  (forall loc, 0 <= loc < nloc -> fl loc = dot (list_to_set B) (tset dh dw (isx, loc))) ->
  (forall A, obs dh dw isx A -> anti P3 (typ isx A) = dot (list_to_set B) A) -> explained P3 fl B [] [].
Proof.
  intros Hn Hl Hr H1 H2. split_and!; [cbn; lia|by rewrite app_nil_r|intros i []%elem_of_nil| |].
  - intros loc Hloc. rewrite H1, dot_list_l by done. cbn. by rewrite xorb_false_r.
  - intros A HA. rewrite H2, dot_list_l by done. by rewrite app_nil_r.
Qed.
Lemma expl_after P3 fl B : NoDup B -> (length B <= 2)%nat -> (forall i, i ∈ B -> 0 <= i < dh * dw) ->
  (forall loc, 0 <= loc < nloc -> fl loc = false) ->
  (forall A, obs dh dw isx A -> anti P3 (typ isx A) = dot (list_to_set B) A) -> explained P3 fl [] B [].
Proof.
  intros Hn Hl Hr H1 H2. split_and!; [cbn; lia|done|intros i []%elem_of_nil| |].
  - intros loc Hloc. by rewrite H1.
  - intros A HA. rewrite H2, dot_list_l by done. done.
Qed.
(** A part of a stabilizer of the other type, or the other part: one of them is small. *)
Lemma small_part k B1 B2 : is_syn dh dw k -> k.1 = negb isx -> B1 ++ B2 ≡ₚ plaq_data (geomP dh dw k) ->
  exists B, NoDup B /\ (length B <= 2)%nat /\ (forall i, i ∈ B -> 0 <= i < dh * dw) /\
    forall A, obs dh dw isx A -> dot (list_to_set B2) A = dot (list_to_set B) A.
Proof.
  intros Hk Hne HB. assert (Hn : NoDup (B1 ++ B2)) by (rewrite HB; by apply plaq_nodup). assert (Hn' := Hn). apply NoDup_app in Hn' as (N1 & Nd & N2).
  assert (Hlen : (length B1 + length B2 <= 4)%nat).
  { rewrite <-app_length, HB. destruct k as [[|] loc]; unfold is_syn, nsyn in Hk; cbn [fst snd] in Hk; unfold geomP; cbn [fst snd].
    - destruct (plaq_data_x dh dw loc Hv Hk) as (_&_&[E4|E4]&_); lia.
    - destruct (plaq_data_z dh dw loc Hv Hk) as (_&_&[E4|E4]&_); lia. }
  assert (Hr : forall i, i ∈ B1 ++ B2 -> 0 <= i < dh * dw).
  { intros i Hi. rewrite HB in Hi. apply elem_of_data_set. apply (tset_data dh dw Hv k Hk). unfold tset. by rewrite elem_of_list_to_set. }
  destruct (decide (length B2 <= 2)%nat) as [H2|H2].
  - exists B2. split_and!; try done. intros i Hi. apply Hr, elem_of_app. by right.
  - exists B1. split_and!; [done|lia|intros i Hi; apply Hr, elem_of_app; by left|]. intros A HA.
    pose proof (obs_commute c dh dw Hv isx k A Hk HA) as Hc. rewrite stabP_typed, Hne, anti_typed in Hc by done.
    assert (tset dh dw k = list_to_set B1 ⊕ list_to_set B2) as Ht.
    { rewrite sd_disj by set_solver. unfold tset. rewrite <-list_to_set_app_L. apply set_eq. intros a. rewrite !elem_of_list_to_set. by rewrite HB. }
    rewrite Ht, dot_sd_l in Hc. by destruct (dot (list_to_set B1) A), (dot (list_to_set B2) A).
Qed.
Lemma syns_split L1 k L2 : syns dh dw = L1 ++ k :: L2 ->
  (forall k', is_syn dh dw k' <-> k' ∈ L1 \/ k' = k \/ k' ∈ L2) /\ NoDup L2 /\ k ∉ L2 /\ k ∉ L1 /\ (forall k', k' ∈ L1 -> k' ∉ L2).
Proof.
  intros E. pose proof (syns_NoDup dh dw) as Hn. rewrite E in Hn. apply NoDup_app in Hn as (N1 & N2 & [N3 N4]%NoDup_cons).
  split_and!; [|done|done| |].
  - intros k'. rewrite <-elem_of_syns, E, elem_of_app, elem_of_cons. done.
  - intros H. apply (N2 k H). by left.
  - intros k' H1 H2. apply (N2 k' H1). by right.
Qed.
(** X-type plaquettes are processed before Z-type ones. *)
Lemma syns_order L1 k L2 loc : syns dh dw = L1 ++ k :: L2 -> k.1 = negb isx -> 0 <= loc < nloc ->
  if isx then (true, loc) ∈ L1 else (false, loc) ∈ L2.
Proof.
  intros E Hk Hl. unfold syns in E. apply app_eq_inv in E as [(m & E1 & E2)|(m & E1 & E2)].
  - (* k in the first part or first of the second *)
    destruct m as [|k' m]; cbn in E2.
    + (* k starts the second part *)
      rewrite app_nil_r in E1. destruct isx.
      * assert (Hin : (true, loc) ∈ pair true <$> seqZ 0 (num_syn_x dh dw)) by (apply elem_of_list_fmap; exists loc; split; [done|]; apply elem_of_seqZ; cbn in Hl; lia).
        by rewrite E1 in Hin.
      * exfalso. assert (Hin : k ∈ pair false <$> seqZ 0 (num_syn_z dh dw)) by (rewrite <-E2; by left).
        apply elem_of_list_fmap in Hin as (? & -> & _). done.
    + injection E2 as -> ->. destruct isx.
      * exfalso. assert (Hin : k' ∈ pair true <$> seqZ 0 (num_syn_x dh dw)) by (rewrite E1, elem_of_app; right; by left).
        apply elem_of_list_fmap in Hin as (? & -> & _). done.
      * apply elem_of_app. right. apply elem_of_list_fmap. exists loc. split; [done|]. apply elem_of_seqZ. cbn in Hl. lia.
  - destruct isx.
    + assert (Hin : (true, loc) ∈ pair true <$> seqZ 0 (num_syn_x dh dw)) by (apply elem_of_list_fmap; exists loc; split; [done|]; apply elem_of_seqZ; cbn in Hl; lia).
      rewrite E1. apply elem_of_app. by left.
    + exfalso. assert (Hin : k ∈ pair false <$> seqZ 0 (num_syn_z dh dw)) by (rewrite E2, elem_of_app; right; by left).
      apply elem_of_list_fmap in Hin as (? & -> & _). done.
Qed.
Lemma syns_order_x L1 k L2 loc : syns dh dw = L1 ++ k :: L2 -> k.1 = negb isx -> 0 <= loc < nloc -> isx = true -> (isx, loc) ∈ L1.
Proof. intros H1 H2 H3 H4. pose proof (syns_order L1 k L2 loc H1 H2 H3) as H. clear H2 H3. by rewrite H4 in *. Qed.
Lemma syns_order_z L1 k L2 loc : syns dh dw = L1 ++ k :: L2 -> k.1 = negb isx -> 0 <= loc < nloc -> isx = false -> (isx, loc) ∈ L2.
Proof. intros H1 H2 H3 H4. pose proof (syns_order L1 k L2 loc H1 H2 H3) as H. clear H2 H3. by rewrite H4 in *. Qed.
(** ** The rest of a round, after a plaquette circuit *)
Lemma after_plain T L2 P0 : NoDup L2 -> (forall k, k ∈ L2 -> is_syn dh dw k /\ mem (synq name k) (pz P0) = false) ->
  exists P' F', push (mjoin (entk <$> L2) ++ meas_of name dh dw T (syn_order dh dw) ++ reset_of name (syn_order dh dw) ++ [IBarrier]) (Fr P0 fnone) = Fr P' F' /\
    synd_off name dh dw P' /\ (forall Q, anti P' (pmap (dq name) Q) = anti P0 (pmap (dq name) Q)) /\
    forall k, is_syn dh dw k -> F' (cbit name dh dw T k) = xorb (mem (synq name k) (px P0)) (bool_decide (k ∈ L2) && anti P0 (PK k)).
Proof.
  intros Hn Hz. rewrite push_app, push_ents by (done || intros k Hk; by apply Hz).
  destruct (pars_plain c name dh dw L2 P0 Hn) as (H1 & H2 & H3 & H4); [intros k Hk; by apply Hz|].
  destruct (push_tail c name dh dw T (syn_order dh dw) (pars c name dh dw L2 P0)) as (P' & F' & E & Ho & HA & HF & _); [by exists []|].
  exists P', F'. split_and!; [done|done|intros Q; by rewrite HA, H4|]. intros k Hk. rewrite HF by done.
  rewrite bool_decide_eq_true_2 by (by apply (syn_order_elem c name dh dw)). cbn [andb]. case_bool_decide as Hd; cbn [andb]; [by apply H1|].
  rewrite xorb_false_r. apply H2. intros k' Hk' E'. apply synq_inj in E' as ->. done.
Qed.
Lemma PK_commute k k' : is_syn dh dw k -> is_syn dh dw k' -> anti (PK k) (PK k') = false.
Proof. intros H1 H2. rewrite anti_pmap by (intros ???; by eapply dq_inj). apply (stabilizers_commute c dh dw); [done|by apply stabP_elem|by apply stabP_elem]. Qed.
(** A fault on the syndrome qubit of a plaquette still to come. *)
Lemma after_pending T L2 k0 P : single_on (synq name k0) P -> NoDup L2 -> (forall k, k ∈ L2 -> is_syn dh dw k) -> k0 ∈ L2 ->
  exists P' F', push (mjoin (entk <$> L2) ++ meas_of name dh dw T (syn_order dh dw) ++ reset_of name (syn_order dh dw) ++ [IBarrier]) (Fr P fnone) = Fr P' F' /\
    synd_off name dh dw P' /\ (forall Q, anti P' (pmap (dq name) Q) = mem (synq name k0) (pz P) && anti (PK k0) (pmap (dq name) Q)) /\
    forall k, is_syn dh dw k -> F' (cbit name dh dw T k) = mem (synq name k0) (px P) && bool_decide (k = k0).
Proof.
  intros Hs Hn Hsyn Hk0. assert (Hdata : forall Q, anti P (pmap (dq name) Q) = false).
  { intros Q. apply (anti_single_off (synq name k0)); [done|]. apply off_data. intros i. apply synq_dq. }
  assert (Hpar : pars c name dh dw L2 P = cpar (synq name k0) (PK k0) P).
  { apply elem_of_list_split in Hk0 as (La & Lb & ->). apply NoDup_app in Hn as (_ & Na & [Nb Nc]%NoDup_cons).
    assert (HLa : forall k, k ∈ La -> k <> k0) by (intros k Hk ->; apply (Na k0 Hk); by left).
    assert (HLb : forall k, k ∈ Lb -> k <> k0) by (intros k Hk ->; done).
    assert (Hoff : forall k, k <> k0 -> off (synq name k) P) by (intros k Hk; apply (single_off (synq name k0)); [done|]; intros E; by apply synq_inj in E).
    rewrite pars_app, (pars_trivial c name dh dw La) by (intros k Hk; split; [apply Hoff; by apply HLa|apply Hdata]).
    cbn [pars foldl]. change (foldl _ ?p Lb) with (pars c name dh dw Lb p). apply pars_trivial. intros k Hk. split.
    - rewrite mem_par_z. destruct (Hoff k (HLb k Hk)) as [_ ->]. rewrite xorb_false_l.
      destruct (off_data name (synq name k) (stabP c dh dw k0)) as [_ ->]; [intros i; apply synq_dq|]. apply andb_false_r.
    - rewrite anti_par by (apply off_data; intros i; apply synq_dq). rewrite Hdata, xorb_false_l, PK_commute; [apply andb_false_r| |];
        apply Hsyn, elem_of_app; right; [by left|by right]. }
  rewrite push_app, push_ents by done. rewrite Hpar.
  destruct (push_tail c name dh dw T (syn_order dh dw) (cpar (synq name k0) (PK k0) P)) as (P' & F' & E & Ho & HA & HF & _); [by exists []|].
  exists P', F'. split_and!; [done|done| |].
  - intros Q. rewrite HA, anti_par by (apply off_data; intros i; apply synq_dq). by rewrite Hdata, xorb_false_l.
  - intros k Hk. rewrite HF by done. rewrite bool_decide_eq_true_2 by (by apply (syn_order_elem c name dh dw)). cbn [andb]. rewrite mem_par_x, Hdata.
    destruct (off_data name (synq name k) (stabP c dh dw k0)) as [-> _]; [intros i; apply synq_dq|]. rewrite andb_false_r, xorb_false_l, xorb_false_r.
    destruct (decide (k = k0)) as [-> |Hne]; [by rewrite bool_decide_eq_true_2, andb_true_r|]. rewrite bool_decide_eq_false_2, andb_false_r by done.
    apply Hs. intros E'. by apply synq_inj in E'.
Qed.
Lemma single_like P q : single_on q P -> (forall k, is_syn dh dw k -> q <> synq name k) ->
  exists i b, (forall A, anti P (typ isx A) = b && mem i A) /\ forall k, is_syn dh dw k -> off (synq name k) P.
Proof.
  intros Hs Hq. assert (Ho : forall k, is_syn dh dw k -> off (synq name k) P) by (intros k Hk; apply (single_off q); [done|]; intros E; by apply (Hq k)).
  destruct (dq_cases name q) as [(i & ->)|Hn].
  - destruct (like_data c name dh dw Hv isx P i Hs) as [b Hb]. exists i, b. done.
  - exists 0, false. split; [|done]. by apply (like_other c name dh dw isx P q).
Qed.
Lemma anti_PK_typ P loc : 0 <= loc < nloc -> anti P (PK (isx, loc)) = anti P (typ isx (tset dh dw (isx, loc))).
Proof. intros Hl. by rewrite stabP_typed by (done || by apply is_syn_loc). Qed.
Lemma anti_typ_PK k A : is_syn dh dw k -> obs dh dw isx A -> anti (PK k) (typ isx A) = false.
Proof. intros Hk HA. rewrite anti_pmap by (intros ???; by eapply dq_inj). by apply obs_commute. Qed.

Lemma round_fault T r q P : single_on q P -> r `suffix_of` round_instrs c name dh dw T ->
  (fp (push r (Fr P fnone)) = P /\ forall b, ff (push r (Fr P fnone)) b = false) \/
  (synd_off name dh dw (fp (push r (Fr P fnone))) /\
   exists e1 e2 m, explained (fp (push r (Fr P fnone))) (fun loc => ff (push r (Fr P fnone)) (cbit name dh dw T (isx, loc))) e1 e2 m).
Proof.
  intros Hs Hr. apply round_suffix in Hr as [(L1 & k & L2 & r1 & EL & Hr1 & ->)|[(M & HM & ->)|[(M & HM & ->)| -> ]]].
  - (* during the plaquette circuits *)
    right. destruct (syns_split L1 k L2 EL) as (Hin & N2 & K2 & K1 & N12). assert (Hk : is_syn dh dw k) by (apply Hin; auto).
    destruct (push_ent_suffix c name dh dw Hv k r1 Hk Hr1) as (B1 & B2 & t & HB & HP). rewrite push_app, HP.
    assert (HL2 : forall k', k' ∈ L2 -> is_syn dh dw k') by (intros k' Hk'; apply Hin; auto).
    set (P0 := if t then hP (synq name k) P else P). set (G := typ k.1 (list_to_set B2)).
    assert (HGo : forall k', off (synq name k') G) by (intros k'; apply off_data; intros i; apply synq_dq).
    destruct (synq_cases name dh dw q) as [(k0 & Hk0 & ->)|Hq].
    + assert (Hdata : forall Q, anti P (pmap (dq name) Q) = false).
      { intros Q. apply (anti_single_off (synq name k0)); [done|]. apply off_data. intros i. apply synq_dq. }
      destruct (decide (k0 = k)) as [-> |Hne].
      * (* the current plaquette's own qubit *)
        assert (Hs0 : single_on (synq name k) P0) by (unfold P0; destruct t; [by apply hP_single|done]).
        assert (Hd0 : forall Q, anti P0 (pmap (dq name) Q) = false).
        { intros Q. apply (anti_single_off (synq name k)); [done|]. apply off_data. intros i. apply synq_dq. }
        set (z := mem (synq name k) (pz P0)). set (x := mem (synq name k) (px P0)).
        destruct (after_plain T L2 (cpar (synq name k) G P0) N2) as (P' & F' & E & Ho & HA & HF).
        { intros k' Hk'. split; [by apply HL2|]. rewrite mem_par_z. assert (Hk'k : k' <> k) by congruence.
          destruct (single_off _ (synq name k') P0 Hs0) as [_ ->]; [intros E; by apply synq_inj in E|].
          destruct (HGo k') as [_ ->]. by rewrite andb_false_r. }
        rewrite E. cbn [fp ff]. split; [done|].
        assert (HA' : forall Q, anti P' (pmap (dq name) Q) = z && anti G (pmap (dq name) Q)).
        { intros Q. rewrite HA, anti_par by (apply off_data; intros i; apply synq_dq). by rewrite Hd0, xorb_false_l. }
        assert (HF' : forall k', is_syn dh dw k' -> F' (cbit name dh dw T k') = xorb (x && bool_decide (k' = k)) (bool_decide (k' ∈ L2) && (z && anti G (PK k')))).
        { intros k' Hk'. rewrite HF by done. f_equal.
          - rewrite mem_par_x, (Hd0 _ : anti P0 G = false). destruct (HGo k') as [-> _].
            rewrite andb_false_r, xorb_false_l, xorb_false_r. destruct (decide (k' = k)) as [-> |Hne]; [by rewrite bool_decide_eq_true_2, andb_true_r|].
            rewrite bool_decide_eq_false_2, andb_false_r by done. apply Hs0. intros E'. by apply synq_inj in E'.
          - f_equal. rewrite anti_par by (apply off_data; intros i; apply synq_dq). by rewrite Hd0, xorb_false_l. }
        destruct (decide (k.1 = isx)) as [Hty|Hty].
        -- (* same type: a misread *)
           destruct k as [ty loc0]. cbn [fst] in *. subst ty. apply (expl_if_misread P' _ loc0 x); [by apply is_syn_loc in Hk| |].
           ++ intros loc Hl. rewrite HF' by (by apply is_syn_loc). unfold G. cbn [fst]. rewrite anti_PK_typ by done.
              rewrite anti_pmap by (intros ???; by eapply dq_inj). rewrite anti_typed_same, !andb_false_r, xorb_false_r. f_equal. apply bool_decide_ext. split; congruence.
           ++ intros A HA0. rewrite HA'. unfold G. cbn [fst]. rewrite anti_pmap by (intros ???; by eapply dq_inj). by rewrite anti_typed_same, andb_false_r.
        -- (* other type: the error spreads to the rest of the plaquette *)
           assert (Hty' : k.1 = negb isx) by (clear -Hty; revert Hty; destruct (k.1), isx; cbn; congruence).
           assert (HG : forall A, anti G (typ isx A) = dot (list_to_set B2) A).
           { intros A. unfold G. rewrite Hty', anti_pmap by (intros ???; by eapply dq_inj). apply anti_typed. }
           destruct (small_part k B1 B2 Hk Hty' HB) as (B & NB & LB & RB & DB).
           assert (Hne : forall loc, (isx, loc) <> k) by (intros loc <-; by apply Hty).
           destruct z.
           ++ destruct (decide (isx = true)) as [Eisx|Eisx%not_true_is_false]; [exists [], B, []; apply expl_after|exists B, [], []; apply expl_before]; try done.
              ** intros loc Hl. rewrite HF' by (by apply is_syn_loc). rewrite bool_decide_eq_false_2, andb_false_r, xorb_false_l by done.
                 rewrite bool_decide_eq_false_2; [done|]. apply N12. by apply (syns_order_x L1 k L2).
              ** intros A HA0. rewrite HA'. cbn [andb]. rewrite HG. by apply DB.
              ** intros loc Hl. rewrite HF' by (by apply is_syn_loc). rewrite (bool_decide_eq_false_2 (_ = k)), andb_false_r, xorb_false_l by done.
                 rewrite bool_decide_eq_true_2 by (by apply (syns_order_z L1 k L2)). cbn [andb].
                 rewrite stabP_typed by (done || by apply is_syn_loc). cbn [fst]. rewrite HG. apply DB. left. eauto.
              ** intros A HA0. rewrite HA'. cbn [andb]. rewrite HG. by apply DB.
           ++ exists [], [], []. apply expl_none.
              ** intros loc Hl. rewrite HF' by (by apply is_syn_loc). rewrite (bool_decide_eq_false_2 (_ = k)) by done. cbn [andb]. by rewrite !andb_false_r.
              ** intros A HA0. by rewrite HA'.
      * (* another syndrome qubit *)
        assert (HP0 : cpar (synq name k) G P0 = P).
        { assert (HP0 : P0 = P).
          { unfold P0. destruct t; [|done]. apply hP_off. apply (single_off (synq name k0)); [done|]. intros E. by apply synq_inj in E. }
          rewrite HP0. apply cpar_trivial; [|apply Hdata]. apply (single_off (synq name k0) (synq name k) P); [done|]. intros E. by apply synq_inj in E. }
        rewrite HP0. assert (Hcase : k0 ∈ L1 \/ k0 ∈ L2) by (apply Hin in Hk0; naive_solver). destruct Hcase as [Hd|Hd].
        -- destruct (after_plain T L2 P N2) as (P' & F' & E & Ho & HA & HF).
           { intros k' Hk'. split; [by apply HL2|]. apply (single_off (synq name k0) (synq name k') P); [done|]. intros E. apply synq_inj in E as ->. by apply (N12 k0). }
           rewrite E. cbn [fp ff]. split; [done|].
           destruct (decide (k0.1 = isx)) as [Hty|Hty].
           ++ destruct k0 as [ty loc0]. cbn [fst] in *. subst ty. apply (expl_if_misread P' _ loc0 (mem (synq name (isx, loc0)) (px P))); [by apply is_syn_loc in Hk0| |].
              ** intros loc Hl. rewrite HF by (by apply is_syn_loc). rewrite Hdata, andb_false_r, xorb_false_r.
                 destruct (decide (loc = loc0)) as [-> |Hne']; [by rewrite bool_decide_eq_true_2, andb_true_r|]. rewrite bool_decide_eq_false_2, andb_false_r by done.
                 apply Hs. intros E'. apply synq_inj in E'. congruence.
              ** intros A HA0. by rewrite HA, Hdata.
           ++ exists [], [], []. apply expl_none.
              ** intros loc Hl. rewrite HF by (by apply is_syn_loc). rewrite Hdata, andb_false_r, xorb_false_r. apply Hs. intros E'. apply synq_inj in E' as <-. done.
              ** intros A HA0. by rewrite HA, Hdata.
        -- destruct (after_pending T L2 k0 P Hs N2 HL2 Hd) as (P' & F' & E & Ho & HA & HF). rewrite E. cbn [fp ff]. split; [done|].
           assert (HA0 : forall A, obs dh dw isx A -> anti P' (typ isx A) = false).
           { intros A HA0. rewrite HA, anti_typ_PK by done. apply andb_false_r. }
           destruct (decide (k0.1 = isx)) as [Hty|Hty].
           ++ destruct k0 as [ty loc0]. cbn [fst] in *. subst ty. apply (expl_if_misread P' _ loc0 (mem (synq name (isx, loc0)) (px P))); [by apply is_syn_loc in Hk0| |done].
              intros loc Hl. rewrite HF by (by apply is_syn_loc). f_equal. apply bool_decide_ext. split; congruence.
           ++ exists [], [], []. apply expl_none; [|done]. intros loc Hl. rewrite HF by (by apply is_syn_loc). rewrite bool_decide_eq_false_2, andb_false_r; [done|]. intros <-. done.
    + (* a data qubit, or a qubit of no concern *)
      destruct (single_like P q Hs Hq) as (i & b & Hlike & Hoff).
      assert (HP0 : P0 = P) by (unfold P0; destruct t; [|done]; apply hP_off; by apply Hoff). rewrite HP0.
      rewrite cpar_plain by (by apply Hoff). set (P1 := pmul P (Xon (bitset (anti P G) (synq name k)))).
      assert (HA1 : forall Q, anti P1 (pmap (dq name) Q) = anti P (pmap (dq name) Q)) by (intros Q; apply anti_mul_Xsyn).
      destruct (after_plain T L2 P1 N2) as (P' & F' & E & Ho & HA & HF).
      { intros k' Hk'. split; [by apply HL2|]. unfold P1. cbn [pz pmul Xon]. rewrite mem_sd, mem_empty, xorb_false_r. apply Hoff. by apply HL2. }
      rewrite E. cbn [fp ff]. split; [done|].
      apply (expl_data P' _ i b (fun loc => bool_decide ((isx, loc) ∈ L2) || bool_decide ((isx, loc) = k /\ i ∈ B2))).
      * intros A HA0. by rewrite HA, HA1, Hlike.
      * intros loc Hl. rewrite HF by (by apply is_syn_loc). rewrite HA1, anti_PK_typ, Hlike by done. unfold P1. cbn [px pmul Xon]. rewrite mem_sd, mem_bitset.
        destruct (Hoff (isx, loc)) as [-> _]; [by apply is_syn_loc|]. rewrite xorb_false_l.
        destruct (decide ((isx, loc) = k)) as [Ek|Ek].
        -- subst k. rewrite (bool_decide_eq_true_2 (_ = _)), andb_true_r by done. rewrite (bool_decide_eq_false_2 (_ ∈ L2)) by done. cbn [andb orb]. rewrite xorb_false_r.
           unfold G. cbn [fst]. rewrite Hlike. destruct (decide (i ∈ B2)) as [Hi|Hi].
           ++ rewrite bool_decide_eq_true_2 by done. cbn [andb]. f_equal. rewrite (proj2 (mem_true _ _)) by (by rewrite elem_of_list_to_set). symmetry. apply mem_true.
              unfold tset. rewrite elem_of_list_to_set, <-HB, elem_of_app. by right.
           ++ rewrite (bool_decide_eq_false_2 (_ /\ _)) by naive_solver. cbn [andb]. rewrite (proj2 (mem_false _ _)) by (by rewrite elem_of_list_to_set). apply andb_false_r.
        -- rewrite (bool_decide_eq_false_2 (synq name _ = _)), andb_false_r, xorb_false_l by (intros E'; apply synq_inj in E'; done).
           rewrite (bool_decide_eq_false_2 (_ /\ _)) by naive_solver. by rewrite orb_false_r.
  - (* during the measurements *)
    right. destruct (push_tail c name dh dw T M P HM) as (P' & F' & E & Ho & HA & HF & _). rewrite E. cbn [fp ff]. split; [done|].
    destruct (synq_cases name dh dw q) as [(k0 & Hk0 & ->)|Hq].
    + assert (Hdata : forall Q, anti P (pmap (dq name) Q) = false).
      { intros Q. apply (anti_single_off (synq name k0)); [done|]. apply off_data. intros i. apply synq_dq. }
      destruct (decide (k0.1 = isx)) as [Hty|Hty].
      * destruct k0 as [ty loc0]. cbn [fst] in *. subst ty. apply (expl_if_misread P' _ loc0 (bool_decide ((isx, loc0) ∈ M) && mem (synq name (isx, loc0)) (px P))); [by apply is_syn_loc in Hk0| |].
        -- intros loc Hl. rewrite HF by (by apply is_syn_loc). destruct (decide (loc = loc0)) as [-> |Hne]; [by rewrite (bool_decide_eq_true_2 (loc0 = loc0)), andb_true_r|].
           rewrite (bool_decide_eq_false_2 (loc = loc0)), andb_false_r by done. destruct (Hs (synq name (isx, loc))) as [-> _]; [intros E'; apply synq_inj in E'; congruence|]. apply andb_false_r.
        -- intros A HA0. by rewrite HA, Hdata.
      * exists [], [], []. apply expl_none.
        -- intros loc Hl. rewrite HF by (by apply is_syn_loc). destruct (Hs (synq name (isx, loc))) as [-> _]; [intros E'; apply synq_inj in E' as <-; done|]. apply andb_false_r.
        -- intros A HA0. by rewrite HA, Hdata.
    + destruct (single_like P q Hs Hq) as (i & b & Hlike & Hoff). apply (expl_data P' _ i b (fun _ => false)).
      * intros A HA0. by rewrite HA, Hlike.
      * intros loc Hl. rewrite HF by (by apply is_syn_loc). destruct (Hoff (isx, loc)) as [-> _]; [by apply is_syn_loc|]. apply andb_false_r.
  - (* during the resets *)
    destruct (push_reset name M P fnone) as (P' & E & H3 & H4 & H5). rewrite push_app, E. cbn [push foldl push1 fp ff].
    destruct (synq_cases name dh dw q) as [(k0 & Hk0 & ->)|Hq].
    + assert (Hoff : forall k, k <> k0 -> off (synq name k) P) by (intros k Hne; apply (single_off (synq name k0)); [done|]; intros E'; by apply synq_inj in E').
      destruct (decide (k0 ∈ M)) as [Hin|Hin].
      * right. split.
        -- intros k Hk. destruct (decide (k = k0)) as [-> |Hne]; [by apply H3|]. by apply H5, Hoff.
        -- exists [], [], []. apply expl_none; [done|]. intros A HA0. apply (anti_single_off (synq name k0)).
           ++ intros a Ha. apply H5. by apply Hs.
           ++ apply off_data. intros i. apply synq_dq.
      * left. split; [|done]. apply pauli_eq; apply mem_ext; intros a;
          (destruct (decide (Exists (fun k => a = synq name k) M)) as [(k & Hk & ->)%list.Exists_exists|Hn];
            [destruct (H3 k Hk) as [E1 E2]; destruct (Hoff k) as [E3 E4]; congruence|apply H4; intros k Hk ->; apply Hn, list.Exists_exists; eauto]).
    + right. destruct (single_like P q Hs Hq) as (i & b & Hlike & Hoff). split; [intros k Hk; by apply H5, Hoff|].
      apply (expl_data P' _ i b (fun _ => false)); [|done]. intros A HA0. rewrite <-(Hlike A). apply (anti_data_agree name dh dw). intros a Ha. apply H4.
      intros k Hk. apply Ha. destruct HM as [M1 HM]. apply (syn_order_elem c name dh dw). rewrite HM. apply elem_of_app. by right.
  - left. done.
Qed.
End fault.
