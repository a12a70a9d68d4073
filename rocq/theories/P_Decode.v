(** Properties C22, C25, C26, C28 and C32: the matching decoder. *)
From Verif Require Import FaultFacts Parse P_Parse RxRef.
From stdpp Require Export list.
Open Scope Z_scope.

(** [D] is a decoder of the library for lattices of this size, T rounds and readouts of type
    [isx]: any RotatedDecoder, or a RepetitionDecoder whose protection matches. *)
Definition decoder_for (isx : bool) (dh dw T : Z) (D : decoder) : Prop :=
  dec_h D = dh /\ dec_w D = dw /\
  ((exists d, rotated_decoder d (Some T) = Ok D) \/
   (exists pfp d, repetition_decoder pfp d (Some T) = Ok D /\ default false pfp = isx)).
Lemma decoder_d_T d T dh dw T' : decoder_d d (Some T) = Ok (dh, dw, T') -> T' = T.
Proof. unfold decoder_d. repeat case_match; naive_solver. Qed.
Lemma decoder_inv isx dh dw T D : decoder_for isx dh dw T D ->
  dec_h D = dh /\ dec_w D = dw /\ exists g, dec_graph D isx = Some g /\ make_syndrome_graph isx dh dw T = Ok g.
Proof.
  intros (Hh & Hw & HD). split; [done|]. split; [done|]. destruct HD as [[d HD]|(pfp & d & HD & <-)].
  - unfold rotated_decoder in HD. destruct (decoder_d d (Some T)) as [[[a b] T']|] eqn:Ed; [|done]. apply decoder_d_T in Ed as ->.
    destruct (make_syndrome_graph true a b T) eqn:E1; [|done]. destruct (make_syndrome_graph false a b T) eqn:E2; [|done].
    injection HD as <-. cbn in Hh, Hw. subst. destruct isx; eauto.
  - unfold repetition_decoder in HD. destruct (rep_d (default false pfp) d) as [dl|]; [|done].
    destruct (decoder_d (Some (DTup dl)) (Some T)) as [[[a b] T']|] eqn:Ed; [|done]. apply decoder_d_T in Ed as ->.
    destruct (make_syndrome_graph (default false pfp) a b T) eqn:E1; [|done].
    injection HD as <-. destruct (default false pfp); cbn in Hh, Hw; subst; eauto.
Qed.
(** Both constructors produce one for every odd size. *)
Lemma decoder_for_rotated isx dh dw T : valid_size dh dw -> exists D, rotated_decoder (Some (DTup [dh; dw])) (Some T) = Ok D /\ decoder_for isx dh dw T D.
Proof.
  intros Hv. destruct (C23_total dh dw T Hv) as (D & E & H1 & H2 & _). exists D. split; [done|]. split; [done|]. split; [done|]. left. eauto.
Qed.
Lemma decoder_for_repetition (isx : bool) (n T : Z) : 0 < n -> Z.odd n = true -> let dh := if isx then 1 else n in let dw := if isx then n else 1 in
  exists D, repetition_decoder (Some isx) (Some (DNum n)) (Some T) = Ok D /\ decoder_for isx dh dw T D.
Proof.
  intros Hn Ho dh dw. assert (Hv : valid_size dh dw) by (unfold valid_size, dh, dw; by destruct isx).
  assert (Hm : n mod 2 = 1) by (by rewrite Zmod_odd, Ho).
  destruct (syndrome_graph_ok isx dh dw Hv T) as (g & Eg & _).
  assert (E : repetition_decoder (Some isx) (Some (DNum n)) (Some T) = Ok (if isx then Dec dh dw T (Some g) None else Dec dh dw T None (Some g))).
  { unfold repetition_decoder. unfold decoder_d. destruct isx; cbn [from_option id rep_d]; rewrite Hm, !bool_decide_eq_false_2 by (intros H; by apply H); cbn [orb]; unfold dh, dw in Eg; by rewrite Eg. }
  eexists. split; [exact E|]. split; [by destruct isx|]. split; [by destruct isx|]. right. exists (Some isx), (Some (DNum n)). done.
Qed.
Lemma nsyn_extent isx dh dw loc : valid_size dh dw -> 0 <= loc < nsyn isx dh dw -> 3 <= extent isx dh dw.
Proof.
  intros Hv Hl. destruct (proj1 (coordk_cell isx dh dw (coordk isx dw loc) Hv)) as [(_ & _ & H1 & H2 & _) Hi]; [by exists loc|].
  pose proof (size_pos dh dw Hv) as (G1 & G2 & G3 & G4). unfold inside, level, extent in *. destruct isx; zmod.
Qed.
Lemma changes_empty rounds n off coord e : (n <= 0 \/ (length rounds <= 1)%nat) -> ~ changes rounds n off coord e.
Proof.
  intros Hn (k & r & r' & loc & Hr & Hr' & Hl & _). apply lookup_lt_Some in Hr'. lia.
Qed.
Lemma no_events (l : list node) : (forall e, ~ e ∈ l) -> l = [].
Proof. destruct l as [|e l]; [done|]. intros H. destruct (H e). left. Qed.
(** parse_readout of a key, by type. *)
Definition pick {A} (isx : bool) (p : A * A) : A := if isx then p.1 else p.2.
Lemma parse_key dh dw cs names last isx ty : valid_size dh dw -> 1 < dh * dw ->
  exists XZ, parse_readout dh dw (counts_key cs (((., dh * dw - 1) <$> names) ++ [(last, 1)])) ty = Ok (Z.b2z (cs (last, 0)), XZ) /\
    NoDup (pick isx XZ) /\
    (forall e, e ∈ pick isx XZ <-> changes (recorded cs names) (nsyn isx dh dw) (syn_off isx dh dw) (coordk isx dw) e).
Proof.
  intros Hv H1. destruct (C21_round_trip dh dw cs names last ty Hv H1) as (X & Z & E & N1 & N2 & HX & HZ).
  exists (X, Z). split; [done|]. unfold pick, nsyn, syn_off, coordk. by destruct isx.
Qed.

Section decode_rounds.
Context (dh dw T : Z) (D : decoder) (rx : retworkx) (ep : err_plain) (isx : bool) (c : code).
Hypothesis Hv : valid_size dh dw.
Hypothesis HD : decoder_for isx dh dw T D.
Hypothesis Hrx : rx_ok rx.
Lemma decode_rounds base flips misread rounds ev v :
  let N := Z.of_nat (length rounds) in
  N - 1 <= T -> faults_within isx dh dw N flips misread -> reported isx c dh dw base flips misread rounds ->
  2 * Z.of_nat (length flips + length misread) < extent isx dh dw ->
  NoDup ev -> (forall e, e ∈ ev <-> changes rounds (nsyn isx dh dw) (syn_off isx dh dw) (coordk isx dw) e) ->
  (correct_events rx D ep isx (Z.b2z (xorb v (logical_flip isx c dh dw flips))) ev).2 = Ok (Z.b2z v).
Proof.
  intros N HN Hw Hrep HL Hnd Hev. destruct (decoder_inv isx dh dw T D HD) as (Hh & Hww & g & Hg & Eg).
  destruct (decide (flips = [] /\ misread = [])) as [[-> ->]|Hsome].
  - assert (ev = []) as ->.
    { apply no_events. intros e (k & r & r' & loc & Hr & Hr' & Hl & Hne & _)%Hev. apply Hne.
      rewrite (Hrep _ _ loc Hr Hl), (Hrep _ _ loc Hr' Hl). done. }
    unfold correct_events, logical_flip. cbn. by rewrite xorb_false_r.
  - assert (Hext : 3 <= extent isx dh dw).
    { assert (1 <= length flips + length misread)%nat by (destruct flips, misread; cbn; try lia; tauto).
      pose proof (size_pos dh dw Hv) as (G1 & G2 & G3 & G4). lia. }
    assert (HT : 1 <= T).
    { destruct Hw as [Hf Hm]. destruct flips as [|f fl]; [destruct misread as [|m ml]; [tauto|]|].
      - specialize (Hm m ltac:(left)). lia.
      - specialize (Hf f ltac:(left)). lia. }
    destruct (fault_events isx c dh dw T g Hv Hext HT Eg base flips misread rounds ev HN Hw Hrep Hnd Hev) as (He1 & He2 & He3).
    rewrite (decode_value isx dh dw T g Hv Hext HT Eg rx Hrx D (conj Hh (conj Hww Hg)) ep _ ev (fault_edges isx dh dw flips misread) He1 He2 He3).
    + rewrite (fault_top isx c dh dw T g Hv Hext Eg flips misread).
      * do 2 f_equal. rewrite xorb_assoc_reverse, xorb_nilpotent, xorb_false_r. done.
      * intros f Hf. by apply Hw.
      * intros m Hm. by apply Hw.
    + unfold fault_edges. rewrite app_length, !fmap_length. done.
Qed.
End decode_rounds.

(** * C26 *)
(** [2 * weight < extent], the extent being the height for Z and the width for X, is
    weight <= (d-1)/2 for odd d. *)
Theorem C26_corrects c isx dh dw T D rx ep cs names last base flips misread v :
  valid_size dh dw -> 1 < dh * dw -> decoder_for isx dh dw T D -> rx_ok rx ->
  let N := Z.of_nat (length names) in
  N - 1 <= T -> faults_within isx dh dw N flips misread ->
  reported isx c dh dw base flips misread (recorded cs names) ->
  cs (last, 0) = xorb v (logical_flip isx c dh dw flips) ->
  Z.of_nat (length flips + length misread) <= (extent isx dh dw - 1) / 2 ->
  correct_readout rx D ep (counts_key cs (((., dh * dw - 1) <$> names) ++ [(last, 1)])) isx = Ok (Z.b2z v).
Proof.
  intros Hv H1 HD Hrx N HN Hw Hrep Hlast HL. unfold correct_readout.
  destruct (decoder_inv isx dh dw T D HD) as (-> & -> & _).
  destruct (parse_key dh dw cs names last isx (Some (type_string isx)) Hv H1) as ((X & Z') & -> & Hnd & Hev).
  assert (HR : length (recorded cs names) = length names) by apply fmap_length.
  rewrite Hlast. apply (decode_rounds dh dw T D rx ep isx c Hv HD Hrx base flips misread (recorded cs names)); try done.
  - by rewrite HR.
  - by rewrite HR.
  - zmod.
Qed.
Print Assumptions C26_corrects.
(** The same when all data qubits are read out in the Z basis: the last round is the one
    deduced from the data, the value is the parity of the top row. *)
Theorem C26_corrects_lattice_z c dh dw T D rx ep cs names nm last base flips misread v :
  valid_size dh dw -> 1 < dh * dw -> decoder_for false dh dw T D -> rx_ok rx ->
  let rounds := recorded cs (names ++ [nm]) ++ [final_round dh dw (fun j => cs (last, j)) (fun i => cs (nm, i))] in
  let N := Z.of_nat (length rounds) in
  N - 1 <= T -> faults_within false dh dw N flips misread ->
  reported false c dh dw base flips misread rounds ->
  xorl ((fun j => cs (last, j)) <$> seqZ 0 dw) = xorb v (logical_flip false c dh dw flips) ->
  Z.of_nat (length flips + length misread) <= (dh - 1) / 2 ->
  correct_readout rx D ep (counts_key cs (((., dh * dw - 1) <$> names ++ [nm]) ++ [(last, dh * dw)])) false = Ok (Z.b2z v).
Proof.
  intros Hv H1 HD Hrx rounds N HN Hw Hrep Hlast HL. unfold correct_readout.
  destruct (decoder_inv false dh dw T D HD) as (-> & -> & _).
  destruct (C14_lattice_z dh dw cs names nm last Hv H1) as (X & Z & E & _ & Hnd & _ & Hev). cbn [type_string]. rewrite E.
  rewrite Hlast. apply (decode_rounds dh dw T D rx ep false c Hv HD Hrx base flips misread rounds); try done.
  unfold extent. zmod.
Qed.
Print Assumptions C26_corrects_lattice_z.

(** * C22 *)
Lemma changes_node isx dh dw T g rounds e : valid_size dh dw -> make_syndrome_graph isx dh dw T = Ok g ->
  changes rounds (nsyn isx dh dw) (syn_off isx dh dw) (coordk isx dw) e ->
  (has_node g e <-> n_time e < T) /\ 0 <= n_time e /\ n_time e < Z.of_nat (length rounds) - 1 /\ 3 <= extent isx dh dw.
Proof.
  intros Hv Hg (k & r & r' & loc & Hr & Hr' & Hl & _ & ->). unfold n_time. cbn [fst snd].
  pose proof (nsyn_extent isx dh dw loc Hv Hl) as Hext. apply lookup_lt_Some in Hr'.
  split; [|split; [lia|split; [lia|done]]].
  destruct (syndrome_graph_ok isx dh dw Hv T) as (g' & E & _ & _ & Hnd). rewrite Hg in E. injection E as <-.
  destruct (Hnd Hext) as [Hn _]. rewrite Hn. unfold sg_node. cbn [fst snd].
  destruct (proj1 (coordk_cell isx dh dw (coordk isx dw loc) Hv)) as [Hc Hi]; [by exists loc|].
  rewrite <- surjective_pairing. rewrite decide_True by done. split; [intros (_ & _ & ?); lia|]. intros. split; [lia|]. split; [done|lia].
Qed.
(** Every event reported for a key with at most T+1 rounds is a node of the decoder's graph of
    its type, and decoding the key succeeds. *)
Theorem C22_events_are_nodes isx dh dw T D cs names last ty : valid_size dh dw -> 1 < dh * dw ->
  decoder_for isx dh dw T D -> Z.of_nat (length names) <= T + 1 ->
  exists lv XZ g, parse_readout dh dw (counts_key cs (((., dh * dw - 1) <$> names) ++ [(last, 1)])) ty = Ok (lv, XZ) /\
    dec_graph D isx = Some g /\ forall e, e ∈ pick isx XZ -> e ∈ pg_nodes (lg_g g).
Proof.
  intros Hv H1 HD HN. destruct (decoder_inv isx dh dw T D HD) as (_ & _ & g & Hg & Eg).
  destruct (parse_key dh dw cs names last isx ty Hv H1) as (XZ & E & _ & Hev).
  exists (Z.b2z (cs (last, 0))), XZ, g. split; [done|]. split; [done|]. intros e He. apply Hev in He.
  destruct (changes_node isx dh dw T g _ e Hv Eg He) as (Hn & _ & Ht & _). apply Hn. unfold recorded in Ht. rewrite fmap_length in Ht. lia.
Qed.
Print Assumptions C22_events_are_nodes.
Theorem C22_decodes isx dh dw T D rx ep cs names last : valid_size dh dw -> 1 < dh * dw ->
  decoder_for isx dh dw T D -> rx_ok rx -> Z.of_nat (length names) <= T + 1 ->
  exists b, correct_readout rx D ep (counts_key cs (((., dh * dw - 1) <$> names) ++ [(last, 1)])) isx = Ok (Z.b2z b).
Proof.
  intros Hv H1 HD Hrx HN. destruct (decoder_inv isx dh dw T D HD) as (Hh & Hw & g & Hg & Eg).
  unfold correct_readout. rewrite Hh, Hw.
  destruct (parse_key dh dw cs names last isx (Some (type_string isx)) Hv H1) as ((X & Z') & -> & Hnd & Hev).
  change (if isx then X else Z') with (pick isx (X, Z')).
  destruct (pick isx (X, Z')) as [|e l] eqn:El; [by exists (cs (last, 0))|]. rewrite <- El in *.
  assert (He : changes (recorded cs names) (nsyn isx dh dw) (syn_off isx dh dw) (coordk isx dw) e) by (apply Hev; rewrite El; left).
  destruct (changes_node isx dh dw T g _ e Hv Eg He) as (_ & Ht0 & Ht & Hext). unfold recorded in Ht. rewrite fmap_length in Ht.
  apply (decode_total isx dh dw T g Hv Hext ltac:(lia) Eg rx Hrx D (conj Hh (conj Hw Hg))).
  split; [done|]. intros n Hn. apply Hev in Hn. destruct (changes_node isx dh dw T g _ n Hv Eg Hn) as (Hn1 & Hn2 & Hn3 & _).
  unfold recorded in Hn3. rewrite fmap_length in Hn3. split; [|done]. apply Hn1. lia.
Qed.
Print Assumptions C22_decodes.

(** An event outside the graph makes the decoder raise KeyError. *)
Lemma pairs_fail {W} (weigh : node -> node -> unit -> res (W * unit)) (zero : W) vt (ps : list (node * node)) : forall gr c, lg_ok gr ->
  (forall p, p ∈ ps -> has_node gr p.1 /\ has_node gr p.2) ->
  (forall p c, p ∈ ps -> ~ (p.1 ∈ vt /\ p.2 ∈ vt) -> (exists w, weigh p.1 p.2 c = Ok w) \/ weigh p.1 p.2 c = Err KeyError) ->
  (exists p, p ∈ ps /\ ~ (p.1 ∈ vt /\ p.2 ∈ vt) /\ forall c, weigh p.1 p.2 c = Err KeyError) ->
  rfold (add_pair zero weigh vt) (gr, c) ps = Err KeyError.
Proof.
  induction ps as [|q ps IH]; intros gr c Hok Hn Hw (p & Hp & Hpv & Hpe); [by apply elem_of_nil in Hp|].
  cbn [rfold]. unfold add_pair at 1. cbn [fst snd].
  destruct (Hn q ltac:(left)) as [Hq1 Hq2].
  assert (Hgo : forall w c', p ∈ ps -> match lg_add_edge q.1 q.2 w gr with Ok g => rfold (add_pair zero weigh vt) (g, c') ps | Err e => Err e end = Err KeyError).
  { intros w c' Hin. destruct (lg_add_edge_ok gr q.1 q.2 w Hok Hq1 Hq2) as (g' & -> & Hok' & Hn' & _).
    apply IH; [done| |by intros; apply Hw; [right|]|by exists p].
    intros p' Hp'. unfold has_node. rewrite Hn'. apply Hn. by right. }
  destruct (bool_decide (q.1 ∈ vt) && bool_decide (q.2 ∈ vt)) eqn:Eb.
  - assert (Hpin : p ∈ ps).
    { apply elem_of_cons in Hp as [-> |?]; [|done]. apply andb_true_iff in Eb as [E1 E2]. apply bool_decide_eq_true in E1, E2. tauto. }
    specialize (Hgo zero c Hpin). destruct (lg_add_edge _ _ _ _); done.
  - assert (Hqv : ~ (q.1 ∈ vt /\ q.2 ∈ vt)).
    { intros [E1 E2]. by rewrite !bool_decide_eq_true_2 in Eb. }
    destruct (Hw q c ltac:(left) Hqv) as [[[w c'] E]|E]; rewrite E; [|done].
    assert (Hpin : p ∈ ps).
    { apply elem_of_cons in Hp as [-> |?]; [|done]. by rewrite Hpe in E. }
    specialize (Hgo w c' Hpin). destruct (lg_add_edge _ _ _ _); done.
Qed.
Lemma late_fails isx dh dw T D rx ep R lv ev t y x : valid_size dh dw ->
  decoder_for isx dh dw T D -> rx_ok rx -> changes R (nsyn isx dh dw) (syn_off isx dh dw) (coordk isx dw) (t, y, x) -> (t, y, x) ∈ ev -> T <= t ->
  (correct_events rx D ep isx lv ev).2 = Err KeyError.
Proof.
  intros Hv HD Hrx Hch Hin Ht. destruct (decoder_inv isx dh dw T D HD) as (Hh & Hw & g & Hg & Eg).
  destruct (changes_node isx dh dw T g _ _ Hv Eg Hch) as (Hn & Ht0 & _ & Hext).
  assert (Hnn : ~ has_node g (t, y, x)) by (rewrite Hn; unfold n_time; cbn; lia).
  destruct (syndrome_graph_ok isx dh dw Hv T) as (g' & E & Hok & Hu & Hg'). rewrite Eg in E. injection E as <-.
  destruct (Hg' Hext) as [Hnodes _].
  unfold correct_events, corrections. destruct ev as [|e0 ev0]; [by apply elem_of_nil in Hin|]. set (ev := e0 :: ev0) in *.
  cbn [snd]. rewrite Hg, Hh, Hw. fold (virt isx dh dw). unfold make_error_graph. cbn [snd].
  destruct (ensure_all (weigh_plain rx g) (fun _ _ => 0) (ev ++ virt isx dh dw) (@lg_empty Z) lg_empty_ok) as (G1 & G2 & _ & _).
  assert (G2' : forall n, n ∈ ev ++ virt isx dh dw -> has_node (foldl (fun g n => lg_ensure n g) (@lg_empty Z) (ev ++ virt isx dh dw)) n).
  { intros n Hin'. apply G2. by right. }
  assert (Hfail : forall m c, weigh_plain rx g (t, y, x) m c = Err KeyError).
  { intros m c. unfold weigh_plain, graph_dist. by rewrite (no_node_map g _ Hok Hnn). }
  assert (Hfail' : forall m c, weigh_plain rx g m (t, y, x) c = Err KeyError).
  { intros m c. unfold weigh_plain, graph_dist. destruct (lg_map g !! m); [|done]. by rewrite (no_node_map g _ Hok Hnn). }
  rewrite pairs_fail; [done|done|..].
  - intros [a b] [Ha Hb]%elem_combinations. split; by apply G2'.
  - intros [a b] c _ _. cbn [fst snd]. destruct (decide (a ∈ pg_nodes (lg_g g))) as [Ha|Ha].
    + destruct (decide (b ∈ pg_nodes (lg_g g))) as [Hb|Hb].
      * left. assert (HT1 : 1 <= T) by (apply Hnodes in Ha; lia).
        unfold weigh_plain. destruct (dz_spec g Hok Hu rx Hrx (sg_conn isx dh dw T g Hv Hext HT1 Eg) a b Ha Hb) as (-> & _). by eexists.
      * right. unfold weigh_plain, graph_dist. destruct (lg_map g !! a); [|done]. by rewrite (no_node_map g _ Hok Hb).
    + right. unfold weigh_plain, graph_dist. by rewrite (no_node_map g _ Hok Ha).
  - destruct (virt_nonempty isx dh dw T g Hv Hext Eg) as (v0 & vs & Evirt).
    assert (Hv0 : v0 ∈ virt isx dh dw) by (rewrite Evirt; left).
    assert (Hv0t : n_time v0 = -1) by (unfold virt in Hv0; by apply elem_virtual in Hv0 as (? & _)).
    assert (Hne : (t, y, x) <> v0) by (intros <-; unfold n_time in *; cbn in *; lia).
    assert (Hnv : (t, y, x) ∉ virt isx dh dw).
    { intros Hx. unfold virt in Hx. apply elem_virtual in Hx as (Hx & _); [|done]. unfold n_time in Hx, Ht0. cbn in Hx, Ht0. lia. }
    destruct (combinations_distinct (ev ++ virt isx dh dw) (t, y, x) v0 Hne) as [Hc|Hc].
    + apply elem_of_app. by left.
    + apply elem_of_app. by right.
    + eexists. split; [exact Hc|]. cbn [fst snd]. split; [tauto|done].
    + eexists. split; [exact Hc|]. cbn [fst snd]. split; [tauto|done].
Qed.
Theorem C22_late_event isx dh dw T D rx ep cs names last : valid_size dh dw -> 1 < dh * dw ->
  decoder_for isx dh dw T D -> rx_ok rx ->
  (exists t y x, T <= t /\ changes (recorded cs names) (nsyn isx dh dw) (syn_off isx dh dw) (coordk isx dw) (t, y, x)) ->
  correct_readout rx D ep (counts_key cs (((., dh * dw - 1) <$> names) ++ [(last, 1)])) isx = Err KeyError.
Proof.
  intros Hv H1 HD Hrx (t & y & x & Ht & Hch). destruct (decoder_inv isx dh dw T D HD) as (Hh & Hw & _).
  unfold correct_readout. rewrite Hh, Hw.
  destruct (parse_key dh dw cs names last isx (Some (type_string isx)) Hv H1) as ((X & Z') & -> & Hnd & Hev).
  change (if isx then X else Z') with (pick isx (X, Z')). eapply late_fails; [done|done|done|exact Hch|by apply Hev|done].
Qed.
Print Assumptions C22_late_event.
(** The same when all data qubits are read out. *)
Theorem C22_late_event_lattice_z dh dw T D rx ep cs names nm last : valid_size dh dw -> 1 < dh * dw ->
  decoder_for false dh dw T D -> rx_ok rx ->
  (exists t y x, T <= t /\ changes (recorded cs (names ++ [nm]) ++ [final_round dh dw (fun j => cs (last, j)) (fun i => cs (nm, i))]) (num_syn_z dh dw) 0 (coord_z dw) (t, y, x)) ->
  correct_readout rx D ep (counts_key cs (((., dh * dw - 1) <$> names ++ [nm]) ++ [(last, dh * dw)])) false = Err KeyError.
Proof.
  intros Hv H1 HD Hrx (t & y & x & Ht & Hch). destruct (decoder_inv false dh dw T D HD) as (Hh & Hw & _).
  unfold correct_readout. rewrite Hh, Hw.
  destruct (C14_lattice_z dh dw cs names nm last Hv H1) as (X & Z' & E & _ & Hnd & _ & Hev). cbn [type_string]. rewrite E.
  eapply (late_fails false); [done|done|done|exact Hch|by apply Hev|done].
Qed.
Print Assumptions C22_late_event_lattice_z.

(** * C25 *)
Definition perfect (n : nat) (es : gmap (nat * nat) Z) (M : list (nat * nat)) : Prop :=
  matching es M /\ pends M ≡ₚ seq 0 n.
Theorem C25_perfect_matching isx dh dw T g rx ep ev : valid_size dh dw -> 3 <= extent isx dh dw -> 1 <= T ->
  make_syndrome_graph isx dh dw T = Ok g -> rx_ok rx ->
  NoDup ev -> (forall n, n ∈ ev -> n ∈ pg_nodes (lg_g g) /\ 0 <= n_time n) ->
  exists nodes eg, make_error_graph 0 (weigh_plain rx g) (virtual_nodes isx dh dw) ev tt = (nodes, Ok eg) /\
    let n := length (pg_nodes (lg_g eg)) in let es := plain_wfn ep <$> pg_edges (lg_g eg) in
    (exists M, perfect n es M) /\ perfect n es (rx_match rx n es).
Proof.
  intros Hv Hext HT Hg Hrx Hnd Hev.
  destruct (error_graph_spec rx Hrx isx dh dw T g Hv Hext HT Hg ev (conj Hnd Hev)) as (eg & E & Heg & Hnodes & Hwt & _).
  destruct (perfect_exists rx Hrx isx dh dw T g Hv Hext HT Hg ev eg (conj Hnd Hev) E) as (Mp & HMp & HMe).
  exists (ev ++ virt isx dh dw), eg. split; [done|]. intros n es. unfold es. rewrite wfn_scale.
  destruct (lmatching_index eg Heg (scale ep) _ Hwt Mp HMp) as (Mi & HMi & HLi & _).
  set (es' := (fun w => w * scale ep) <$> pg_edges (lg_g eg)) in *.
  assert (Hr : forall i j w, es' !! (i, j) = Some w -> (i <= j /\ j < n)%nat).
  { intros i j w. unfold es'. rewrite lookup_fmap. intros (w' & Hw & _)%fmap_Some. by apply (ok_edges eg Heg) in Hw. }
  assert (Hperf : forall M, matching es' M -> (n <= length (pends M))%nat -> perfect n es' M).
  { intros M HM HL. split; [done|]. apply submseteq_Permutation_length_le; [by rewrite seq_length|].
    apply NoDup_submseteq; [apply HM|]. intros i (p & Hp & Hi)%elem_of_pends. apply elem_of_seq.
    destruct (proj2 HM p Hp) as [w Hw]. unfold ekey in Hw. apply Hr in Hw. destruct Hi as [-> | ->]; lia. }
  assert (HLn : (2 * length Mp)%nat = n) by (rewrite <- pends_length, HMe; done).
  split.
  - exists Mi. apply Hperf; [done|]. rewrite pends_length. lia.
  - destruct (rx_match_ok rx Hrx n es' Hr) as [Hm Hopt]. apply Hperf; [done|]. destruct (Hopt Mi HMi) as [Hcard _].
    rewrite pends_length. lia.
Qed.
Print Assumptions C25_perfect_matching.

(** * C32 *)
Lemma mweight_scale es M s : mweight ((fun w => w * s) <$> es) M = mweight es M * s.
Proof.
  unfold mweight. induction M as [|p M IH]; [done|]. cbn [fmap list_fmap foldr]. change (list_fmap _ _ ?f ?l) with (f <$> l) in *.
  rewrite IH, lookup_fmap. destruct (es !! ekey p.1 p.2); cbn; lia.
Qed.
(** The matcher is handed problems with exactly the same optimal matchings. *)
Theorem C32_same_matchings (es : gmap (nat * nat) Z) M :
  max_matching (plain_wfn EPZero <$> es) M <-> max_matching (plain_wfn EPNone <$> es) M.
Proof.
  assert (Hm : forall M', matching (plain_wfn EPZero <$> es) M' <-> matching (plain_wfn EPNone <$> es) M').
  { intros M'. unfold matching. assert (Hi : forall k, is_Some ((plain_wfn EPZero <$> es) !! k) <-> is_Some ((plain_wfn EPNone <$> es) !! k)).
    { intros k. rewrite !lookup_fmap, !fmap_is_Some. done. }
    split; intros [H1 H2]; (split; [done|]); intros p Hp; apply Hi; by apply H2. }
  unfold max_matching. rewrite Hm.
  assert (HW : forall M', mweight (plain_wfn EPZero <$> es) M' = mweight (plain_wfn EPNone <$> es) M' * 10000).
  { intros M'. rewrite !wfn_scale, !mweight_scale. cbn. lia. }
  split; intros [H1 H2]; (split; [done|]); intros M' HM'; apply Hm in HM' || apply (proj2 (Hm M')) in HM';
    destruct (H2 M' ltac:(first [exact HM' | by apply Hm])) as [G1 G2]; (split; [done|]); intros EL; specialize (G2 EL); rewrite !HW in *; lia.
Qed.
Print Assumptions C32_same_matchings.

(** * C28 *)
(** [correct_readout] extends the list of events it is given with the virtual nodes.  The k-th
    repetition of the call therefore starts from [ev] followed by k copies of them; it has the
    same nodes with the same indices and the same optimal matchings as the first. *)
Theorem C28_repeated_decoding isx dh dw T D rx ep lv ev k : valid_size dh dw -> 3 <= extent isx dh dw -> 1 <= T ->
  decoder_for isx dh dw T D -> rx_ok rx ->
  forall g, dec_graph D isx = Some g ->
  ev <> [] -> NoDup ev -> (forall n, n ∈ ev -> n ∈ pg_nodes (lg_g g) /\ 0 <= n_time n) ->
  let nth := fun k => ev ++ mjoin (replicate k (virtual_nodes isx dh dw)) in
  (correct_events rx D ep isx lv (nth k)).1 = nth (S k) /\
  exists eg0 egk, make_error_graph 0 (weigh_plain rx g) (virtual_nodes isx dh dw) ev tt = (nth 1%nat, Ok eg0) /\
    make_error_graph 0 (weigh_plain rx g) (virtual_nodes isx dh dw) (nth k) tt = (nth (S k), Ok egk) /\
    pg_nodes (lg_g egk) = pg_nodes (lg_g eg0) /\
    forall M, max_matching (plain_wfn ep <$> pg_edges (lg_g egk)) M <-> max_matching (plain_wfn ep <$> pg_edges (lg_g eg0)) M.
Proof.
  intros Hv Hext HT HD Hrx g Hg Hne Hnd Hev nth. destruct (decoder_inv isx dh dw T D HD) as (Hh & Hw & g' & Hg' & Eg).
  rewrite Hg in Hg'. injection Hg' as <-.
  destruct (error_graph_rep rx Hrx isx dh dw T g Hv Hext HT Eg 0 ev (conj Hnd Hev)) as (eg0 & E0 & Hok0 & Hn0 & He0).
  destruct (error_graph_rep rx Hrx isx dh dw T g Hv Hext HT Eg k ev (conj Hnd Hev)) as (egk & Ek & Hokk & Hnk & Hek).
  change (vtimes isx dh dw 0) with (@nil node) in E0. rewrite app_nil_r in E0.
  change (ev ++ vtimes isx dh dw 1) with (nth 1%nat) in E0.
  change (ev ++ vtimes isx dh dw k) with (nth k) in Ek. change (ev ++ vtimes isx dh dw (S k)) with (nth (S k)) in Ek.
  change (virt isx dh dw) with (virtual_nodes isx dh dw) in E0, Ek.
  split.
  - unfold correct_events, corrections. rewrite Hg, Hh, Hw. cbn [fst]. destruct (nth k) as [|e l] eqn:El.
    + unfold nth in El. by apply app_eq_nil in El as [? _].
    + by rewrite Ek.
  - exists eg0, egk. split; [done|]. split; [done|]. split; [by rewrite Hnk, Hn0|].
    assert (Hlook : forall i j, i <> j -> (plain_wfn ep <$> pg_edges (lg_g egk)) !! ekey i j = (plain_wfn ep <$> pg_edges (lg_g eg0)) !! ekey i j).
    { intros i j Hij. rewrite !lookup_fmap. f_equal.
      assert (Hsame : forall i j w, i <> j -> pg_edges (lg_g egk) !! ekey i j = Some w <-> pg_edges (lg_g eg0) !! ekey i j = Some w).
      { intros i' j' w Hij'.
        assert (Hgo : forall e1 e2 : lgraph Z, lg_ok e1 -> pg_nodes (lg_g e1) = pg_nodes (lg_g e2) ->
          (forall a b w, a <> b -> edge_w e1 a b w -> edge_w e2 a b w) ->
          lg_ok e2 -> pg_edges (lg_g e1) !! ekey i' j' = Some w -> pg_edges (lg_g e2) !! ekey i' j' = Some w).
        { intros e1 e2 Ho1 Hnn Hee Ho2 Hw1. unfold ekey in Hw1. destruct (ok_edges e1 Ho1 _ _ _ Hw1) as [_ Hlt].
          destruct (lookup_lt_is_Some_2 (pg_nodes (lg_g e1)) i') as [a Ha]; [lia|].
          destruct (lookup_lt_is_Some_2 (pg_nodes (lg_g e1)) j') as [b Hb]; [lia|].
          assert (Hab : a <> b) by (intros <-; apply Hij'; eapply (NoDup_lookup _ _ _ a (ok_nodup e1 Ho1)); done).
          destruct (Hee a b w Hab) as (i2 & j2 & Hi2 & Hj2 & Hw2); [by exists i', j'|].
          rewrite Hnn in Ha, Hb.
          assert (i2 = i') as -> by (eapply (NoDup_lookup _ _ _ a (ok_nodup e2 Ho2)); done).
          assert (j2 = j') as -> by (eapply (NoDup_lookup _ _ _ b (ok_nodup e2 Ho2)); done). done. }
        split; apply Hgo; try done; try (by rewrite Hnk, Hn0); intros a b w' Hab.
        - rewrite He0, Hek by done. tauto.
        - rewrite He0, Hek by done. tauto. }
      destruct (pg_edges (lg_g egk) !! ekey i j) as [w|] eqn:E1.
      - symmetry. by apply Hsame.
      - destruct (pg_edges (lg_g eg0) !! ekey i j) as [w|] eqn:E2; [|done]. apply Hsame in E2; [|done]. congruence. }
    clear -Hlook. set (e1 := plain_wfn ep <$> pg_edges (lg_g egk)) in *. set (e2 := plain_wfn ep <$> pg_edges (lg_g eg0)) in *. clearbody e1 e2.
    assert (Hm : forall M, matching e1 M <-> matching e2 M).
    { intros M. unfold matching. split; intros [H1 H2]; (split; [done|]); intros p Hp; specialize (H2 p Hp);
        pose proof (NoDup_pairs M p H1 Hp); [by rewrite <- Hlook|by rewrite Hlook]. }
    assert (Hw : forall M, NoDup (pends M) -> mweight e1 M = mweight e2 M).
    { intros M HM. unfold mweight. f_equal. apply list_fmap_ext. intros i p Hp. apply elem_of_list_lookup_2 in Hp. cbn.
      rewrite Hlook; [done|]. by eapply NoDup_pairs. }
    intros M. unfold max_matching. rewrite Hm. split; intros [H1 H2]; (split; [done|]); intros M' HM'.
    + destruct (H2 M' ltac:(by apply Hm)) as [G1 G2]. split; [done|]. rewrite <- !Hw; [done|apply H1|apply HM'].
    + destruct (H2 M' ltac:(by apply Hm)) as [G1 G2]. split; [done|]. rewrite !Hw; [done|apply H1|apply HM'].
Qed.
Print Assumptions C28_repeated_decoding.

(** * A run of the decoder with the exhaustive matcher of RxRef.v *)
(** 3x3 lattice, T = 2, three rounds.  Data qubit 4 (centre) is flipped after round 0: Z
    stabilizers 0 and 3 (bits 0 and 3) change in rounds 1 and 2.  The bit read is 1. *)
Definition ex_bits : clbit -> bool := fun b =>
  bool_decide (b ∈ [("a1", 0); ("a1", 3); ("a2", 0); ("a2", 3); ("r", 0)]%string).
Definition ex_dec : decoder := match rotated_decoder (Some (DTup [3; 3])) (Some 2) with Ok D => D | Err _ => Dec 0 0 0 None None end.
Example C26_ex : let names := ["a0"; "a1"; "a2"]%string in
  decoder_for false 3 3 2 ex_dec /\ rx_ok rx_ref /\
  faults_within false 3 3 (Z.of_nat (length names)) [(0, 4)] [] /\
  reported false XZZX 3 3 (fun _ => false) [(0, 4)] [] (recorded ex_bits names) /\
  ex_bits ("r"%string, 0) = xorb true (logical_flip false XZZX 3 3 [(0, 4)]) /\
  counts_key ex_bits (((., 8) <$> names) ++ [("r"%string, 1)]) = "1 00001001 00001001 00000000"%string /\
  correct_readout rx_ref ex_dec EPNone "1 00001001 00001001 00000000" false = Ok 1.
Proof.
  intros names. split; [split; [reflexivity|split; [reflexivity|left; exists (Some (DTup [3; 3])); vm_compute; reflexivity]]|]. split; [apply rx_ref_ok|]. split.
  { split; [|intros m Hm; by apply elem_of_nil in Hm]. intros f Hf. apply elem_of_list_singleton in Hf as ->. cbn. lia. }
  split.
  { intros s r loc Hs Hl. change (nsyn false 3 3) with 4 in Hl.
    assert (loc = 0 \/ loc = 1 \/ loc = 2 \/ loc = 3) as Hloc by lia.
    destruct s as [|[|[|s]]]; [injection Hs as <-..|done]; destruct Hloc as [-> | [-> | [-> | ->]]]; vm_compute; reflexivity. }
  split; [vm_compute; reflexivity|]. split; vm_compute; reflexivity.
Qed.
(** A decoder built for too few rounds: the events of the example are at time 0, so T = 1 is
    enough; with a second error after round 1 it is not. *)
Definition ex_dec1 : decoder := match rotated_decoder (Some (DTup [3; 3])) (Some 1) with Ok D => D | Err _ => Dec 0 0 0 None None end.
Example C22_ex : correct_readout rx_ref ex_dec1 EPZero "1 00001001 00001001 00000000" false = Ok 1 /\
  correct_readout rx_ref ex_dec1 EPZero "1 00000001 00001001 00000000" false = Err KeyError /\
  (exists b, correct_readout rx_ref ex_dec EPZero "1 00000001 00001001 00000000" false = Ok b).
Proof. split; [vm_compute; reflexivity|]. split; [vm_compute; reflexivity|]. eexists. vm_compute. reflexivity. Qed.
(** Decoding one list three times: the list grows by the four virtual nodes each time. *)
Example C28_ex : let ev := [(0, 1, 1); (0, 3, 3); (1, 1, 1)] in
  let r1 := correct_events rx_ref ex_dec EPNone false 0 ev in
  let r2 := correct_events rx_ref ex_dec EPNone false 0 r1.1 in
  length r1.1 = 7%nat /\ length r2.1 = 11%nat /\ r1.2 = r2.2.
Proof. vm_compute. split; [|split]; reflexivity. Qed.
