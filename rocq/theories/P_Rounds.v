(** Property C67: decoding without an error probability does not depend on the number of rounds
    the decoder was made for. *)
From Verif Require Import FaultFacts Parse P_Parse SpecInt P_ParseAny P_Decode RxRef.
From stdpp Require Export list.
Open Scope Z_scope.

Section rounds.
Context (isx : bool) (dh dw : Z).
Hypothesis Hv : valid_size dh dw.
Hypothesis Hext : 3 <= extent isx dh dw.
(** Nodes after round [m - 1] moved back to that round. *)
Definition clamp (m : Z) (n : node) : node := (Z.min (n_time n) (m - 1), n_row n, n_col n).
Lemma clamp_place m t p : 0 < m -> clamp m (place isx dh dw t p) = place isx dh dw (Z.min t (m - 1)) p.
Proof. intros Hm. unfold clamp, place, n_time, n_row, n_col. cbn [fst snd]. destruct (decide _); [done|]. do 2 f_equal. lia. Qed.
Lemma clamp_id m n : n_time n < m -> clamp m n = n.
Proof. destruct n as [[t y] x]. unfold clamp, n_time, n_row, n_col. cbn [fst snd]. intros H. do 2 f_equal. lia. Qed.
Lemma clamp_node T m n : 0 < m <= T -> sg_node isx dh dw T n -> sg_node isx dh dw m (clamp m n).
Proof.
  intros Hm [Hc H]. unfold sg_node, clamp, n_time, n_row, n_col. cbn [fst snd]. split; [done|]. destruct (decide _); lia.
Qed.
Lemma clamp_edge T m a b : 0 < m <= T -> sg_edge isx dh dw T a b -> clamp m a = clamp m b \/ sg_edge isx dh dw m (clamp m a) (clamp m b).
Proof.
  intros Hm [(t & p & q & Ht & Hp & Hq & Ha & -> & ->) | (t & p & Ht & Hp & Hi & H)].
  - right. left. exists (Z.min t (m - 1)), p, q. rewrite !clamp_place by lia. split; [lia|done].
  - assert (E : forall s, clamp m (s, p.1, p.2) = (Z.min s (m - 1), p.1, p.2)) by done.
    destruct (decide (t < m - 1)).
    + right. right. exists t, p. split; [lia|]. split; [done|]. split; [done|].
      destruct H as [[-> ->]|[-> ->]]; [left|right]; rewrite !E; split; do 2 f_equal; lia.
    + left. destruct H as [[-> ->]|[-> ->]]; rewrite !E; do 2 f_equal; lia.
Qed.
Lemma sg_node_mono m T n : m <= T -> sg_node isx dh dw m n -> sg_node isx dh dw T n.
Proof. intros Hm [Hc H]. split; [done|]. destruct (decide _); lia. Qed.
Lemma sg_edge_mono m T a b : m <= T -> sg_edge isx dh dw m a b -> sg_edge isx dh dw T a b.
Proof.
  intros Hm [(t & p & q & Ht & H) | (t & p & Ht & H)]; [left; exists t, p, q|right; exists t, p]; (split; [lia|done]).
Qed.
Lemma sg_node_low m T n : n_time n < m -> sg_node isx dh dw T n -> sg_node isx dh dw m n.
Proof. destruct n as [[t y] x]. unfold n_time. cbn [fst]. intros Hn [Hc H]. split; [done|]. cbn [fst snd] in *. destruct (decide _); lia. Qed.

Context (m T : Z) (g g' : lgraph Z) (rx : retworkx).
Hypothesis Hm : 1 <= m <= T.
Hypothesis Hg : make_syndrome_graph isx dh dw m = Ok g.
Hypothesis Hg' : make_syndrome_graph isx dh dw T = Ok g'.
Hypothesis Hrx : rx_ok rx.
Let HT : 1 <= T. Proof. lia. Qed.
Let Hm1 : 1 <= m. Proof. lia. Qed.
Lemma lpath_up a b P : lpath g a b P -> lpath g' a b P.
Proof.
  destruct (sg_facts isx dh dw m g Hv Hext Hm1 Hg) as (_ & _ & Hn & He). destruct (sg_facts isx dh dw T g' Hv Hext HT Hg') as (_ & _ & Hn' & He').
  induction 1 as [a Ha|a b c P Hab _ IHP]; constructor; [|by apply He', (sg_edge_mono m), He; [lia|]|done].
  apply Hn', (sg_node_mono m), Hn; [lia|done].
Qed.
Lemma lpath_down a b P : lpath g' a b P -> exists Q, lpath g (clamp m a) (clamp m b) Q /\ (length Q <= length P)%nat.
Proof.
  destruct (sg_facts isx dh dw m g Hv Hext Hm1 Hg) as (_ & _ & Hn & He). destruct (sg_facts isx dh dw T g' Hv Hext HT Hg') as (_ & _ & Hn' & He').
  induction 1 as [a Ha|a b c P Hab _ (Q & HQ & HL)].
  - exists []. split; [|done]. constructor. apply Hn, (clamp_node T); [lia|by apply Hn'].
  - apply He' in Hab. destruct (clamp_edge T m a b ltac:(lia) Hab) as [-> |Hab'].
    + exists Q. split; [done|]. cbn. lia.
    + exists ((clamp m a, clamp m b) :: Q). split; [constructor; [by apply He|done]|cbn; lia].
Qed.
Lemma graph_dist_rounds a b : n_time a < m -> n_time b < m -> graph_dist rx g a b = graph_dist rx g' a b.
Proof.
  intros Ha Hb. destruct (sg_facts isx dh dw m g Hv Hext Hm1 Hg) as (Hok & Hu & Hn & He). destruct (sg_facts isx dh dw T g' Hv Hext HT Hg') as (Hok' & Hu' & Hn' & He').
  assert (Hiff : forall n, n_time n < m -> has_node g n <-> has_node g' n).
  { intros n Hnt. rewrite Hn, Hn'. split; [apply sg_node_mono; lia|by apply sg_node_low]. }
  assert (Hnone : forall n, n_time n < m -> ~ has_node g n -> lg_map g !! n = None /\ lg_map g' !! n = None).
  { intros n Hnt Hnn. split; [destruct (lg_map g !! n) as [i|] eqn:E|destruct (lg_map g' !! n) as [i|] eqn:E]; try done; exfalso; apply Hnn.
    - apply (ok_map g Hok) in E. by eapply elem_of_list_lookup_2.
    - apply Hiff; [done|]. apply (ok_map g' Hok') in E. by eapply elem_of_list_lookup_2. }
  destruct (decide (a ∈ pg_nodes (lg_g g))) as [Hna|Hna]; cycle 1.
  { destruct (Hnone a Ha Hna) as [E1 E2]. unfold graph_dist. by rewrite E1, E2. }
  destruct (decide (b ∈ pg_nodes (lg_g g))) as [Hnb|Hnb]; cycle 1.
  { destruct (Hnone b Hb Hnb) as [E1 E2]. unfold graph_dist. rewrite E1, E2. by repeat case_match. }
  pose proof (sg_conn isx dh dw m g Hv Hext Hm1 Hg) as Hc. pose proof (sg_conn isx dh dw T g' Hv Hext HT Hg') as Hc'.
  destruct (dz_spec g Hok Hu rx Hrx Hc a b Hna Hnb) as (-> & (P & HP & EP) & Hmin).
  destruct (dz_spec g' Hok' Hu' rx Hrx Hc' a b) as (-> & (P' & HP' & EP') & Hmin'); [by apply Hiff..|].
  f_equal. apply lpath_up, Hmin' in HP. apply lpath_down in HP' as (Q & HQ & HL). rewrite !clamp_id in HQ by done. apply Hmin in HQ. lia.
Qed.
End rounds.

(** Building the graph of events only weighs pairs of events and boundary nodes. *)
Lemma rfold_ext {A B} (f f' : A -> B -> res A) l : (forall s x, x ∈ l -> f s x = f' s x) -> forall s, rfold f s l = rfold f' s l.
Proof.
  induction l as [|x l IHl]; intros H s; [done|]. cbn [rfold]. rewrite H by left. destruct (f' s x); [|done]. apply IHl. intros; apply H; by right.
Qed.
Lemma error_graph_ext {W C} (zero : W) (w w' : node -> node -> C -> res (W * C)) virt ev c :
  (forall a b c, a ∈ ev ++ virt -> b ∈ ev ++ virt -> w a b c = w' a b c) -> make_error_graph zero w virt ev c = make_error_graph zero w' virt ev c.
Proof.
  intros H. unfold make_error_graph. cbv zeta. f_equal. rewrite (rfold_ext (add_pair zero w virt) (add_pair zero w' virt)); [done|].
  intros s [a b] Hab. apply elem_combinations in Hab as [Ha Hb]. unfold add_pair. cbn [fst snd]. by rewrite H.
Qed.

(** * C67 *)
(** Two decoders for one lattice that were made for different numbers of rounds agree on every
    list of events that lie in rounds of both: on the value returned, on the exception raised and
    on what the caller's list is afterwards. *)
Theorem C67_events isx dh dw T T' D D' rx ep lv ev : valid_size dh dw -> 3 <= extent isx dh dw -> 1 <= T -> 1 <= T' ->
  decoder_for isx dh dw T D -> decoder_for isx dh dw T' D' -> rx_ok rx -> (forall n, n ∈ ev -> n_time n < T /\ n_time n < T') ->
  correct_events rx D ep isx lv ev = correct_events rx D' ep isx lv ev.
Proof.
  intros Hv Hext HT HT' HD HD' Hrx Hev.
  assert (Hgen : forall T T' D D', 1 <= T <= T' -> decoder_for isx dh dw T D -> decoder_for isx dh dw T' D' -> (forall n, n ∈ ev -> n_time n < T) ->
    correct_events rx D ep isx lv ev = correct_events rx D' ep isx lv ev).
  { clear T T' D D' HT HT' HD HD' Hev. intros T T' D D' HT HD HD' Hev.
    destruct (decoder_inv isx dh dw T D HD) as (Hh & Hw & g & Hg & Eg). destruct (decoder_inv isx dh dw T' D' HD') as (Hh' & Hw' & g' & Hg' & Eg').
    unfold correct_events. assert (corrections rx D ep isx ev = corrections rx D' ep isx ev) as ->; [|done].
    unfold corrections. destruct ev as [|e ev0] eqn:Eev; [done|]. rewrite <-Eev in *. rewrite Hg, Hg', Hh, Hh', Hw, Hw'.
    rewrite (error_graph_ext 0 (weigh_plain rx g) (weigh_plain rx g')); [done|].
    assert (Ht : forall n, n ∈ ev ++ virtual_nodes isx dh dw -> n_time n < T).
    { intros n [Hn|Hn]%elem_of_app; [by apply Hev|]. apply elem_virtual in Hn as [-> _]; [lia|done]. }
    intros a b c Ha Hb. unfold weigh_plain. by rewrite (graph_dist_rounds isx dh dw Hv Hext T T' g g' rx) by auto. }
  destruct (decide (T <= T')) as [Hle|Hle].
  - apply (Hgen T T'); try done. intros n Hn. by apply Hev.
  - symmetry. apply (Hgen T' T); try done; [lia|]. intros n Hn. by apply Hev.
Qed.
Print Assumptions C67_events.

(** The events of a readout lie in rounds before its number of blanks. *)
Lemma rmap_length {A B} (f : A -> res B) l l' : rmap f l = Ok l' -> length l' = length l.
Proof. intros H. revert l' H. induction l as [|x l IHl]; intros l' H; cbn in H; [by injection H as <-|]. repeat case_match; try done. injection H as <-. cbn. f_equal. auto. Qed.
Lemma tail_len {A} (l : list A) : length (tail l) = (length l - 1)%nat.
Proof. destruct l; cbn; lia. Qed.
Lemma parse_times dh dw w ws ty lr X Zs isx n : is_word w -> Forall is_word ws ->
  parse_readout dh dw (spaced w ws) ty = Ok (lr, (X, Zs)) -> n ∈ (if isx : bool then X else Zs) ->
  0 <= n_time n < Z.of_nat (length ws) /\ exists loc, 0 <= loc < nsyn isx dh dw.
Proof.
  intros Hw Hws E Hn. unfold parse_readout in E. rewrite split_spaced in E by done.
  match type of E with (match ?t with _ => _ end = _) => destruct t as [[lr' chunks]|] eqn:E1; [|done] end.
  assert (Hch : (length chunks <= S (length ws))%nat).
  { repeat case_match; simplify_eq; cbn; lia. }
  destruct (rmap py_int2 (reverse chunks)) as [ints|] eqn:E2; [|done]. apply rmap_length in E2. rewrite reverse_length in E2.
  match type of E with (match ?t with _ => _ end = _) => destruct t as [xs|] eqn:E3; [|done] end. apply rmap_length in E3. rewrite zip_with_length, tail_len in E3.
  match type of E with (match ?t with _ => _ end = _) => destruct t as [zs|] eqn:E4; [|done] end.
  assert (Hz : (length zs <= length ws)%nat).
  { destruct (bool_decide (_ = EmptyString)); [injection E4 as <-; cbn; lia|]. apply rmap_length in E4. rewrite zip_with_length, tail_len in E4. lia. }
  assert (Hx : (length xs <= length ws)%nat) by lia.
  injection E as -> <- <-. destruct n as [[t y] x]. unfold n_time. cbn [fst].
  destruct isx; apply elem_of_hits in Hn as (k & syn & loc & Hk & Hl & _ & -> & _); apply lookup_lt_Some in Hk; (split; [lia|by exists loc]).
Qed.
(** So do they on every string with at most so many blanks, whether it is a readout or not. *)
Theorem C67_readouts isx dh dw T T' D D' rx ep w ws : valid_size dh dw ->
  decoder_for isx dh dw T D -> decoder_for isx dh dw T' D' -> rx_ok rx ->
  is_word w -> Forall is_word ws -> Z.of_nat (length ws) <= T -> Z.of_nat (length ws) <= T' ->
  correct_readout rx D ep (spaced w ws) isx = correct_readout rx D' ep (spaced w ws) isx.
Proof.
  intros Hv HD HD' Hrx Hw Hws HT HT'. unfold correct_readout.
  destruct (decoder_inv isx dh dw T D HD) as (-> & -> & _). destruct (decoder_inv isx dh dw T' D' HD') as (-> & -> & _).
  destruct (parse_readout dh dw (spaced w ws) (Some (type_string isx))) as [[lr [X Zs]]|e] eqn:E; [|done]. f_equal.
  pose proof (fun n => parse_times dh dw w ws _ lr X Zs isx n Hw Hws E) as Hev.
  generalize (if isx then X else Zs), Hev. clear Hev E X Zs. intros ev Hev.
  destruct ev as [|e ev]; [done|]. destruct (Hev e ltac:(left)) as [Ht [loc Hl]].
  apply (C67_events isx dh dw T T'); try done; [by eapply nsyn_extent|lia..|]. intros n Hn. destruct (Hev n Hn). lia.
Qed.
Print Assumptions C67_readouts.
(** Decoders made for 1 and 2 rounds on the run of C26_ex, and one made for 1 round on a record
    of 2 blanks too many: the condition on the number of blanks is needed. *)
Example C67_ex_plain : let s := "1 00001001 00000000"%string in
  s = spaced "1" ["00001001"; "00000000"]%string /\ decoder_for false 3 3 1 ex_dec1 /\ decoder_for false 3 3 2 ex_dec /\
  correct_readout rx_ref ex_dec1 EPNone s false = Ok 1 /\ correct_readout rx_ref ex_dec EPNone s false = Ok 1.
Proof.
  split; [reflexivity|]. split; [split; [reflexivity|split; [reflexivity|left; exists (Some (DTup [3; 3])); vm_compute; reflexivity]]|].
  split; [split; [reflexivity|split; [reflexivity|left; exists (Some (DTup [3; 3])); vm_compute; reflexivity]]|]. split; vm_compute; reflexivity.
Qed.
Example C67_ex_few : let s := "1 00000001 00001001 00000000"%string in
  correct_readout rx_ref ex_dec1 EPZero s false = Err KeyError /\ exists b, correct_readout rx_ref ex_dec EPZero s false = Ok b.
Proof. split; [vm_compute; reflexivity|]. eexists. vm_compute. reflexivity. Qed.
