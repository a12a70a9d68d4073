(** Properties C58 and C59: [correct_readout] on dictionaries of events, and the graph of
    matches of the tutorials. *)
From Coq Require Import Reals Lra.
From Verif Require Import FaultFacts Parse P_Parse RxRef DegenDecode DecoderApi P_Decode P_DegenDecode.
From stdpp Require Export list.
Open Scope Z_scope.

(** * C58 *)
(** What n corrections make of the value given: none leaves it alone, whatever it is; otherwise
    a missing value cannot be corrected, and an integer becomes the parity of itself plus n. *)
Definition corrected (n : nat) (lv : option Z) : res (option Z) :=
  match n, lv with
  | O, _ => Ok lv
  | _, None => Err TypeError
  | _, Some v => Ok (Some ((v + Z.of_nat n) mod 2))
  end.
Definition some_ok {A} (r : res A) : res (option A) := match r with Ok a => Ok (Some a) | Err e => Err e end.

Lemma key_type_string isx : key_type (type_string isx) = Some isx. Proof. by destruct isx. Qed.
Lemma key_type_Some key isx : key_type key = Some isx -> key = type_string isx.
Proof.
  unfold key_type. destruct (String.eqb_spec key "X") as [->|_]; [by intros [= <-]|].
  destruct (String.eqb_spec key "Z") as [->|_]; [by intros [= <-]|done].
Qed.
Lemma key_type_None key : key <> "X"%string -> key <> "Z"%string -> key_type key = None.
Proof. intros H1 H2. unfold key_type. rewrite (proj2 (String.eqb_neq _ _) H1), (proj2 (String.eqb_neq _ _) H2). done. Qed.

(** The number of matches that cross. *)
Definition ncross (isx : bool) (ms : list (node * node)) : nat := length (filter (fun m => is_crossing isx m = true) ms).
Lemma corrected_flip (n : nat) v : corrected (S n) (Some v) = corrected n (Some ((v + 1) mod 2)).
Proof. destruct n as [|n]; cbn; [done|]. do 2 f_equal. rewrite Zplus_mod_idemp_l. f_equal. lia. Qed.
Lemma flip_values_spec isx lv ms : flip_values (type_string isx) lv ms = corrected (ncross isx ms) lv.
Proof.
  unfold flip_values, ncross. revert lv. induction ms as [|m ms IHm]; intros lv; [done|]. cbn [rfold].
  unfold crossing_key at 1. rewrite key_type_string, filter_cons. destruct (is_crossing isx m) eqn:E.
  - destruct (decide (true = true)) as [_|[]]; [|done]. cbn [length]. destruct lv as [v|]; [|done]. by rewrite IHm, corrected_flip.
  - destruct (decide (false = true)); [done|]. by rewrite IHm.
Qed.
Lemma fold_flip isx v (ms : list (node * node)) :
  corrected (ncross isx ms) (Some v) = Ok (Some (foldl (fun v m => if is_crossing isx m then (v + 1) mod 2 else v) v ms)).
Proof.
  unfold ncross. revert v. induction ms as [|m ms IHm]; intros v; [done|]. rewrite filter_cons. cbn [foldl]. destruct (is_crossing isx m) eqn:E.
  - destruct (decide (true = true)) as [_|[]]; [|done]. cbn [length]. by rewrite corrected_flip, IHm.
  - destruct (decide (false = true)); [done|]. by rewrite IHm.
Qed.
Lemma corrections_key_type rx D ep isx ev : corrections_key rx D ep (type_string isx) ev = corrections_p rx D ep isx ev.
Proof.
  unfold corrections_key. rewrite key_type_string. destruct ev; [|done]. unfold corrections_p.
  destruct ep as [p|]; [destruct (Req_EM_T p 0)|]; done.
Qed.
Lemma correct_dict_events rx D ep d isx v ev : d !! type_string isx = Some ev ->
  (correct_dict rx D ep d (type_string isx) (Some v)).2 = some_ok (correct_events_p rx D ep isx v ev).2.
Proof.
  intros Hd. unfold correct_dict. rewrite Hd, corrections_key_type. cbn [snd]. unfold correct_events_p. cbn [snd].
  destruct (corrections_p rx D ep isx ev).2; [|done]. by rewrite flip_values_spec, fold_flip.
Qed.
Lemma corrections_p_list rx D ep isx ev :
  (corrections_p rx D ep isx ev).1 = if bool_decide (ev = []) then [] else ev ++ virtual_nodes isx (dec_h D) (dec_w D).
Proof.
  unfold corrections_p, corrections. destruct ev as [|e ev]; [by destruct ep as [p|]; [destruct (Req_EM_T p 0)|]|].
  rewrite bool_decide_eq_false_2 by done. destruct ep as [p|]; [destruct (Req_EM_T p 0)|]; by destruct (dec_graph D isx).
Qed.

(** A string is decoded as its parsed events with its parsed value: the value given and the
    argument play no part; a type other than "X" and "Z" is an exception. *)
Theorem C58_string rx D s key lv ep :
  (correct_readout_full rx D (SStr s) key lv ep).1 = SStr s /\
  (forall isx, key = type_string isx -> (correct_readout_full rx D (SStr s) key lv ep).2 = some_ok (correct_readout_p rx D ep s isx)) /\
  (key <> "X"%string -> key <> "Z"%string -> exists e, (correct_readout_full rx D (SStr s) key lv ep).2 = Err e).
Proof.
  split; [done|]. split.
  - intros isx ->. unfold correct_readout_full, correct_readout_p. cbn [snd].
    destruct (parse_readout _ _ s _) as [[v [X Z']]|]; [|done].
    rewrite (correct_dict_events rx D ep _ isx v (if isx then X else Z')); [done|].
    destruct isx; cbn [type_string]; [by rewrite lookup_insert|].
    rewrite lookup_insert_ne by done. by rewrite lookup_singleton.
  - intros H1 H2. unfold correct_readout_full. cbn [snd]. destruct (parse_readout _ _ s _) as [[v [X Z']]|e]; [|by exists e].
    unfold correct_dict. rewrite lookup_insert_ne by done. rewrite lookup_singleton_ne by done. by exists KeyError.
Qed.
Print Assumptions C58_string.

(** On a dictionary: whether the call raises in decoding, and otherwise how many corrections it
    makes, depends only on the list of events under the type asked for. *)
Theorem C58_dict_value rx D key ev ep :
  (exists e, forall d lv, d !! key = Some ev -> (correct_readout_full rx D (SDict d) key lv ep).2 = Err e) \/
  (exists n, forall d lv, d !! key = Some ev -> (correct_readout_full rx D (SDict d) key lv ep).2 = corrected n lv).
Proof.
  unfold correct_readout_full. cbn [snd]. unfold correct_dict.
  destruct (corrections_key rx D ep key ev).2 as [ms|e] eqn:E.
  - right. destruct (key_type key) as [isx|] eqn:Ek.
    + exists (ncross isx ms). intros d lv ->. cbn [snd]. rewrite E. apply key_type_Some in Ek as ->. apply flip_values_spec.
    + exists 0%nat. intros d lv ->. cbn [snd]. rewrite E. unfold corrections_key in E. rewrite Ek in E. by destruct ev; [injection E as <-|].
  - left. exists e. intros d lv ->. cbn [snd]. by rewrite E.
Qed.
Print Assumptions C58_dict_value.

(** The call extends the list of events it used with the virtual nodes, unless it is empty, and
    leaves all other lists alone. *)
Theorem C58_dict_list rx D d key lv ep : exists d', (correct_readout_full rx D (SDict d) key lv ep).1 = SDict d' /\
  (forall k, k <> key -> d' !! k = d !! k) /\
  (d !! key = None -> d' !! key = None /\ (correct_readout_full rx D (SDict d) key lv ep).2 = Err KeyError) /\
  (d !! key = Some [] -> d' !! key = Some [] /\ (correct_readout_full rx D (SDict d) key lv ep).2 = Ok lv) /\
  (forall e ev isx, d !! key = Some (e :: ev) -> key = type_string isx ->
     d' !! key = Some (e :: ev ++ virtual_nodes isx (dec_h D) (dec_w D))) /\
  (forall e ev, d !! key = Some (e :: ev) -> key <> "X"%string -> key <> "Z"%string ->
     d' !! key = Some (e :: ev) /\ (correct_readout_full rx D (SDict d) key lv ep).2 = Err KeyError).
Proof.
  unfold correct_readout_full. cbn [fst snd]. exists (correct_dict rx D ep d key lv).1. split; [done|]. unfold correct_dict.
  destruct (d !! key) as [ev|] eqn:Ed.
  - cbn [fst snd]. split; [intros k Hk; by rewrite lookup_insert_ne|]. split; [done|]. rewrite !lookup_insert. split; [|split].
    + by intros [= ->].
    + intros e ev' isx [= ->] ->. rewrite corrections_key_type, corrections_p_list. by rewrite bool_decide_eq_false_2.
    + intros e ev' [= ->] H1 H2. unfold corrections_key. by rewrite key_type_None.
  - cbn [fst snd]. split; [done|]. split; [done|]. split; [done|]. split; done.
Qed.
Print Assumptions C58_dict_list.

(** Fault-tolerant readout from events given in any order: with the measured value the encoded
    one comes back; without it the answer is None or a TypeError, and certainly a TypeError when
    the faults have flipped the measured value. *)
Theorem C58_corrects c isx dh dw T D rx ep base flips misread rounds ev v d :
  valid_size dh dw -> decoder_for isx dh dw T D -> rx_ok rx -> ep = None \/ ep = Some 0%R ->
  let N := Z.of_nat (length rounds) in
  N - 1 <= T -> faults_within isx dh dw N flips misread -> reported isx c dh dw base flips misread rounds ->
  Z.of_nat (length flips + length misread) <= (extent isx dh dw - 1) / 2 ->
  NoDup ev -> (forall e, e ∈ ev <-> changes rounds (nsyn isx dh dw) (syn_off isx dh dw) (coordk isx dw) e) ->
  d !! type_string isx = Some ev ->
  let decode := fun lv => (correct_readout_full rx D (SDict d) (type_string isx) lv ep).2 in
  let f := logical_flip isx c dh dw flips in
  decode (Some (Z.b2z (xorb v f))) = Ok (Some (Z.b2z v)) /\
  (decode None = Ok None \/ decode None = Err TypeError) /\
  (f = true -> decode None = Err TypeError).
Proof.
  intros Hv HD Hrx Hep N HN Hw Hrep HL Hnd Hev Hd decode f.
  assert (Hval : forall v', decode (Some (Z.b2z (xorb v' f))) = Ok (Some (Z.b2z v'))).
  { intros v'. unfold decode, correct_readout_full. cbn [snd]. rewrite (correct_dict_events rx D ep d isx _ ev Hd).
    assert (HL2 : 2 * Z.of_nat (length flips + length misread) < extent isx dh dw).
    { revert HL. clear -Hv. pose proof (size_pos dh dw Hv). zmod. }
    pose proof (fun pl => decode_rounds dh dw T D rx pl isx c Hv HD Hrx base flips misread rounds ev v' HN Hw Hrep HL2 Hnd Hev) as Hdec.
    destruct (C45_plain rx D isx (Z.b2z (xorb v' f)) ev "") as (E1 & E2 & _).
    destruct Hep as [-> | ->]; [rewrite E1|rewrite E2]; by rewrite Hdec. }
  split; [apply Hval|].
  destruct (C58_dict_value rx D (type_string isx) ev ep) as [(e & He)|(n & Hn)].
  - specialize (Hval v). unfold decode in Hval. by rewrite He in Hval.
  - assert (HN' : decode None = corrected n None) by (by apply Hn). rewrite HN'. split; [destruct n; [by left|by right]|].
    intros Hf. destruct n; [|done]. specialize (Hval true). unfold decode in Hval. rewrite Hn, Hf in Hval by done. by cbn in Hval.
Qed.
Print Assumptions C58_corrects.
(** The same with an error probability small enough for C46. *)
Theorem C58_corrects_weighted c isx dh dw T D g rx p rho base flips misread rounds ev v d :
  valid_size dh dw -> decoder_for isx dh dw T D -> dec_graph D isx = Some g -> rx_ok rx ->
  (0 < p < / 2)%R -> degeneracy_bound isx g (virtual_nodes isx dh dw) rho -> rare rho p (extent isx dh dw) ->
  let N := Z.of_nat (length rounds) in
  N - 1 <= T -> faults_within isx dh dw N flips misread -> reported isx c dh dw base flips misread rounds ->
  Z.of_nat (length flips + length misread) <= (extent isx dh dw - 1) / 2 ->
  NoDup ev -> (forall e, e ∈ ev <-> changes rounds (nsyn isx dh dw) (syn_off isx dh dw) (coordk isx dw) e) ->
  d !! type_string isx = Some ev ->
  (correct_readout_full rx D (SDict d) (type_string isx) (Some (Z.b2z (xorb v (logical_flip isx c dh dw flips)))) (Some p)).2 = Ok (Some (Z.b2z v)).
Proof.
  intros Hv HD Hg Hrx Hp Hb Hr N HN Hw Hrep HL Hnd Hev Hd. unfold correct_readout_full. cbn [snd].
  rewrite (correct_dict_events rx D _ d isx _ ev Hd).
  rewrite (decode_rounds_p dh dw T D rx p rho isx c g Hv HD Hg Hrx Hp Hb Hr base flips misread rounds ev v); try done.
  revert HL. clear -Hv. pose proof (size_pos dh dw Hv). zmod.
Qed.
Print Assumptions C58_corrects_weighted.

(** The events of the run of C26_ex, in the other order. *)
Example C58_ex : let d := <["Z" := [(0, 3, 3); (0, 1, 1)]]> {["Y" := [(5, 5, 5)]]}%string in
  let r := fun lv => correct_readout_full rx_ref ex_dec (SDict d) "Z" lv None in
  (r (Some 1)).2 = Ok (Some 1) /\ (r None).2 = Ok None /\ (r (Some 7)).2 = Ok (Some 7) /\
  match (r None).1 with SDict d' => d' !! "Z"%string | _ => None end = Some [(0, 3, 3); (0, 1, 1); (-1, -1, -1); (-1, 5, 1); (-1, -1, 3); (-1, 5, 5)] /\
  (correct_readout_full rx_ref ex_dec (SDict {["Z" := [(0, 1, 1)]]}%string) "Z" (Some 0) None).2 = Ok (Some 1) /\
  (correct_readout_full rx_ref ex_dec (SDict {["Z" := [(0, 1, 1)]]}%string) "Z" None None).2 = Err TypeError /\
  (correct_readout_full rx_ref ex_dec (SDict d) "Y" (Some 0) None).2 = Err KeyError /\
  (correct_readout_full rx_ref ex_dec (SDict d) "X" (Some 0) None).2 = Err KeyError.
Proof. split_and!; vm_compute; reflexivity. Qed.

(** * C59 *)
Lemma edge_w_unique {W} (g : lgraph W) a b w w' : NoDup (pg_nodes (lg_g g)) -> edge_w g a b w -> edge_w g a b w' -> w = w'.
Proof.
  intros Hnd (i & j & Hi & Hj & He) (i' & j' & Hi' & Hj' & He').
  rewrite (NoDup_lookup _ _ _ _ Hnd Hi' Hi), (NoDup_lookup _ _ _ _ Hnd Hj' Hj) in He'. congruence.
Qed.
Section matched.
Context {W : Type} (eg : lgraph W).
Hypothesis Hnd : NoDup (pg_nodes (lg_g eg)).
(** Indices and labels of a match in the graph. *)
Definition labelled (m : nat * nat * (node * node)) : Prop :=
  pg_nodes (lg_g eg) !! m.1.1 = Some m.2.1 /\ pg_nodes (lg_g eg) !! m.1.2 = Some m.2.2 /\ is_Some (pg_edges (lg_g eg) !! ekey m.1.1 m.1.2).
Lemma add_matches (L : list (nat * nat * (node * node))) : forall mg, lg_ok mg -> (forall m, m ∈ L -> labelled m) ->
  (forall a b w, edge_w mg a b w -> edge_w eg a b w) ->
  exists mg', rfold (add_match eg) mg (map fst L) = Ok mg' /\ lg_ok mg' /\
    (forall n, has_node mg' n <-> has_node mg n \/ n ∈ pends (map snd L)) /\
    (forall a b w, edge_w mg' a b w <-> edge_w mg a b w \/ (((a, b) ∈ map snd L \/ (b, a) ∈ map snd L) /\ edge_w eg a b w)).
Proof.
  induction L as [|[[i j] [x y]] L IHL]; intros mg Hok HL Hsub.
  - exists mg. cbn. split; [done|]. split; [done|]. split.
    + intros n. rewrite elem_of_nil. tauto.
    + intros a b w. rewrite !elem_of_nil. tauto.
  - destruct (HL _ ltac:(left)) as (Hx & Hy & [w0 Hw0]). cbn [fst snd] in Hx, Hy, Hw0. cbn [map rfold fst snd].
    assert (E0 : edge_w eg x y w0) by (by exists i, j).
    unfold add_match at 1. cbn [fst snd]. rewrite Hx, Hy, Hw0.
    pose proof (lg_ensure_ok mg x Hok) as Hok1. pose proof (lg_ensure_ok (lg_ensure x mg) y Hok1) as Hok2.
    destruct (lg_add_edge_ok (lg_ensure y (lg_ensure x mg)) x y w0 Hok2) as (mg1 & -> & Hmg1 & Hn1 & _ & He1).
    { rewrite !has_node_ensure. tauto. } { rewrite !has_node_ensure. tauto. }
    assert (He1' : forall a b w, edge_w mg1 a b w <-> edge_w mg a b w \/ (same_ends a b x y /\ edge_w eg a b w)).
    { intros a b w. rewrite He1, edge_w_ensure, edge_w_ensure by done. split.
      - intros [[Hs ->]|[_ H]]; [|by left]. right. split; [done|]. destruct Hs as [[-> ->] | [-> ->]]; [done|by apply edge_w_sym].
      - intros Hor. assert (Heg : edge_w eg a b w) by (destruct Hor as [H|[_ H]]; [by apply Hsub|done]).
        destruct (decide ((a = x /\ b = y) \/ (a = y /\ b = x))) as [Hs|Hs].
        + left. split; [done|]. assert (Hxy : edge_w eg x y w) by (destruct Hs as [[-> ->] | [-> ->]]; [done|by apply edge_w_sym]).
          by eapply edge_w_unique.
        + right. split; [done|]. by destruct Hor as [H|[? _]]. }
    destruct (IHL mg1 Hmg1) as (mg' & -> & Hok' & Hn' & He').
    { intros m Hm. apply HL. by right. }
    { intros a b w [H|[_ H]]%He1'; [by apply Hsub|done]. }
    exists mg'. split; [done|]. split; [done|]. split.
    + intros n. rewrite Hn'. unfold has_node at 1. rewrite Hn1. change (n ∈ pg_nodes (lg_g (lg_ensure y (lg_ensure x mg)))) with (has_node (lg_ensure y (lg_ensure x mg)) n).
      rewrite !has_node_ensure. change (pends ((x, y) :: map snd L)) with ([x; y] ++ pends (map snd L)). rewrite elem_of_app, !elem_of_cons, elem_of_nil. tauto.
    + intros a b w. rewrite He', He1'. unfold same_ends. rewrite !elem_of_cons. split.
      * intros [[H|[Hs H]]|[Hs H]]; [by left|right|right; tauto]. split; [|done]. destruct Hs as [[-> ->] | [-> ->]]; tauto.
      * intros [H|[[[[= -> ->]|H']|[[= -> ->]|H']] H'']]; tauto.
Qed.
End matched.

(** On any graph with distinct labels, both functions select the same matches: the graph has the
    matched nodes, once each, and one edge per match, with the weight it had before. *)
Theorem C59_matches_as_graph {W} rx (wfn : W -> Z) (eg : lgraph W) : rx_ok rx -> NoDup (pg_nodes (lg_g eg)) -> pg_wf (lg_g eg) ->
  exists ms mg, run_mwpm rx wfn eg = Ok ms /\ run_mwpm_graph rx wfn eg = Ok mg /\ NoDup (pg_nodes (lg_g mg)) /\
    (forall n, n ∈ pg_nodes (lg_g mg) <-> n ∈ pends ms) /\
    (forall a b w, edge_w mg a b w <-> ((a, b) ∈ ms \/ (b, a) ∈ ms) /\ edge_w eg a b w) /\
    (forall a b, (a, b) ∈ ms -> exists w, edge_w eg a b w) /\
    NoDup (pends ms).
Proof.
  intros Hrx Hnd Hwf.
  destruct (rx_match_ok rx Hrx (length (pg_nodes (lg_g eg))) (wfn <$> pg_edges (lg_g eg))) as [[HM1 HM2] _].
  { intros i j w. rewrite lookup_fmap. intros (w' & Hw & _)%fmap_Some. by apply Hwf in Hw. }
  unfold run_mwpm, run_mwpm_graph, matched_idx. set (M := rx_match _ _ _) in *. clearbody M.
  set (lb := fun i : nat => default (0, 0, 0) (pg_nodes (lg_g eg) !! i)).
  set (lm := fun ij : nat * nat => (lb ij.1, lb ij.2)).
  assert (Hlab : forall ij, ij ∈ M -> labelled eg (ij, lm ij)).
  { intros ij Hij. destruct (HM2 ij Hij) as [w Hw]. rewrite lookup_fmap in Hw. apply fmap_Some in Hw as (w' & Hw & _).
    unfold ekey in Hw. destruct (Hwf _ _ _ Hw) as [_ Hlt].
    unfold labelled, lm, lb. cbn [fst snd].
    destruct (lookup_lt_is_Some_2 (pg_nodes (lg_g eg)) ij.1) as [a Ha]; [lia|].
    destruct (lookup_lt_is_Some_2 (pg_nodes (lg_g eg)) ij.2) as [b Hb]; [lia|]. rewrite Ha, Hb. cbn. split; [done|]. split; [done|]. by exists w'. }
  rewrite (rmap_ok _ lm).
  2: { intros ij (Ha & Hb & _)%Hlab. cbn [fst snd] in Ha, Hb. rewrite Ha, Hb. done. }
  rewrite (rmap_ok _ (fun ij => (ij, lm ij))).
  2: { intros ij (Ha & Hb & _)%Hlab. cbn [fst snd] in Ha, Hb. rewrite Ha, Hb. by rewrite <- surjective_pairing. }
  set (F := filter _ ((fun ij => (ij, lm ij)) <$> M)). eexists _.
  destruct (add_matches eg Hnd F lg_empty lg_empty_ok) as (mg & E & Hok & Hn & He).
  { intros m [_ (ij & -> & Hij)%elem_of_list_fmap]%elem_of_list_filter. by apply Hlab. }
  { intros a b w (i & j & Hi & _). done. }
  exists mg. split; [done|]. split; [done|]. split; [apply Hok|].
  assert (HF : map snd F = filter (fun m : node * node => ~ (n_time m.1 = -1 /\ n_time m.2 = -1)) (lm <$> M)).
  { unfold F. clear. induction M as [|ij M IHM]; [done|]. rewrite !fmap_cons, !filter_cons. cbn [fst snd].
    destruct (decide _) as [H|H]; [|done]. cbn [map snd]. by rewrite IHM. }
  rewrite HF in Hn, He. split; [|split; [|split]].
  - intros n. specialize (Hn n). unfold has_node in Hn. cbn in Hn. rewrite elem_of_nil in Hn. tauto.
  - intros a b w. rewrite He. split; [intros [(i & j & Hi & _)|H]; [done|done]|by right].
  - intros a b [_ (ij & E1 & Hij)%elem_of_list_fmap]%elem_of_list_filter. destruct (Hlab ij Hij) as (Ha & Hb & [w Hw]). cbn [fst snd] in Ha, Hb, Hw.
    rewrite <- E1 in Ha, Hb. exists w, ij.1, ij.2. done.
  - assert (Hall : NoDup (pends (lm <$> M))).
    { change lm with (prod_map lb lb). rewrite pends_map. apply NoDup_fmap_2_strong; [|done].
      intros x y (p & Hp & Hx)%elem_of_pends (q & Hq & Hy)%elem_of_pends Exy.
      destruct (Hlab p Hp) as (Hp1 & Hp2 & _), (Hlab q Hq) as (Hq1 & Hq2 & _). cbn [fst snd lm] in *.
      destruct Hx as [-> | ->], Hy as [-> | ->]; (eapply (NoDup_lookup _ _ _ _ Hnd); [eassumption|]; by rewrite Exy). }
    revert Hall. generalize (lm <$> M). clear. intros l. induction l as [|m l IHl]; [done|].
    change (pends (m :: l)) with ([m.1; m.2] ++ pends l). intros (H1 & H2 & H3)%NoDup_app. rewrite filter_cons.
    assert (Hsub : forall x, x ∈ pends (filter (fun m : node * node => ~ (n_time m.1 = -1 /\ n_time m.2 = -1)) l) -> x ∈ pends l).
    { intros x (p & [_ Hp]%elem_of_list_filter & Hx)%elem_of_pends. apply elem_of_pends. eauto. }
    destruct (decide _); [|by apply IHl]. change (pends (m :: ?k)) with ([m.1; m.2] ++ pends k). apply NoDup_app. split; [done|]. split; [|by apply IHl].
    intros x Hx Hx2. by eapply H2; [|apply Hsub].
Qed.
Print Assumptions C59_matches_as_graph.
(** On the error graph of some events of the decoder's graph: every event is a node of the graph
    of matches with exactly one edge, to another event or to a virtual node, weighted with minus
    the length of a shortest path; no edge joins two virtual nodes. *)
Theorem C59_every_event isx dh dw T g rx ep ev : valid_size dh dw -> 3 <= extent isx dh dw -> 1 <= T ->
  make_syndrome_graph isx dh dw T = Ok g -> rx_ok rx ->
  NoDup ev -> (forall n, n ∈ ev -> n ∈ pg_nodes (lg_g g) /\ 0 <= n_time n) ->
  exists nodes eg mg, make_error_graph 0 (weigh_plain rx g) (virtual_nodes isx dh dw) ev tt = (nodes, Ok eg) /\
    run_mwpm_graph rx (plain_wfn ep) eg = Ok mg /\
    (forall n, n ∈ pg_nodes (lg_g mg) -> n ∈ ev ++ virtual_nodes isx dh dw) /\
    (forall e, e ∈ ev -> exists b, (forall b' w, edge_w mg e b' w -> b' = b) /\
      exists P, shortest_path g e b P /\ edge_w mg e b (- Z.of_nat (length P))) /\
    (forall a b w, edge_w mg a b w -> a ∈ ev \/ b ∈ ev).
Proof.
  intros Hv Hext HT Hg Hrx Hnd Hev.
  destruct (error_graph_spec rx Hrx isx dh dw T g Hv Hext HT Hg ev (conj Hnd Hev)) as (eg & E & Heg & Hnodes & Hwt & _ & _ & Hreal).
  destruct (perfect_exists rx Hrx isx dh dw T g Hv Hext HT Hg ev eg (conj Hnd Hev) E) as (Mp & HMp & HMe).
  destruct (perfect_match eg Heg (scale ep) _ Hwt rx Mp Hrx (scale_pos ep) HMp ltac:(by rewrite HMe)) as (M & HM & _ & HMn & _).
  destruct (C59_matches_as_graph rx (plain_wfn ep) eg Hrx (ok_nodup eg Heg) (ok_edges eg Heg)) as (ms & mg & Hr & Hrg & Hn1 & Hn2 & He & Hme & Hms).
  rewrite run_scale, HM in Hr. injection Hr as Hr.
  destruct (sg_facts isx dh dw T g Hv Hext HT Hg) as (Hok & Hu & _). pose proof (sg_conn isx dh dw T g Hv Hext HT Hg) as Hconn.
  assert (Hin : forall a b, (a, b) ∈ ms -> ~ (n_time a = -1 /\ n_time b = -1) /\ a ∈ ev ++ virtual_nodes isx dh dw /\ b ∈ ev ++ virtual_nodes isx dh dw).
  { intros a b Hab. assert (Hvv : ~ (n_time a = -1 /\ n_time b = -1)) by (rewrite <- Hr in Hab; by apply elem_of_list_filter in Hab as [? _]).
    split; [done|]. destruct (Hme a b Hab) as [w Hw]. by apply (Hreal a b w). }
  assert (Hns : forall n, n ∈ ev ++ virtual_nodes isx dh dw -> has_node g n /\ (n ∈ ev \/ n_time n = -1)).
  { intros n [Hx|Hx]%elem_of_app; [split; [by apply Hev|by left]|]. pose proof (virt_fact isx dh dw T g Hv Hext HT Hg n Hx) as [H1 H2].
    split; [done|right]. by apply H2. }
  exists (ev ++ virt isx dh dw), eg, mg. split; [done|]. split; [done|]. split; [|split].
  - intros n Hx. apply Hn2 in Hx. apply elem_of_pends in Hx as ([a b] & Hp & Hx). destruct (Hin a b Hp) as (_ & ? & ?). by destruct Hx as [-> | ->].
  - intros e Hx. assert (Hem : e ∈ pends ms).
    { assert (HeM : e ∈ pends M) by (rewrite HMn, Hnodes; unfold eg_nodes; apply elem_of_app; by left).
      apply elem_of_pends in HeM as (p & Hp & Hpe). apply elem_of_pends. exists p. split; [|done]. rewrite <- Hr. apply elem_of_list_filter. split; [|done].
      destruct (Hev e Hx) as [_ ?]. intros [? ?]. destruct Hpe as [-> | ->]; lia. }
    assert (Hpart : exists b, (e, b) ∈ ms \/ (b, e) ∈ ms).
    { apply elem_of_pends in Hem as ([a b] & Hp & Hx'). cbn in Hx'. destruct Hx' as [-> | ->]; eauto. }
    destruct Hpart as [b Hb]. exists b. split.
    + intros b' w [Hb' _]%He. clear -Hb Hb' Hms. revert Hb Hb'. induction ms as [|[x y] l IHl]; [intros [H|H]; by apply elem_of_nil in H|].
      change (pends ((x, y) :: l)) with ([x; y] ++ pends l) in Hms. apply NoDup_app in Hms as (H1 & H2 & H3).
      assert (Hno : forall u v : node, (u, v) ∈ l -> u <> x /\ u <> y /\ v <> x /\ v <> y).
      { intros u v Huv. assert (u ∈ pends l) by (apply elem_of_pends; exists (u, v); split; [done|by left]).
        assert (v ∈ pends l) by (apply elem_of_pends; exists (u, v); split; [done|by right]).
        pose proof (H2 x ltac:(left)). pose proof (H2 y ltac:(right; left)). split_and!; intros ->; done. }
      apply NoDup_cons in H1 as [Hxy _]. rewrite elem_of_list_singleton in Hxy.
      intros Hb Hb'. rewrite !elem_of_cons in Hb, Hb'.
      destruct Hb as [[Hb|Hb]|[Hb|Hb]], Hb' as [[Hb'|Hb']|[Hb'|Hb']]; simplify_eq; try done;
        try (pose proof (Hno _ _ Hb) as (? & ? & ? & ?); done); try (pose proof (Hno _ _ Hb') as (? & ? & ? & ?); done); try (apply IHl; tauto).
    + assert (Heb : ~ (n_time e = -1 /\ n_time b = -1)) by (intros [? _]; destruct (Hev e Hx) as [_ ?]; lia).
      assert (Hbn : has_node g b) by (destruct Hb as [Hb|Hb]; apply Hin in Hb as (_ & Hb1 & Hb2); by apply Hns).
      assert (Hen : has_node g e) by (by apply Hev).
      destruct (dz_spec g Hok Hu rx Hrx Hconn e b Hen Hbn) as (_ & (P & HP & HPL) & _). exists P.
      split; [by apply (shortest_path_length g Hok Hu rx Hrx Hconn)|].
      apply He. split; [done|].
      assert (Hw : exists w, edge_w eg e b w) by (destruct Hb as [Hb|Hb]; destruct (Hme _ _ Hb) as [w Hw]; exists w; [done|by apply edge_w_sym]).
      destruct Hw as [w Hw]. pose proof (Hwt _ _ _ Hw) as E1. unfold cost0 in E1. destruct (decide _); [done|]. rewrite HPL. by rewrite <- E1.
  - intros a b w [[Hab|Hab] _]%He; destruct (Hin _ _ Hab) as (Hvv & H1 & H2); apply Hns in H1 as [_ H1], H2 as [_ H2]; tauto.
Qed.
Print Assumptions C59_every_event.
Example C59_ex : let ev := [(0, 1, 1); (0, 3, 3); (1, 1, 1)] in
  match (make_error_graph 0 (weigh_plain rx_ref g33) (virtual_nodes false 3 3) ev tt).2 with
  | Ok eg => match run_mwpm_graph rx_ref (plain_wfn EPNone) eg with
             | Ok mg => length (pg_nodes (lg_g mg)) = 4%nat /\ map_to_list (pg_edges (lg_g mg)) <> [] /\ size (pg_edges (lg_g mg)) = 2%nat
             | Err _ => False end
  | Err _ => False end.
Proof. vm_compute. split; [|split]; done. Qed.
