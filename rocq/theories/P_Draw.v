(** C77: the pictures of the graphs of a decoder. *)
From Coq Require Import QArith Qcanon.
From Verif Require Import SpecRx DecoderApi MwpmGraph P_Graph P_Decode P_DecoderApi.
From Verif Require Export Draw.
From stdpp Require Export list.
Open Scope Z_scope.

(** * Specification *)
(** No two nodes are drawn at one point, no two weights are written at one point, and none at a
    node.  [add] adds points; weights are at the middle of the line. *)
Definition apart_nodes {P W} (p : picture P W) : Prop := NoDup (pic_nodes p).*1.
Definition apart_texts {P W} (add : P -> P -> P) (p : picture P W) : Prop :=
  NoDup (pic_texts p).*1 /\ forall x y n w, (x, n) ∈ pic_nodes p -> (y, w) ∈ pic_texts p -> add x x <> y.
(** The nodes drawn are those of the graph, each once; the lines are its edges, each drawn between
    the points of its two nodes with its weight written at the middle. *)
Definition faithful {P W} (add : P -> P -> P) (p : picture P W) (g : lgraph W) : Prop :=
  (pic_nodes p).*2 = pg_nodes (lg_g g) /\
  exists at_ : node -> P, (forall x n, (x, n) ∈ pic_nodes p -> x = at_ n) /\
    (forall x y, (x, y) ∈ pic_lines p -> exists a b w, edge_w g a b w /\ x = at_ a /\ y = at_ b) /\
    (forall a b w, edge_w g a b w -> ((at_ a, at_ b) ∈ pic_lines p \/ (at_ b, at_ a) ∈ pic_lines p) /\ (add (at_ a) (at_ b), w) ∈ pic_texts p).

(** * Points *)
Lemma cell_pair isx dh dw p q p' q' : cell isx dh dw p -> cell isx dh dw q -> adjacent p q -> cell isx dh dw p' -> cell isx dh dw q' -> adjacent p' q' ->
  p.1 + q.1 = p'.1 + q'.1 -> p.2 + q.2 = p'.2 + q'.2 -> (p = p' /\ q = q') \/ (p = q' /\ q = p').
Proof.
  destruct p as [y x], q as [v u], p' as [y' x'], q' as [v' u']. unfold cell, adjacent. cbn [fst snd].
  intros (_ & _ & _ & _ & H1) (_ & _ & _ & _ & H2) [A1 A2] (_ & _ & _ & _ & H3) (_ & _ & _ & _ & H4) [B1 B2] E1 E2.
  assert (D : (y = y' /\ v = v' \/ y = v' /\ v = y') /\ (x = x' /\ u = u' \/ x = u' /\ u = x')) by lia.
  destruct D as [[[-> ->]|[-> ->]] [[-> ->]|[-> ->]]]; auto; exfalso; destruct isx; Z.div_mod_to_equations; lia.
Qed.
Lemma eq3 (a b c a' b' c' : Z) : a = a' -> b = b' -> c = c' -> (a, b, c) = (a', b', c').
Proof. congruence. Qed.
Section nodes.
Context (isx : bool) (dh dw T : Z).
Definition drawable (n : node) : Prop := sg_node isx dh dw T n \/ n = extra_node.
Lemma place_time n n' : sg_node isx dh dw T n -> sg_node isx dh dw T n' -> n.1.2 = n'.1.2 -> n.2 = n'.2 ->
  (if bool_decide (n_time n = -1) then T - 1 else 2 * n_time n) = (if bool_decide (n_time n' = -1) then T - 1 else 2 * n_time n') -> n = n'.
Proof.
  destruct n as [[t y] x], n' as [[t' y'] x']. unfold sg_node, n_time. cbn [fst snd]. intros [_ H] [_ H'] -> -> E.
  destruct (decide _); repeat case_bool_decide; by repeat f_equal; lia.
Qed.
Lemma extra_off n y : sg_node isx dh dw T n -> n_row n = y -> y = -2 -> False.
Proof. intros [(H & _) _] <-. unfold n_row. cbn in H. intros E. rewrite E in H. done. Qed.
Lemma point3_inj a b : drawable a -> drawable b -> point3 T a = point3 T b -> a = b.
Proof.
  intros [Ha| ->] [Hb| ->] E; [| | |done].
  - unfold point3 in E. injection E as E1 E2 E3. apply place_time; [done|done|unfold n_row in E2; lia|done|done].
  - exfalso. apply (f_equal (fun x => x.1.2)) in E. cbn in E. apply (extra_off a (-2) Ha); [lia|done].
  - exfalso. apply (f_equal (fun x => x.1.2)) in E. cbn in E. apply (extra_off b (-2) Hb); [lia|done].
Qed.
Lemma point2_inj a b : T = 1 -> drawable a -> drawable b -> point2 a = point2 b -> a = b.
Proof.
  intros HT Ha Hb E. apply point3_inj; [done|done|]. unfold point3, point2 in *. injection E as E1 E2. rewrite E1, E2. f_equal.
  destruct Ha as [Ha| ->], Hb as [Hb| ->].
  - destruct a as [[t y] x], b as [[t' y'] x']. unfold sg_node, n_time, n_row, n_col in *. cbn [fst snd] in *. assert (y = y') as -> by lia. subst x'.
    destruct Ha as [_ Ha], Hb as [_ Hb]. destruct (decide _); repeat case_bool_decide; lia.
  - exfalso. apply (extra_off a (-2) Ha); [unfold extra_node, n_row in *; cbn in *; lia|done].
  - exfalso. apply (extra_off b (-2) Hb); [unfold extra_node, n_row in *; cbn in *; lia|done].
  - done.
Qed.

(** Middles of edges *)
Lemma place_point3 t p : 0 <= t -> point3 T (place isx dh dw t p) = (p.2, - p.1, if decide (inside isx dh dw p) then 2 * t else T - 1).
Proof. intros Ht. unfold point3, place, n_col, n_row, n_time. cbn [fst snd]. destruct (decide _); [rewrite bool_decide_eq_false_2 by lia|]; done. Qed.
Lemma mid_inj (Hext : 3 <= extent isx dh dw) a b a' b' : sg_edge isx dh dw T a b -> sg_edge isx dh dw T a' b' ->
  add3 (point3 T a) (point3 T b) = add3 (point3 T a') (point3 T b') -> (a = a' /\ b = b') \/ (a = b' /\ b = a').
Proof.
  assert (HV : forall t p a b, (a = (t, p.1, p.2) /\ b = (t + 1, p.1, p.2)) \/ (b = (t, p.1, p.2) /\ a = (t + 1, p.1, p.2)) -> 0 <= t ->
    add3 (point3 T a) (point3 T b) = (2 * p.2, - (2 * p.1), 4 * t + 2)).
  { intros t p ?? [[-> ->]|[-> ->]] Ht; unfold add3, point3, n_col, n_row, n_time; cbn [fst snd]; rewrite !bool_decide_eq_false_2 by lia; apply eq3; lia. }
  assert (HH : forall t p q, 0 <= t -> adjacent p q -> ~ (~ inside isx dh dw p /\ ~ inside isx dh dw q) -> exists z,
    add3 (point3 T (place isx dh dw t p)) (point3 T (place isx dh dw t q)) = (p.2 + q.2, - (p.1 + q.1), z) /\
    z = (if decide (inside isx dh dw p /\ inside isx dh dw q) then 4 * t else 2 * t + T - 1)).
  { intros t p q Ht Ha Hn. eexists. rewrite !place_point3 by done. split; [unfold add3; cbn [fst snd]; apply eq3; [lia|lia|reflexivity]|].
    destruct (decide (inside isx dh dw p)), (decide (inside isx dh dw q)), (decide (_ /\ _)); try tauto; lia. }
  assert (HN : forall p q, cell isx dh dw p -> cell isx dh dw q -> adjacent p q -> ~ (~ inside isx dh dw p /\ ~ inside isx dh dw q)).
  { intros [y x] [v u] (_ & _ & A1 & A2 & _) (_ & _ & B1 & B2 & _) [C1 C2] [N1 N2]. unfold inside, level, extent in *. cbn [fst snd] in *. destruct isx; lia. }
  assert (HP : forall p q p', cell isx dh dw p -> adjacent p q -> cell isx dh dw p' -> p.1 + q.1 = 2 * p'.1 -> False).
  { intros [y x] [v u] [y' x'] (A1 & _) [C1 _] (B1 & _) E. cbn [fst snd] in *. Z.div_mod_to_equations. lia. }
  intros [(t & p & q & Ht & Hp & Hq & Hpq & -> & ->)|(t & p & Ht & Hp & Hi & Hab)] [(t' & p' & q' & Ht' & Hp' & Hq' & Hpq' & -> & ->)|(t' & p' & Ht' & Hp' & Hi' & Hab')] E.
  - destruct (HH t p q ltac:(lia) Hpq (HN _ _ Hp Hq Hpq)) as (z & Ez & Hz), (HH t' p' q' ltac:(lia) Hpq' (HN _ _ Hp' Hq' Hpq')) as (z' & Ez' & Hz').
    rewrite Ez, Ez' in E. injection E as E1 E2 E3.
    destruct (cell_pair isx dh dw p q p' q' Hp Hq Hpq Hp' Hq' Hpq' ltac:(lia) ltac:(lia)) as [[-> ->]|[-> ->]].
    + left. assert (t = t') as -> by (destruct (decide _); lia). done.
    + right. assert (t = t') as ->; [|done]. destruct (decide (_ /\ _)) in Hz; destruct (decide (_ /\ _)) in Hz'; try tauto; lia.
  - exfalso. destruct (HH t p q ltac:(lia) Hpq (HN _ _ Hp Hq Hpq)) as (z & Ez & Hz). rewrite Ez, (HV t' p' _ _ Hab' ltac:(lia)) in E. injection E as E1 E2 E3.
    apply (HP p q p' Hp Hpq Hp'). lia.
  - exfalso. destruct (HH t' p' q' ltac:(lia) Hpq' (HN _ _ Hp' Hq' Hpq')) as (z & Ez & Hz). rewrite Ez, (HV t p _ _ Hab ltac:(lia)) in E. injection E as E1 E2 E3.
    apply (HP p' q' p Hp' Hpq' Hp). lia.
  - rewrite (HV t p _ _ Hab ltac:(lia)), (HV t' p' _ _ Hab' ltac:(lia)) in E. injection E as E1 E2 E3.
    destruct p as [y x], p' as [y' x']. cbn [fst snd] in *. assert (t = t' /\ y = y' /\ x = x') as (-> & -> & ->) by lia.
    destruct Hab as [[-> ->]|[-> ->]], Hab' as [[-> ->]|[-> ->]]; auto.
Qed.
Lemma mid_off (Hext : 3 <= extent isx dh dw) n a b : sg_node isx dh dw T n -> sg_edge isx dh dw T a b -> add3 (point3 T n) (point3 T n) <> add3 (point3 T a) (point3 T b).
Proof.
  intros Hn [(t & p & q & Ht & Hp & Hq & Hpq & -> & ->)|(t & p & Ht & Hp & Hi & Hab)] E.
  - rewrite !place_point3 in E by lia. unfold add3, point3 in E. cbn [fst snd] in E. injection E as E1 E2 _. destruct Hn as [(Hn & _) _].
    destruct p as [y x], q as [v u], n as [[t' y'] x']. destruct Hp as (A1 & _), Hpq as [C1 _]. unfold n_row in *. cbn [fst snd] in *. Z.div_mod_to_equations. lia.
  - assert (EZ : add3 (point3 T a) (point3 T b) = (2 * p.2, - (2 * p.1), 4 * t + 2)).
    { destruct Hab as [[-> ->]|[-> ->]]; unfold add3, point3, n_col, n_row, n_time; cbn [fst snd]; rewrite !bool_decide_eq_false_2 by lia; apply eq3; lia. }
    rewrite EZ in E. unfold add3, point3 in E. cbn [fst snd] in E. injection E as E1 E2 E3.
    destruct n as [[t' y'] x'], p as [y x]. unfold n_row, n_col, n_time, sg_node in *. cbn [fst snd] in *. assert (y' = y /\ x' = x) as [-> ->] by lia.
    destruct Hn as [_ Hn]. destruct (decide _) as [|Hno]; [|by apply Hno]. rewrite bool_decide_eq_false_2 in E3 by lia. lia.
Qed.
End nodes.

(** * Lists of edges *)
Lemma NoDup_omap_strong {A B} (f : A -> option B) l : NoDup l -> (forall x y b, x ∈ l -> y ∈ l -> f x = Some b -> f y = Some b -> x = y) -> NoDup (omap f l).
Proof.
  induction l as [|x l IHl]; intros Hn Hf; [apply NoDup_nil_2|]. apply NoDup_cons in Hn as [Hx Hn].
  assert (IH' : NoDup (omap f l)) by (apply IHl; [done|]; intros ???????; eapply Hf; [by right|by right|done|done]).
  cbn. destruct (f x) as [b|] eqn:E; [|done]. apply NoDup_cons. split; [|done].
  intros (y & Hy & Ey)%elem_of_list_omap. apply Hx. rewrite (Hf x y b); [done|by left|by right|done|done].
Qed.
Section generic.
Context {W P : Type} (g : lgraph W) (Hg : lg_ok g) (at_ : node -> P) (add : P -> P -> P) (add_comm : forall x y, add x y = add y x).
Lemma drawn_in a b w : (a, b, w) ∈ drawn_edges (lg_g g) <-> exists i j, pg_nodes (lg_g g) !! i = Some a /\ pg_nodes (lg_g g) !! j = Some b /\ pg_edges (lg_g g) !! (i, j) = Some w.
Proof.
  unfold drawn_edges. rewrite elem_of_list_omap. split.
  - intros ([[i j] w'] & Hin & E). cbn [fst snd] in E. apply elem_of_map_to_list in Hin. exists i, j.
    destruct (pg_nodes (lg_g g) !! i), (pg_nodes (lg_g g) !! j); try done. by injection E as -> -> ->.
  - intros (i & j & Hi & Hj & He). exists (i, j, w). split; [by apply elem_of_map_to_list|]. cbn [fst snd]. by rewrite Hi, Hj.
Qed.
Lemma drawn_edge a b w : (a, b, w) ∈ drawn_edges (lg_g g) -> edge_w g a b w.
Proof.
  intros (i & j & Hi & Hj & He)%drawn_in. exists i, j. split; [done|]. split; [done|]. destruct (ok_edges g Hg _ _ _ He) as [H _].
  unfold ekey. rewrite Nat.min_l, Nat.max_r by done. done.
Qed.
Lemma edge_drawn a b w : edge_w g a b w -> (a, b, w) ∈ drawn_edges (lg_g g) \/ (b, a, w) ∈ drawn_edges (lg_g g).
Proof.
  intros (i & j & Hi & Hj & He). unfold ekey in He. destruct (decide (i <= j)%nat).
  - left. apply drawn_in. exists i, j. rewrite Nat.min_l, Nat.max_r in He by done. done.
  - right. apply drawn_in. exists j, i. rewrite Nat.min_r, Nat.max_l in He by lia. done.
Qed.
Lemma drawn_NoDup : NoDup (drawn_edges (lg_g g)).
Proof.
  apply NoDup_omap_strong; [apply NoDup_map_to_list|]. intros [[i j] w] [[i' j'] w'] [[a b] v] H1 H2. cbn [fst snd].
  destruct (pg_nodes (lg_g g) !! i) eqn:Ei, (pg_nodes (lg_g g) !! j) eqn:Ej; try done. intros [= -> -> ->].
  destruct (pg_nodes (lg_g g) !! i') eqn:Ei', (pg_nodes (lg_g g) !! j') eqn:Ej'; try done. intros [= -> -> ->].
  by rewrite (NoDup_lookup _ _ _ _ (ok_nodup g Hg) Ei Ei'), (NoDup_lookup _ _ _ _ (ok_nodup g Hg) Ej Ej').
Qed.
Definition pict (cols : list Qc) : picture P W := Pic ((fun n => (at_ n, n)) <$> pg_nodes (lg_g g))
  ((fun e => (at_ e.1.1, at_ e.1.2)) <$> drawn_edges (lg_g g)) ((fun e => (add (at_ e.1.1) (at_ e.1.2), e.2)) <$> drawn_edges (lg_g g)) cols.
Lemma pict_faithful cols : faithful add (pict cols) g.
Proof.
  split; [cbn; rewrite <-list_fmap_compose; apply list_fmap_id|]. exists at_. split_and!.
  - by intros x n (n' & [= -> ->] & _)%elem_of_list_fmap.
  - intros x y ([[a b] w] & [= -> ->] & He)%elem_of_list_fmap. exists a, b, w. split; [by apply drawn_edge|done].
  - intros a b w [He|He]%edge_drawn.
    + split; [left|]; apply elem_of_list_fmap; by exists (a, b, w).
    + split; [right|]; apply elem_of_list_fmap; exists (b, a, w); [done|]. split; [|done]. cbn [fst snd]. by rewrite add_comm.
Qed.
Lemma pict_nodes cols : (forall a b, a ∈ pg_nodes (lg_g g) -> b ∈ pg_nodes (lg_g g) -> at_ a = at_ b -> a = b) -> apart_nodes (pict cols).
Proof.
  intros Hi. unfold apart_nodes. cbn. rewrite <-list_fmap_compose. apply NoDup_fmap_2_strong; [|apply Hg]. intros a b Ha Hb. cbn. by apply Hi.
Qed.
Lemma pict_texts cols : (forall a b w a' b' w', edge_w g a b w -> edge_w g a' b' w' -> add (at_ a) (at_ b) = add (at_ a') (at_ b') -> (a = a' /\ b = b') \/ (a = b' /\ b = a')) ->
  (forall n a b w, n ∈ pg_nodes (lg_g g) -> edge_w g a b w -> add (at_ n) (at_ n) <> add (at_ a) (at_ b)) -> apart_texts add (pict cols).
Proof.
  intros Hm Ho. split.
  - cbn. rewrite <-list_fmap_compose. apply NoDup_fmap_2_strong; [|apply drawn_NoDup]. intros [[a b] w] [[a' b'] w'] H1 H2 E. cbn [fst snd compose] in E.
    pose proof (drawn_edge _ _ _ H1) as E1. pose proof (drawn_edge _ _ _ H2) as E2.
    apply drawn_in in H1 as (i & j & Hi & Hj & He), H2 as (i' & j' & Hi' & Hj' & He').
    destruct (ok_edges g Hg _ _ _ He) as [L1 _], (ok_edges g Hg _ _ _ He') as [L2 _].
    pose proof (ok_nodup g Hg) as Hnd.
    destruct (Hm _ _ _ _ _ _ E1 E2 E) as [[-> ->]|[-> ->]].
    + rewrite (NoDup_lookup _ _ _ _ Hnd Hi Hi'), (NoDup_lookup _ _ _ _ Hnd Hj Hj'), He' in He. by injection He as ->.
    + pose proof (NoDup_lookup _ _ _ _ Hnd Hi Hj'). pose proof (NoDup_lookup _ _ _ _ Hnd Hj Hi'). assert (i = i' /\ j = j') as [-> ->] by lia.
      rewrite Hi in Hi'. injection Hi' as ->. rewrite He in He'. by injection He' as ->.
  - intros x y n w (n' & [= -> ->] & Hn)%elem_of_list_fmap ([[a b] w'] & [= -> ->] & He)%elem_of_list_fmap. cbn [fst snd].
    by apply (Ho n' a b w'), drawn_edge.
Qed.
End generic.
Lemma add2_comm p q : add2 p q = add2 q p.
Proof. unfold add2. f_equal; lia. Qed.
Lemma add3_comm p q : add3 p q = add3 q p.
Proof. unfold add3. apply eq3; lia. Qed.

(** * C77 *)
(** [draw] returns a 2D figure for one layer and shows a 3D one for more. *)
Definition shown_as {W} (T : Z) (d : drawing W) (P2 : picture (Z * Z) W -> Prop) (P3 : picture (Z * Z * Z) W -> Prop) : Prop :=
  match d with Returned p => T = 1 /\ P2 p | Shown p => 1 < T /\ P3 p end.
Lemma flat_point n isx dh dw T : T = 1 -> sg_node isx dh dw T n -> point3 T n = (point2 n, 0).
Proof.
  intros -> [_ H]. unfold point3, point2. f_equal. destruct (decide _); [rewrite bool_decide_eq_false_2 by (unfold n_time; lia); unfold n_time; lia|].
  rewrite bool_decide_eq_true_2 by done. done.
Qed.
Lemma add_flat p q : add3 (p, 0) (q, 0) = (add2 p q, 0).
Proof. done. Qed.

(** The graphs of the decoder: nothing overlaps. *)
Theorem C77_decoding_graph isx dh dw T g : valid_size dh dw -> 3 <= extent isx dh dw -> 1 <= T -> make_syndrome_graph isx dh dw T = Ok g ->
  shown_as T (draw T (lg_g g))
    (fun p => apart_nodes p /\ apart_texts add2 p /\ faithful add2 p g)
    (fun p => apart_nodes p /\ apart_texts add3 p /\ faithful add3 p g).
Proof.
  intros Hv Hext HT Eg. destruct (syndrome_graph_ok isx dh dw Hv T) as (g' & E & Hok & Hu & Hx). rewrite E in Eg. injection Eg as ->.
  destruct (Hx Hext) as [Hn He]. 
  assert (HE : forall a b w, edge_w g a b w -> sg_edge isx dh dw T a b).
  { intros a b w H. apply He. by rewrite <-(Hu _ _ _ H). }
  assert (HD : forall n, n ∈ pg_nodes (lg_g g) -> sg_node isx dh dw T n) by (intros n H; by apply Hn in H as [_ ?]).
  unfold draw, shown_as. case_bool_decide as H1.
  - split; [done|]. change (draw3D T (lg_g g)) with (pict g (point3 T) add3 (colour T <$> pg_nodes (lg_g g))). split_and!.
    + apply pict_nodes; [done|]. intros a b Ha Hb. apply (point3_inj isx dh dw); left; by apply HD.
    + apply pict_texts; [done| |].
      * intros a b w a' b' w' H2%HE H3%HE. by apply (mid_inj isx dh dw T Hext).
      * intros n a b w H2%HD H3%HE. by apply (mid_off isx dh dw T Hext).
    + apply pict_faithful; [done|apply add3_comm].
  - assert (ET : T = 1) by lia. split; [done|]. change (draw2D (lg_g g)) with (pict g point2 add2 []).
    assert (HF : forall a b w, edge_w g a b w -> sg_node isx dh dw T a /\ sg_node isx dh dw T b).
    { intros a b w H. destruct (edge_w_node _ _ _ _ H). split; by apply HD. }
    split_and!.
    + apply pict_nodes; [done|]. intros a b Ha Hb. apply (point2_inj isx dh dw T); [done|left; by apply HD|left; by apply HD].
    + apply pict_texts; [done| |].
      * intros a b w a' b' w' H2 H3 E'. apply (mid_inj isx dh dw T Hext); [by eapply HE|by eapply HE|].
        destruct (HF _ _ _ H2) as [F1 F2], (HF _ _ _ H3) as [F3 F4].
        rewrite (flat_point a isx dh dw), (flat_point b isx dh dw), (flat_point a' isx dh dw), (flat_point b' isx dh dw), !add_flat by done. by rewrite E'.
      * intros n a b w H2%HD H3 E'. destruct (HF _ _ _ H3) as [F1 F2]. apply (mid_off isx dh dw T Hext n a b H2 (HE _ _ _ H3)).
        rewrite (flat_point a isx dh dw), (flat_point b isx dh dw), (flat_point n isx dh dw), !add_flat by done. by rewrite E'.
    + apply pict_faithful; [done|apply add2_comm].
Qed.
Print Assumptions C77_decoding_graph.

(** The colour of a node tells its round, and is on the colour map. *)
Theorem C77_colours isx dh dw T g p i j a b ca cb : valid_size dh dw -> 3 <= extent isx dh dw -> make_syndrome_graph isx dh dw T = Ok g ->
  draw T (lg_g g) = Shown p -> pg_nodes (lg_g g) !! i = Some a -> pg_nodes (lg_g g) !! j = Some b -> pic_cols p !! i = Some ca -> pic_cols p !! j = Some cb ->
  (0 <= ca)%Qc /\ (ca <= 1)%Qc /\ (ca = cb <-> n_time a = n_time b).
Proof.
  intros Hv Hext Eg Hd Ha Hb Hca Hcb. destruct (syndrome_graph_ok isx dh dw Hv T) as (g' & E & Hok & Hu & Hx). rewrite E in Eg. injection Eg as ->.
  destruct (Hx Hext) as [Hn _]. unfold draw in Hd. case_bool_decide as HT; [|done]. injection Hd as <-. cbn in Hca, Hcb.
  rewrite list_lookup_fmap, Ha in Hca. rewrite list_lookup_fmap, Hb in Hcb. injection Hca as <-. injection Hcb as <-.
  assert (Hr : -1 <= n_time a < T).
  { destruct (proj1 (Hn a)) as [_ [_ Hs]]; [by eapply elem_of_list_lookup_2|]. unfold n_time. destruct (decide _); lia. }
  unfold colour. split_and!.
  - unfold Qcle. cbn [this Q2Qc]. rewrite !Qred_correct. unfold Qle. cbn [Qnum Qden]. lia.
  - unfold Qcle. cbn [this Q2Qc]. rewrite !Qred_correct. unfold Qle. cbn [Qnum Qden]. rewrite Z2Pos.id by lia. lia.
  - split; [|by intros ->]. intros EQ. apply (f_equal this) in EQ. cbn [this Q2Qc] in EQ.
    assert (EQ' : ((n_time a + 1) # Z.to_pos T == (n_time b + 1) # Z.to_pos T)%Q) by (rewrite <-(Qred_correct (_ # _)), EQ; apply Qred_correct).
    unfold Qeq in EQ'. cbn [Qnum Qden] in EQ'. rewrite Z2Pos.id in EQ' by lia. nia.
Qed.
Print Assumptions C77_colours.

(** The graph that is matched, and the graph of the matches. *)
Theorem C77_error_graph isx dh dw T g rx ep ev : valid_size dh dw -> 3 <= extent isx dh dw -> 1 <= T -> make_syndrome_graph isx dh dw T = Ok g -> rx_ok rx ->
  NoDup ev -> (forall n, n ∈ ev -> n ∈ pg_nodes (lg_g g) /\ 0 <= n_time n) ->
  exists nodes eg mg, make_error_graph 0 (weigh_plain rx g) (virtual_nodes isx dh dw) ev tt = (nodes, Ok eg) /\
    run_mwpm_graph rx (plain_wfn ep) eg = Ok mg /\
    shown_as T (draw T (lg_g eg)) (fun p => apart_nodes p /\ faithful add2 p eg) (fun p => apart_nodes p /\ faithful add3 p eg) /\
    shown_as T (draw T (lg_g mg)) apart_nodes apart_nodes.
Proof.
  intros Hv Hext HT Hg Hrx Hnd Hev.
  destruct (error_graph_spec rx Hrx isx dh dw T g Hv Hext HT Hg ev (conj Hnd Hev)) as (eg & E & Heg & Hnodes & _).
  destruct (C59_matches_as_graph rx (plain_wfn ep) eg Hrx (ok_nodup eg Heg) (ok_edges eg Heg)) as (ms & mg & Hr & Hrg & Hn1 & Hn2 & He & Hme & Hms).
  exists (ev ++ virt isx dh dw), eg, mg. split; [done|]. split; [done|].
  destruct (sg_facts isx dh dw T g Hv Hext HT Hg) as (_ & _ & Hsg & _).
  assert (HD : forall n, n ∈ pg_nodes (lg_g eg) -> drawable isx dh dw T n).
  { intros n. rewrite Hnodes. unfold eg_nodes. rewrite app_assoc, elem_of_app. intros [Hn|Hn].
    - left. apply Hsg. by apply (ev_virt isx dh dw T g Hv Hext HT Hg ev n (conj Hnd Hev)).
    - destruct (is_odd ev); [apply elem_of_list_singleton in Hn as ->; by right|by apply elem_of_nil in Hn]. }
  assert (HM : forall n, n ∈ pg_nodes (lg_g mg) -> drawable isx dh dw T n).
  { intros n Hn. apply HD. apply Hn2 in Hn. unfold pends in Hn. apply elem_of_list_bind in Hn as (ab & Hl & Hab).
    destruct ab as [a b]. destruct (Hme a b Hab) as [w Hw]. destruct (edge_w_node _ _ _ _ Hw). cbn in Hl.
    apply elem_of_cons in Hl as [->|Hl]; [done|]. by apply elem_of_list_singleton in Hl as ->. }
  unfold draw, shown_as. case_bool_decide as H1.
  - split; (split; [done|]).
    + change (draw3D T (lg_g eg)) with (pict eg (point3 T) add3 (colour T <$> pg_nodes (lg_g eg))). split.
      * apply pict_nodes; [done|]. intros a b Ha Hb. apply (point3_inj isx dh dw); by apply HD.
      * apply pict_faithful; [done|apply add3_comm].
    + unfold apart_nodes. cbn. rewrite <-list_fmap_compose. apply NoDup_fmap_2_strong; [|done]. intros a b Ha Hb. apply (point3_inj isx dh dw); by apply HM.
  - assert (ET : T = 1) by lia. split; (split; [done|]).
    + change (draw2D (lg_g eg)) with (pict eg point2 add2 []). split.
      * apply pict_nodes; [done|]. intros a b Ha Hb. apply (point2_inj isx dh dw T _ _ ET); by apply HD.
      * apply pict_faithful; [done|apply add2_comm].
    + unfold apart_nodes. cbn. rewrite <-list_fmap_compose. apply NoDup_fmap_2_strong; [|done]. intros a b Ha Hb. apply (point2_inj isx dh dw T _ _ ET); by apply HM.
Qed.
Print Assumptions C77_error_graph.

(** A 3 x 3 lattice and three layers: three times four stabilizers and four boundary nodes, with
    the boundary at the height of the middle layer. *)
Example C77_ex : exists g p, make_syndrome_graph false 3 3 3 = Ok g /\ draw 3 (lg_g g) = Shown p /\ length (pic_nodes p) = 16%nat /\
  length (pic_texts p) = 35%nat /\ ((-1, 1, 2), (-1, -1, -1)) ∈ pic_nodes p.
Proof.
  assert (H : match make_syndrome_graph false 3 3 3 with Ok g => match draw 3 (lg_g g) with Shown p =>
    bool_decide (length (pic_nodes p) = 16%nat) && bool_decide (length (pic_texts p) = 35%nat) && bool_decide (((-1, 1, 2), (-1, -1, -1)) ∈ pic_nodes p) | _ => false end | _ => false end = true) by (vm_compute; reflexivity).
  destruct (make_syndrome_graph false 3 3 3) as [g|]; [|done]. destruct (draw 3 (lg_g g)) as [|p] eqn:E; [done|].
  apply andb_true_iff in H as [[H1%bool_decide_eq_true H2%bool_decide_eq_true]%andb_true_iff H3%bool_decide_eq_true]. exists g, p. done.
Qed.
