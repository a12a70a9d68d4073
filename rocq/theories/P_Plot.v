(** Property C78: pictures of analyses. *)
From Coq Require Import Ascii QArith Qcanon.
From Verif Require Import Names BenchFacts P_Bench Plot.
From stdpp Require Export list strings gmap.
Open Scope Z_scope.

(** ** What should be drawn *)
Section spec.
(** The points of an analysis; the logical rates divided by T if they are asked for per round. *)
Definition rates (an : analysis) (per_round : bool) : list (Qc * Qc) :=
  (fun pl => (pl.1, if per_round then pl.2 / qz (a_T an) else pl.2)%Qc) <$> zip (a_phys an) (a_log an).
Definition curve_of (an : analysis) (per_round : bool) (label : option string) : curve := Curve (rates an per_round) ".:" label.
(** Axes after a curve has been added, with logarithmic scales if asked for. *)
Definition added (c : curve) (log : bool) (x : axs) : axs := Axs (ax_curves x ++ [c]) (if log then (true, true) else ax_log x) (ax_legend x) (ax_texts x).
Definition one_curve (c : curve) (log : bool) : figure := Fig [added c log blank] 0.
(** Both arrays have the same length. *)
Definition sound (an : analysis) : Prop := length (a_phys an) = length (a_log an).
(** The picture of several analyses. *)
Definition comparison (ans : list analysis) (log : bool) : figure :=
  Fig [Axs (((fun an => curve_of an false (Some (batch_label an))) <$> ans)
            ++ [Curve ((fun p => (p, p)) <$> default [] (a_phys <$> head ans)) "-" (Some "breakeven")])
           (log, log) true ("Physical Error Rate", "Logical Error Rate", "Comparison of Codes")%string] 0.
(** The current axes are number [a] of figure [f]. *)
Definition current (s : pyplot) (f a : nat) (x : axs) : Prop :=
  cur s = Some f /\ exists g : figure, figs s !! f = Some g /\ fig_cur g = a /\ fig_axes g !! a = Some x.
(** The same state except for the axes [a] of figure [f], which are now [x]. *)
Definition only_axes (s s' : pyplot) (f a : nat) (x : axs) : Prop :=
  cur s' = cur s /\ pngs s' = pngs s /\ length (figs s') = length (figs s) /\
  (forall f', f' <> f -> figs s' !! f' = figs s !! f') /\
  exists g g' : figure, figs s !! f = Some g /\ figs s' !! f = Some g' /\ fig_cur g' = fig_cur g /\ fig_axes g' = <[a := x]> (fig_axes g).
End spec.

Lemma zip_rates an (pr : bool) : sound an -> zip (a_phys an) ((fun y => y / (if pr then qz (a_T an) else qz 1))%Qc <$> a_log an) = rates an pr.
Proof.
  unfold sound, rates. generalize (a_log an). induction (a_phys an) as [|p ps IHl]; intros [|y ys] H; try done.
  cbn [fmap list_fmap zip zip_with] in *. f_equal; [|apply IHl; cbn in H; lia]. cbn [fst snd]. destruct pr; [done|]. f_equal.
  change (qz 1) with (Q2Qc 1). field. done.
Qed.
Lemma zip_self (ps : list Qc) : zip ps ps = (fun p => (p, p)) <$> ps.
Proof. induction ps as [|p ps IHl]; [done|]. cbn. by f_equal. Qed.

(** ** The current axes *)
Lemma gca_current s f a x : current s f a x -> gca s = (s, (f, a)).
Proof.
  intros (Hc & [ax c] & Hg & Ha & Hx). unfold gca, gcf. rewrite Hc, Hg. destruct ax as [|y ys]; [done|]. by cbn in Ha; subst c.
Qed.
Lemma only_axes_on h s f a x : current s f a x -> only_axes s (on_axes h (f, a) s) f a (h x) /\ current (on_axes h (f, a) s) f a (h x).
Proof.
  intros (Hc & g & Hg & Ha & Hx). unfold only_axes, current, on_axes. cbn [figs cur pngs fst snd].
  set (g' := Fig (alter h a (fig_axes g)) (fig_cur g)).
  assert (E : alter (fun g => Fig (alter h a (fig_axes g)) (fig_cur g)) f (figs s) !! f = Some g') by (rewrite list_lookup_alter, Hg; done).
  assert (Ea : alter h a (fig_axes g) = <[a := h x]> (fig_axes g)).
  { apply list_eq. intros i. destruct (decide (i = a)) as [-> |Hne].
    - rewrite list_lookup_alter, Hx. rewrite list_lookup_insert; [done|]. by eapply lookup_lt_Some.
    - rewrite list_lookup_alter_ne by done. by rewrite list_lookup_insert_ne. }
  split.
  - split; [done|]. split; [done|]. split; [apply alter_length|]. split; [intros f' Hf'; by apply list_lookup_alter_ne|].
    exists g, g'. done.
  - split; [done|]. exists g'. split; [done|]. split; [done|]. cbn. rewrite list_lookup_alter, Hx. done.
Qed.
Lemma only_axes_trans s1 s2 s3 f a x y : only_axes s1 s2 f a x -> only_axes s2 s3 f a y -> only_axes s1 s3 f a y.
Proof.
  intros (A1 & A2 & A3 & A4 & g1 & g2 & A5 & A6 & A7 & A8) (B1 & B2 & B3 & B4 & g2' & g3 & B5 & B6 & B7 & B8).
  assert (g2' = g2) as -> by congruence.
  split; [congruence|]. split; [congruence|]. split; [congruence|]. split; [intros f' Hf'; by rewrite B4, A4|].
  exists g1, g3. split; [done|]. split; [done|]. split; [congruence|]. rewrite B8, A8. apply list_insert_insert.
Qed.
Lemma finish_plot an (log pr : bool) label s f a x : current s f a x -> sound an ->
  exists s', (match plt_plot (a_phys an) ((fun y => y / (if pr then qz (a_T an) else qz 1))%Qc <$> a_log an) ".:" label s with
    | (s, Err e) => (s, Err e)
    | (s, Ok _) => (if log then on_gca log_x (on_gca log_y s) else s, Ok tt)
    end) = (s', Ok tt) /\ only_axes s s' f a (added (curve_of an pr label) log x) /\ current s' f a (added (curve_of an pr label) log x).
Proof.
  intros Hc Hs. unfold plt_plot. rewrite (gca_current _ _ _ _ Hc). rewrite bool_decide_eq_true_2 by (by rewrite fmap_length). rewrite zip_rates by done.
  fold (curve_of an pr label). destruct (only_axes_on (add_curve (curve_of an pr label)) s f a x Hc) as [O1 C1].
  destruct log; [|eexists; split; [done|]; split; [exact O1|exact C1]].
  unfold on_gca. rewrite (gca_current _ _ _ _ C1). destruct (only_axes_on log_y _ f a _ C1) as [O2 C2].
  rewrite (gca_current _ _ _ _ C2). destruct (only_axes_on log_x _ f a _ C2) as [O3 C3].
  eexists. split; [done|]. split; [|exact C3]. eapply only_axes_trans; [|exact O3]. by eapply only_axes_trans.
Qed.
(** Figures and axes that are passed are not looked at; the curve goes to the current axes. *)
Theorem C78_current_axes an f a log pr label s cf ca x : sound an -> current s cf ca x ->
  exists s', analysis_plot an (Some f) (Some a) log pr label s = (s', Ok tt) /\
    only_axes s s' cf ca (added (curve_of an pr label) log x).
Proof.
  intros Hs Hc. unfold analysis_plot. destruct (finish_plot an log pr label s cf ca x Hc Hs) as (s' & E & O & _). by exists s'.
Qed.
Print Assumptions C78_current_axes.

(** ** Figures of its own *)
Lemma lone_current l x m : current (Plt (l ++ [Fig [x] 0]) (Some (length l)) m) (length l) 0 x.
Proof. split; [done|]. exists (Fig [x] 0). cbn. by rewrite lookup_app_r, Nat.sub_diag. Qed.
Lemma lone_only l x m s' y : only_axes (Plt (l ++ [Fig [x] 0]) (Some (length l)) m) s' (length l) 0 y -> s' = Plt (l ++ [Fig [y] 0]) (Some (length l)) m.
Proof.
  intros (A1 & A2 & A3 & A4 & g & g' & A5 & A6 & A7 & A8). destruct s' as [fs c m']. cbn [cur pngs figs] in *. subst. f_equal.
  rewrite lookup_app_r, Nat.sub_diag in A5 by lia. injection A5 as <-. destruct g' as [ax c']. cbn in A7, A8. subst.
  apply list_eq. intros i. destruct (decide (i = length l)) as [-> |Hne]; [by rewrite A6, lookup_app_r, Nat.sub_diag by lia|].
  rewrite A4 by done. destruct (decide (i < length l)%nat); [by rewrite !lookup_app_l by done|]. rewrite !lookup_ge_None_2; [done|rewrite app_length; cbn; lia..].
Qed.
Lemma new_axes l m : fig_subplots (Plt (l ++ [Fig [] 0]) (Some (length l)) m) (length l) = (Plt (l ++ [Fig [blank] 0]) (Some (length l)) m, (length l, 0%nat)).
Proof.
  unfold fig_subplots. cbn [figs cur pngs]. rewrite lookup_app_r, Nat.sub_diag by lia. cbn. f_equal. f_equal.
  clear. induction l as [|g l IHl]; [done|]. cbn. by f_equal.
Qed.
(** Without arguments, and also if only axes are passed, a new figure with one curve is made; no
    other figure changes, in particular not that of the axes. *)
Theorem C78_new_figure an ax log pr label s : sound an ->
  analysis_plot an None ax log pr label s = (Plt (figs s ++ [one_curve (curve_of an pr label) log]) (Some (length (figs s))) (pngs s), Ok tt).
Proof.
  intros Hs. unfold analysis_plot, plt_figure. destruct ax as [a|].
  - unfold plt_plot. unfold gca at 1, gcf at 1. cbn [cur figs pngs]. rewrite lookup_app_r, Nat.sub_diag by lia. cbn [lookup list_lookup]. rewrite new_axes.
    pose proof (finish_plot an log pr label _ _ _ _ (lone_current (figs s) blank (pngs s)) Hs) as (s' & E & O & _).
    unfold plt_plot in E. rewrite (gca_current _ _ _ _ (lone_current _ _ _)) in E. rewrite E. by apply lone_only in O as ->.
  - rewrite new_axes. pose proof (finish_plot an log pr label _ _ _ _ (lone_current (figs s) blank (pngs s)) Hs) as (s' & E & O & _).
    rewrite E. by apply lone_only in O as ->.
Qed.
Print Assumptions C78_new_figure.
(** So is it if a figure and axes are passed but no figure is current (all have been closed). *)
Theorem C78_closed an f a log pr label s : sound an -> cur s = None ->
  analysis_plot an (Some f) (Some a) log pr label s = (Plt (figs s ++ [one_curve (curve_of an pr label) log]) (Some (length (figs s))) (pngs s), Ok tt).
Proof.
  intros Hs Hc. rewrite <- (C78_new_figure an (Some a) log pr label s Hs). unfold analysis_plot, plt_plot, gca, gcf. rewrite Hc. done.
Qed.
Print Assumptions C78_closed.

(** If only a figure is passed, it gets new axes; the curve is drawn there exactly if that figure is the current one. *)
Theorem C78_figure an f g log pr label s : sound an -> figs s !! f = Some g ->
  (cur s = Some f -> exists s', analysis_plot an (Some f) None log pr label s = (s', Ok tt) /\ cur s' = cur s /\ pngs s' = pngs s /\
     figs s' = <[f := Fig (fig_axes g ++ [added (curve_of an pr label) log blank]) (length (fig_axes g))]> (figs s)) /\
  (forall cf ca x, current s cf ca x -> cf <> f -> exists s', analysis_plot an (Some f) None log pr label s = (s', Ok tt) /\
     figs s' !! f = Some (Fig (fig_axes g ++ [blank]) (length (fig_axes g))) /\
     exists h h', figs s !! cf = Some h /\ figs s' !! cf = Some h' /\ fig_axes h' = <[ca := added (curve_of an pr label) log x]> (fig_axes h)).
Proof.
  intros Hs Hg. unfold analysis_plot, fig_subplots.
  set (s1 := Plt (alter (fun g => Fig (fig_axes g ++ [blank]) (length (fig_axes g))) f (figs s)) (cur s) (pngs s)).
  assert (E1 : figs s1 !! f = Some (Fig (fig_axes g ++ [blank]) (length (fig_axes g)))) by (cbn; by rewrite list_lookup_alter, Hg).
  split.
  - intros Hc. assert (C1 : current s1 f (length (fig_axes g)) blank).
    { split; [done|]. eexists. split; [exact E1|]. cbn. split; [done|]. by rewrite lookup_app_r, Nat.sub_diag by lia. }
    destruct (finish_plot an log pr label _ _ _ _ C1 Hs) as (s' & E & (A1 & A2 & A3 & A4 & h & h' & A5 & A6 & A7 & A8) & _).
    exists s'. split; [exact E|]. split; [by rewrite A1|]. split; [by rewrite A2|]. rewrite E1 in A5. injection A5 as <-. cbn in A7, A8.
    rewrite insert_app_r_alt, Nat.sub_diag in A8 by lia. cbn in A8. destruct h' as [ax c]. cbn in A7, A8. subst.
    apply list_eq. intros i. destruct (decide (i = f)) as [-> |Hne].
    + rewrite A6. by rewrite list_lookup_insert by (by eapply lookup_lt_Some).
    + rewrite A4, list_lookup_insert_ne by done. cbn. by rewrite list_lookup_alter_ne.
  - intros cf ca x (C1 & h & C2 & C3 & C4) Hne. assert (C : current s1 cf ca x).
    { split; [done|]. exists h. split; [|done]. cbn. by rewrite list_lookup_alter_ne. }
    destruct (finish_plot an log pr label _ _ _ _ C Hs) as (s' & E & (A1 & A2 & A3 & A4 & k & k' & A5 & A6 & A7 & A8) & _).
    exists s'. split; [exact E|]. split; [by rewrite A4|]. assert (k = h) as ->; [|by exists h, k'].
    cbn in A5. rewrite list_lookup_alter_ne in A5 by done. congruence.
Qed.
Print Assumptions C78_figure.

(** Arrays of different lengths. *)
Lemma plot_unsound an f a log pr label s : ~ sound an -> (analysis_plot an f a log pr label s).2 = Err ValueError /\ pngs (analysis_plot an f a log pr label s).1 = pngs s.
Proof.
  intros Hs. unfold analysis_plot.
  set (s1 := match f with None => plt_figure s | Some f => (s, f) end).
  assert (P1 : pngs s1.1 = pngs s) by (unfold s1; destruct f; done). destruct s1 as [s1 f1]. cbn in P1.
  set (s2 := match a with None => fig_subplots s1 f1 | Some a => (s1, a) end).
  assert (P2 : pngs s2.1 = pngs s) by (unfold s2; destruct a; done). destruct s2 as [s2 a2]. cbn in P2.
  unfold plt_plot. assert (P3 : pngs (gca s2).1 = pngs s).
  { unfold gca, gcf. destruct (cur s2) as [c|]; cbn [plt_figure]; destruct (figs _ !! _) as [[[|??]?]|]; cbn; done. }
  destruct (gca s2) as [s3 a3]. cbn in P3. rewrite bool_decide_eq_false_2 by (by rewrite fmap_length). done.
Qed.
Theorem C78_unequal an f a log pr label s : (analysis_plot an f a log pr label s).2 = Err ValueError \/ sound an.
Proof. destruct (decide (length (a_phys an) = length (a_log an))); [by right|]. left. by apply plot_unsound. Qed.
Print Assumptions C78_unequal.

(** ** Batches *)
Lemma plot_all_ok l m f ax log ans : Forall sound ans -> forall x, 
  plot_all f ax log ans (Plt (l ++ [Fig [x] 0]) (Some (length l)) m)
  = (Plt (l ++ [Fig [Axs (ax_curves x ++ ((fun an => curve_of an false (Some (batch_label an))) <$> ans))
       (if log then match ans with [] => ax_log x | _ => (true, true) end else ax_log x) (ax_legend x) (ax_texts x)] 0]) (Some (length l)) m, Ok tt).
Proof.
  induction ans as [|an ans IHl]; intros Hs x.
  - cbn. rewrite app_nil_r. destruct x, log; done.
  - apply Forall_cons in Hs as [Hs1 Hs2]. cbn [plot_all]. destruct (C78_current_axes an f ax log false (Some (batch_label an)) _ _ _ _ Hs1 (lone_current l x m)) as (s' & -> & O).
    apply lone_only in O as ->. rewrite IHl by done. unfold added. cbn [ax_curves ax_log ax_legend ax_texts fmap list_fmap]. rewrite <- app_assoc. cbn.
    do 7 f_equal. destruct log, ans; done.
Qed.
Lemma plot_all_unsound f ax log ans : ~ Forall sound ans -> forall s, (plot_all f ax log ans s).2 = Err ValueError /\ pngs (plot_all f ax log ans s).1 = pngs s.
Proof.
  induction ans as [|an ans IHl]; intros Hs s; [by destruct Hs|]. cbn [plot_all].
  destruct (decide (length (a_phys an) = length (a_log an))) as [He|He].
  - assert (Hs2 : ~ Forall sound ans) by (contradict Hs; by constructor).
    assert (Hk : forall s, (analysis_plot an (Some f) (Some ax) log false (Some (batch_label an)) s).2 = Ok tt /\ pngs (analysis_plot an (Some f) (Some ax) log false (Some (batch_label an)) s).1 = pngs s).
    { clear s. intros s. unfold analysis_plot, plt_plot.
      assert (P : forall s, pngs (gca s).1 = pngs s) by (intros s0; unfold gca, gcf; destruct (cur s0) as [c|]; cbn [plt_figure]; destruct (figs _ !! _) as [[[|??]?]|]; cbn; done).
      pose proof (P s) as P1. destruct (gca s) as [s1 a1]. cbn in P1. rewrite bool_decide_eq_true_2 by (by rewrite fmap_length).
      assert (Q : forall h s, pngs (on_gca h s) = pngs s) by (intros h s0; unfold on_gca; pose proof (P s0) as P0; destruct (gca s0); exact P0).
      split; [done|]. cbn [fst]. destruct log; [rewrite !Q|]; exact P1. }
    destruct (Hk s) as [E1 E2]. destruct (analysis_plot _ _ _ _ _ _ _) as [s1 r1]. cbn in E1, E2. subst r1. destruct (IHl Hs2 s1) as [F1 F2]. split; [done|]. congruence.
  - destruct (plot_unsound an (Some f) (Some ax) log false (Some (batch_label an)) s He) as [E1 E2].
    destruct (analysis_plot _ _ _ _ _ _ _) as [s1 r1]. cbn in E1, E2. subst r1. done.
Qed.

Section batch.
Context (after : option nat -> option nat) (dirname : string).
Lemma batch1_ok ans log s : ans <> [] -> Forall sound ans ->
  batch_plot1 after dirname ans log s
  = (Plt (figs s ++ [comparison ans log]) (after (Some (length (figs s)))) (<[(dirname +:+ "comparison" +:+ (if log then "_log" else "") +:+ ".png")%string := comparison ans log]> (pngs s)), Ok tt).
Proof.
  intros Hne Hs. unfold batch_plot1, plt_figure. rewrite new_axes, plot_all_ok by done. destruct ans as [|an ans]; [done|].
  set (x := Axs _ _ _ _). unfold plt_plot. rewrite (gca_current _ _ _ _ (lone_current _ _ _)). rewrite bool_decide_eq_true_2 by done. rewrite zip_self.
  set (c := Curve _ _ _).
  destruct (only_axes_on (add_curve c) _ _ _ _ (lone_current (figs s) x (pngs s))) as [O _]. apply lone_only in O. rewrite O. clear O.
  unfold on_gca. rewrite (gca_current _ _ _ _ (lone_current _ _ _)).
  destruct (only_axes_on with_legend _ _ _ _ (lone_current (figs s) (add_curve c x) (pngs s))) as [O _]. apply lone_only in O. rewrite O. clear O.
  match goal with |- context [with_texts ?t] => destruct (only_axes_on (with_texts t) _ _ _ _ (lone_current (figs s) (with_legend (add_curve c x)) (pngs s))) as [O _] end.
  apply lone_only in O. rewrite O. clear O.
  unfold plt_savefig, gcf. cbn [cur figs]. rewrite lookup_app_r, Nat.sub_diag by lia. cbn [lookup list_lookup]. unfold plt_show. cbn [cur figs pngs].
  assert (Ec : Fig [with_texts ("Physical Error Rate", "Logical Error Rate", "Comparison of Codes")%string (with_legend (add_curve c x))] 0 = comparison (an :: ans) log).
  { unfold comparison, with_texts, with_legend, add_curve, x, c, blank. cbn [ax_curves ax_log ax_legend ax_texts app]. f_equal. f_equal. destruct log; done. }
  rewrite Ec. done.
Qed.
(** Two figures are added, the comparison on logarithmic and on linear scales, and saved. *)
Theorem C78_batch ans s : ans <> [] -> Forall sound ans ->
  exists s', batch_plot after dirname ans s = (s', Ok tt) /\ figs s' = figs s ++ [comparison ans true; comparison ans false] /\
    pngs s' = <[(dirname +:+ "comparison.png")%string := comparison ans false]> (<[(dirname +:+ "comparison_log.png")%string := comparison ans true]> (pngs s)).
Proof.
  intros Hne Hs. unfold batch_plot. rewrite batch1_ok by done. rewrite batch1_ok by done. eexists. split; [done|]. cbn [figs pngs]. split; [by rewrite <- app_assoc|done].
Qed.
(** An empty directory is an IndexError, unequal arrays a ValueError; then nothing is saved. *)
Theorem C78_batch_fails ans s : ans = [] \/ ~ Forall sound ans ->
  exists s', batch_plot after dirname ans s = (s', Err (if bool_decide (length ans = 0%nat) then IndexError else ValueError)) /\ pngs s' = pngs s.
Proof.
  intros Hf. unfold batch_plot, batch_plot1, plt_figure. rewrite new_axes. destruct ans as [|an ans]; [eexists; split; [done|done]|].
  destruct Hf as [? |Hf]; [done|]. match goal with |- context [plot_all ?f ?a ?l ?t ?s] => destruct (plot_all_unsound f a l _ Hf s) as [E1 E2]; destruct (plot_all f a l t s) as [s1 r1] end.
  cbn in E1, E2. subst r1. eexists. split; [done|done].
Qed.
End batch.
Print Assumptions C78_batch.
Print Assumptions C78_batch_fails.

(** Curves have the same label exactly if they agree on d and T. *)
Theorem C78_labels an an' : batch_label an = batch_label an' <-> a_d an = a_d an' /\ a_T an = a_T an'.
Proof.
  unfold batch_label. split; [|by intros [-> ->]]. destruct (a_d an) as [h w], (a_d an') as [h' w']. cbn [fst snd]. intros H.
  apply (append_inj_l "d=(") in H. apply (ch_split ","%char) in H as [E1 H]; [|apply no_ch_py_str; tauto..]. apply py_str_inj in E1 as ->.
  apply (append_inj_l " ") in H. apply (ch_split ")"%char) in H as [E2 H]; [|apply no_ch_py_str; tauto..]. apply py_str_inj in E2 as ->.
  apply (append_inj_l ",T=") in H. by apply py_str_inj in H as ->.
Qed.
Print Assumptions C78_labels.

(** Every point ever appended to a data file of the directory is on the curve of its d and T in both pictures. *)
Theorem C78_every_point np after dirname ops fs fnames s : np_ok np -> (forall fn, fn ∈ fnames -> readable (fs !! fn)) ->
  (exists o, o ∈ ops /\ b_filename o.1 ∈ fnames) ->
  match batch np (appends np ops fs) fnames with
  | None => exists fn, fn ∈ fnames /\ load_data (appends np ops fs) fn = None
  | Some ans => exists s', batch_plot after dirname ans s = (s', Ok tt) /\
      forall file, file = "comparison.png"%string \/ file = "comparison_log.png"%string ->
      exists x, pngs s' !! (dirname +:+ file)%string = Some (Fig [x] 0) /\ ax_log x = (bool_decide (file <> "comparison.png"%string), bool_decide (file <> "comparison.png"%string)) /\
        forall b pt, (b, pt) ∈ ops -> b_filename b ∈ fnames ->
          exists c an, c ∈ ax_curves x /\ cv_label c = Some (batch_label an) /\ a_d an = b_d b /\ a_T an = b_T b /\ pt ∈ cv_points c
  end.
Proof.
  intros Hnp Hr [[b0 pt0] [Ho Hf]]. cbn in Hf. pose proof (C48_batch np (appends np ops fs) fnames Hnp) as HB. destruct (batch np (appends np ops fs) fnames) as [ans|]; [|done].
  destruct HB as (loaded & HL & HP & _).
  assert (Hall : forall fn, fn ∈ fnames -> exists an, load_data (appends np ops fs) fn = Some an /\ an ∈ ans).
  { intros fn Hin. apply elem_of_list_lookup in Hin as [i Hi]. destruct (Forall2_lookup_l _ _ _ _ _ HL Hi) as (an & Hi' & Han). exists an. split; [done|].
    rewrite HP. by eapply elem_of_list_lookup_2. }
  assert (Hs : Forall sound ans).
  { rewrite HP. apply list.Forall_forall. intros an Hin. apply elem_of_list_lookup in Hin as [i Hi]. destruct (Forall2_lookup_r _ _ _ _ _ HL Hi) as (fn & Hi' & Han).
    apply elem_of_list_lookup_2 in Hi'. destruct (C38_appends np Hnp ops fs fn (Hr fn Hi')) as [H1 H2].
    unfold load_data in Han. destruct (last (mine fn ops)) as [[b pt]|] eqn:El.
    - destruct (H2 _ _ eq_refl) as (ps & ls & E & _ & Hl & _). rewrite E in Han. by injection Han as <-.
    - apply last_None in El. rewrite (H1 El) in Han. specialize (Hr fn Hi'). destruct (fs !! fn) as [[|d T ps ls]|]; [done| |done]. by injection Han as <-. }
  assert (Hne : ans <> []). { destruct (Hall _ Hf) as (an & _ & Hin). intros ->. by apply elem_of_nil in Hin. }
  destruct (C78_batch after dirname ans s Hne Hs) as (s' & E & _ & Hp). exists s'. split; [done|]. intros file Hfile.
  set (log := bool_decide (file <> "comparison.png"%string)).
  assert (Hx : pngs s' !! (dirname +:+ file)%string = Some (comparison ans log)).
  { rewrite Hp. destruct Hfile as [-> | ->].
    - apply lookup_insert.
    - rewrite lookup_insert_ne; [apply lookup_insert|]. intros H. by apply append_inj_l in H. }
  unfold comparison in Hx. match type of Hx with _ = Some (Fig [?x] 0) => exists x end. split; [exact Hx|]. split; [done|]. intros b pt Hin Hfb.
  destruct (C47_own_parameters np ops fs b pt Hnp (Hr _ Hfb) Hin) as (an & Ha & Hd & HT & Hpt).
  destruct (Hall _ Hfb) as (an' & Ha' & Hin'). assert (an' = an) as -> by congruence.
  exists (curve_of an false (Some (batch_label an))), an. cbn [ax_curves]. split; [apply elem_of_app; left; apply elem_of_list_fmap; by exists an|].
  split; [done|]. split; [done|]. split; [done|]. cbn. unfold rates. apply elem_of_list_fmap. exists pt. split; [by destruct pt|done].
Qed.
Print Assumptions C78_every_point.

(** ** Examples *)
Definition ex_an : analysis := Analysis (3, 3) 2 [qz 1 / qz 10; qz 2 / qz 10]%Qc [qz 1 / qz 50; qz 3 / qz 25]%Qc.
Example C78_ex_label : batch_label ex_an = "d=(3, 3),T=2"%string.
Proof. vm_compute. done. Qed.
Example C78_ex_rates : rates ex_an true = [(qz 1 / qz 10, qz 1 / qz 100); (qz 2 / qz 10, qz 3 / qz 50)]%Qc.
Proof. vm_compute. repeat f_equal; apply Qc_is_canon; done. Qed.
Example C78_ex_sound : Forall sound [ex_an].
Proof. by repeat constructor. Qed.
(** Axes of figure 0 are passed, but figure 0 stays empty. *)
Example C78_ex_ignored : figs (analysis_plot ex_an None (Some (0, 0)%nat) true false None (Plt [Fig [blank] 0] (Some 0%nat) ∅)).1
  = [Fig [blank] 0; one_curve (curve_of ex_an false None) true].
Proof. rewrite C78_new_figure by done. done. Qed.
(** Two figures, the second of which is current: a curve meant for the first ends up in the second. *)
Example C78_ex_current : current (Plt [Fig [blank] 0; Fig [blank] 0] (Some 1%nat) ∅) 1 0 blank.
Proof. split; [done|]. eexists. repeat split. Qed.
Example C78_ex_batch : exists s', batch_plot id "out/" [ex_an] (Plt [] None ∅) = (s', Ok tt) /\
  pngs s' !! "out/comparison.png"%string = Some (comparison [ex_an] false) /\ length (figs s') = 2%nat.
Proof. destruct (C78_batch id "out/" [ex_an] (Plt [] None ∅)) as (s' & E & F & P); [done|apply C78_ex_sound|]. exists s'. split; [done|]. rewrite P, F. split; [apply lookup_insert|done]. Qed.
