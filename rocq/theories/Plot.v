(** The pictures of analyses (tools/benchmarking.py, [plot]), and as much of matplotlib's state as
    they depend on: pyplot has a current figure, a figure has current axes, and [plt.plot],
    [plt.xscale], ... act on the current axes of the current figure.  Not modelled: sizes, fonts,
    layout, how a curve with values 0 looks on a logarithmic scale. *)
From Coq Require Import QArith Qcanon.
From Verif Require Export Bench.
From stdpp Require Export list strings gmap.
Open Scope Z_scope.

Record curve := Curve { cv_points : list (Qc * Qc); cv_style : string; cv_label : option string }.
(** [ax_log]: scales (x, y) are logarithmic; [ax_texts]: labels of the axes and title. *)
Record axs := Axs { ax_curves : list curve; ax_log : bool * bool; ax_legend : bool; ax_texts : string * string * string }.
Definition blank : axs := Axs [] (false, false) false (""%string, ""%string, ""%string).
(** A figure: its axes, and the number of the current ones. *)
Record figure := Fig { fig_axes : list axs; fig_cur : nat }.
(** All figures ever made (numbered in order), the current one, and the files saved. *)
Record pyplot := Plt { figs : list figure; cur : option nat; pngs : gmap string figure }.
Notation axes_id := (nat * nat)%type (only parsing).   (* a figure and a number within it *)

(** *** matplotlib *)
(** [plt.figure()] *)
Definition plt_figure (s : pyplot) : pyplot * nat :=
  (Plt (figs s ++ [Fig [] 0]) (Some (length (figs s))) (pngs s), length (figs s)).
(** [fig.subplots()]: new axes, which become the current ones of the figure. *)
Definition fig_subplots (s : pyplot) (f : nat) : pyplot * axes_id :=
  (Plt (alter (fun g => Fig (fig_axes g ++ [blank]) (length (fig_axes g))) f (figs s)) (cur s) (pngs s),
   (f, from_option (fun g => length (fig_axes g)) 0%nat (figs s !! f))).
(** [plt.gcf()]: the current figure, a new one if there is none. *)
Definition gcf (s : pyplot) : pyplot * nat := match cur s with Some f => (s, f) | None => plt_figure s end.
(** [plt.gca()]: the current axes of the current figure, new ones if it has none. *)
Definition gca (s : pyplot) : pyplot * axes_id :=
  let '(s, f) := gcf s in
  match figs s !! f with
  | Some (Fig [] _) => fig_subplots s f
  | Some g => (s, (f, fig_cur g))
  | None => (s, (f, 0%nat))
  end.
Definition on_axes (h : axs -> axs) (a : axes_id) (s : pyplot) : pyplot :=
  Plt (alter (fun g => Fig (alter h a.2 (fig_axes g)) (fig_cur g)) a.1 (figs s)) (cur s) (pngs s).
Definition add_curve (c : curve) (x : axs) : axs := Axs (ax_curves x ++ [c]) (ax_log x) (ax_legend x) (ax_texts x).
Definition log_x (x : axs) : axs := Axs (ax_curves x) (true, (ax_log x).2) (ax_legend x) (ax_texts x).
Definition log_y (x : axs) : axs := Axs (ax_curves x) ((ax_log x).1, true) (ax_legend x) (ax_texts x).
Definition with_legend (x : axs) : axs := Axs (ax_curves x) (ax_log x) true (ax_texts x).
Definition with_texts (t : string * string * string) (x : axs) : axs := Axs (ax_curves x) (ax_log x) (ax_legend x) t.
Definition on_gca (h : axs -> axs) (s : pyplot) : pyplot := let '(s, a) := gca s in on_axes h a s.
(** [plt.plot(xs, ys, style, label=label)]: ValueError if the lists differ in length. *)
Definition plt_plot (xs ys : list Qc) (style : string) (label : option string) (s : pyplot) : pyplot * res unit :=
  let '(s, a) := gca s in
  if bool_decide (length xs = length ys) then (on_axes (add_curve (Curve (zip xs ys) style label)) a s, Ok tt)
  else (s, Err ValueError).
(** [plt.savefig(fname)] *)
Definition plt_savefig (fname : string) (s : pyplot) : pyplot :=
  let '(s, f) := gcf s in
  match figs s !! f with Some g => Plt (figs s) (cur s) (<[fname := g]> (pngs s)) | None => s end.

(** benchmarking.py:234-250, [TopologicalAnalysis.plot], after [load_data], for T <> 0.  Of [kwargs] only the label.
    Figures and axes passed by the caller are numbers of existing ones. *)
Definition analysis_plot (an : analysis) (fig : option nat) (ax : option axes_id) (log per_round : bool) (label : option string)
    (s : pyplot) : pyplot * res unit :=
  let '(s, f) := match fig with None => plt_figure s | Some f => (s, f) end in
  let '(s, _) := match ax with None => fig_subplots s f | Some a => (s, a) end in
  match plt_plot (a_phys an) ((fun y => y / (if per_round then qz (a_T an) else qz 1))%Qc <$> a_log an) ".:" label s with
  | (s, Err e) => (s, Err e)
  | (s, Ok _) => (if log then on_gca log_x (on_gca log_y s) else s, Ok tt)
  end.

(** benchmarking.py:281-283, as with numpy 1 (numpy 2 prints the width as np.int64(...)). *)
Definition batch_label (an : analysis) : string :=
  ("d=(" +:+ py_str (a_d an).1 +:+ ", " +:+ py_str (a_d an).2 +:+ "),T=" +:+ py_str (a_T an))%string.
(** benchmarking.py:276-284 *)
Fixpoint plot_all (f : nat) (ax : axes_id) (log : bool) (ans : list analysis) (s : pyplot) : pyplot * res unit :=
  match ans with
  | [] => (s, Ok tt)
  | an :: ans =>
    match analysis_plot an (Some f) (Some ax) log false (Some (batch_label an)) s with
    | (s, Err e) => (s, Err e)
    | (s, Ok _) => plot_all f ax log ans s
    end
  end.
(** [plt.show()]: which figure is current afterwards depends on the backend (closed windows). *)
Definition plt_show (after : option nat -> option nat) (s : pyplot) : pyplot := Plt (figs s) (after (cur s)) (pngs s).
(** benchmarking.py:271-300, one iteration of the loop *)
Definition batch_plot1 (after : option nat -> option nat) (dirname : string) (ans : list analysis) (log : bool) (s : pyplot) : pyplot * res unit :=
  let '(s, f) := plt_figure s in
  let '(s, ax) := fig_subplots s f in
  match plot_all f ax log ans s with
  | (s, Err e) => (s, Err e)
  | (s, Ok _) =>
    match ans with
    | [] => (s, Err IndexError)
    | an :: _ =>
      match plt_plot (a_phys an) (a_phys an) "-" (Some "breakeven"%string) s with
      | (s, Err e) => (s, Err e)
      | (s, Ok _) =>
        let s := on_gca with_legend s in
        let s := on_axes (with_texts ("Physical Error Rate", "Logical Error Rate", "Comparison of Codes")%string) ax s in
        let s := plt_savefig (dirname +:+ "comparison" +:+ (if log then "_log" else "") +:+ ".png")%string s in
        (plt_show after s, Ok tt)
      end
    end
  end.
(** benchmarking.py:270-300, [TopologicalBatchAnalysis.plot] *)
Definition batch_plot (after : option nat -> option nat) (dirname : string) (ans : list analysis) (s : pyplot) : pyplot * res unit :=
  match batch_plot1 after dirname ans true s with
  | (s, Err e) => (s, Err e)
  | (s, Ok _) => batch_plot1 after dirname ans false s
  end.
