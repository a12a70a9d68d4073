(** Property C39: data files with several writers and crashes. *)
From Coq Require Import QArith Qcanon.
From Verif Require Import Bench BenchFacts P_Bench.
From stdpp Require Export list sorting relations.
Open Scope Z_scope.

Section c39.
Context (np : numpy) (Hnp : np_ok np) (d : Z * Z) (T : Z).
Notation run := (rtc (pstep np d T)).
Definition start (f : option npz) (work : list (list (Qc * Qc))) : sys := Sys f ((fun w => Proc w Idle) <$> work).

(** ** Whatever happens, the file never holds a point that was not there or appended, nor one
    more often than that. *)
(** Points a process has not begun to write. *)
Definition left (p : proc) : list (Qc * Qc) := match ph p with Idle | Loaded _ => todo p | Writing _ _ => tail (todo p) | Dead => [] end.
Definition held (p : proc) : list Qc * list Qc := match ph p with Loaded old => old | Writing new _ => new | _ => ([], []) end.
Definition from (src : list (Qc * Qc)) (x : list Qc * list Qc) : Prop := length x.1 = length x.2 /\ zip x.1 x.2 ⊆+ src.
Record sinv (ini all : list (Qc * Qc)) (s : sys) (W : list (Qc * Qc)) : Prop := {
  si_all : W ++ (procs s ≫= left) ⊆+ all;
  si_file : from (ini ++ W) (load_points (sfile s));
  si_procs : Forall (fun p => from (ini ++ W) (held p)) (procs s) }.
Lemma bind_insert (ps : list proc) i p q : ps !! i = Some p -> exists rest, ps ≫= left ≡ₚ left p ++ rest /\ <[i := q]> ps ≫= left ≡ₚ left q ++ rest.
Proof.
  intros H. exists ((take i ps ≫= left) ++ (drop (S i) ps ≫= left)). split.
  - rewrite <- (take_drop_middle ps i p H) at 1. rewrite bind_app. cbn. by rewrite !(Permutation_app_comm (take i ps ≫= left)), <- app_assoc.
  - rewrite insert_take_drop by (by eapply lookup_lt_Some). rewrite bind_app. cbn. by rewrite !(Permutation_app_comm (take i ps ≫= left)), <- app_assoc.
Qed.
Lemma from_mono src src' x : src ⊆+ src' -> from src x -> from src' x.
Proof. intros H [H1 H2]. split; [done|]. by etrans. Qed.
Lemma from_nil src : from src ([], []).
Proof. split; [done|]. apply submseteq_nil_l. Qed.
Lemma new_points_from src old pt new : from src old -> new_points np old pt.1 pt.2 = Ok new -> from (src ++ [pt]) new.
Proof.
  intros [Hl Hs] H. destruct (new_points_spec np Hnp (Some (NFile d T old.1 old.2)) pt.1 pt.2 Hl) as (ps & ls & E & _ & Hlen & Hz).
  cbn [load_points] in E. rewrite <- surjective_pairing in E. rewrite H in E. injection E as ->. split; [done|]. cbn [fst snd]. rewrite Hz. cbn. rewrite <- surjective_pairing.
  by apply submseteq_app.
Qed.
Lemma overlapped_left ps : (overlapped <$> ps) ≫= left = ps ≫= left.
Proof. induction ps as [|[td []] ps IH]; [done|..]; cbn; by rewrite IH. Qed.
Lemma overlapped_held ps (P : list Qc * list Qc -> Prop) : Forall (fun p => P (held p)) ps -> Forall (fun p => P (held p)) (overlapped <$> ps).
Proof. intros H. apply Forall_fmap. eapply Forall_impl; [exact H|]. by intros [td []]. Qed.
Lemma sinv_step ini all s s' W : sinv ini all s W -> pstep np d T s s' -> exists W', sinv ini all s' W'.
Proof.
  intros [Ha Hf Hp] Hst. destruct Hst as [f ps i pt td Hi|f ps i pt td old new Hi Hnew|f ps i pt td old e Hi _|f ps i pt td new o Hi|f ps i pt td new Hi|f ps i q Hi]; cbn [procs sfile] in *.
  - exists W. destruct (bind_insert ps i _ (Proc (pt :: td) (Loaded (load_points f))) Hi) as (rest & E1 & E2). constructor; cbn.
    + rewrite E2. rewrite E1 in Ha. exact Ha.
    + done.
    + by apply Forall_insert.
  - exists (W ++ [pt]). assert (Hi' : (overlapped <$> ps) !! i = Some (Proc (pt :: td) (Loaded old))) by (by rewrite list_lookup_fmap, Hi).
    destruct (bind_insert _ i _ (Proc (pt :: td) (Writing new (existsb is_writing ps))) Hi') as (rest & E1 & E2). rewrite overlapped_left in E1.
    assert (Hmono : ini ++ W ⊆+ ini ++ W ++ [pt]) by (apply submseteq_app; [done|]; by apply submseteq_inserts_r).
    constructor; cbn.
    + rewrite E2. cbn. rewrite E1 in Ha. cbn in Ha. by rewrite <- app_assoc.
    + apply from_nil.
    + apply Forall_insert.
      * apply overlapped_held. eapply Forall_impl; [exact Hp|]. intros p. by apply from_mono.
      * cbn. rewrite app_assoc. eapply new_points_from; [|exact Hnew]. by apply (Forall_lookup_1 _ _ _ _ Hp Hi).
  - exists W. destruct (bind_insert ps i _ (Proc (pt :: td) Dead) Hi) as (rest & E1 & E2). constructor; cbn.
    + rewrite E2. rewrite E1 in Ha. cbn in *. etrans; [|exact Ha]. apply submseteq_app; [done|]. apply (submseteq_inserts_l (pt :: td)). done.
    + done.
    + apply Forall_insert; [done|apply from_nil].
  - exists W. destruct (bind_insert ps i _ (Proc td Idle) Hi) as (rest & E1 & E2). constructor; cbn.
    + rewrite E2. rewrite E1 in Ha. exact Ha.
    + rewrite <- surjective_pairing. by apply (Forall_lookup_1 _ _ _ _ Hp Hi).
    + apply Forall_insert; [done|apply from_nil].
  - exists W. destruct (bind_insert ps i _ (Proc td Idle) Hi) as (rest & E1 & E2). constructor; cbn.
    + rewrite E2. rewrite E1 in Ha. exact Ha.
    + apply from_nil.
    + apply Forall_insert; [done|apply from_nil].
  - exists W. destruct (bind_insert ps i _ (Proc (todo q) Dead) Hi) as (rest & E1 & E2). constructor; cbn.
    + rewrite E2. rewrite E1 in Ha. cbn. etrans; [|exact Ha]. apply submseteq_app; [done|]. by apply submseteq_inserts_l.
    + done.
    + apply Forall_insert; [done|apply from_nil].
Qed.
Theorem C39_nothing_invented f work s : readable f -> run (start f work) s ->
  readable (sfile s) /\ points (sfile s) ⊆+ points f ++ concat work.
Proof.
  intros Hf Hrun. assert (Hinv : exists W, sinv (points f) (concat work) s W).
  { assert (H0 : exists W, sinv (points f) (concat work) (start f work) W).
    { exists []. constructor; cbn.
      - assert (E : ((fun w => Proc w Idle) <$> work) ≫= left = concat work) by (clear; induction work as [|w work IH]; [done|]; cbn; by rewrite <- IH). by rewrite E.
      - rewrite app_nil_r. destruct f as [[|d' T' ps ls]|]; [apply from_nil|by split|apply from_nil].
      - apply Forall_fmap, Forall_forall. intros w _. apply from_nil. }
    revert H0. induction Hrun as [s|s s' s'' Hst _ IH]; [done|]. intros [W HW]. apply IH. by eapply sinv_step. }
  destruct Hinv as [W [Ha [Hl Hs] _]]. assert (Hp : points (sfile s) = zip (load_points (sfile s)).1 (load_points (sfile s)).2) by (by destruct (sfile s) as [[]|]).
  split; [destruct (sfile s) as [[]|]; done|]. rewrite Hp. etrans; [exact Hs|]. apply submseteq_app; [done|]. etrans; [|exact Ha]. by apply submseteq_inserts_r.
Qed.
(** A process that is writing has its point among what it writes. *)
Definition wok (p : proc) : Prop :=
  match ph p with
  | Loaded old => length old.1 = length old.2 /\ todo p <> []
  | Writing new _ => exists pt td, todo p = pt :: td /\ pt ∈ zip new.1 new.2 /\ Sorted Qcle new.1 /\ length new.1 = length new.2
  | _ => True
  end.
Lemma wok_step s s' : readable (sfile s) -> Forall wok (procs s) -> pstep np d T s s' -> Forall wok (procs s') /\ readable (sfile s').
Proof.
  intros Hf Hp Hst. destruct Hst as [f ps i pt td Hi|f ps i pt td old new Hi Hnew|f ps i pt td old e Hi _|f ps i pt td new o Hi|f ps i pt td new Hi|f ps i q Hi]; cbn [procs sfile] in *.
  - split; [|done]. apply Forall_insert; [done|]. cbn. split; [|done]. by destruct f as [[]|].
  - split; [|done]. pose proof (Forall_lookup_1 _ _ _ _ Hp Hi) as Hw. cbn in Hw.
    destruct (new_points_spec np Hnp (Some (NFile d T old.1 old.2)) pt.1 pt.2 (proj1 Hw)) as (ps' & ls' & E & Hs & Hlen & Hz). cbn [load_points] in E. rewrite <- surjective_pairing, Hnew in E. injection E as ->.
    apply Forall_insert.
    + apply Forall_fmap. eapply Forall_impl; [exact Hp|]. intros [td' [| |new' o|]]; done.
    + cbn. exists pt, td. split; [done|]. split; [|done]. rewrite Hz. cbn. rewrite <- surjective_pairing. set_solver.
  - split; [|done]. by apply Forall_insert.
  - pose proof (Forall_lookup_1 _ _ _ _ Hp Hi) as (pt' & td' & _ & _ & _ & Hl). split; [by apply Forall_insert|done].
  - split; [by apply Forall_insert|done].
  - split; [by apply Forall_insert|done].
Qed.
Lemma wok_run f work s : readable f -> run (start f work) s -> Forall wok (procs s) /\ readable (sfile s).
Proof.
  intros Hf Hrun. assert (H0 : Forall wok (procs (start f work)) /\ readable (sfile (start f work))) by (split; [by apply Forall_fmap, Forall_forall|done]).
  revert H0. induction Hrun as [s|s s' s'' Hst _ IH]; [done|]. intros [H1 H2]. apply IH. by apply (wok_step s).
Qed.
(** When a process finishes writing (and the bytes were not mixed up with those of another one),
    its point is in the file. *)
Theorem C39_own_point f work s i pt td new o : readable f -> run (start f work) s ->
  procs s !! i = Some (Proc (pt :: td) (Writing new o)) ->
  let s' := Sys (Some (NFile d T new.1 new.2)) (<[i := Proc td Idle]> (procs s)) in
  pstep np d T s s' /\ pt ∈ points (sfile s') /\ Sorted Qcle new.1 /\ length new.1 = length new.2.
Proof.
  intros Hf Hrun Hi s'. destruct (wok_run f work s Hf Hrun) as [Hw _]. pose proof (Forall_lookup_1 _ _ _ _ Hw Hi) as (pt' & td' & [= <- <-] & Hin & Hs & Hl).
  split; [destruct s as [f' ps]; by eapply S_write|done].
Qed.

(** ** Nothing is lost if appends do not overlap and no process dies while writing *)
Definition active (p : proc) : Prop := match ph p with Loaded _ | Writing _ _ => True | _ => False end.
Definition exclusive (s : sys) : Prop := forall i j p q, procs s !! i = Some p -> procs s !! j = Some q -> active p -> active q -> i = j.
Definition dies_writing (s s' : sys) : Prop := exists i p q, procs s !! i = Some p /\ procs s' !! i = Some q /\ is_writing p = true /\ ph q = Dead.
Definition clean_step (s s' : sys) : Prop := pstep np d T s s' /\ exclusive s' /\ ~ dies_writing s s'.
Definition writing (s : sys) (i : nat) (p : proc) (new : list Qc * list Qc) (o : bool) : Prop := procs s !! i = Some p /\ ph p = Writing new o.
Record cinv (tot : list (Qc * Qc)) (s : sys) : Prop := {
  ci_excl : exclusive s;
  ci_idle : (forall i p new o, ~ writing s i p new o) ->
    readable (sfile s) /\ points (sfile s) ++ (procs s ≫= todo) ≡ₚ tot /\
    forall i p old, procs s !! i = Some p -> ph p = Loaded old -> old = load_points (sfile s);
  ci_write : forall i p new o, writing s i p new o ->
    o = false /\ length new.1 = length new.2 /\ exists pt td, todo p = pt :: td /\ zip new.1 new.2 ++ (<[i := Proc td Idle]> (procs s) ≫= todo) ≡ₚ tot }.
Lemma bind_todo_insert (ps : list proc) i p : ps !! i = Some p -> exists rest, ps ≫= todo ≡ₚ todo p ++ rest /\ forall q, <[i := q]> ps ≫= todo ≡ₚ todo q ++ rest.
Proof.
  intros H. exists ((take i ps ≫= todo) ++ (drop (S i) ps ≫= todo)). split.
  - rewrite <- (take_drop_middle ps i p H) at 1. rewrite bind_app. cbn. by rewrite !(Permutation_app_comm (take i ps ≫= todo)), <- app_assoc.
  - intros q'. rewrite insert_take_drop by (by eapply lookup_lt_Some). rewrite bind_app. cbn. by rewrite !(Permutation_app_comm (take i ps ≫= todo)), <- app_assoc.
Qed.
Lemma todo_same (ps : list proc) i p q : ps !! i = Some p -> todo q = todo p -> <[i := q]> ps ≫= todo ≡ₚ ps ≫= todo.
Proof. intros Hi Hq. destruct (bind_todo_insert ps i p Hi) as (rest & E1 & E2). by rewrite E1, E2, Hq. Qed.
Lemma cinv_step tot s s' : cinv tot s -> clean_step s s' -> cinv tot s'.
Proof.
  intros [He Hidle Hwr] (Hst & He' & Hd).
  destruct Hst as [f ps i pt td Hi|f ps i pt td old new Hi Hnew|f ps i pt td old e Hi Hnew|f ps i pt td new o Hi|f ps i pt td new Hi|f ps i q Hi]; cbn [procs sfile] in *.
  - (* load: nobody else is active *)
    assert (Hnw : forall j p new o, ~ writing (Sys f ps) j p new o).
    { intros j p new o [Hj Hp]. cbn in Hj. assert (Hne : i <> j) by (intros ->; rewrite Hj in Hi; injection Hi as ->; by cbn in Hp). apply Hne.
      apply (He' i j (Proc (pt :: td) (Loaded (load_points f))) p); cbn; [apply list_lookup_insert; by eapply lookup_lt_Some|by rewrite list_lookup_insert_ne|done|unfold active; by rewrite Hp]. }
    destruct (Hidle Hnw) as (Hr & Hc & Hl). split; [done|..]; cbn.
    + intros _. split; [done|]. split; [by rewrite todo_same|]. intros j p old Hj Hp. destruct (decide (i = j)) as [<- |Hne].
      * rewrite list_lookup_insert in Hj by (by eapply lookup_lt_Some). injection Hj as <-. by injection Hp as <-.
      * rewrite list_lookup_insert_ne in Hj by done. by eapply Hl.
    + intros j p new o [Hj Hp]. cbn in Hj. destruct (decide (i = j)) as [<- |Hne].
      * rewrite list_lookup_insert in Hj by (by eapply lookup_lt_Some). injection Hj as <-. done.
      * rewrite list_lookup_insert_ne in Hj by done. exfalso. by apply (Hnw j p new o).
  - (* truncate *)
    assert (Hnw : forall j p new o, ~ writing (Sys f ps) j p new o).
    { intros j p new' o [Hj Hp]. cbn in Hj. assert (Hne : i <> j) by (intros ->; rewrite Hj in Hi; injection Hi as ->; by cbn in Hp). apply Hne.
      apply (He i j (Proc (pt :: td) (Loaded old)) p); cbn; [done|done|done|unfold active; by rewrite Hp]. }
    destruct (Hidle Hnw) as (Hr & Hc & Hl). assert (old = load_points f) as -> by (by eapply Hl).
    assert (Hno : forall q, q ∈ ps -> is_writing q = false /\ overlapped q = q).
    { intros q [j Hj]%elem_of_list_lookup. unfold is_writing, overlapped. destruct (ph q) eqn:Hq; try done. exfalso. by eapply (Hnw j q). }
    assert (Eo : overlapped <$> ps = ps).
    { assert (E : overlapped <$> ps = (fun q => q) <$> ps) by (apply list_fmap_ext; intros j q Hj; apply Hno; by eapply elem_of_list_lookup_2). rewrite E. apply list_fmap_id. }
    assert (Ee : existsb is_writing ps = false).
    { apply not_true_is_false. intros (q & Hq & Hw)%existsb_exists. apply elem_of_list_In in Hq. destruct (Hno q Hq) as [H _]. congruence. }
    rewrite Eo, Ee in *. destruct (new_points_spec np Hnp f pt.1 pt.2 Hr) as (ps' & ls' & E & Hs & Hlen & Hz). rewrite Hnew in E. injection E as ->.
    split; [done|..]; cbn.
    + intros Hnw'. exfalso. eapply (Hnw' i); split; cbn; [apply list_lookup_insert; by eapply lookup_lt_Some|done].
    + intros j p new o [Hj Hp]. cbn in Hj. destruct (decide (i = j)) as [<- |Hne].
      * rewrite list_lookup_insert in Hj by (by eapply lookup_lt_Some). injection Hj as <-. cbn in Hp. injection Hp as <- <-. split; [done|]. split; [done|]. exists pt, td. split; [done|].
        rewrite list_insert_insert. destruct (bind_todo_insert ps i _ Hi) as (rest & E1 & E2). rewrite E2. cbn [todo fst snd]. rewrite Hz, <- Hc, E1. cbn [todo]. rewrite <- surjective_pairing, <- app_assoc. done.
      * rewrite list_lookup_insert_ne in Hj by done. exfalso. by apply (Hnw j p new o).
  - (* raise: does not happen *)
    assert (Hnw : forall j p new o, ~ writing (Sys f ps) j p new o).
    { intros j p new' o [Hj Hp]. cbn in Hj. assert (Hne : i <> j) by (intros ->; rewrite Hj in Hi; injection Hi as ->; by cbn in Hp). apply Hne.
      apply (He i j (Proc (pt :: td) (Loaded old)) p); cbn; [done|done|done|unfold active; by rewrite Hp]. }
    destruct (Hidle Hnw) as (Hr & Hc & Hl). assert (old = load_points f) as -> by (by eapply Hl).
    destruct (new_points_spec np Hnp f pt.1 pt.2 Hr) as (ps' & ls' & E & _). congruence.
  - (* write *)
    destruct (Hwr i _ new o (conj Hi eq_refl)) as (-> & Hlen & pt' & td' & [= <- <-] & Hc).
    split; [done|..]; cbn.
    + intros _. split; [done|]. split; [done|]. intros j p old Hj Hp. destruct (decide (i = j)) as [<- |Hne].
      * rewrite list_lookup_insert in Hj by (by eapply lookup_lt_Some). injection Hj as <-. done.
      * rewrite list_lookup_insert_ne in Hj by done. exfalso. apply Hne, (He i j _ _ Hi Hj); [done|]. unfold active. by rewrite Hp.
    + intros j p new' o [Hj Hp]. cbn in Hj. destruct (decide (i = j)) as [<- |Hne].
      * rewrite list_lookup_insert in Hj by (by eapply lookup_lt_Some). injection Hj as <-. done.
      * rewrite list_lookup_insert_ne in Hj by done. exfalso. apply Hne, (He i j _ _ Hi Hj); [done|]. unfold active. by rewrite Hp.
  - (* garble: does not happen *)
    by destruct (Hwr i _ new true (conj Hi eq_refl)) as [[=] _].
  - (* crash of a process that is not writing *)
    assert (Hq : is_writing q = false).
    { apply not_true_is_false. intros Hq. apply Hd. exists i, q, (Proc (todo q) Dead). cbn. split; [done|]. split; [apply list_lookup_insert; by eapply lookup_lt_Some|done]. }
    assert (Hsame : forall j p new o, writing (Sys f (<[i:=Proc (todo q) Dead]> ps)) j p new o <-> writing (Sys f ps) j p new o).
    { intros j p new o. unfold writing. cbn. destruct (decide (i = j)) as [<- |Hne]; [|by rewrite list_lookup_insert_ne].
      rewrite list_lookup_insert by (by eapply lookup_lt_Some). rewrite Hi. split; [by intros [[= <-] [=]]|]. intros [[= <-] Hp]. unfold is_writing in Hq. by rewrite Hp in Hq. }
    split; [done|..]; cbn.
    + intros Hnw. destruct Hidle as (Hr & Hc & Hl); [intros j p new o; rewrite <- Hsame; apply Hnw|]. split; [done|]. split; [by rewrite todo_same|].
      intros j p old Hj Hp. destruct (decide (i = j)) as [<- |Hne].
      * rewrite list_lookup_insert in Hj by (by eapply lookup_lt_Some). injection Hj as <-. done.
      * rewrite list_lookup_insert_ne in Hj by done. by eapply Hl.
    + intros j p new o Hj. pose proof (proj1 (Hsame j p new o) Hj) as Hj'. destruct (Hwr j p new o Hj') as (-> & Hlen & pt & td & Htd & Hc). split; [done|]. split; [done|]. exists pt, td. split; [done|].
      assert (Hne : i <> j). { intros <-. destruct Hj' as [Hj1 Hj2]. cbn in Hj1. rewrite Hi in Hj1. injection Hj1 as ->. unfold is_writing in Hq. by rewrite Hj2 in Hq. }
      rewrite list_insert_commute by done. rewrite (todo_same _ i q); [done| |done]. by rewrite list_lookup_insert_ne.
Qed.
Theorem C39_nothing_lost f work s : readable f -> rtc clean_step (start f work) s -> (forall p, p ∈ procs s -> is_writing p = false) ->
  readable (sfile s) /\ points (sfile s) ++ (procs s ≫= todo) ≡ₚ points f ++ concat work.
Proof.
  intros Hf Hrun Hnw. assert (Hinv : cinv (points f ++ concat work) s).
  { assert (H0 : cinv (points f ++ concat work) (start f work)).
    { assert (Hidle : forall i p, procs (start f work) !! i = Some p -> ph p = Idle) by (intros i p; cbn; rewrite list_lookup_fmap; by intros (w & _ & ->)%fmap_Some).
      split.
      - intros i j p q Hi Hj Hp. unfold active in Hp. by rewrite (Hidle i p Hi) in Hp.
      - intros _. split; [done|]. split.
        + assert (E : procs (start f work) ≫= todo = concat work) by (cbn; clear; induction work as [|w work IH]; [done|]; cbn; by rewrite <- IH). by rewrite E.
        + intros i p old Hi Hp. by rewrite (Hidle i p Hi) in Hp.
      - intros i p new o [Hi Hp]. by rewrite (Hidle i p Hi) in Hp. }
    revert H0. induction Hrun as [s|s s' s'' Hst _ IH]; [done|]. intros H0. apply IH; [done|]. by eapply cinv_step. }
  destruct Hinv as [_ Hi _]. destruct Hi as (H1 & H2 & _); [|done]. intros i p new o [Hp1 Hp2]. assert (is_writing p = false) as Hp by (apply Hnw; by eapply elem_of_list_lookup_2).
  unfold is_writing in Hp. by rewrite Hp2 in Hp.
Qed.

(** ** Otherwise points can be lost *)
Definition finished (s : sys) : Prop := Forall (fun p => p = Proc [] Idle) (procs s).
(** Two processes that append at the same time, without any crash. *)
Theorem C39_race_refuted : exists f work s, readable f /\ run (start f work) s /\ finished s /\ ~ (points f ++ concat work ⊆+ points (sfile s)).
Proof.
  set (p1 := (1, 1)%Qc : Qc * Qc). set (p2 := (0, 0)%Qc : Qc * Qc).
  destruct (new_points_spec np Hnp None p1.1 p1.2 I) as (ps1 & ls1 & E1 & _ & _ & _).
  destruct (new_points_spec np Hnp None p2.1 p2.2 I) as (ps2 & ls2 & E2 & _ & _ & Hz2).
  exists None, [[p1]; [p2]], (Sys (Some (NFile d T ps2 ls2)) [Proc [] Idle; Proc [] Idle]).
  split; [done|]. split; [|split; [by repeat constructor|]].
  - unfold start. cbn.
    eapply rtc_l; [apply (S_load np d T None _ 0%nat p1 []); done|]. cbn.
    eapply rtc_l; [apply (S_load np d T None _ 1%nat p2 []); done|]. cbn.
    eapply rtc_l; [eapply (S_truncate np d T None _ 0%nat p1 [] _ (ps1, ls1)); [done|exact E1]|]. cbn.
    eapply rtc_l; [apply (S_write np d T _ _ 0%nat p1 [] (ps1, ls1) false); done|]. cbn.
    eapply rtc_l; [eapply (S_truncate np d T _ _ 1%nat p2 [] _ (ps2, ls2)); [done|exact E2]|]. cbn.
    eapply rtc_l; [apply (S_write np d T _ _ 1%nat p2 [] (ps2, ls2) false); done|]. cbn. constructor.
  - cbn. rewrite Hz2. cbn. intros H%submseteq_length. cbn in H. lia.
Qed.
(** One process dies while it rewrites the file; another one then appends a point: all points
    that were in the file are gone, without an exception. *)
Theorem C39_crash_refuted : exists f work s, readable f /\ run (start f work) s /\ (exists p1 p2, procs s = [p1; p2] /\ ph p1 = Dead /\ p2 = Proc [] Idle) /\
  points f <> [] /\ Forall (fun pt => pt ∉ points (sfile s)) (points f).
Proof.
  set (p0 := (1 + 1, 1)%Qc : Qc * Qc). set (p1 := (1, 1)%Qc : Qc * Qc). set (p2 := (0, 0)%Qc : Qc * Qc).
  set (f := Some (NFile d T [p0.1] [p0.2])).
  destruct (new_points_spec np Hnp f p1.1 p1.2 eq_refl) as (ps1 & ls1 & E1 & _ & _ & _).
  destruct (new_points_spec np Hnp (Some NCorrupt) p2.1 p2.2 I) as (ps2 & ls2 & E2 & _ & _ & Hz2).
  exists f, [[p1]; [p2]], (Sys (Some (NFile d T ps2 ls2)) [Proc [p1] Dead; Proc [] Idle]).
  split; [done|]. split; [|split; [by exists (Proc [p1] Dead), (Proc [] Idle)|]].
  - unfold start. cbn.
    eapply rtc_l; [apply (S_load np d T f _ 0%nat p1 []); done|]. cbn.
    eapply rtc_l; [eapply (S_truncate np d T f _ 0%nat p1 [] _ (ps1, ls1)); [done|exact E1]|]. cbn.
    eapply rtc_l; [apply (S_crash np d T _ _ 0%nat (Proc [p1] (Writing (ps1, ls1) false))); done|]. cbn.
    eapply rtc_l; [apply (S_load np d T _ _ 1%nat p2 []); done|]. cbn.
    eapply rtc_l; [eapply (S_truncate np d T _ _ 1%nat p2 [] _ (ps2, ls2)); [done|exact E2]|]. cbn.
    eapply rtc_l; [apply (S_write np d T _ _ 1%nat p2 [] (ps2, ls2) false); done|]. cbn. constructor.
  - split; [done|]. cbn. constructor; [|constructor]. rewrite Hz2. cbn. rewrite elem_of_list_singleton. intros [=].
Qed.
End c39.
Print Assumptions C39_nothing_invented.
Print Assumptions C39_own_point.
Print Assumptions C39_nothing_lost.
Print Assumptions C39_race_refuted.
Print Assumptions C39_crash_refuted.
(** The uninterrupted append of the sequential model is one load, truncation and write. *)
Theorem C39_sequential np b fs p l fs' : append_data np b fs p l = (fs', Ok tt) ->
  rtc (pstep np (b_d b) (b_T b)) (Sys (fs !! b_filename b) [Proc [(p, l)] Idle]) (Sys (fs' !! b_filename b) [Proc [] Idle]).
Proof.
  unfold append_data. destruct (new_points _ _ _ _) as [[ps ls]|e] eqn:E; [|done]. intros [= <-]. rewrite lookup_insert.
  eapply rtc_l; [apply (S_load _ _ _ _ _ 0%nat (p, l) []); done|]. cbn.
  eapply rtc_l; [eapply (S_truncate _ _ _ _ _ 0%nat (p, l) [] _ (ps, ls)); [done|exact E]|]. cbn.
  eapply rtc_l; [apply (S_write _ _ _ _ _ 0%nat (p, l) [] (ps, ls) false); done|]. cbn. constructor.
Qed.
Print Assumptions C39_sequential.
