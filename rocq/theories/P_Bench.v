(** Properties C36, C37, C38, C47 and C48: benchmarks and their data files. *)
From Coq Require Import Ascii QArith Qcanon.
From Verif Require Import Names P_Lookup Bench BenchFacts.
From stdpp Require Export list sorting.
Open Scope Z_scope.

Global Instance exn_eq_dec : EqDecision exn.
Proof. solve_decision. Defined.
Global Instance res_eq_dec {A} `{EqDecision A} : EqDecision (res A).
Proof. solve_decision. Defined.

Lemma qz_add a b : qz (a + b) = (qz a + qz b)%Qc.
Proof. apply Qc_is_canon. cbn. rewrite !Qred_correct. by rewrite inject_Z_plus. Qed.
Lemma qz_inj a b : qz a = qz b -> a = b.
Proof. intros H. assert (E : qz (a - b) = 0%Qc); [|apply qz_0 in E; lia]. replace (a - b) with (a + - b) by lia. rewrite qz_add, H, <- qz_add. replace (b + - b) with 0 by lia. done. Qed.
Lemma qz_le a b : a <= b -> (qz a <= qz b)%Qc.
Proof. intros H. unfold Qcle, qz. cbn. rewrite !Qred_correct. by rewrite <- Zle_Qle. Qed.
Lemma qz_lt a : 0 < a -> (0 < qz a)%Qc.
Proof. intros H. unfold Qclt, qz. cbn. rewrite !Qred_correct. change 0%Q with (inject_Z 0). by rewrite <- Zlt_Qlt. Qed.
Lemma Qcmult_inj_r a b c : c <> 0%Qc -> (a * c = b * c)%Qc -> a = b.
Proof. intros Hc H. replace a with (a * c / c)%Qc by (field; done). rewrite H. field. done. Qed.

(** * C36: logical error rates *)
Section c36.
Context (decode : option Qc -> string -> res Z) (correct : Z) (ep : option Qc).
(** Number of shots, and number of shots that are not decoded to the correct value. *)
Definition shots (c : list (string * Z)) : Z := zsum (snd <$> c).
Definition wrong (c : list (string * Z)) : Z := sum_if (fun s => decode ep s <> Ok correct) c.
Definition decodable (c : list (string * Z)) : Prop := Forall (fun kv => exists v, decode ep kv.1 = Ok v) c.

Lemma ler_fold c : forall t e, decodable c ->
  rfold (fun te kv => match decode ep kv.1 with Err e => Err e | Ok v => Ok (te.1 + kv.2, if bool_decide (v <> correct) then te.2 + kv.2 else te.2) end) (t, e) c
  = Ok (t + shots c, e + wrong c).
Proof.
  induction c as [|[s n] c IH]; intros t e Hc; [cbn; unfold shots, wrong, sum_if; cbn; do 2 f_equal; lia|].
  apply Forall_cons in Hc as [[v Hv] Hc]. cbn [rfold fst snd] in *. rewrite Hv. rewrite (IH _ _ Hc).
  unfold wrong. rewrite sum_if_cons. cbn [fst snd]. unfold shots. rewrite fmap_cons, zsum_cons. cbn [snd]. f_equal. f_equal; [lia|].
  destruct (decide (v = correct)) as [-> |Hne].
  - rewrite bool_decide_eq_false_2 by tauto. rewrite decide_False by (rewrite Hv; tauto). lia.
  - rewrite bool_decide_eq_true_2 by done. rewrite decide_True by (rewrite Hv; congruence). lia.
Qed.
(** The rate is the fraction of wrongly decoded shots. *)
Theorem C36_value c : decodable c ->
  (shots c <> 0 -> exists x, logical_error_rate decode correct c ep = Ok x /\ (x * qz (shots c))%Qc = qz (wrong c)) /\
  (shots c = 0 -> logical_error_rate decode correct c ep = Err ZeroDivisionError).
Proof.
  intros Hc. unfold logical_error_rate. rewrite (ler_fold c 0 0 Hc). rewrite !Z.add_0_l. unfold py_div. split; intros Hs.
  - assert (Hq : qz (shots c) <> 0%Qc) by (by rewrite qz_0). destruct (decide (qz (shots c) = 0%Qc)); [done|]. eexists. split; [done|]. field. done.
  - rewrite Hs. done.
Qed.
(** A string that the decoder rejects makes the computation fail with its exception. *)
Theorem C36_rejected c1 s n c2 e : decodable c1 -> decode ep s = Err e -> logical_error_rate decode correct (c1 ++ (s, n) :: c2) ep = Err e.
Proof.
  intros Hc He. unfold logical_error_rate. revert Hc. generalize (0, 0) as te. induction c1 as [|[s1 n1] c1 IH]; intros te Hc; [cbn [app rfold fst]; by rewrite He|].
  apply Forall_cons in Hc as [[v Hv] Hc]. cbn [app rfold fst] in *. rewrite Hv. by apply IH.
Qed.
Lemma decodable_or c : decodable c \/ exists c1 s n c2 e, c = c1 ++ (s, n) :: c2 /\ decodable c1 /\ decode ep s = Err e.
Proof.
  induction c as [|[s n] c IH]; [left; constructor|]. destruct (decode ep s) as [v|e] eqn:E.
  - destruct IH as [H|(c1 & s' & n' & c2 & e & -> & H1 & He)]; [left; constructor; [by eexists|done]|].
    right. exists ((s, n) :: c1), s', n', c2, e. split; [done|]. split; [|done]. constructor; [by eexists|done].
  - right. exists [], s, n, c, e. split; [done|]. split; [constructor|done].
Qed.
Lemma ler_ok c x : logical_error_rate decode correct c ep = Ok x <-> decodable c /\ shots c <> 0 /\ (x * qz (shots c))%Qc = qz (wrong c).
Proof.
  split.
  - intros H. destruct (decodable_or c) as [Hc|(c1 & s & n & c2 & e & -> & H1 & He)]; [|by rewrite (C36_rejected _ _ _ _ _ H1 He) in H].
    split; [done|]. destruct (C36_value c Hc) as [V1 V2]. destruct (decide (shots c = 0)) as [Hs|Hs]; [by rewrite (V2 Hs) in H|].
    destruct (V1 Hs) as (y & Hy & E). rewrite H in Hy. injection Hy as ->. done.
  - intros (Hc & Hs & E). destruct (C36_value c Hc) as [V1 _]. destruct (V1 Hs) as (y & -> & Ey). f_equal.
    assert (Hq : qz (shots c) <> 0%Qc) by (by rewrite qz_0). rewrite <- E in Ey. by apply (Qcmult_inj_r _ _ (qz (shots c))).
Qed.
(** With non-negative counts it is a number between 0 and 1. *)
Lemma wrong_shots c : Forall (fun kv => 0 <= kv.2) c -> 0 <= wrong c <= shots c.
Proof.
  intros Hc. split; [by apply sum_if_nonneg|]. unfold wrong, shots. induction Hc as [|kv c Hkv Hc IH]; [done|]. rewrite sum_if_cons, fmap_cons, zsum_cons. case_decide; lia.
Qed.
Theorem C36_range c x : Forall (fun kv => 0 <= kv.2) c -> logical_error_rate decode correct c ep = Ok x -> (0 <= x /\ x <= 1)%Qc.
Proof.
  intros Hn (Hc & Hs & E)%ler_ok. pose proof (wrong_shots c Hn) as Hw.
  assert (Hq : (0 < qz (shots c))%Qc) by (apply qz_lt; lia).
  split; apply (Qcmult_lt_0_le_reg_r _ _ (qz (shots c)) Hq); rewrite E.
  - replace (0 * qz (shots c))%Qc with (qz 0) by (change (qz 0) with 0%Qc; ring). apply qz_le. lia.
  - replace (1 * qz (shots c))%Qc with (qz (shots c)) by ring. apply qz_le. lia.
Qed.
(** It is 0 exactly if every string is decoded correctly, and 1 exactly if none is. *)
Theorem C36_extremes c x : Forall (fun kv => 0 < kv.2) c -> logical_error_rate decode correct c ep = Ok x ->
  (x = 0%Qc <-> Forall (fun kv => decode ep kv.1 = Ok correct) c) /\ (x = 1%Qc <-> Forall (fun kv => decode ep kv.1 <> Ok correct) c).
Proof.
  intros Hn (Hc & Hs & E)%ler_ok.
  assert (Hq : qz (shots c) <> 0%Qc) by (by rewrite qz_0).
  assert (H0 : x = 0%Qc <-> wrong c = 0).
  { rewrite <- qz_0, <- E. split; [intros ->; ring|]. intros H. apply Qcmult_integral in H as [H|H]; [done|]. done. }
  assert (H1 : x = 1%Qc <-> wrong c = shots c).
  { split; [intros ->; apply qz_inj; rewrite <- E; ring|]. intros H. rewrite H in E. apply (Qcmult_inj_r _ _ (qz (shots c)) Hq). rewrite E. ring. }
  rewrite H0, H1. clear H0 H1 E Hq Hs Hc.
  assert (Hw : forall c, Forall (fun kv => 0 < kv.2) c -> 0 <= wrong c <= shots c).
  { intros c' Hc'. apply wrong_shots. eapply Forall_impl; [exact Hc'|]. cbn. lia. }
  unfold wrong, shots in *. induction Hn as [|kv c Hkv Hc IH]; [by repeat split|]. specialize (Hw c Hc). rewrite !Forall_cons, sum_if_cons, fmap_cons, zsum_cons.
  case_decide as Hd.
  - split; [split; [lia|tauto]|]. rewrite <- (proj2 IH). split; [intros; split; [done|lia]|intros [_ H]; lia].
  - destruct (decide (decode ep kv.1 = Ok correct)); [|done]. split; [rewrite <- (proj1 IH); split; [intros; split; [done|lia]|intros [_ H]; lia]|]. split; [lia|tauto].
Qed.
(** The order of the entries does not matter. *)
Theorem C36_order c c' x : c ≡ₚ c' -> logical_error_rate decode correct c ep = Ok x -> logical_error_rate decode correct c' ep = Ok x.
Proof.
  intros Hp (Hc & Hs & E)%ler_ok. apply ler_ok. unfold decodable, shots, wrong in *. rewrite <- (sum_if_perm _ _ _ Hp).
  assert (Hz : zsum (snd <$> c') = zsum (snd <$> c)) by (apply zsum_perm; by rewrite Hp). rewrite Hz, <- Hp. done.
Qed.
(** Two runs together: [c] has for every string the sum of the two counts. *)
Definition count_of (c : list (string * Z)) (s : string) : Z := sum_if (eq s) c.
Theorem C36_merge c1 c2 c x1 x2 :
  (forall s, count_of c s = count_of c1 s + count_of c2 s) -> (forall s, s ∈ c.*1 -> s ∈ c1.*1 \/ s ∈ c2.*1) -> shots c1 + shots c2 <> 0 ->
  logical_error_rate decode correct c1 ep = Ok x1 -> logical_error_rate decode correct c2 ep = Ok x2 ->
  exists x, logical_error_rate decode correct c ep = Ok x /\ (x * qz (shots c1 + shots c2) = x1 * qz (shots c1) + x2 * qz (shots c2))%Qc.
Proof.
  intros Hcount Hkeys Hs (Hc1 & Hs1 & E1)%ler_ok (Hc2 & Hs2 & E2)%ler_ok.
  set (ks := remove_dups (c.*1 ++ c1.*1 ++ c2.*1)). assert (Hnd : NoDup ks) by apply NoDup_remove_dups.
  assert (Hk : forall c' : list (string * Z), c'.*1 ⊆ c.*1 ++ c1.*1 ++ c2.*1 -> Forall (fun kv => kv.1 ∈ ks) c').
  { intros c' Hc'. apply Forall_forall. intros kv Hkv. unfold ks. apply elem_of_remove_dups, Hc', elem_of_list_fmap. eauto. }
  assert (Hsum : forall P `{!forall s, Decision (P s)}, sum_if P c = sum_if P c1 + sum_if P c2).
  { intros P HP. rewrite !(sum_if_by_key P ks) by (done || (apply Hk; set_solver)). clear -Hcount. induction ks as [|k ks IH]; [done|].
    rewrite !fmap_cons, !zsum_cons, IH. specialize (Hcount k). unfold count_of in Hcount. case_decide; lia. }
  assert (Hsh : forall c : list (string * Z), shots c = sum_if (fun _ => True) c).
  { intros c'. unfold shots. clear. induction c' as [|kv c' IH]; [done|]. rewrite fmap_cons, zsum_cons, sum_if_cons, IH. done. }
  assert (Hsc : shots c = shots c1 + shots c2) by (rewrite !Hsh; apply Hsum).
  assert (Hc : decodable c).
  { apply Forall_forall. intros kv Hkv. assert (Hin : kv.1 ∈ c.*1) by (by apply elem_of_list_fmap_1). unfold decodable in *. rewrite Forall_forall in Hc1, Hc2.
    destruct (Hkeys _ Hin) as [(kv' & -> & H')%elem_of_list_fmap|(kv' & -> & H')%elem_of_list_fmap]; eauto. }
  rewrite <- Hsc in Hs |- *. destruct (proj1 (C36_value c Hc) Hs) as (x & Hx & E). exists x. split; [done|]. rewrite E, E1, E2. unfold wrong. by rewrite Hsum, qz_add.
Qed.
(** If all shots with fewer faults than the code corrects are decoded correctly, the rate is at
    most the fraction of the other shots. *)
Theorem C36_bound (good : string -> Prop) `{!forall s, Decision (good s)} c x :
  Forall (fun kv => 0 <= kv.2) c -> Forall (fun kv => good kv.1 -> decode ep kv.1 = Ok correct) c ->
  logical_error_rate decode correct c ep = Ok x -> (x * qz (shots c) <= qz (sum_if (fun s => ~ good s) c))%Qc.
Proof.
  intros Hn Hg (Hc & Hs & E)%ler_ok. rewrite E. apply qz_le. apply sum_if_mono; [done|]. eapply Forall_impl; [exact Hg|]. cbn. tauto.
Qed.
End c36.
Print Assumptions C36_value.
Print Assumptions C36_rejected.
Print Assumptions C36_range.
Print Assumptions C36_extremes.
Print Assumptions C36_order.
Print Assumptions C36_merge.
Print Assumptions C36_bound.

(** * C38: data files *)
(** A file that cannot be read, or has as many logical as physical rates. *)
Definition readable (f : option npz) : Prop := match f with Some (NFile _ _ ps ls) => length ps = length ls | _ => True end.
(** The points in a file. *)
Definition points (f : option npz) : list (Qc * Qc) := match f with Some (NFile _ _ ps ls) => zip ps ls | _ => [] end.
(** What a file must look like after points have been appended to it. *)
Definition holds (b : bench) (f : option npz) (pts : list (Qc * Qc)) : Prop :=
  exists ps ls, f = Some (NFile (b_d b) (b_T b) ps ls) /\ Sorted Qcle ps /\ length ps = length ls /\ zip ps ls ≡ₚ pts.

Section c38.
Context (np : numpy) (Hnp : np_ok np).
Lemma new_points_spec f p l : readable f -> exists ps ls, new_points np (load_points f) p l = Ok (ps, ls) /\ Sorted Qcle ps /\ length ps = length ls /\ zip ps ls ≡ₚ points f ++ [(p, l)].
Proof.
  intros Hf. assert (Hlen : length (load_points f).2 = length (load_points f).1) by (by destruct f as [[]|]).
  assert (Hz : points f = zip (load_points f).1 (load_points f).2) by (by destruct f as [[]|]).
  destruct (argsort_pair Qcle (argsort_q np) ((load_points f).1 ++ [p]) ((load_points f).2 ++ [l]) (proj1 Hnp)) as (ps & ls & E1 & E2 & Hs & Hp & Hl & Hzip); [rewrite !app_length; cbn; lia|].
  exists ps, ls. split; [unfold new_points; cbn zeta; by rewrite E1, E2|]. split; [done|]. split; [done|]. rewrite Hzip, Hz. by rewrite zip_with_app by done.
Qed.
Lemma append_spec b fs p l : readable (fs !! b_filename b) ->
  exists f, append_data np b fs p l = (<[b_filename b := f]> fs, Ok tt) /\ holds b (Some f) (points (fs !! b_filename b) ++ [(p, l)]).
Proof.
  intros Hf. destruct (new_points_spec _ p l Hf) as (ps & ls & E & Hs & Hl & Hz). exists (NFile (b_d b) (b_T b) ps ls).
  split; [unfold append_data; by rewrite E|]. by exists ps, ls.
Qed.
Lemma holds_readable b f pts : holds b f pts -> readable f.
Proof. intros (ps & ls & -> & _ & Hl & _). done. Qed.
Lemma holds_points b f pts : holds b f pts -> points f ≡ₚ pts.
Proof. intros (ps & ls & -> & _ & _ & Hz). done. Qed.

(** A history of appends by any number of benchmarks, one after the other. *)
Definition appends (ops : list (bench * (Qc * Qc))) (fs : files) : files := foldl (fun fs o => (append_data np o.1 fs o.2.1 o.2.2).1) fs ops.
Definition mine (fn : string) (ops : list (bench * (Qc * Qc))) : list (bench * (Qc * Qc)) := filter (fun o => b_filename o.1 = fn) ops.
Lemma appends_spec ops : forall fs fn, readable (fs !! fn) ->
  (mine fn ops = [] -> appends ops fs !! fn = fs !! fn) /\
  (forall b pt ops', mine fn ops = ops' ++ [(b, pt)] -> holds b (appends ops fs !! fn) (points (fs !! fn) ++ (snd <$> mine fn ops))).
Proof.
  induction ops as [|o ops IH] using rev_ind; intros fs fn Hr; [split; [done|intros b pt [|??] [=]]|].
  unfold appends. rewrite foldl_app. cbn [foldl]. fold (appends ops fs). unfold mine. rewrite filter_app. destruct (IH fs fn Hr) as [IH1 IH2].
  assert (Hr' : readable (appends ops fs !! fn)).
  { destruct (mine fn ops) as [|o' ops'] eqn:E using rev_ind; [by rewrite IH1|]. destruct o' as [b pt]. eapply holds_readable. by apply (IH2 b pt ops'). }
  assert (Hp : points (appends ops fs !! fn) ≡ₚ points (fs !! fn) ++ (snd <$> mine fn ops)).
  { destruct (mine fn ops) as [|o' ops'] eqn:E using rev_ind; [rewrite IH1 by done; by rewrite app_nil_r|]. destruct o' as [b pt]. eapply holds_points. by apply (IH2 b pt ops'). }
  rewrite (filter_cons _ o []), filter_nil. destruct (decide (b_filename o.1 = fn)) as [<- |Hne].
  - destruct (append_spec o.1 (appends ops fs) o.2.1 o.2.2 Hr') as (f & -> & Hf). cbn [fst]. split; [intros H; by apply app_nil in H as [_ [=]]|].
    intros b pt ops' H. apply app_inj_tail in H as [_ ->]. cbn [fst snd] in *. rewrite lookup_insert. destruct Hf as (ps & ls & [= ->] & Hs & Hl & Hz).
    exists ps, ls. split; [done|]. split; [done|]. split; [done|]. rewrite Hz, Hp, fmap_app. cbn. rewrite <- app_assoc. by destruct pt.
  - rewrite app_nil_r. assert (E : (append_data np o.1 (appends ops fs) o.2.1 o.2.2).1 !! fn = appends ops fs !! fn).
    { unfold append_data. destruct (new_points _ _ _ _) as [[ps ls]|]; cbn [fst]; [by rewrite lookup_insert_ne|done]. }
    rewrite E. done.
Qed.
Theorem C38_appends ops fs fn : readable (fs !! fn) ->
  (mine fn ops = [] -> appends ops fs !! fn = fs !! fn) /\
  (forall b pt, last (mine fn ops) = Some (b, pt) -> holds b (appends ops fs !! fn) (points (fs !! fn) ++ (snd <$> mine fn ops))).
Proof.
  intros Hr. destruct (appends_spec ops fs fn Hr) as [H1 H2]. split; [done|]. intros b pt Hl.
  destruct (mine fn ops) as [|o ops'] eqn:E using rev_ind; [done|]. rewrite last_snoc in Hl. injection Hl as ->. by apply (H2 b pt ops').
Qed.
(** An append to a file in order never raises, and changes no other file. *)
Theorem C38_append_ok b fs p l fn : readable (fs !! b_filename b) ->
  (append_data np b fs p l).2 = Ok tt /\ (fn <> b_filename b -> (append_data np b fs p l).1 !! fn = fs !! fn).
Proof. intros Hr. destruct (append_spec b fs p l Hr) as (f & -> & _). split; [done|]. intros Hne. cbn [fst]. by rewrite lookup_insert_ne. Qed.
(** Loading returns what the file has. *)
Theorem C38_load b fs fn pts : holds b (fs !! fn) pts ->
  exists an, load_data fs fn = Some an /\ a_d an = b_d b /\ a_T an = b_T b /\ Sorted Qcle (a_phys an) /\ length (a_phys an) = length (a_log an) /\ zip (a_phys an) (a_log an) ≡ₚ pts.
Proof. intros (ps & ls & E & Hs & Hl & Hz). exists (Analysis (b_d b) (b_T b) ps ls). unfold load_data. rewrite E. done. Qed.
Theorem C38_load_missing fs fn : load_data fs fn = None <-> fs !! fn = None \/ fs !! fn = Some NCorrupt.
Proof. unfold load_data. destruct (fs !! fn) as [[]|]; naive_solver. Qed.
End c38.
Print Assumptions C38_appends.
Print Assumptions C38_append_ok.
Print Assumptions C38_load.
Print Assumptions C38_load_missing.

(** * C37: sweeps *)
Section c37.
Context (np : numpy) (Hnp : np_ok np) (decode : option Qc -> string -> res Z) (sim : nat -> Qc -> res (list (string * Z))).
(** The rate [m] is measured with call number [k] of the simulator for the physical rate [r]. *)
Definition measured (correct : Z) (deg : bool) (k : nat) (r m : Qc) : Prop :=
  exists counts, sim k r = Ok counts /\ logical_error_rate decode correct counts (if deg then Some r else None) = Ok m.
Definition fails (correct : Z) (deg : bool) (k : nat) (r : Qc) (e : exn) : Prop :=
  sim k r = Err e \/ exists counts, sim k r = Ok counts /\ logical_error_rate decode correct counts (if deg then Some r else None) = Err e.
Lemma measure_ok correct (deg : bool) k r m : measure decode sim correct k r (if deg then Some r else None) = Ok m <-> measured correct deg k r m.
Proof. unfold measure, measured. destruct (sim k r) as [c|e]; split; [by eauto|by intros (? & [= <-] & ?)|done|by intros (? & ? & ?)]. Qed.
Lemma measure_err correct (deg : bool) k r e : measure decode sim correct k r (if deg then Some r else None) = Err e <-> fails correct deg k r e.
Proof. unfold measure, fails. destruct (sim k r) as [c|e']; split; [by eauto|by intros [|(? & [= <-] & ?)]|intros [= ->]; by left|by intros [[= ->]|(? & ? & ?)]]. Qed.

Definition save_all (b : bench) (pts : list (Qc * Qc)) (fs : files) : files := appends np ((b,.) <$> pts) fs.
Definition same_code (b b' : bench) : Prop := b_d b' = b_d b /\ b_T b' = b_T b /\ b_correct b' = b_correct b.
Lemma same_filename b b' : same_code b b' -> b_filename b' = b_filename b.
Proof. unfold b_filename. by intros (-> & -> & _). Qed.
Lemma same_append b b' fs p l : same_code b b' -> append_data np b' fs p l = append_data np b fs p l.
Proof. intros H. unfold append_data. rewrite (same_filename b b' H). by destruct H as (-> & -> & _). Qed.
Lemma same_save_all b b' pts fs : same_code b b' -> save_all b' pts fs = save_all b pts fs.
Proof. intros H. unfold save_all, appends. revert fs. induction pts as [|pt pts IH]; intros fs; [done|]. cbn. by rewrite (same_append b b' _ _ _ H), IH. Qed.
Lemma sweep_loop_spec save deg rates : forall k b fs, (save = true -> readable (fs !! b_filename b)) ->
  exists j meas b' fs' res, sweep_loop np decode sim save deg k rates b fs = (b', fs', res) /\
    length meas = j /\ (j <= length rates)%nat /\ same_code b b' /\ b_phys b' = b_phys b ++ take j rates /\ b_log b' = b_log b ++ meas /\
    (forall i r m, rates !! i = Some r -> meas !! i = Some m -> measured (b_correct b) deg (k + i) r m) /\
    fs' = (if save then save_all b (zip (take j rates) meas) fs else fs) /\
    ((res = Ok tt /\ j = length rates) \/ (exists r e, rates !! j = Some r /\ fails (b_correct b) deg (k + j) r e /\ res = Err e)).
Proof.
  induction rates as [|r rates IH]; intros k b fs Hr.
  { exists 0%nat, [], b, fs, (Ok tt). cbn. rewrite !app_nil_r. split; [done|]. split; [done|]. split; [lia|]. split; [done|]. split; [done|]. split; [done|]. split; [done|]. split; [by destruct save|]. by left. }
  cbn [sweep_loop]. destruct (measure _ _ _ _ _ _) as [l|e] eqn:Em.
  - apply measure_ok in Em. set (b1 := add_point b r l). assert (Hb1 : same_code b b1) by done.
    set (fs1 := if save then (append_data np b fs r l).1 else fs).
    assert (Ea : (if save then append_data np b1 fs r l else (fs, Ok tt)) = (fs1, Ok tt) /\ (save = true -> readable (fs1 !! b_filename b1))).
    { unfold fs1. destruct save; [|done]. destruct (append_spec np Hnp b fs r l (Hr eq_refl)) as (f & E & Hh). rewrite (same_append b b1) by done. rewrite E. split; [done|].
      intros _. cbn [fst]. rewrite (same_filename b b1 Hb1), lookup_insert. by eapply holds_readable. }
    destruct Ea as [Ea Hr1]. cbn zeta. rewrite Ea. destruct (IH (S k) b1 fs1 Hr1) as (j & meas & b' & fs' & rs & E & Hlen & Hj & Hsc & Hp & Hl & Hm & Hfs & Hres).
    exists (S j), (l :: meas), b', fs', rs. split; [done|]. split; [cbn; lia|]. split; [cbn; lia|]. split; [exact Hsc|].
    split; [rewrite Hp; cbn; by rewrite <- app_assoc|]. split; [rewrite Hl; cbn; by rewrite <- app_assoc|]. split; [|split].
    + intros [|i] r' m; cbn; [intros [= <-] [= <-]; by rewrite Nat.add_0_r|]. intros H1 H2. rewrite <- Nat.add_succ_comm. by apply Hm.
    + rewrite Hfs. unfold fs1. destruct save; [|done]. rewrite (same_save_all b b1) by done. done.
    + destruct Hres as [[-> ->]|(r' & e & H1 & H2 & ->)]; [by left|]. right. exists r', e. split; [done|]. split; [|done]. by rewrite <- Nat.add_succ_comm.
  - apply measure_err in Em. exists 0%nat, [], b, fs, (Err e). cbn. rewrite !app_nil_r. split; [done|]. split; [done|]. split; [lia|]. split; [done|]. split; [done|]. split; [done|].
    split; [done|]. split; [by destruct save|]. right. exists r, e. rewrite Nat.add_0_r. done.
Qed.

(** The rates measured by default are 4%, 7%, 10%, 13% and 16%. *)
Definition requested (rates : option (list Qc)) : list Qc :=
  match rates with Some l => l | None => (fun z => qz z / qz 100)%Qc <$> [4; 7; 10; 13; 16] end.
Lemma requested_eq rates : default default_rates rates = requested rates.
Proof. by destruct rates. Qed.
Definition descending (l : list Qc) : Prop := Sorted (fun x y => (y <= x)%Qc) l.
Definition saved (save : bool) (b : bench) (pts : list (Qc * Qc)) (fs fs' : files) : Prop :=
  (save = false -> fs' = fs) /\
  (save = true -> (pts <> [] -> holds b (fs' !! b_filename b) (points (fs !! b_filename b) ++ pts)) /\ (pts = [] -> fs' = fs) /\ forall fn, fn <> b_filename b -> fs' !! fn = fs !! fn).
Lemma saved_ok (save : bool) b pts fs : (save = true -> readable (fs !! b_filename b)) -> saved save b pts fs (if save then save_all b pts fs else fs).
Proof.
  intros Hr. destruct save; [|by split]. split; [done|]. intros _. unfold save_all.
  assert (Hmine : mine (b_filename b) ((b,.) <$> pts) = (b,.) <$> pts).
  { unfold mine. induction pts as [|pt pts IH]; [done|]. rewrite fmap_cons, filter_cons_True by done. by rewrite IH. }
  destruct (C38_appends np Hnp ((b,.) <$> pts) fs (b_filename b) (Hr eq_refl)) as [_ H]. rewrite Hmine in H. split; [|split].
  - intros Hne. destruct (last pts) as [pt|] eqn:El; [|by apply last_None in El]. assert (E : last ((b,.) <$> pts) = Some (b, pt)) by (by rewrite fmap_last, El).
    specialize (H b pt E). assert (E' : ((b,.) <$> pts).*2 = pts) by (clear; induction pts as [|pt pts IH]; [done|]; cbn; by rewrite IH). by rewrite E' in H.
  - by intros ->.
  - intros fn Hne. clear H Hr Hmine. revert fs. unfold appends. induction pts as [|pt pts IH]; intros fs; [done|]. cbn. rewrite IH. unfold append_data.
    destruct (new_points _ _ _ _) as [[ps ls]|]; cbn [fst]; [by rewrite lookup_insert_ne|done].
Qed.
Lemma sorted_desc_spec l : sorted_desc l ≡ₚ l /\ descending (sorted_desc l).
Proof. split; [apply merge_sort_Permutation|]. apply Sorted_merge_sort. intros x y. unfold Qc_ge. destruct (total Qcle x y); auto. Qed.

(** After a successful sweep the stored rates are the requested ones in ascending order, each
    with the logical error rate measured for it; measurements are taken in descending order. *)
Theorem C37_success rates save deg b fs b' fs' : (save = true -> readable (fs !! b_filename b)) ->
  sweep np decode sim rates save deg b fs = (b', fs', Ok tt) ->
  exists desc meas, desc ≡ₚ requested rates /\ descending desc /\ length meas = length desc /\
    (forall k r m, desc !! k = Some r -> meas !! k = Some m -> measured (b_correct b) deg k r m) /\
    same_code b b' /\ Sorted Qcle (b_phys b') /\ b_phys b' ≡ₚ requested rates /\ length (b_log b') = length (b_phys b') /\
    zip (b_phys b') (b_log b') ≡ₚ zip desc meas /\ saved save b (zip desc meas) fs fs'.
Proof.
  intros Hr. unfold sweep. set (b0 := Bench (b_d b) (b_T b) (b_correct b) [] []). assert (Hb0 : same_code b b0) by done.
  destruct (sorted_desc_spec (requested rates)) as [Hdp Hds]. rewrite requested_eq. set (desc := sorted_desc (requested rates)) in *.
  destruct (sweep_loop_spec save deg desc 0 b0 fs Hr) as (j & meas & b1 & fs1 & rs & E & Hlen & Hj & Hsc & Hp & Hl & Hm & Hfs & Hres). rewrite E.
  destruct Hres as [[-> ->]|(r & e & _ & _ & ->)]; [|done]. rewrite firstn_all in Hp, Hfs. cbn in Hp, Hl. rewrite Hp, Hl.
  destruct (argsort_pair Qcle (argsort_q np) desc meas (proj1 Hnp) Hlen) as (ps & ls & E1 & E2 & Hs & Hpp & Hll & Hz). rewrite E1. cbn [b_log]. rewrite E2. cbn. intros [= <- <-].
  exists desc, meas. do 4 (split; [done|]). cbn. split; [done|]. split; [done|]. split; [by rewrite Hpp|]. split; [done|]. split; [done|]. rewrite (same_save_all b b0) in Hfs by done. rewrite Hfs. by apply saved_ok.
Qed.
(** A sweep fails exactly with the exception of the first measurement that fails; until then all
    points have been stored, in descending order, and saved. *)
Theorem C37_failure rates save deg b fs b' fs' e : (save = true -> readable (fs !! b_filename b)) ->
  sweep np decode sim rates save deg b fs = (b', fs', Err e) ->
  exists desc1 r desc2 meas, desc1 ++ r :: desc2 ≡ₚ requested rates /\ descending (desc1 ++ r :: desc2) /\ length meas = length desc1 /\
    (forall k r' m, desc1 !! k = Some r' -> meas !! k = Some m -> measured (b_correct b) deg k r' m) /\
    fails (b_correct b) deg (length desc1) r e /\
    same_code b b' /\ b_phys b' = desc1 /\ b_log b' = meas /\ saved save b (zip desc1 meas) fs fs'.
Proof.
  intros Hr. unfold sweep. set (b0 := Bench (b_d b) (b_T b) (b_correct b) [] []). assert (Hb0 : same_code b b0) by done.
  destruct (sorted_desc_spec (requested rates)) as [Hdp Hds]. rewrite requested_eq. set (desc := sorted_desc (requested rates)) in *.
  destruct (sweep_loop_spec save deg desc 0 b0 fs Hr) as (j & meas & b1 & fs1 & rs & E & Hlen & Hj & Hsc & Hp & Hl & Hm & Hfs & Hres). rewrite E.
  destruct Hres as [[-> ->]|(r & e' & Hr' & Hf & ->)].
  - rewrite firstn_all in Hp, Hfs. cbn in Hp, Hl. rewrite Hp, Hl.
    destruct (argsort_pair Qcle (argsort_q np) desc meas (proj1 Hnp) Hlen) as (ps & ls & E1 & E2 & Hs & Hpp & Hll & Hz). rewrite E1. cbn [b_log]. rewrite E2. done.
  - intros [= <- <- <-]. cbn in Hp, Hl. assert (Hd : desc = take j desc ++ r :: drop (S j) desc) by (symmetry; by apply take_drop_middle).
    exists (take j desc), r, (drop (S j) desc), meas. rewrite <- Hd. do 2 (split; [done|]). assert (Ht : length (take j desc) = j) by (rewrite take_length; lia). rewrite Ht. split; [done|].
    split; [intros k r' m H1 H2; apply Hm; [|done]; rewrite <- H1; symmetry; apply lookup_take; apply lookup_lt_Some in H2; lia|].
    split; [done|]. split; [done|]. split; [done|]. split; [done|]. rewrite (same_save_all b b0) in Hfs by done. rewrite Hfs. by apply saved_ok.
Qed.
(** It succeeds if all measurements succeed. *)
Theorem C37_succeeds rates save deg b fs : (save = true -> readable (fs !! b_filename b)) ->
  (forall k r, r ∈ requested rates -> exists m, measured (b_correct b) deg k r m) ->
  exists b' fs', sweep np decode sim rates save deg b fs = (b', fs', Ok tt).
Proof.
  intros Hr Hm. destruct (sweep np decode sim rates save deg b fs) as [[b' fs'] [[]|e]] eqn:E; [by eauto|]. exfalso.
  destruct (C37_failure _ _ _ _ _ _ _ _ Hr E) as (d1 & r & d2 & meas & Hp & _ & _ & _ & Hf & _). destruct (Hm (length d1) r) as [m (c & Hc & Hmm)]; [rewrite <- Hp; set_solver|].
  destruct Hf as [Hf|(c' & Hc' & Hf)]; congruence.
Qed.
(** [single] returns the measured rate and saves it. *)
Theorem C37_single k r save b fs : (save = true -> readable (fs !! b_filename b)) ->
  (forall m, measured (b_correct b) true k r m -> exists fs', single np decode sim k r save b fs = (fs', Ok m) /\ saved save b [(r, m)] fs fs') /\
  (forall e, fails (b_correct b) true k r e -> single np decode sim k r save b fs = (fs, Err e)).
Proof.
  intros Hr. split.
  - intros m Hm. apply measure_ok in Hm. cbn in Hm. unfold single. rewrite Hm. pose proof (saved_ok save b [(r, m)] fs Hr) as Hs. destruct save; [|by exists fs].
    destruct (append_spec np Hnp b fs r m (Hr eq_refl)) as (f & E & _). unfold save_all, appends in Hs. cbn in Hs. rewrite E in Hs |- *. eauto.
  - intros e He. apply measure_err in He. cbn in He. unfold single. by rewrite He.
Qed.
End c37.
Print Assumptions C37_success.
Print Assumptions C37_failure.
Print Assumptions C37_succeeds.
Print Assumptions C37_single.

(** * C47: file names *)
(** Benchmarks share a data file exactly if they agree on d and T: the kind of code, the circuit
    and the noise model do not matter. *)
Fixpoint no_ch (ch : ascii) (s : string) : Prop := match s with EmptyString => True | String c s' => c <> ch /\ no_ch ch s' end.
Lemma no_ch_go ch x s : (forall n, pretty_N_char n <> ch) -> no_ch ch s -> no_ch ch (pretty_N_go x s).
Proof.
  intros Hch. revert s. induction (N.lt_wf_0 x) as [x _ IH]; intros s Hs.
  assert (x = 0 \/ 0 < x)%N as [->|Hx] by lia; [by rewrite pretty_N_go_0|].
  rewrite pretty_N_go_step by done. apply IH; [by apply N.div_lt|]. cbn. by split.
Qed.
Lemma no_ch_py_str ch n : ch = ","%char \/ ch = ")"%char \/ ch = "."%char -> no_ch ch (py_str n).
Proof.
  intros Hch. assert (Hc : forall k, pretty_N_char k <> ch) by (intros k; unfold pretty_N_char; repeat case_match; by destruct Hch as [-> |[-> | ->]]).
  assert (HN : forall k : N, no_ch ch (pretty k)).
  { intros k. unfold pretty, pretty_N. case_decide; [|by apply no_ch_go]. cbn. by destruct Hch as [-> |[-> | ->]]. }
  unfold py_str. destruct n as [|p|p]; [cbn; by destruct Hch as [-> |[-> | ->]]|apply (HN (N.pos p))|]. cbn. split; [by destruct Hch as [-> |[-> | ->]]|apply (HN (N.pos p))].
Qed.
Lemma ch_split ch (a b x y : string) : no_ch ch a -> no_ch ch b -> (a +:+ String ch x)%string = (b +:+ String ch y)%string -> a = b /\ x = y.
Proof.
  revert b. induction a as [|c a IH]; intros [|c' b] Ha Hb; cbn in *; intros [=]; subst; try tauto.
  destruct (IH b) as [-> ->]; tauto.
Qed.
Theorem C47_filename b b' : b_filename b = b_filename b' <-> b_d b = b_d b' /\ b_T b = b_T b'.
Proof.
  unfold b_filename. split; [|by intros [-> ->]]. destruct (b_d b) as [h w], (b_d b') as [h' w']. cbn [fst snd]. intros H.
  apply (append_inj_l "d_(") in H. apply (ch_split ",") in H as [E1 H]; [|apply no_ch_py_str; tauto..]. apply py_str_inj in E1 as ->.
  apply (append_inj_l " ") in H. apply (ch_split ")") in H as [E2 H]; [|apply no_ch_py_str; tauto..]. apply py_str_inj in E2 as ->.
  apply (append_inj_l "_T_") in H. apply (ch_split ".") in H as [E3 H]; [|apply no_ch_py_str; tauto..]. by apply py_str_inj in E3 as ->.
Qed.
Print Assumptions C47_filename.
(** In particular the d and T in a data file are those of all benchmarks that append to it. *)
Theorem C47_own_parameters np ops fs b pt : np_ok np -> readable (fs !! b_filename b) -> (b, pt) ∈ ops ->
  exists an, load_data (appends np ops fs) (b_filename b) = Some an /\ a_d an = b_d b /\ a_T an = b_T b /\ pt ∈ zip (a_phys an) (a_log an).
Proof.
  intros Hnp Hr Hin. destruct (C38_appends np Hnp ops fs (b_filename b) Hr) as [_ H].
  assert (Hm : (b, pt) ∈ mine (b_filename b) ops) by (apply elem_of_list_filter; by split).
  destruct (last (mine (b_filename b) ops)) as [[b' pt']|] eqn:El; [|apply last_None in El; rewrite El in Hm; by apply elem_of_nil in Hm].
  specialize (H b' pt' eq_refl). destruct (C38_load b' _ _ _ H) as (an & Ha & Hd & HT & _ & _ & Hz).
  assert (Hb' : (b', pt') ∈ mine (b_filename b) ops) by (by apply last_Some_elem_of). apply elem_of_list_filter in Hb' as [Hb' _]. cbn in Hb'. apply C47_filename in Hb' as [E1 E2].
  exists an. split; [done|]. split; [congruence|]. split; [congruence|]. rewrite Hz. apply elem_of_app. right. apply elem_of_list_fmap. by exists (b, pt).
Qed.
Print Assumptions C47_own_parameters.

(** * C48: batch analysis *)
(** All files of the directory are loaded and ordered by height; if one cannot be read, none is. *)
Theorem C48_batch np fs fnames : np_ok np ->
  match batch np fs fnames with
  | Some ans => exists loaded, Forall2 (fun fn an => load_data fs fn = Some an) fnames loaded /\ ans ≡ₚ loaded /\ Sorted Z.le ((fun a => (a_d a).1) <$> ans)
  | None => exists fn, fn ∈ fnames /\ load_data fs fn = None
  end.
Proof.
  intros [_ Hz]. unfold batch. destruct (mapM (load_data fs) fnames) as [an|] eqn:E.
  - destruct (argsort_one Z.le (argsort_z np) an (fun a => (a_d a).1) Hz) as (ans & -> & Hp & Hs). exists an. split; [by apply mapM_Some|done].
  - apply mapM_None, Exists_exists in E as (fn & Hin & Hfn). eauto.
Qed.
Print Assumptions C48_batch.
