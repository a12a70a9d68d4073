(** Property C52: several qubits on one circuit (the [circ=] argument). *)
From Coq Require Import Ascii.
From Verif Require Import P_Hist.
From stdpp Require Export list.
Open Scope Z_scope.

(** ** Numbered names *)
Definition is_digit (c : ascii) : Prop := (48 <= nat_of_ascii c <= 57)%nat.
Definition chars := String.list_ascii_of_string.
Lemma chars_app a b : chars (a +:+ b) = chars a ++ chars b.
Proof. induction a as [|c a IHa]; [done|]. change (c :: chars (a +:+ b) = c :: (chars a ++ chars b)). by rewrite IHa. Qed.
Lemma chars_inj a b : chars a = chars b -> a = b.
Proof. revert b. induction a as [|c a IHa]; intros [|d b]; cbn; intros [=]; [done|]. f_equal; [done|]. by apply IHa. Qed.
Lemma digits_go x s : Forall is_digit (chars s) -> Forall is_digit (chars (pretty_N_go x s)).
Proof.
  revert s. induction (N.lt_wf_0 x) as [x _ IHx]; intros s Hs.
  assert (x = 0 \/ 0 < x)%N as [->|Hx] by lia; [by rewrite pretty_N_go_0|].
  rewrite pretty_N_go_step by done. apply IHx; [by apply N.div_lt|]. constructor; [|done].
  unfold pretty_N_char. repeat case_match; vm_compute; lia.
Qed.
Lemma go_ne x s : (0 < x)%N -> pretty_N_go x s <> ""%string.
Proof.
  revert s. induction (N.lt_wf_0 x) as [x _ IHx]; intros s Hx. rewrite pretty_N_go_step by done.
  destruct (decide (x `div` 10 = 0)%N) as [E|E]; [by rewrite E, pretty_N_go_0|]. apply IHx; [by apply N.div_lt|by apply N.neq_0_lt_0].
Qed.
Lemma digits_py_str n : 0 <= n -> Forall is_digit (chars (py_str n)) /\ chars (py_str n) <> [].
Proof.
  intros Hn. unfold py_str. destruct n as [|p|p]; [split; [repeat constructor; vm_compute; lia|done]| |lia].
  change (Forall is_digit (chars (pretty (N.pos p))) /\ chars (pretty (N.pos p)) <> []). unfold pretty, pretty_N. rewrite decide_False by done.
  split; [by apply digits_go; constructor|]. intros E. apply (go_ne (N.pos p) ""); [done|]. by destruct (pretty_N_go (N.pos p) "").
Qed.
Lemma strip_digits (a b x y : list ascii) c d : ~ is_digit c -> ~ is_digit d -> Forall is_digit x -> Forall is_digit y ->
  (a ++ [c]) ++ x = (b ++ [d]) ++ y -> a ++ [c] = b ++ [d] /\ x = y.
Proof.
  intros Hc Hd Hx Hy E. apply app_eq_inv in E as [(k & E1 & E2)|(k & E1 & E2)].
  - destruct k as [|z k] using rev_ind; [by rewrite app_nil_r in E1|]. exfalso. rewrite (app_assoc (b ++ [d]) k [z]) in E1. apply app_inj_tail in E1 as [_ <-].
    apply Hc. rewrite E2, <-app_assoc in Hy. apply Forall_app in Hy as [_ Hy]. by inversion Hy.
  - destruct k as [|z k] using rev_ind; [by rewrite app_nil_r in E1|]. exfalso. rewrite (app_assoc (a ++ [c]) k [z]) in E1. apply app_inj_tail in E1 as [_ <-].
    apply Hd. rewrite E2, <-app_assoc in Hx. apply Forall_app in Hx as [_ Hx]. by inversion Hx.
Qed.
Definition ends_nd (s : string) : Prop := exists a c, chars s = a ++ [c] /\ ~ is_digit c.
Lemma numbered_inj a b k k' : ends_nd a -> ends_nd b -> 0 <= k -> 0 <= k' -> (a +:+ py_str k)%string = (b +:+ py_str k')%string -> a = b /\ k = k'.
Proof.
  intros (x & c & Ex & Hc) (y & d & Ey & Hd) Hk Hk' E. apply (f_equal chars) in E. rewrite !chars_app, Ex, Ey in E.
  apply strip_digits in E as [E1 E2]; [|done|done|by apply digits_py_str|by apply digits_py_str]. rewrite <-Ex, <-Ey in E1.
  split; [by apply chars_inj|]. by apply py_str_inj, chars_inj.
Qed.
Lemma ends_app a b : ends_nd b -> ends_nd (a +:+ b).
Proof. intros (x & c & E & H). exists (chars a ++ x), c. by rewrite chars_app, E, app_assoc. Qed.
Lemma c_suf_ends suf : suf ∈ c_sufs -> ends_nd suf.
Proof.
  intros [->|[->| ->]]%c_sufs_inv.
  - exists ["_"]%char, "c"%char. split; [done|]. vm_compute. lia.
  - exists (chars "_readout"), "_"%char. split; [done|]. vm_compute. lia.
  - exists (chars "_lattice_readout"), "_"%char. split; [done|]. vm_compute. lia.
Qed.
Lemma q_suf_ends suf : suf ∈ q_sufs -> ends_nd suf.
Proof.
  intros [->|[->|[->| ->]]]%q_sufs_inv.
  - exists (chars "_dat"), "a"%char. split; [done|]. vm_compute. lia.
  - exists (chars "_m"), "z"%char. split; [done|]. vm_compute. lia.
  - exists (chars "_m"), "x"%char. split; [done|]. vm_compute. lia.
  - exists (chars "_ancill"), "a"%char. split; [done|]. vm_compute. lia.
Qed.
Lemma app_inj_r (a b s : string) : (a +:+ s)%string = (b +:+ s)%string -> a = b.
Proof. intros E. apply (f_equal chars) in E. rewrite !chars_app in E. apply app_inv_tail in E. by apply chars_inj. Qed.
(** Registers of qubits never get the name of a classical register of a qubit ... *)
Lemma qc_ne a b suf suf' k : suf ∈ q_sufs -> suf' ∈ c_sufs -> 0 <= k -> (a +:+ suf)%string <> (b +:+ suf' +:+ py_str k)%string.
Proof.
  intros Hs _ Hk E. destruct (q_suf_ends _ Hs) as (x & c & Ex & Hc). apply (f_equal chars) in E. rewrite !chars_app, Ex in E.
  destruct (digits_py_str k Hk) as [Hd Hn]. destruct (chars (py_str k)) as [|z l _] using rev_ind; [done|].
  rewrite !app_assoc in E. apply app_inj_tail in E as [_ ->]. apply Hc. rewrite Forall_app in Hd. destruct Hd as [_ Hd]. by inversion Hd.
Qed.
(** ... or of a register of another qubit ... *)
Lemma qq_inj a b suf suf' : suf ∈ q_sufs -> suf' ∈ q_sufs -> (a +:+ suf)%string = (b +:+ suf')%string -> a = b /\ suf = suf'.
Proof.
  assert (HF : forall x y u v, u <> v -> length u = length v -> (chars x ++ u) <> (chars y ++ v)).
  { intros x y u v Hne Hl E. apply app_inj_2 in E; [|done]. naive_solver. }
  intros Hs%q_sufs_inv Hs'%q_sufs_inv E. apply (f_equal chars) in E. rewrite !chars_app in E.
  destruct Hs as [->|[->|[->| ->]]], Hs' as [->|[->|[->| ->]]];
    first [apply app_inj_2 in E as [E _]; [|done]; split; [by apply chars_inj|done] | exfalso; revert E; cbn [chars String.list_ascii_of_string]].
  all: intros E; apply (f_equal reverse) in E; rewrite !reverse_app in E; by injection E.
Qed.
(** ... and two classical registers of qubits have the same name only if one is the readout
    register of a qubit whose name is that of another qubit followed by "_lattice". *)
Lemma cc_inj a b suf suf' k k' : suf ∈ c_sufs -> suf' ∈ c_sufs -> 0 <= k -> 0 <= k' ->
  (a +:+ suf +:+ py_str k)%string = (b +:+ suf' +:+ py_str k')%string ->
  k = k' /\ ((a = b /\ suf = suf') \/ (a = (b +:+ "_lattice")%string /\ suf = "_readout_"%string /\ suf' = "_lattice_readout_"%string) \/
             (b = (a +:+ "_lattice")%string /\ suf' = "_readout_"%string /\ suf = "_lattice_readout_"%string)).
Proof.
  intros Hs Hs' Hk Hk' E. rewrite <-!str_app_assoc in E. apply numbered_inj in E as [E ->]; [|by apply ends_app, c_suf_ends..|done|done].
  split; [done|]. apply c_sufs_inv in Hs, Hs'.
  destruct Hs as [->|[->| ->]], Hs' as [->|[->| ->]]; try (left; split; [by apply app_inj_r in E|done]).
  1,2,3,5: exfalso; apply (f_equal chars), (f_equal reverse) in E; rewrite !chars_app, !reverse_app in E; by injection E.
  - right; left. split; [|done]. change "_lattice_readout_"%string with ("_lattice" +:+ "_readout_")%string in E. rewrite <-str_app_assoc in E. by apply app_inj_r in E.
  - right; right. split; [|done]. change "_lattice_readout_"%string with ("_lattice" +:+ "_readout_")%string in E. rewrite <-str_app_assoc in E. by apply app_inj_r in E.
Qed.

(** ** Programs *)
(** Constructing a qubit on the circuit ([Qubit(params, name=..., circ=circ)], base.py:273-300), or a
    call on the [i]-th qubit constructed. *)
Inductive cmd := New (t : qtype) (l : nat) (name : string) | Call (i : nat) (o : op).
Fixpoint run_prog (prog : list cmd) (qs : list tqubit) : M (list tqubit) :=
  match prog with
  | [] => Circ.mret qs
  | New t l name :: prog' => let* q := new_tqubit t (Some l) name in run_prog prog' (qs ++ [q])
  | Call i o :: prog' => match qs !! i with Some q => run_op q o ;;; run_prog prog' qs | None => mraise IndexError end
  end.
(** The names given to the qubits, and the calls. *)
Definition prog_names (prog : list cmd) : list string := omap (fun c => match c with New _ _ name => Some name | _ => None end) prog.
Definition prog_calls (prog : list cmd) : list (Z * op) := omap (fun c => match c with Call i o => Some (Z.of_nat i, o) | _ => None end) prog.
(** Dictionaries used. *)
Definition prog_dicts (prog : list cmd) : list nat := omap (fun c => match c with New _ l _ => Some l | _ => None end) prog.
(** The dictionaries ask for valid sizes; calls are made on qubits that exist and support them.
    [qs] are the types and sizes of the qubits constructed before. *)
Fixpoint sensible (h : gmap nat params) (qs : list (qtype * (Z * Z))) (prog : list cmd) : Prop :=
  match prog with
  | [] => True
  | New t l name :: prog' => exists p dh dw, h !! l = Some p /\ asked t p = Some (dh, dw) /\ valid_size dh dw /\ sensible h (qs ++ [(t, (dh, dw))]) prog'
  | Call i o :: prog' => (exists t dh dw, qs !! i = Some (t, (dh, dw)) /\ ~ unsupported t dh dw o) /\ sensible h qs prog'
  end.
(** The circuit's own registers have names of another kind. *)
Definition foreign (x : string) (names : list string) : Prop :=
  forall nm, nm ∈ names -> (forall suf, suf ∈ q_sufs -> x <> (nm +:+ suf)%string) /\
    (forall suf k, suf ∈ c_sufs -> 0 <= k -> x <> (nm +:+ suf +:+ py_str k)%string).
(** Some qubit called nm has its data qubits read out while one called nm_lattice has a readout
    into a register of its own. *)
Definition lattice_clash (names : list string) (calls : list (Z * op)) : Prop :=
  exists i j nm o o', names !! i = Some nm /\ names !! j = Some (nm +:+ "_lattice")%string /\
    (Z.of_nat i, o) ∈ calls /\ kind o = Some "_lattice_readout_"%string /\
    (Z.of_nat j, o') ∈ calls /\ kind o' = Some "_readout_"%string.

Lemma uses_pos k i l : 0 < uses k i l <-> exists o, (i, o) ∈ l /\ kind o = Some k.
Proof.
  unfold uses. split.
  - intros H. destruct (filter (fun e : Z * op => e.1 = i /\ kind e.2 = Some k) l) as [|[j o] l'] eqn:E; [cbn in H; lia|].
    assert (Hin : (j, o) ∈ filter (fun e : Z * op => e.1 = i /\ kind e.2 = Some k) l) by (rewrite E; by left).
    apply elem_of_list_filter in Hin as [[<- Hk] Hin]. by exists o.
  - intros (o & Ho & Hk). assert (Hin : (i, o) ∈ filter (fun e : Z * op => e.1 = i /\ kind e.2 = Some k) l) by (by apply elem_of_list_filter).
    destruct (filter _ _); [by apply elem_of_nil in Hin|cbn; lia].
Qed.

Record shared (h0 : gmap nat params) (R0 : list string) (rest : list nat) (s : st) (qs : list tqubit) (szs : list (qtype * (Z * Z))) (nms : list string) (seen : list (Z * op)) : Prop := {
  sh_len : length qs = length szs;
  sh_len' : length nms = length szs;
  sh_q : forall i q t dh dw nm, qs !! i = Some q -> szs !! i = Some (t, (dh, dw)) -> nms !! i = Some nm ->
    lat_code (tq_lat q) = code_of t /\ lat_name (tq_lat q) = nm /\ lat_ok s q dh dw /\ has_cnt s q (cnt_of (Z.of_nat i) seen);
  sh_sep : NoDup (lat_params ∘ tq_lat <$> qs);
  sh_heap : heap_fresh s;
  sh_used : forall q, q ∈ qs -> lat_params (tq_lat q) ∉ rest /\ (lat_params (tq_lat q) < s_next s)%nat;
  sh_rest : forall l, l ∈ rest -> s_heap s !! l = h0 !! l;
  sh_sound : forall x, x ∈ names s -> x ∈ R0 \/ exists i nm, nms !! i = Some nm /\
    ((exists suf, suf ∈ q_sufs /\ x = (nm +:+ suf)%string) \/
     (exists suf k, suf ∈ c_sufs /\ 0 <= k < uses suf (Z.of_nat i) seen /\ x = (nm +:+ suf +:+ py_str k)%string));
  sh_data : forall i nm, nms !! i = Some nm -> (nm +:+ "_data")%string ∈ names s;
  sh_compl : forall i nm suf k, nms !! i = Some nm -> suf ∈ c_sufs -> 0 <= k < uses suf (Z.of_nat i) seen -> (nm +:+ suf +:+ py_str k)%string ∈ names s;
  sh_nodup : NoDup nms;
  sh_noclash : ~ lattice_clash nms seen;
  sh_seen : forall e, e ∈ seen -> 0 <= e.1 < Z.of_nat (length nms) }.

Lemma op_reg_kind nm i dh dw seen o : r_name <$> op_reg nm dh dw (cnt_of i seen) o = match kind o with Some k => [(nm +:+ k +:+ py_str (uses k i seen))%string] | None => [] end.
Proof.
  unfold cnt_of. destruct o as [|[h|]|[h|]| | | | | | | |]; cbn [op_reg kind eff fst snd cT cR cL]; try done;
    try case_bool_decide; cbn [fmap list_fmap r_name]; try done; unfold cname, rdname, lrname; rewrite Z.sub_add; done.
Qed.
Lemma clash_mono nms l e : lattice_clash nms l -> lattice_clash nms (l ++ e).
Proof. intros (i & j & nm & o & o' & H1 & H2 & H3 & H4 & H5 & H6). exists i, j, nm, o, o'. rewrite !elem_of_app. tauto. Qed.
Lemma clash_uses nms l : lattice_clash nms l <-> exists i j nm, nms !! i = Some nm /\ nms !! j = Some (nm +:+ "_lattice")%string /\
  0 < uses "_lattice_readout_" (Z.of_nat i) l /\ 0 < uses "_readout_" (Z.of_nat j) l.
Proof.
  split.
  - intros (i & j & nm & o & o' & H1 & H2 & H3 & H4 & H5 & H6). exists i, j, nm. rewrite !uses_pos. eauto 10.
  - intros (i & j & nm & H1 & H2 & (o & H3 & H4)%uses_pos & (o' & H5 & H6)%uses_pos). by exists i, j, nm, o, o'.
Qed.
Lemma shared_call h0 R0 rest s qs szs nms seen i o q t dh dw : shared h0 R0 rest s qs szs nms seen -> (forall x, x ∈ R0 -> foreign x nms) ->
  qs !! i = Some q -> szs !! i = Some (t, (dh, dw)) -> ~ unsupported t dh dw o ->
  (exists s', run_op q o s = (s', Ok tt) /\ shared h0 R0 rest s' qs szs nms (seen ++ [(Z.of_nat i, o)])) \/
  ((exists s', run_op q o s = (s', Err CircuitError)) /\ lattice_clash nms (seen ++ [(Z.of_nat i, o)])).
Proof.
  intros Hs HR Hq Hsz Hsup. assert (Hi : (i < length nms)%nat) by (rewrite (sh_len' _ _ _ _ _ _ _ _ Hs); by eapply lookup_lt_Some).
  destruct (lookup_lt_is_Some_2 _ _ Hi) as [nm Hnm].
  destruct (sh_q _ _ _ _ _ _ _ _ Hs _ _ _ _ _ _ Hq Hsz Hnm) as (Hc & Hn & Hok & Hcnt).
  assert (Hop : op_ok (lat_code (tq_lat q)) dh dw o = true).
  { destruct (op_ok _ _ _ _) eqn:E; [done|]. rewrite Hc in E. destruct Hsup. apply unsupported_spec; [apply Hok|done]. }
  set (new := r_name <$> op_reg nm dh dw (cnt_of (Z.of_nat i) seen) o).
  destruct (decide (Forall (fun x => x ∉ names s) new)) as [Hf|Hf].
  - assert (Hf' : op_fresh s (lat_name (tq_lat q)) dh dw (cnt_of (Z.of_nat i) seen) o).
    { intros r Hr. rewrite Hn in Hr. eapply list.Forall_forall in Hf; [exact Hf|]. by apply elem_of_list_fmap_1. }
    destruct (run_op_ok s q dh dw _ o Hok Hcnt Hop Hf') as (s' & E & [P1 P2 P3 P4 (P5 & P6 & P7 & P8 & P9 & _)]).
    rewrite Hn in P3. assert (HN : names s' = names s ++ new) by (unfold names; by rewrite P3, fmap_app).
    rewrite op_next_uses in P2. unfold new in HN. rewrite op_reg_kind in HN.
    assert (Hfk : forall k, kind o = Some k -> (nm +:+ k +:+ py_str (uses k (Z.of_nat i) seen))%string ∉ names s).
    { intros k Hk. unfold new in Hf. rewrite op_reg_kind, Hk in Hf. by inversion Hf. }
    left. exists s'. split; [done|]. constructor.
    + apply Hs.
    + apply Hs.
    + intros j q' t' dh' dw' nm' Hq' Hsz' Hnm'. destruct (decide (j = i)) as [->|Hne].
      * assert (q' = q) as -> by congruence. assert (t' = t /\ dh' = dh /\ dw' = dw) as (-> & -> & ->) by (split_and!; congruence). assert (nm' = nm) as -> by congruence. done.
      * destruct (sh_q _ _ _ _ _ _ _ _ Hs _ _ _ _ _ _ Hq' Hsz' Hnm') as (Hc' & Hn' & Hok' & Hcnt').
        assert (Hh : s_heap s' !! lat_params (tq_lat q') = s_heap s !! lat_params (tq_lat q')).
        { apply P5. intros E'. apply Hne. eapply (NoDup_lookup _ j i (lat_params (tq_lat q)) (sh_sep _ _ _ _ _ _ _ _ Hs)); rewrite list_lookup_fmap; [rewrite Hq'|rewrite Hq]; cbn; by f_equal. }
        split_and!; [done|done|by eapply lat_ok_heap|]. rewrite cnt_of_other by lia. by eapply has_cnt_heap.
    + apply Hs.
    + intros x Hx. rewrite P6 in Hx. rewrite P5; [by apply Hs|]. intros ->. destruct (sh_used _ _ _ _ _ _ _ _ Hs q) as [_ Hlt]; [by eapply elem_of_list_lookup_2|]. lia.
    + rewrite P6. apply Hs.
    + intros l Hl. rewrite P5; [by apply Hs|]. intros ->. destruct (sh_used _ _ _ _ _ _ _ _ Hs q) as [HH _]; [by eapply elem_of_list_lookup_2|]. done.
    + rewrite HN. intros x [Hx|Hx]%elem_of_app.
      * destruct (sh_sound _ _ _ _ _ _ _ _ Hs x Hx) as [?|(j & nm' & Hj & [?|(suf & k & Hsuf & Hk & ->)])]; [by left|right; exists j, nm'; tauto|].
        right. exists j, nm'. split; [done|]. right. exists suf, k. split; [done|]. split; [|done]. pose proof (uses_mono suf (Z.of_nat j) seen (Z.of_nat i, o)). lia.
      * destruct (kind o) as [k|] eqn:Ek; [|by apply elem_of_nil in Hx]. apply elem_of_list_singleton in Hx as ->. right. exists i, nm. split; [done|]. right. exists k, (uses k (Z.of_nat i) seen).
        split; [by eapply kind_c_sufs|]. split; [|done]. rewrite uses_app. cbn [fst snd]. rewrite bool_decide_eq_true_2 by done. pose proof (uses_nonneg k (Z.of_nat i) seen). lia.
    + intros j nm' Hj. rewrite HN. apply elem_of_app. left. by eapply sh_data.
    + intros j nm' suf k Hj Hsuf Hk. rewrite HN. apply elem_of_app. rewrite uses_app in Hk. case_bool_decide as Hb; cbn [fst snd] in Hb.
      * destruct Hb as [Hb Hko]. assert (j = i) as -> by lia. assert (nm' = nm) as -> by congruence. rewrite Hko.
        destruct (decide (k = uses suf (Z.of_nat i) seen)) as [->|]; [right; by left|]. left. eapply sh_compl; try done. lia.
      * left. eapply sh_compl; try done. lia.
    + apply Hs.
    + rewrite clash_uses. intros (a & b & nm' & Ha & Hb & Hua & Hub). rewrite uses_app in Hua, Hub. cbn [fst snd] in Hua, Hub.
      pose proof (sh_noclash _ _ _ _ _ _ _ _ Hs) as HC. rewrite clash_uses in HC.
      assert (HC' : ~ (0 < uses "_lattice_readout_" (Z.of_nat a) seen /\ 0 < uses "_readout_" (Z.of_nat b) seen)) by (intros [??]; apply HC; by exists a, b, nm').
      pose proof (uses_nonneg "_lattice_readout_" (Z.of_nat a) seen). pose proof (uses_nonneg "_readout_" (Z.of_nat b) seen).
      case_bool_decide as B2; case_bool_decide as B1; cbn [fst snd] in B1, B2.
      * destruct B1 as [_ B1], B2 as [_ B2]. congruence.
      * destruct B2 as [B2 K2]. assert (b = i) as -> by lia. assert (nm = nm' +:+ "_lattice")%string as -> by congruence. apply (Hfk _ K2).
        assert (uses "_readout_" (Z.of_nat i) seen = 0) as -> by lia. rewrite str_app_assoc.
        eapply (sh_compl _ _ _ _ _ _ _ _ Hs a nm' "_lattice_readout_"); [done|set_solver|lia].
      * destruct B1 as [B1 K1]. assert (a = i) as -> by lia. assert (nm' = nm) as -> by congruence. apply (Hfk _ K1).
        assert (uses "_lattice_readout_" (Z.of_nat i) seen = 0) as -> by lia.
        change "_lattice_readout_"%string with ("_lattice" +:+ "_readout_")%string. rewrite str_app_assoc, <-str_app_assoc.
        eapply (sh_compl _ _ _ _ _ _ _ _ Hs b); [done|set_solver|lia].
      * lia.
    + intros e [He|He]%elem_of_app; [by eapply sh_seen|]. apply elem_of_list_singleton in He as ->. cbn. lia.
  - right. assert (Hf' : ~ op_fresh s (lat_name (tq_lat q)) dh dw (cnt_of (Z.of_nat i) seen) o).
    { intros HF. apply Hf. apply Forall_fmap, list.Forall_forall. intros r Hr. apply HF. by rewrite Hn. }
    split; [destruct (run_op_clash s q dh dw _ o Hok Hcnt Hf') as (s' & E & _); by exists s'|].
    unfold new in Hf. rewrite op_reg_kind in Hf. destruct (kind o) as [k|] eqn:Ek; [|by destruct Hf].
    destruct (decide ((nm +:+ k +:+ py_str (uses k (Z.of_nat i) seen))%string ∈ names s)) as [Hin|Hin]; [|destruct Hf; by repeat constructor].
    assert (Hks : k ∈ c_sufs) by (by eapply kind_c_sufs). pose proof (uses_nonneg k (Z.of_nat i) seen) as Hk0.
    destruct (sh_sound _ _ _ _ _ _ _ _ Hs _ Hin) as [Hx|(j & nm' & Hj & [(suf & Hsuf & E)|(suf & k' & Hsuf & Hk' & E)])].
    + exfalso. destruct (HR _ Hx nm) as [_ HH]; [by eapply elem_of_list_lookup_2|]. by apply (HH k (uses k (Z.of_nat i) seen)).
    + exfalso. symmetry in E. by apply qc_ne in E.
    + apply cc_inj in E; [|done|done|done|lia]. destruct E as [<- [[<- <-]|[(-> & -> & ->)|(-> & -> & ->)]]].
      * assert (j = i) as -> by (by eapply (NoDup_lookup _ j i nm (sh_nodup _ _ _ _ _ _ _ _ Hs))). lia.
      * apply clash_uses. exists j, i, nm'. rewrite !uses_app. cbn [fst snd]. rewrite (bool_decide_eq_true_2 (Z.of_nat i = Z.of_nat i /\ _)) by done.
        split_and!; [done|done| |lia]. case_bool_decide; lia.
      * apply clash_uses. exists i, j, nm. rewrite !uses_app. cbn [fst snd]. rewrite (bool_decide_eq_true_2 (Z.of_nat i = Z.of_nat i /\ _)) by done.
        split_and!; [done|done|lia|]. case_bool_decide; lia.
Qed.

(** A name in use. *)
Lemma new_lattice_taken c l name s p dl dh dw :
  s_heap s !! l = Some p -> norm_d (d_of p) = Ok dl -> py_index dl 0 = Ok dh -> py_index dl 1 = Ok dw -> valid_size dh dw ->
  (name +:+ "_data")%string ∈ names s -> exists s', new_lattice c l name s = (s', Err CircuitError).
Proof.
  intros Hp Hn H0 H1 Hv Hf. unfold new_lattice. set (s1 := set_heap s (<[l := new_params_of p dl dh dw]> (s_heap s))).
  assert (Hpv : params_validate_and_generate l s = (s1, Ok (dh, dw))).
  { unfold params_validate_and_generate. erewrite mbind_ok by (by apply get_params_ok).
    erewrite mbind_ok by (by apply mlift_ok). erewrite mbind_ok by done.
    erewrite mbind_ok by (apply mlift_ok; by apply check_d_ok).
    erewrite mbind_ok by done. unfold Circ.mret, s1, set_heap. cbn. by rewrite insert_insert. }
  erewrite mbind_ok by exact Hpv. cbn [fst snd app mfor]. pose proof (valid_counts _ _ Hv) as (Hc1 & _).
  eexists. erewrite mbind_err; [reflexivity|]. erewrite mbind_err; [reflexivity|].
  unfold add_reg. cbn [r_size r_name]. rewrite bool_decide_eq_false_2 by lia. rewrite bool_decide_eq_true_2; [reflexivity|]. exact Hf.
Qed.
Lemma new_tqubit_taken t l name s p dh dw : s_heap s !! l = Some p -> asked t p = Some (dh, dw) -> valid_size dh dw ->
  (name +:+ "_data")%string ∈ names s -> exists s', new_tqubit t (Some l) name s = (s', Err CircuitError).
Proof.
  intros Hp Ha Hv Hf. unfold new_tqubit.
  assert (exists s1 l' p1, or_new (Some l) s = (s1, Ok l') /\ s_heap s1 !! l' = Some p1 /\ asked t p1 = Some (dh, dw) /\ s_regs s1 = s_regs s)
    as (s1 & l' & p1 & E1 & Hp1 & Ha1 & Hr1).
  { cbn [or_new]. destruct (params_empty p) eqn:Ee.
    - eexists _, (s_next s), empty_params. split.
      + erewrite mbind_ok by (by apply get_params_ok). rewrite Ee. reflexivity.
      + cbn. rewrite lookup_insert. split; [done|]. split; [by eapply asked_empty|]. done.
    - exists s, l, p. split; [|done]. by eapply or_new_keep. }
  erewrite mbind_ok by exact E1.
  assert (exists s2 p2 dl, (match t with TRepetition => rep_validate l' | _ => Circ.mret tt end) s1 = (s2, Ok tt) /\
    s2 = set_heap s1 (<[l' := p2]> (s_heap s1)) /\ norm_d (d_of p2) = Ok dl /\ py_index dl 0 = Ok dh /\ py_index dl 1 = Ok dw)
    as (s2 & p2 & dl & E2 & -> & Hn & H0 & H1).
  { destruct t.
    3: { destruct (dims_norm _ _ _ Ha1) as (dl & ? & Hd0 & Hd1). exists s1, p1, dl.
         split_and!; try done. unfold set_heap. rewrite insert_id by done. by destruct s1. }
    2: { destruct (dims_norm _ _ _ Ha1) as (dl & ? & Hd0 & Hd1). exists s1, p1, dl.
         split_and!; try done. unfold set_heap. rewrite insert_id by done. by destruct s1. }
    destruct (asked_rep _ _ _ Ha1) as (dl & Er & ? & ?). eexists _, (set_d (set_pfp p1 (default false (pfp_of p1))) (Some (DTup dl))), dl. split_and!.
    - unfold rep_validate. erewrite mbind_ok by (by apply get_params_ok). erewrite mbind_ok by done.
      erewrite mbind_ok by (by apply mlift_ok). reflexivity.
    - unfold set_heap. cbn. by rewrite insert_insert.
    - done.
    - done.
    - done. }
  erewrite mbind_ok by exact E2.
  destruct (new_lattice_taken (code_of t) l' name (set_heap s1 (<[l' := p2]> (s_heap s1))) p2 dl dh dw) as [s' E]; [apply lookup_insert|done|done|done|done| |].
  - unfold names in *. cbn. by rewrite Hr1.
  - exists s'. by erewrite mbind_err by exact E.
Qed.

Lemma shared_new h0 R0 rest s qs szs nms seen t l p dh dw name : shared h0 R0 (l :: rest) s qs szs nms seen -> NoDup (l :: rest) -> (forall l', l' ∈ rest -> h0 !! l' <> None) -> (forall x, x ∈ R0 -> foreign x (nms ++ [name])) ->
  h0 !! l = Some p -> asked t p = Some (dh, dw) -> valid_size dh dw -> name ∉ nms ->
  exists s' q, new_tqubit t (Some l) name s = (s', Ok q) /\ shared h0 R0 rest s' (qs ++ [q]) (szs ++ [(t, (dh, dw))]) (nms ++ [name]) seen.
Proof.
  intros Hs Hnd Hex HR Hp Ha Hv Hnm. pose proof (sh_rest _ _ _ _ _ _ _ _ Hs l ltac:(by left)) as Hl. rewrite Hp in Hl.
  pose proof (sh_heap _ _ _ _ _ _ _ _ Hs) as HF.
  assert (Hlt : (l < s_next s)%nat). { destruct (decide (l < s_next s)%nat); [done|]. rewrite HF in Hl by lia. done. }
  assert (Hfr : fresh_lattice s name).
  { intros suf Hsuf Hin. change (suf ∈ q_sufs) in Hsuf. destruct (sh_sound _ _ _ _ _ _ _ _ Hs _ Hin) as [Hx|(j & nm' & Hj & [(suf' & Hsuf' & E)|(suf' & k' & Hsuf' & Hk' & E)])].
    - destruct (HR _ Hx name) as [HH _]; [apply elem_of_app; right; by left|]. by apply (HH suf).
    - apply qq_inj in E as [-> _]; [|done|done]. apply Hnm. by eapply elem_of_list_lookup_2.
    - apply qc_ne in E; [done..|lia]. }
  destruct (new_tqubit_ok t l name s p dh dw Hl Ha Hv Hfr) as (s' & l' & E & [B1 B2 B3 B4 B5 B6 _ _]).
  set (q := TQubit t (the_lattice (code_of t) name l' dh dw)) in *.
  assert (Hl' : l' ∉ (lat_params ∘ tq_lat <$> qs) /\ l' ∉ rest /\ (l' < s_next s')%nat /\ (s_next s <= s_next s')%nat /\ (forall x, x <> l' -> (s_next s' <= x)%nat -> s_heap s !! x = None)).
  { destruct (params_empty p).
    - destruct B6 as [-> ->]. split_and!; [| |lia|lia|].
      + intros (q' & E' & Hq')%elem_of_list_fmap. destruct (sh_used _ _ _ _ _ _ _ _ Hs q' Hq') as [_ HH]. cbn in E'. lia.
      + intros Hin. pose proof (sh_rest _ _ _ _ _ _ _ _ Hs (s_next s) ltac:(by right)) as HH. rewrite HF in HH by lia.
        by apply (Hex _ Hin).
      + intros x _ Hx. apply HF. lia.
    - destruct B6 as [-> ->]. split_and!; [| |done|done|].
      + intros (q' & E' & Hq')%elem_of_list_fmap. destruct (sh_used _ _ _ _ _ _ _ _ Hs q' Hq') as [HH _]. apply HH. cbn in E'. rewrite <-E'. by left.
      + by apply NoDup_cons in Hnd as [? _].
      + intros x _ Hx. by apply HF. }
  destruct Hl' as (L1 & L2 & L3 & L4 & L5).
  assert (HN : names s' = names s ++ (fst <$> lattice_regs name dh dw)).
  { unfold names. rewrite B3, fmap_app, <-list_fmap_compose. done. }
  assert (Hu : forall k, uses k (Z.of_nat (length nms)) seen = 0).
  { intros k. apply uses_none. intros e He Ee. destruct (sh_seen _ _ _ _ _ _ _ _ Hs e He). lia. }
  pose proof (sh_len _ _ _ _ _ _ _ _ Hs) as Hlen. pose proof (sh_len' _ _ _ _ _ _ _ _ Hs) as Hlen'.
  assert (Hsnoc : forall {A} (l : list A) a i b, (l ++ [a]) !! i = Some b -> (l !! i = Some b /\ i < length l)%nat \/ i = length l /\ b = a).
  { intros A k a i b Hi. apply lookup_app_Some in Hi as [Hi|[Hi Hi']]; [left; split; [done|by eapply lookup_lt_Some]|].
    right. apply list_lookup_singleton_Some in Hi' as [Hi' ->]. split; [lia|done]. }
  exists s', q. split; [done|]. constructor.
  - rewrite !app_length. cbn. lia.
  - rewrite !app_length. cbn. lia.
  - intros i q' t' dh' dw' nm' Hq' Hsz' Hnm'.
    apply Hsnoc in Hq' as [[Hq' Hi]|[-> ->]]; apply Hsnoc in Hsz' as [[Hsz' Hi']|[Ei' E']]; try (exfalso; lia); apply Hsnoc in Hnm' as [[Hnm' Hi'']|[Ei'' E'']]; try (exfalso; lia).
    + destruct (sh_q _ _ _ _ _ _ _ _ Hs _ _ _ _ _ _ Hq' Hsz' Hnm') as (Hc' & Hn' & Hok' & Hcnt').
      assert (Hh : s_heap s' !! lat_params (tq_lat q') = s_heap s !! lat_params (tq_lat q')).
      { apply B5. intros E'. apply L1. rewrite <-E'. apply elem_of_list_fmap. exists q'. split; [done|by eapply elem_of_list_lookup_2]. }
      split_and!; [done|done|by eapply lat_ok_heap|by eapply has_cnt_heap].
    + injection E' as -> -> ->. rewrite E''. split_and!; [done|done|done|]. rewrite Hlen, <-Hlen'. unfold cnt_of. rewrite !Hu. exact B2.
  - rewrite fmap_app. apply NoDup_app. split_and!; [apply Hs| |apply NoDup_singleton]. intros x Hx Hx'. apply elem_of_list_singleton in Hx' as ->. done.
  - intros x Hx. rewrite B5; [apply L5; [|done]|]; intros ->; lia.
  - intros q' [Hq'|Hq']%elem_of_app.
    + destruct (sh_used _ _ _ _ _ _ _ _ Hs q' Hq') as [H1 H2]. split; [|lia]. intros HH. apply H1. by right.
    + apply elem_of_list_singleton in Hq' as ->. split; [exact L2|exact L3].
  - intros x Hx. rewrite B5; [apply Hs; by right|]. by intros ->.
  - rewrite HN. intros x [Hx|Hx]%elem_of_app.
    + destruct (sh_sound _ _ _ _ _ _ _ _ Hs x Hx) as [?|(j & nm' & Hj & HH)]; [by left|]. right. exists j, nm'. split; [|done]. apply lookup_app_l_Some. done.
    + right. exists (length nms), name. split; [by rewrite lookup_app_r, Nat.sub_diag by lia|]. left. by apply lattice_names in Hx.
  - intros i nm [[Hi _]|[_ ->]]%Hsnoc; rewrite HN; apply elem_of_app; [left; by eapply sh_data|right]. unfold lattice_regs. by left.
  - intros i nm suf k [[Hi _]|[-> ->]]%Hsnoc Hsuf Hk; [rewrite HN; apply elem_of_app; left; by eapply sh_compl|]. rewrite Hu in Hk. lia.
  - apply NoDup_app. split_and!; [apply Hs| |apply NoDup_singleton]. intros x Hx Hx'. apply elem_of_list_singleton in Hx' as ->. done.
  - rewrite clash_uses. intros (a & b & nm' & Ha' & Hb & Hua & Hub). apply (sh_noclash _ _ _ _ _ _ _ _ Hs). rewrite clash_uses.
    apply Hsnoc in Ha' as [[Ha' _]|[-> _]]; [|rewrite Hu in Hua; lia]. apply Hsnoc in Hb as [[Hb _]|[-> _]]; [|rewrite Hu in Hub; lia]. by exists a, b, nm'.
  - intros e He. rewrite app_length. destruct (sh_seen _ _ _ _ _ _ _ _ Hs e He). cbn. lia.
Qed.

Lemma sensible_dicts h szs prog : sensible h szs prog -> forall l, l ∈ prog_dicts prog -> h !! l <> None.
Proof.
  revert szs. induction prog as [|[t l0 name|i o] prog IHp]; intros szs.
  - intros _ l Hl. by apply elem_of_nil in Hl.
  - intros (p & dh & dw & Hp & _ & _ & Hs) l Hl. change (l ∈ l0 :: prog_dicts prog) in Hl. apply elem_of_cons in Hl as [->|Hl]; [by rewrite Hp|]. by eapply IHp.
  - intros (_ & Hs) l Hl. by eapply IHp.
Qed.
Lemma run_shared h0 R0 prog : forall s qs szs nms seen, shared h0 R0 (prog_dicts prog) s qs szs nms seen -> NoDup (prog_dicts prog) ->
  sensible h0 szs prog -> (forall x, x ∈ R0 -> foreign x (nms ++ prog_names prog)) ->
  exists s' r, run_prog prog qs s = (s', r) /\
    ((exists qs', r = Ok qs' /\ NoDup (nms ++ prog_names prog) /\ ~ lattice_clash (nms ++ prog_names prog) (seen ++ prog_calls prog)) \/
     (r = Err CircuitError /\ ~ (NoDup (nms ++ prog_names prog) /\ ~ lattice_clash (nms ++ prog_names prog) (seen ++ prog_calls prog)))).
Proof.
  induction prog as [|[t l name|i o] prog IHp]; intros s qs szs nms seen Hs Hnd Hsen HR.
  - exists s, (Ok qs). split; [done|]. left. exists qs. cbn. rewrite !app_nil_r. split_and!; [done|apply Hs|apply Hs].
  - destruct Hsen as (p & dh & dw & Hp & Ha & Hv & Hsen). change (prog_dicts (New t l name :: prog)) with (l :: prog_dicts prog) in *.
    change (prog_names (New t l name :: prog)) with (name :: prog_names prog) in *. change (prog_calls (New t l name :: prog)) with (prog_calls prog).
    cbn [run_prog]. rewrite (cons_middle name nms) in *. rewrite app_assoc in *.
    destruct (decide (name ∈ nms)) as [Hin|Hin].
    + apply elem_of_list_lookup in Hin as [i Hi].
      pose proof (sh_rest _ _ _ _ _ _ _ _ Hs l ltac:(by left)) as Hl. rewrite Hp in Hl.
      destruct (new_tqubit_taken t l name s p dh dw Hl Ha Hv) as [s' E]; [by eapply sh_data|].
      exists s', (Err CircuitError). split; [by erewrite mbind_err by exact E|]. right. split; [done|]. intros [HN _].
      apply NoDup_app in HN as [HN _]. apply NoDup_app in HN as (_ & HN & _). apply (HN name); [by eapply elem_of_list_lookup_2|by left].
    + destruct (shared_new h0 R0 (prog_dicts prog) s qs szs nms seen t l p dh dw name Hs Hnd) as (s' & q & E & Hs'); [by eapply sensible_dicts| |done..|].
      { intros x Hx nm Hnm. apply (HR x Hx). apply elem_of_app. by left. }
      erewrite mbind_ok by exact E. apply NoDup_cons in Hnd as [_ Hnd]. by apply (IHp s' (qs ++ [q]) (szs ++ [(t, (dh, dw))])).
  - destruct Hsen as [(t & dh & dw & Hsz & Hsup) Hsen]. change (prog_dicts (Call i o :: prog)) with (prog_dicts prog) in *.
    change (prog_names (Call i o :: prog)) with (prog_names prog) in *. change (prog_calls (Call i o :: prog)) with ((Z.of_nat i, o) :: prog_calls prog).
    cbn [run_prog]. destruct (lookup_lt_is_Some_2 qs i) as [q Hq]; [rewrite (sh_len _ _ _ _ _ _ _ _ Hs); by eapply lookup_lt_Some|]. rewrite Hq.
    rewrite (cons_middle _ seen), app_assoc.
    destruct (shared_call h0 R0 (prog_dicts prog) s qs szs nms seen i o q t dh dw Hs) as [(s' & E & Hs')|[[s' E] HC]]; [|done..| |].
    + intros x Hx nm Hnm. apply (HR x Hx). apply elem_of_app. by left.
    + erewrite mbind_ok by exact E. by apply (IHp s' qs szs).
    + exists s', (Err CircuitError). split; [by erewrite mbind_err by exact E|]. right. split; [done|]. intros [_ HN]. apply HN, clash_mono.
      destruct HC as (a & b & nm & o1 & o2 & H1 & H2 & H3). exists a, b, nm, o1, o2. split; [by apply lookup_app_l_Some|]. split; [by apply lookup_app_l_Some|done].
Qed.

(** * C52 *)
(** Qubits constructed on one circuit from different dictionaries, and calls on them, in any order:
    there is an exception exactly if two qubits have the same name, or if one called nm has its
    data qubits read out and one called nm_lattice is read out. *)
Theorem C52_shared_circuit prog s : NoDup (prog_dicts prog) -> sensible (s_heap s) [] prog -> heap_fresh s ->
  (forall x, x ∈ names s -> foreign x (prog_names prog)) ->
  let r := (run_prog prog [] s).2 in
  ((exists qs, r = Ok qs) <-> NoDup (prog_names prog) /\ ~ lattice_clash (prog_names prog) (prog_calls prog)) /\
  (forall e, r = Err e -> e = CircuitError).
Proof.
  intros Hnd Hsen Hh HR. destruct (run_shared (s_heap s) (names s) prog s [] [] [] []) as (s' & r & E & HE); [|done|done|done|].
  - constructor; try done; try (by intros; apply NoDup_nil_2).
    + intros q Hq. by apply elem_of_nil in Hq.
    + intros x Hx. by left.
    + intros (i & j & nm & o & o' & H & _). done.
    + intros e He. by apply elem_of_nil in He.
  - rewrite E. cbn [snd app] in *. destruct HE as [(qs & -> & H1 & H2)|[-> HN]].
    + split; [|done]. split; [done|]. intros _. by exists qs.
    + split; [|by intros e [= <-]]. split; [by intros [qs ?]|]. intros HH. by destruct HN.
Qed.
Print Assumptions C52_shared_circuit.
(** Registers with different names may share a circuit: their qubits are called name_0, name_1, ... *)
Theorem C52_registers prog s (who : list (string * Z)) : NoDup (prog_dicts prog) -> sensible (s_heap s) [] prog -> heap_fresh s ->
  (forall x, x ∈ names s -> foreign x (prog_names prog)) ->
  NoDup who -> (forall ti, ti ∈ who -> 0 <= ti.2) -> prog_names prog = (fun ti => qname ti.1 ti.2) <$> who ->
  exists qs, (run_prog prog [] s).2 = Ok qs.
Proof.
  intros Hnd Hsen Hh HR Hw Hp EN. destruct (C52_shared_circuit prog s Hnd Hsen Hh HR) as [[_ HH] _]. apply HH. clear HH. rewrite EN. split.
  - apply NoDup_fmap_2_strong; [|done]. intros [t i] [t' j] H1 H2 E. unfold qname in E. cbn [fst snd] in E. rewrite <-!str_app_assoc in E.
    assert (He : forall x, ends_nd (x +:+ "_")) by (intros x; apply ends_app; exists [], "_"%char; split; [done|vm_compute; lia]).
    apply numbered_inj in E as [E ->]; [|by apply He..|by apply (Hp (t, i))|by apply (Hp (t', j))]. by apply app_inj_r in E as ->.
  - intros (i & j & nm & o & o' & Hi & Hj & _). apply elem_of_list_lookup_2, elem_of_list_fmap in Hi as ([t a] & -> & Ha). apply elem_of_list_lookup_2, elem_of_list_fmap in Hj as ([t' b] & E & Hb).
    unfold qname in E. cbn [fst snd] in E. apply (f_equal chars) in E. rewrite !chars_app in E. destruct (digits_py_str b (Hp _ Hb)) as [Hd Hne].
    destruct (chars (py_str b)) as [|z l _] using rev_ind; [done|]. rewrite !app_assoc in E. change (chars "_lattice") with (chars "_lattic" ++ ["e"%char]) in E. rewrite app_assoc in E.
    apply app_inj_tail in E as [_ <-]. rewrite Forall_app in Hd. destruct Hd as [_ Hd]. inversion Hd as [|? ? Hc _]. revert Hc. vm_compute. lia.
Qed.
Print Assumptions C52_registers.
(** A lattice called "tq" and one called "tq_lattice", 3x3. *)
Definition ex_st : st := St (<[0%nat := Circ.Params (Some (DNum 3)) None None None None None None]> (<[1%nat := Circ.Params (Some (DNum 3)) None None None None None None]> ∅)) 2%nat [] [] "" 0 [] [] [].
Definition ex_prog (a b : string) : list cmd := [New TXXZZ 0%nat a; New TXZZX 1%nat b; Call 0%nat OStab; Call 0%nat OLatZ; Call 1%nat OStab; Call 1%nat (OReadZ None)].
Example C52_ex : (forall a b, NoDup (prog_dicts (ex_prog a b)) /\ sensible (s_heap ex_st) [] (ex_prog a b)) /\ heap_fresh ex_st /\
  lattice_clash (prog_names (ex_prog "tq" "tq_lattice")) (prog_calls (ex_prog "tq" "tq_lattice")) /\
  (run_prog (ex_prog "tq" "tq_lattice") [] ex_st).2 = Err CircuitError /\
  (exists qs, (run_prog (ex_prog "tq_lattice" "tq") [] ex_st).2 = Ok qs) /\
  (run_prog (ex_prog "tq" "tq") [] ex_st).2 = Err CircuitError.
Proof.
  split.
  { intros a b. split; [cbn; repeat constructor; set_solver|]. assert (Hv : valid_size 3 3) by done.
    eexists _, 3, 3. split; [reflexivity|]. split; [reflexivity|]. split; [done|]. eexists _, 3, 3. split; [reflexivity|]. split; [reflexivity|]. split; [done|].
    repeat (split; [eexists _, 3, 3; split; [reflexivity|]; by intros [? ?]|]). exact I. }
  split. { intros x Hx. cbn. destruct x as [|[|x]]; cbn in Hx; [lia..|]. by rewrite !lookup_insert_ne. }
  split. { exists 0%nat, 1%nat, "tq"%string, OLatZ, (OReadZ None). cbn. split_and!; try done; set_solver. }
  split; [vm_compute; reflexivity|]. split; [eexists; vm_compute; reflexivity|vm_compute; reflexivity].
Qed.
