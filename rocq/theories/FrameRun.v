(** Single faults in a whole run: each is accounted for by at most two data flips and misread bits. *)
From Coq Require Import Ring.
From Verif Require Export FrameFault RunFacts.
From stdpp Require Export list.
Open Scope Z_scope.

Section sem.
Context {R : Amp}.
Implicit Types k : config R.
Lemma R_ring_g : ring_theory (@a0 R) a1 aadd amul asub aopp eq.
Proof. exact (a_ring R). Qed.
Add Ring Rring_g : R_ring_g.
Lemma frel_possible f k k' : frel f k k' -> possible k' -> possible k.
Proof.
  intros [_ [s Hs]] [b Hb]. exists (b ⊕ px (fp f)). rewrite Hs. destruct (xorb s (dot (pz (fp f)) b)); cbn [sgn]; [|done].
  intros E. apply Hb. assert (E' : k'.2 b = aopp (aopp (k'.2 b))) by ring. rewrite E', E. ring.
Qed.
Lemma inject_refl is : inject is is 0.
Proof. induction is; by constructor. Qed.
(** Faults in the first part of a circuit. *)
Lemma inject_frames_tail is js w tl f k k' k1' : Forall framed is -> Forall framed tl -> inject is js w -> frel f k k' -> exec (js ++ tl) k' k1' ->
  exists k1 g (fl : list (list instr * pauli qubit)), exec (is ++ tl) k k1 /\ frel g k1 k1' /\ length fl = w /\
    (forall rP, rP ∈ fl -> (exists r, r `suffix_of` is /\ rP.1 = r ++ tl) /\ exists q, single_on q rP.2) /\
    (forall b, ff g b = xorb (ff (push (is ++ tl) f) b) (xorl ((fun rP => impact rP.1 rP.2 b) <$> fl))).
Proof.
  intros Hfr Ht Hin. revert f k k' Hfr. induction Hin as [|i is js w Hin IH|p q is js w Hin IH]; intros f k k' Hfr Hf Hex.
  - destruct (inject_frames tl tl 0 f k k' k1' Ht (inject_refl tl) Hf Hex) as (k1 & g & fl & He & Hg & Hl & _ & Hb).
    apply nil_length_inv in Hl as ->. exists k1, g, []. split_and!; try done. intros ? []%elem_of_nil.
  - cbn [app] in Hex. inversion Hex as [|? ? ? ka' ? H1 H2]; subst. apply Forall_cons in Hfr as [Hi Hfr].
    destruct (frel_step _ _ _ _ _ Hi Hf H1) as (ka & Hst & Hfa).
    destruct (IH _ _ _ Hfr Hfa H2) as (k1 & g & fl & He & Hg & Hl & Hs & Hb). exists k1, g, fl. split_and!; try done.
    + cbn [app]. by econstructor.
    + intros rP HrP. destruct (Hs rP HrP) as [(r & H3 & H5) H4]. split; [|done]. exists r. split; [by apply suffix_cons_r|done].
  - rewrite <-app_assoc in Hex. apply exec_app in Hex as (ka' & H1 & H2). destruct (frel_germ _ _ _ _ _ _ Hf H1) as (P & HP & Hfa).
    destruct (IH _ _ _ Hfr Hfa H2) as (k1 & g & fl & He & Hg & Hl & Hs & Hb). exists k1, g, ((is ++ tl, P) :: fl). split_and!; try done.
    + cbn. by rewrite Hl.
    + intros rP [-> |HrP]%elem_of_cons; [|by apply Hs]. cbn. split; [by exists is|by exists q].
    + intros b. rewrite Hb, fmap_cons, xorl_cons. destruct (push_add (is ++ tl) f (Fr P fnone)) as [_ Ha]. rewrite Ha. cbn [ff fadd fst snd].
      unfold impact at 1. by rewrite xorb_assoc.
Qed.
End sem.

Section run.
Context (c : code) (name : string) (dh dw : Z) (Hv : valid_size dh dw) (isx : bool).
Notation PK k := (pmap (dq name) (stabP c dh dw k)).
Notation typ isx A := (pmap (dq name) (typed c dh dw isx A)).
Notation nloc := (P_Graph.nsyn isx dh dw).
Notation expl1 := (explained c name dh dw isx).

(** ** A whole round *)
Lemma round_clears T P F : synd_off name dh dw (fp (push (round_instrs c name dh dw T) (Fr P F))).
Proof.
  rewrite round_instrs_of, !push_app. destruct (push _ (push _ (Fr P F))) as [P1 F1] eqn:E.
  destruct (push_reset name (syn_order dh dw) P1 F1) as (P' & -> & H & _). intros k Hk. apply H. by apply (syn_order_elem c name dh dw).
Qed.
Lemma round_full T q P : single_on q P -> let f := push (round_instrs c name dh dw T) (Fr P fnone) in
  synd_off name dh dw (fp f) /\ exists e1 e2 m, expl1 (fp f) (fun loc => ff f (cbit name dh dw T (isx, loc))) e1 e2 m.
Proof.
  intros Hs f. destruct (round_fault c name dh dw Hv isx T (round_instrs c name dh dw T) q P Hs) as [[HP HF]|H]; [done| |exact H].
  fold f in HP, HF. assert (Ho : synd_off name dh dw P) by (rewrite <-HP; apply round_clears). split; [by rewrite HP|].
  destruct (push_round c name dh dw Hv T P fnone Ho) as (F' & E & H1 & _). unfold f. rewrite E. cbn [fp ff].
  assert (Hlike : exists i b, forall A, anti P (typ isx A) = b && mem i A).
  { destruct (dq_cases name q) as [(i & ->)|Hn].
    - destruct (like_data c name dh dw Hv isx P i Hs) as [b Hb]. exists i, b. done.
    - exists 0, false. by apply (like_other c name dh dw isx P q). }
  destruct Hlike as (i & b & Hl). apply (expl_data c name dh dw Hv isx P _ i b (fun _ => true)).
  - intros A _. apply Hl.
  - intros loc Hloc. rewrite H1 by (by apply is_syn_loc). rewrite stabP_typed by (done || by apply is_syn_loc). apply Hl.
Qed.

(** ** Histories *)
Definition body_op (o : op) : Prop := match o with OStab | OX | OZ | OId | OIdData => True | _ => False end.
Notation hist n l := (evs_code c name dh dw n (Call <$> l)).
Notation rounds l := (Z.of_nat (count is_stab l)).

Lemma plain_push n o i f : body_op o -> is_stab o = false -> i ∈ op_code c name dh dw n o -> push1 i f = f.
Proof.
  intros Hb Hs Hi. destruct o; cbn [op_code] in Hi; try done.
  - unfold logx_instrs in Hi. apply elem_of_app in Hi as [(j & -> & _)%elem_of_list_fmap|Hi%elem_of_list_singleton]; [|by subst].
    unfold xgate. by repeat case_match.
  - unfold logz_instrs in Hi. apply elem_of_app in Hi as [(j & -> & _)%elem_of_list_fmap|Hi%elem_of_list_singleton]; [|by subst].
    unfold zgate. by repeat case_match.
  - unfold id_instrs in Hi. apply elem_of_app in Hi as [Hi|Hi%elem_of_list_singleton]; [|by subst].
    apply elem_of_list_join in Hi as (is & Hi & (h & -> & _)%elem_of_list_fmap). by apply elem_of_list_fmap in Hi as (? & -> & _).
  - unfold id_data_instrs in Hi. apply elem_of_app in Hi as [Hi|Hi%elem_of_list_singleton]; [|by subst].
    by apply elem_of_list_fmap in Hi as (? & -> & _).
Qed.
Lemma plain_suffix n o r f : body_op o -> is_stab o = false -> r `suffix_of` op_code c name dh dw n o -> push r f = f.
Proof.
  intros Hb Hs [r0 Hr]. assert (H : forall i, i ∈ r -> push1 i f = f).
  { intros i Hi. eapply plain_push; [done|done|]. rewrite Hr. apply elem_of_app. by right. }
  clear Hr. induction r as [|i r IH]; [done|]. rewrite push_cons, H by (by left). apply IH. intros j Hj. apply H. by right.
Qed.
Lemma hist_cons n o l : hist n (o :: l) = op_code c name dh dw n o ++ hist (op_next n o) l.
Proof. done. Qed.
Lemma plain_next n o : body_op o -> is_stab o = false -> op_next n o = n.
Proof. by destruct o. Qed.
Lemma hist_next l n : Forall body_op l -> cT (evs_next n (Call <$> l)) = cT n + rounds l.
Proof.
  intros Hl. revert n. induction Hl as [|o l Hb Hl IH]; intros n; [cbn; lia|]. rewrite count_step. rewrite fmap_cons. cbn [evs_next ev_next]. rewrite IH.
  destruct o; cbn in *; try done; lia.
Qed.
(** Bits of earlier rounds are not written. *)
Lemma hist_writes l n T k i : Forall body_op l -> T <= cT n -> i ∈ hist n l -> cbit name dh dw T k ∉ writes i.
Proof.
  intros Hl. revert n. induction Hl as [|o l Ho Hl IH]; intros n HT; [intros Hi; by apply elem_of_nil in Hi|].
  rewrite hist_cons. intros [Hi|Hi]%elem_of_app.
  - destruct (is_stab o) eqn:Es.
    + destruct o; try done. cbn [op_code] in Hi. rewrite round_instrs_of in Hi. apply elem_of_app in Hi as [Hi|Hi].
      * apply elem_of_list_join in Hi as (is & Hi & (k' & -> & Hk')%elem_of_list_fmap). intros Hw. apply elem_of_syns in Hk'.
        unfold ent_k in Hi. rewrite ent_compile in Hi by done. apply elem_of_app in Hi as [Hi|Hi].
        -- destruct i; cbn in Hw; try (by apply elem_of_nil in Hw). by eapply compile_plain.
        -- apply elem_of_list_singleton in Hi as ->. by apply elem_of_nil in Hw.
      * apply elem_of_app in Hi as [Hi|Hi].
        -- apply elem_of_list_fmap in Hi as (k' & -> & _). cbn [writes]. intros E%elem_of_list_singleton. injection E as E _. apply cname_inj in E. lia.
        -- apply elem_of_app in Hi as [Hi|Hi]; [apply elem_of_list_fmap in Hi as (k' & -> & _); by intros ?%elem_of_nil|].
           apply elem_of_list_singleton in Hi as ->. by intros ?%elem_of_nil.
    + intros Hw. destruct i; cbn in Hw; try (by apply elem_of_nil in Hw). eapply plain_code; [|exact Es|exact Hi|done]. by destruct o.
  - apply (IH (op_next n o)); [|done]. destruct o; cbn; try lia. all: destruct (eff _); cbn; lia.
Qed.
Lemma hist_bits l n T k r P F : Forall body_op l -> T <= cT n -> r `suffix_of` hist n l -> ff (push r (Fr P F)) (cbit name dh dw T k) = F (cbit name dh dw T k).
Proof. intros Hl HT [r0 Hr]. apply push_unwritten. intros i Hi. eapply (hist_writes l n); [done|done|]. rewrite Hr. apply elem_of_app. by right. Qed.
(** An error off the syndrome qubits goes through a history. *)
Lemma push_hist l n P F : Forall body_op l -> synd_off name dh dw P ->
  exists F', push (hist n l) (Fr P F) = Fr P F' /\
    forall j k, 0 <= j < rounds l -> is_syn dh dw k -> F' (cbit name dh dw (cT n + 1 + j) k) = anti P (PK k).
Proof.
  intros Hl Ho. revert n F. induction Hl as [|o l Hb Hl IH]; intros n F.
  - exists F. split; [done|]. intros j k Hj. cbn in Hj. lia.
  - rewrite hist_cons, push_app. destruct (is_stab o) eqn:Es.
    + destruct o; try done. cbn [op_code op_next]. destruct (push_round c name dh dw Hv (cT n + 1) P F Ho) as (F1 & -> & H1 & _).
      destruct (IH (bump_T n) F1) as (F2 & E2 & H2). exists F2. split; [done|]. intros j k Hj Hk.
      rewrite count_step in Hj. cbn [is_stab] in Hj. destruct (decide (j = 0)) as [-> |Hj0].
      * rewrite Z.add_0_r. rewrite <-(H1 k Hk). transitivity (ff (push (hist (bump_T n) l) (Fr P F1)) (cbit name dh dw (cT n + 1) k)); [by rewrite E2|].
        apply (hist_bits l (bump_T n)); [done|cbn; lia|done].
      * replace (cT n + 1 + j) with (cT (bump_T n) + 1 + (j - 1)) by (cbn; lia). apply H2; [lia|done].
    + rewrite (plain_suffix n o (op_code c name dh dw n o)) by done. rewrite plain_next by done. destruct (IH n F) as (F2 & E2 & H2). exists F2. split; [done|].
      intros j k Hj Hk. rewrite count_step, Es in Hj. by apply H2.
Qed.

(** The error [f] and its flipped bits are those of the data flips [flips] and the misread bits
    [mis]; [t] is the number of the last round before the history. *)
Definition expl_run (t : Z) (n : cnt) (N : Z) (f : frame) (flips mis : list (Z * Z)) : Prop :=
  synd_off name dh dw (fp f) /\ (length flips + length mis <= 2)%nat /\
  (forall e, e ∈ flips -> t <= e.1 <= t + N /\ 0 <= e.2 < dh * dw) /\
  (forall m, m ∈ mis -> t < m.1 <= t + N /\ 0 <= m.2 < nloc) /\
  (forall j loc, 0 <= j < N -> 0 <= loc < nloc -> ff f (cbit name dh dw (cT n + 1 + j) (isx, loc)) =
     xorb (xorl ((fun e => bool_decide (e.1 < t + 1 + j) && mem e.2 (tset dh dw (isx, loc))) <$> flips)) (xorl ((fun m => bool_decide (m = (t + 1 + j, loc))) <$> mis))) /\
  (forall A, obs dh dw isx A -> anti (fp f) (typ isx A) = xorl ((fun e => mem e.2 A) <$> flips)).
Lemma expl_run_feq t n N f g flips mis : feq f g -> expl_run t n N f flips mis -> expl_run t n N g flips mis.
Proof.
  intros [E1 E2] (H1 & H2 & H3 & H4 & H5 & H6). unfold expl_run. rewrite <-E1. split_and!; try done. intros j loc Hj Hl. rewrite <-E2. by apply H5.
Qed.
Lemma xorl_when b (l : list bool) : xorl ((fun x => b && x) <$> l) = b && xorl l.
Proof. destruct b; cbn [andb]; [by rewrite list_fmap_id|]. apply xorl_false. apply Forall_fmap, list.Forall_forall. done. Qed.
(** A round with a fault in it, then the rest of a history. *)
Lemma expl_run_stab t n l f e1 e2 m : Forall body_op l -> synd_off name dh dw (fp f) ->
  expl1 (fp f) (fun loc => ff f (cbit name dh dw (cT n + 1) (isx, loc))) e1 e2 m ->
  expl_run t n (rounds l + 1) (push (hist (bump_T n) l) f) ((pair t <$> e1) ++ (pair (t + 1) <$> e2)) (pair (t + 1) <$> m).
Proof.
  intros Hl Ho (H1 & H2 & H3 & H4 & H5). destruct f as [P F]. cbn [fp ff] in *. destruct (push_hist l (bump_T n) P F Hl Ho) as (F' & E & HF).
  rewrite E. unfold expl_run. cbn [fp ff]. split_and!; try done.
  - rewrite app_length, !fmap_length. lia.
  - intros e [He|He]%elem_of_app; apply elem_of_list_fmap in He as (i & -> & Hi); cbn; (split; [lia|]); apply H2, elem_of_app; auto.
  - intros e (i & -> & Hi)%elem_of_list_fmap. cbn. split; [lia|]. by apply H3.
  - intros j loc Hj Hloc. rewrite fmap_app, xorl_app, <-!list_fmap_compose. unfold compose. cbn [fst snd]. destruct (decide (j = 0)) as [-> |Hj0].
    + rewrite Z.add_0_r. transitivity (F (cbit name dh dw (cT n + 1) (isx, loc))).
      { transitivity (ff (push (hist (bump_T n) l) (Fr P F)) (cbit name dh dw (cT n + 1) (isx, loc))); [by rewrite E|].
        apply (hist_bits l (bump_T n)); [done|cbn; lia|done]. }
      rewrite H4 by done. f_equal.
      * rewrite (xorl_false ((fun x => bool_decide (t + 1 < t + 1 + 0) && _) <$> e2)).
        -- rewrite xorb_false_r. apply xorl_ext. intros x Hx. rewrite bool_decide_eq_true_2 by lia. done.
        -- apply Forall_fmap, list.Forall_forall. intros x Hx. cbn. rewrite bool_decide_eq_false_2 by lia. done.
      * apply xorl_ext. intros x Hx. apply bool_decide_ext. rewrite pair_equal_spec. naive_solver lia.
    + replace (cT n + 1 + j) with (cT (bump_T n) + 1 + (j - 1)) by (cbn; lia). rewrite HF by (lia || by apply is_syn_loc).
      rewrite stabP_typed by (done || by apply is_syn_loc). cbn [fst]. rewrite H5 by (left; eauto). rewrite fmap_app, xorl_app.
      rewrite (xorl_false (_ <$> m)), xorb_false_r.
      * f_equal; apply xorl_ext; intros x Hx; rewrite bool_decide_eq_true_2 by lia; done.
      * apply Forall_fmap, list.Forall_forall. intros x Hx. cbn. apply bool_decide_eq_false. intros [= ? ?]. lia.
  - intros A HA. rewrite H5 by done. rewrite !fmap_app, <-!list_fmap_compose. done.
Qed.
Lemma expl_run_later t n n' K N f flips mis : 0 <= K -> 0 <= N -> cT n' = cT n + K ->
  (forall j loc, 0 <= j < K -> 0 <= loc < nloc -> ff f (cbit name dh dw (cT n + 1 + j) (isx, loc)) = false) ->
  expl_run (t + K) n' N f flips mis -> expl_run t n (K + N) f flips mis.
Proof.
  intros HK HN En Hf (H1 & H2 & H3 & H4 & H5 & H6). unfold expl_run. split_and!; try done.
  - intros e He. destruct (H3 e He). split; [lia|done].
  - intros e He. destruct (H4 e He). split; [lia|done].
  - intros j loc Hj Hloc. destruct (decide (j < K)) as [Hj0|Hj0].
    + rewrite Hf by (done || lia). rewrite !xorl_false; [done|..]; apply Forall_fmap, list.Forall_forall; intros x Hx; cbn.
      * apply bool_decide_eq_false. intros ->. destruct (H4 _ Hx). cbn in *. lia.
      * destruct (H3 x Hx). rewrite bool_decide_eq_false_2 by lia. done.
    + replace (cT n + 1 + j) with (cT n' + 1 + (j - K)) by lia. rewrite H5 by (done || lia). f_equal; apply xorl_ext; intros x Hx.
      * f_equal. apply bool_decide_ext. lia.
      * apply bool_decide_ext. replace (t + K + 1 + (j - K)) with (t + 1 + j) by lia. done.
Qed.
Lemma expl_run_shift t n l f flips mis : (forall loc, ff f (cbit name dh dw (cT n + 1) (isx, loc)) = false) ->
  expl_run (t + 1) (bump_T n) (rounds l) f flips mis -> expl_run t n (rounds l + 1) f flips mis.
Proof.
  intros Hf H. rewrite Z.add_comm. apply (expl_run_later t n (bump_T n)); [lia|lia|done| |done].
  intros j loc Hj _. assert (j = 0) as -> by lia. by rewrite Z.add_0_r.
Qed.
(** One more round. *)
Lemma expl_run_round t n n' N f flips mis : 0 <= N -> cT n' = cT n + N -> expl_run t n N f flips mis ->
  expl_run t n (N + 1) (push (round_instrs c name dh dw (cT n' + 1)) f) flips mis.
Proof.
  intros HN En (H1 & H2 & H3 & H4 & H5 & H6). destruct f as [P F]. cbn [fp ff] in *.
  destruct (push_round c name dh dw Hv (cT n' + 1) P F H1) as (F' & -> & Ha & Hb). unfold expl_run. cbn [fp ff]. split_and!; try done.
  - intros e He. destruct (H3 e He). split; [lia|done].
  - intros e He. destruct (H4 e He). split; [lia|done].
  - intros j loc Hj Hloc. destruct (decide (j < N)) as [Hj0|Hj0].
    + rewrite Hb; [apply H5; [lia|done]|]. intros k _. unfold cbit. intros [= E _]. apply cname_inj in E. lia.
    + replace (cT n + 1 + j) with (cT n' + 1) by lia. rewrite Ha by (by apply is_syn_loc). rewrite stabP_typed by (done || by apply is_syn_loc). cbn [fst].
      rewrite H6 by (left; eauto). rewrite (xorl_false (_ <$> mis)), xorb_false_r.
      * apply xorl_ext. intros x Hx. destruct (H3 x Hx). rewrite bool_decide_eq_true_2 by lia. done.
      * apply Forall_fmap, list.Forall_forall. intros x Hx. cbn. apply bool_decide_eq_false. intros ->. destruct (H4 _ Hx). cbn in *. lia.
Qed.
(** Any fault at any place of a history: either nothing has met it yet, or it is accounted for. *)
Lemma hist_fault l n t r q P : Forall body_op l -> single_on q P -> r `suffix_of` hist n l ->
  feq (push r (Fr P fnone)) (Fr P fnone) \/
  exists flips mis, expl_run t n (rounds l) (push r (Fr P fnone)) flips mis.
Proof.
  intros Hl Hs. revert n t r. induction Hl as [|o l Hb Hl IH]; intros n t r Hr.
  - apply suffix_nil_inv in Hr as ->. by left.
  - rewrite hist_cons in Hr. destruct (is_stab o) eqn:Es.
    + destruct o; try done. cbn [op_code op_next] in Hr. rewrite count_step. cbn [is_stab]. replace (Z.of_nat (1 + count is_stab l)) with (rounds l + 1) by lia.
      assert (Hrest : forall r', r' `suffix_of` hist (bump_T n) l -> feq (push r' (Fr P fnone)) (Fr P fnone) \/
        exists flips mis, expl_run t n (rounds l + 1) (push r' (Fr P fnone)) flips mis).
      { intros r' Hr'. destruct (IH (bump_T n) (t + 1) r' Hr') as [H|(fl & mi & H)]; [by left|]. right. exists fl, mi. apply expl_run_shift; [|done].
        intros loc. apply (hist_bits l (bump_T n)); [done|cbn; lia|done]. }
      apply suffix_app_cases in Hr as [Hr|(r1 & -> & Hr)]; [by apply Hrest|].
      rewrite push_app. destruct (round_fault c name dh dw Hv isx (cT n + 1) r1 q P Hs Hr) as [[HP HF]|[Ho (e1 & e2 & m & He)]].
      * assert (Hf : feq (Fr P fnone) (push r1 (Fr P fnone))) by (split; cbn; [by rewrite HP|intros b; by rewrite HF]).
        pose proof (push_feq (hist (bump_T n) l) _ _ Hf) as Hf'. destruct (Hrest (hist (bump_T n) l)) as [H|(fl & mi & H)]; [done| |].
        -- left. eapply feq_trans; [apply feq_sym; exact Hf'|done].
        -- right. exists fl, mi. by eapply expl_run_feq.
      * right. do 2 eexists. by eapply expl_run_stab.
    + rewrite count_step, Es, Nat.add_0_l. rewrite (plain_next n o) in Hr by done. apply suffix_app_cases in Hr as [Hr|(r1 & -> & Hr)]; [by apply IH|].
      rewrite push_app, (plain_suffix n o r1) by done. by apply IH.
Qed.
(** A history ending in a round: everything is accounted for. *)
Lemma hist_fault_round l n t r q P : Forall body_op l -> single_on q P -> r `suffix_of` hist n l ->
  exists flips mis, expl_run t n (rounds l + 1) (push (r ++ round_instrs c name dh dw (cT (evs_next n (Call <$> l)) + 1)) (Fr P fnone)) flips mis.
Proof.
  intros Hl Hs Hr. rewrite push_app. set (n' := evs_next n (Call <$> l)).
  assert (En : cT n' = cT n + rounds l) by (by apply hist_next).
  destruct (hist_fault l n t r q P Hl Hs Hr) as [HF|(flips & mis & H)].
  - pose proof (push_feq (round_instrs c name dh dw (cT n' + 1)) _ _ (feq_sym _ _ HF)) as HF'.
    destruct (round_full (cT n' + 1) q P Hs) as [Ho (e1 & e2 & m & He)]. do 2 eexists. eapply expl_run_feq; [exact HF'|].
    apply (expl_run_later t n n' (rounds l) 1); [lia|lia|done| |].
    + intros j loc Hj _. apply push_unwritten. intros i Hi. apply (hist_writes [OStab] n'); [by repeat constructor|lia|].
      rewrite hist_cons. apply elem_of_app. by left.
    + apply (expl_run_stab (t + rounds l) n' [] _ e1 e2 m); [done|done|done].
  - exists flips, mis. apply expl_run_round; [lia|done|done].
Qed.
End run.
