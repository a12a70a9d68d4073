(** Parity-measurement circuits: a syndrome (or ancilla) qubit [s] interacting with data qubits. *)
From Coq Require Import Ring.
From Verif Require Export QFacts LatOps.
From stdpp Require Export list.
Open Scope Z_scope.

(** A group is H s; CX s q ...; H s  (true), or CX q s ... (false). *)
Definition group (s : qubit) (g : bool * list qubit) : list instr :=
  if g.1 then [IH s] ++ (ICX s <$> g.2) ++ [IH s] else (fun q => ICX q s) <$> g.2.
Definition compile (s : qubit) (gs : list (bool * list qubit)) : list instr := mjoin (group s <$> gs).
Definition gqubits (gs : list (bool * list qubit)) : list qubit := mjoin (snd <$> gs).
Definition single (x : bool) (q : qubit) : pauli qubit := if x then Xon {[q]} else Zon {[q]}.
Definition gprod (g : bool * list qubit) : pauli qubit := pprod (single g.1 <$> g.2).
Definition gpauli (gs : list (bool * list qubit)) : pauli qubit := pprod (gprod <$> gs).

(** Qubits a Pauli operator acts on. *)
Definition supp {A} `{Countable A} (P : pauli A) : gset A := px P ∪ pz P.
Definition off (s : qubit) (P : pauli qubit) : Prop := mem s (px P) = false /\ mem s (pz P) = false.
Lemma off_supp s P : off s P <-> s ∉ supp P.
Proof. unfold off, supp. rewrite !mem_false. set_solver. Qed.
Lemma off_pmul s P Q : off s P -> off s Q -> off s (pmul P Q).
Proof. intros [A1 A2] [B1 B2]. split; cbn [px pz pmul]; rewrite mem_sd, ?A1, ?A2, ?B1, ?B2; done. Qed.
Lemma off_single s x q : s <> q -> off s (single x q).
Proof. intros. destruct x; split; cbn; rewrite ?mem_empty, ?mem_singleton, ?bool_decide_eq_false_2; done. Qed.
Lemma off_pid s : off s pid.
Proof. split; apply mem_empty. Qed.
Lemma off_pprod (s : qubit) (l : list (pauli qubit)) : (forall P : pauli qubit, P ∈ l -> off s P) -> off s (pprod l).
Proof.
  induction l as [|P l IH]; intros Hl; [apply off_pid|]. cbn. apply off_pmul; [apply Hl; by left|].
  apply IH. intros; apply Hl; by right.
Qed.
Lemma off_gprod s g : s ∉ g.2 -> off s (gprod g).
Proof.
  intros Hs. apply off_pprod. intros P HP. apply elem_of_list_fmap in HP as (q & -> & Hq).
  apply off_single. intros ->. done.
Qed.
Lemma gqubits_cons g gs : gqubits (g :: gs) = g.2 ++ gqubits gs.
Proof. done. Qed.
Lemma off_gpauli s gs : s ∉ gqubits gs -> off s (gpauli gs).
Proof.
  intros Hs. apply off_pprod. intros P HP. apply elem_of_list_fmap in HP as (g & -> & Hg).
  apply off_gprod. intros Hg2. apply Hs. unfold gqubits. apply elem_of_list_join. exists g.2. split; [done|].
  apply elem_of_list_fmap. eauto.
Qed.

Section prop.
Context (s : qubit).
(** Q times X_s^u *)
Definition withx (u : bool) (Q : pauli qubit) : pauli qubit := Pauli (px Q ⊕ bitset u s) (pz Q).
Definition withz (u : bool) (Q : pauli qubit) : pauli qubit := Pauli (px Q) (pz Q ⊕ bitset u s).

Lemma withx_false Q : withx false Q = Q.
Proof. apply pauli_eq; cbn; by rewrite ?sd_empty_r. Qed.
Lemma prop1_H_withx u Q : off s Q -> prop1 (IH s) (withx u Q) = Some (withz u Q, false).
Proof.
  intros [Hx Hz]. cbn. rewrite mem_sd, mem_bitset, bool_decide_eq_true_2, Hx, Hz, andb_true_r, andb_false_r by done. cbn.
  f_equal. f_equal. apply pauli_eq; cbn [px pz hP withx withz]; rewrite ?mem_sd, ?mem_bitset, bool_decide_eq_true_2, ?Hx, ?Hz by done.
  - rewrite andb_true_r, xorb_false_l, xorb_false_r, <-sd_assoc, bitset_xor, xorb_nilpotent. apply sd_empty_r.
  - by rewrite andb_true_r, xorb_false_l, xorb_false_r.
Qed.
Lemma prop1_H_withz u Q : off s Q -> prop1 (IH s) (withz u Q) = Some (withx u Q, false).
Proof.
  intros [Hx Hz]. cbn. rewrite mem_sd, mem_bitset, bool_decide_eq_true_2, Hx, Hz, andb_true_r by done. cbn.
  f_equal. f_equal. apply pauli_eq; cbn [px pz hP withx withz]; rewrite ?mem_sd, ?mem_bitset, bool_decide_eq_true_2, ?Hx, ?Hz by done.
  - by rewrite andb_true_r, !xorb_false_l.
  - rewrite andb_true_r, !xorb_false_l, <-sd_assoc, bitset_xor, xorb_nilpotent. apply sd_empty_r.
Qed.
Lemma prop1_CXin u Q q : off s Q -> q <> s ->
  prop1 (ICX q s) (withx u Q) = Some (withx (xorb u (mem q (px Q))) Q, false).
Proof.
  intros [Hx Hz] Hq. cbn. rewrite bool_decide_eq_false_2 by done. f_equal. f_equal. apply pauli_eq; cbn [px pz cxP withx].
  - rewrite mem_sd, mem_bitset, bool_decide_eq_false_2, andb_false_r, xorb_false_r by done.
    by rewrite <-sd_assoc, bitset_xor.
  - rewrite Hz. apply sd_empty_r.
Qed.
Lemma prop1_CXout u Q q : off s Q -> q <> s ->
  prop1 (ICX s q) (withz u Q) = Some (withz (xorb u (mem q (pz Q))) Q, false).
Proof.
  intros [Hx Hz] Hq. cbn. rewrite bool_decide_eq_false_2 by done. f_equal. f_equal. apply pauli_eq; cbn [px pz cxP withz].
  - rewrite Hx. apply sd_empty_r.
  - rewrite mem_sd, mem_bitset, bool_decide_eq_false_2, andb_false_r, xorb_false_r by done.
    by rewrite <-sd_assoc, bitset_xor.
Qed.
Lemma anti_single x q Q : anti Q (single x q) = mem q (if x then pz Q else px Q).
Proof. destruct x; cbn [single]; [rewrite anti_Xon|rewrite anti_Zon]; apply dot_singleton_r. Qed.
Lemma prop_CXins u Q l : off s Q -> s ∉ l ->
  prop ((fun q => ICX q s) <$> l) (withx u Q) = Some (withx (xorb u (anti Q (gprod (false, l)))) Q, false).
Proof.
  intros HQ. revert u. induction l as [|q l IH]; intros u Hs.
  - unfold gprod. cbn [fst snd fmap list_fmap pprod foldr]. by rewrite anti_pid_r, xorb_false_r.
  - apply not_elem_of_cons in Hs as [Hq Hs]. rewrite fmap_cons. cbn [prop]. rewrite prop1_CXin by done. rewrite IH by done.
    unfold gprod. cbn [fst snd]. rewrite fmap_cons. cbn [pprod foldr]. rewrite anti_pmul_r, anti_single, xorb_assoc. done.
Qed.
Lemma prop_CXouts u Q l : off s Q -> s ∉ l ->
  prop (ICX s <$> l) (withz u Q) = Some (withz (xorb u (anti Q (gprod (true, l)))) Q, false).
Proof.
  intros HQ. revert u. induction l as [|q l IH]; intros u Hs.
  - unfold gprod. cbn [fst snd fmap list_fmap pprod foldr]. by rewrite anti_pid_r, xorb_false_r.
  - apply not_elem_of_cons in Hs as [Hq Hs]. rewrite fmap_cons. cbn [prop]. rewrite prop1_CXout by done. rewrite IH by done.
    unfold gprod. cbn [fst snd]. rewrite fmap_cons. cbn [pprod foldr]. rewrite anti_pmul_r, anti_single, xorb_assoc. done.
Qed.
Lemma prop_group u Q g : off s Q -> s ∉ g.2 ->
  prop (group s g) (withx u Q) = Some (withx (xorb u (anti Q (gprod g))) Q, false).
Proof.
  intros HQ Hs. destruct g as [[|] l]; cbn [group fst snd]; cbn [snd] in Hs.
  - cbn [app prop]. rewrite prop1_H_withx by done.
    rewrite (prop_app _ _ _ _ false (withx (xorb u (anti Q (gprod (true, l)))) Q) false (prop_CXouts u Q l HQ Hs)); [done|].
    cbn [prop]. by rewrite prop1_H_withz by done.
  - by apply prop_CXins.
Qed.
(** An operator off [s] picks up X_s iff it anticommutes with the measured operator. *)
Lemma prop_compile u Q gs : off s Q -> s ∉ gqubits gs ->
  prop (compile s gs) (withx u Q) = Some (withx (xorb u (anti Q (gpauli gs))) Q, false).
Proof.
  intros HQ. revert u. induction gs as [|g gs IH]; intros u Hs.
  - unfold gpauli. cbn [fmap list_fmap pprod foldr]. by rewrite anti_pid_r, xorb_false_r.
  - rewrite gqubits_cons in Hs. apply not_elem_of_app in Hs as [H1 H2].
    change (compile s (g :: gs)) with (group s g ++ compile s gs).
    rewrite (prop_app _ _ _ _ false _ false (prop_group u Q g HQ H1) (IH _ H2)).
    unfold gpauli. rewrite fmap_cons. cbn [pprod foldr]. rewrite anti_pmul_r, xorb_assoc. done.
Qed.
Lemma prop_compile_commute Q gs : off s Q -> s ∉ gqubits gs -> commute Q (gpauli gs) ->
  prop (compile s gs) Q = Some (Q, false).
Proof.
  intros HQ Hs Hc. pose proof (prop_compile false Q gs HQ Hs) as Hp. rewrite withx_false in Hp. rewrite Hp, Hc. cbn.
  by rewrite withx_false.
Qed.

(** Z_s becomes Z_s times the measured operator. *)
Lemma prop1_H_Z Q : off s Q -> prop1 (IH s) (withz true Q) = Some (withx true Q, false).
Proof. apply prop1_H_withz. Qed.
Lemma prop1_in_Z Q q : off s Q -> q <> s -> off q Q ->
  prop1 (ICX q s) (withz true Q) = Some (withz true (pmul Q (single false q)), false).
Proof.
  intros [Hx Hz] Hq [Hqx Hqz]. cbn [prop1]. rewrite bool_decide_eq_false_2 by done. f_equal. f_equal.
  apply pauli_eq; cbn [px pz cxP withz pmul single Zon].
  - rewrite Hqx. done.
  - rewrite mem_sd, Hz, mem_bitset, bool_decide_eq_true_2 by done. cbn.
    by rewrite <-!sd_assoc, (sd_comm {[s]}).
Qed.
Lemma prop1_out_Z Q q : off s Q -> q <> s -> off q Q ->
  prop1 (ICX s q) (withx true Q) = Some (withx true (pmul Q (single true q)), false).
Proof.
  intros [Hx Hz] Hq [Hqx Hqz]. cbn [prop1]. rewrite bool_decide_eq_false_2 by done. f_equal. f_equal.
  apply pauli_eq; cbn [px pz cxP withx pmul single Xon].
  - rewrite mem_sd, Hx, mem_bitset, bool_decide_eq_true_2 by done. cbn.
    by rewrite <-!sd_assoc, (sd_comm {[s]}).
  - by rewrite Hqz.
Qed.
Definition apart (l : list qubit) (Q : pauli qubit) : Prop := forall q, q ∈ l -> off q Q.
Lemma apart_single x q l Q : q ∉ l -> apart l Q -> apart l (pmul Q (single x q)).
Proof. intros Hq Ha q' Hq'. apply off_pmul; [by apply Ha|]. apply off_single. intros ->. done. Qed.
Lemma prop_ins_Z Q l : off s Q -> s ∉ l -> NoDup l -> apart l Q ->
  prop ((fun q => ICX q s) <$> l) (withz true Q) = Some (withz true (pmul Q (gprod (false, l))), false).
Proof.
  revert Q. induction l as [|q l IH]; intros Q HQ Hs Hnd Ha.
  - unfold gprod. cbn [fst snd fmap list_fmap pprod foldr prop]. by rewrite pmul_id_r.
  - apply not_elem_of_cons in Hs as [Hq Hs]. apply NoDup_cons in Hnd as [Hql Hnd].
    rewrite fmap_cons. cbn [prop]. rewrite prop1_in_Z by (done || apply Ha; by left).
    rewrite IH.
    + unfold gprod. cbn [fst snd]. rewrite fmap_cons. cbn [pprod foldr]. by rewrite <-pmul_assoc.
    + apply off_pmul; [done|by apply off_single].
    + done.
    + done.
    + apply apart_single; [done|]. intros q' Hq'. apply Ha. by right.
Qed.
Lemma prop_outs_Z Q l : off s Q -> s ∉ l -> NoDup l -> apart l Q ->
  prop (ICX s <$> l) (withx true Q) = Some (withx true (pmul Q (gprod (true, l))), false).
Proof.
  revert Q. induction l as [|q l IH]; intros Q HQ Hs Hnd Ha.
  - unfold gprod. cbn [fst snd fmap list_fmap pprod foldr prop]. by rewrite pmul_id_r.
  - apply not_elem_of_cons in Hs as [Hq Hs]. apply NoDup_cons in Hnd as [Hql Hnd].
    rewrite fmap_cons. cbn [prop]. rewrite prop1_out_Z by (done || apply Ha; by left).
    rewrite IH.
    + unfold gprod. cbn [fst snd]. rewrite fmap_cons. cbn [pprod foldr]. by rewrite <-pmul_assoc.
    + apply off_pmul; [done|by apply off_single].
    + done.
    + done.
    + apply apart_single; [done|]. intros q' Hq'. apply Ha. by right.
Qed.
Lemma prop_group_Z Q g : off s Q -> s ∉ g.2 -> NoDup g.2 -> apart g.2 Q ->
  prop (group s g) (withz true Q) = Some (withz true (pmul Q (gprod g)), false).
Proof.
  intros HQ Hs Hnd Ha. destruct g as [[|] l]; cbn [group fst snd]; cbn [snd] in Hs, Hnd, Ha.
  - cbn [app prop]. rewrite prop1_H_Z by done.
    rewrite (prop_app _ _ _ _ false (withz true (pmul Q (gprod (true, l)))) false (prop_outs_Z Q l HQ Hs Hnd Ha)); [done|].
    cbn [prop]. rewrite prop1_H_withx; [done|]. apply off_pmul; [done|]. by apply off_gprod.
  - by apply prop_ins_Z.
Qed.
Lemma prop_compile_Z Q gs : off s Q -> s ∉ gqubits gs -> NoDup (gqubits gs) -> apart (gqubits gs) Q ->
  prop (compile s gs) (withz true Q) = Some (withz true (pmul Q (gpauli gs)), false).
Proof.
  revert Q. induction gs as [|g gs IH]; intros Q HQ Hs Hnd Ha.
  - unfold gpauli. cbn [fmap list_fmap pprod foldr]. by rewrite pmul_id_r.
  - rewrite gqubits_cons in Hs, Hnd, Ha. apply not_elem_of_app in Hs as [H1 H2]. apply NoDup_app in Hnd as (N1 & N2 & N3).
    change (compile s (g :: gs)) with (group s g ++ compile s gs).
    assert (Hg : prop (group s g) (withz true Q) = Some (withz true (pmul Q (gprod g)), false)).
    { apply prop_group_Z; try done. intros q Hq. apply Ha, elem_of_app. by left. }
    rewrite (prop_app _ _ _ _ false (withz true (pmul (pmul Q (gprod g)) (gpauli gs))) false Hg).
    + unfold gpauli at 2. rewrite fmap_cons. cbn [pprod foldr]. by rewrite <-pmul_assoc.
    + apply IH; try done.
      * apply off_pmul; [done|by apply off_gprod].
      * intros q Hq. apply off_pmul; [apply Ha, elem_of_app; by right|]. apply off_gprod. intros Hin. by eapply N2.
Qed.
Lemma prop_measured gs : s ∉ gqubits gs -> NoDup (gqubits gs) ->
  prop (compile s gs) (Zon {[s]}) = Some (pmul (Zon {[s]}) (gpauli gs), false).
Proof.
  intros Hs Hnd. pose proof (prop_compile_Z pid gs) as Hp.
  assert (withz true pid = Zon {[s]}) as Hz by (apply pauli_eq; cbn; by rewrite ?sd_empty_l).
  rewrite Hz in Hp. rewrite Hp.
  - f_equal. f_equal. apply pauli_eq; cbn [px pz withz pmul Zon pid bitset].
    + done.
    + rewrite sd_empty_l. apply sd_comm.
  - apply off_pid.
  - done.
  - done.
  - intros q _. apply off_pid.
Qed.
End prop.
