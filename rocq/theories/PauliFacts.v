(** Facts about Pauli operators as pairs of sets. *)
From Verif Require Export SpecCode.
Open Scope Z_scope.

Section pauli.
Context {A : Type} `{Countable A}.
Implicit Types P Q R : pauli A.
Lemma pauli_eq P Q : px P = px Q -> pz P = pz Q -> P = Q.
Proof. destruct P, Q; cbn; by intros -> ->. Qed.
Lemma pmul_assoc P Q R : pmul P (pmul Q R) = pmul (pmul P Q) R.
Proof. apply pauli_eq; apply sd_assoc. Qed.
Lemma pmul_comm P Q : pmul P Q = pmul Q P.
Proof. apply pauli_eq; apply sd_comm. Qed.
Lemma pmul_id_l P : pmul pid P = P.
Proof. apply pauli_eq; apply sd_empty_l. Qed.
Lemma pmul_id_r P : pmul P pid = P.
Proof. apply pauli_eq; apply sd_empty_r. Qed.
Lemma pmul_self P : pmul P P = pid.
Proof. apply pauli_eq; apply sd_nilp. Qed.
Lemma anti_comm P Q : anti P Q = anti Q P.
Proof. unfold anti. rewrite (dot_comm (px P)), (dot_comm (pz P)). apply xorb_comm. Qed.
Lemma anti_pmul_l P Q R : anti (pmul P Q) R = xorb (anti P R) (anti Q R).
Proof.
  unfold anti; cbn. rewrite !dot_sd_l.
  destruct (dot (px P) (pz R)), (dot (px Q) (pz R)), (dot (pz P) (px R)), (dot (pz Q) (px R)); done.
Qed.
Lemma anti_pmul_r P Q R : anti P (pmul Q R) = xorb (anti P Q) (anti P R).
Proof. rewrite anti_comm, anti_pmul_l, (anti_comm Q), (anti_comm R). done. Qed.
Lemma anti_pid_l P : anti pid P = false.
Proof. unfold anti; cbn. by rewrite !dot_empty_l. Qed.
Lemma anti_pid_r P : anti P pid = false.
Proof. by rewrite anti_comm, anti_pid_l. Qed.
Lemma anti_pprod_r P l : anti P (pprod l) = xorl (anti P <$> l).
Proof.
  induction l as [|Q l IH]; [apply anti_pid_r|].
  rewrite fmap_cons, xorl_cons, <-IH. apply anti_pmul_r.
Qed.
Lemma px_pprod l : px (pprod l : pauli A) = xsum (px <$> l).
Proof.
  induction l as [|Q l IH]; [done|]. rewrite fmap_cons.
  change (px Q ⊕ px (pprod l) = px Q ⊕ xsum (px <$> l)). by rewrite IH.
Qed.
Lemma pz_pprod l : pz (pprod l : pauli A) = xsum (pz <$> l).
Proof.
  induction l as [|Q l IH]; [done|]. rewrite fmap_cons.
  change (pz Q ⊕ pz (pprod l) = pz Q ⊕ xsum (pz <$> l)). by rewrite IH.
Qed.
Lemma pprod_app (l1 l2 : list (pauli A)) : pprod (l1 ++ l2) = pmul (pprod l1) (pprod l2).
Proof. apply pauli_eq; unfold pmul; cbn [px pz]; rewrite ?px_pprod, ?pz_pprod, fmap_app; apply xsum_app. Qed.

Lemma mem_hconj_x S P a : mem a (px (hconj S P)) = if mem a S then mem a (pz P) else mem a (px P).
Proof.
  cbn. unfold mem. destruct (decide (a ∈ S)).
  - rewrite (bool_decide_eq_true_2 (a ∈ S)) by done. apply bool_decide_ext. set_solver.
  - rewrite (bool_decide_eq_false_2 (a ∈ S)) by done. apply bool_decide_ext. set_solver.
Qed.
Lemma mem_hconj_z S P a : mem a (pz (hconj S P)) = if mem a S then mem a (px P) else mem a (pz P).
Proof.
  cbn. unfold mem. destruct (decide (a ∈ S)).
  - rewrite (bool_decide_eq_true_2 (a ∈ S)) by done. apply bool_decide_ext. set_solver.
  - rewrite (bool_decide_eq_false_2 (a ∈ S)) by done. apply bool_decide_ext. set_solver.
Qed.
Lemma hconj_inv S P : hconj S (hconj S P) = P.
Proof.
  apply pauli_eq; apply mem_ext; intros a.
  - rewrite mem_hconj_x. destruct (mem a S) eqn:E; [rewrite mem_hconj_z|rewrite mem_hconj_x]; by rewrite E.
  - rewrite mem_hconj_z. destruct (mem a S) eqn:E; [rewrite mem_hconj_x|rewrite mem_hconj_z]; by rewrite E.
Qed.
Lemma hconj_pmul S P Q : hconj S (pmul P Q) = pmul (hconj S P) (hconj S Q).
Proof.
  apply pauli_eq; apply mem_ext; intros a; unfold pmul at 2; cbn [px pz];
    rewrite mem_sd, ?mem_hconj_x, ?mem_hconj_z; destruct (mem a S); unfold pmul; cbn [px pz]; apply mem_sd.
Qed.
Lemma hconj_pid S : hconj S pid = (pid : pauli A).
Proof.
  apply pauli_eq; apply mem_ext; intros a; rewrite ?mem_hconj_x, ?mem_hconj_z; destruct (mem a S); done.
Qed.
Lemma hconj_pprod S (l : list (pauli A)) : hconj S (pprod l) = pprod (hconj S <$> l).
Proof.
  induction l as [|P l IH]; [apply hconj_pid|]. rewrite fmap_cons.
  change (hconj S (pmul P (pprod l)) = pmul (hconj S P) (pprod (hconj S <$> l))).
  by rewrite hconj_pmul, IH.
Qed.
(** Splitting a parity over S and its complement. *)
Lemma par_split S (X : gset A) : par X = xorb (par (X ∖ S)) (par (X ∩ S)).
Proof.
  rewrite <-par_union_disj by set_solver. f_equal. apply set_eq. intros x.
  rewrite elem_of_union, elem_of_difference, elem_of_intersection. destruct (decide (x ∈ S)); tauto.
Qed.
Lemma anti_hconj S P Q : anti (hconj S P) (hconj S Q) = anti P Q.
Proof.
  unfold anti, dot.
  rewrite (par_split S (px (hconj S P) ∩ pz (hconj S Q))), (par_split S (pz (hconj S P) ∩ px (hconj S Q))).
  rewrite (par_split S (px P ∩ pz Q)), (par_split S (pz P ∩ px Q)).
  assert ((px (hconj S P) ∩ pz (hconj S Q)) ∖ S = (px P ∩ pz Q) ∖ S) as -> by (cbn; set_solver).
  assert ((px (hconj S P) ∩ pz (hconj S Q)) ∩ S = (pz P ∩ px Q) ∩ S) as -> by (cbn; set_solver).
  assert ((pz (hconj S P) ∩ px (hconj S Q)) ∖ S = (pz P ∩ px Q) ∖ S) as -> by (cbn; set_solver).
  assert ((pz (hconj S P) ∩ px (hconj S Q)) ∩ S = (px P ∩ pz Q) ∩ S) as -> by (cbn; set_solver).
  destruct (par _), (par _), (par _), (par _); done.
Qed.
Lemma anti_Xon_Zon (S T : gset A) : anti (Xon S) (Zon T) = dot S T.
Proof. unfold anti; cbn. rewrite dot_empty_l. by destruct (dot S T). Qed.
Lemma anti_Zon_Xon (S T : gset A) : anti (Zon S) (Xon T) = dot S T.
Proof. unfold anti; cbn. rewrite dot_empty_l. by destruct (dot S T). Qed.
Lemma anti_Xon S P : anti P (Xon S) = dot (pz P) S.
Proof. unfold anti; cbn. rewrite dot_empty_r. by destruct (dot (pz P) S). Qed.
Lemma anti_Zon S P : anti P (Zon S) = dot (px P) S.
Proof. unfold anti; cbn. rewrite dot_empty_r. by destruct (dot (px P) S). Qed.
End pauli.

Section pmap.
Context {A B : Type} `{Countable A} `{Countable B} (f : A -> B) `{!Inj (=) (=) f}.
Lemma anti_pmap P Q : anti (pmap f P) (pmap f Q) = anti P Q.
Proof. unfold anti; cbn. by rewrite !dot_img. Qed.
Lemma pmap_pmul P Q : pmap f (pmul P Q) = pmul (pmap f P) (pmap f Q).
Proof. apply pauli_eq; cbn; by apply img_sd. Qed.
Lemma pmap_pid : pmap f pid = pid.
Proof. apply pauli_eq; cbn; apply img_empty. Qed.
Lemma pmap_inj P Q : pmap f P = pmap f Q -> P = Q.
Proof.
  intros He. apply pauli_eq.
  - apply (img_inj f). change (px (pmap f P) = px (pmap f Q)). by rewrite He.
  - apply (img_inj f). change (pz (pmap f P) = pz (pmap f Q)). by rewrite He.
Qed.
End pmap.
