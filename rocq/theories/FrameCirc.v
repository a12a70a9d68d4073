(** Pauli frames through parity-measurement circuits and suffixes of them. *)
From Verif Require Export Frame QCirc.
From stdpp Require Export list.
Open Scope Z_scope.

Definition pwhen (b : bool) (P : pauli qubit) : pauli qubit := if b then P else pid.
(** The parity of [G] is added to qubit [s]; a phase error on [s] spreads to [G]. *)
Definition cpar (s : qubit) (G P : pauli qubit) : pauli qubit :=
  pmul (pmul P (pwhen (mem s (pz P)) G)) (Xon (bitset (anti P G) s)).
(** The interactions of a parity circuit in order. *)
Definition gels (g : bool * list qubit) : list (bool * qubit) := pair g.1 <$> g.2.
Definition els (gs : list (bool * list qubit)) : list (bool * qubit) := mjoin (gels <$> gs).
Definition eprod (l : list (bool * qubit)) : pauli qubit := pprod ((fun e => single e.1 e.2) <$> l).
Definition pares (s : qubit) (l : list (bool * qubit)) (P : pauli qubit) : pauli qubit := foldl (fun P e => cpar s (single e.1 e.2) P) P l.

Lemma els_cons g gs : els (g :: gs) = gels g ++ els gs.
Proof. done. Qed.
Lemma els_snd gs : (els gs).*2 = gqubits gs.
Proof.
  induction gs as [|g gs IH]; [done|]. rewrite els_cons, fmap_app, IH, gqubits_cons. f_equal.
  unfold gels. rewrite <-list_fmap_compose. apply list_fmap_id.
Qed.
Lemma eprod_cons e l : eprod (e :: l) = pmul (single e.1 e.2) (eprod l).
Proof. done. Qed.
Lemma eprod_app l1 l2 : eprod (l1 ++ l2) = pmul (eprod l1) (eprod l2).
Proof. unfold eprod. rewrite fmap_app. apply pprod_app. Qed.
Lemma eprod_els gs : eprod (els gs) = gpauli gs.
Proof.
  induction gs as [|g gs IH]; [done|]. rewrite els_cons, eprod_app, IH. unfold gpauli. rewrite fmap_cons. cbn [pprod foldr]. f_equal.
  unfold eprod, gels, gprod. by rewrite <-list_fmap_compose.
Qed.
Lemma hP_hP q P : hP q (hP q P) = P.
Proof.
  apply pauli_eq; cbn [px pz hP]; apply mem_ext; intros a; rewrite !mem_sd, !mem_bitset, !(bool_decide_eq_true_2 (q = q)) by done;
    destruct (decide (a = q)) as [-> |Hne]; rewrite ?(bool_decide_eq_true_2 (q = q)), ?(bool_decide_eq_false_2 (a = q)) by done;
    destruct (mem q (px P)), (mem q (pz P)); rewrite ?andb_false_r, ?xorb_false_r; done.
Qed.
Lemma mem_pwhen_x b P a : mem a (px (pwhen b P)) = b && mem a (px P).
Proof. destruct b; cbn; [done|apply mem_empty]. Qed.
Lemma mem_pwhen_z b P a : mem a (pz (pwhen b P)) = b && mem a (pz P).
Proof. destruct b; cbn; [done|apply mem_empty]. Qed.
Lemma mem_par_x s G P a : mem a (px (cpar s G P)) = xorb (mem a (px P)) (xorb (mem s (pz P) && mem a (px G)) (anti P G && bool_decide (a = s))).
Proof. unfold cpar. cbn [px pmul Xon]. by rewrite !mem_sd, mem_pwhen_x, mem_bitset, xorb_assoc. Qed.
Lemma mem_par_z s G P a : mem a (pz (cpar s G P)) = xorb (mem a (pz P)) (mem s (pz P) && mem a (pz G)).
Proof. unfold cpar. cbn [pz pmul Xon]. by rewrite !mem_sd, mem_pwhen_z, mem_empty, xorb_false_r. Qed.
Lemma cx_in_par q s P : q <> s -> cxP q s P = cpar s (single false q) P.
Proof.
  intros Hne. apply pauli_eq; apply mem_ext; intros a; rewrite ?mem_par_x, ?mem_par_z, ?anti_single; cbn [px pz cxP single Zon];
    rewrite !mem_sd, !mem_bitset, ?mem_empty, ?mem_singleton, ?andb_false_r, ?xorb_false_l; done.
Qed.
Lemma cx_out_par q s P : q <> s -> hP s (cxP s q (hP s P)) = cpar s (single true q) P.
Proof.
  intros Hne. apply pauli_eq; apply mem_ext; intros a; rewrite ?mem_par_x, ?mem_par_z, ?anti_single; cbn [px pz cxP hP single Xon];
    repeat (rewrite ?mem_sd, ?mem_bitset, ?mem_empty, ?mem_singleton);
    rewrite ?(bool_decide_eq_true_2 (s = s)), ?(bool_decide_eq_true_2 (q = q)), ?(bool_decide_eq_false_2 (s = q)), ?(bool_decide_eq_false_2 (q = s)) by done;
    (destruct (decide (a = s)) as [-> |?]; [|destruct (decide (a = q)) as [-> |?]]);
    rewrite ?(bool_decide_eq_true_2 (s = s)), ?(bool_decide_eq_true_2 (q = q)), ?(bool_decide_eq_false_2 (s = q)), ?(bool_decide_eq_false_2 (q = s)), ?(bool_decide_eq_false_2 (a = s)), ?(bool_decide_eq_false_2 (a = q)) by done;
    repeat match goal with |- context [mem ?u ?v] => destruct (mem u v) end; done.
Qed.
Lemma anti_off_Xs (s : qubit) (u : bool) (G : pauli qubit) : off s G -> anti (Xon (bitset u s)) G = false.
Proof. intros [_ H]. rewrite anti_comm, anti_Xon, dot_bitset_r, H. apply andb_false_r. Qed.
Lemma anti_pwhen_l b P Q : anti (pwhen b P) Q = b && anti P Q.
Proof. destruct b; [done|]. cbn. by rewrite anti_pid_l. Qed.
Lemma anti_par s G P Q : off s Q -> anti (cpar s G P) Q = xorb (anti P Q) (mem s (pz P) && anti G Q).
Proof. intros Ho. unfold cpar. by rewrite !anti_pmul_l, anti_pwhen_l, anti_off_Xs, xorb_false_r. Qed.
Lemma par_par s G1 G2 P : off s G1 -> off s G2 -> anti G1 G2 = false -> cpar s G2 (cpar s G1 P) = cpar s (pmul G1 G2) P.
Proof.
  intros H1 H2 Hc.
  assert (Ha : anti (cpar s G1 P) G2 = anti P G2) by (rewrite anti_par by done; by rewrite Hc, andb_false_r, xorb_false_r).
  assert (Hz : mem s (pz (cpar s G1 P)) = mem s (pz P)) by (rewrite mem_par_z; destruct H1 as [_ ->]; by rewrite andb_false_r, xorb_false_r).
  apply pauli_eq; apply mem_ext; intros a.
  - rewrite (mem_par_x s G2), Ha, Hz, !mem_par_x, anti_pmul_r. cbn [px pmul]. rewrite mem_sd.
    destruct (mem a (px P)), (mem s (pz P)), (mem a (px G1)), (mem a (px G2)), (anti P G1), (anti P G2), (bool_decide (a = s)); done.
  - rewrite (mem_par_z s G2), Hz, !mem_par_z. cbn [pz pmul]. rewrite mem_sd.
    destruct (mem a (pz P)), (mem s (pz P)), (mem a (pz G1)), (mem a (pz G2)); done.
Qed.
Lemma par_pid s P : cpar s pid P = P.
Proof.
  apply pauli_eq; apply mem_ext; intros a; rewrite ?mem_par_x, ?mem_par_z, ?anti_pid_r; cbn; rewrite mem_empty, andb_false_r, ?xorb_false_r; done.
Qed.
Lemma anti_single_ne x x' q q' : q <> q' -> anti (single x q) (single x' q') = false.
Proof. intros Hne. rewrite anti_single. destruct x, x'; cbn; rewrite ?mem_empty, ?mem_singleton; try done; by apply bool_decide_eq_false. Qed.
Lemma anti_single_eprod x q l : q ∉ l.*2 -> anti (single x q) (eprod l) = false.
Proof.
  induction l as [|e l IH]; intros Hq; [apply anti_pid_r|]. rewrite fmap_cons in Hq. apply not_elem_of_cons in Hq as [Hq Hl].
  rewrite eprod_cons, anti_pmul_r, IH by done. rewrite anti_single_ne; done.
Qed.
Lemma off_eprod s l : s ∉ l.*2 -> off s (eprod l).
Proof.
  intros Hs. apply off_pprod. intros P (e & -> & He)%elem_of_list_fmap. apply off_single. intros ->. apply Hs, elem_of_list_fmap. eauto.
Qed.
Lemma pares_prod s l P : s ∉ l.*2 -> NoDup l.*2 -> pares s l P = cpar s (eprod l) P.
Proof.
  revert P. induction l as [|e l IH]; intros P Hs Hnd; [symmetry; apply par_pid|].
  rewrite fmap_cons in Hs, Hnd. apply not_elem_of_cons in Hs as [He Hs]. apply NoDup_cons in Hnd as [Hn Hnd].
  cbn [pares foldl]. change (foldl _ ?p l) with (pares s l p). rewrite IH by done. rewrite par_par; [done| | |].
  - by apply off_single.
  - by apply off_eprod.
  - by apply anti_single_eprod.
Qed.
Lemma pares_app s l1 l2 P : pares s (l1 ++ l2) P = pares s l2 (pares s l1 P).
Proof. apply foldl_app. Qed.
Lemma push_ins s l P F : s ∉ l -> push ((fun q => ICX q s) <$> l) (Fr P F) = Fr (pares s (pair false <$> l) P) F.
Proof.
  revert P. induction l as [|q l IH]; intros P Hs; [done|]. apply not_elem_of_cons in Hs as [Hq Hs].
  rewrite fmap_cons, push_cons. cbn [push1 fp ff]. rewrite IH by done. rewrite cx_in_par by done. done.
Qed.
Lemma push_outs s l P F : s ∉ l -> push ((ICX s <$> l) ++ [IH s]) (Fr P F) = Fr (pares s (pair true <$> l) (hP s P)) F.
Proof.
  revert P. induction l as [|q l IH]; intros P Hs; [done|]. apply not_elem_of_cons in Hs as [Hq Hs].
  rewrite fmap_cons. cbn [app]. rewrite push_cons. cbn [push1 fp ff]. rewrite IH by done.
  rewrite <-(hP_hP s P) at 1. rewrite cx_out_par by done. done.
Qed.
Lemma push_group s g P F : s ∉ g.2 -> push (group s g) (Fr P F) = Fr (pares s (gels g) P) F.
Proof.
  intros Hs. destruct g as [[|] l]; cbn [group fst snd] in *.
  - change ([IH s] ++ (ICX s <$> l) ++ [IH s]) with (IH s :: (ICX s <$> l) ++ [IH s]). rewrite push_cons. cbn [push1 fp ff].
    rewrite push_outs by done. by rewrite hP_hP.
  - by apply push_ins.
Qed.
Lemma push_compile_els s gs P F : s ∉ gqubits gs -> push (compile s gs) (Fr P F) = Fr (pares s (els gs) P) F.
Proof.
  revert P. induction gs as [|g gs IH]; intros P Hs; [done|]. rewrite gqubits_cons in Hs. apply not_elem_of_app in Hs as [H1 H2].
  change (compile s (g :: gs)) with (group s g ++ compile s gs). rewrite push_app, push_group, IH by done.
  by rewrite els_cons, pares_app.
Qed.
Lemma push_compile s gs P F : s ∉ gqubits gs -> NoDup (gqubits gs) -> push (compile s gs) (Fr P F) = Fr (cpar s (gpauli gs) P) F.
Proof. intros Hs Hn. rewrite push_compile_els, pares_prod, eprod_els by (by rewrite ?els_snd). done. Qed.

(** ** Suffixes *)
Lemma suffix_app_cases {A} (r l1 l2 : list A) : r `suffix_of` l1 ++ l2 -> r `suffix_of` l2 \/ exists r1, r = r1 ++ l2 /\ r1 `suffix_of` l1.
Proof.
  intros [k E]. apply app_eq_inv in E as [(m & -> & ->)|(m & -> & ->)].
  - right. exists m. split; [done|]. by exists k.
  - left. by exists m.
Qed.
Lemma suffix_fmap_inv {A B} (f : A -> B) r l : r `suffix_of` (f <$> l) -> exists l2, r = f <$> l2 /\ l2 `suffix_of` l.
Proof.
  intros [k E]. apply fmap_app_inv in E as (l1 & l2 & -> & -> & ->). exists l2. split; [done|]. by exists l1.
Qed.
Lemma suffix_singleton_inv {A} (r : list A) x : r `suffix_of` [x] -> r = [] \/ r = [x].
Proof. intros [k E]. destruct k as [|y k]; [by right|]. destruct k, r; try done. by left. Qed.
Lemma suffix_mjoin_inv {A B} (f : A -> list B) r L : r `suffix_of` mjoin (f <$> L) ->
  r = [] \/ exists L1 k L2 r1, L = L1 ++ k :: L2 /\ r = r1 ++ mjoin (f <$> L2) /\ r1 `suffix_of` f k.
Proof.
  induction L as [|k L IH]; intros Hr; [left; by apply suffix_nil_inv in Hr|].
  change (mjoin (f <$> k :: L)) with (f k ++ mjoin (f <$> L)) in Hr. apply suffix_app_cases in Hr as [Hr|(r1 & -> & Hr)].
  - destruct (IH Hr) as [-> |(L1 & k' & L2 & r1 & -> & -> & H)]; [by left|]. right. exists (k :: L1), k', L2, r1. done.
  - right. exists [], k, L, r1. done.
Qed.
(** A suffix of a parity circuit acts as the circuit of a suffix of its interactions, after a
    Hadamard on [s] if it starts inside a conjugated group. *)
Lemma push_compile_suffix s gs r : r `suffix_of` compile s gs -> s ∉ gqubits gs ->
  exists l2 t, l2 `suffix_of` els gs /\ forall P F, push r (Fr P F) = Fr (pares s l2 (if t : bool then hP s P else P)) F.
Proof.
  induction gs as [|g gs IHg]; intros Hr Hs.
  - apply suffix_nil_inv in Hr as ->. exists [], false. split; [done|done].
  - rewrite gqubits_cons in Hs. apply not_elem_of_app in Hs as [H1 H2].
    change (compile s (g :: gs)) with (group s g ++ compile s gs) in Hr. apply suffix_app_cases in Hr as [Hr|(r1 & -> & Hr)].
    + destruct (IHg Hr H2) as (l2 & t & Hl & HP). exists l2, t. split; [|done]. rewrite els_cons. by apply suffix_app_r.
    + assert (Hg : exists l2 t, l2 `suffix_of` gels g /\ forall P F, push r1 (Fr P F) = Fr (pares s l2 (if t : bool then hP s P else P)) F).
      { destruct g as [[|] l]; cbn [group fst snd] in *.
        - apply suffix_app_cases in Hr as [Hr|(r2 & -> & Hr)].
          + apply suffix_app_cases in Hr as [Hr|(r2 & -> & Hr)].
            * apply suffix_singleton_inv in Hr as [-> | ->]; [by exists [], false; split; [apply suffix_nil|]|].
              exists [], true. split; [apply suffix_nil|done].
            * apply suffix_fmap_inv in Hr as (l2 & -> & Hl). exists (pair true <$> l2), true. split.
              -- destruct Hl as [k ->]. exists (pair true <$> k). unfold gels. cbn. by rewrite fmap_app.
              -- intros P F. apply push_outs. destruct Hl as [k ->]. set_solver.
          + apply suffix_singleton_inv in Hr as [-> | ->].
            * exists (pair true <$> l), true. split; [done|]. intros P F. by apply push_outs.
            * exists (pair true <$> l), false. split; [done|]. intros P F.
              change (push ([IH s] ++ (ICX s <$> l) ++ [IH s]) (Fr P F)) with (push ((ICX s <$> l) ++ [IH s]) (Fr (hP s P) F)).
              rewrite push_outs by done. by rewrite hP_hP.
        - apply suffix_fmap_inv in Hr as (l2 & -> & Hl). exists (pair false <$> l2), false. split.
          + destruct Hl as [k ->]. exists (pair false <$> k). unfold gels. cbn. by rewrite fmap_app.
          + intros P F. apply push_ins. destruct Hl as [k ->]. set_solver. }
      destruct Hg as (l2 & t & [k Hk] & HP). exists (l2 ++ els gs), t. split.
      * exists k. rewrite els_cons, Hk. by rewrite <-app_assoc.
      * intros P F. rewrite push_app, HP, push_compile_els by done. by rewrite pares_app.
Qed.
