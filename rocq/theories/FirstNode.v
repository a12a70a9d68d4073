(** The first node of the decoder's graph: nodes are only ever added after it. *)
From Verif Require Export MwpmGraph.
From stdpp Require Export list.
Open Scope Z_scope.

Lemma rfold_rel {A B} (R : A -> A -> Prop) (f : A -> B -> res A) l : forall a a',
  (forall a, R a a) -> (forall a b c, R a b -> R b c -> R a c) ->
  (forall a x a', f a x = Ok a' -> R a a') -> rfold f a l = Ok a' -> R a a'.
Proof.
  induction l as [|x l IH]; intros a a' H1 H2 H3 E; [injection E as <-; apply H1|].
  cbn in E. destruct (f a x) as [b|] eqn:Ef; [|done]. eapply H2; [by eapply H3|]. by eapply IH.
Qed.
(** [h] has the nodes of [g], and perhaps more after them. *)
Definition grows {W} (g h : lgraph W) : Prop := pg_nodes (lg_g g) `prefix_of` pg_nodes (lg_g h).
Lemma grows_refl {W} (g : lgraph W) : grows g g. Proof. unfold grows. done. Qed.
Lemma grows_trans {W} (g h k : lgraph W) : grows g h -> grows h k -> grows g k. Proof. unfold grows. by etrans. Qed.
Lemma grows_node {W} n (g : lgraph W) : grows g (lg_add_node n g).
Proof. unfold grows. cbn. by apply prefix_app_r. Qed.
Lemma grows_ensure {W} n (g : lgraph W) : grows g (lg_ensure n g).
Proof. unfold lg_ensure. case_bool_decide; [apply grows_refl|apply grows_node]. Qed.
Lemma grows_edge {W} a b (w : W) g g' : lg_add_edge a b w g = Ok g' -> grows g g'.
Proof. unfold lg_add_edge. repeat case_match; try done. intros [= <-]. unfold grows. cbn. done. Qed.
Lemma grows_link cur g t g' : link cur g t = Ok g' -> grows g g'.
Proof. intros H. eapply grows_trans; [apply (grows_ensure t)|]. by eapply grows_edge. Qed.
Lemma grows_populate fuel isx dh dw : forall cur t s s', populate_graph fuel isx dh dw cur t s = Ok s' -> grows s.2 s'.2.
Proof.
  induction fuel as [|fuel IH]; intros cur t s s' E; [done|]. cbn [populate_graph] in E.
  set (no := filter _ (diagonals cur)) in E. set (vi := filter _ (diagonals cur)) in E.
  assert (Hmain : match rfold (fun g p => link cur g (at_time t p)) s.2 no with
      | Err e => Err e
      | Ok g1 =>
        match rfold (fun g p => link cur g (at_time (-1) p)) g1 vi with
        | Err e => Err e
        | Ok g2 =>
          match rfold (fun s p => populate_graph fuel isx dh dw (at_time t p) t s) (s.1 ++ [cur], g2) no with
          | Err e => Err e
          | Ok s3 => rfold (fun s p => populate_graph fuel isx dh dw (at_time (-1) p) t s) s3 vi
          end
        end
      end = Ok s' -> grows s.2 s'.2).
  { clear E. destruct (rfold _ s.2 no) as [g1|] eqn:E1; [|done]. destruct (rfold _ g1 vi) as [g2|] eqn:E2; [|done].
    destruct (rfold _ (s.1 ++ [cur], g2) no) as [s3|] eqn:E3; [|done]. intros E4.
    apply (rfold_rel grows) in E1; [|apply grows_refl|apply grows_trans|intros ???; apply grows_link].
    apply (rfold_rel grows) in E2; [|apply grows_refl|apply grows_trans|intros ???; apply grows_link].
    apply (rfold_rel (fun a b => grows a.2 b.2)) in E3; [|intros; apply grows_refl|intros ???; apply grows_trans|intros ???; apply IH].
    apply (rfold_rel (fun a b => grows a.2 b.2)) in E4; [|intros; apply grows_refl|intros ???; apply grows_trans|intros ???; apply IH].
    cbn [snd] in E3. eapply grows_trans; [exact E1|]. eapply grows_trans; [exact E2|]. by eapply grows_trans. }
  destruct no; [destruct vi|]; [injection E as <-; apply grows_refl|by apply Hmain..].
Qed.
Lemma grows_layer isx dh dw g t g' : make_layer isx dh dw g t = Ok g' -> grows (lg_add_node (at_time t (start_loc isx)) g) g'.
Proof. unfold make_layer. destruct (populate_graph _ _ _ _ _ _ _) eqn:E; [|done]. intros [= <-]. by apply grows_populate in E. Qed.

(** The node with index 0 is the start node of the first round. *)
Lemma first_node isx dh dw T g : 1 <= T -> make_syndrome_graph isx dh dw T = Ok g ->
  pg_nodes (lg_g g) !! 0%nat = Some (at_time 0 (start_loc isx)).
Proof.
  intros HT E. unfold make_syndrome_graph in E. destruct (rfold (make_layer isx dh dw) _ _) as [g1|] eqn:E1; [|done].
  apply (rfold_rel grows) in E; [|apply grows_refl|apply grows_trans|].
  2: { intros a x a' Ef. apply (rfold_rel grows) in Ef; [done|apply grows_refl|apply grows_trans|]. intros ???. apply grows_edge. }
  unfold py_range in E1. rewrite seqZ_cons in E1 by lia. cbn [rfold] in E1.
  destruct (make_layer isx dh dw lg_empty 0) as [g0|] eqn:E0; [|done]. apply grows_layer in E0.
  apply (rfold_rel grows) in E1; [|apply grows_refl|apply grows_trans|].
  2: { intros a x a' Ef. apply grows_layer in Ef. eapply grows_trans; [apply grows_node|exact Ef]. }
  assert (H : grows (lg_add_node (at_time 0 (start_loc isx)) lg_empty) g) by (eapply grows_trans; [exact E0|]; by eapply grows_trans).
  destruct H as [l Hl]. rewrite Hl. done.
Qed.
