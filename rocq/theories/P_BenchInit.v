(** Property C47, continued: the benchmark of a decoder has the parameters the decoder was
    constructed with, in the order height, width. *)
From Verif Require Import Bench ConstructFacts P_Bench.
From stdpp Require Export list.
Open Scope Z_scope.

Theorem C47_decoder d T D correct : rotated_decoder (Some d) (Some T) = Ok D ->
  let b := bench_init D correct in
  exists dh dw, dims (Some d) = Some (dh, dw) /\ b_d b = (dh, dw) /\ b_T b = T /\ b_correct b = correct /\ b_phys b = [] /\ b_log b = [] /\
    b_filename b = ("d_(" +:+ py_str dh +:+ ", " +:+ py_str dw +:+ ")_T_" +:+ py_str T +:+ ".npz")%string.
Proof.
  unfold rotated_decoder, decoder_d. intros H.
  destruct d as [z|[|dh [|dw [|x l]]]|]; try done.
  - destruct (_ || _); [done|]. destruct (make_syndrome_graph true _ _ _) as [gx|]; [|done]. destruct (make_syndrome_graph false _ _ _) as [gz|]; [|done].
    injection H as <-. exists z, z. done.
  - destruct (_ || _); [done|]. destruct (make_syndrome_graph true _ _ _) as [gx|]; [|done]. destruct (make_syndrome_graph false _ _ _) as [gz|]; [|done].
    injection H as <-. exists dh, dw. done.
Qed.
Print Assumptions C47_decoder.
(** So benchmarks of two decoders share a file exactly if the decoders were made for the same
    shape and the same T. *)
Corollary C47_decoders d d' T T' D D' c c' : rotated_decoder (Some d) (Some T) = Ok D -> rotated_decoder (Some d') (Some T') = Ok D' ->
  b_filename (bench_init D c) = b_filename (bench_init D' c') <-> dims (Some d) = dims (Some d') /\ T = T'.
Proof.
  intros (h & w & E & Eb & ET & _)%(C47_decoder _ _ _ c) (h' & w' & E' & Eb' & ET' & _)%(C47_decoder _ _ _ c').
  rewrite C47_filename, Eb, Eb', ET, ET', E, E'. split; intros [? ?]; split; congruence.
Qed.
Print Assumptions C47_decoders.
Example C47_ex_decoder : exists D, rotated_decoder (Some (DTup [3; 5])) (Some 2) = Ok D /\ b_filename (bench_init D 0) = "d_(3, 5)_T_2.npz"%string.
Proof.
  destruct (rotated_decoder (Some (DTup [3; 5])) (Some 2)) as [D|] eqn:E; [|vm_compute in E; discriminate E]. exists D. split; [done|].
  destruct (C47_decoder _ _ _ 0 E) as (h & w & Ed & _ & _ & _ & _ & _ & ->). injection Ed as <- <-. vm_compute. reflexivity.
Qed.
