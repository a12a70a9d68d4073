(** Property C79: a params dictionary keeps the shape of the first object constructed from it. *)
From Verif Require Import DecObj P_Hist P_Code ConstructFacts Names P_DecObj.
From stdpp Require Export list.
Open Scope Z_scope.

(** ** What the property is about *)
(** Objects constructed from a dictionary: qubits of the three classes, decoders of the two. *)
Inductive maker := MQubit (t : qtype) (name : string) | MDecoder (rep : bool).
Definition repetition (m : maker) : bool := match m with MQubit TRepetition _ | MDecoder true => true | _ => false end.
Definition construct (m : maker) (l : nat) : kcmd := match m with MQubit t name => KNew t l name | MDecoder rep => KDec rep l end.
(** The (height, width) meant by d = z. *)
Definition shape (m : maker) (flag : bool) (z : Z) : Z * Z := if repetition m then (if flag then (1, z) else (z, 1)) else (z, z).
(** A lattice of this shape is a repetition code for the flag. *)
Definition one_line (flag : bool) (hw : Z * Z) : Prop := (if flag then hw.1 else hw.2) = 1.
(** Programs as in C54 in which the caller may also store another "phase-flip-protected". *)
Definition fcmd : Type := kcmd + (nat * bool).
Definition run_f (rx : retworkx) (w : world) (c : fcmd) : world :=
  match c with
  | inl k => (run_k rx w k).1
  | inr (l, b) => World ((let* p := get_params l in put_params l (set_pfp p b)) (w_st w)).1 (w_qs w) (w_ds w)
  end.
Definition run_fs (rx : retworkx) (w : world) (cs : list fcmd) : world := foldl (run_f rx) w cs.

(** ** Proofs *)
Definition settled (l : nat) (dl : list Z) (s : st) : Prop := heap_fresh s /\ exists p, s_heap s !! l = Some p /\ d_of p = Some (DTup dl).
Lemma settled_keeps l dl s s' : keeps s s' -> settled l dl s -> settled l dl s'.
Proof. intros HK [Hf (p & Hp & Hd)]. destruct (HK Hf) as [_ H2 H3]. split; [done|]. destruct (H3 _ _ Hp) as (p' & Hp' & [K _]). eauto. Qed.
Lemma settled_f rx l dl w c : settled l dl (w_st w) -> settled l dl (w_st (run_f rx w c)).
Proof.
  destruct c as [k|[l' b]]; cbn [run_f]; [apply settled_keeps, mild_k|]. intros [Hf (p & Hp & Hd)]. cbn [w_st]. unfold mbind', get_params.
  destruct (s_heap (w_st w) !! l') as [p'|] eqn:E; [|split; eauto]. cbn. split.
  - intros x Hx. cbn in *. rewrite lookup_insert_ne; [by apply Hf|]. intros ->. by rewrite (Hf _ Hx) in E.
  - cbn. destruct (decide (l = l')) as [->|]; [|rewrite lookup_insert_ne by done; eauto]. rewrite lookup_insert. assert (p' = p) as -> by congruence. by eexists.
Qed.
Lemma settled_fs rx l dl cs : forall w, settled l dl (w_st w) -> settled l dl (w_st (run_fs rx w cs)).
Proof. induction cs as [|c cs IHl]; intros w H; [done|]. cbn. apply IHl. by apply settled_f. Qed.
Lemma settled_bind {A B} (m : M A) (f : A -> M B) l dl s : settled l dl (m s).1 -> (forall a, mild (f a)) -> settled l dl ((mbind' m f) s).1.
Proof. intros Hm Hf. unfold mbind'. destruct (m s) as [s1 [a|e]]; cbn in *; [|done]. by eapply settled_keeps; [apply Hf|]. Qed.
Lemma settled_put l p dl s : heap_fresh s -> s_heap s !! l <> None -> d_of p = Some (DTup dl) -> settled l dl (put_params l p s).1.
Proof.
  intros Hf Hl Hd. split.
  - intros x Hx. cbn in *. rewrite lookup_insert_ne; [by apply Hf|]. intros ->. by rewrite (Hf _ Hx) in Hl.
  - cbn. rewrite lookup_insert. eauto.
Qed.
Lemma settled_rep l s p z : heap_fresh s -> s_heap s !! l = Some p -> d_of p = Some (DNum z) ->
  settled l (if default false (pfp_of p) then [1; z] else [z; 1]) (rep_validate l s).1.
Proof.
  intros Hf Hp Hd. rewrite (rep_validate_eq l s p Hp), Hd. cbn [rep_d]. split.
  - intros x Hx. cbn in *. rewrite !lookup_insert_ne; [by apply Hf|..]; intros ->; by rewrite (Hf _ Hx) in Hp.
  - cbn. rewrite lookup_insert. by eexists.
Qed.
Lemma settled_generate l s p z : heap_fresh s -> s_heap s !! l = Some p -> d_of p = Some (DNum z) -> settled l [z; z] (params_validate_and_generate l s).1.
Proof.
  intros Hf Hp Hd. unfold params_validate_and_generate. unfold mbind' at 1, get_params. rewrite Hp. unfold mbind' at 1, mlift at 1. rewrite Hd. cbn [norm_d].
  match goal with |- context [put_params l ?q] => set (p1 := q) end.
  assert (S1 : settled l [z; z] (put_params l p1 s).1) by (apply settled_put; [done|congruence|done]).
  unfold mbind' at 1. destruct (put_params l p1 s) as [s1 [u|e]]; cbn [fst] in *; [|done].
  unfold mbind' at 1, mlift. destruct (check_d [z; z]) as [hw|e]; [|done]. destruct S1 as [F1 (q & Hq & Hqd)].
  apply settled_bind; [|intros; apply mild_ret]. apply settled_put; [done|congruence|done].
Qed.
Lemma new_lattice_mild_rest l c name s dl : settled l dl (params_validate_and_generate l s).1 -> settled l dl (new_lattice c l name s).1.
Proof.
  intros H. unfold new_lattice. apply settled_bind; [done|]. intros hw. cbv zeta.
  apply mild_bind; [apply mild_mfor; intros; apply mild_add|]. intros _. apply mild_bind; [apply mild_lift|]. intros; apply mild_ret.
Qed.
Lemma settled_first m l p z s : heap_fresh s -> s_heap s !! l = Some p -> d_of p = Some (DNum z) -> (m = MDecoder false -> T_of p <> None) ->
  let hw := shape m (default false (pfp_of p)) z in
  settled l [hw.1; hw.2] (match m with MQubit t name => (new_tqubit t (Some l) name s).1 | MDecoder rep => (new_decoder rep l s).1 end).
Proof.
  intros Hf Hp Hd HT hw. assert (He : params_empty p = false) by (by eapply d_not_empty).
  assert (E0 : or_new (Some l) s = (s, Ok l)) by (cbn; unfold mbind', get_params; by rewrite Hp, He).
  assert (Erep : (if default false (pfp_of p) then [1; z] else [z; 1]) = [(if default false (pfp_of p) then (1, z) else (z, 1)).1; (if default false (pfp_of p) then (1, z) else (z, 1)).2]) by (by destruct (default false (pfp_of p))).
  pose proof (settled_rep l s p z Hf Hp Hd) as SR. rewrite Erep in SR.
  assert (ML : forall c name, mild (new_lattice c l name)).
  { intros c name. unfold new_lattice. apply mild_bind; [apply mild_generate|]. intros x. cbv zeta. apply mild_bind; [apply mild_mfor; intros; apply mild_add|]. intros _. apply mild_bind; [apply mild_lift|]. intros; apply mild_ret. }
  destruct m as [t name|rep].
  - unfold new_tqubit. unfold mbind' at 1. rewrite E0. destruct t.
    1: { apply settled_bind; [exact SR|]. intros _. apply mild_bind; [apply ML|]. intros; apply mild_ret. }
    all: unfold mbind' at 1; cbn [Circ.mret]; apply settled_bind; [|intros; apply mild_ret]; apply new_lattice_mild_rest; by eapply settled_generate.
  - destruct rep.
    + unfold new_decoder. unfold mbind' at 1. rewrite E0. apply settled_bind; [exact SR|]. intros _. apply mild_bind; [apply mild_validate|]. intros ?. mild.
    + unfold new_decoder. unfold mbind' at 1. cbn [Circ.mret]. unfold mbind' at 1. cbn [Circ.mret]. apply settled_bind; [|intros ?; mild].
      unfold validate_rotated. unfold mbind' at 1, get_params. rewrite Hp, Hd. destruct (T_of p) as [T|]; [|by specialize (HT eq_refl)].
      apply settled_bind; [|intros; apply mild_lift]. apply settled_put; [done|congruence|done].
Qed.

(** Whatever is constructed first (even if that fails) turns the number into the tuple of its
    shape, and no later construction, call, or change of the flag or of T changes it. *)
Theorem C79_shape_fixed rx w l p z m cs : heap_fresh (w_st w) -> s_heap (w_st w) !! l = Some p -> d_of p = Some (DNum z) -> (m = MDecoder false -> T_of p <> None) ->
  let hw := shape m (default false (pfp_of p)) z in
  let s := w_st (run_fs rx (run_k rx w (construct m l)).1 cs) in
  exists p', s_heap s !! l = Some p' /\ d_of p' = Some (DTup [hw.1; hw.2]).
Proof.
  intros Hf Hp Hd HT hw s. pose proof (settled_first m l p z (w_st w) Hf Hp Hd HT) as H. cbv zeta in H. fold hw in H.
  assert (S1 : settled l [hw.1; hw.2] (w_st (run_k rx w (construct m l)).1)).
  { destruct m as [t name|rep]; cbn [construct run_k].
    - by destruct (new_tqubit t (Some l) name (w_st w)) as [s1 [q|e]].
    - by destruct (new_decoder rep l (w_st w)) as [s1 [q|e]]. }
  by destruct (settled_fs rx l _ cs _ S1) as [_ ?].
Qed.
Print Assumptions C79_shape_fixed.

(** So every later qubit has this shape, whatever its class, and is refused exactly if it is a
    repetition qubit whose flag does not fit the shape. *)
Theorem C79_qubits rx w l p z m cs t name : heap_fresh (w_st w) -> s_heap (w_st w) !! l = Some p -> d_of p = Some (DNum z) -> (m = MDecoder false -> T_of p <> None) ->
  0 < z -> Z.odd z = true ->
  let hw := shape m (default false (pfp_of p)) z in
  let s := w_st (run_fs rx (run_k rx w (construct m l)).1 cs) in
  fresh_lattice s name ->
  exists p', s_heap s !! l = Some p' /\
  match new_tqubit t (Some l) name s with
  | (s', Ok q) => lat_ok s' q hw.1 hw.2 /\ (t = TRepetition -> one_line (default false (pfp_of p')) hw)
  | (_, Err e) => e = LatticeError /\ t = TRepetition /\ ~ one_line (default false (pfp_of p')) hw
  end.
Proof.
  intros Hf Hp Hd HT Hz Ho hw s Hfr. destruct (C79_shape_fixed rx w l p z m cs Hf Hp Hd HT) as (p' & Hp' & Hd'). cbv zeta in *. fold hw s in Hp', Hd'. exists p'. split; [done|].
  assert (Hv : valid_size hw.1 hw.2).
  { unfold hw, shape. destruct (repetition m); [destruct (default false (pfp_of p))|]; cbn; unfold valid_size; repeat split; done || lia. }
  destruct (decide (t = TRepetition /\ (if default false (pfp_of p') then hw.1 else hw.2) <> 1)) as [[-> Hne]|Hok].
  - pose proof (C41_rejected l name s p' _ Hp' Hd') as HR.
    destruct (new_tqubit TRepetition (Some l) name s) as [s' r]. cbn [snd] in HR. rewrite HR; [done|]. right. exists hw.1, hw.2, []. split; [done|]. by destruct (default false (pfp_of p')).
  - destruct (new_tqubit_ok t l name s p' hw.1 hw.2 Hp') as (s' & l' & -> & HB); [|done|done|].
    + unfold asked. rewrite Hd'. destruct t; [|done..]. rewrite bool_decide_eq_true_2; [done|]. destruct (decide ((if default false (pfp_of p') then hw.1 else hw.2) = 1)); [done|]. exfalso. tauto.
    + split; [by apply HB|]. intros ->. unfold one_line. destruct (decide ((if default false (pfp_of p') then hw.1 else hw.2) = 1)); [done|]. exfalso. tauto.
Qed.
Print Assumptions C79_qubits.

(** Likewise for decoders, whatever T has become. *)
Theorem C79_decoders rx w l p z m cs rep : heap_fresh (w_st w) -> s_heap (w_st w) !! l = Some p -> d_of p = Some (DNum z) -> (m = MDecoder false -> T_of p <> None) ->
  let hw := shape m (default false (pfp_of p)) z in
  let s := w_st (run_fs rx (run_k rx w (construct m l)).1 cs) in
  exists p', s_heap s !! l = Some p' /\
  match new_decoder rep l s with
  | (_, Ok o) => dec_h (do_dec o) = hw.1 /\ dec_w (do_dec o) = hw.2 /\ (rep = true -> one_line (default false (pfp_of p')) hw)
  | (_, Err e) => rep = true -> ~ one_line (default false (pfp_of p')) hw -> e = LatticeError
  end.
Proof.
  intros Hf Hp Hd HT hw s. destruct (C79_shape_fixed rx w l p z m cs Hf Hp Hd HT) as (p' & Hp' & Hd'). cbv zeta in *. fold hw s in Hp', Hd'. exists p'. split; [done|].
  pose proof (C54_construct rep l p' s Hp') as HC. 
  assert (HD : match pure_decoder rep p' with
    | Ok D => dec_h D = hw.1 /\ dec_w D = hw.2 /\ (rep = true -> one_line (default false (pfp_of p')) hw)
    | Err e => rep = true -> ~ one_line (default false (pfp_of p')) hw -> e = LatticeError end).
  { unfold pure_decoder. destruct rep.
    - unfold repetition_decoder. cbv zeta. rewrite Hd'. set (b := default false (pfp_of p')). cbn [rep_d]. rewrite py_index_0, py_index_1. unfold one_line.
      destruct (decide ((if b then hw.1 else hw.2) = 1)) as [E|E].
      + assert (ER : (if b then (h ← Ok hw.1; if bool_decide (h <> 1) then Err LatticeError else Ok [hw.1; hw.2]) else (w0 ← Ok hw.2; if bool_decide (w0 <> 1) then Err LatticeError else Ok [hw.1; hw.2])) = Ok [hw.1; hw.2]).
        { destruct b; cbn; rewrite bool_decide_eq_false_2 by tauto; done. }
        rewrite ER. destruct (decoder_d _ _) as [[[dh dw] T]|e] eqn:Edd; [|intros _ Hn; by destruct Hn].
        destruct (decoder_d_shape _ _ _ _ _ Edd) as [Ed|(? & Ed & _)]; [|done]. injection Ed as <- <-.
        destruct (make_syndrome_graph _ _ _ _) as [g|e]; [|intros _ Hn; by destruct Hn]. destruct b; done.
      + assert (ER : (if b then (h ← Ok hw.1; if bool_decide (h <> 1) then Err LatticeError else Ok [hw.1; hw.2]) else (w0 ← Ok hw.2; if bool_decide (w0 <> 1) then Err LatticeError else Ok [hw.1; hw.2])) = Err LatticeError).
        { destruct b; cbn; rewrite bool_decide_eq_true_2 by done; done. }
        rewrite ER. done.
    - unfold rotated_decoder. rewrite Hd'. destruct (decoder_d _ _) as [[[dh dw] T]|e] eqn:Edd; [|done].
      destruct (decoder_d_shape _ _ _ _ _ Edd) as [Ed|(? & Ed & _)]; [|done]. injection Ed as <- <-.
      destruct (make_syndrome_graph true _ _ _) as [g|e]; [|done]. destruct (make_syndrome_graph false _ _ _) as [g'|e]; [|done]. done. }
  destruct (pure_decoder rep p') as [D|e].
  - destruct HC as (s' & o & -> & -> & _). done.
  - destruct HC as (s' & ->). done.
Qed.
Print Assumptions C79_decoders.

(** What a user meets: storing the other flag in a dictionary that has been used for a repetition
    code, or using one of a surface code for it, makes both constructors raise LatticeError. *)
Corollary C79_flag rx w l p z m cs b : heap_fresh (w_st w) -> s_heap (w_st w) !! l = Some p -> d_of p = Some (DNum z) -> (m = MDecoder false -> T_of p <> None) ->
  z <> 1 -> (repetition m = true -> b = negb (default false (pfp_of p))) ->
  let s := w_st (run_fs rx (run_k rx w (construct m l)).1 (cs ++ [inr (l, b)])) in
  (forall name, (new_tqubit TRepetition (Some l) name s).2 = Err LatticeError) /\ (new_decoder true l s).2 = Err LatticeError.
Proof.
  intros Hf Hp Hd HT Hz Hb s. pose proof (C79_shape_fixed rx w l p z m (cs ++ [inr (l, b)]) Hf Hp Hd HT) as (p' & Hp' & Hd'). cbv zeta in *. fold s in Hp'.
  set (hw := shape m (default false (pfp_of p)) z) in *.
  assert (Hflag : pfp_of p' = Some b).
  { unfold s, run_fs in Hp'. rewrite foldl_app in Hp'. cbn [foldl run_f w_st] in Hp'.
    set (w1 := foldl (run_f rx) _ cs) in Hp'. destruct (C79_shape_fixed rx w l p z m cs Hf Hp Hd HT) as (p1 & Hp1 & _). unfold run_fs in Hp1. fold w1 in Hp1.
    unfold mbind', get_params in Hp'. rewrite Hp1 in Hp'. cbn in Hp'. rewrite lookup_insert in Hp'. by injection Hp' as <-. }
  assert (Hno : (if b then hw.1 else hw.2) <> 1).
  { unfold hw, shape. destruct (repetition m); [|by destruct b]. rewrite Hb by done. destruct (default false (pfp_of p)); done. }
  split.
  - intros name. apply (C41_rejected l name s p' _ Hp' Hd'). right. exists hw.1, hw.2, []. split; [done|]. rewrite Hflag. cbn. by destruct b.
  - destruct (C79_decoders rx w l p z m (cs ++ [inr (l, b)]) true Hf Hp Hd HT) as (p2 & Hp2 & H). cbv zeta in *. fold s in Hp2, H. fold hw in H. assert (p2 = p') as -> by congruence.
    rewrite Hflag in H. cbn [default from_option id] in H. destruct (new_decoder true l s) as [s' [o|e]]; cbn [snd].
    + destruct H as (_ & _ & H). by specialize (H eq_refl).
    + f_equal. by apply H.
Qed.
Print Assumptions C79_flag.

(** ** TestRepExceptions, for all wrong values *)
(** If the value of d is wrong for a repetition code, then every attempt to construct a qubit or a
    decoder from the dictionary raises LatticeError, however many were made before. *)
Definition wrong_d (flag : bool) (d : dval) : Prop :=
  match d with DOther => True | DTup (h :: w :: _) => (if flag then h else w) <> 1 | _ => False end.
Definition attempt (m : maker) (l : nat) (s : st) : st * res unit :=
  match m with
  | MQubit _ name => match new_tqubit TRepetition (Some l) name s with (s, Ok _) => (s, Ok tt) | (s, Err e) => (s, Err e) end
  | MDecoder _ => match new_decoder true l s with (s, Ok _) => (s, Ok tt) | (s, Err e) => (s, Err e) end
  end.
Fixpoint attempts (ms : list maker) (l : nat) (s : st) : st * list (res unit) :=
  match ms with [] => (s, []) | m :: ms => let r := attempt m l s in let rest := attempts ms l r.1 in (rest.1, r.2 :: rest.2) end.
Lemma wrong_rep_d b d : wrong_d b d -> rep_d b (Some d) = Err LatticeError.
Proof.
  destruct d as [z|[|h [|w r]]|]; try done. cbn [wrong_d rep_d]. rewrite py_index_0, py_index_1. intros H. destruct b; cbn; by rewrite bool_decide_eq_true_2.
Qed.
Lemma attempt_wrong m l s p d : s_heap s !! l = Some p -> d_of p = Some d -> wrong_d (default false (pfp_of p)) d ->
  attempt m l s = (set_heap s (<[l := set_pfp p (default false (pfp_of p))]> (s_heap s)), Err LatticeError).
Proof.
  intros Hp Hd Hw. pose proof (wrong_rep_d _ _ Hw) as HR. assert (He : params_empty p = false) by (by eapply d_not_empty). destruct m as [t name|rep]; cbn [attempt].
  - rewrite (new_rep_unfold l name s p Hp He), Hd, HR. done.
  - assert (E0 : or_new (Some l) s = (s, Ok l)) by (cbn; unfold mbind', get_params; by rewrite Hp, He).
    unfold new_decoder. unfold mbind' at 1. rewrite E0. unfold mbind' at 1. rewrite (rep_validate_eq l s p Hp), Hd, HR. done.
Qed.
Theorem C79_exceptions l ms : forall s p d, s_heap s !! l = Some p -> d_of p = Some d -> wrong_d (default false (pfp_of p)) d ->
  Forall (fun r => r = Err LatticeError) (attempts ms l s).2 /\
  (exists p', s_heap (attempts ms l s).1 !! l = Some p' /\ d_of p' = Some d /\ T_of p' = T_of p /\ default false (pfp_of p') = default false (pfp_of p)) /\
  (forall l', l' <> l -> s_heap (attempts ms l s).1 !! l' = s_heap s !! l') /\
  s_regs (attempts ms l s).1 = s_regs s /\ s_instrs (attempts ms l s).1 = s_instrs s.
Proof.
  induction ms as [|m ms IHl]; intros s p d Hp Hd Hw; [cbn; split; [constructor|]; split; [by exists p|]; done|].
  cbn [attempts]. rewrite (attempt_wrong m l s p d Hp Hd Hw). cbn [fst snd]. set (s1 := set_heap s _). set (p1 := set_pfp p _) in *.
  assert (H1 : s_heap s1 !! l = Some p1) by (cbn; apply lookup_insert).
  destruct (IHl s1 p1 d H1 Hd Hw) as (F & (p' & A1 & A2 & A3 & A4) & B & C & D). split; [by constructor|]. split; [exists p'; done|].
  split; [intros l' Hl'; rewrite B by done; cbn; by rewrite lookup_insert_ne|]. done.
Qed.
Print Assumptions C79_exceptions.

(** ** Examples *)
Definition dict3 : params := Circ.Params (Some (DNum 3)) (Some 1) None None None None None.
Definition w3 : world := World (heap1 dict3) [] [].
(** {"d": 3, "T": 1} used for a RepetitionQubit; then the flag is set. *)
Example C79_ex_flag rx : let s := w_st (run_fs rx (run_k rx w3 (KNew TRepetition 0 "tq")).1 [inr (0%nat, true)]) in
  (new_decoder true 0 s).2 = Err LatticeError /\ (new_tqubit TRepetition (Some 0%nat) "other" s).2 = Err LatticeError.
Proof.
  destruct (C79_flag rx w3 0 dict3 3 (MQubit TRepetition "tq") [] true) as [H1 H2]; try done. apply heap1_fresh.
Qed.
(** Without the first qubit the same dictionary with the flag set is accepted. *)
Example C79_ex_unused : exists s q, new_tqubit TRepetition (Some 0%nat) "tq" (heap1 (set_pfp dict3 true)) = (s, Ok q) /\ lat_ok s q 1 3.
Proof.
  destruct (C41_number 0 "tq" (heap1 (set_pfp dict3 true)) (set_pfp dict3 true) 3) as (s' & q & E & H); try done; [intros suf _; apply not_elem_of_nil|]. by exists s', q.
Qed.
(** d = "3,1" of the tests. *)
Example C79_ex_wrong : wrong_d false DOther /\ wrong_d false (DTup [3; 2]) /\ wrong_d true (DTup [2; 3]) /\ ~ wrong_d false (DTup [3; 1]).
Proof. cbn. naive_solver lia. Qed.
