(** Register names, construction of qubits in one statement, and register look-up. *)
From Coq Require Import Ascii.
From Verif Require Export Hist.
From stdpp Require Export list.
Open Scope Z_scope.

(** ** Decimal representations contain no underscore *)
Fixpoint no_us (s : string) : Prop :=
  match s with EmptyString => True | String c s' => c <> "_"%char /\ no_us s' end.
Lemma no_us_go x s : no_us s -> no_us (pretty_N_go x s).
Proof.
  revert s. induction (N.lt_wf_0 x) as [x _ IH]; intros s Hs.
  assert (x = 0 \/ 0 < x)%N as [->|Hx] by lia; [by rewrite pretty_N_go_0|].
  rewrite pretty_N_go_step by done. apply IH; [by apply N.div_lt|]. cbn. split; [|done].
  unfold pretty_N_char. by repeat case_match.
Qed.
Lemma no_us_py_str n : 0 <= n -> no_us (py_str n).
Proof.
  intros Hn. unfold py_str. destruct n as [|p|p]; [cbn; done| |lia].
  change (no_us (pretty (N.pos p))). unfold pretty, pretty_N. case_decide; [cbn; done|]. by apply no_us_go.
Qed.
Lemma us_split (a b x y : string) : no_us a -> no_us b ->
  (a +:+ "_" +:+ x)%string = (b +:+ "_" +:+ y)%string -> a = b /\ x = y.
Proof.
  revert b. induction a as [|c a IH]; intros [|c' b] Ha Hb; cbn in *; intros [=]; subst; try tauto.
  destruct (IH b) as [-> ->]; tauto.
Qed.
Lemma py_str_inj a b : py_str a = py_str b -> a = b.
Proof. apply pretty_Z_inj. Qed.
Lemma str_app_assoc (a b c : string) : ((a +:+ b) +:+ c)%string = (a +:+ b +:+ c)%string.
Proof. induction a as [|ch a IH]; [done|]. change (String ch ((a +:+ b) +:+ c) = String ch (a +:+ b +:+ c)). by rewrite IH. Qed.

(** Name of the i-th qubit of a register. *)
Definition qname (tname : string) (i : Z) : string := (tname +:+ "_" +:+ py_str i)%string.
Lemma qname_sep t i j a b : 0 <= i -> 0 <= j -> (qname t i +:+ "_" +:+ a)%string = (qname t j +:+ "_" +:+ b)%string -> i = j /\ a = b.
Proof.
  intros Hi Hj. unfold qname. rewrite !str_app_assoc. intros H%append_inj_l. apply (append_inj_l "_") in H.
  apply us_split in H as [H ->]; [|by apply no_us_py_str..]. split; [by apply py_str_inj|done].
Qed.

(** ** The size asked for by a dictionary *)
Definition asked (t : qtype) (p : params) : option (Z * Z) :=
  match t with
  | TRepetition =>
      let pfp := default false (pfp_of p) in
      match d_of p with
      | None => Some (if pfp then (1, 3) else (3, 1))
      | Some (DNum z) => Some (if pfp then (1, z) else (z, 1))
      | Some (DTup (h :: w :: _)) =>
          if bool_decide ((if pfp then h else w) = 1) then Some (h, w) else None
      | _ => None
      end
  | _ => dims (d_of p)
  end.
Lemma asked_rep p dh dw : asked TRepetition p = Some (dh, dw) ->
  exists dl, rep_d (default false (pfp_of p)) (d_of p) = Ok dl /\ py_index dl 0 = Ok dh /\ py_index dl 1 = Ok dw.
Proof.
  unfold asked. destruct (d_of p) as [[z|[|h [|w l]]|]|]; try done; destruct (default false (pfp_of p)); intros H.
  - injection H as <- <-. by exists [1; z].
  - injection H as <- <-. by exists [z; 1].
  - case_bool_decide as Hh; [|done]. injection H as <- <-. exists (h :: w :: l). cbn [rep_d].
    rewrite py_index_0, py_index_1. cbn. rewrite bool_decide_eq_false_2 by tauto. done.
  - case_bool_decide as Hh; [|done]. injection H as <- <-. exists (h :: w :: l). cbn [rep_d].
    rewrite py_index_0, py_index_1. cbn. rewrite bool_decide_eq_false_2 by tauto. done.
  - injection H as <- <-. by exists [1; 3].
  - injection H as <- <-. by exists [3; 1].
Qed.
Lemma asked_empty t p dh dw : params_empty p = true -> asked t p = Some (dh, dw) -> asked t empty_params = Some (dh, dw).
Proof. destruct p as [[] [] [] [] [] [] []]; try done. Qed.

Lemma index_dims (dl : list Z) dh dw : py_index dl 0 = Ok dh -> py_index dl 1 = Ok dw -> exists r, dl = dh :: dw :: r.
Proof.
  destruct dl as [|h [|w r]]; [done|done|]. rewrite py_index_0, py_index_1. intros [= <-] [= <-]. by exists r.
Qed.
Lemma asked_rep_again p dl dh dw dh' dw' : asked TRepetition p = Some (dh, dw) -> rep_d (default false (pfp_of p)) (d_of p) = Ok dl ->
  py_index dl 0 = Ok dh -> py_index dl 1 = Ok dw ->
  asked TRepetition (new_params_of (set_d (set_pfp p (default false (pfp_of p))) (Some (DTup dl))) dl dh' dw') = Some (dh, dw).
Proof.
  intros Ha Er H0 H1. destruct (index_dims _ _ _ H0 H1) as [r ->]. unfold asked in *. cbn.
  destruct (default false (pfp_of p)); (rewrite bool_decide_eq_true_2; [done|]).
  all: destruct (d_of p) as [[z|[|h [|w l]]|]|]; try done; try (case_bool_decide; [|done]); by injection Ha as <- <-.
Qed.

Record built (s s' : st) (t : qtype) (l : nat) (p : params) (name : string) (dh dw : Z) (l' : nat) : Prop := {
  b_ok : lat_ok s' (TQubit t (the_lattice (code_of t) name l' dh dw)) dh dw;
  b_cnt : has_cnt s' (TQubit t (the_lattice (code_of t) name l' dh dw)) (Cnt (-1) (-1) (-1));
  b_regs : s_regs s' = s_regs s ++ ((fun h => Reg true h.1 h.2) <$> lattice_regs name dh dw);
  b_instrs : s_instrs s' = s_instrs s;
  b_heap : forall x, x <> l' -> s_heap s' !! x = s_heap s !! x;
  b_loc : if params_empty p then l' = s_next s /\ s_next s' = S (s_next s) else l' = l /\ s_next s' = s_next s;
  b_asked : exists p', s_heap s' !! l' = Some p' /\ asked t p' = Some (dh, dw);
  b_else : s_tname s' = s_tname s /\ s_n s' = s_n s /\ s_tq s' = s_tq s /\ s_tqreg s' = s_tqreg s /\ s_tcreg s' = s_tcreg s }.

(** A dictionary asking for a valid size gives a qubit of that size. *)
Lemma new_tqubit_ok t l name s p dh dw : s_heap s !! l = Some p -> asked t p = Some (dh, dw) -> valid_size dh dw ->
  fresh_lattice s name ->
  exists s' l', new_tqubit t (Some l) name s = (s', Ok (TQubit t (the_lattice (code_of t) name l' dh dw))) /\ built s s' t l p name dh dw l'.
Proof.
  intros Hp Ha Hv Hf. unfold new_tqubit.
  assert (exists s1 l' p1, or_new (Some l) s = (s1, Ok l') /\ s_heap s1 !! l' = Some p1 /\ asked t p1 = Some (dh, dw) /\
    (forall x, x <> l' -> s_heap s1 !! x = s_heap s !! x) /\
    (if params_empty p then l' = s_next s /\ s_next s1 = S (s_next s) else l' = l /\ s_next s1 = s_next s) /\
    s_regs s1 = s_regs s /\ s_instrs s1 = s_instrs s /\
    s_tname s1 = s_tname s /\ s_n s1 = s_n s /\ s_tq s1 = s_tq s /\ s_tqreg s1 = s_tqreg s /\ s_tcreg s1 = s_tcreg s)
    as (s1 & l' & p1 & E1 & Hp1 & Ha1 & Hh1 & Hl1 & Hr1 & Hi1 & He1).
  { cbn [or_new]. destruct (params_empty p) eqn:Ee.
    - eexists _, (s_next s), empty_params. split.
      + erewrite mbind_ok by (by apply get_params_ok). rewrite Ee. reflexivity.
      + cbn. rewrite lookup_insert. split; [done|]. split; [by eapply asked_empty|]. split; [|done].
        intros x Hx. by rewrite lookup_insert_ne.
    - exists s, l, p. split; [|done]. by eapply or_new_keep. }
  erewrite mbind_ok by exact E1.
  assert (exists s2 p2 dl, (match t with TRepetition => rep_validate l' | _ => Circ.mret tt end) s1 = (s2, Ok tt) /\
    s2 = set_heap s1 (<[l' := p2]> (s_heap s1)) /\ norm_d (d_of p2) = Ok dl /\ py_index dl 0 = Ok dh /\ py_index dl 1 = Ok dw /\
    asked t (new_params_of p2 dl dh dw) = Some (dh, dw))
    as (s2 & p2 & dl & E2 & -> & Hn & H0 & H1 & HA).
  { destruct t.
    3: { destruct (dims_norm _ _ _ Ha1) as (dl & ? & Hd0 & Hd1). exists s1, p1, dl.
         split_and!; try done; [|destruct (index_dims _ _ _ Hd0 Hd1) as [? ->]; done]. unfold set_heap. rewrite insert_id by done. by destruct s1. }
    2: { destruct (dims_norm _ _ _ Ha1) as (dl & ? & Hd0 & Hd1). exists s1, p1, dl.
         split_and!; try done; [|destruct (index_dims _ _ _ Hd0 Hd1) as [? ->]; done]. unfold set_heap. rewrite insert_id by done. by destruct s1. }
    destruct (asked_rep _ _ _ Ha1) as (dl & Er & ? & ?). eexists _, (set_d (set_pfp p1 (default false (pfp_of p1))) (Some (DTup dl))), dl. split_and!.
    - unfold rep_validate. erewrite mbind_ok by (by apply get_params_ok). erewrite mbind_ok by done.
      erewrite mbind_ok by (by apply mlift_ok). reflexivity.
    - unfold set_heap. cbn. by rewrite insert_insert.
    - done.
    - done.
    - done.
    - by eapply asked_rep_again. }
  erewrite mbind_ok by exact E2.
  erewrite mbind_ok.
  2:{ eapply new_lattice_ok; [apply lookup_insert|exact Hn|exact H0|exact H1|exact Hv|]. intros suf Hsuf. unfold names. cbn. rewrite Hr1. by apply Hf. }
  eexists _, l'. split; [reflexivity|]. constructor; cbn.
  - by apply new_params_lat_ok.
  - eexists. cbn. rewrite lookup_insert. done.
  - by rewrite Hr1.
  - done.
  - intros x Hx. rewrite !lookup_insert_ne by done. by apply Hh1.
  - done.
  - eexists. rewrite lookup_insert. split; [reflexivity|exact HA].
  - done.
Qed.

(** ** Dictionaries and register look-up *)
Lemma dict_get_set {K A} `{EqDecision K} (k k' : K) (a : A) l : dict_get k' (dict_set k a l) = if bool_decide (k' = k) then Some a else dict_get k' l.
Proof.
  induction l as [|[k0 a0] l IH]; cbn; [by case_bool_decide|].
  destruct (bool_decide_reflect (k = k0)) as [->|Hk]; cbn.
  - case_bool_decide; done.
  - destruct (bool_decide_reflect (k' = k0)) as [->|Hk'].
    + rewrite bool_decide_eq_false_2 by congruence. done.
    + exact IH.
Qed.
Lemma lookup_new_sub tq sub i : dict_get sub tq = None -> treg_lookup (dict_set sub [] tq) i = treg_lookup tq i.
Proof.
  induction tq as [|[k l] tq IH]; cbn; [done|]. destruct (bool_decide_reflect (sub = k)); [done|]. intros H. cbn. by rewrite IH.
Qed.
Lemma lookup_add tq sub l (n i : Z) q : dict_get sub tq = Some l -> treg_lookup tq n = Err ValueError ->
  treg_lookup (dict_set sub (dict_set n q l) tq) i = if bool_decide (i = n) then Ok q else treg_lookup tq i.
Proof.
  induction tq as [|[k l'] tq IH]; cbn; [done|]. destruct (bool_decide_reflect (sub = k)) as [->|Hne]; cbn.
  - intros [= ->]. destruct (dict_get n l) eqn:E; [done|]. intros _. rewrite dict_get_set. by case_bool_decide.
  - intros Hd. destruct (dict_get n l') eqn:E; [done|]. intros Hn.
    destruct (bool_decide_reflect (i = n)) as [->|Hi]; [|].
    + rewrite E. by rewrite IH.
    + destruct (dict_get i l'); [done|]. by rewrite IH.
Qed.
