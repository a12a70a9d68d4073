(** Model of the look-up table decoder, qtcodes/fitters/base.py lines 114-218.  Floats are
    idealised as exact rational numbers. *)
From Coq Require Import QArith Qcanon.
From Verif Require Export Py.
From stdpp Require Export list.
Open Scope Z_scope.

(** The dictionaries of counts are the caller's objects: the decoder keeps a reference to them.
    [dict_heap] has the contents of all of them. *)
Notation counts_dict := (gmap string Z).
Notation dict_heap := (gmap nat counts_dict).
(** [self.look_up_table] (references) and [self.look_up_table_shots]. *)
Record lut := Lut { lut_table : gmap string (gmap Z (option nat)); lut_shots : gmap string (gmap Z Z) }.
(** base.py:114-136, [reset_look_up_table]; called by [__init__] (line 31).  [None] is a
    fresh empty dictionary, which nobody else holds. *)
Definition lut_reset : lut :=
  Lut {["X"%string := {[0 := None; 1 := None]}; "Z"%string := {[0 := None; 1 := None]}]}
      {["X"%string := {[0 := 0; 1 := 0]}; "Z"%string := {[0 := 0; 1 := 0]}]}.
(** The contents of a referenced dictionary. *)
Definition dict_of (h : dict_heap) (l : option nat) : counts_dict :=
  match l with None => ∅ | Some l => default ∅ (h !! l) end.
(** [sum(results.values())]. *)
Definition dict_total (m : counts_dict) : Z := map_fold (fun _ n t => n + t) 0 m.
(** base.py:138-157, [set_look_up_table]. *)
Definition lut_set (h : dict_heap) (t : lut) (ty : string) (v : Z) (l : nat) : lut * res unit :=
  match lut_table t !! ty with
  | None => (t, Err KeyError)
  | Some m =>
    let t1 := <[ty := <[v := Some l]> m]> (lut_table t) in
    match lut_shots t !! ty with
    | None => (Lut t1 (lut_shots t), Err KeyError)
    | Some s => (Lut t1 (<[ty := <[v := dict_total (dict_of h (Some l))]> s]> (lut_shots t)), Ok tt)
    end
  end.

(** ** Decoding *)
(** [d[k]]. *)
Definition getitem {K A} `{Countable K} (m : gmap K A) (k : K) : res A := match m !! k with Some x => Ok x | None => Err KeyError end.
(** Division of floats. *)
Definition py_div (a b : Qc) : res Qc := if decide (b = 0%Qc) then Err ZeroDivisionError else Ok (a / b)%Qc.
Definition qz (z : Z) : Qc := Q2Qc (inject_Z z).
(** base.py:184-189: p(s|log). *)
Definition p_given (h : dict_heap) (t : lut) (s ty : string) (log : Z) : res Qc :=
  match getitem (lut_table t) ty with
  | Err e => Err e
  | Ok m =>
    match getitem m log with
    | Err e => Err e
    | Ok l =>
      match dict_of h l !! s with
      | None => Ok 0%Qc
      | Some n =>
        match getitem (lut_shots t) ty with
        | Err e => Err e
        | Ok m => match getitem m log with Err e => Err e | Ok k => py_div (qz n) (qz k) end
        end
      end
    end
  end.
Definition one_half : Qc := (1 / (1 + 1))%Qc.
(** base.py:159-199, [_run_look_up].  [p_i] is an optional list. *)
Definition run_look_up (h : dict_heap) (t : lut) (s ty : string) (p_i : option (list Qc)) : res (Qc * Qc) :=
  match p_given h t s ty 0 with
  | Err e => Err e
  | Ok f0 =>
    match p_given h t s ty 1 with
    | Err e => Err e
    | Ok f1 =>
      let p_i := match p_i with None | Some [] => [one_half; one_half] | Some l => l end in
      match p_i !! 0%nat, p_i !! 1%nat with
      | Some q0, Some q1 =>
        let p_s := (f0 * q0 + f1 * q1)%Qc in
        match py_div (f0 * q0) p_s with
        | Err e => Err e
        | Ok a => match py_div (f1 * q1) p_s with Err e => Err e | Ok b => Ok (a, b) end
        end
      | _, _ => Err IndexError
      end
    end
  end.
(** base.py:201-218, [correct_readout_look_up_table]: the index of the (first) maximum. *)
Definition correct_look_up (h : dict_heap) (t : lut) (s ty : string) : res Z :=
  match run_look_up h t s ty None with
  | Err e => Err e
  | Ok (a, b) => Ok (if decide (b <= a)%Qc then 0 else 1)
  end.

(** ** What a program does with a decoder and its dictionaries *)
Inductive lop :=
  | LSet (ty : string) (v : Z) (l : nat) (* set_look_up_table(ty, v, results_l) *)
  | LReset                               (* reset_look_up_table() *)
  | LWrite (l : nat) (s : string) (n : Z) (* the caller's own results_l[s] = n *).
Definition lstep (o : lop) (st : dict_heap * lut) : dict_heap * lut :=
  match o with
  | LSet ty v l => (st.1, (lut_set st.1 st.2 ty v l).1)
  | LReset => (st.1, lut_reset)
  | LWrite l s n => (<[l := <[s := n]> (default ∅ (st.1 !! l))]> st.1, st.2)
  end.
Definition lrun (os : list lop) (st : dict_heap * lut) : dict_heap * lut := foldl (fun st o => lstep o st) st os.
