(** What a TopologicalRegister holds, said without its nested dictionaries: a list of entries in
    the order in which they were made, and the sub-registers that were opened. *)
From Verif Require Export TReg.
From stdpp Require Export list.
Open Scope Z_scope.

Record logged := Logged { e_sub : string; e_type : qtype; e_dict : nat; e_obj : tqubit }.
Definition called (t : qtype) : string := match t with TRepetition => "Repetition" | TXXZZ => "XXZZ" | TXZZX => "XZZX" end.
Definition entry_at (log : list logged) (i : Z) : option logged := if bool_decide (0 <= i) then log !! Z.to_nat i else None.
(** The entries of one sub-register, each under its index in the whole register. *)
Definition members (x : string) (log : list logged) : list (Z * tqubit) :=
  omap (fun ie : nat * logged => if bool_decide (e_sub ie.2 = x) then Some (Z.of_nat ie.1, e_obj ie.2) else None) (imap pair log).

(** What the program sees of the register: its length, [treg.params], [treg[i]] for every
    integer, [treg[x]] for every string; looking changes nothing. *)
Record shows (name : string) (t : tst) (subs : list string) (log : list logged) : Prop := {
  sh_n : s_n (t_st t) = Z.of_nat (length log);
  sh_params : t_params t = e_dict <$> log;
  sh_int : forall i, treg_get i (t_st t) = (t_st t, match entry_at log i with Some e => Ok (e_obj e) | None => Err ValueError end);
  sh_str : forall x, treg_sub x (t_st t) = (t_st t, if bool_decide (x ∈ subs) then Ok (members x log) else Err KeyError);
  sh_obj : forall i e, log !! i = Some e ->
    tq_type (e_obj e) = e_type e /\ lat_name (tq_lat (e_obj e)) = (name +:+ "_" +:+ py_str (Z.of_nat i))%string /\ e_sub e ∈ subs }.

(** The entries a call asks for: sub-register, name of the type, dictionary.  [None]: the call
    is refused as a whole. *)
Definition known (c : string) : bool := bool_decide (c ∈ called <$> [TRepetition; TXXZZ; TXZZX]).
Definition who (log : list logged) (r : tref) : option tqubit :=
  match r with ByIdx i => e_obj <$> entry_at log i | ByObj q => Some q end.
Definition all_of (sub : string) (cs : list string) (ps : list nat) : option (list (string * string * nat)) :=
  if bool_decide (length cs = length ps) && forallb known cs then Some (zip_with (fun c p => (sub, c, p)) cs ps) else None.
Definition wanted (subs : list string) (log : list logged) (e : tev) : option (list (string * string * nat)) :=
  match e with
  | TAdd sub cs ps => all_of sub cs ps
  | TAdd1 sub c p => Some [(sub, c, p)]
  | TCx a b ty p =>
      match who log a, who log b, ty, p with
      | Some qa, Some _, None, None =>
          Some (if bool_decide ("ancilla"%string ∈ subs) then [] else [("ancilla"%string, called (tq_type qa), lat_params (tq_lat qa))])
      | Some _, Some _, Some c, Some l => Some (if bool_decide ("ancilla"%string ∈ subs) then [] else [("ancilla"%string, c, l)])
      | _, _, _, _ => None
      end
  | _ => Some []
  end.
Definition opens (subs : list string) (w : list (string * string * nat)) : list string :=
  match w with [] => subs | (sub, _, _) :: _ => if bool_decide (sub ∈ subs) then subs else subs ++ [sub] end.
(** An entry made for a request: its type is the one named, the list [params] gets the
    dictionary given; the qubit keeps that dictionary itself exactly if it was not empty. *)
Definition made (s : st) (w : string * string * nat) (e : logged) : Prop :=
  e_sub e = w.1.1 /\ called (e_type e) = w.1.2 /\ e_dict e = w.2 /\
  forall p, s_heap s !! w.2 = Some p -> (lat_params (tq_lat (e_obj e)) = w.2 <-> p <> empty_params).
Definition only_adds (e : tev) : Prop := match e with TAdd _ _ _ | TAdd1 _ _ _ => True | _ => False end.
(** One call: refused without any change; or a prefix of the requests is carried out, all of
    them if the call returns, and (for the adding calls) not all of them if it raises. *)
Definition carried_out (adding : Prop) (subs : list string) (w : option (list (string * string * nat))) (t : tst) (r : tst * res unit)
    (subs' : list string) (added : list logged) : Prop :=
  match w with
  | None => r = (t, Err ValueError) /\ subs' = subs /\ added = []
  | Some w => subs' = opens subs w /\ (exists k, Forall2 (made (t_st t)) (take k w) added) /\
      (r.2 = Ok tt -> length added = length w) /\ (adding -> r.2 <> Ok tt -> (length added < length w)%nat)
  end.
(** A whole program: what is shown before the first and after every call. *)
Fixpoint lives (name : string) (l : list tev) (t : tst) (subs : list string) (log : list logged) : Prop :=
  shows name t subs log /\
  match l with
  | [] => True
  | e :: l' => exists subs' added, carried_out (only_adds e) subs (wanted subs log e) t (run_tev e t) subs' added /\
      lives name l' (run_tev e t).1 subs' (log ++ added)
  end.
