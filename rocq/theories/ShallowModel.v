(** Shallow copies of method objects ([copy.copy] of the standard library applied to a
    ThwaitesMethod or a HeadMethod).

    [copy.copy] makes a new object with the same attributes: the copy refers to the same
    condition object ([_ic]), the same list of events ([_kill_events]), the same functions and the
    same fit as the original.  The code changes conditions and event lists in place:
    [initial_delta_m] and [initial_shape_d] assign to an attribute of the condition
    (ibl/thwaites_method.py:75-79, ibl/head_method.py:47-51, 61-65), [solve] to two attributes
    (ibl/ibl_method.py:541-542), and [solve] extends the list (559-564).  It replaces them in
    [set_initial_condition] (372-381) and [_set_kill_event] (685-698).  The separation event of
    Thwaites' method holds a bound method of the object it was made for
    (ibl/thwaites_method.py:161-162).

    CopyModel has the functions of [set_velocity] and [set_data_fits] that read the object they were
    made for.  Here, in addition, conditions and event lists live in a store of their own, and each
    event stands beside the object it was made for.

    Simplifications: a condition passed to [set_initial_condition] is in no other use; those of
    CoreModel. *)
From Coq Require Import Reals List String Bool ZArith.
From Verif Require Import PyBase FiniteDiffModel PPolyModel InitialConditionModel
  ThwaitesFitsModel HeadModel CoreModel CoreSpec CopyModel.
Import ListNotations.
Open Scope R_scope.

(** An object: its attributes (those of [s_meth] except condition and events), where its
    condition and its list of events are, and the objects its functions read (CopyModel). *)
Record sobj := {
  s_meth : meth;
  s_ic : nat;
  s_ev : nat;
  s_du_self : nat;
  s_d2u_self : nat;
  s_fit_self : nat }.

(** The objects, conditions and lists of events of a program, and how many there are. *)
Record store := {
  st_obj : nat -> sobj; st_next : nat;
  st_ics : nat -> ic; st_nic : nat;
  st_evs : nat -> list (event * nat); st_nev : nat }.

Definition upd {A} (f : nat -> A) (i : nat) (x : A) : nat -> A :=
  fun j => if Nat.eqb j i then x else f j.

(** The attributes of object [i], what its references lead to in their places. *)
Definition attributes (w : store) (i : nat) : meth :=
  let x := st_obj w i in
  set_events (set_ic (s_meth x) (st_ics w (s_ic x))) (map fst (st_evs w (s_ev x))).

(** The store in the terms of CopyModel, and object [i] as its methods see it. *)
Definition as_heap (w : store) : heap :=
  {| h_obj := fun i =>
       {| o_meth := attributes w i; o_du_self := s_du_self (st_obj w i);
          o_d2u_self := s_d2u_self (st_obj w i); o_fit_self := s_fit_self (st_obj w i) |};
     h_next := st_next w |}.
Definition seen (w : store) (i : nat) : meth := as_seen (as_heap w) i.

(* ------------------------------------------------------------------ *)
(** * Changes of the store *)

Definition put_obj (w : store) (i : nat) (x : sobj) : store :=
  {| st_obj := upd (st_obj w) i x; st_next := st_next w; st_ics := st_ics w; st_nic := st_nic w;
     st_evs := st_evs w; st_nev := st_nev w |}.
(** A change of the condition object [i] refers to (ibl/initial_condition.py:39-57 and the
    attributes of ManualCondition). *)
Definition put_ic (w : store) (i : nat) (c : ic) : store :=
  {| st_obj := st_obj w; st_next := st_next w;
     st_ics := upd (st_ics w) (s_ic (st_obj w i)) c; st_nic := st_nic w;
     st_evs := st_evs w; st_nev := st_nev w |}.
(** [kill_events += l] on the list object [i] refers to (ibl/ibl_method.py:559-564). *)
Definition extend_events (w : store) (i : nat) (l : list event) : store :=
  {| st_obj := st_obj w; st_next := st_next w; st_ics := st_ics w; st_nic := st_nic w;
     st_evs := upd (st_evs w) (s_ev (st_obj w i))
                   (st_evs w (s_ev (st_obj w i)) ++ map (fun e => (e, i)) l);
     st_nev := st_nev w |}.
Definition put_meth (x : sobj) (m : meth) : sobj :=
  {| s_meth := m; s_ic := s_ic x; s_ev := s_ev x; s_du_self := s_du_self x;
     s_d2u_self := s_d2u_self x; s_fit_self := s_fit_self x |}.
(** Object [i] gets another condition object (ibl/ibl_method.py:372-381). *)
Definition new_ic (w : store) (i : nat) (c : ic) : store :=
  let x := st_obj w i in
  {| st_obj := upd (st_obj w) i
       {| s_meth := s_meth x; s_ic := st_nic w; s_ev := s_ev x; s_du_self := s_du_self x;
          s_d2u_self := s_d2u_self x; s_fit_self := s_fit_self x |};
     st_next := st_next w; st_ics := upd (st_ics w) (st_nic w) c; st_nic := S (st_nic w);
     st_evs := st_evs w; st_nev := st_nev w |}.
(** Object [i] gets another list of events, made for itself (ibl/ibl_method.py:685-698). *)
Definition new_events (w : store) (i : nat) (l : list event) : store :=
  let x := st_obj w i in
  {| st_obj := upd (st_obj w) i
       {| s_meth := s_meth x; s_ic := s_ic x; s_ev := st_nev w; s_du_self := s_du_self x;
          s_d2u_self := s_d2u_self x; s_fit_self := s_fit_self x |};
     st_next := st_next w; st_ics := st_ics w; st_nic := st_nic w;
     st_evs := upd (st_evs w) (st_nev w) (map (fun e => (e, i)) l); st_nev := S (st_nev w) |}.

Section Programs.
Variable pchip : ndarray -> ndarray -> res ppoly.
Variable cubic_spline : list R -> list R -> (xr -> xr) * (xr -> xr).
Variable solve_ivp :
  (R -> list xr -> res (list xr)) -> R -> R -> list xr ->
  list (bool * (R -> list xr -> res xr)) -> res ivp_result.

(** The functions of the events of object [i] (ibl/ibl_method.py:181-197): each is called as a
    method of the object it was made for. *)
Definition event_functions (w : store) (i : nat) : list (bool * (R -> list xr -> res xr)) :=
  map (fun b => (ev_terminal (fst b), event_value (seen w (snd b)) (fst b)))
      (st_evs w (s_ev (st_obj w i))).

(** ibl/ibl_method.py:515-599 [solve], as CoreModel's [solve], step by step on the store. *)
Definition solve_on (w : store) (i : nat) (x0 x_end : R) (term_event : list event)
  : store * res int_result :=
  match ic_set_nu (m_ic (seen w i)) (m_nu (seen w i)) with
  | (c, Err e) => (put_ic w i c, Err e)
  | (c, Ok _) =>
      let w1 := put_ic w i c in
      match q_du_e (seen w1 i) x0 with
      | Err e => (w1, Err e)
      | Ok du =>
          let w2 := put_ic w1 i (ic_set_du (m_ic (seen w1 i)) (Fin du)) in
          match ode_setup (seen w2 i) with
          | Err e => (w2, Err e)
          | Ok y0 =>
              let w3 := extend_events w2 i term_event in
              match solve_ivp (ode_impl (seen w3 i)) x0 x_end y0 (event_functions w3 i) with
              | Err e => (w3, Err e)
              | Ok r =>
                  let w4 := put_obj w3 i (put_meth (st_obj w3 i)
                    (set_sol (s_meth (st_obj w3 i)) (if r_success r then Some (r_sol r) else None))) in
                  (w4, gather x0 y0 (m_events (seen w4 i)) r)
              end
          end
      end
  end.

(** A call on object [i] (compare CopyModel's [call_on]). *)
Definition scall (w : store) (i : nat) (o : op) : store * res (option int_result) :=
  let x := st_obj w i in
  let p := step pchip cubic_spline solve_ivp (attributes w i) o in
  match o with
  | OpSolve x0 x_end l =>
      let q := solve_on w i x0 x_end l in
      (fst q, match snd q with Ok r => Ok (Some r) | Err e => Err e end)
  | OpNu _ => (put_obj w i (put_meth x (fst p)), snd p)
  | OpVelocity _ _ _ =>
      (put_obj w i {| s_meth := fst p; s_ic := s_ic x; s_ev := s_ev x;
                      s_du_self := if accepted (snd p) then i else s_du_self x;
                      s_d2u_self := if accepted (snd p) then i else s_d2u_self x;
                      s_fit_self := s_fit_self x |}, snd p)
  | OpCondition c => (new_ic w i c, Ok None)
  | OpInitialDeltaM _ | OpInitialShapeD _ => (put_ic w i (m_ic (fst p)), snd p)
  | OpFits _ =>
      if accepted (snd p) then
        (new_events (put_obj w i {| s_meth := fst p; s_ic := s_ic x; s_ev := s_ev x;
                                    s_du_self := s_du_self x; s_d2u_self := s_d2u_self x;
                                    s_fit_self := i |}) i (m_events (fst p)), snd p)
      else (w, snd p)
  | OpCritical _ =>
      if accepted (snd p) then (new_events w i (m_events (fst p)), snd p) else (w, snd p)
  end.

(** copy.copy: a new object with the references of object [i]. *)
Definition shallow_copy (w : store) (i : nat) : store :=
  {| st_obj := upd (st_obj w) (st_next w) (st_obj w i); st_next := S (st_next w);
     st_ics := st_ics w; st_nic := st_nic w; st_evs := st_evs w; st_nev := st_nev w |}.

(** Programs, as in CopyModel: [CCopy] is now copy.copy. *)
Definition sstep (w : store) (c : cop) : store * option (res (option int_result)) :=
  match c with
  | CCall i o =>
      if Nat.ltb i (st_next w) then let p := scall w i o in (fst p, Some (snd p)) else (w, None)
  | CCopy i => if Nat.ltb i (st_next w) then (shallow_copy w i, None) else (w, None)
  end.
Definition srun (w : store) (p : list cop) : store := fold_left (fun s c => fst (sstep s c)) p w.
Fixpoint soutcomes (k : nat) (w : store) (p : list cop)
  : list (op * res (option int_result)) :=
  match p with
  | [] => []
  | CCall i o :: p' =>
      match snd (sstep w (CCall i o)) with
      | Some r => if Nat.eqb i k then (o, r) :: soutcomes k (fst (sstep w (CCall i o))) p'
                  else soutcomes k (fst (sstep w (CCall i o))) p'
      | None => soutcomes k (fst (sstep w (CCall i o))) p'
      end
  | c :: p' => soutcomes k (fst (sstep w c)) p'
  end.

End Programs.
