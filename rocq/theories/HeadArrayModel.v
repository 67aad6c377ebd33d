(** Model of HeadMethod.tau_w and HeadMethod.v_e (ibl/head_method.py) on scalar and array
    positions, with numpy's in-place item assignment: the position array is returned in the
    state the call leaves it in. *)
From Coq Require Import Reals List Bool.
From Verif Require Import PyBase SkinFrictionModel HeadModel CoreModel.
Import ListNotations.
Open Scope R_scope.

(** A position argument: a Python or numpy scalar, or a one-dimensional float array. *)
Inductive loc :=
| LScalar (x : R)
| LArray (l : list R).
Definition positions (x : loc) : list R := match x with LScalar t => [t] | LArray l => l end.

(** What the velocity callable returns for a position: a float (also np.float64), an int, a
    new float array (one element standing for a 0-d array), or the very object it was
    given, as [lambda x: x] does. *)
Inductive uval :=
| UFloat (v : R)
| UInt (v : R)
| UArr (l : list R)
| UArg.

(** [u_e[np.abs(u_e) < 0.001] = 0.001] on one element. *)
Definition floor_u (u : R) : R := if Rltb (Rabs u) (1/1000) then 1/1000 else u.

Fixpoint map_res {A B} (f : A -> res B) (l : list A) : res (list B) :=
  match l with
  | [] => Ok []
  | a :: l' => bind (f a) (fun b => bind (map_res f l') (fun r => Ok (b :: r)))
  end.

(** ibl/head_method.py:221-226 for one element, [u] being the floored velocity. *)
Definition tau_elem (nu : xr) (rho : R) (y : list xr) (u : R) : res xr :=
  bind (comp 0 y) (fun d => bind (comp 1 y) (fun h =>
  let re := (Fin u * d / nu)%xr in
  Ok (Fin (5/10) * Fin rho * (Fin u * Fin u) * ludwieg_tillman re h)%xr)).

(** ibl/head_method.py:201-226 [tau_w].  [u_call] is what [self._u_e] does.  Item assignment
    on a float or int raises TypeError.  Simplification: an array whose length is not that
    of the positions raises ValueError (numpy also broadcasts length 1).  The dense output
    raises ValueError for an empty array of positions (see ThwaitesArrayModel.v). *)
Definition head_tau_w (m : meth) (u_call : loc -> uval) (x : loc) (rho : R)
  : loc * res (list xr) :=
  match m_sol m, positions x with
  | None, _ | _, [] => (x, Err ValueError)
  | Some s, _ =>
      match m_u m with
      | None => (x, Err ValueError)
      | Some _ =>
          let xs := positions x in
          let value us := map_res (fun p => tau_elem (m_nu m) rho (s (fst p)) (floor_u (snd p)))
                                  (combine xs us) in
          match u_call x with
          | UFloat _ | UInt _ => (x, Err TypeError)
          | UArr us => if Nat.eqb (List.length us) (List.length xs) then (x, value us)
                       else (x, Err ValueError)
          | UArg => match x with
                    | LScalar _ => (x, Err TypeError)
                    | LArray l => (LArray (map floor_u l), value l)
                    end
          end
      end
  end.

(** ibl/head_method.py:102-107 for one element: the right-hand side was computed at [yp], the
    remaining factors are looked up at the position as it is by then. *)
Definition ve_elem (u du : R) (y : list xr) (yp : xr * xr) : res xr :=
  bind (comp 0 y) (fun d => bind (comp 1 y) (fun h =>
  Ok (Fin du * h * d + Fin u * snd yp * d + Fin u * h * fst yp)%xr)).

Definition rhs_elem (nu : xr) (u : velval) (du : R) (y : list xr) : res (xr * xr) :=
  match y with
  | [d; h] => head_rhs nu u (VFloat (Fin du)) d h
  | _ => Err IndexError
  end.

(** ibl/head_method.py:85-107 [v_e], with [_ode_impl] (262-300) called on arrays.  [du] is the
    velocity gradient (simplification: it never returns its argument). *)
Definition head_v_e_at (m : meth) (u_call : loc -> uval) (du : R -> R) (x : loc)
  : loc * res (list xr) :=
  match m_sol m, positions x with
  | None, _ | _, [] => (x, Err ValueError)
  | Some s, _ =>
      match m_u m, m_du m with
      | Some _, Some _ =>
          let xs := positions x in
          match u_call x with
          | UInt _ => (x, Err TypeError)
          | UFloat v =>
              (x, map_res (fun t => bind (rhs_elem (m_nu m) (VFloat (Fin v)) (du t) (s t))
                                         (fun yp => ve_elem v (du t) (s t) yp)) xs)
          | UArr us =>
              if Nat.eqb (List.length us) (List.length xs) then
                (x, map_res (fun p : R * R => let (t, u) := p in
                       bind (rhs_elem (m_nu m) (VArray (Fin u)) (du t) (s t))
                            (fun yp => ve_elem u (du t) (s t) yp)) (combine xs us))
              else (x, Err ValueError)
          | UArg =>
              match x with
              | LScalar t =>
                  (x, bind (rhs_elem (m_nu m) (VFloat (Fin t)) (du t) (s t))
                           (fun yp => bind (ve_elem t (du t) (s t) yp) (fun v => Ok [v])))
              | LArray l =>
                  (* the positions are floored before the gradient and the rest are read *)
                  (LArray (map floor_u l),
                   map_res (fun t => let t' := floor_u t in
                      bind (rhs_elem (m_nu m) (VArray (Fin t)) (du t') (s t))
                           (fun yp => ve_elem t' (du t') (s t') yp)) l)
              end
          end
      | _, _ => (x, Err ValueError)
      end
  end.
