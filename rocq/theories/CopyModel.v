(** Deep copies of method objects ([copy.deepcopy] of the standard library applied to a
    ThwaitesMethod or a HeadMethod).

    [copy.deepcopy] copies the attributes of an object one by one.  Condition, events, fit
    object and solution are copied, and a bound method ([self._calc_lambda] and
    [self._model.shear] in the separation event, ibl/thwaites_method.py:161-162) becomes a
    bound method of the copy.  A plain function is not copied: the copy holds the same
    function object.  That matters for the functions that [set_velocity]
    (ibl/ibl_method.py:434-444, 459-464) and [set_data_fits] (ibl/thwaites_method.py:141-146)
    define inside themselves: they contain the variable [self] of the call that made them, so
    in a copy they keep on reading the attributes of the object that call was made on.

    CoreModel describes one object, whose functions read its own attributes.  Here objects
    live in a store, and beside each attribute that can hold such a function stands the
    object the function reads.

    Simplifications: deep copies of what the user supplies (callables, conditions, events)
    answer like the originals; those of CoreModel. *)
From Coq Require Import Reals List String Bool ZArith.
From Verif Require Import PyBase FiniteDiffModel PPolyModel InitialConditionModel
  ThwaitesFitsModel HeadModel CoreModel CoreSpec.
Import ListNotations.
Open Scope R_scope.

(** An object: its attributes, and the objects read by the function in [_du_e], by the
    function in [_d2u_e] (ibl/ibl_method.py:434-444, 459-464) and by the derivative function
    of [_model] (ibl/thwaites_method.py:141-146), for those that are such functions. *)
Record obj := {
  o_meth : meth;
  o_du_self : nat;
  o_d2u_self : nat;
  o_fit_self : nat }.

(** The objects of a program and how many there are. *)
Record heap := { h_obj : nat -> obj; h_next : nat }.

Definition put (w : heap) (i : nat) (x : obj) : heap :=
  {| h_obj := fun j => if Nat.eqb j i then x else h_obj w j; h_next := h_next w |}.

(* ------------------------------------------------------------------ *)
(** * What the functions of an object compute *)

(** ibl/ibl_method.py:435-437 and 440-442 [du_e_fun], [d2u_e_fun]: differences of the
    attribute [_u_e] of the object [self].  Calling a non-callable raises TypeError. *)
Definition diff1_u (u : option vfun) : vfun :=
  match call_plain u with Ok f => VF (fun x => fd_1f f x (1/10000)) KFloat | Err _ => VBad end.
Definition diff2_u (u : option vfun) : vfun :=
  match call_plain u with Ok f => VF (fun x => fd_2f f x (1/10000)) KFloat | Err _ => VBad end.

(** The function in [_du_e] of object [i] (ibl/ibl_method.py:435-437: [self._u_e] is looked
    up in the object the function was made for). *)
Definition du_of (w : heap) (i : nat) : option vfun :=
  let x := h_obj w i in
  match m_du (o_meth x) with
  | Some VFd1U => Some (diff1_u (m_u (o_meth (h_obj w (o_du_self x)))))
  | v => v
  end.

(** The function in [_d2u_e] of object [i] (440-442 and 460-462: [self._u_e] or
    [self._du_e], which may itself be a difference). *)
Definition d2u_of (w : heap) (i : nat) : option vfun :=
  let x := h_obj w i in
  match m_d2u (o_meth x) with
  | Some VFd2U => Some (diff2_u (m_u (o_meth (h_obj w (o_d2u_self x)))))
  | Some VFd1DU =>
      Some (match call_plain (du_of w (o_d2u_self x)) with
            | Ok f => VF (fun x => fd_1f f x (1/100000)) KFloat
            | Err _ => VBad
            end)
  | v => v
  end.

(** The fit of object [i] (ibl/thwaites_method.py:141-146: [self._model.shape]; a
    [_model] is never removed, the case None does not arise). *)
Definition fit_of (w : heap) (i : nat) : option fit :=
  let x := h_obj w i in
  match m_fit (o_meth x) with
  | Some f =>
      match fit_shape_p f with
      | SPFun _ => Some f
      | SPFd =>
          Some {| fit_name := fit_name f; fit_shear := fit_shear f; fit_shape := fit_shape f;
                  fit_shape_p := SPFun (match m_fit (o_meth (h_obj w (o_fit_self x))) with
                                        | Some g => shape_fd g
                                        | None => fun _ => NaN
                                        end);
                  fit_lo := fit_lo f; fit_hi := fit_hi f |}
      end
  | None => None
  end.

(** Object [i] as its methods see it: every query ([u_e], [du_e], [delta_m], [v_e], ...:
    CoreModel's [q_...]) and every solve of object [i] is computed from this. *)
Definition as_seen (w : heap) (i : nat) : meth :=
  set_fit (set_d2u (set_du (o_meth (h_obj w i)) (du_of w i)) (d2u_of w i)) (fit_of w i).

(* ------------------------------------------------------------------ *)
(** * Programs *)

Inductive cop :=
| CCall (i : nat) (o : op)          (* a call on object i *)
| CCopy (i : nat).                  (* copy.deepcopy(object i): a new object *)

Section Programs.
Variable pchip : ndarray -> ndarray -> res ppoly.
Variable cubic_spline : list R -> list R -> (xr -> xr) * (xr -> xr).
Variable solve_ivp :
  (R -> list xr -> res (list xr)) -> R -> R -> list xr ->
  list (bool * (R -> list xr -> res xr)) -> res ivp_result.

Definition accepted {A} (r : res A) : bool := match r with Ok _ => true | Err _ => false end.

(** A call on object [i].  [solve] (ibl/ibl_method.py:515-599) works with the functions as
    they are and writes the condition, the list of events and the solution.  The other calls
    do not call the functions.  An accepted [set_velocity] (383-513) stores new functions of
    object [i] itself, a rejected one none that reads an object; an accepted
    [set_data_fits] (ibl/thwaites_method.py:81-162) likewise. *)
Definition call_on (w : heap) (i : nat) (o : op) : heap * res (option int_result) :=
  let x := h_obj w i in
  match o with
  | OpSolve _ _ _ =>
      let p := step pchip cubic_spline solve_ivp (as_seen w i) o in
      (put w i {| o_meth := set_sol (set_events (set_ic (o_meth x) (m_ic (fst p)))
                                                (m_events (fst p))) (m_sol (fst p));
                  o_du_self := o_du_self x; o_d2u_self := o_d2u_self x;
                  o_fit_self := o_fit_self x |}, snd p)
  | OpVelocity _ _ _ =>
      let p := step pchip cubic_spline solve_ivp (o_meth x) o in
      (put w i {| o_meth := fst p;
                  o_du_self := if accepted (snd p) then i else o_du_self x;
                  o_d2u_self := if accepted (snd p) then i else o_d2u_self x;
                  o_fit_self := o_fit_self x |}, snd p)
  | OpFits _ =>
      let p := step pchip cubic_spline solve_ivp (o_meth x) o in
      (put w i {| o_meth := fst p; o_du_self := o_du_self x; o_d2u_self := o_d2u_self x;
                  o_fit_self := if accepted (snd p) then i else o_fit_self x |}, snd p)
  | _ =>
      let p := step pchip cubic_spline solve_ivp (o_meth x) o in
      (put w i {| o_meth := fst p; o_du_self := o_du_self x; o_d2u_self := o_d2u_self x;
                  o_fit_self := o_fit_self x |}, snd p)
  end.

(** copy.deepcopy (see above): the attributes of object [i]; the functions read the objects
    they read before. *)
Definition deep_copy (w : heap) (i : nat) : heap :=
  {| h_obj := h_obj (put w (h_next w) (h_obj w i)); h_next := S (h_next w) |}.

(** One step of a program.  A program has no name for an object that does not exist yet: such
    a step is left out. *)
Definition cstep (w : heap) (c : cop) : heap * option (res (option int_result)) :=
  match c with
  | CCall i o =>
      if Nat.ltb i (h_next w) then
        let p := call_on w i o in (fst p, Some (snd p))
      else (w, None)
  | CCopy i => if Nat.ltb i (h_next w) then (deep_copy w i, None) else (w, None)
  end.

(** A program: the final store, and the outcomes of the calls on object [k], in order. *)
Definition crun (w : heap) (p : list cop) : heap := fold_left (fun s c => fst (cstep s c)) p w.
Fixpoint outcomes (k : nat) (w : heap) (p : list cop)
  : list (op * res (option int_result)) :=
  match p with
  | [] => []
  | CCall i o :: p' =>
      match snd (cstep w (CCall i o)) with
      | Some r => if Nat.eqb i k then (o, r) :: outcomes k (fst (cstep w (CCall i o))) p'
                  else outcomes k (fst (cstep w (CCall i o))) p'
      | None => outcomes k (fst (cstep w (CCall i o))) p'
      end
  | c :: p' => outcomes k (fst (cstep w c)) p'
  end.

End Programs.
