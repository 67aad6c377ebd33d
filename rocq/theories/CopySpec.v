(** Notions used in the statements about copies. *)
From Coq Require Import Reals List String Bool ZArith.
From Verif Require Import PyBase FiniteDiffModel PPolyModel InitialConditionModel
  ThwaitesFitsModel HeadModel CoreModel CoreSpec CopyModel.
Import ListNotations.
Open Scope R_scope.

(** The objects a program starts with: [n] of them, made by the constructors (the functions
    of an object are its own). *)
Definition start (n : nat) (ms : nat -> meth) : heap :=
  {| h_obj := fun i => {| o_meth := ms i; o_du_self := i; o_d2u_self := i; o_fit_self := i |};
     h_next := n |}.

(** The calls a program makes on object [k]. *)
Fixpoint calls_on (k : nat) (p : list cop) : list op :=
  match p with
  | [] => []
  | CCall i o :: p' => if Nat.eqb i k then o :: calls_on k p' else calls_on k p'
  | CCopy _ :: p' => calls_on k p'
  end.

(** The velocity of an object is known by functions that came from outside for the value and
    for both derivatives: none of the three is a difference formula of [set_velocity]. *)
Definition given_derivatives (m : meth) : Prop :=
  m_du m <> Some VFd1U /\ m_d2u m <> Some VFd2U /\ m_d2u m <> Some VFd1DU.

(** The fit of an object came with the derivative of the shape factor. *)
Definition given_fit_derivative (m : meth) : Prop :=
  forall f, m_fit m = Some f -> fit_shape_p f <> SPFd.

(** The ways to give a velocity with which no difference formula is needed. *)
Inductive explicit_velocity : pyval -> pyval -> pyval -> Prop :=
| explicit_method c d d2u :                     (* the function has a derivative method *)
    c_deriv c = Some d -> explicit_velocity (PCall c) PNone d2u
| explicit_du_method c dc d d2u :               (* its derivative has one *)
    c_deriv dc = Some d -> explicit_velocity (PCall c) (PCall dc) d2u
| explicit_all c du d2u :                       (* both derivatives are given *)
    du <> PNone -> d2u <> PNone -> explicit_velocity (PCall c) du d2u
| explicit_data u du d2u :                      (* points, or a number with points *)
    (forall c, u <> PCall c) -> explicit_velocity u du d2u.

(** The ways to give a fit with which no difference formula is needed: all but a pair. *)
Definition explicit_fit (a : fitarg) : Prop :=
  match a with FTup l => List.length l <> 2%nat | _ => True end.

(** Calls that replace neither the velocity nor the fit. *)
Definition keeps_functions (o : op) : bool :=
  match o with OpVelocity _ _ _ | OpFits _ => false | _ => true end.

(** All calls on objects other than [k] are of that kind. *)
Definition others_keep_functions (k : nat) (p : list cop) : Prop :=
  Forall (fun c => match c with
                   | CCall i o => i = k \/ keeps_functions o = true
                   | CCopy _ => True
                   end) p.

(** The part of a program that concerns object [k]. *)
Definition concerns (k : nat) (c : cop) : bool :=
  match c with CCall i _ => Nat.eqb i k | CCopy _ => false end.

(** Two objects answer every query alike. *)
Definition same_answers (m m' : meth) : Prop :=
  m_kind m = m_kind m' /\ m_nu m = m_nu m' /\
  get_initial_delta_m m = get_initial_delta_m m' /\
  get_initial_shape_d m = get_initial_shape_d m' /\
  (forall x, q_u_e m x = q_u_e m' x) /\
  (forall x, q_du_e m x = q_du_e m' x) /\
  (forall x, q_d2u_e m x = q_d2u_e m' x) /\
  (forall x, q_delta_m m x = q_delta_m m' x) /\
  (forall x, q_shape_d m x = q_shape_d m' x) /\
  (forall x, q_delta_d m x = q_delta_d m' x) /\
  (forall x, q_delta_k m x = q_delta_k m' x) /\
  (forall x, q_shape_k m x = q_shape_k m' x) /\
  (forall x rho, q_tau_w_thwaites m x rho = q_tau_w_thwaites m' x rho) /\
  (forall x rho, q_dissipation m x rho = q_dissipation m' x rho) /\
  (forall x, q_v_e m x = q_v_e m' x).
