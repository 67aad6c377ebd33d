(** Notions used in the statements about shallow copies. *)
From Coq Require Import Reals List String Bool ZArith.
From Verif Require Import PyBase FiniteDiffModel PPolyModel InitialConditionModel
  ThwaitesFitsModel HeadModel CoreModel CoreSpec CopyModel CopySpec ShallowModel.
Import ListNotations.
Open Scope R_scope.

(** The objects a program starts with: [n] of them, made by the constructors, each with a condition,
    a list of events and functions of its own. *)
Definition sstart (n : nat) (ms : nat -> meth) : store :=
  {| st_obj := fun i => {| s_meth := ms i; s_ic := i; s_ev := i; s_du_self := i; s_d2u_self := i; s_fit_self := i |};
     st_next := n; st_ics := fun i => m_ic (ms i); st_nic := n;
     st_evs := fun i => map (fun e => (e, i)) (m_events (ms i)); st_nev := n |}.

(** Two objects give the same answers about velocity and solution ([same_answers] of CopySpec without
    the initial values). *)
Definition same_flow (m m' : meth) : Prop :=
  m_kind m = m_kind m' /\ m_nu m = m_nu m' /\
  (forall x, q_u_e m x = q_u_e m' x) /\
  (forall x, q_du_e m x = q_du_e m' x) /\
  (forall x, q_d2u_e m x = q_d2u_e m' x) /\
  (forall x, q_delta_m m x = q_delta_m m' x) /\
  (forall x, q_shape_d m x = q_shape_d m' x) /\
  (forall x, q_delta_d m x = q_delta_d m' x) /\
  (forall x, q_delta_k m x = q_delta_k m' x) /\
  (forall x, q_shape_k m x = q_shape_k m' x) /\
  (forall x rho, q_tau_w_thwaites m x rho = q_tau_w_thwaites m' x rho) /\
  (forall x rho, q_dissipation m x rho = q_dissipation m' x rho) /\
  (forall x, q_v_e m x = q_v_e m' x).

(** Calls that give an object another condition object, and calls that give it another list of events. *)
Definition renews_condition (o : op) : bool := match o with OpCondition _ => true | _ => false end.
Definition renews_stops (o : op) : bool := match o with OpFits _ | OpCritical _ => true | _ => false end.

Section Renewal.
Variable pchip : ndarray -> ndarray -> res ppoly.
Variable cubic_spline : list R -> list R -> (xr -> xr) * (xr -> xr).
Variable solve_ivp :
  (R -> list xr -> res (list xr)) -> R -> R -> list xr ->
  list (bool * (R -> list xr -> res xr)) -> res ivp_result.
Notation step := (step pchip cubic_spline solve_ivp).

(** A call that gives an object an event list of its own: a fit for Thwaites' methods, a critical
    shape factor for Head's. *)
Definition new_stop (k : mkind) (o : op) : Prop :=
  match o with
  | OpFits a => k <> Head /\ exists f, choose_fit cubic_spline a = Ok f
  | OpCritical _ => k = Head
  | _ => False
  end.

(** Programs (starting with [n] objects, of the kinds [ks]) in which every shallow copy is at once given
    a condition, a velocity and a fit or critical shape factor.  The copy made when there are [n]
    objects is object [n]. *)
Inductive renewing : nat -> (nat -> mkind) -> list cop -> Prop :=
| renewing_end n ks : renewing n ks []
| renewing_call n ks i o p : renewing n ks p -> renewing n ks (CCall i o :: p)
| renewing_copy n ks i c u du d2u o p : (i < n)%nat ->
    (forall m, accepted (snd (step m (OpVelocity u du d2u))) = true) -> new_stop (ks i) o ->
    renewing (S n) (upd ks n (ks i)) p ->
    renewing n ks (CCopy i :: CCall n (OpCondition c) :: CCall n (OpVelocity u du d2u) :: CCall n o :: p).

End Renewal.
