(** Vocabulary of C118 and C119: the same flow with the origin of the streamwise coordinate moved,
    and integrators that do not look outside the interval. *)
From Coq Require Import Reals List.
From Verif Require Import PyBase PPolyModel CoreModel CoreSpec.
Import ListNotations.
Open Scope R_scope.

Definition res_map {A B} (f : A -> B) (r : res A) : res B :=
  match r with Ok a => Ok (f a) | Err e => Err e end.

(** The function whose graph is moved by [k] along the axis. *)
Definition moved {A} (k : R) (f : R -> A) : R -> A := fun x => f (x - k).

(** The same profile, [k] further downstream: a callable (with its [derivative] method, if any) is
    moved; in point data the abscissas, that is, the first of the two rows, are increased by [k]. *)
Definition moved_callable (k : R) (c : callable) : callable :=
  {| c_fun := moved k (c_fun c); c_ret := c_ret c;
     c_deriv := match c_deriv c with
                | Some d => Some (fun n => res_map (moved k) (d n))
                | None => None
                end |}.
Definition nd_add (k : R) (a : ndarray) : ndarray :=
  {| nd_shape := nd_shape a; nd_data := map (fun r => r + k) (nd_data a) |}.
Fixpoint add_all (k : R) (v : pyval) : pyval :=
  match v with
  | PNum r => PNum (r + k)
  | PArr a => PArr (nd_add k a)
  | PTup l => PTup (map (add_all k) l)
  | _ => v
  end.
Definition moved_arg (k : R) (v : pyval) : pyval :=
  match v with
  | PCall c => PCall (moved_callable k c)
  | PTup (x :: r) => PTup (add_all k x :: r)
  | PArr a =>
      match nd_shape a with
      | n :: s => let row := fold_right Nat.mul 1%nat s in
                  PArr {| nd_shape := n :: s;
                          nd_data := map (fun r => r + k) (firstn row (nd_data a)) ++ skipn row (nd_data a) |}
      | [] => v
      end
  | _ => v
  end.

(** The user's stopping conditions for the moved flow. *)
Definition moved_event (k : R) (e : event) : event :=
  {| ev_reason := ev_reason e; ev_message := ev_message e; ev_terminal := ev_terminal e;
     ev_src := match ev_src e with EvUser g => EvUser (moved k g) | s => s end |}.

(** The same call for the moved flow, and the same outcome. *)
Definition moved_op (k : R) (o : op) : op :=
  match o with
  | OpVelocity u du d2u => OpVelocity (moved_arg k u) (moved_arg k du) (moved_arg k d2u)
  | OpSolve x0 x_end l => OpSolve (x0 + k) (x_end + k) (map (moved_event k) l)
  | _ => o
  end.
Definition moved_result (k : R) (r : int_result) : int_result :=
  {| ir_x_end := ir_x_end r + k; ir_f_end := ir_f_end r; ir_status := ir_status r;
     ir_message := ir_message r; ir_success := ir_success r |}.
Definition moved_outcome (k : R) (r : res (option int_result)) : res (option int_result) :=
  res_map (option_map (moved_result k)) r.

(** The external routines do not care where the origin is: true of PchipInterpolator and of
    solve_ivp in exact arithmetic. *)
Definition pp_moved (k : R) (p : ppoly) : ppoly :=
  {| pp_x := map (fun r => r + k) (pp_x p); pp_c := pp_c p |}.
Definition pchip_moves (pchip : ndarray -> ndarray -> res ppoly) : Prop :=
  forall k x y, pchip (nd_add k x) y = res_map (pp_moved k) (pchip x y).

Definition ivp_fun : Type :=
  (R -> list xr -> res (list xr)) -> R -> R -> list xr ->
  list (bool * (R -> list xr -> res xr)) -> res ivp_result.
Definition moved_ivp (k : R) (r : ivp_result) : ivp_result :=
  {| r_success := r_success r; r_status := r_status r; r_message := r_message r;
     r_t := map (fun t => t + k) (r_t r); r_sol := moved k (r_sol r);
     r_t_events := map (map (fun t => t + k)) (r_t_events r) |}.
Definition ivp_moves (ivp : ivp_fun) : Prop :=
  forall k f a b y e,
    ivp (moved k f) (a + k) (b + k) y (map (fun p => (fst p, moved k (snd p))) e)
    = res_map (moved_ivp k) (ivp f a b y e).

(** The object reports at [x + k] what [m] reports at [x]. *)
Record reports_moved (k : R) (m m' : meth) : Prop := {
  rm_u : forall x, q_u_e m' (x + k) = q_u_e m x;
  rm_du : forall x, q_du_e m' (x + k) = q_du_e m x;
  rm_d2u : forall x, q_d2u_e m' (x + k) = q_d2u_e m x;
  rm_delta_m : forall x, q_delta_m m' (x + k) = q_delta_m m x;
  rm_shape_d : forall x, q_shape_d m' (x + k) = q_shape_d m x;
  rm_delta_d : forall x, q_delta_d m' (x + k) = q_delta_d m x;
  rm_shape_k : forall x, q_shape_k m' (x + k) = q_shape_k m x;
  rm_tau_w : forall x rho, q_tau_w_thwaites m' (x + k) rho = q_tau_w_thwaites m x rho;
  rm_v_e : forall x, q_v_e m' (x + k) = q_v_e m x }.

(** An integrator that evaluates the right-hand side and the events inside the interval only. *)
Definition local_ivp (ivp : ivp_fun) : Prop :=
  forall f f' a b y e e', a <= b ->
    (forall x v, a <= x <= b -> f x v = f' x v) ->
    Forall2 (fun p q => fst p = fst q /\ forall x v, a <= x <= b -> snd p x v = snd q x v) e e' ->
    ivp f a b y e = ivp f' a b y e'.

(** Two objects report the same on an interval. *)
Record same_reports (m m' : meth) (a b : R) : Prop := {
  sr_u : forall x, a <= x <= b -> q_u_e m' x = q_u_e m x;
  sr_du : forall x, a <= x <= b -> q_du_e m' x = q_du_e m x;
  sr_d2u : forall x, a <= x <= b -> q_d2u_e m' x = q_d2u_e m x;
  sr_delta_m : forall x, a <= x <= b -> q_delta_m m' x = q_delta_m m x;
  sr_shape_d : forall x, a <= x <= b -> q_shape_d m' x = q_shape_d m x;
  sr_delta_d : forall x, a <= x <= b -> q_delta_d m' x = q_delta_d m x;
  sr_shape_k : forall x, a <= x <= b -> q_shape_k m' x = q_shape_k m x;
  sr_tau_w : forall x rho, a <= x <= b -> q_tau_w_thwaites m' x rho = q_tau_w_thwaites m x rho;
  sr_v_e : forall x, a <= x <= b -> q_v_e m' x = q_v_e m x }.
