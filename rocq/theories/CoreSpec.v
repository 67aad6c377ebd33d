(** Histories of API calls, and the small vocabulary of the core properties. *)
From Coq Require Import Reals List String Bool ZArith.
From Verif Require Import PyBase FiniteDiffModel PPolyModel InitialConditionModel
  ThwaitesFitsModel HeadModel CoreModel.
Import ListNotations.
Open Scope R_scope.

(** The public calls that can change a method object. *)
Inductive op :=
| OpNu (v : xr)                                   (* m.nu = v *)
| OpVelocity (u du d2u : pyval)                   (* m.set_velocity(u, du, d2u) *)
| OpCondition (c : ic)                            (* m.set_initial_condition(c) *)
| OpInitialDeltaM (v : xr)                        (* m.initial_delta_m = v *)
| OpInitialShapeD (v : xr)                        (* m.initial_shape_d = v  (Head) *)
| OpFits (a : fitarg)                             (* m.set_data_fits(a)  (Thwaites) *)
| OpCritical (v : xr)                             (* m.set_shape_d_critical(v)  (Head) *)
| OpSolve (x0 x_end : R) (l : list event).        (* m.solve(x0, x_end, l) *)

(** What a status prints as. *)
Definition status_name (r : reason) : string :=
  match r with
  | REACHED_END => "Completed"
  | SEPARATED => "Separated"
  | TRANSITIONED => "Transition"
  | UNKNOWN => "Unknown Event"
  end.

(** The message of a result: the status, followed by the detail when there is one. *)
Definition full_message (r : reason) (detail : string) : string :=
  if String.eqb detail "" then status_name r else (status_name r ++ ": " ++ detail)%string.

Section Histories.
Variable pchip : ndarray -> ndarray -> res ppoly.
Variable cubic_spline : list R -> list R -> (xr -> xr) * (xr -> xr).
Variable solve_ivp :
  (R -> list xr -> res (list xr)) -> R -> R -> list xr ->
  list (bool * (R -> list xr -> res xr)) -> res ivp_result.

Definition no_result {S A} (p : S * res A) : S * res (option int_result) :=
  (fst p, match snd p with Ok _ => Ok None | Err e => Err e end).

(** One call: the new object state, and what the call returned or raised.  A method the
    class does not have raises AttributeError (assigning [initial_shape_d] on a
    ThwaitesMethod only creates an attribute nothing reads). *)
Definition step (m : meth) (o : op) : meth * res (option int_result) :=
  match o with
  | OpNu v => no_result (set_nu m v)
  | OpVelocity u du d2u => no_result (set_velocity pchip m u du d2u)
  | OpCondition c => (set_initial_condition m c, Ok None)
  | OpInitialDeltaM v => no_result (set_initial_delta_m m v)
  | OpInitialShapeD v =>
      match m_kind m with Head => no_result (set_initial_shape_d m v) | _ => (m, Ok None) end
  | OpFits a =>
      match m_kind m with
      | Head => (m, Err AttributeError)
      | _ => no_result (set_data_fits cubic_spline m a)
      end
  | OpCritical v =>
      match m_kind m with
      | Head => (set_shape_d_critical m v, Ok None)
      | _ => (m, Err AttributeError)
      end
  | OpSolve x0 x_end l =>
      let p := solve solve_ivp m x0 x_end l in
      (fst p, match snd p with Ok r => Ok (Some r) | Err e => Err e end)
  end.

(** The state after a history (calls that raise included), and the trace of outcomes. *)
Definition run (m : meth) (h : list op) : meth := fold_left (fun s o => fst (step s o)) h m.
Fixpoint trace (m : meth) (h : list op) : list (op * res (option int_result)) :=
  match h with
  | [] => []
  | o :: h' => (o, snd (step m o)) :: trace (fst (step m o)) h'
  end.

(** The state from which an integration starting at [x0] begins: the condition in force is
    evaluated with the viscosity and the velocity gradient of the moment. *)
Inductive initial_state (m : meth) (x0 : R) : list xr -> Prop :=
| initial_state_thwaites du d :
    m_kind m <> Head -> q_du_e m x0 = Ok du ->
    ic_delta_m {| ic_du := Fin du; ic_nu := m_nu m; ic_body_of := ic_body_of (m_ic m) |} = Ok d ->
    initial_state m x0 [(d * d / m_nu m)%xr]
| initial_state_head du d h :
    m_kind m = Head -> q_du_e m x0 = Ok du ->
    ic_delta_m {| ic_du := Fin du; ic_nu := m_nu m; ic_body_of := ic_body_of (m_ic m) |} = Ok d ->
    ic_shape_d {| ic_du := Fin du; ic_nu := m_nu m; ic_body_of := ic_body_of (m_ic m) |} = Ok h ->
    initial_state m x0 [d; h].

(** How the events in force are handed to the integrator. *)
Definition ivp_events (m : meth) (l : list event) :=
  map (fun e => (ev_terminal e, event_value m e)) l.

(** A freshly constructed object of any of the three classes. *)
Inductive created : meth -> Prop :=
| created_thwaites linear nu u du d2u a m :
    new_thwaites pchip cubic_spline linear nu u du d2u a = Ok m -> created m
| created_head nu u du d2u crit m :
    new_head pchip nu u du d2u crit = Ok m -> created m.

(** The ways a velocity can be specified and the functions it then stands for: value, first
    and second derivative.  (A derivative that is not callable raises when queried.) *)
Inductive profile : pyval -> pyval -> pyval -> (R -> R) -> (R -> res R) -> (R -> res R) -> Prop :=
| profile_plain c :
    c_deriv c = None ->
    profile (PCall c) PNone PNone (c_fun c)
      (fun x => Ok (fd_1f (c_fun c) x (1/10000)))
      (fun x => Ok (fd_2f (c_fun c) x (1/10000)))
| profile_derivative_method c d d1 d2 :
    c_deriv c = Some d -> d 1%nat = Ok d1 -> d 2%nat = Ok d2 ->
    profile (PCall c) PNone PNone (c_fun c) (fun x => Ok (d1 x)) (fun x => Ok (d2 x))
| profile_du_plain c dc :
    c_deriv dc = None ->
    profile (PCall c) (PCall dc) PNone (c_fun c) (fun x => Ok (c_fun dc x))
      (fun x => Ok (fd_1f (c_fun dc) x (1/100000)))
| profile_du_derivative_method c dc d d1 :
    c_deriv dc = Some d -> d 1%nat = Ok d1 ->
    profile (PCall c) (PCall dc) PNone (c_fun c) (fun x => Ok (c_fun dc x))
      (fun x => Ok (d1 x))
| profile_all c dc d2c :
    profile (PCall c) (PCall dc) (PCall d2c) (c_fun c) (fun x => Ok (c_fun dc x))
      (fun x => Ok (c_fun d2c x))
| profile_bad_d2u c dc v :
    v <> PNone -> (forall d2c, v <> PCall d2c) ->
    profile (PCall c) (PCall dc) v (c_fun c) (fun x => Ok (c_fun dc x))
      (fun _ => Err TypeError)
| profile_scalar u0 du d2u xi yi x y p :
    py_len du = Ok 2%nat -> py_item du 0 = Ok xi -> py_item du 1 = Ok yi ->
    np_asarray xi = Ok x -> np_asarray yi = Ok y ->
    pchip x y = Ok p ->
    profile (PNum u0) du d2u (pp_eval (pp_shift (pp_antiderivative p) u0))
      (fun x => Ok (pp_eval p x)) (fun x => Ok (pp_eval (pp_derivative p) x))
| profile_points u du d2u xi yi x y p n :
    py_len u = Ok 2%nat -> py_item u 0 = Ok xi -> py_item u 1 = Ok yi ->
    np_asarray xi = Ok x -> np_asarray yi = Ok y ->
    nd_shape x = [n] -> nd_shape y = [n] -> (2 <= n)%nat ->
    pchip x y = Ok p ->
    profile u du d2u (pp_eval p) (fun x => Ok (pp_eval (pp_derivative p) x))
      (fun x => Ok (pp_eval (pp_derivative (pp_derivative p)) x)).

(** The method answers velocity queries with the given functions. *)
Definition answers (m : meth) (u : R -> R) (du d2u : R -> res R) : Prop :=
  forall x, q_u_e m x = Ok (u x) /\ q_du_e m x = du x /\ q_d2u_e m x = d2u x.

(** The last velocity of a history, when every set_velocity call in it succeeded. *)
Fixpoint all_velocities_accepted (t : list (op * res (option int_result))) : Prop :=
  match t with
  | [] => True
  | (OpVelocity _ _ _, Err _) :: _ => False
  | _ :: t' => all_velocities_accepted t'
  end.
Definition last_velocity (t : list op) : option (pyval * pyval * pyval) :=
  fold_left (fun acc o => match o with OpVelocity u du d2u => Some (u, du, d2u) | _ => acc end)
            t None.

(** Point data set_velocity accepts: two one-dimensional arrays of equal length >= 2. *)
Definition good_shapes (x u : ndarray) : Prop :=
  exists n, nd_shape x = [n] /\ nd_shape u = [n] /\ (2 <= n)%nat.

(** Every set_velocity call of a trace satisfies [P arguments outcome]. *)
Definition velocity_outcomes (P : pyval -> pyval -> pyval -> res (option int_result) -> Prop)
  (t : list (op * res (option int_result))) : Prop :=
  Forall (fun p => match fst p with OpVelocity u du d2u => P u du d2u (snd p) | _ => True end) t.

Definition rejected (r : res (option int_result)) : Prop := exists e, r = Err e.

(** The object holds no velocity. *)
Definition no_velocity (m : meth) : Prop := m_u m = None /\ m_du m = None /\ m_d2u m = None.

(** The calls that configure the built-in event. *)
Definition is_config (o : op) : bool :=
  match o with OpFits _ | OpCritical _ => true | _ => false end.

(** Events added by a history: those of every solve that got as far as the integrator. *)
Inductive events_added : meth -> list op -> list event -> Prop :=
| ea_nil m : events_added m [] []
| ea_solve m x0 x1 l h r y0 :
    initial_state m x0 y0 ->
    events_added (fst (step m (OpSolve x0 x1 l))) h r ->
    events_added m (OpSolve x0 x1 l :: h) (l ++ r)
| ea_solve_not m x0 x1 l h r :
    (forall y0, ~ initial_state m x0 y0) ->
    events_added (fst (step m (OpSolve x0 x1 l))) h r ->
    events_added m (OpSolve x0 x1 l :: h) r
| ea_other m o h r :
    (forall x0 x1 l, o <> OpSolve x0 x1 l) ->
    events_added (fst (step m o)) h r ->
    events_added m (o :: h) r.

(** The calls that replace or edit the initial condition. *)
Definition edits_condition (o : op) : bool :=
  match o with OpCondition _ | OpInitialDeltaM _ | OpInitialShapeD _ => true | _ => false end.

(** The data fit argument last accepted, starting from the constructor's. *)
Definition fits_after (a : fitarg) (t : list (op * res (option int_result))) : fitarg :=
  fold_left (fun acc p => match p with (OpFits b, Ok _) => b | _ => acc end) t a.

(** The critical shape factor after a history. *)
Definition crit_after (crit : xr) (h : list op) : xr :=
  fold_left (fun acc o => match o with OpCritical v => v | _ => acc end) h crit.

Definition is_solve (o : op) : bool := match o with OpSolve _ _ _ => true | _ => false end.

Definition is_nu (o : op) : bool := match o with OpNu _ => true | _ => false end.

(** A state some program can bring an object into. *)
Definition reachable (s : meth) : Prop := exists m h, created m /\ s = run m h.

(** The last solve of a trace that returned a result: its success flag. *)
Definition last_solve (t : list (op * res (option int_result))) : option bool :=
  fold_left (fun acc p => match p with
                          | (OpSolve _ _ _, Ok (Some r)) => Some (ir_success r)
                          | _ => acc end) t None.

(** The integrator's documented contract, as far as it is needed: [success] means a
    nonnegative status, a completed integration returns at least one point, and there is
    one list of roots per event.  When all events are terminal, stopping on an event means
    that exactly one event has a root, and it has one. *)
Record ivp_contract : Prop := {
  ivp_success : forall f a b y e r, solve_ivp f a b y e = Ok r ->
    r_success r = Z.leb 0 (r_status r);
  ivp_points : forall f a b y e r, solve_ivp f a b y e = Ok r -> r_status r = 0%Z ->
    r_t r <> [];
  ivp_roots : forall f a b y e r, solve_ivp f a b y e = Ok r ->
    List.length (r_t_events r) = List.length e;
  ivp_stop : forall f a b y e r, solve_ivp f a b y e = Ok r -> r_status r = 1%Z ->
    Forall (fun p => fst p = true) e ->
    exists i x, nth_error (r_t_events r) i = Some [x] /\
      forall j l, nth_error (r_t_events r) j = Some l -> j <> i -> l = [] }.

End Histories.
