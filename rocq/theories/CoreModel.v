(** Model of IBLMethod (ibl/ibl_method.py) and of the state-changing parts of
    ThwaitesMethod (ibl/thwaites_method.py) and HeadMethod (ibl/head_method.py).

    A method object is a record; every operation returns the new record together with an
    outcome, also when Python raises, so that partial updates stay visible.

    Simplifications: user callables are total functions on finite reals that neither raise
    nor change state; an initial condition object is owned by one method object (sharing
    one condition between methods: see WorkflowModel.v). *)
From Coq Require Import Reals List String Bool.
From Verif Require Import PyBase FiniteDiffModel PPolyModel InitialConditionModel
  ThwaitesFitsModel HeadModel.
Import ListNotations.
Open Scope R_scope.

(* ------------------------------------------------------------------ *)
(** * Termination reasons, events, results *)

(** ibl/ibl_method.py:34-60 [TermReason]. *)
Inductive reason := REACHED_END | SEPARATED | TRANSITIONED | UNKNOWN.

(** ibl/ibl_method.py:40-48 [TermReason.__str__]. *)
Definition reason_str (r : reason) : string :=
  match r with
  | REACHED_END => "Completed"
  | SEPARATED => "Separated"
  | TRANSITIONED => "Transition"
  | UNKNOWN => "Unknown Event"
  end.

(** ibl/ibl_method.py:155-243 [TermEvent]: what [event_info] returns, the [terminal]
    attribute (True after [TermEvent.__init__], 176-179, but a plain attribute), and what
    the event evaluates.  The built-in events refer to the owning method object. *)
Inductive event_src :=
| EvUser (g : R -> list xr -> xr)
| EvThwaites (m : fit)       (* _ThwaitesSeparationEvent(self._calc_lambda, model.shear) *)
| EvHead (crit : xr).        (* _HeadSeparationEvent(crit) *)
Record event := {
  ev_reason : reason;
  ev_message : string;
  ev_terminal : bool;
  ev_src : event_src }.

(** ibl/ibl_method.py:63-152 [IntegrationResult]. *)
Record int_result := {
  ir_x_end : R;
  ir_f_end : list xr;
  ir_status : reason;
  ir_message : string;
  ir_success : bool }.

(* ------------------------------------------------------------------ *)
(** * Python values passed as velocity arguments *)

(** numpy arrays: shape and data in C order. *)
Record ndarray := { nd_shape : list nat; nd_data : list R }.

(** How a callable returns its value (matters to HeadMethod only). *)
Inductive retkind := KFloat | KInt | KArray.

(** A callable object: its value, kind of value returned, and, when it has a callable
    attribute [derivative], what [derivative(nu)] returns. *)
Record callable := {
  c_fun : R -> R;
  c_ret : retkind;
  c_deriv : option (nat -> res (R -> R)) }.

Inductive pyval :=
| PNone
| PCall (c : callable)
| PNum (r : R)                 (* int or float *)
| PArr (a : ndarray)
| PTup (l : list pyval)        (* tuple or list *)
| PObj.                        (* anything else: not callable, no len() *)

(** len(v) *)
Definition py_len (v : pyval) : res nat :=
  match v with
  | PTup l => Ok (List.length l)
  | PArr a => match nd_shape a with n :: _ => Ok n | [] => Err TypeError end
  | _ => Err TypeError
  end.

(** v[i] for i < len(v) *)
Definition py_item (v : pyval) (i : nat) : res pyval :=
  match v with
  | PTup l => match nth_error l i with Some x => Ok x | None => Err IndexError end
  | PArr a =>
      match nd_shape a with
      | n :: s =>
          if Nat.ltb i n then
            let size := fold_right Nat.mul 1%nat s in
            Ok (PArr {| nd_shape := s;
                        nd_data := firstn size (skipn (i * size) (nd_data a)) |})
          else Err IndexError
      | [] => Err IndexError
      end
  | _ => Err TypeError
  end.

(** Stack equally shaped arrays along a new first axis; numpy raises ValueError on ragged
    input. *)
Definition nd_stack (l : list ndarray) : res ndarray :=
  match l with
  | [] => Ok {| nd_shape := [0%nat]; nd_data := [] |}
  | a :: _ =>
      if forallb (fun b => if list_eq_dec PeanoNat.Nat.eq_dec (nd_shape a) (nd_shape b)
                           then true else false) l
      then Ok {| nd_shape := List.length l :: nd_shape a;
                 nd_data := flat_map nd_data l |}
      else Err ValueError
  end.

(** np.asarray(v).  Objects that are neither numbers nor sequences become 0-d object
    arrays (no numeric data). *)
Fixpoint np_asarray (v : pyval) : res ndarray :=
  match v with
  | PArr a => Ok a
  | PNum r => Ok {| nd_shape := []; nd_data := [r] |}
  | PTup l =>
      bind ((fix go (l : list pyval) : res (list ndarray) :=
               match l with
               | [] => Ok []
               | x :: l' => bind (np_asarray x) (fun a => bind (go l') (fun r => Ok (a :: r)))
               end) l)
           nd_stack
  | _ => Ok {| nd_shape := []; nd_data := [] |}
  end.

(* ------------------------------------------------------------------ *)
(** * The method object *)

(** What sits in [_u_e], [_du_e], [_d2u_e]: a callable, one of the finite-difference
    closures of [set_velocity] (they look up [self._u_e] or [self._du_e] when called), or a
    non-callable object. *)
Inductive vfun :=
| VF (f : R -> R) (k : retkind)
| VFd1U     (* fd_1f(self._u_e, x, 1e-4), ibl/ibl_method.py:435-437 *)
| VFd2U     (* fd_2f(self._u_e, x, 1e-4), ibl/ibl_method.py:440-442 *)
| VFd1DU    (* fd_1f(self._du_e, x, 1e-5), ibl/ibl_method.py:460-462 *)
| VBad.     (* not callable *)

(** The three concrete classes. *)
Inductive mkind := ThwaitesLinear | ThwaitesNonlinear | Head.

Record meth := {
  m_kind : mkind;
  m_nu : xr;
  m_u : option vfun;
  m_du : option vfun;
  m_d2u : option vfun;
  m_ic : ic;
  m_fit : option fit;              (* ThwaitesMethod._model *)
  m_events : list event;           (* _kill_events *)
  m_sol : option (R -> list xr) }. (* _solution *)

Definition set_nu_field m v := {| m_kind := m_kind m; m_nu := v; m_u := m_u m; m_du := m_du m;
  m_d2u := m_d2u m; m_ic := m_ic m; m_fit := m_fit m; m_events := m_events m; m_sol := m_sol m |}.
Definition set_u m v := {| m_kind := m_kind m; m_nu := m_nu m; m_u := v; m_du := m_du m;
  m_d2u := m_d2u m; m_ic := m_ic m; m_fit := m_fit m; m_events := m_events m; m_sol := m_sol m |}.
Definition set_du m v := {| m_kind := m_kind m; m_nu := m_nu m; m_u := m_u m; m_du := v;
  m_d2u := m_d2u m; m_ic := m_ic m; m_fit := m_fit m; m_events := m_events m; m_sol := m_sol m |}.
Definition set_d2u m v := {| m_kind := m_kind m; m_nu := m_nu m; m_u := m_u m; m_du := m_du m;
  m_d2u := v; m_ic := m_ic m; m_fit := m_fit m; m_events := m_events m; m_sol := m_sol m |}.
Definition set_ic m v := {| m_kind := m_kind m; m_nu := m_nu m; m_u := m_u m; m_du := m_du m;
  m_d2u := m_d2u m; m_ic := v; m_fit := m_fit m; m_events := m_events m; m_sol := m_sol m |}.
Definition set_fit m v := {| m_kind := m_kind m; m_nu := m_nu m; m_u := m_u m; m_du := m_du m;
  m_d2u := m_d2u m; m_ic := m_ic m; m_fit := v; m_events := m_events m; m_sol := m_sol m |}.
Definition set_events m v := {| m_kind := m_kind m; m_nu := m_nu m; m_u := m_u m; m_du := m_du m;
  m_d2u := m_d2u m; m_ic := m_ic m; m_fit := m_fit m; m_events := v; m_sol := m_sol m |}.
Definition set_sol m v := {| m_kind := m_kind m; m_nu := m_nu m; m_u := m_u m; m_du := m_du m;
  m_d2u := m_d2u m; m_ic := m_ic m; m_fit := m_fit m; m_events := m_events m; m_sol := v |}.

(* ------------------------------------------------------------------ *)
(** * Velocity queries *)

(** A slot called as a function: calling None or a non-callable raises TypeError. Finite
    difference slots are only ever stored in [_du_e] and [_d2u_e]. *)
Definition call_plain (v : option vfun) : res (R -> R) :=
  match v with Some (VF f _) => Ok f | _ => Err TypeError end.

Definition call_du (m : meth) (x : R) : res R :=
  match m_du m with
  | None => Err TypeError
  | Some (VF f _) => Ok (f x)
  | Some VFd1U => bind (call_plain (m_u m)) (fun f => Ok (fd_1f f x (1/10000)))
  | Some _ => Err TypeError
  end.

(** self._du_e as a function (for the nested finite difference). *)
Definition du_fun (m : meth) : res (R -> R) :=
  match m_du m with
  | Some (VF f _) => Ok f
  | Some VFd1U => bind (call_plain (m_u m)) (fun f => Ok (fun x => fd_1f f x (1/10000)))
  | _ => Err TypeError
  end.

Definition call_d2u (m : meth) (x : R) : res R :=
  match m_d2u m with
  | None => Err TypeError
  | Some (VF f _) => Ok (f x)
  | Some VFd2U => bind (call_plain (m_u m)) (fun f => Ok (fd_2f f x (1/10000)))
  | Some VFd1DU => bind (du_fun m) (fun f => Ok (fd_1f f x (1/100000)))
  | Some _ => Err TypeError
  end.

(** ibl/ibl_method.py:601-622 [u_e]. *)
Definition q_u_e (m : meth) (x : R) : res R :=
  match m_u m with
  | None => Err ValueError
  | Some _ => bind (call_plain (m_u m)) (fun f => Ok (f x))
  end.

(** ibl/ibl_method.py:624-645 [du_e]. *)
Definition q_du_e (m : meth) (x : R) : res R :=
  match m_du m with None => Err ValueError | Some _ => call_du m x end.

(** ibl/ibl_method.py:647-668 [d2u_e]. *)
Definition q_d2u_e (m : meth) (x : R) : res R :=
  match m_d2u m with None => Err ValueError | Some _ => call_d2u m x end.

(* ------------------------------------------------------------------ *)
(** * set_velocity *)

Definition as_slot (v : pyval) : vfun :=
  match v with PCall c => VF (c_fun c) (c_ret c) | _ => VBad end.

(** ibl/ibl_method.py:418-471: the branch for a callable u_e. *)
Definition set_velocity_callable (m : meth) (c : callable) (du d2u : pyval) : meth * res unit :=
  let m1 := set_u m (Some (VF (c_fun c) (c_ret c))) in
  match du with
  | PNone =>
      match d2u with
      | PNone =>
          match c_deriv c with
          | Some deriv =>
              match deriv 1%nat with
              | Err e => (m1, Err e)
              | Ok d1 =>
                  let m2 := set_du m1 (Some (VF d1 (c_ret c))) in
                  match deriv 2%nat with
                  | Err e => (m2, Err e)
                  | Ok d2 => (set_d2u m2 (Some (VF d2 (c_ret c))), Ok tt)
                  end
              end
          | None => (set_d2u (set_du m1 (Some VFd1U)) (Some VFd2U), Ok tt)
          end
      | _ => (m1, Err ValueError)
      end
  | PCall dc =>
      let m2 := set_du m1 (Some (VF (c_fun dc) (c_ret dc))) in
      match d2u with
      | PNone =>
          match c_deriv dc with
          | Some deriv =>
              match deriv 1%nat with
              | Err e => (m2, Err e)
              | Ok d1 => (set_d2u m2 (Some (VF d1 (c_ret dc))), Ok tt)
              end
          | None => (set_d2u m2 (Some VFd1DU), Ok tt)
          end
      | _ =>
          (* line 466 tests callable(du_e) once more, not callable(d2u_e) *)
          (set_d2u m2 (Some (as_slot d2u)), Ok tt)
      end
  | _ => (m1, Err ValueError)
  end.

(** A spline as a callable object: PPoly has a [derivative] method and returns arrays. *)
Definition callable_of_ppoly (p : ppoly) : callable :=
  {| c_fun := pp_eval p; c_ret := KArray;
     c_deriv := Some (fun nu => Ok (pp_eval (pp_derivative_n nu p))) |}.

Section WithPchip.
(** scipy.interpolate.PchipInterpolator(x, y): may raise. *)
Variable pchip : ndarray -> ndarray -> res ppoly.

(** ibl/ibl_method.py:472-486: scalar u_e with derivative points. *)
Definition set_velocity_scalar (m : meth) (u0 : R) (du : pyval) : meth * res unit :=
  match py_len du with
  | Err e => (m, Err e)
  | Ok 2%nat =>
      match bind (py_item du 0) np_asarray, bind (py_item du 1) np_asarray with
      | Ok x_pts, Ok du_pts =>
          match pchip x_pts du_pts with
          | Err e => (m, Err e)
          | Ok p =>
              let m1 := set_du m (Some (VF (pp_eval p) KArray)) in
              let pa := pp_shift (pp_antiderivative p) u0 in
              let m2 := set_u m1 (Some (VF (pp_eval pa) KArray)) in
              (set_d2u m2 (Some (VF (pp_eval (pp_derivative p)) KArray)), Ok tt)
          end
      | Err e, _ => (m, Err e)
      | _, Err e => (m, Err e)
      end
  | Ok _ => (m, Err ValueError)
  end.

(** ibl/ibl_method.py:487-513: u_e given by points; du_e and d2u_e are not looked at. *)
Definition set_velocity_points (m : meth) (u : pyval) : meth * res unit :=
  match py_len u with
  | Err e => (m, Err e)
  | Ok 2%nat =>
      match bind (py_item u 0) np_asarray, bind (py_item u 1) np_asarray with
      | Ok x_pts, Ok u_pts =>
          match nd_shape x_pts with
          | [] => (m, Err IndexError)
          | npts :: xrest =>
              if negb (Nat.eqb (List.length (npts :: xrest)) 1) then (m, Err ValueError)
              else if negb (Nat.eqb (List.length (nd_shape u_pts)) 1) then (m, Err ValueError)
              else if negb (Nat.eqb npts (hd 0%nat (nd_shape u_pts))) then (m, Err ValueError)
              else if Nat.ltb npts 2 then (m, Err ValueError)
              else match pchip x_pts u_pts with
                   | Err e => (m, Err e)
                   | Ok p => set_velocity_callable m (callable_of_ppoly p) PNone PNone
                   end
          end
      | Err e, _ => (m, Err e)
      | _, Err e => (m, Err e)
      end
  | Ok _ => (m, Err ValueError)
  end.

(** ibl/ibl_method.py:383-513 [set_velocity]. *)
Definition set_velocity (m : meth) (u du d2u : pyval) : meth * res unit :=
  match u with
  | PCall c => set_velocity_callable m c du d2u
  | PNum u0 => set_velocity_scalar m u0 du
  | _ => set_velocity_points m u
  end.

(* ------------------------------------------------------------------ *)
(** * Other setters *)

(** ibl/ibl_method.py:366-370 [nu] setter. *)
Definition set_nu (m : meth) (v : xr) : meth * res unit :=
  if xleb v (Fin 0) then (m, Err ValueError) else (set_nu_field m v, Ok tt).

(** ibl/ibl_method.py:372-381 [set_initial_condition]. *)
Definition set_initial_condition (m : meth) (c : ic) : meth := set_ic m c.

(** ibl/thwaites_method.py:75-79 and ibl/head_method.py:47-51, setter of
    [initial_delta_m]. *)
Definition set_initial_delta_m (m : meth) (v : xr) : meth * res unit :=
  if xleb v (Fin 0) then (m, Err ValueError)
  else (set_ic m (ic_assign_del_m (m_ic m) v), Ok tt).

(** ibl/thwaites_method.py:67-73 and ibl/head_method.py:39-45, getter. *)
Definition get_initial_delta_m (m : meth) : res xr := ic_delta_m (m_ic m).

(** ibl/head_method.py:61-65, setter of [initial_shape_d] (HeadMethod only). *)
Definition set_initial_shape_d (m : meth) (v : xr) : meth * res unit :=
  if xleb v (Fin 0) then (m, Err ValueError)
  else match get_initial_delta_m m with
       | Err e => (m, Err e)
       | Ok dm => (set_ic m (ic_assign_del_d (m_ic m) (v * dm)%xr), Ok tt)
       end.

(** ibl/head_method.py:53-59, getter. *)
Definition get_initial_shape_d (m : meth) : res xr := ic_shape_d (m_ic m).

(** ibl/ibl_method.py:670-683 [_add_kill_event] (also what [solve] does to the list). *)
Definition add_kill_events (m : meth) (l : list event) : meth := set_events m (m_events m ++ l).
(** ibl/ibl_method.py:685-698 [_set_kill_event] with a single event. *)
Definition set_kill_event (m : meth) (e : event) : meth := set_events m [e].

(** ibl/thwaites_method.py:698-739 [_ThwaitesSeparationEvent], ibl/head_method.py:427-477
    [_HeadSeparationEvent]: reason SEPARATED, empty text, terminal. *)
Definition thwaites_event (f : fit) : event :=
  {| ev_reason := SEPARATED; ev_message := ""; ev_terminal := true; ev_src := EvThwaites f |}.
Definition head_sep_event (crit : xr) : event :=
  {| ev_reason := SEPARATED; ev_message := ""; ev_terminal := true; ev_src := EvHead crit |}.

(** Argument of [set_data_fits]. *)
Inductive fitarg :=
| FName (s : string)
| FTup (l : list (option (xr -> xr)))   (* None: a non-callable entry *)
| FOther.

(** scipy.interpolate.CubicSpline, see [fit_spline]. *)
Variable cubic_spline : list R -> list R -> (xr -> xr) * (xr -> xr).

(** ibl/thwaites_method.py:112-158: selection of the fit. *)
Definition choose_fit (a : fitarg) : res fit :=
  match a with
  | FName s =>
      if String.eqb s "Spline" then Ok (fit_spline cubic_spline)
      else if String.eqb s "White" then Ok fit_white
      else if String.eqb s "Cebeci-Bradshaw" then Ok fit_cb
      else if String.eqb s "Drela" then Ok fit_drela
      else Err ValueError
  | FTup [Some s; Some h; Some hp] => Ok (fit_custom3 s h hp)
  | FTup [Some s; Some h] => Ok (fit_custom2 s h)
  | FTup _ => Err ValueError
  | FOther => Err ValueError
  end.

(** ibl/thwaites_method.py:81-162 [set_data_fits]. *)
Definition set_data_fits (m : meth) (a : fitarg) : meth * res unit :=
  match choose_fit a with
  | Err e => (m, Err e)
  | Ok f => (set_kill_event (set_fit m (Some f)) (thwaites_event f), Ok tt)
  end.

(** ibl/head_method.py:67-82 [set_shape_d_critical]. *)
Definition set_shape_d_critical (m : meth) (crit : xr) : meth :=
  set_kill_event m (head_sep_event crit).

(* ------------------------------------------------------------------ *)
(** * Constructors *)

(** ibl/ibl_method.py:331-356 [IBLMethod.__init__] with an explicit condition. *)
Definition new_base (k : mkind) (nu : xr) (u du d2u : pyval) (c : ic) : res meth :=
  match new_fs (Fin 0) nu with
  | Err e => Err e
  | Ok fs =>
      let m0 := {| m_kind := k; m_nu := nu; m_u := None; m_du := None; m_d2u := None;
                   m_ic := fs; m_fit := None; m_events := []; m_sol := None |} in
      match u with
      | PNone =>
          match du, d2u with
          | PNone, PNone => Ok (set_initial_condition m0 c)
          | _, _ => Err ValueError
          end
      | _ =>
          match set_velocity m0 u du d2u with
          | (m1, Ok _) => Ok (set_initial_condition m1 c)
          | (_, Err e) => Err e
          end
      end
  end.

(** ibl/thwaites_method.py:57-65 [ThwaitesMethod.__init__]. *)
Definition new_thwaites (linear : bool) (nu : xr) (u du d2u : pyval) (a : fitarg) : res meth :=
  match new_base (if linear then ThwaitesLinear else ThwaitesNonlinear) nu u du d2u
                 (new_manual (Fin 0) PInf (Fin 0)) with
  | Err e => Err e
  | Ok m => match set_data_fits m a with (m', Ok _) => Ok m' | (_, Err e) => Err e end
  end.

(** ibl/head_method.py:30-37 [HeadMethod.__init__]. *)
Definition new_head (nu : xr) (u du d2u : pyval) (crit : xr) : res meth :=
  match new_base Head nu u du d2u (new_manual PInf PInf (Fin 0)) with
  | Err e => Err e
  | Ok m => Ok (set_shape_d_critical m crit)
  end.

(* ------------------------------------------------------------------ *)
(** * solve *)

(** ibl/thwaites_method.py:329-340 and ibl/head_method.py:248-259 [_ode_setup]: the initial
    state vector (the tolerances, constants 1e-8 and 1e-11, are not modelled).  [delta_m**2/nu]:
    nu is never zero. *)
Definition ode_setup (m : meth) : res (list xr) :=
  match m_kind m with
  | Head => bind (ic_delta_m (m_ic m)) (fun d => bind (ic_shape_d (m_ic m)) (fun h => Ok [d; h]))
  | _ => bind (ic_delta_m (m_ic m)) (fun d => bind (py_div (xsq d) (m_nu m)) (fun s => Ok [s]))
  end.

(** ibl/thwaites_method.py:363-380 [_calc_lambda]. *)
Definition calc_lambda (m : meth) (x : R) (s : xr) : res xr :=
  bind (q_du_e m x) (fun du => Ok (s * Fin du)%xr).

(** ibl/thwaites_method.py:426-452 and 476-500 [_calc_f]. *)
Definition calc_f (m : meth) (x : R) (s : xr) : res xr :=
  bind (calc_lambda m x s) (fun lam =>
  match m_kind m with
  | ThwaitesLinear => Ok (Fin (45/100) - Fin 6 * lam)%xr
  | _ => match m_fit m with Some f => Ok (fit_f f lam) | None => Err AttributeError end
  end).

Definition ret_val (k : retkind) (v : xr) : velval :=
  match k with KFloat => VFloat v | KInt => VInt v | KArray => VArray v end.
Definition slot_kind (v : option vfun) : retkind :=
  match v with Some (VF _ k) => k | _ => KFloat end.

(** ibl/thwaites_method.py:343-361 and ibl/head_method.py:262-300 [_ode_impl]. *)
Definition ode_impl (m : meth) (x : R) (f : list xr) : res (list xr) :=
  match m_kind m with
  | Head =>
      match f with
      | [d; h] =>
          bind (q_u_e m x) (fun u => bind (q_du_e m x) (fun du =>
          bind (head_rhs (m_nu m) (ret_val (slot_kind (m_u m)) (Fin u))
                         (ret_val (slot_kind (m_du m)) (Fin du)) d h)
               (fun p => Ok [fst p; snd p])))
      | _ => Err IndexError
      end
  | _ =>
      match f with
      | [s] => bind (calc_f m x s) (fun F => bind (q_u_e m x) (fun u =>
               Ok [(F / (Fin (1/1000) + Fin u))%xr]))
      | _ => Err IndexError
      end
  end.

(** Value of an event function (ibl/ibl_method.py:181-197 [TermEvent.__call__]). *)
Definition event_value (m : meth) (e : event) (x : R) (f : list xr) : res xr :=
  match ev_src e with
  | EvUser g => Ok (g x f)
  | EvThwaites ft => match f with
                     | [s] => bind (calc_lambda m x s) (fun lam => Ok (shear ft lam))
                     | _ => Err IndexError
                     end
  | EvHead crit => match f with
                   | [_; h] => Ok (head_event crit h)
                   | _ => Err IndexError
                   end
  end.

(** What solve_ivp returns (fields used at ibl/ibl_method.py:571-599). *)
Record ivp_result := {
  r_success : bool;
  r_status : Z;
  r_message : string;
  r_t : list R;
  r_sol : R -> list xr;
  r_t_events : list (list R) }.

(** scipy.integrate.solve_ivp(fun, [x0, x_end], y0, events=...): an arbitrary function of
    the right-hand side, the interval, the initial state and the event functions with
    their [terminal] attribute. *)
Variable solve_ivp :
  (R -> list xr -> res (list xr)) -> R -> R -> list xr ->
  list (bool * (R -> list xr -> res xr)) -> res ivp_result.

(** rtn.t[-1] *)
Definition last_t (l : list R) : res R :=
  match rev l with [] => Err IndexError | x :: _ => Ok x end.

(** ibl/ibl_method.py:584-590: the first event (in list order) with a recorded root;
    [kill_events[i]] raises IndexError when there are fewer events than root lists. *)
Fixpoint first_event (te : list (list R)) (evs : list event) : res (option (R * event)) :=
  match te with
  | [] => Ok None
  | [] :: te' => first_event te' (tl evs)
  | (xe :: _) :: _ => match evs with e :: _ => Ok (Some (xe, e)) | [] => Err IndexError end
  end.

(** ibl/ibl_method.py:594-597. *)
Definition finish_message (st : reason) (msg : string) : string :=
  if Nat.ltb 0 (String.length msg) then (reason_str st ++ ": " ++ msg)%string
  else reason_str st.

(** ibl/ibl_method.py:570-599: from the integrator's answer to the result object. *)
Definition gather (x0 : R) (y0 : list xr) (evs : list event) (r : ivp_result)
  : res int_result :=
  let result x f st msg :=
    {| ir_x_end := x; ir_f_end := f; ir_status := st; ir_message := finish_message st msg;
       ir_success := r_success r |} in
  if r_success r then
    if Z.eqb (r_status r) 0 then
      bind (last_t (r_t r)) (fun x => Ok (result x (r_sol r x) REACHED_END ""%string))
    else if Z.eqb (r_status r) 1 then
      bind (first_event (r_t_events r) evs) (fun fe =>
      match fe with
      | Some (x, e) => Ok (result x (r_sol r x) (ev_reason e) (ev_message e))
      | None => Ok (result x0 y0 UNKNOWN "Event not found."%string)
      end)
    else Ok (result x0 y0 UNKNOWN (r_message r))
  else Ok (result x0 y0 UNKNOWN (r_message r)).

(** ibl/ibl_method.py:515-599 [solve].  [term_event] is the list of user events (a single
    event is a one-element list, None the empty list). *)
Definition solve (m : meth) (x0 x_end : R) (term_event : list event) : meth * res int_result :=
  match ic_set_nu (m_ic m) (m_nu m) with
  | (c, Err e) => (set_ic m c, Err e)
  | (c, Ok _) =>
      let m1 := set_ic m c in
      match q_du_e m1 x0 with
      | Err e => (m1, Err e)
      | Ok du =>
          let m2 := set_ic m1 (ic_set_du (m_ic m1) (Fin du)) in
          match ode_setup m2 with
          | Err e => (m2, Err e)
          | Ok y0 =>
              let m3 := add_kill_events m2 term_event in
              match solve_ivp (ode_impl m3) x0 x_end y0
                      (map (fun e => (ev_terminal e, event_value m3 e)) (m_events m3)) with
              | Err e => (m3, Err e)
              | Ok r =>
                  let m4 := set_sol m3 (if r_success r then Some (r_sol r) else None) in
                  (m4, gather x0 y0 (m_events m4) r)
              end
          end
      end
  end.

End WithPchip.

(* ------------------------------------------------------------------ *)
(** * Solution queries (scalar location) *)

Definition sol_at (m : meth) (x : R) : res (list xr) :=
  match m_sol m with None => Err ValueError | Some s => Ok (s x) end.
Definition comp (i : nat) (l : list xr) : res xr :=
  match nth_error l i with Some v => Ok v | None => Err IndexError end.

(** ibl/thwaites_method.py:212-229, ibl/head_method.py:126-144 [delta_m]. *)
Definition q_delta_m (m : meth) (x : R) : res xr :=
  bind (sol_at m x) (fun y => bind (comp 0 y) (fun s =>
  match m_kind m with Head => Ok s | _ => Ok (xsqrt (s * m_nu m)%xr) end)).

(** ibl/thwaites_method.py:249-267, ibl/head_method.py:163-181 [shape_d]. *)
Definition q_shape_d (m : meth) (x : R) : res xr :=
  bind (sol_at m x) (fun y =>
  match m_kind m with
  | Head => comp 1 y
  | _ => bind (comp 0 y) (fun s => bind (calc_lambda m x s) (fun lam =>
         match m_fit m with Some f => Ok (shape f lam) | None => Err AttributeError end))
  end).

(** ibl/thwaites_method.py:195-209, ibl/head_method.py:110-123 [delta_d]. *)
Definition q_delta_d (m : meth) (x : R) : res xr :=
  bind (q_delta_m m x) (fun d => bind (q_shape_d m x) (fun h => Ok (d * h)%xr)).

(** ibl/thwaites_method.py:232-246, ibl/head_method.py:147-160 [delta_k]: zero, no check. *)
Definition q_delta_k (m : meth) (x : R) : res xr := Ok (Fin 0).

(** ibl/thwaites_method.py:270-284, ibl/head_method.py:184-198 [shape_k] (array division). *)
Definition q_shape_k (m : meth) (x : R) : res xr :=
  bind (q_delta_k m x) (fun k => bind (q_delta_m m x) (fun d => Ok (k / d)%xr)).

(** ibl/thwaites_method.py:287-307 [tau_w] (Thwaites only; HeadMethod.tau_w is in
    HeadTauModel). *)
Definition q_tau_w_thwaites (m : meth) (x rho : R) : res xr :=
  bind (sol_at m x) (fun y => bind (comp 0 y) (fun s =>
  bind (calc_lambda m x s) (fun lam => bind (q_u_e m x) (fun u =>
  match m_fit m with
  | None => Err AttributeError
  | Some f => bind (q_delta_m m x) (fun d =>
      Ok (Fin rho * m_nu m * Fin u * shear f lam / d)%xr)
  end)))).

(** ibl/thwaites_method.py:310-326 [dissipation]. *)
Definition q_dissipation (m : meth) (x rho : R) : res xr := Ok (Fin 0).

(** ibl/thwaites_method.py:165-192 [v_e] for Thwaites, ibl/head_method.py:85-107 for Head. *)
Definition q_v_e (m : meth) (x : R) : res xr :=
  bind (sol_at m x) (fun y =>
  match m_kind m with
  | Head =>
      match y with
      | [d; h] =>
          bind (q_u_e m x) (fun u => bind (q_du_e m x) (fun du =>
          head_v_e (m_nu m) (ret_val (slot_kind (m_u m)) (Fin u))
                   (ret_val (slot_kind (m_du m)) (Fin du)) d h))
      | _ => Err IndexError
      end
  | _ =>
      bind (q_u_e m x) (fun u => bind (q_du_e m x) (fun du =>
      bind (comp 0 y) (fun s => bind (q_delta_d m x) (fun dd =>
      let term1 := (Fin du * dd)%xr in
      let term2 := xsqrt (m_nu m / s)%xr in
      bind (ode_impl m x [s]) (fun rhs => bind (comp 0 rhs) (fun dsol =>
      bind (q_shape_d m x) (fun h =>
      let term3 := (Fin (5/10) * Fin u * h * dsol)%xr in
      bind (calc_lambda m x s) (fun lam =>
      match m_fit m with
      | None => Err AttributeError
      | Some f =>
          let term4 := (Fin u * s * shape_p f lam)%xr in
          bind (q_d2u_e m x) (fun d2u =>
          let term5 := (Fin du * dsol + Fin d2u * s)%xr in
          Ok (term1 + term2 * (term3 + term4 * term5))%xr)
      end))))))))
  end).
