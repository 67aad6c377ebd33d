(** Method objects whose velocity functions and events are arbitrary user code
    (ibl/ibl_method.py, ibl/thwaites_method.py, ibl/head_method.py).

    CoreModel takes the user's callables as total functions that neither raise nor change
    state.  Here a callable may raise, return nan or an infinity, change the state of the
    user's program, and hand out an array that it keeps (HeadMethod writes into the array it
    is given).  The integrator is an arbitrary finite procedure that asks for values of the
    right-hand side and of the events one at a time.

    Simplifications: positions are scalars; the user's code does not call the method object
    it is used by; an array keeps the value it was returned with until HeadMethod writes to
    it; custom data fits are total functions as in CoreModel; exceptions are told apart by
    their class only. *)
From Coq Require Import Reals List String Bool ZArith.
From Verif Require Import PyBase InitialConditionModel ThwaitesFitsModel HeadModel CoreModel.
Import ListNotations.
Open Scope R_scope.

Section Effects.
(** The state of the user's program. *)
Variable St : Type.

(** A computation: an outcome and the state it leaves. *)
Definition eff (A : Type) := St -> res A * St.
Definition eret {A} (a : A) : eff A := fun s => (Ok a, s).
Definition eraise {A} (e : exn) : eff A := fun s => (Err e, s).
Definition elift {A} (r : res A) : eff A := fun s => (r, s).
Definition ebind {A B} (c : eff A) (k : A -> eff B) : eff B :=
  fun s => match c s with (Ok a, s') => k a s' | (Err e, s') => (Err e, s') end.

(** What a velocity function returns: a value and, when it is an array the user's program
    still holds, what assigning to its element does to the state. *)
Record uret := { u_val : velval; u_write : xr -> St -> St }.
Definition fresh (v : velval) : uret := {| u_val := v; u_write := fun _ s => s |}.
Definition ufun := R -> eff uret.

(** A callable object, with the optional method [derivative]. *)
Record ecallable := { ec_fun : ufun; ec_deriv : option (nat -> eff ufun) }.
Inductive earg :=
| ANone
| ACall (c : ecallable)
| AOther.                    (* anything not callable *)

(** What sits in [_u_e], [_du_e], [_d2u_e], see [vfun] in CoreModel. *)
Inductive eslot :=
| EF (f : ufun)
| EFd1U
| EFd2U
| EFd1DU
| EBad.

(** ibl/ibl_method.py:155-243 [TermEvent], see [event] in CoreModel. *)
Inductive esrc :=
| EEvUser (g : R -> list xr -> eff xr)
| EEvThwaites (m : fit)
| EEvHead (crit : xr).
Record eevent := {
  ee_reason : reason;
  ee_message : string;
  ee_terminal : bool;
  ee_src : esrc }.

(** The method object: kind, viscosity, condition, data fit and solution are those of
    [e_base]; its velocity and event fields are not used. *)
Record emeth := {
  e_base : meth;
  e_u : option eslot;
  e_du : option eslot;
  e_d2u : option eslot;
  e_events : list eevent }.
Definition e_set_base m v := {| e_base := v; e_u := e_u m; e_du := e_du m; e_d2u := e_d2u m;
  e_events := e_events m |}.
Definition e_set_u m v := {| e_base := e_base m; e_u := v; e_du := e_du m; e_d2u := e_d2u m;
  e_events := e_events m |}.
Definition e_set_du m v := {| e_base := e_base m; e_u := e_u m; e_du := v; e_d2u := e_d2u m;
  e_events := e_events m |}.
Definition e_set_d2u m v := {| e_base := e_base m; e_u := e_u m; e_du := e_du m; e_d2u := v;
  e_events := e_events m |}.
Definition e_set_events m v := {| e_base := e_base m; e_u := e_u m; e_du := e_du m;
  e_d2u := e_d2u m; e_events := v |}.

(* ------------------------------------------------------------------ *)
(** * Velocity queries *)

(** ibl/ibl_method.py:407-410 [fd_1f], in Python's order of evaluation. *)
Definition e_fd_1f (f : ufun) (x dx : R) : eff uret :=
  ebind (f (x - 2 * dx)) (fun a => ebind (f (x + 2 * dx)) (fun b =>
  ebind (f (x - dx)) (fun c => ebind (f (x + dx)) (fun d =>
  let v r := vel_num (u_val r) in
  eret (fresh (VFloat (((v a - v b) / Fin 12 - Fin 2 * (v c - v d) / Fin 3) / Fin dx)%xr)))))).

(** ibl/ibl_method.py:411-415 [fd_2f]. *)
Definition e_fd_2f (f : ufun) (x dx : R) : eff uret :=
  ebind (f (x - 2 * dx)) (fun a => ebind (f (x + 2 * dx)) (fun b =>
  ebind (f x) (fun o =>
  ebind (f (x - dx)) (fun c => ebind (f (x + dx)) (fun d =>
  let v r := vel_num (u_val r) in
  eret (fresh (VFloat
    ((xneg (v a + v b) / Fin 12 - Fin (25/10) * v o + Fin 4 * (v c + v d) / Fin 3)
     / Fin (dx ^ 2))%xr))))))).

(** A slot called as a function; calling something not callable raises TypeError. *)
Definition e_call_u (m : emeth) : ufun := fun x =>
  match e_u m with Some (EF f) => f x | _ => eraise TypeError end.
Definition e_call_du (m : emeth) : ufun := fun x =>
  match e_du m with
  | Some (EF f) => f x
  | Some EFd1U => e_fd_1f (e_call_u m) x (1/10000)
  | _ => eraise TypeError
  end.
Definition e_call_d2u (m : emeth) : ufun := fun x =>
  match e_d2u m with
  | Some (EF f) => f x
  | Some EFd2U => e_fd_2f (e_call_u m) x (1/10000)
  | Some EFd1DU => e_fd_1f (e_call_du m) x (1/100000)
  | _ => eraise TypeError
  end.

(** ibl/ibl_method.py:601-622, 624-645, 647-668 [u_e], [du_e], [d2u_e]. *)
Definition eq_u_e (m : emeth) : ufun := fun x =>
  match e_u m with None => eraise ValueError | Some _ => e_call_u m x end.
Definition eq_du_e (m : emeth) : ufun := fun x =>
  match e_du m with None => eraise ValueError | Some _ => e_call_du m x end.
Definition eq_d2u_e (m : emeth) : ufun := fun x =>
  match e_d2u m with None => eraise ValueError | Some _ => e_call_d2u m x end.

(** The number a query returns. *)
Definition number (c : eff uret) : eff xr := ebind c (fun r => eret (vel_num (u_val r))).

(* ------------------------------------------------------------------ *)
(** * set_velocity with a callable velocity *)

Definition e_as_slot (a : earg) : eslot := match a with ACall c => EF (ec_fun c) | _ => EBad end.

(** ibl/ibl_method.py:418-471, see [set_velocity_callable] in CoreModel.  (Velocities given
    by points or by a number run no user code.) *)
Definition e_set_velocity (m : emeth) (c : ecallable) (du d2u : earg) (s : St)
  : (emeth * res unit) * St :=
  let m1 := e_set_u m (Some (EF (ec_fun c))) in
  match du with
  | ANone =>
      match d2u with
      | ANone =>
          match ec_deriv c with
          | Some deriv =>
              match deriv 1%nat s with
              | (Err e, s1) => ((m1, Err e), s1)
              | (Ok d1, s1) =>
                  let m2 := e_set_du m1 (Some (EF d1)) in
                  match deriv 2%nat s1 with
                  | (Err e, s2) => ((m2, Err e), s2)
                  | (Ok d2, s2) => ((e_set_d2u m2 (Some (EF d2)), Ok tt), s2)
                  end
              end
          | None => ((e_set_d2u (e_set_du m1 (Some EFd1U)) (Some EFd2U), Ok tt), s)
          end
      | _ => ((m1, Err ValueError), s)
      end
  | ACall dc =>
      let m2 := e_set_du m1 (Some (EF (ec_fun dc))) in
      match d2u with
      | ANone =>
          match ec_deriv dc with
          | Some deriv =>
              match deriv 1%nat s with
              | (Err e, s1) => ((m2, Err e), s1)
              | (Ok d1, s1) => ((e_set_d2u m2 (Some (EF d1)), Ok tt), s1)
              end
          | None => ((e_set_d2u m2 (Some EFd1DU), Ok tt), s)
          end
      | _ => ((e_set_d2u m2 (Some (e_as_slot d2u)), Ok tt), s)
      end
  | AOther => ((m1, Err ValueError), s)
  end.

(* ------------------------------------------------------------------ *)
(** * The right-hand side and the events *)

(** ibl/thwaites_method.py:363-380 [_calc_lambda]. *)
Definition e_calc_lambda (m : emeth) (x : R) (s : xr) : eff xr :=
  ebind (number (eq_du_e m x)) (fun du => eret (s * du)%xr).

(** ibl/thwaites_method.py:426-452 and 476-500 [_calc_f]. *)
Definition e_calc_f (m : emeth) (x : R) (s : xr) : eff xr :=
  ebind (e_calc_lambda m x s) (fun lam =>
  match m_kind (e_base m) with
  | ThwaitesLinear => eret (Fin (45/100) - Fin 6 * lam)%xr
  | _ => match m_fit (e_base m) with
         | Some f => eret (fit_f f lam)
         | None => eraise AttributeError
         end
  end).

(** ibl/head_method.py:285-289: the lower bound on the velocity; an array is written to. *)
Definition e_floor (r : uret) : eff xr :=
  ebind (elift (ode_u_guard (u_val r))) (fun v s =>
  match u_val r with
  | VArray a => if xltb (xabs a) (Fin (1/1000)) then (Ok v, u_write r (Fin (1/1000)) s)
                else (Ok v, s)
  | _ => (Ok v, s)
  end).

(** ibl/thwaites_method.py:343-361 and ibl/head_method.py:262-300 [_ode_impl].  In Head's
    method the floor is applied before du_e is called; [head_rhs] applies it again, to the
    same effect. *)
Definition e_ode_impl (m : emeth) (x : R) (f : list xr) : eff (list xr) :=
  match m_kind (e_base m) with
  | Head =>
      match f with
      | [d; h] =>
          ebind (eq_u_e m x) (fun u => ebind (e_floor u) (fun _ =>
          ebind (eq_du_e m x) (fun du =>
          ebind (elift (head_rhs (m_nu (e_base m)) (u_val u) (u_val du) d h))
                (fun p => eret [fst p; snd p]))))
      | _ => eraise IndexError
      end
  | _ =>
      match f with
      | [s] => ebind (e_calc_f m x s) (fun F => ebind (number (eq_u_e m x)) (fun u =>
               eret [(F / (Fin (1/1000) + u))%xr]))
      | _ => eraise IndexError
      end
  end.

(** ibl/ibl_method.py:181-197 [TermEvent.__call__]. *)
Definition e_event_value (m : emeth) (e : eevent) (x : R) (f : list xr) : eff xr :=
  match ee_src e with
  | EEvUser g => g x f
  | EEvThwaites ft => match f with
                      | [s] => ebind (e_calc_lambda m x s) (fun lam => eret (shear ft lam))
                      | _ => eraise IndexError
                      end
  | EEvHead crit => match f with
                    | [_; h] => eret (head_event crit h)
                    | _ => eraise IndexError
                    end
  end.

(* ------------------------------------------------------------------ *)
(** * solve *)

(** An integrator at work: it is done, or asks for the right-hand side or for the value of
    event number [i] at a point and goes on with the answer.  Exceptions of the functions it
    calls are not caught (scipy's solve_ivp has no handler). *)
Inductive ask :=
| Done (r : res ivp_result)
| AskRhs (x : R) (y : list xr) (k : list xr -> ask)
| AskEvent (i : nat) (x : R) (y : list xr) (k : xr -> ask).

Fixpoint run (a : ask) (f : R -> list xr -> eff (list xr)) (g : list (R -> list xr -> eff xr))
  : eff ivp_result :=
  match a with
  | Done r => elift r
  | AskRhs x y k => ebind (f x y) (fun v => run (k v) f g)
  | AskEvent i x y k =>
      match nth_error g i with
      | Some h => ebind (h x y) (fun v => run (k v) f g)
      | None => eraise IndexError
      end
  end.

(** The event as [gather] of CoreModel looks at it: reason and message. *)
Definition plain_event (e : eevent) : event :=
  {| ev_reason := ee_reason e; ev_message := ee_message e; ev_terminal := ee_terminal e;
     ev_src := EvUser (fun _ _ => NaN) |}.

(** scipy.integrate.solve_ivp, given the interval, the initial state and the [terminal]
    attributes of the events. *)
Variable integrator : R -> R -> list xr -> list bool -> ask.

(** ibl/ibl_method.py:515-599 [solve], see [solve] in CoreModel. *)
Definition e_solve (m : emeth) (x0 x_end : R) (term_event : list eevent) (s : St)
  : (emeth * res int_result) * St :=
  match ic_set_nu (m_ic (e_base m)) (m_nu (e_base m)) with
  | (c, Err e) => ((e_set_base m (set_ic (e_base m) c), Err e), s)
  | (c, Ok _) =>
      let m1 := e_set_base m (set_ic (e_base m) c) in
      match number (eq_du_e m1 x0) s with
      | (Err e, s1) => ((m1, Err e), s1)
      | (Ok du, s1) =>
          let b2 := set_ic (e_base m1) (ic_set_du (m_ic (e_base m1)) du) in
          let m2 := e_set_base m1 b2 in
          match ode_setup b2 with
          | Err e => ((m2, Err e), s1)
          | Ok y0 =>
              let m3 := e_set_events m2 (e_events m2 ++ term_event) in
              match run (integrator x0 x_end y0 (map ee_terminal (e_events m3)))
                        (e_ode_impl m3) (map (e_event_value m3) (e_events m3)) s1 with
              | (Err e, s2) => ((m3, Err e), s2)
              | (Ok r, s2) =>
                  let b4 := set_sol b2 (if r_success r then Some (r_sol r) else None) in
                  ((e_set_base m3 b4,
                    gather x0 y0 (map plain_event (e_events m3)) r), s2)
              end
          end
      end
  end.

(* ------------------------------------------------------------------ *)
(** * Solution queries *)

(** ibl/thwaites_method.py:249-267, ibl/head_method.py:163-181 [shape_d]. *)
Definition eq_shape_d (m : emeth) (x : R) : eff xr :=
  ebind (elift (sol_at (e_base m) x)) (fun y =>
  match m_kind (e_base m) with
  | Head => elift (comp 1 y)
  | _ => ebind (elift (comp 0 y)) (fun s => ebind (e_calc_lambda m x s) (fun lam =>
         match m_fit (e_base m) with
         | Some f => eret (shape f lam)
         | None => eraise AttributeError
         end))
  end).

(** ibl/thwaites_method.py:195-209, ibl/head_method.py:110-123 [delta_d]. *)
Definition eq_delta_d (m : emeth) (x : R) : eff xr :=
  ebind (elift (q_delta_m (e_base m) x)) (fun d =>
  ebind (eq_shape_d m x) (fun h => eret (d * h)%xr)).

(** ibl/thwaites_method.py:287-307 [tau_w]; ibl/head_method.py:201-226 [tau_w], where item
    assignment on a float or int raises TypeError. *)
Definition eq_tau_w (m : emeth) (x rho : R) : eff xr :=
  ebind (elift (sol_at (e_base m) x)) (fun y =>
  match m_kind (e_base m) with
  | Head =>
      ebind (elift (comp 0 y)) (fun d => ebind (elift (comp 1 y)) (fun h =>
      ebind (eq_u_e m x) (fun u =>
      match u_val u with
      | VArray _ =>
          ebind (e_floor u) (fun v =>
          let re := (v * d / m_nu (e_base m))%xr in
          eret (Fin (5/10) * Fin rho * (v * v) * SkinFrictionModel.ludwieg_tillman re h)%xr)
      | _ => eraise TypeError
      end)))
  | _ =>
      ebind (elift (comp 0 y)) (fun s => ebind (e_calc_lambda m x s) (fun lam =>
      ebind (number (eq_u_e m x)) (fun u =>
      match m_fit (e_base m) with
      | None => eraise AttributeError
      | Some f => ebind (elift (q_delta_m (e_base m) x)) (fun d =>
          eret (Fin rho * m_nu (e_base m) * u * shear f lam / d)%xr)
      end)))
  end).

(** ibl/thwaites_method.py:165-192 and ibl/head_method.py:85-107 [v_e]. *)
Definition eq_v_e (m : emeth) (x : R) : eff xr :=
  ebind (elift (sol_at (e_base m) x)) (fun y =>
  match m_kind (e_base m) with
  | Head =>
      ebind (e_ode_impl m x y) (fun yp =>
      ebind (elift (comp 1 y)) (fun h =>
      ebind (number (eq_u_e m x)) (fun u => ebind (number (eq_du_e m x)) (fun du =>
      ebind (elift (comp 0 y)) (fun d =>
      ebind (elift (comp 0 yp)) (fun f0 => ebind (elift (comp 1 yp)) (fun f1 =>
      eret (du * h * d + u * f1 * d + u * h * f0)%xr)))))))
  | _ =>
      ebind (number (eq_u_e m x)) (fun u => ebind (number (eq_du_e m x)) (fun du =>
      ebind (elift (comp 0 y)) (fun s => ebind (eq_delta_d m x) (fun dd =>
      let term1 := (du * dd)%xr in
      let term2 := xsqrt (m_nu (e_base m) / s)%xr in
      ebind (e_ode_impl m x [s]) (fun rhs => ebind (elift (comp 0 rhs)) (fun dsol =>
      ebind (eq_shape_d m x) (fun h =>
      let term3 := (Fin (5/10) * u * h * dsol)%xr in
      ebind (e_calc_lambda m x s) (fun lam =>
      match m_fit (e_base m) with
      | None => eraise AttributeError
      | Some f =>
          let term4 := (u * s * shape_p f lam)%xr in
          ebind (number (eq_d2u_e m x)) (fun d2u =>
          let term5 := (du * dsol + d2u * s)%xr in
          eret (term1 + term2 * (term3 + term4 * term5))%xr)
      end))))))))
  end).

End Effects.
