(** Calls as sequences of atomic steps, to speak about threads and about interrupted calls
    (ibl/ibl_method.py, ibl/thwaites_method.py, ibl/head_method.py).

    CoreModel runs every call to its end before the next begins.  Here a call is a program
    that reads or writes attributes of the shared objects one at a time; other threads may
    run between any two steps, and an asynchronous exception (KeyboardInterrupt) may end a
    call after any step.  The library itself uses no locks.

    Simplifications: attribute reads and writes and [list.__iadd__] are atomic (CPython's
    interpreter lock); a call of a velocity function or of delta_m() of a condition reads
    what it needs in one step; the user's functions are total and without side effects as
    in CoreModel; the integrator goes by the event list it found at its start. *)
From Coq Require Import Reals List String Bool ZArith.
From Verif Require Import PyBase FiniteDiffModel PPolyModel InitialConditionModel
  ThwaitesFitsModel HeadModel CoreModel WorkflowModel EffectModel.
Import ListNotations.
Open Scope R_scope.

(** A program: it has returned (or raised), reads the objects and goes on with what it has
    seen, or changes them and goes on. *)
Inductive prog (A : Type) :=
| Ret (r : res A)
| Get (k : world -> prog A)
| Put (g : world -> world) (p : prog A).
Arguments Ret {A} r.
Arguments Get {A} k.
Arguments Put {A} g p.

(** Go on with the outcome of a program; with its value. *)
Fixpoint pcatch {A B} (p : prog A) (k : res A -> prog B) : prog B :=
  match p with
  | Ret r => k r
  | Get h => Get (fun w => pcatch (h w) k)
  | Put g q => Put g (pcatch q k)
  end.
Definition pbind {A B} (p : prog A) (k : A -> prog B) : prog B :=
  pcatch p (fun r => match r with Ok a => k a | Err e => Ret (Err e) end).
(** One read of a value that may raise. *)
Definition get {A} (f : world -> res A) : prog A := Get (fun w => Ret (f w)).
Definition put (g : world -> world) : prog unit := Put g (Ret (Ok tt)).

(** Changing one method object, one condition object. *)
Definition on_meth (i : nat) (g : meth -> meth) (w : world) : world :=
  {| w_conds := w_conds w; w_meths := upd (w_meths w) i (g (w_meths w i));
     w_ref := w_ref w; w_next := w_next w |}.
Definition on_cond (r : nat) (g : ic -> ic) (w : world) : world :=
  {| w_conds := upd (w_conds w) r (g (w_conds w r)); w_meths := w_meths w;
     w_ref := w_ref w; w_next := w_next w |}.
Definition set_ref (i r : nat) (w : world) : world :=
  {| w_conds := w_conds w; w_meths := w_meths w; w_ref := upd (w_ref w) i r;
     w_next := w_next w |}.

Section Calls.
Variable integrator : R -> R -> list xr -> list bool -> ask.

(** ibl/thwaites_method.py:363-380 [_calc_lambda]. *)
Definition lambda_prog (i : nat) (x : R) (s : xr) : prog xr :=
  get (fun w => calc_lambda (w_meths w i) x s).

(** ibl/thwaites_method.py:343-361, 426-452, 476-500 and ibl/head_method.py:262-300
    [_ode_impl]. *)
Definition rhs_prog (i : nat) (x : R) (f : list xr) : prog (list xr) :=
  Get (fun w0 =>
  match m_kind (w_meths w0 i) with
  | Head =>
      match f with
      | [d; h] =>
          pbind (get (fun w => bind (q_u_e (w_meths w i) x) (fun u =>
                   Ok (ret_val (slot_kind (m_u (w_meths w i))) (Fin u))))) (fun u =>
          pbind (get (fun w => bind (q_du_e (w_meths w i) x) (fun du =>
                   Ok (ret_val (slot_kind (m_du (w_meths w i))) (Fin du))))) (fun du =>
          get (fun w => bind (head_rhs (m_nu (w_meths w i)) u du d h)
                          (fun p => Ok [fst p; snd p]))))
      | _ => Ret (Err IndexError)
      end
  | k =>
      match f with
      | [s] =>
          pbind (lambda_prog i x s) (fun lam =>
          pbind (match k with
                 | ThwaitesLinear => Ret (Ok (Fin (45/100) - Fin 6 * lam)%xr)
                 | _ => get (fun w => match m_fit (w_meths w i) with
                                      | Some ft => Ok (fit_f ft lam)
                                      | None => Err AttributeError
                                      end)
                 end) (fun F =>
          get (fun w => bind (q_u_e (w_meths w i) x) (fun u =>
                 Ok [(F / (Fin (1/1000) + Fin u))%xr]))))
      | _ => Ret (Err IndexError)
      end
  end).

(** ibl/ibl_method.py:181-197 [TermEvent.__call__]. *)
Definition event_prog (i : nat) (e : event) (x : R) (f : list xr) : prog xr :=
  get (fun w => event_value (w_meths w i) e x f).

(** scipy.integrate.solve_ivp at work. *)
Fixpoint run_prog (i : nat) (evs : list event) (a : ask) : prog ivp_result :=
  match a with
  | Done r => Ret r
  | AskRhs x y k => pbind (rhs_prog i x y) (fun v => run_prog i evs (k v))
  | AskEvent j x y k =>
      match nth_error evs j with
      | Some e => pbind (event_prog i e x y) (fun v => run_prog i evs (k v))
      | None => Ret (Err IndexError)
      end
  end.

(** ibl/thwaites_method.py:328-340 and ibl/head_method.py:247-259 [_ode_setup]. *)
Definition setup_prog (i : nat) : prog (list xr) :=
  pbind (get (fun w => ic_delta_m (m_ic (view w i)))) (fun d =>
  get (fun w => match m_kind (w_meths w i) with
                | Head => bind (ic_shape_d (m_ic (view w i))) (fun h => Ok [d; h])
                | _ => bind (py_div (xsq d) (m_nu (w_meths w i))) (fun s => Ok [s])
                end)).

(** ibl/ibl_method.py:571-574: [self._solution = None], then the new solution. *)
Definition store_prog (i : nat) (r : ivp_result) : prog unit :=
  pbind (put (on_meth i (fun m => set_sol m None))) (fun _ =>
  if r_success r then put (on_meth i (fun m => set_sol m (Some (r_sol r)))) else Ret (Ok tt)).

(** ibl/ibl_method.py:545-566: up to the integrator's answer. *)
Definition before_prog (i : nat) (x0 x1 : R) (l : list event) : prog (list xr * ivp_result) :=
  (* self._ic.nu = self._nu *)
  pbind (get (fun w => Ok (m_nu (w_meths w i)))) (fun nu =>
  pbind (get (fun w => Ok (w_ref w i))) (fun r =>
  pbind (if xleb nu (Fin 0) then Ret (Err ValueError)
         else put (on_cond r (fun c => fst (ic_set_nu c nu)))) (fun _ =>
  (* self._ic.du_e = float(self.du_e(x0)) *)
  pbind (get (fun w => q_du_e (w_meths w i) x0)) (fun du =>
  pbind (get (fun w => Ok (w_ref w i))) (fun r' =>
  pbind (put (on_cond r' (fun c => ic_set_du c (Fin du)))) (fun _ =>
  pbind (setup_prog i) (fun y0 =>
  (* kill_events += term_event *)
  pbind (put (on_meth i (fun m => add_kill_events m l))) (fun _ =>
  pbind (get (fun w => Ok (m_events (w_meths w i)))) (fun evs =>
  pbind (run_prog i evs (integrator x0 x1 y0 (map ev_terminal evs))) (fun a =>
  Ret (Ok (y0, a)))))))))))).

(** ibl/ibl_method.py:515-599 [solve]. *)
Definition solve_prog (i : nat) (x0 x1 : R) (l : list event) : prog int_result :=
  pbind (before_prog i x0 x1 l) (fun p =>
  pbind (store_prog i (snd p)) (fun _ =>
  get (fun w => gather x0 (fst p) (m_events (w_meths w i)) (snd p)))).

(** The test of [_solution] against None and the later use of it
    (ibl/thwaites_method.py:226-229, 263-267; ibl/head_method.py:141-144, 178-181). *)
Definition sol_prog (i : nat) (x : R) : prog (list xr) :=
  pbind (get (fun w => match m_sol (w_meths w i) with None => Err ValueError | Some _ => Ok tt end)) (fun _ =>
  get (fun w => match m_sol (w_meths w i) with None => Err TypeError | Some s => Ok (s x) end)).

(** ibl/thwaites_method.py:212-229 and ibl/head_method.py:126-144 [delta_m]. *)
Definition delta_m_prog (i : nat) (x : R) : prog xr :=
  pbind (sol_prog i x) (fun y =>
  get (fun w => bind (comp 0 y) (fun s =>
    match m_kind (w_meths w i) with Head => Ok s | _ => Ok (xsqrt (s * m_nu (w_meths w i))%xr) end))).

(** ibl/thwaites_method.py:249-267 and ibl/head_method.py:163-181 [shape_d]. *)
Definition shape_d_prog (i : nat) (x : R) : prog xr :=
  pbind (sol_prog i x) (fun y =>
  Get (fun w => match m_kind (w_meths w i) with
                | Head => Ret (comp 1 y)
                | _ => match comp 0 y with
                       | Err e => Ret (Err e)
                       | Ok s => pbind (lambda_prog i x s) (fun lam =>
                           get (fun w => match m_fit (w_meths w i) with
                                         | Some f => Ok (shape f lam)
                                         | None => Err AttributeError
                                         end))
                       end
                end)).

(** ibl/thwaites_method.py:195-209 and ibl/head_method.py:110-123 [delta_d]. *)
Definition delta_d_prog (i : nat) (x : R) : prog xr :=
  pbind (delta_m_prog i x) (fun d => pbind (shape_d_prog i x) (fun h => Ret (Ok (d * h)%xr))).

(** ibl/ibl_method.py:366-370 setter of [nu]. *)
Definition set_nu_prog (i : nat) (v : xr) : prog unit :=
  if xleb v (Fin 0) then Ret (Err ValueError) else put (on_meth i (fun m => set_nu_field m v)).

(** ibl/thwaites_method.py:75-79 and ibl/head_method.py:47-51, setter of [initial_delta_m]. *)
Definition set_delta_m_prog (i : nat) (v : xr) : prog unit :=
  if xleb v (Fin 0) then Ret (Err ValueError)
  else pbind (get (fun w => Ok (w_ref w i))) (fun r => put (on_cond r (fun c => ic_assign_del_m c v))).

(** ibl/ibl_method.py:418-470 [set_velocity] with three functions. *)
Definition set_velocity_prog (i : nat) (u du d2u : callable) : prog unit :=
  pbind (put (on_meth i (fun m => set_u m (Some (as_slot (PCall u)))))) (fun _ =>
  pbind (put (on_meth i (fun m => set_du m (Some (as_slot (PCall du)))))) (fun _ =>
  put (on_meth i (fun m => set_d2u m (Some (as_slot (PCall d2u))))))).

(** What a thread may call, and what a call returns. *)
Inductive tcall :=
| TSolve (i : nat) (x0 x1 : R) (l : list event)
| TDeltaM (i : nat) (x : R)
| TShapeD (i : nat) (x : R)
| TDeltaD (i : nat) (x : R)
| TSetNu (i : nat) (v : xr)
| TSetDeltaM (i : nat) (v : xr)
| TSetVelocity (i : nat) (u du d2u : callable)
| TSetCondition (i r : nat).           (* ibl/ibl_method.py:372-381 *)
Inductive answer :=
| ANothing
| ANumber (v : xr)
| AResult (r : int_result).

Definition call_prog (c : tcall) : prog answer :=
  match c with
  | TSolve i x0 x1 l => pbind (solve_prog i x0 x1 l) (fun r => Ret (Ok (AResult r)))
  | TDeltaM i x => pbind (delta_m_prog i x) (fun v => Ret (Ok (ANumber v)))
  | TShapeD i x => pbind (shape_d_prog i x) (fun v => Ret (Ok (ANumber v)))
  | TDeltaD i x => pbind (delta_d_prog i x) (fun v => Ret (Ok (ANumber v)))
  | TSetNu i v => pbind (set_nu_prog i v) (fun _ => Ret (Ok ANothing))
  | TSetDeltaM i v => pbind (set_delta_m_prog i v) (fun _ => Ret (Ok ANothing))
  | TSetVelocity i u du d2u => pbind (set_velocity_prog i u du d2u) (fun _ => Ret (Ok ANothing))
  | TSetCondition i r => pbind (put (set_ref i r)) (fun _ => Ret (Ok ANothing))
  end.

(** A thread makes its calls one after the other (and catches exceptions); its result is
    the list of the outcomes. *)
Fixpoint thread (l : list tcall) : prog (list (res answer)) :=
  match l with
  | [] => Ret (Ok [])
  | c :: t => pcatch (call_prog c) (fun r => pbind (thread t) (fun rs => Ret (Ok (r :: rs))))
  end.

End Calls.

(** One step of a program; [n] steps of it, nothing else running; all of it. *)
Definition pstep {A} (p : prog A) (w : world) : prog A * world :=
  match p with
  | Ret r => (Ret r, w)
  | Get k => (k w, w)
  | Put g q => (q, g w)
  end.
Fixpoint psteps {A} (n : nat) (p : prog A) (w : world) : prog A * world :=
  match n with O => (p, w) | S k => let (q, v) := pstep p w in psteps k q v end.
Fixpoint finish {A} (p : prog A) (w : world) : res A * world :=
  match p with
  | Ret r => (r, w)
  | Get k => finish (k w) w
  | Put g q => finish q (g w)
  end.

(** Threads under a schedule: the list of who makes the next step. *)
Fixpoint schedule {A} (ps : nat -> prog A) (w : world) (l : list nat) : (nat -> prog A) * world :=
  match l with
  | [] => (ps, w)
  | k :: t => let (q, v) := pstep (ps k) w in schedule (upd ps k q) v t
  end.
