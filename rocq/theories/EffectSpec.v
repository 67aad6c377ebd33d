(** Vocabulary for properties of method objects that run the user's code (EffectModel). *)
From Coq Require Import Reals List String Bool ZArith.
From Verif Require Import PyBase InitialConditionModel ThwaitesFitsModel HeadModel CoreModel
  EffectModel.
Import ListNotations.
Open Scope R_scope.

(* ------------------------------------------------------------------ *)
(** * Keeping a log of the calls of user code *)

(** The functions a user supplies. *)
Inductive supplied := Velocity | Gradient | SecondGradient | Event.

(** One call: the function, the position, and the exception if it raised one. *)
Record call := { c_who : supplied; c_at : R; c_raised : option exn }.

Definition outcome {A} (r : res A) : option exn :=
  match r with Ok _ => None | Err e => Some e end.

(** A user function that also writes every call of it to a log. *)
Definition log_ret {St} (r : uret St) : uret (St * list call) :=
  {| u_val := u_val _ r; u_write := fun v p => (u_write _ r v (fst p), snd p) |}.
Definition res_map {A B} (h : A -> B) (r : res A) : res B :=
  match r with Ok a => Ok (h a) | Err e => Err e end.
Definition logged {St} (w : supplied) (f : ufun St) : ufun (St * list call) := fun x p =>
  let (o, s) := f x (fst p) in
  (res_map log_ret o, (s, snd p ++ [{| c_who := w; c_at := x; c_raised := outcome o |}])).
Definition logged_event {St} (g : R -> list xr -> eff St xr)
  : R -> list xr -> eff (St * list call) xr := fun x y p =>
  let (o, s) := g x y (fst p) in
  (o, (s, snd p ++ [{| c_who := Event; c_at := x; c_raised := outcome o |}])).

(** The method object with all the user's functions logged. *)
Definition watch_slot {St} (w : supplied) (v : option (eslot St))
  : option (eslot (St * list call)) :=
  match v with
  | None => None
  | Some (EF _ f) => Some (EF _ (logged w f))
  | Some (EFd1U _) => Some (EFd1U _)
  | Some (EFd2U _) => Some (EFd2U _)
  | Some (EFd1DU _) => Some (EFd1DU _)
  | Some (EBad _) => Some (EBad _)
  end.
Definition watch_event {St} (e : eevent St) : eevent (St * list call) :=
  {| ee_reason := ee_reason _ e; ee_message := ee_message _ e; ee_terminal := ee_terminal _ e;
     ee_src := match ee_src _ e with
               | EEvUser _ g => EEvUser _ (logged_event g)
               | EEvThwaites _ f => EEvThwaites _ f
               | EEvHead _ c => EEvHead _ c
               end |}.
Definition watch {St} (m : emeth St) : emeth (St * list call) :=
  {| e_base := e_base _ m; e_u := watch_slot Velocity (e_u _ m);
     e_du := watch_slot Gradient (e_du _ m); e_d2u := watch_slot SecondGradient (e_d2u _ m);
     e_events := map watch_event (e_events _ m) |}.

(** No call raised. *)
Definition none_raised (log : list call) : Prop :=
  List.Forall (fun c => c_raised c = None) log.

(** The last call raised [e], no earlier one raised anything. *)
Definition last_raised (log : list call) (e : exn) : Prop :=
  exists before w x, log = before ++ [{| c_who := w; c_at := x; c_raised := Some e |}] /\
    none_raised before.

(** An exception of user code ends the operation and is its outcome. *)
Definition passed_on {A} (log : list call) (r : res A) : Prop :=
  none_raised log \/ exists e, last_raised log e /\ r = Err e.

(** The operation [c'] on the watched object does what [c] does on the object itself, and
    [log] are the calls made. *)
Definition calls_of {St A} (c : eff St A) (c' : eff (St * list call) A) (s : St)
    (log : list call) : Prop :=
  c' (s, []) = (fst (c s), (snd (c s), log)).

(** The same settings: velocity, kind, viscosity and data fit. *)
Definition same_settings {St} (m m' : emeth St) : Prop :=
  e_u _ m' = e_u _ m /\ e_du _ m' = e_du _ m /\ e_d2u _ m' = e_d2u _ m /\
  m_kind (e_base _ m') = m_kind (e_base _ m) /\ m_nu (e_base _ m') = m_nu (e_base _ m) /\
  m_fit (e_base _ m') = m_fit (e_base _ m).

(* ------------------------------------------------------------------ *)
(** * Where the user's functions are called *)

(** An integrator that asks for values at certain positions only, whatever the answers. *)
Fixpoint asks_only (Q : R -> Prop) (p : ask) : Prop :=
  match p with
  | Done _ => True
  | AskRhs x _ k => Q x /\ forall v, asks_only Q (k v)
  | AskEvent _ x _ k => Q x /\ forall v, asks_only Q (k v)
  end.
Definition asks_within (a b : R) : ask -> Prop := asks_only (fun x => a <= x <= b).

(** The velocity gradient comes from a function of its own. *)
Definition own_gradient {St} (m : emeth St) : Prop := exists f, e_du _ m = Some (EF _ f).

(** Velocity, gradient and second derivative are all functions of their own. *)
Definition own_functions {St} (m : emeth St) : Prop :=
  exists f g h, e_u _ m = Some (EF _ f) /\ e_du _ m = Some (EF _ g) /\ e_d2u _ m = Some (EF _ h).

(** A call permitted while integrating over [x0, x1]: never of the second derivative, and in
    the interval, except that a velocity without a gradient of its own is differenced. *)
Definition in_flow {St} (m : emeth St) (x0 x1 : R) (c : call) : Prop :=
  c_who c <> SecondGradient /\ x0 - 2/10000 <= c_at c <= x1 + 2/10000 /\
  (own_gradient m \/ c_who c <> Velocity -> x0 <= c_at c <= x1).

(** A call close to [x], and at [x] itself if [own]. *)
Definition near (own : Prop) (x : R) (c : call) : Prop :=
  x - 22/100000 <= c_at c <= x + 22/100000 /\ (own -> c_at c = x).

(* ------------------------------------------------------------------ *)
(** * User functions with hidden state *)

Section Hidden.
Context {St : Type}.
(** What the user's program keeps true of its state, for example that a cache holds the
    values it should. *)
Variable I : St -> Prop.

(** [F] returns the values of [f], as numbers of kind [k]. *)
Definition returns (F : ufun St) (f : R -> R) (k : retkind) : Prop :=
  forall x s, I s -> exists r s',
    F x s = (Ok r, s') /\ u_val _ r = ret_val k (Fin (f x)) /\ I s'.

(** Writing 0.001 into the array a slow velocity came in does not upset the user's state. *)
Definition may_be_written (F : ufun St) : Prop :=
  forall x s r s' a, I s -> F x s = (Ok r, s') -> u_val _ r = VArray (Fin a) ->
    Rabs a < 1/1000 -> forall t, I t -> I (u_write _ r (Fin (1/1000)) t).

Definition same_slot (e : option (eslot St)) (v : option vfun) : Prop :=
  match e, v with
  | None, None => True
  | Some (EF _ F), Some (VF f k) => returns F f k
  | Some (EFd1U _), Some VFd1U => True
  | Some (EFd2U _), Some VFd2U => True
  | Some (EFd1DU _), Some VFd1DU => True
  | Some (EBad _), Some VBad => True
  | _, _ => False
  end.

Definition same_event (e : eevent St) (v : event) : Prop :=
  ee_reason _ e = ev_reason v /\ ee_message _ e = ev_message v /\
  ee_terminal _ e = ev_terminal v /\
  match ee_src _ e, ev_src v with
  | EEvUser _ G, EvUser g =>
      forall x y s, I s -> exists s', G x y s = (Ok (g x y), s') /\ I s'
  | EEvThwaites _ f, EvThwaites f' => f = f'
  | EEvHead _ c, EvHead c' => c = c'
  | _, _ => False
  end.

(** The object [e] is the object [m] except that its functions have hidden state. *)
Definition same_method (e : emeth St) (m : meth) : Prop :=
  m_kind (e_base _ e) = m_kind m /\ m_nu (e_base _ e) = m_nu m /\ m_ic (e_base _ e) = m_ic m /\
  m_fit (e_base _ e) = m_fit m /\ m_sol (e_base _ e) = m_sol m /\
  same_slot (e_u _ e) (m_u m) /\ same_slot (e_du _ e) (m_du m) /\
  same_slot (e_d2u _ e) (m_d2u m) /\ Forall2 same_event (e_events _ e) (m_events m).

(** Head's method may write into the velocity. *)
Definition writable (e : emeth St) : Prop :=
  m_kind (e_base _ e) = Head -> forall F, e_u _ e = Some (EF _ F) -> may_be_written F.

(** A callable object with hidden state, and its pure counterpart. *)
Definition same_callable (e : ecallable St) (c : callable) : Prop :=
  returns (ec_fun _ e) (c_fun c) (c_ret c) /\
  match ec_deriv _ e, c_deriv c with
  | None, None => True
  | Some D, Some d => forall n s, I s -> exists s', I s' /\
      match d n with
      | Ok f => exists F, D n s = (Ok F, s') /\ returns F f (c_ret c)
      | Err x => D n s = (Err x, s')
      end
  | _, _ => False
  end.
Definition same_arg (a : earg St) (v : pyval) : Prop :=
  match a, v with
  | ANone _, PNone => True
  | ACall _ e, PCall c => same_callable e c
  | AOther _, PNone => False
  | AOther _, PCall _ => False
  | AOther _, _ => True
  | _, _ => False
  end.
End Hidden.

(** The integrator as a function of total functions, as CoreModel has it. *)
Definition solver_of (integrator : R -> R -> list xr -> list bool -> ask)
    (f : R -> list xr -> res (list xr)) (x0 x1 : R) (y0 : list xr)
    (evs : list (bool * (R -> list xr -> res xr))) : res ivp_result :=
  fst (run unit (integrator x0 x1 y0 (map fst evs)) (fun x y => elift _ (f x y))
           (map (fun e x y => elift _ (snd e x y)) evs) tt).
