(** Theorems about method objects that run the user's code (C128-C130). *)
From Coq Require Import Reals List String Bool ZArith Lra.
From Verif Require Import PyBase PyBaseFacts InitialConditionModel ThwaitesFitsModel HeadModel CoreModel
  EffectModel EffectSpec EffectProofs EffectPureProofs.
Import ListNotations.
Open Scope R_scope.

(* ------------------------------------------------------------------ *)
(** * C128 *)

(** C128: an exception raised by a user's velocity function or event while solving is the
    last thing user code does and is what solve raises; the settings and the previous
    solution are as before.  The log of the calls is kept by [watch], which changes nothing
    else. *)
Theorem user_exceptions : forall St integrator (m : emeth St) x0 x1 l s m' r s',
  e_solve St integrator m x0 x1 l s = ((m', r), s') ->
  exists log,
    e_solve _ integrator (watch m) x0 x1 (map watch_event l) (s, []) =
      ((watch m', r), (s', log)) /\
    (none_raised log \/
     exists e, last_raised log e /\ r = Err e /\ m_sol (e_base _ m') = m_sol (e_base _ m)) /\
    same_settings m m'.
Proof. exact user_exceptions_lemma. Qed.
Print Assumptions user_exceptions.

(** C128, the queries. *)
Theorem query_exceptions : forall St (m : emeth St) x rho s,
  (exists log, calls_of (number _ (eq_u_e _ m x)) (number _ (eq_u_e _ (watch m) x)) s log /\
     passed_on log (fst (number _ (eq_u_e _ m x) s))) /\
  (exists log, calls_of (number _ (eq_du_e _ m x)) (number _ (eq_du_e _ (watch m) x)) s log /\
     passed_on log (fst (number _ (eq_du_e _ m x) s))) /\
  (exists log, calls_of (number _ (eq_d2u_e _ m x)) (number _ (eq_d2u_e _ (watch m) x)) s log /\
     passed_on log (fst (number _ (eq_d2u_e _ m x) s))) /\
  (exists log, calls_of (eq_shape_d _ m x) (eq_shape_d _ (watch m) x) s log /\
     passed_on log (fst (eq_shape_d _ m x s))) /\
  (exists log, calls_of (eq_delta_d _ m x) (eq_delta_d _ (watch m) x) s log /\
     passed_on log (fst (eq_delta_d _ m x s))) /\
  (exists log, calls_of (eq_tau_w _ m x rho) (eq_tau_w _ (watch m) x rho) s log /\
     passed_on log (fst (eq_tau_w _ m x rho s))) /\
  (exists log, calls_of (eq_v_e _ m x) (eq_v_e _ (watch m) x) s log /\
     passed_on log (fst (eq_v_e _ m x s))).
Proof. exact query_exceptions_lemma. Qed.
Print Assumptions query_exceptions.

(** Instance: a velocity that is defined up to 1/2 only, with a gradient of its own; the
    integrator asks for values at 0 and 1. *)
Definition half_unit : ecallable unit :=
  {| ec_fun := fun x s => if Rltb (1/2) x then (Err OtherError, s)
                          else (Ok (fresh unit (VFloat (Fin (1 + x)))), s);
     ec_deriv := None |}.
Definition unit_gradient : ecallable unit :=
  {| ec_fun := fun x s => (Ok (fresh unit (VFloat (Fin 1))), s); ec_deriv := None |}.
Example user_exceptions_example : exists m m',
  e_set_velocity unit (ebare unit ThwaitesLinear) half_unit (ACall _ unit_gradient) (ANone _) tt =
    ((m, Ok tt), tt) /\
  e_solve unit two_ends m 0 1 [] tt = ((m', Err OtherError), tt).
Proof.
  do 2 eexists. split; [reflexivity|].
  unfold e_solve, ic_set_nu. cbn -[Rltb Rleb xadd xmul xdiv xsub].
  rewrite (Rleb_false 1 0) by lra. cbn -[Rltb Rleb xadd xmul xdiv xsub].
  unfold py_div. cbn -[Rltb Rleb xadd xmul xdiv xsub].
  unfold xeqb, Reqb. destruct (Req_EM_T 1 0) as [E|_]; [lra|].
  cbn -[Rltb Rleb xadd xmul xdiv xsub].
  unfold e_ode_impl, e_calc_f, e_calc_lambda, number, eq_du_e, eq_u_e, e_call_u, e_call_du,
    ebind, eret. cbn -[Rltb Rleb xadd xmul xdiv xsub].
  rewrite (Rltb_false (1/2) 0) by lra. cbn -[Rltb Rleb xadd xmul xdiv xsub].
  rewrite (Rltb_true (1/2) 1) by lra. cbn -[Rltb Rleb xadd xmul xdiv xsub].
  reflexivity.
Qed.

(* ------------------------------------------------------------------ *)
(** * C129 *)

(** C129, as wanted: refuted.  The velocity is a fine function of every x >= 0, but solving
    over [0, 1] calls it at -2e-4 to difference it. *)
Theorem calls_in_interval_refuted : forall integrator,
  exists (m : emeth unit) (c : ecallable unit) m',
  (forall x s, 0 <= x -> exists r, ec_fun _ c x s = (Ok r, s)) /\
  e_set_velocity _ m c (ANone _) (ANone _) tt = ((m', Ok tt), tt) /\
  snd (fst (e_solve _ integrator m' 0 1 [] tt)) = Err ValueError.
Proof. exact solve_outside_lemma. Qed.
Print Assumptions calls_in_interval_refuted.

(** C129: an integrator that looks at the interval only makes solve call the user's functions
    in the interval only, except for the velocity when it is differenced (2e-4 more on each
    side); the second derivative is not called at all. *)
Theorem calls_in_interval_partial : forall St integrator (m : emeth St) x0 x1 l s,
  x0 <= x1 -> (forall y0 t, asks_within x0 x1 (integrator x0 x1 y0 t)) ->
  exists log,
    let o := e_solve St integrator m x0 x1 l s in
    e_solve _ integrator (watch m) x0 x1 (map watch_event l) (s, []) =
      ((watch (fst (fst o)), snd (fst o)), (snd o, log)) /\
    List.Forall (in_flow m x0 x1) log.
Proof. exact solve_positions_lemma. Qed.
Print Assumptions calls_in_interval_partial.

(** C129, the queries: calls are made at the position asked for, or within 2.2e-4 of it when
    derivatives are differenced. *)
Theorem query_calls : forall St (m : emeth St) x rho s,
  (exists log, calls_of (number _ (eq_u_e _ m x)) (number _ (eq_u_e _ (watch m) x)) s log /\
     List.Forall (near True x) log) /\
  (exists log, calls_of (number _ (eq_du_e _ m x)) (number _ (eq_du_e _ (watch m) x)) s log /\
     List.Forall (near (own_functions m) x) log) /\
  (exists log, calls_of (number _ (eq_d2u_e _ m x)) (number _ (eq_d2u_e _ (watch m) x)) s log /\
     List.Forall (near (own_functions m) x) log) /\
  (exists log, calls_of (eq_shape_d _ m x) (eq_shape_d _ (watch m) x) s log /\
     List.Forall (near (own_functions m) x) log) /\
  (exists log, calls_of (eq_delta_d _ m x) (eq_delta_d _ (watch m) x) s log /\
     List.Forall (near (own_functions m) x) log) /\
  (exists log, calls_of (eq_tau_w _ m x rho) (eq_tau_w _ (watch m) x rho) s log /\
     List.Forall (near (own_functions m) x) log) /\
  (exists log, calls_of (eq_v_e _ m x) (eq_v_e _ (watch m) x) s log /\
     List.Forall (near (own_functions m) x) log).
Proof. exact query_positions_lemma. Qed.
Print Assumptions query_calls.

(** C129: setting a velocity calls neither function, only [derivative] where there is one. *)
Theorem set_velocity_calls_nothing : forall St (m : emeth St) c du d2u s,
  ec_deriv _ c = None -> (forall dc, du = ACall _ dc -> ec_deriv _ dc = None) ->
  snd (e_set_velocity St m c du d2u s) = s.
Proof. exact set_velocity_silent. Qed.
Print Assumptions set_velocity_calls_nothing.

Example calls_in_interval_example :
  (0 <= 1) /\ (forall y0 t, asks_within 0 1 (two_ends 0 1 y0 t)) /\
  own_gradient {| e_base := bare Head; e_u := Some (EF _ (ec_fun _ half_unit));
    e_du := Some (EF _ (ec_fun _ unit_gradient)); e_d2u := None; e_events := [] |}.
Proof.
  split; [lra|]. split.
  - intros y0 t. cbn. split; [lra|]. intros _. split; [lra|]. intros _. exact Logic.I.
  - eexists. reflexivity.
Qed.

(* ------------------------------------------------------------------ *)
(** * C130 *)

(** C130, as wanted: refuted.  A velocity array that the user's program keeps and hands out
    again is overwritten by Head's method: the velocity was 0, and after a query of the
    transpiration velocity it is 0.001. *)
Theorem hidden_state_refuted : exists (St : Type) (I : St -> Prop) e m s x,
  same_method I e m /\ I s /\
  fst (number _ (eq_u_e St e x) s) = Ok (Fin 0) /\
  (exists v, fst (eq_v_e St e x s) = Ok v) /\
  fst (number _ (eq_u_e St e x) (snd (eq_v_e St e x s))) = Ok (Fin (1/1000)).
Proof. exact hidden_state_refuted_lemma. Qed.
Print Assumptions hidden_state_refuted.

(** C130: functions with hidden state that return the values of ordinary functions give the
    results of those functions, provided that with Head's method the arrays handed out may
    be written to.  Solving: *)
Theorem hidden_state_solve_partial : forall St (I : St -> Prop) integrator e m x0 x1 el l s,
  same_method I e m -> writable I e -> Forall2 (same_event I) el l -> I s ->
  exists e' s',
    e_solve St integrator e x0 x1 el s =
      ((e', snd (solve (solver_of integrator) m x0 x1 l)), s') /\
    same_method I e' (fst (solve (solver_of integrator) m x0 x1 l)) /\ writable I e' /\ I s'.
Proof. exact hidden_solve_lemma. Qed.
Print Assumptions hidden_state_solve_partial.

(** C130: setting the velocity. *)
Theorem hidden_state_set_velocity_partial :
  forall St (I : St -> Prop) pchip e m c c' du du' d2u d2u' s,
  same_method I e m -> same_callable I c c' -> same_arg I du du' -> same_arg I d2u d2u' -> I s ->
  exists e' s',
    e_set_velocity St e c du d2u s =
      ((e', snd (set_velocity pchip m (PCall c') du' d2u')), s') /\
    same_method I e' (fst (set_velocity pchip m (PCall c') du' d2u')) /\ I s'.
Proof. exact hidden_set_velocity_lemma. Qed.
Print Assumptions hidden_state_set_velocity_partial.

(** C130: the queries. *)
Theorem hidden_state_queries_partial : forall St (I : St -> Prop) e m x rho s,
  same_method I e m -> writable I e -> I s ->
  (exists s', number _ (eq_u_e St e x) s = (res_map Fin (q_u_e m x), s') /\ I s') /\
  (exists s', number _ (eq_du_e St e x) s = (res_map Fin (q_du_e m x), s') /\ I s') /\
  (exists s', number _ (eq_d2u_e St e x) s = (res_map Fin (q_d2u_e m x), s') /\ I s') /\
  q_delta_m (e_base _ e) x = q_delta_m m x /\
  (exists s', eq_shape_d St e x s = (q_shape_d m x, s') /\ I s') /\
  (exists s', eq_delta_d St e x s = (q_delta_d m x, s') /\ I s') /\
  (m_kind m <> Head -> exists s', eq_tau_w St e x rho s = (q_tau_w_thwaites m x rho, s') /\ I s') /\
  ((m_kind m = Head -> exists d, q_du_e m x = Ok d) ->
   exists s', eq_v_e St e x s = (q_v_e m x, s') /\ I s').
Proof. exact hidden_queries_lemma. Qed.
Print Assumptions hidden_state_queries_partial.

(** Instance: a velocity function that remembers its last value, set on a new object. *)
Example hidden_state_example : exists e m,
  e_set_velocity _ (ebare _ ThwaitesLinear) remembering_callable (ANone _) (ANone _) None =
    ((e, Ok tt), None) /\
  set_velocity (fun _ _ => Err OtherError) (bare ThwaitesLinear) (PCall plain_callable) PNone PNone =
    (m, Ok tt) /\
  same_method memory_right e m /\ writable memory_right e /\ memory_right None.
Proof.
  do 2 eexists. split; [reflexivity|]. split; [reflexivity|].
  split; [|split; [intros H; discriminate H|exact Logic.I]].
  repeat split; try constructor. exact remembering_returns.
Qed.
