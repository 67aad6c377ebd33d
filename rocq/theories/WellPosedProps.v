(** Properties C111-C114: Thwaites' equation as an initial value problem.
    [velocity_at], [solves1_at]: see OdeSpec; [residual1_at]: WellPosedSpec; [agree]: FlatPlateSpec;
    [cubic_spline_ok]: SplineSpec; [exact_ivp], [exact_quad], [exact_bisect]: BlasiusSpec. *)
From Coq Require Import Reals List Lra.
From Coquelicot Require Import Coquelicot.
From Verif Require Import PyBase PyBaseFacts ThwaitesFitsModel SplineSpec SplineProofs CoreModel CoreRefute OdeSpec
  SimilarityModel SimilaritySpec BlasiusSpec BlasiusExistProofs ThwaitesOdeProofs FitLipschitzProofs WellPosedProofs WellPosedSpec WellPosedOdeProofs WhiteExistProofs
  FlatPlateSpec FlatPlateProofs.
Import ListNotations.
Open Scope R_scope.

(** A Thwaites object with viscosity 1 and the given velocity, gradient, fit and solution. *)
Definition w_thwaites_of (k : mkind) (U dU : R -> R) (f : fit) (s : R -> R) : meth :=
  {| m_kind := k; m_nu := Fin 1; m_u := Some (VF U KFloat);
     m_du := Some (VF dU KFloat); m_d2u := Some VFd1DU;
     m_ic := InitialConditionModel.new_manual (Fin 0) PInf (Fin 0); m_fit := Some f;
     m_events := [thwaites_event f]; m_sol := Some (fun x => [Fin (s x)]) |}.
Lemma w_velocity k U dU f s x : is_derive U x (dU x) ->
  velocity_at (w_thwaites_of k U dU f s) U (dU x) x.
Proof.
  intros D. split; [|split; [exact D|reflexivity]].
  exists (mkposreal 1 Rlt_0_1). intros; reflexivity.
Qed.

(* ---------------------------------------------------------------- C111 *)
Theorem nonlinear_solution_unique : forall m f cs U dU a b s0,
  m_kind m = ThwaitesNonlinear -> m_fit m = Some f ->
  cubic_spline_ok cs -> f = fit_spline cs \/ f = fit_cb \/ f = fit_drela -> a <= b ->
  (forall x, a <= x <= b -> velocity_at m U (dU x) x /\ continuous dU x /\ 0 < U x + 1/1000) -> 0 < s0 ->
  exists s, s a = s0 /\ (forall x, a <= x <= b -> solves1_at m s x /\ 0 < s x) /\
    forall s2, s2 a = s0 -> (forall x, a <= x <= b -> solves1_at m s2 x) ->
      forall x, a <= x <= b -> s2 x = s x.
Proof. exact nonlinear_problem_lemma. Qed.
Print Assumptions nonlinear_solution_unique.

(** Decelerating flow, U = 2 - x, with the default fit. *)
Example nonlinear_solution_case :
  let m := w_thwaites_of ThwaitesNonlinear (fun x => 2 - x) (fun _ => -1) (fit_spline table_splines) (fun _ => 0) in
  cubic_spline_ok table_splines /\
  forall x, 0 <= x <= 1 -> velocity_at m (fun x => 2 - x) (-1) x /\ continuous (fun _ : R => -1) x /\ 0 < 2 - x + 1/1000.
Proof.
  split; [exact table_splines_ok|]. intros x Hx. split; [|split; [apply continuous_const|lra]].
  apply (w_velocity _ _ (fun _ => -1)). auto_derive; [exact I|lra].
Qed.

(* ---------------------------------------------------------------- C112 *)
Theorem white_solution_partial : forall m U dU s1 s2 a b,
  m_kind m = ThwaitesNonlinear -> m_fit m = Some fit_white -> a <= b ->
  (forall x, a <= x <= b -> velocity_at m U (dU x) x /\ continuous dU x /\ 0 < U x + 1/1000) ->
  0 < s1 a -> s1 a = s2 a ->
  (forall x, a <= x <= b -> solves1_at m s1 x) -> (forall x, a <= x <= b -> solves1_at m s2 x) ->
  forall x, a <= x <= b -> s1 x = s2 x.
Proof. exact white_unique_lemma. Qed.
Print Assumptions white_solution_partial.

Example white_solution_case : exists s,
  let m := w_thwaites_of ThwaitesNonlinear (fun _ => 1) (fun _ => 0) fit_white s in
  0 < s 0 /\ forall x, 0 <= x <= 1 ->
    velocity_at m (fun _ => 1) 0 x /\ continuous (fun _ : R => 0) x /\ solves1_at m s x.
Proof.
  exists (fun x => 1 + 2 * whiteS 0 / (1 + 1/1000) * x). cbv zeta. split; [lra|]. intros x Hx.
  assert (V : forall s, velocity_at (w_thwaites_of ThwaitesNonlinear (fun _ => 1) (fun _ => 0) fit_white s) (fun _ => 1) 0 x).
  { intros s. apply (w_velocity _ _ (fun _ => 0)). apply (@is_derive_const R_AbsRing). }
  split; [apply V|]. split; [apply continuous_const|].
  exists (2 * whiteS 0 / (1 + 1/1000)). split.
  - rewrite (rhs_nonlinear (w_thwaites_of ThwaitesNonlinear (fun _ => 1) (fun _ => 0) fit_white _) fit_white _ _ x _ 1 0 eq_refl eq_refl white_is eq_refl eq_refl) by lra.
    unfold rhsF. rewrite Rmult_0_r, Rmult_0_l. do 3 f_equal. field.
  - auto_derive; [exact I|]. field.
Qed.

(** U = 1 + x on [0, 1] with viscosity 1, starting from s = 2: no solution reaches the end. *)
Theorem white_solution_refuted : exists m U a b s0,
  m_kind m = ThwaitesNonlinear /\ m_fit m = Some fit_white /\ a <= b /\ 0 < s0 /\
  (forall x, a <= x <= b -> velocity_at m U 1 x /\ 0 < U x + 1/1000) /\
  ~ exists s, s a = s0 /\ forall x, a <= x <= b -> solves1_at m s x.
Proof.
  set (m := w_thwaites_of ThwaitesNonlinear (fun x => 1 + x) (fun _ => 1) fit_white (fun _ => 0)).
  assert (V : forall x, velocity_at m (fun x => 1 + x) 1 x).
  { intros x. apply (w_velocity _ _ (fun _ => 1)). auto_derive; [exact I|lra]. }
  exists m, (fun x => 1 + x), 0, 1, 2.
  split; [reflexivity|]. split; [reflexivity|]. split; [lra|]. split; [lra|].
  split; [intros x Hx; split; [apply V|lra]|]. intros [s [S0 Hs]].
  apply (white_blow_up m (fun x => 1 + x) s eq_refl eq_refl); [|exact S0|exact Hs].
  intros x Hx. split; [apply V|lra].
Qed.
Print Assumptions white_solution_refuted.

(** There is a solution as far as the gradient parameter s dU stays below a bound chosen
    beforehand, however large ... *)
Theorem white_solution_until : forall m U dU a b s0 M,
  m_kind m = ThwaitesNonlinear -> m_fit m = Some fit_white -> a <= b ->
  (forall x, a <= x <= b -> velocity_at m U (dU x) x /\ continuous dU x /\ 0 < U x + 1/1000) ->
  0 < s0 -> 0 < M -> s0 * dU a < M ->
  exists c s, a <= c <= b /\ (a < b -> a < c) /\ s a = s0 /\
    (forall x, a <= x <= c -> solves1_at m s x /\ 0 < s x /\ s x * dU x <= M) /\ (c = b \/ s c * dU c = M).
Proof. exact white_until_lemma. Qed.
Print Assumptions white_solution_until.

(** ... and so exactly one over the whole interval when the flow does not accelerate, also past
    the separation point. *)
Theorem white_solution_decelerating : forall m U dU a b s0,
  m_kind m = ThwaitesNonlinear -> m_fit m = Some fit_white -> a <= b ->
  (forall x, a <= x <= b -> velocity_at m U (dU x) x /\ continuous dU x /\ 0 < U x + 1/1000 /\ dU x <= 0) -> 0 < s0 ->
  exists s, s a = s0 /\ (forall x, a <= x <= b -> solves1_at m s x /\ 0 < s x) /\
    forall s', s' a = s0 -> (forall x, a <= x <= b -> solves1_at m s' x) -> forall x, a <= x <= b -> s' x = s x.
Proof. exact white_decelerating_lemma. Qed.
Print Assumptions white_solution_decelerating.

(** U = 1 + x, for which there is no solution up to x = 1; and U = 2 - x. *)
Example white_solution_until_case :
  let m := w_thwaites_of ThwaitesNonlinear (fun x => 1 + x) (fun _ => 1) fit_white (fun _ => 0) in
  2 * 1 < 10 /\ forall x, 0 <= x <= 1 -> velocity_at m (fun x => 1 + x) 1 x /\ 0 < 1 + x + 1/1000.
Proof. split; [lra|]. intros x Hx. split; [|lra]. apply (w_velocity _ _ (fun _ => 1)). auto_derive; [exact I|lra]. Qed.
Example white_solution_decelerating_case :
  let m := w_thwaites_of ThwaitesNonlinear (fun x => 2 - x) (fun _ => -1) fit_white (fun _ => 0) in
  forall x, 0 <= x <= 1 -> velocity_at m (fun x => 2 - x) (-1) x /\ continuous (fun _ : R => -1) x /\ 0 < 2 - x + 1/1000 /\ -1 <= 0.
Proof.
  intros m x Hx. split; [|split; [apply continuous_const|split; lra]].
  apply (w_velocity _ _ (fun _ => -1)). auto_derive; [exact I|lra].
Qed.

(* ---------------------------------------------------------------- C113 *)
Theorem nonlinear_accuracy : forall m cs nu g U dU s y a b k rho, m_kind m = ThwaitesNonlinear ->
  cubic_spline_ok cs -> m_fit m = Some (fit_spline cs) -> m_nu m = Fin nu -> 0 < nu ->
  a <= b -> 0 <= k -> 0 <= rho ->
  (forall x, a <= x <= b -> velocity_at m U (dU x) x /\ 0 < U x + 1/1000 /\ Rabs (dU x) <= k * (U x + 1/1000)) ->
  (forall x, a <= x <= b -> solves1_at m s x) -> (forall x, a <= x <= b -> residual1_at m y x rho) ->
  m_sol m = Some g -> g b = [Fin (y b)] -> 0 <= y b ->
  exists d, q_delta_m m b = Ok (Fin d) /\
    Rabs (d ^ 2 - nu * s b) <= nu * ((Rabs (y a - s a) + rho * (b - a)) * exp (28 * k * (b - a))).
Proof. exact default_accuracy_lemma. Qed.
Print Assumptions nonlinear_accuracy.

Theorem linear_accuracy : forall m nu g U dU s y a b rho, m_kind m = ThwaitesLinear ->
  m_nu m = Fin nu -> 0 < nu -> a <= b -> 0 <= rho ->
  (forall x, a <= x <= b -> velocity_at m U (dU x) x /\ 0 < U x + 1/1000) ->
  (forall x, a <= x <= b -> solves1_at m s x) -> (forall x, a <= x <= b -> residual1_at m y x rho) ->
  m_sol m = Some g -> g b = [Fin (y b)] -> 0 <= y b ->
  exists d, q_delta_m m b = Ok (Fin d) /\
    Rabs (d ^ 2 - nu * s b) * (U b + 1/1000) ^ 6 <=
    nu * (Rabs (y a - s a) * (U a + 1/1000) ^ 6 + rho * RInt (fun x => (U x + 1/1000) ^ 6) a b).
Proof. exact linear_accuracy_lemma. Qed.
Print Assumptions linear_accuracy.

(** A stored solution that is off by x/100 on a flat plate. *)
Example accuracy_case : forall k, k = ThwaitesLinear \/ k = ThwaitesNonlinear -> exists s y,
  let m := w_thwaites_of k (fun _ => 1) (fun _ => 0) (fit_spline table_splines) y in
  y 1 <> s 1 /\ forall x, 0 <= x <= 1 ->
    velocity_at m (fun _ => 1) 0 x /\ Rabs 0 <= 0 * (1 + 1/1000) /\
    solves1_at m s x /\ residual1_at m y x (1/100).
Proof.
  intros k Hk.
  assert (Q : exists F0, forall y x v, ode_impl (w_thwaites_of k (fun _ => 1) (fun _ => 0) (fit_spline table_splines) y) x [Fin v]
                = Ok [Fin F0]).
  { destruct Hk as [->| ->].
    - exists (45/100 / (1/1000 + 1)). intros y x v.
      rewrite (rhs_linear (w_thwaites_of ThwaitesLinear (fun _ => 1) (fun _ => 0) (fit_spline table_splines) y) 1 0 v x eq_refl eq_refl eq_refl) by lra. do 3 f_equal. field.
    - destruct (default_rhs table_splines table_splines_ok) as (S & H & FI & _).
      exists (rhsF S H 0 / (1 + 1/1000)). intros y x v.
      rewrite (rhs_nonlinear (w_thwaites_of ThwaitesNonlinear (fun _ => 1) (fun _ => 0) (fit_spline table_splines) y) _ S H x v 1 0 eq_refl eq_refl FI eq_refl eq_refl) by lra. rewrite Rmult_0_r. reflexivity. }
  destruct Q as [F0 Q]. exists (fun x => 1 + F0 * x), (fun x => 1 + F0 * x + x / 100). cbv zeta. split; [lra|].
  intros x Hx. split; [apply (w_velocity _ _ (fun _ => 0)); apply (@is_derive_const R_AbsRing)|].
  split; [rewrite Rabs_R0; lra|]. split.
  - exists F0. split; [apply Q|]. auto_derive; [exact I|ring].
  - exists F0, (F0 + 1/100). split; [apply Q|]. split; [auto_derive; [exact I|field]|].
    replace (F0 + 1/100 - F0) with (1/100) by ring. rewrite Rabs_pos_eq; lra.
Qed.

(* ---------------------------------------------------------------- C114 *)
Theorem flat_plate_partial : forall m f cs s g u n X ivp quad bisect o,
  m_kind m <> Head -> m_nu m = Fin n -> 0 < n -> m_fit m = Some f -> cubic_spline_ok cs ->
  f = fit_white \/ f = fit_cb \/ f = fit_drela \/ f = fit_spline cs -> 1 <= u ->
  (forall x, 0 <= x <= X -> velocity_at m (fun _ => u) 0 x /\ solves1_at m s x) -> s 0 = 0 ->
  m_sol m = Some g -> (forall x, 0 <= x <= X -> g x = [Fin (s x)]) ->
  exact_ivp ivp -> exact_quad quad -> exact_bisect bisect ->
  new_blasius ivp quad bisect (Fin u) (Fin n) None None = Ok o ->
  forall x rho, 0 < x <= X -> 0 < rho ->
  agree (12/1000) (q_delta_m m x) (qs_delta_m o x) /\
  agree (19/1000) (q_delta_d m x) (qs_delta_d o x) /\
  agree (8/1000) (q_shape_d m x) (qs_shape_d o x) /\
  agree (13/1000) (q_tau_w_thwaites m x rho) (qs_tau_w o x (Fin rho)).
Proof. exact flat_plate_lemma. Qed.
Print Assumptions flat_plate_partial.

Lemma flat_object u : 0 < u -> exists s,
  let m := w_thwaites_of ThwaitesLinear (fun _ => u) (fun _ => 0) fit_white s in
  (forall x, 0 <= x <= 2 -> velocity_at m (fun _ => u) 0 x /\ solves1_at m s x) /\ s 0 = 0 /\
  s 1 = 45/100 / (u + 1/1000).
Proof.
  intros P. exists (fun x => 45/100 / (u + 1/1000) * x). cbv zeta. split; [|split; ring].
  intros x Hx. split; [apply (w_velocity _ _ (fun _ => 0)); apply (@is_derive_const R_AbsRing)|].
  exists (45/100 / (u + 1/1000)). split.
  - rewrite (rhs_linear (w_thwaites_of ThwaitesLinear (fun _ => u) (fun _ => 0) fit_white _) u 0 _ x eq_refl eq_refl eq_refl) by lra. do 3 f_equal. field. lra.
  - auto_derive; [exact I|]. field. lra.
Qed.

Example flat_plate_case : exists s ivp quad bisect o,
  let m := w_thwaites_of ThwaitesLinear (fun _ => 3) (fun _ => 0) fit_white s in
  (forall x, 0 <= x <= 2 -> velocity_at m (fun _ => 3) 0 x /\ solves1_at m s x) /\ s 0 = 0 /\
  exact_ivp ivp /\ exact_quad quad /\ exact_bisect bisect /\
  new_blasius ivp quad bisect (Fin 3) (Fin 1) None None = Ok o.
Proof.
  destruct (flat_object 3 ltac:(lra)) as [s [V [S0 _]]].
  destruct default_object_exists as (ivp & quad & bisect & A & B & C & D).
  destruct (D 3 1 ltac:(lra) ltac:(lra)) as [o Eo].
  exists s, ivp, quad, bisect, o. cbv zeta. exact (conj V (conj S0 (conj A (conj B (conj C Eo))))).
Qed.

(** At the speed 1/1000 the momentum thickness is more than a quarter too small. *)
Theorem flat_plate_refuted : exists m s u ivp quad bisect o,
  m_kind m = ThwaitesLinear /\ m_nu m = Fin 1 /\ m_fit m = Some fit_white /\ 0 < u /\
  (forall x, 0 <= x <= 2 -> velocity_at m (fun _ => u) 0 x /\ solves1_at m s x) /\ s 0 = 0 /\
  m_sol m = Some (fun x => [Fin (s x)]) /\
  exact_ivp ivp /\ exact_quad quad /\ exact_bisect bisect /\
  new_blasius ivp quad bisect (Fin u) (Fin 1) None None = Ok o /\
  ~ agree (1/4) (q_delta_m m 1) (qs_delta_m o 1).
Proof.
  destruct (flat_object (1/1000) ltac:(lra)) as [s [V [S0 S1]]]. cbv zeta in V.
  destruct default_object_exists as (ivp & quad & bisect & A & B & C & D).
  destruct (D (1/1000) 1 ltac:(lra) ltac:(lra)) as [o Eo].
  exists (w_thwaites_of ThwaitesLinear (fun _ => 1/1000) (fun _ => 0) fit_white s), s, (1/1000), ivp, quad, bisect, o.
  split; [reflexivity|]. split; [reflexivity|]. split; [reflexivity|]. split; [lra|]. split; [exact V|].
  split; [exact S0|]. split; [reflexivity|]. split; [exact A|]. split; [exact B|]. split; [exact C|]. split; [exact Eo|].
  apply (flat_plate_slow_lemma ThwaitesLinear _ s ivp quad bisect o A B C Eo); try reflexivity; [discriminate|exact S1].
Qed.
Print Assumptions flat_plate_refuted.
