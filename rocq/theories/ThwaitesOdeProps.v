(** Properties C24-C29 and C75: solutions of Thwaites' and Head's equations.
    [velocity_at m U dU x], [solves1_at m s x], [stored1_at m s x]: see OdeSpec. *)
From Coq Require Import Reals List Lra Bool.
From Coquelicot Require Import Coquelicot.
From Verif Require Import PyBase PyBaseFacts XDeriv ThwaitesFitsModel ThwaitesFitsProofs
  HeadModel HeadOdeProofs CoreModel CoreRefute OdeSpec ThwaitesOdeProofs PositivityProofs HeadProps.
Import ListNotations.
Open Scope R_scope.

(** Flat plate object used in the cases: U = 1, U' = 0. *)
Lemma w_thwaites_velocity : forall x, velocity_at w_thwaites (fun _ => 1) 0 x.
Proof.
  intros x. split; [|split; [|reflexivity]].
  - exists (mkposreal 1 Rlt_0_1). intros; reflexivity.
  - apply (@is_derive_const R_AbsRing).
Qed.
Lemma w_thwaites_solution : exists s, s 0 = 1 /\ forall x, solves1_at w_thwaites s x.
Proof.
  apply (linear_exists_lemma w_thwaites (fun _ => 1) (fun _ => 0) 1 0 eq_refl).
  intros x. split; [apply w_thwaites_velocity|lra].
Qed.

(* ---------------------------------------------------------------- C24 *)
Theorem linear_quadrature : forall m U dU s a b, m_kind m = ThwaitesLinear ->
  (forall x, Rmin a b <= x <= Rmax a b ->
     velocity_at m U (dU x) x /\ solves1_at m s x /\ 0 < U x + 1/1000) ->
  s b * (U b + 1/1000)^6
  = s a * (U a + 1/1000)^6 + 45/100 * RInt (fun x => (U x + 1/1000)^5) a b.
Proof. exact linear_quadrature_lemma. Qed.
Print Assumptions linear_quadrature.

(** Solutions exist for every such velocity and every initial value. *)
Theorem linear_solution_exists : forall m U dU s0 a, m_kind m = ThwaitesLinear ->
  (forall x, velocity_at m U (dU x) x /\ 0 < U x + 1/1000) ->
  exists s, s a = s0 /\ forall x, solves1_at m s x.
Proof. exact linear_exists_lemma. Qed.
Print Assumptions linear_solution_exists.

Example linear_quadrature_case : exists s, s 0 = 1 /\
  s 2 * (1 + 1/1000)^6 = s 0 * (1 + 1/1000)^6 + 45/100 * RInt (fun _ => (1 + 1/1000)^5) 0 2.
Proof.
  destruct w_thwaites_solution as [s [E S]]. exists s. split; [exact E|].
  apply (linear_quadrature w_thwaites (fun _ => 1) (fun _ => 0) s 0 2 eq_refl).
  intros x _. split; [apply w_thwaites_velocity|]. split; [apply S|lra].
Qed.

(* ---------------------------------------------------------------- C25 *)
Theorem linear_solution_unique : forall m U dU s1 s2 a b, m_kind m = ThwaitesLinear ->
  (forall x, Rmin a b <= x <= Rmax a b ->
     velocity_at m U (dU x) x /\ solves1_at m s1 x /\ solves1_at m s2 x /\ 0 < U x + 1/1000) ->
  s1 a = s2 a -> s1 b = s2 b.
Proof. exact linear_unique_lemma. Qed.
Print Assumptions linear_solution_unique.

Theorem linear_solution_positive : forall m nu U dU s a b, m_kind m = ThwaitesLinear ->
  m_nu m = Fin nu -> 0 < nu -> a <= b ->
  (forall x, a <= x <= b ->
     velocity_at m U (dU x) x /\ solves1_at m s x /\ 0 < U x + 1/1000) ->
  0 < s a ->
  0 < s b /\
  (stored1_at m s b -> exists d, q_delta_m m b = Ok (Fin d) /\ 0 < d /\ d^2 = nu * s b).
Proof. exact linear_positive_lemma. Qed.
Print Assumptions linear_solution_positive.

Example linear_solution_positive_case : exists s, 0 < s 0 /\ 0 < s 2.
Proof.
  destruct w_thwaites_solution as [s [E S]]. exists s. split; [lra|].
  apply (linear_solution_positive w_thwaites 1 (fun _ => 1) (fun _ => 0) s 0 2 eq_refl eq_refl);
    try lra.
  intros x _. split; [apply w_thwaites_velocity|]. split; [apply S|lra].
Qed.

(* ---------------------------------------------------------------- C26 *)
Theorem thwaites_transpiration : forall m nu f U dU d2U s x p, m_kind m <> Head ->
  m_nu m = Fin nu -> 0 < nu -> m_fit m = Some f ->
  velocity2_at m U dU d2U x -> solves1_at m s x -> stored1_at m s x -> 0 < s x ->
  shape_p f (Fin (s x * dU x)) = Fin p -> xderiv (shape f) (s x * dU x) p ->
  exists v, exists dd : R -> R, q_v_e m x = Ok (Fin v) /\
    locally x (fun t => q_delta_d m t = Ok (Fin (dd t))) /\
    is_derive (fun t => U t * dd t) x v.
Proof. exact thwaites_ve_lemma. Qed.
Print Assumptions thwaites_transpiration.

(** With the built-in closed-form fits, at parameters inside the range (C18). *)
Theorem thwaites_transpiration_builtin : forall m nu f U dU d2U s x, m_kind m <> Head ->
  m_nu m = Fin nu -> 0 < nu -> m_fit m = Some f ->
  velocity2_at m U dU d2U x -> solves1_at m s x -> stored1_at m s x -> 0 < s x ->
  (f = fit_white /\ -9/100 < s x * dU x) \/ (f = fit_drela /\ -9/100 < s x * dU x) \/
  (f = fit_cb /\ -1/10 < s x * dU x < 1/10 /\ s x * dU x <> 0) ->
  exists v, exists dd : R -> R, q_v_e m x = Ok (Fin v) /\
    locally x (fun t => q_delta_d m t = Ok (Fin (dd t))) /\
    is_derive (fun t => U t * dd t) x v.
Proof. exact thwaites_ve_builtin_lemma. Qed.
Print Assumptions thwaites_transpiration_builtin.

Example thwaites_transpiration_case : exists s,
  let m := set_sol (set_d2u w_thwaites (Some (VF (fun _ => 0) KFloat))) (Some (fun t => [Fin (s t)])) in
  velocity2_at m (fun _ => 1) (fun _ => 0) 0 0 /\ solves1_at m s 0 /\ stored1_at m s 0 /\ 0 < s 0 /\
  m_fit m = Some fit_white /\ -9/100 < s 0 * 0.
Proof.
  destruct w_thwaites_solution as [s [E S]]. exists s. cbv zeta.
  split; [|split; [exact (S 0)|split]].
  - split; [exists (mkposreal 1 Rlt_0_1); intros; reflexivity|].
    split; [apply (@is_derive_const R_AbsRing)|].
    split; [exists (mkposreal 1 Rlt_0_1); intros; reflexivity|].
    split; [apply (@is_derive_const R_AbsRing)|reflexivity].
  - eexists. split; [reflexivity|]. exists (mkposreal 1 Rlt_0_1). intros; reflexivity.
  - split; [lra|]. split; [reflexivity|lra].
Qed.

(* ---------------------------------------------------------------- C27 *)
(** von Karman's equation multiplied by rho U W, W = U + 1e-3 (no range restriction on the
    parameter is needed: clamped fits enter both sides alike). *)
Theorem nonlinear_momentum_integral : forall m nu f U dU s x S H rho,
  m_kind m = ThwaitesNonlinear ->
  m_nu m = Fin nu -> 0 < nu -> m_fit m = Some f ->
  velocity_at m U dU x -> solves1_at m s x -> stored1_at m s x -> 0 < s x ->
  0 < U x + 1/1000 ->
  shear f (Fin (s x * dU)) = Fin S -> shape f (Fin (s x * dU)) = Fin H ->
  exists tau, exists d : R -> R,
    q_tau_w_thwaites m x rho = Ok (Fin tau) /\ q_shape_d m x = Ok (Fin H) /\
    locally x (fun t => q_delta_m m t = Ok (Fin (d t))) /\ 0 < d x /\
    is_derive d x (Derive d x) /\
    rho * U x * (U x + 1/1000) * (Derive d x + (2 + H) * (d x / (U x + 1/1000)) * dU) = tau.
Proof. exact thwaites_momentum_lemma. Qed.
Print Assumptions nonlinear_momentum_integral.

(** ThwaitesMethodNonlinear with White's fit, U = 1: hypotheses met at x = 0. *)
Definition w_nonlinear : meth :=
  {| m_kind := ThwaitesNonlinear; m_nu := Fin 1; m_u := Some (VF (fun _ => 1) KFloat);
     m_du := Some (VF (fun _ => 0) KFloat); m_d2u := Some VFd1DU;
     m_ic := InitialConditionModel.new_manual (Fin 0) PInf (Fin 0); m_fit := Some fit_white;
     m_events := [thwaites_event fit_white]; m_sol := None |}.
Example nonlinear_momentum_case : exists s S H,
  let m := set_sol w_nonlinear (Some (fun t => [Fin (s t)])) in
  velocity_at m (fun _ => 1) 0 0 /\ solves1_at m s 0 /\ stored1_at m s 0 /\ 0 < s 0 /\
  shear fit_white (Fin (s 0 * 0)) = Fin S /\ shape fit_white (Fin (s 0 * 0)) = Fin H.
Proof.
  destruct (white_finite 0) as [[S ES] [H EH]].
  destruct (rhs_finite_lemma w_nonlinear 0 1 1 0) as [v Ev]; try reflexivity; try lra.
  { discriminate. }
  { right. exists fit_white. split; [reflexivity|apply white_finite]. }
  exists (fun t => 1 + v * t), S, H. cbv zeta.
  split; [|split; [|split; [|split]]].
  - split; [exists (mkposreal 1 Rlt_0_1); intros; reflexivity|].
    split; [apply (@is_derive_const R_AbsRing)|reflexivity].
  - exists v. split; [rewrite Rmult_0_r, Rplus_0_r; exact Ev|].
    auto_derive; [exact I|]. ring.
  - eexists. split; [reflexivity|]. exists (mkposreal 1 Rlt_0_1). intros; reflexivity.
  - lra.
  - rewrite Rmult_0_r. split; assumption.
Qed.

(* ---------------------------------------------------------------- C28 *)
Theorem thwaites_reported_consistent : forall m nu f x rho d, m_kind m <> Head ->
  m_nu m = Fin nu -> 0 < nu -> m_fit m = Some f ->
  q_delta_m m x = Ok (Fin d) -> 0 < d ->
  (forall H, q_shape_d m x = Ok (Fin H) ->
     q_delta_d m x = Ok (Fin (d * H)) /\ q_shape_d m x = Ok (Fin (d * H) / Fin d)%xr) /\
  (forall U dU, q_u_e m x = Ok U -> q_du_e m x = Ok dU ->
     q_shape_d m x = Ok (shape f (Fin (d^2 / nu * dU))) /\
     forall S, shear f (Fin (d^2 / nu * dU)) = Fin S ->
     exists tau, q_tau_w_thwaites m x rho = Ok (Fin tau) /\ tau * d = rho * nu * U * S) /\
  q_delta_k m x = Ok (Fin 0) /\ q_shape_k m x = Ok (Fin 0) /\ q_dissipation m x rho = Ok (Fin 0).
Proof. exact thwaites_consistent_lemma. Qed.
Print Assumptions thwaites_reported_consistent.

Example thwaites_reported_consistent_case :
  q_delta_m (set_sol w_thwaites (Some (fun _ => [Fin 4]))) 0 = Ok (Fin 2).
Proof.
  unfold q_delta_m, sol_at. cbn [set_sol m_sol bind comp nth_error m_kind w_thwaites m_nu].
  rewrite xmul_fin, xsqrt_fin by lra. replace (4 * 1) with (2 * 2) by ring.
  rewrite sqrt_square by lra. reflexivity.
Qed.

(* ---------------------------------------------------------------- C29 *)
(** [fit_finite f]: shear and shape factor are finite numbers for every finite parameter. *)
Theorem thwaites_rhs_finite : forall m x s U dU, m_kind m <> Head ->
  q_u_e m x = Ok U -> q_du_e m x = Ok dU -> 0 <= U ->
  (m_kind m = ThwaitesLinear \/ exists f, m_fit m = Some f /\ fit_finite f) ->
  exists v, ode_impl m x [Fin s] = Ok [Fin v].
Proof. exact rhs_finite_lemma. Qed.
Print Assumptions thwaites_rhs_finite.

(** All built-in fits are of this kind (Spline: if the interpolant is finite on the table's range). *)
Theorem builtin_fits_finite :
  fit_finite fit_white /\ fit_finite fit_cb /\ fit_finite fit_drela /\
  forall cs,
    (forall ys r, ys = tab_shear \/ ys = tab_shape -> -90/1000 <= r <= 250/1000 ->
       exists v, fst (cs tab_lambda ys) (Fin r) = Fin v) ->
    fit_finite (fit_spline cs).
Proof. exact (conj white_finite (conj cb_finite (conj drela_finite spline_finite))). Qed.
Print Assumptions builtin_fits_finite.

Example thwaites_rhs_finite_case : exists v,
  ode_impl (set_u w_nonlinear (Some (VF (fun x => x) KFloat))) 0 [Fin 5] = Ok [Fin v].
Proof.
  apply (thwaites_rhs_finite _ 0 5 0 0); try reflexivity; try lra; [discriminate|].
  right. exists fit_white. split; [reflexivity|apply builtin_fits_finite].
Qed.

(* ---------------------------------------------------------------- C75 *)
Theorem thwaites_solution_positive : forall m U dU s a b, m_kind m <> Head -> a <= b ->
  (m_kind m = ThwaitesLinear \/
   exists f S H, m_fit m = Some f /\ shear f (Fin 0) = Fin S /\ 0 < S /\ shape f (Fin 0) = Fin H) ->
  (forall x, a <= x <= b ->
     velocity_at m U (dU x) x /\ solves1_at m s x /\ 0 < U x + 1/1000) ->
  0 < s a -> 0 < s b.
Proof. exact thwaites_positive_lemma. Qed.
Print Assumptions thwaites_solution_positive.

Example thwaites_solution_positive_case :
  exists S H, shear fit_white (Fin 0) = Fin S /\ 0 < S /\ shape fit_white (Fin 0) = Fin H.
Proof.
  rewrite white_shear_in by lra. destruct (white_finite 0) as [_ [H EH]].
  do 2 eexists. split; [reflexivity|]. split; [apply exp_pos|exact EH].
Qed.

Theorem head_solution_positive : forall m U dU d h a b,
  m_kind m = Head -> slot_kind (m_u m) <> KInt ->
  (exists nu, m_nu m = Fin nu /\ 0 < nu) -> a <= b ->
  (forall x, a <= x <= b -> velocity_at m U (dU x) x /\ solves2_at m d h x) ->
  0 < d a -> 0 < d b.
Proof. exact head_positive_lemma. Qed.
Print Assumptions head_solution_positive.

Example head_solution_positive_case : exists d h,
  velocity_at w_head (fun _ => 1) 0 0 /\ solves2_at w_head d h 0 /\ 0 < d 0.
Proof.
  destruct head_solution_case as [v [w [V [S [_ [_ P]]]]]]. do 2 eexists.
  split; [exact V|]. split; [exact S|exact P].
Qed.
