(** Property C170: what an inexact gradient does to the results.
    [velocity_at], [solves1_at], [solves2_at], [stored1_at], [stored2_at]: see OdeSpec; [gradient_within],
    [given_plainly], [fifth_at_most]: GradientErrorSpec; [cubic_spline_ok]: SplineSpec. *)
From Coq Require Import Reals List Lra Lia.
From Coquelicot Require Import Coquelicot.
From Verif Require Import PyBase PyBaseFacts ThwaitesFitsModel HeadModel InitialConditionModel FiniteDiffModel
  CoreModel CoreRefute OdeSpec WellPosedSpec WellPosedProps HeadExistProofs ThwaitesOdeProofs ThwaitesOdeProps
  SplineSpec SplineProofs FitLipschitzProofs WellPosedOdeProofs SystemProofs StabilityProofs StabilityProps AccelerationProps GradientErrorSpec GradientErrorProofs.
Import ListNotations.
Open Scope R_scope.

(* ---------------------------------------------------------------- C170 *)
(** Linear Thwaites: a gradient that is off by [e] at most changes the momentum thickness at most by the
    factor exp (3 e (b - a) / lo), with [lo] the least velocity. *)
Theorem gradient_error_linear : forall m1 m2 nu U dU s1 s2 a b lo e,
  m_kind m1 = ThwaitesLinear -> m_kind m2 = ThwaitesLinear -> m_nu m1 = Fin nu -> m_nu m2 = Fin nu -> 0 < nu ->
  a <= b -> 0 < lo ->
  (forall x, a <= x <= b -> velocity_at m1 U (dU x) x /\ solves1_at m1 s1 x /\
     gradient_within m2 U (dU x) e x /\ solves1_at m2 s2 x /\ lo <= U x + 1/1000) ->
  0 < s1 a -> s2 a = s1 a -> stored1_at m1 s1 b -> stored1_at m2 s2 b ->
  exists v1 v2, q_delta_m m1 b = Ok (Fin v1) /\ q_delta_m m2 b = Ok (Fin v2) /\ 0 < v1 /\
    exp (- (3 * e * (b - a) / lo)) * v1 <= v2 <= exp (3 * e * (b - a) / lo) * v1.
Proof. exact gradient_error_linear_lemma. Qed.
Print Assumptions gradient_error_linear.

(** The flat plate, and the same velocity with the gradient given as 1/1000. *)
Example gradient_error_linear_case : forall f,
  let s1 := fun x => 1 + 45/100 / (1 + 1/1000) * x in
  let s2 := fun x => 75 - 74 * exp (- (6/1001) * x) in
  let m1 := w_thwaites_of ThwaitesLinear (fun _ => 1) (fun _ => 0) f s1 in
  let m2 := w_thwaites_of ThwaitesLinear (fun _ => 1) (fun _ => 1/1000) f s2 in
  s1 0 = 1 /\ s2 0 = 1 /\ (forall x, stored1_at m1 s1 x /\ stored1_at m2 s2 x) /\
  forall x, velocity_at m1 (fun _ => 1) 0 x /\ solves1_at m1 s1 x /\
    gradient_within m2 (fun _ => 1) 0 (1/1000) x /\ solves1_at m2 s2 x.
Proof.
  intros f. cbv zeta. split; [lra|]. split; [rewrite Rmult_0_r, exp_0; lra|].
  split; [intros x; split; (eexists; split; [reflexivity|exists (mkposreal 1 Rlt_0_1); reflexivity])|].
  intros x. split; [apply (w_velocity _ _ (fun _ => 0)); apply (@is_derive_const R_AbsRing)|].
  split; [|split].
  - eexists. split; [apply (rhs_linear _ 1 0); [reflexivity|reflexivity|reflexivity|lra]|].
    auto_derive; [exact I|]. field.
  - exists (1/1000). split; [reflexivity|]. split; [reflexivity|]. rewrite Rminus_0_r, Rabs_pos_eq; lra.
  - eexists. split; [apply (rhs_linear _ 1 (1/1000)); [reflexivity|reflexivity|reflexivity|lra]|].
    auto_derive; [exact I|]. set (w := exp _). field.
Qed.

(** The nonlinear method with the default fit. *)
Theorem gradient_error_nonlinear : forall m1 m2 cs nu U dU s1 s2 a b k lo e,
  m_kind m1 = ThwaitesNonlinear -> m_kind m2 = ThwaitesNonlinear -> cubic_spline_ok cs ->
  m_fit m1 = Some (fit_spline cs) -> m_fit m2 = Some (fit_spline cs) ->
  m_nu m1 = Fin nu -> m_nu m2 = Fin nu -> 0 < nu -> a <= b -> 0 <= k -> 0 < lo ->
  (forall x, a <= x <= b -> velocity_at m1 U (dU x) x /\ solves1_at m1 s1 x /\
     gradient_within m2 U (dU x) e x /\ solves1_at m2 s2 x /\ lo <= U x + 1/1000 /\
     Rabs (dU x) <= k * (U x + 1/1000)) ->
  0 < s1 a -> s2 a = s1 a -> stored1_at m1 s1 b -> stored1_at m2 s2 b ->
  let E := exp (28 * (k + e / lo) * (b - a)) in
  let Y := (s1 a + 44/100 / lo * (b - a)) * E in
  exists v1 v2, q_delta_m m1 b = Ok (Fin v1) /\ q_delta_m m2 b = Ok (Fin v2) /\
    Rabs (v2 ^ 2 - v1 ^ 2) <= nu * (28 * Y * (e / lo) * (b - a) * E).
Proof. exact gradient_error_nonlinear_lemma. Qed.
Print Assumptions gradient_error_nonlinear.

(** Head's method, on one side of the shape factor 1.6. *)
Theorem gradient_error_head : forall nu U dU a b d1 d2 h1 h2,
  0 < nu -> a <= b -> 0 < d1 -> h2 <= 16/10 \/ 16/10 < h1 ->
  (forall x, a <= x <= b -> is_derive U x (dU x) /\ continuous dU x /\ 1/1000 <= U x) ->
  exists K, 0 < K /\ forall m1 m2 d h y z e,
  m_kind m1 = Head -> m_kind m2 = Head -> m_nu m1 = Fin nu -> m_nu m2 = Fin nu ->
  slot_kind (m_u m1) <> KInt -> slot_kind (m_u m2) <> KInt ->
  (forall x, a <= x <= b -> velocity_at m1 U (dU x) x /\ solves2_at m1 d h x /\
     gradient_within m2 U (dU x) e x /\ solves2_at m2 y z x /\
     d1 <= d x <= d2 /\ h1 <= h x <= h2 /\ d1 <= y x <= d2 /\ h1 <= z x <= h2) ->
  forall x, a <= x <= b -> stored2_at m1 d h x -> stored2_at m2 y z x ->
  exists dm1 H1 dm2 H2, q_delta_m m1 x = Ok (Fin dm1) /\ q_shape_d m1 x = Ok (Fin H1) /\
    q_delta_m m2 x = Ok (Fin dm2) /\ q_shape_d m2 x = Ok (Fin H2) /\
    Rabs (dm2 - dm1) <= K * (Rabs (y a - d a) + Rabs (z a - h a) + e) /\
    Rabs (H2 - H1) <= K * (Rabs (y a - d a) + Rabs (z a - h a) + e).
Proof. exact head_gradient_error_lemma. Qed.
Print Assumptions gradient_error_head.

(** When the velocity is given as a plain function, the gradient that is used is off by a
    1.8e17-th of the fifth derivative at most. *)
Theorem plain_gradient_error : forall m U K a b x, given_plainly m U -> fifth_at_most K U a b -> a <= x <= b ->
  gradient_within m U (Derive U x) (K / (18 * 10 ^ 16)) x.
Proof. exact plain_gradient_within. Qed.
Print Assumptions plain_gradient_error.

(** So leaving the gradient out changes the momentum thickness of the linear method by the factor
    exp (K (b - a) / (6e16 lo)) at most. *)
Theorem plain_velocity_linear : forall m1 m2 nu U s1 s2 a b lo K,
  m_kind m1 = ThwaitesLinear -> m_kind m2 = ThwaitesLinear -> m_nu m1 = Fin nu -> m_nu m2 = Fin nu -> 0 < nu ->
  a <= b -> 0 < lo -> given_plainly m2 U -> fifth_at_most K U a b ->
  (forall x, a <= x <= b -> velocity_at m1 U (Derive U x) x /\ solves1_at m1 s1 x /\ solves1_at m2 s2 x /\
     lo <= U x + 1/1000) ->
  0 < s1 a -> s2 a = s1 a -> stored1_at m1 s1 b -> stored1_at m2 s2 b ->
  exists v1 v2, q_delta_m m1 b = Ok (Fin v1) /\ q_delta_m m2 b = Ok (Fin v2) /\ 0 < v1 /\
    let q := K * (b - a) / (6 * 10 ^ 16 * lo) in exp (- q) * v1 <= v2 <= exp q * v1.
Proof. exact plain_velocity_linear_lemma. Qed.
Print Assumptions plain_velocity_linear.

(** An exponential velocity, with and without its derivative. *)
Example plain_velocity_case : forall f, exists m2 s1 s2,
  let m1 := w_thwaites_of ThwaitesLinear exp exp f s1 in
  m_kind m2 = ThwaitesLinear /\ m_nu m2 = Fin 1 /\ given_plainly m2 exp /\ fifth_at_most (exp 2) exp 0 1 /\
  s1 0 = 1 /\ s2 0 = 1 /\ stored1_at m1 s1 1 /\ stored1_at m2 s2 1 /\
  forall x, 0 <= x <= 1 -> velocity_at m1 exp (Derive exp x) x /\ solves1_at m1 s1 x /\ solves1_at m2 s2 x /\
     1 <= exp x + 1/1000.
Proof. exact plain_velocity_case_lemma. Qed.

(** The nonlinear method with the default fit: the same with the gradient left out. *)
Theorem plain_velocity_nonlinear : forall m1 m2 cs nu U s1 s2 a b k lo K,
  m_kind m1 = ThwaitesNonlinear -> m_kind m2 = ThwaitesNonlinear -> cubic_spline_ok cs ->
  m_fit m1 = Some (fit_spline cs) -> m_fit m2 = Some (fit_spline cs) ->
  m_nu m1 = Fin nu -> m_nu m2 = Fin nu -> 0 < nu -> a <= b -> 0 <= k -> 0 < lo ->
  given_plainly m2 U -> fifth_at_most K U a b ->
  (forall x, a <= x <= b -> velocity_at m1 U (Derive U x) x /\ solves1_at m1 s1 x /\ solves1_at m2 s2 x /\
     lo <= U x + 1/1000 /\ Rabs (Derive U x) <= k * (U x + 1/1000)) ->
  0 < s1 a -> s2 a = s1 a -> stored1_at m1 s1 b -> stored1_at m2 s2 b ->
  let e := K / (18 * 10 ^ 16) in
  let E := exp (28 * (k + e / lo) * (b - a)) in
  let Y := (s1 a + 44/100 / lo * (b - a)) * E in
  exists v1 v2, q_delta_m m1 b = Ok (Fin v1) /\ q_delta_m m2 b = Ok (Fin v2) /\
    Rabs (v2 ^ 2 - v1 ^ 2) <= nu * (28 * Y * (e / lo) * (b - a) * E).
Proof. exact plain_velocity_nonlinear_lemma. Qed.
Print Assumptions plain_velocity_nonlinear.

Lemma plain_one m x : q_du_e m x = Ok (fd_1f (fun _ => 1) x (1/10000)) -> q_du_e m x = Ok 0.
Proof. intros ->. f_equal. unfold fd_1f. field. Qed.

(** Uniform flow, with and without its gradient. *)
Example plain_velocity_nonlinear_case : exists m2,
  let s := fun x => 1 + 44/100 / (1 + 1/1000) * x in
  let m1 := w_thwaites_of ThwaitesNonlinear (fun _ => 1) (fun _ => 0) (fit_spline table_splines) s in
  m_kind m2 = ThwaitesNonlinear /\ m_nu m2 = Fin 1 /\ m_fit m2 = Some (fit_spline table_splines) /\
  given_plainly m2 (fun _ => 1) /\ fifth_at_most 0 (fun _ => 1) 0 1 /\ s 0 = 1 /\
  forall x, stored1_at m1 s x /\ stored1_at m2 s x /\
    velocity_at m1 (fun _ => 1) (Derive (fun _ => 1) x) x /\ solves1_at m1 s x /\ solves1_at m2 s x.
Proof.
  set (s := fun x => 1 + 44/100 / (1 + 1/1000) * x).
  exists {| m_kind := ThwaitesNonlinear; m_nu := Fin 1; m_u := Some (VF (fun _ => 1) KFloat);
     m_du := Some VFd1U; m_d2u := Some VFd2U;
     m_ic := InitialConditionModel.new_manual (Fin 0) PInf (Fin 0); m_fit := Some (fit_spline table_splines);
     m_events := [thwaites_event (fit_spline table_splines)]; m_sol := Some (fun x => [Fin (s x)]) |}.
  cbv zeta. do 3 (split; [reflexivity|]). split.
  { exists (fun _ _ => Err ValueError), w_thwaites, {| c_fun := fun _ => 1; c_ret := KFloat; c_deriv := None |}. eexists.
    do 2 (split; [reflexivity|]). split; [reflexivity|]. intros x. split; reflexivity. }
  assert (Dn : forall n t, is_derive_n (fun _ : R => 1) (S n) t 0).
  { intros n t. assert (C := is_derive_n_const n 1 t). exact C. }
  split.
  { exists (1/1000). split; [lra|]. intros t _. split.
    - intros k _. destruct k as [|k]; [exact I|]. exists 0. apply (Dn k).
    - rewrite (is_derive_n_unique _ 5 _ _ (Dn 4%nat t)), Rabs_R0. lra. }
  split; [unfold s; lra|]. intros x.
  do 2 (split; [eexists; split; [reflexivity|exists (mkposreal 1 Rlt_0_1); reflexivity]|]).
  split; [rewrite Derive_const; apply (w_velocity _ _ (fun _ => 0)); apply (@is_derive_const R_AbsRing)|].
  assert (Ds : is_derive s x (44/100 / (1 + 1/1000))) by (unfold s; auto_derive; [exact I|field]).
  split; (exists (44/100 / (1 + 1/1000)); split; [|exact Ds]); apply (uniform_rhs _ 1); try reflexivity; try lra.
  apply plain_one. reflexivity.
Qed.

(** The flat plate and Head's method: the velocity 1 given plainly. *)
Example gradient_error_head_case : exists m1 m2 c d1 d2 d h, 0 < c <= 1 /\ 0 < d1 /\
  m_kind m1 = Head /\ m_kind m2 = Head /\ m_nu m1 = Fin 1 /\ m_nu m2 = Fin 1 /\
  slot_kind (m_u m1) <> KInt /\ slot_kind (m_u m2) <> KInt /\ given_plainly m2 (fun _ => 1) /\
  d 0 = 1 /\ stored2_at m1 d h c /\ stored2_at m2 d h c /\
  forall x, 0 <= x <= c -> velocity_at m1 (fun _ => 1) 0 x /\ solves2_at m1 d h x /\
    gradient_within m2 (fun _ => 1) 0 0 x /\ solves2_at m2 d h x /\
    d1 <= d x <= d2 /\ 17/10 <= h x <= 23/10.
Proof.
  set (mu := fun slot sol => {| m_kind := Head; m_nu := Fin 1; m_u := Some (VF (fun _ => 1) KFloat);
     m_du := Some slot; m_d2u := Some VFd1DU; m_ic := new_manual PInf PInf (Fin 0); m_fit := None;
     m_events := []; m_sol := sol |}).
  set (S1 := VF (fun _ => 0) KFloat).
  assert (G : forall sol x, q_du_e (mu VFd1U sol) x = Ok 0).
  { intros sol x. apply plain_one. reflexivity. }
  assert (V1 : forall slot sol x, (forall y, q_du_e (mu slot sol) y = Ok 0) -> velocity_at (mu slot sol) (fun _ => 1) 0 x).
  { intros slot sol x Q. split; [exists (mkposreal 1 Rlt_0_1); intros; reflexivity|].
    split; [apply (@is_derive_const R_AbsRing)|apply Q]. }
  destruct (head_solution_above_partial (mu S1 None) 1 (fun _ => 1) (fun _ => 0) 0 1 1 2 eq_refl eq_refl ltac:(lra) ltac:(discriminate) Rlt_0_1)
    with (lo := 17/10) (hi := 23/10) as (c & d & h & Hc & D0 & _ & S & _); try lra.
  { intros x _. split; [apply V1; intros; reflexivity|]. split; [apply continuous_const|lra]. }
  assert (Cd : forall x, 0 <= x <= c -> continuous d x).
  { intros x Hx. destruct (S x ltac:(lra)) as ((v & w & _ & D & _) & _). apply (ex_derive_continuous d). eexists. exact D. }
  destruct (range_on d 0 c ltac:(lra) Cd) as (p1 & p2 & Rp & xp & Hxp & Exp).
  set (sol := Some (fun x => [Fin (d x); Fin (h x)])).
  exists (mu S1 sol), (mu VFd1U sol), c, p1, p2, d, h.
  split; [lra|]. split; [rewrite <- Exp; apply S; lra|].
  do 4 (split; [reflexivity|]). do 2 (split; [discriminate|]). split.
  { exists (fun _ _ => Err ValueError), w_head, {| c_fun := fun _ => 1; c_ret := KFloat; c_deriv := None |}. eexists.
    do 2 (split; [reflexivity|]). split; [reflexivity|]. intros x. split; reflexivity. }
  split; [exact D0|].
  do 2 (split; [eexists; split; [reflexivity|exists (mkposreal 1 Rlt_0_1); reflexivity]|]).
  intros x Hx. destruct (S x ltac:(lra)) as (A1 & _ & A3). specialize (Rp x Hx).
  split; [apply V1; intros; reflexivity|]. split; [exact A1|].
  split; [exists 0; split; [reflexivity|]; split; [apply G|]; rewrite Rminus_eq_0, Rabs_R0; lra|].
  split; [|split; [exact Rp|exact A3]].
  destruct A1 as (v & w & E & D1 & D2). exists v, w. split; [|split; assumption].
  rewrite <- E. unfold ode_impl. cbn [m_kind mu]. rewrite G. reflexivity.
Qed.
