(** Property C155: the linear form of Thwaites' method in wedge flows, u_e = c x^n.
    [wedge_flow], [wedge_thickness], [wedge_parameter]: WedgeSpec. [1 + 1/(1000 lo)] is the effect
    of the 1/1000 the program adds to the velocity. *)
From Coq Require Import Reals List Lra.
From Coquelicot Require Import Coquelicot.
From Verif Require Import PyBase PyBaseFacts ThwaitesFitsModel SplineSpec SplineProofs InitialConditionModel
  CoreModel OdeSpec ThwaitesOdeProofs WellPosedProps WedgeSpec WedgeProofs.
Import ListNotations.
Open Scope R_scope.

(* ---------------------------------------------------------------- C155 *)
(** From any initial thickness the layer approaches the self-similar one. *)
Theorem wedge_flow_thickness : forall m nu c n lo s a b,
  m_kind m = ThwaitesLinear -> m_nu m = Fin nu -> 0 < nu -> 0 < c -> 0 < 1 + 5*n -> 0 < lo ->
  0 < a -> a <= b -> wedge_flow m c n lo s a b -> 0 <= s a ->
  let r := 1 + 1/(1000*lo) in
  let excess := s a / wedge_thickness c n a - 1 in
  let d := sqrt (nu * (wedge_thickness c n b * (1 + excess * Rpower (a / b) (1 + 5*n)))) in
  exists v, q_delta_m m b = Ok (Fin v) /\ d / r^3 <= v <= r^3 * d.
Proof.
  intros m nu c n lo s a b H1 H2 H3 H4 H5 H6 H7 H8 H9 H10.
  exact (wedge_delta m nu c n lo s a b H1 H2 H3 H4 H5 H6 H7 H8 H9 H10).
Qed.
Print Assumptions wedge_flow_thickness.

(** A layer that starts self-similar separates everywhere or nowhere, ... *)
Theorem wedge_flow_wall_shear : forall m f cs nu c n lo s a b rho,
  m_kind m = ThwaitesLinear -> m_nu m = Fin nu -> 0 < nu -> m_fit m = Some f -> cubic_spline_ok cs ->
  f = fit_white \/ f = fit_spline cs -> 0 < c -> 0 < 1 + 5*n -> 0 < lo -> 0 < rho ->
  0 < a -> a <= b -> wedge_flow m c n lo s a b -> s a = wedge_thickness c n a ->
  let r := 1 + 1/(1000*lo) in
  exists v, q_tau_w_thwaites m b rho = Ok (Fin v) /\
    (-9/100 < r^6 * wedge_parameter n -> 0 < v) /\
    (wedge_parameter n <= - (9/100) * r^6 -> v = 0).
Proof.
  intros m f cs nu c n lo s a b rho H1 H2 H3 H4 H5 H6 H7 H8 H9 H10 H11 H12 H13 H14.
  exact (wedge_clamped m nu c n lo s a b H1 H2 H3 H7 H8 H9 H11 H12 H13 f rho H4 H10 cs H5 H6 H14).
Qed.
Print Assumptions wedge_flow_wall_shear.

Theorem wedge_flow_wall_shear_cb : forall m nu c n lo s a b rho,
  m_kind m = ThwaitesLinear -> m_nu m = Fin nu -> 0 < nu -> m_fit m = Some fit_cb ->
  0 < c -> 0 < 1 + 5*n -> 0 < lo -> 0 < rho ->
  0 < a -> a <= b -> wedge_flow m c n lo s a b -> s a = wedge_thickness c n a ->
  let r := 1 + 1/(1000*lo) in
  exists v, q_tau_w_thwaites m b rho = Ok (Fin v) /\
    (-898/10000 <= r^6 * wedge_parameter n -> 0 < v) /\
    (wedge_parameter n <= - (9/100) * r^6 -> v < 0).
Proof.
  intros m nu c n lo s a b rho H1 H2 H3 H4 H7 H8 H9 H10 H11 H12 H13 H14.
  exact (wedge_cb m nu c n lo s a b H1 H2 H3 H7 H8 H9 H11 H12 H13 fit_cb rho H4 H10 eq_refl H14).
Qed.
Print Assumptions wedge_flow_wall_shear_cb.

(** ... the exponent -0.1 being the limit (the exact similarity solution separates at -0.0904). *)
Theorem wedge_separation_exponent : forall n, 0 < 1 + 5*n ->
  (wedge_parameter n <= -9/100 <-> n <= -1/10).
Proof. exact parameter_threshold. Qed.
Print Assumptions wedge_separation_exponent.

(** Objects with the velocity 10 x^n and their exact solutions exist for every start; the layer
    with n = -1/8 that starts self-similar at x = 1 is separated at x = 2. *)
Lemma wedge_object n f s0 : exists s, s 1 = s0 /\ forall b lo,
  (forall x, 1 <= x <= b -> lo <= wedge_speed 10 n x) ->
  wedge_flow (w_thwaites_of ThwaitesLinear (wedge_speed 10 n) (wedge_slope 10 n) f s) 10 n lo s 1 b.
Proof.
  set (U := wedge_speed 10 n). set (dU := wedge_slope 10 n).
  assert (V : forall s x, 0 < x -> velocity_at (w_thwaites_of ThwaitesLinear U dU f s) U (dU x) x).
  { intros s x P. apply w_velocity. apply speed_derive. exact P. }
  destruct (linear_exists_pos (w_thwaites_of ThwaitesLinear U dU f (fun _ => 0)) U dU s0 1 eq_refl ltac:(lra)) as (s & E & S).
  { intros x P. split; [apply V; exact P|]. pose proof (speed_pos 10 n x ltac:(lra)). fold U in H. lra. }
  exists s. split; [exact E|]. intros b lo L. split.
  - intros x Hx. split; [apply V; lra|]. split; [exact (S x ltac:(lra))|apply L; exact Hx].
  - eexists. split; reflexivity.
Qed.

Lemma decelerated_speed x : 1 <= x <= 2 -> 5 <= wedge_speed 10 (-1/8) x.
Proof.
  intros Hx. unfold wedge_speed.
  assert (E : Rpower x (-1/8) = / Rpower x (1/8)).
  { rewrite <- Rpower_Ropp. f_equal. field. }
  rewrite E. pose proof (rpower_pos x (1/8)) as P.
  assert (B : Rpower x (1/8) <= x).
  { rewrite <- (Rpower_1 x) at 2 by lra. apply Rle_Rpower; lra. }
  assert (I : / x <= / Rpower x (1/8)) by (apply Rinv_le_contravar; assumption).
  assert (J : / 2 <= / x) by (apply Rinv_le_contravar; lra). lra.
Qed.

Example wedge_flow_case : exists s,
  let m := w_thwaites_of ThwaitesLinear (wedge_speed 10 (-1/8)) (wedge_slope 10 (-1/8)) fit_white s in
  wedge_flow m 10 (-1/8) 5 s 1 2 /\ s 1 = wedge_thickness 10 (-1/8) 1 /\
  q_tau_w_thwaites m 2 1 = Ok (Fin 0) /\
  exists v, q_delta_m m 2 = Ok (Fin v) /\
    99/100 * sqrt (wedge_thickness 10 (-1/8) 2) <= v <= 101/100 * sqrt (wedge_thickness 10 (-1/8) 2).
Proof.
  destruct (wedge_object (-1/8) fit_white (wedge_thickness 10 (-1/8) 1)) as (s & E & W).
  exists s. intros m. assert (F : wedge_flow m 10 (-1/8) 5 s 1 2).
  { apply W. apply decelerated_speed. }
  split; [exact F|]. split; [exact E|]. split.
  - destruct (wedge_flow_wall_shear m fit_white table_splines 1 10 (-1/8) 5 s 1 2 1 eq_refl eq_refl
      ltac:(lra) eq_refl table_splines_ok (or_introl eq_refl) ltac:(lra) ltac:(lra) ltac:(lra) ltac:(lra) ltac:(lra) ltac:(lra) F E)
      as (v & Q & _ & Z).
    rewrite Q, Z; [reflexivity|]. replace (wedge_parameter (-1/8)) with (-15/100) by (unfold wedge_parameter; field). lra.
  - destruct (wedge_flow_thickness m 1 10 (-1/8) 5 s 1 2 eq_refl eq_refl
      ltac:(lra) ltac:(lra) ltac:(lra) ltac:(lra) ltac:(lra) ltac:(lra) F) as (v & Q & L1 & L2).
    { rewrite E. apply Rlt_le, thickness_pos; lra. }
    exists v. split; [exact Q|]. rewrite E in L1, L2.
    pose proof (thickness_pos 10 (-1/8) 1 ltac:(lra) ltac:(lra) ltac:(lra)) as P1.
    replace (1 * (wedge_thickness 10 (-1/8) 2 * (1 + (wedge_thickness 10 (-1/8) 1 / wedge_thickness 10 (-1/8) 1 - 1) *
      Rpower (1/2) (1 + 5 * (-1/8))))) with (wedge_thickness 10 (-1/8) 2) in L1, L2 by (field; lra).
    pose proof (sqrt_pos (wedge_thickness 10 (-1/8) 2)) as P. set (q := sqrt _) in *. clearbody q.
    split; [|lra]. apply Rle_trans with (2 := L1).
    apply (Rle_div_r (99/100 * q) q ((1 + 1/(1000*5))^3)); [apply pow_lt; lra|]. lra.
Qed.
