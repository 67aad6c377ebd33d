(** Properties C123 and C124, and part of C100: how errors spread.
    [velocity_at], [solves1_at], [solves2_at], [stored1_at]: see OdeSpec; [residual2_at]: WellPosedSpec. *)
From Coq Require Import Reals List Lra.
From Coquelicot Require Import Coquelicot.
From Verif Require Import PyBase PyBaseFacts ThwaitesFitsModel HeadModel InitialConditionModel
  CoreModel CoreRefute OdeSpec WellPosedSpec WellPosedProps HeadExistProofs AccelerationProps ThwaitesOdeProps StabilityProofs
  SplineSpec SplineProofs UnitsSpec FitLipschitzProofs WellPosedOdeProofs SensitivityProofs HeadSensitivityProofs.
Import ListNotations.
Open Scope R_scope.

(* ---------------------------------------------------------------- C123 *)
(** For a velocity, an interval and a range of thicknesses and shape factors on one side of 1.6 there is one
    constant that bounds the error of every stored solution by its initial error and its residual. *)
Theorem head_accuracy : forall nu U dU a b d1 d2 h1 h2,
  0 < nu -> a <= b -> 0 < d1 -> h2 <= 16/10 \/ 16/10 < h1 ->
  (forall x, a <= x <= b -> is_derive U x (dU x) /\ continuous dU x /\ 1/1000 <= U x) ->
  exists K, 0 < K /\ forall m g d h y z rho,
  m_kind m = Head -> m_nu m = Fin nu -> slot_kind (m_u m) <> KInt -> 0 <= rho ->
  (forall x, a <= x <= b -> velocity_at m U (dU x) x /\ solves2_at m d h x /\ residual2_at m y z x rho /\
     d1 <= d x <= d2 /\ h1 <= h x <= h2 /\ d1 <= y x <= d2 /\ h1 <= z x <= h2) ->
  m_sol m = Some g -> forall x, a <= x <= b -> g x = [Fin (y x); Fin (z x)] ->
  exists dm H, q_delta_m m x = Ok (Fin dm) /\ q_shape_d m x = Ok (Fin H) /\
    Rabs (dm - d x) <= K * (Rabs (y a - d a) + Rabs (z a - h a) + rho) /\
    Rabs (H - h x) <= K * (Rabs (y a - d a) + Rabs (z a - h a) + rho).
Proof. exact head_accuracy_lemma. Qed.
Print Assumptions head_accuracy.

(** The flat plate from the shape factor 2, with the momentum thickness 1 and, stored, 1.1. *)
Example head_accuracy_case : exists c d1 d2 d h y z, 0 < c /\ 0 < d1 /\ d 0 = 1 /\ y 0 = 11/10 /\
  forall x, 0 <= x <= c -> solves2_at (set_sol w_head (Some (fun x => [Fin (y x); Fin (z x)]))) d h x /\
    residual2_at (set_sol w_head (Some (fun x => [Fin (y x); Fin (z x)]))) y z x 0 /\
    d1 <= d x <= d2 /\ 17/10 <= h x <= 23/10 /\ d1 <= y x <= d2 /\ 17/10 <= z x <= 23/10.
Proof.
  assert (E : forall d0, 0 < d0 -> exists c d h, 0 < c <= 1 /\ d 0 = d0 /\
    forall x, 0 <= x <= c -> solves2_at w_head d h x /\ 0 < d x /\ 17/10 <= h x <= 23/10).
  { intros d0 P. destruct (head_solution_above_partial w_head 1 (fun _ => 1) (fun _ => 0) 0 1 d0 2 eq_refl eq_refl ltac:(lra)
      ltac:(discriminate) Rlt_0_1 (fun x _ => w_head_velocity x) P (17/10) (23/10) ltac:(lra) ltac:(lra))
      as (c & d & h & Hc & D0 & _ & S & _).
    exists c, d, h. auto. }
  destruct (E 1 ltac:(lra)) as (c1 & d & h & Hc1 & D0 & S1). destruct (E (11/10) ltac:(lra)) as (c2 & y & z & Hc2 & Y0 & S2).
  set (c := Rmin c1 c2). assert (L1 := Rmin_l c1 c2). assert (L2 := Rmin_r c1 c2). fold c in L1, L2.
  assert (Pc : 0 < c) by (apply Rmin_pos; lra).
  assert (Cd : forall x, 0 <= x <= c -> continuous d x).
  { intros x Hx. destruct (S1 x ltac:(lra)) as ((v & w & _ & D & _) & _). apply (ex_derive_continuous d). eexists. exact D. }
  assert (Cy : forall x, 0 <= x <= c -> continuous y x).
  { intros x Hx. destruct (S2 x ltac:(lra)) as ((v & w & _ & D & _) & _). apply (ex_derive_continuous y). eexists. exact D. }
  destruct (range_on d 0 c ltac:(lra) Cd) as (p1 & p2 & Rp & xp & Hxp & Exp).
  destruct (range_on y 0 c ltac:(lra) Cy) as (q1 & q2 & Rq & xq & Hxq & Exq).
  exists c, (Rmin p1 q1), (Rmax p2 q2), d, h, y, z.
  assert (M1 := Rmin_l p1 q1). assert (M2 := Rmin_r p1 q1). assert (M3 := Rmax_l p2 q2). assert (M4 := Rmax_r p2 q2).
  split; [exact Pc|]. split.
  { apply Rmin_pos; [rewrite <- Exp; apply S1; lra|rewrite <- Exq; apply S2; lra]. }
  split; [exact D0|]. split; [exact Y0|]. intros x Hx.
  destruct (S1 x ltac:(lra)) as (A1 & _ & A3). destruct (S2 x ltac:(lra)) as ((v & w & Ev & Dy & Dz) & _ & B3).
  specialize (Rp x Hx). specialize (Rq x Hx).
  split; [exact A1|]. split; [|repeat split; lra].
  exists v, w, v, w. split; [exact Ev|]. split; [exact Dy|]. split; [exact Dz|]. rewrite !Rminus_eq_0, Rabs_R0. lra.
Qed.

(* ---------------------------------------------------------------- C124 *)
(** If one velocity is everywhere between lo and hi times the other, the momentum thicknesses differ at most by
    the factor (hi/lo)^3. *)
Theorem velocity_error_linear : forall m1 m2 nu U V dU dV s1 s2 a b lo hi,
  m_kind m1 = ThwaitesLinear -> m_kind m2 = ThwaitesLinear -> m_nu m1 = Fin nu -> m_nu m2 = Fin nu -> 0 < nu ->
  a <= b -> 0 < lo <= 1 -> 1 <= hi ->
  (forall x, a <= x <= b -> velocity_at m1 U (dU x) x /\ solves1_at m1 s1 x /\
     velocity_at m2 V (dV x) x /\ solves1_at m2 s2 x /\ 0 <= U x /\ lo * U x <= V x <= hi * U x) ->
  0 <= s1 a -> s2 a = s1 a -> stored1_at m1 s1 b -> stored1_at m2 s2 b ->
  exists v1 v2, q_delta_m m1 b = Ok (Fin v1) /\ q_delta_m m2 b = Ok (Fin v2) /\
    (lo / hi) ^ 3 * v1 <= v2 <= (hi / lo) ^ 3 * v1.
Proof. exact velocity_error_lemma. Qed.
Print Assumptions velocity_error_linear.

(** A flat plate, and the same with a ripple of ten percent. *)
Example velocity_error_case : forall f, exists s1 s2,
  let U := fun _ : R => 1 in let V := fun x => 1 + sin x / 10 in
  let m1 := w_thwaites_of ThwaitesLinear U (fun _ => 0) f s1 in
  let m2 := w_thwaites_of ThwaitesLinear V (fun x => cos x / 10) f s2 in
  s1 0 = 1 /\ s2 0 = 1 /\ stored1_at m1 s1 3 /\ stored1_at m2 s2 3 /\
  forall x, 0 <= x <= 3 -> velocity_at m1 U 0 x /\ solves1_at m1 s1 x /\
    velocity_at m2 V (cos x / 10) x /\ solves1_at m2 s2 x /\ 9/10 * U x <= V x <= 11/10 * U x.
Proof.
  intros f.
  assert (DV : forall x, is_derive (fun x => 1 + sin x / 10) x (cos x / 10)) by (intros x; auto_derive; [exact I|field]).
  assert (DU : forall x : R, is_derive (fun _ : R => 1) x 0) by (intros x; apply (@is_derive_const R_AbsRing)).
  destruct (linear_solution_exists (w_thwaites_of ThwaitesLinear (fun _ => 1) (fun _ => 0) f (fun _ => 0)) (fun _ => 1) (fun _ => 0) 1 0)
    as (s1 & E1 & S1); [reflexivity| |].
  { intros x. split; [apply w_velocity, DU|lra]. }
  destruct (linear_solution_exists (w_thwaites_of ThwaitesLinear (fun x => 1 + sin x / 10) (fun x => cos x / 10) f (fun _ => 0))
    (fun x => 1 + sin x / 10) (fun x => cos x / 10) 1 0) as (s2 & E2 & S2); [reflexivity| |].
  { intros x. split; [apply (w_velocity _ _ (fun x => cos x / 10)), DV|pose proof (SIN_bound x); lra]. }
  exists s1, s2. cbv zeta. split; [exact E1|]. split; [exact E2|].
  split; [eexists; split; [reflexivity|exists (mkposreal 1 Rlt_0_1); reflexivity]|].
  split; [eexists; split; [reflexivity|exists (mkposreal 1 Rlt_0_1); reflexivity]|].
  intros x _. split; [apply w_velocity, DU|]. split; [apply S1|].
  split; [apply (w_velocity _ _ (fun x => cos x / 10)), DV|]. split; [apply S2|]. pose proof (SIN_bound x). lra.
Qed.

(** The nonlinear method with the default fit: velocities that differ by the relative error [e] and
    gradients that differ by [e'] times the velocity. *)
Theorem velocity_error_nonlinear : forall m1 m2 cs nu U V dU dV s1 s2 a b k lo e e',
  m_kind m1 = ThwaitesNonlinear -> m_kind m2 = ThwaitesNonlinear -> cubic_spline_ok cs ->
  m_fit m1 = Some (fit_spline cs) -> m_fit m2 = Some (fit_spline cs) ->
  m_nu m1 = Fin nu -> m_nu m2 = Fin nu -> 0 < nu -> a <= b -> 0 <= k -> 0 < lo -> 0 <= e -> 0 <= e' ->
  (forall x, a <= x <= b -> velocity_at m1 U (dU x) x /\ solves1_at m1 s1 x /\
     velocity_at m2 V (dV x) x /\ solves1_at m2 s2 x /\ lo <= U x + 1/1000 /\ lo <= V x + 1/1000 /\
     Rabs (dU x) <= k * (U x + 1/1000) /\ Rabs (dV x) <= k * (V x + 1/1000) /\
     Rabs (V x - U x) <= e * (U x + 1/1000) /\ Rabs (dV x - dU x) <= e' * (U x + 1/1000)) ->
  0 < s1 a -> s2 a = s1 a -> stored1_at m1 s1 b -> stored1_at m2 s2 b ->
  let E := exp (28 * k * (b - a)) in
  let Y := (s1 a + 44/100 / lo * (b - a)) * E in
  exists v1 v2, q_delta_m m1 b = Ok (Fin v1) /\ q_delta_m m2 b = Ok (Fin v2) /\
    Rabs (v2 ^ 2 - v1 ^ 2) <= nu * (((44/100 / lo + 28 * k * Y) * e + 28 * Y * e') * (b - a) * E).
Proof. exact velocity_error_nonlinear_lemma. Qed.
Print Assumptions velocity_error_nonlinear.

(** The default fit in uniform flow. *)
Lemma uniform_rhs m u x v : m_kind m = ThwaitesNonlinear -> m_fit m = Some (fit_spline table_splines) ->
  q_u_e m x = Ok u -> q_du_e m x = Ok 0 -> 0 < u -> ode_impl m x [Fin v] = Ok [Fin (44/100 / (u + 1/1000))].
Proof.
  intros K F QU QD P. destruct (default_rhs table_splines table_splines_ok) as (S & H & FI & _ & F0 & _).
  rewrite (rhs_nonlinear m _ S H x v u 0 K F FI QU QD) by lra. rewrite Rmult_0_r, F0. reflexivity.
Qed.

(** Uniform flow, and five percent faster. *)
Example velocity_error_nonlinear_case :
  let s := fun u x => 1 + 44/100 / (u + 1/1000) * x in
  let m := fun u => w_thwaites_of ThwaitesNonlinear (fun _ => u) (fun _ => 0) (fit_spline table_splines) (s u) in
  s 1 0 = 1 /\ s (105/100) 0 = 1 /\ (forall u x, stored1_at (m u) (s u) x) /\
  forall x, velocity_at (m 1) (fun _ => 1) 0 x /\ solves1_at (m 1) (s 1) x /\
    velocity_at (m (105/100)) (fun _ => 105/100) 0 x /\ solves1_at (m (105/100)) (s (105/100)) x /\
    Rabs (105/100 - 1) <= 5/100 * (1 + 1/1000).
Proof.
  cbv zeta. split; [lra|]. split; [lra|].
  split; [intros u x; eexists; split; [reflexivity|exists (mkposreal 1 Rlt_0_1); reflexivity]|].
  assert (A : forall u x, 0 < u -> solves1_at (w_thwaites_of ThwaitesNonlinear (fun _ => u) (fun _ => 0) (fit_spline table_splines)
     (fun x => 1 + 44/100 / (u + 1/1000) * x)) (fun x => 1 + 44/100 / (u + 1/1000) * x) x).
  { intros u x P. exists (44/100 / (u + 1/1000)). split; [apply (uniform_rhs _ u); try reflexivity; exact P|]. auto_derive; [exact I|ring]. }
  intros x. split; [apply (w_velocity _ _ (fun _ => 0)); apply (@is_derive_const R_AbsRing)|]. split; [apply A; lra|].
  split; [apply (w_velocity _ _ (fun _ => 0)); apply (@is_derive_const R_AbsRing)|]. split; [apply A; lra|].
  rewrite Rabs_pos_eq; lra.
Qed.

(** Head's method: on one side of the shape factor 1.6 an error of the velocity and its gradient of [e] at most
    changes the momentum thickness and the shape factor by a multiple of [e] at most. *)
Theorem velocity_error_head : forall nu U dU a b d1 d2 h1 h2,
  0 < nu -> a <= b -> 0 < d1 -> h2 <= 16/10 \/ 16/10 < h1 ->
  (forall x, a <= x <= b -> is_derive U x (dU x) /\ continuous dU x /\ 1/1000 <= U x) ->
  exists K, 0 < K /\ forall m1 m2 V dV d h y z e,
  m_kind m1 = Head -> m_kind m2 = Head -> m_nu m1 = Fin nu -> m_nu m2 = Fin nu ->
  slot_kind (m_u m1) <> KInt -> slot_kind (m_u m2) <> KInt ->
  (forall x, a <= x <= b -> velocity_at m1 U (dU x) x /\ solves2_at m1 d h x /\ velocity_at m2 V (dV x) x /\ solves2_at m2 y z x /\
     1/1000 <= V x /\ Rabs (V x - U x) <= e /\ Rabs (dV x - dU x) <= e /\
     d1 <= d x <= d2 /\ h1 <= h x <= h2 /\ d1 <= y x <= d2 /\ h1 <= z x <= h2) ->
  forall x, a <= x <= b -> stored2_at m1 d h x -> stored2_at m2 y z x ->
  exists dm1 H1 dm2 H2, q_delta_m m1 x = Ok (Fin dm1) /\ q_shape_d m1 x = Ok (Fin H1) /\
    q_delta_m m2 x = Ok (Fin dm2) /\ q_shape_d m2 x = Ok (Fin H2) /\
    Rabs (dm2 - dm1) <= K * (Rabs (y a - d a) + Rabs (z a - h a) + e) /\
    Rabs (H2 - H1) <= K * (Rabs (y a - d a) + Rabs (z a - h a) + e).
Proof. exact head_velocity_error_lemma. Qed.
Print Assumptions velocity_error_head.

(** The flat plate at the velocities 1 and 11/10, from the shape factor 2 and the momentum thickness 1. *)
Example velocity_error_head_case : exists m1 m2 c d1 d2 d h y z, 0 < c <= 1 /\ 0 < d1 /\
  m_kind m1 = Head /\ m_kind m2 = Head /\ m_nu m1 = Fin 1 /\ m_nu m2 = Fin 1 /\
  slot_kind (m_u m1) <> KInt /\ slot_kind (m_u m2) <> KInt /\
  d 0 = 1 /\ y 0 = 1 /\ stored2_at m1 d h c /\ stored2_at m2 y z c /\
  forall x, 0 <= x <= c -> velocity_at m1 (fun _ => 1) 0 x /\ solves2_at m1 d h x /\
    velocity_at m2 (fun _ => 11/10) 0 x /\ solves2_at m2 y z x /\ Rabs (11/10 - 1) <= 1/10 /\
    d1 <= d x <= d2 /\ 17/10 <= h x <= 23/10 /\ d1 <= y x <= d2 /\ 17/10 <= z x <= 23/10.
Proof.
  set (mu := fun u sol => {| m_kind := Head; m_nu := Fin 1; m_u := Some (VF (fun _ => u) KFloat);
     m_du := Some (VF (fun _ => 0) KFloat); m_d2u := Some VFd1DU; m_ic := new_manual PInf PInf (Fin 0); m_fit := None;
     m_events := []; m_sol := sol |}).
  assert (V1 : forall u sol x, velocity_at (mu u sol) (fun _ => u) 0 x).
  { intros u sol x. split; [exists (mkposreal 1 Rlt_0_1); intros; reflexivity|].
    split; [apply (@is_derive_const R_AbsRing)|reflexivity]. }
  assert (E : forall u, 1 <= u -> exists c d h, 0 < c <= 1 /\ d 0 = 1 /\
    forall x, 0 <= x <= c -> solves2_at (mu u None) d h x /\ 0 < d x /\ 17/10 <= h x <= 23/10).
  { intros u Pu.
    destruct (head_solution_above_partial (mu u None) 1 (fun _ => u) (fun _ => 0) 0 1 1 2 eq_refl eq_refl ltac:(lra) ltac:(discriminate) Rlt_0_1)
      with (lo := 17/10) (hi := 23/10) as (c & d & h & Hc & D0 & _ & S & _); try lra.
    - intros x _. split; [apply V1|]. split; [apply continuous_const|lra].
    - exists c, d, h. auto. }
  destruct (E 1 ltac:(lra)) as (c1 & d & h & Hc1 & D0 & S1). destruct (E (11/10) ltac:(lra)) as (c2 & y & z & Hc2 & Y0 & S2).
  set (c := Rmin c1 c2). assert (L1 := Rmin_l c1 c2). assert (L2 := Rmin_r c1 c2). fold c in L1, L2.
  assert (Pc : 0 < c) by (apply Rmin_pos; lra).
  assert (Cd : forall x, 0 <= x <= c -> continuous d x).
  { intros x Hx. destruct (S1 x ltac:(lra)) as ((v & w & _ & D & _) & _). apply (ex_derive_continuous d). eexists. exact D. }
  assert (Cy : forall x, 0 <= x <= c -> continuous y x).
  { intros x Hx. destruct (S2 x ltac:(lra)) as ((v & w & _ & D & _) & _). apply (ex_derive_continuous y). eexists. exact D. }
  destruct (range_on d 0 c ltac:(lra) Cd) as (p1 & p2 & Rp & xp & Hxp & Exp).
  destruct (range_on y 0 c ltac:(lra) Cy) as (q1 & q2 & Rq & xq & Hxq & Exq).
  assert (M1 := Rmin_l p1 q1). assert (M2 := Rmin_r p1 q1). assert (M3 := Rmax_l p2 q2). assert (M4 := Rmax_r p2 q2).
  assert (SS : forall u sol p q x, solves2_at (mu u None) p q x -> solves2_at (mu u sol) p q x) by (intros; assumption).
  exists (mu 1 (Some (fun x => [Fin (d x); Fin (h x)]))), (mu (11/10) (Some (fun x => [Fin (y x); Fin (z x)]))),
    c, (Rmin p1 q1), (Rmax p2 q2), d, h, y, z.
  split; [lra|]. split.
  { apply Rmin_pos; [rewrite <- Exp; apply S1; lra|rewrite <- Exq; apply S2; lra]. }
  do 4 (split; [reflexivity|]). do 2 (split; [discriminate|]). split; [exact D0|]. split; [exact Y0|].
  do 2 (split; [eexists; split; [reflexivity|exists (mkposreal 1 Rlt_0_1); reflexivity]|]).
  intros x Hx. destruct (S1 x ltac:(lra)) as (A1 & _ & A3). destruct (S2 x ltac:(lra)) as (B1 & _ & B3).
  specialize (Rp x Hx). specialize (Rq x Hx).
  split; [apply V1|]. split; [apply SS, A1|]. split; [apply V1|]. split; [apply SS, B1|].
  split; [rewrite Rabs_pos_eq; lra|]. repeat split; lra.
Qed.

(* ---------------------------------------------------------------- C100 *)
(** C100 for the nonlinear Thwaites method with the default fit: what remains of the choice of units
    is proportional to the offset 0.001 over the velocity. *)
Theorem units_nonlinear_partial : forall L T m1 m2 cs nu U dU s1 s2 a b k lo,
  0 < L -> 0 < T -> same_flow L T m1 m2 ->
  m_kind m1 = ThwaitesNonlinear -> cubic_spline_ok cs -> m_fit m1 = Some (fit_spline cs) ->
  m_nu m1 = Fin nu -> 0 < nu -> 0 <= k -> 0 < lo -> a <= b ->
  (forall x, a <= x <= b -> velocity_at m1 U (dU x) x /\ lo <= U x /\ Rabs (dU x) <= k * U x /\
     solves1_at m1 s1 x /\ solves1_at m2 s2 (L * x)) ->
  0 < s1 a -> s2 (L * a) = T * s1 a -> stored1_at m1 s1 b -> stored1_at m2 s2 (L * b) ->
  let E := exp (28 * k * (b - a)) in
  let Y := (s1 a + 44/100 / lo * (b - a)) * E in
  exists v1 v2, q_delta_m m1 b = Ok (Fin v1) /\ q_delta_m m2 (L * b) = Ok (Fin v2) /\
    Rabs (v2 ^ 2 - (L * v1) ^ 2) <=
    L ^ 2 * nu * ((44/100 / lo + 28 * k * Y) * (Rabs (T / L - 1) / (1000 * lo)) * (b - a) * E).
Proof. exact units_nonlinear_lemma. Qed.
Print Assumptions units_nonlinear_partial.

(** Uniform flow in metres and in millimetres. *)
Example units_nonlinear_case :
  let s1 := fun x => 1 + 44/100 / (1 + 1/1000) * x in
  let s2 := fun x => 1 + 44/100 / (1000 + 1/1000) * x in
  let m1 := w_thwaites_of ThwaitesNonlinear (fun _ => 1) (fun _ => 0) (fit_spline table_splines) s1 in
  let m2 := set_nu_field (w_thwaites_of ThwaitesNonlinear (fun _ => 1000 / 1 * 1) (fun _ => 0 / 1) (fit_spline table_splines) s2) (Fin (1000 ^ 2 / 1 * 1)) in
  same_flow 1000 1 m1 m2 /\ 0 < s1 0 /\ s2 (1000 * 0) = 1 * s1 0 /\
  forall x, velocity_at m1 (fun _ => 1) 0 x /\ solves1_at m1 s1 x /\ solves1_at m2 s2 (1000 * x) /\
    stored1_at m1 s1 x /\ stored1_at m2 s2 (1000 * x).
Proof.
  cbv zeta. split.
  { constructor; try reflexivity.
    - intros nu E. cbn in E. injection E as <-. reflexivity.
    - intros x u E. cbn in E. injection E as <-. reflexivity.
    - intros x u E. cbn in E. injection E as <-. reflexivity. }
  split; [lra|]. split; [lra|]. intros x.
  split; [apply (w_velocity _ _ (fun _ => 0)); apply (@is_derive_const R_AbsRing)|].
  split; [exists (44/100 / (1 + 1/1000)); split; [apply (uniform_rhs _ 1); try reflexivity; lra|auto_derive; [exact I|ring]]|].
  split; [exists (44/100 / (1000 + 1/1000)); split; [|auto_derive; [exact I|ring]]|].
  - apply (uniform_rhs _ 1000); try reflexivity; [| |lra]; cbn; f_equal; lra.
  - split; eexists; (split; [reflexivity|exists (mkposreal 1 Rlt_0_1); reflexivity]).
Qed.
