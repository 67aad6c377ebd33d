(** Property C156: results computed from a start value and samples of the velocity gradient.
    [given_by_gradient_points]: PointsSpec; [samples_of], [sampled_range], [slope_at_most]: SamplingSpec;
    [velocity_at], [solves1_at], [solves2_at], [stored1_at], [stored2_at]: OdeSpec. *)
From Coq Require Import Reals List Lra Lia.
From Coquelicot Require Import Coquelicot.
From Verif Require Import PyBase PyBaseFacts ThwaitesFitsModel HeadModel InitialConditionModel CoreModel CoreRefute PchipModel
  WorkflowSpec SamplingSpec OdeSpec PointsSpec SplineSpec SplineProofs WellPosedProps HeadExistProofs AccelerationProps
  ThwaitesOdeProofs PchipProofs SamplingProps PointsProofs PointsProps GradientSamplesProofs.
Import ListNotations.
Open Scope R_scope.

(* ---------------------------------------------------------------- C156 *)
(** Linear Thwaites method, gradients that change at rate L at most: the error is of first order in
    the distance h of the samples, ... *)
Theorem gradient_samples_linear : forall m1 m2 nu U dU s1 s2 xs gs h L a b lo,
  m_kind m1 = ThwaitesLinear -> m_kind m2 = ThwaitesLinear -> m_nu m1 = Fin nu -> m_nu m2 = Fin nu -> 0 < nu ->
  given_by_gradient_points m2 (U (hd 0 xs)) xs gs -> samples_of dU xs gs h -> 0 <= L ->
  (forall t, sampled_range xs t -> is_derive U t (dU t)) -> slope_at_most L dU xs ->
  a <= b -> sampled_range xs a -> sampled_range xs b -> 0 < lo -> L * h * (b - hd 0 xs) < lo ->
  (forall x, a <= x <= b -> velocity_at m1 U (dU x) x /\ solves1_at m1 s1 x /\ solves1_at m2 s2 x /\ lo <= U x) ->
  0 <= s1 a -> s2 a = s1 a -> stored1_at m1 s1 b -> stored1_at m2 s2 b ->
  let r := L * h * (b - hd 0 xs) / lo in
  exists v1 v2, q_delta_m m1 b = Ok (Fin v1) /\ q_delta_m m2 b = Ok (Fin v2) /\
    ((1 - r) / (1 + r)) ^ 3 * v1 <= v2 <= ((1 + r) / (1 - r)) ^ 3 * v1.
Proof. exact gradient_linear. Qed.
Print Assumptions gradient_samples_linear.

(** ... and of second order when the second derivative changes at rate M at most. *)
Theorem gradient_samples_linear_smooth : forall m1 m2 nu U dU d2U s1 s2 xs gs h M a b lo,
  m_kind m1 = ThwaitesLinear -> m_kind m2 = ThwaitesLinear -> m_nu m1 = Fin nu -> m_nu m2 = Fin nu -> 0 < nu ->
  given_by_gradient_points m2 (U (hd 0 xs)) xs gs -> samples_of dU xs gs h -> 0 <= M ->
  (forall t, sampled_range xs t -> is_derive U t (dU t) /\ is_derive dU t (d2U t)) -> slope_at_most M d2U xs ->
  a <= b -> sampled_range xs a -> sampled_range xs b -> 0 < lo -> 5 * M * h^2 * (b - hd 0 xs) < lo ->
  (forall x, a <= x <= b -> velocity_at m1 U (dU x) x /\ solves1_at m1 s1 x /\ solves1_at m2 s2 x /\ lo <= U x) ->
  0 <= s1 a -> s2 a = s1 a -> stored1_at m1 s1 b -> stored1_at m2 s2 b ->
  let r := 5 * M * h^2 * (b - hd 0 xs) / lo in
  exists v1 v2, q_delta_m m1 b = Ok (Fin v1) /\ q_delta_m m2 b = Ok (Fin v2) /\
    ((1 - r) / (1 + r)) ^ 3 * v1 <= v2 <= ((1 + r) / (1 - r)) ^ 3 * v1.
Proof. exact gradient_linear_smooth. Qed.
Print Assumptions gradient_samples_linear_smooth.

(** Nonlinear Thwaites method with the default fit: one constant C for all samplings. *)
Theorem gradient_samples_nonlinear : forall m1 cs nu U dU s1 a b k lo L D,
  m_kind m1 = ThwaitesNonlinear -> cubic_spline_ok cs -> m_fit m1 = Some (fit_spline cs) ->
  m_nu m1 = Fin nu -> 0 < nu -> a <= b -> 0 <= k -> 0 < lo -> 0 <= L -> 0 <= D ->
  (forall x, a <= x <= b -> velocity_at m1 U (dU x) x /\ solves1_at m1 s1 x /\ lo <= U x /\ Rabs (dU x) <= k * U x) ->
  0 < s1 a -> stored1_at m1 s1 b ->
  exists C, 0 < C /\ forall m2 s2 xs gs h,
    m_kind m2 = ThwaitesNonlinear -> m_fit m2 = Some (fit_spline cs) -> m_nu m2 = Fin nu ->
    given_by_gradient_points m2 (U (hd 0 xs)) xs gs -> samples_of dU xs gs h ->
    (forall t, sampled_range xs t -> is_derive U t (dU t)) -> slope_at_most L dU xs ->
    sampled_range xs a -> sampled_range xs b -> b - hd 0 xs <= D -> h <= 1 -> 2 * L * (1 + D) * h <= lo ->
    (forall x, a <= x <= b -> solves1_at m2 s2 x) -> s2 a = s1 a -> stored1_at m2 s2 b ->
    exists v1 v2, q_delta_m m1 b = Ok (Fin v1) /\ q_delta_m m2 b = Ok (Fin v2) /\ Rabs (v2 ^ 2 - v1 ^ 2) <= C * h.
Proof. exact gradient_nonlinear. Qed.
Print Assumptions gradient_samples_nonlinear.

(** Head's method, on one side of the shape factor 1.6: one constant K for all samplings (w apart). *)
Theorem gradient_samples_head : forall nu U dU a b d1 d2 h1 h2 L D,
  0 < nu -> a <= b -> 0 < d1 -> h2 <= 16/10 \/ 16/10 < h1 -> 0 <= L -> 0 <= D ->
  (forall x, a <= x <= b -> is_derive U x (dU x) /\ continuous dU x /\ 1/1000 <= U x) ->
  exists K, 0 < K /\ forall m1 m2 d h y z xs gs w,
  m_kind m1 = Head -> m_kind m2 = Head -> m_nu m1 = Fin nu -> m_nu m2 = Fin nu ->
  slot_kind (m_u m1) <> KInt -> slot_kind (m_u m2) <> KInt ->
  given_by_gradient_points m2 (U (hd 0 xs)) xs gs -> samples_of dU xs gs w ->
  (forall t, sampled_range xs t -> is_derive U t (dU t)) -> slope_at_most L dU xs ->
  sampled_range xs a -> sampled_range xs b -> b - hd 0 xs <= D ->
  (forall x, a <= x <= b -> velocity_at m1 U (dU x) x /\ solves2_at m1 d h x /\ solves2_at m2 y z x /\
     1/1000 + L * w * D <= U x /\
     d1 <= d x <= d2 /\ h1 <= h x <= h2 /\ d1 <= y x <= d2 /\ h1 <= z x <= h2) ->
  y a = d a -> z a = h a ->
  forall x, a <= x <= b -> stored2_at m1 d h x -> stored2_at m2 y z x ->
  exists dm1 H1 dm2 H2, q_delta_m m1 x = Ok (Fin dm1) /\ q_shape_d m1 x = Ok (Fin H1) /\
    q_delta_m m2 x = Ok (Fin dm2) /\ q_shape_d m2 x = Ok (Fin H2) /\
    Rabs (dm2 - dm1) <= K * w /\ Rabs (H2 - H1) <= K * w.
Proof. exact gradient_head. Qed.
Print Assumptions gradient_samples_head.

(** Objects with 1 + x^3/24 (see [sampled_gradient_points_case]) given by three samples of its
    gradient. *)
Lemma k_derive x : is_derive k_u x (k_du x).
Proof. unfold k_u, k_du. auto_derive; trivial; field. Qed.
Lemma k_samples : samples_of k_du k_xs k_gs (1/2).
Proof.
  split.
  - intros [|[|[|i]]] x u Hx Hu; try (destruct i; discriminate); injection Hx as <-; injection Hu as <-; unfold k_du; lra.
  - intros [|[|[|i]]] a b Ha Hb; try discriminate; injection Ha as <-; injection Hb as <-; lra.
Qed.
Lemma k_slope : slope_at_most (1/4) k_du k_xs.
Proof.
  intros x y Hx' Hy. unfold sampled_range, k_xs in *. cbn [hd last] in *. unfold k_du.
  replace (y ^ 2 / 8 - x ^ 2 / 8) with ((x + y) / 8 * (y - x)) by field. rewrite Rabs_mult.
  apply Rmult_le_compat_r; [apply Rabs_pos|]. rewrite Rabs_pos_eq; lra.
Qed.
Lemma k_range x : 0 <= x <= 1 -> sampled_range k_xs x.
Proof. unfold sampled_range, k_xs. cbn [hd last]. lra. Qed.
Lemma k_object m0 sol : exists m, given_by_gradient_points m (k_u (hd 0 k_xs)) k_xs k_gs /\
  m_kind m = m_kind m0 /\ m_nu m = m_nu m0 /\ m_fit m = m_fit m0 /\ slot_kind (m_u m) <> KInt /\ m_sol m = sol.
Proof.
  set (v1 := PTup [PNum 0; PNum (1/2); PNum 1]). set (v2 := PTup [PNum 0; PNum (1/32); PNum (1/8)]).
  assert (U : usable_points k_xs k_gs).
  { split; [reflexivity|]. split; [cbn; lia|].
    intros [|[|[|i]]] a b Ha Hb; try discriminate; injection Ha as <-; injection Hb as <-; lra. }
  replace (k_u (hd 0 k_xs)) with 1 by (unfold k_u; cbn; field).
  destruct (proj2 (derivative_points_lemma m0 1 v1 v2 k_xs k_gs PNone eq_refl eq_refl) U) as (m' & _ & _ & _ & E & _).
  assert (A : m_kind m' = m_kind m0 /\ m_nu m' = m_nu m0 /\ m_fit m' = m_fit m0 /\ slot_kind (m_u m') <> KInt).
  { clear - E. cbn [set_velocity] in E. unfold set_velocity_scalar in E.
    cbn [py_len List.length py_item nth_error bind] in E.
    destruct (np_asarray v1); [|discriminate]. destruct (np_asarray v2); [|discriminate].
    destruct (pchip_scipy _ _); [|discriminate]. injection E as <-. repeat split; try reflexivity. discriminate. }
  destruct A as (A1 & A2 & A3 & A4).
  exists (set_sol m' sol). split.
  { exists m0, v1, v2, PNone, m'. repeat split; try exact E; reflexivity. }
  repeat split; assumption.
Qed.
Lemma k_positive m V dV : given_by_gradient_points m (k_u (hd 0 k_xs)) k_xs k_gs -> (forall x, velocity_at m V (dV x) x) ->
  forall x, 0 <= x <= 1 -> 3/4 <= V x.
Proof.
  intros G HV x Hx.
  destruct (gradient_close m k_u k_du k_xs k_gs (1/2) (1/4) 0 1 V dV G k_samples ltac:(lra) (fun t _ => k_derive t) k_slope
    (k_range 0 ltac:(lra)) (k_range 1 ltac:(lra)) HV) as [_ C].
  destruct (C x Hx) as [B _]. apply Rabs_le_between in B. unfold k_xs in B. cbn [hd] in B. unfold k_u in B.
  assert (0 <= x^3) by (apply pow_le; lra). lra.
Qed.
Lemma k_big x : 0 <= x -> 1 <= k_u x.
Proof. intros. unfold k_u. assert (0 <= x^3) by (apply pow_le; lra). lra. Qed.
Lemma k_continuous x : continuous k_du x.
Proof. unfold k_du. apply (ex_derive_continuous (fun x => x^2 / 8)). auto_derive. exact I. Qed.

(** Solutions of both Thwaites kinds on [0, 1] for 1 + x^3/24 and for the samples of its gradient. *)
Example gradient_samples_thwaites_case : forall k, k = ThwaitesLinear \/ k = ThwaitesNonlinear ->
  exists m1 m2 s1 s2, m_kind m1 = k /\ m_kind m2 = k /\ m_nu m1 = Fin 1 /\ m_nu m2 = Fin 1 /\
  m_fit m1 = Some (fit_spline table_splines) /\ m_fit m2 = Some (fit_spline table_splines) /\
  given_by_gradient_points m2 (k_u (hd 0 k_xs)) k_xs k_gs /\ s1 0 = 1 /\ s2 0 = 1 /\ stored1_at m1 s1 1 /\ stored1_at m2 s2 1 /\
  forall x, 0 <= x <= 1 -> velocity_at m1 k_u (k_du x) x /\ solves1_at m1 s1 x /\ solves1_at m2 s2 x /\
    1 <= k_u x /\ Rabs (k_du x) <= 1/4 * k_u x.
Proof.
  intros k Hk. set (f := fit_spline table_splines).
  assert (EX : forall m V dV, m_kind m = k -> m_fit m = Some f -> (forall x, velocity_at m V (dV x) x /\ continuous dV x) ->
     (forall x, 0 <= x <= 1 -> 3/4 <= V x) -> exists s, s 0 = 1 /\ forall x, 0 <= x <= 1 -> solves1_at m s x).
  { intros m V dV Km Fm HV HP. destruct Hk as [-> | ->].
    - destruct (linear_exists_on m V dV 1 0 Km (fun x => proj1 (HV x))) as (s & E & S); [specialize (HP 0); lra|].
      exists s. split; [exact E|]. intros x Hx. apply S. specialize (HP x Hx). lra.
    - destruct (nonlinear_solution_unique m f table_splines V dV 0 1 1 Km Fm table_splines_ok (or_introl eq_refl) ltac:(lra))
        as (s & E & S & _); [|lra|].
      + intros x Hx. destruct (HV x) as [A B]. split; [exact A|]. split; [exact B|]. specialize (HP x Hx). lra.
      + exists s. split; [exact E|]. intros x Hx. apply S, Hx. }
  destruct (EX (w_thwaites_of k k_u k_du f (fun _ => 0)) k_u k_du eq_refl eq_refl) as (s1 & E1 & S1).
  { intros x. split; [apply w_velocity, k_derive|apply k_continuous]. }
  { intros x Hx. pose proof (k_big x). lra. }
  destruct (k_object (w_thwaites_of k k_u k_du f s1) None) as (m0 & G0 & K0 & N0 & F0 & _ & _).
  destruct (gradient_velocity_at m0 _ k_xs k_gs G0) as (V & dV & HV).
  destruct (EX m0 V dV K0 F0 HV) as (s2 & E2 & S2).
  { apply (k_positive m0 V dV G0). intros x. apply HV. }
  exists (w_thwaites_of k k_u k_du f s1), (set_sol m0 (Some (fun x => [Fin (s2 x)]))), s1, s2.
  split; [reflexivity|]. split; [exact K0|]. split; [reflexivity|]. split; [exact N0|].
  split; [reflexivity|]. split; [exact F0|].
  split; [exact G0|]. split; [exact E1|]. split; [exact E2|].
  split; [apply stored_const; reflexivity|]. split; [apply stored_const; reflexivity|].
  intros x Hx. split; [apply w_velocity, k_derive|].
  split; [apply (solves_sol (w_thwaites_of k k_u k_du f (fun _ => 0))); try reflexivity; apply S1, Hx|].
  split; [apply (solves_sol m0); try reflexivity; apply S2, Hx|].
  pose proof (k_big x ltac:(lra)) as PU. split; [exact PU|]. unfold k_du.
  assert (x^2 <= 1) by nra. assert (0 <= x^2) by apply pow2_ge_0. rewrite Rabs_pos_eq; lra.
Qed.

(** Head's method from the shape factor 2, likewise. *)
Example gradient_samples_head_case : exists m1 m2 c d1 d2 d h y z, 0 < c <= 1 /\ 0 < d1 /\
  m_kind m1 = Head /\ m_kind m2 = Head /\ m_nu m1 = Fin 1 /\ m_nu m2 = Fin 1 /\
  slot_kind (m_u m1) <> KInt /\ slot_kind (m_u m2) <> KInt /\
  given_by_gradient_points m2 (k_u (hd 0 k_xs)) k_xs k_gs /\
  d 0 = 1 /\ y 0 = 1 /\ h 0 = 2 /\ z 0 = 2 /\ stored2_at m1 d h c /\ stored2_at m2 y z c /\
  forall x, 0 <= x <= c -> velocity_at m1 k_u (k_du x) x /\ solves2_at m1 d h x /\ solves2_at m2 y z x /\
    1/1000 + 1/4 * (1/2) * 1 <= k_u x /\
    d1 <= d x <= d2 /\ 17/10 <= h x <= 23/10 /\ d1 <= y x <= d2 /\ 17/10 <= z x <= 23/10.
Proof.
  set (mu := fun sol => {| m_kind := Head; m_nu := Fin 1; m_u := Some (VF k_u KFloat);
     m_du := Some (VF k_du KFloat); m_d2u := Some VFd1DU; m_ic := new_manual PInf PInf (Fin 0); m_fit := None;
     m_events := []; m_sol := sol |}).
  assert (V1 : forall sol x, velocity_at (mu sol) k_u (k_du x) x).
  { intros sol x. split; [exists (mkposreal 1 Rlt_0_1); intros; reflexivity|]. split; [apply k_derive|reflexivity]. }
  destruct (head_solution_above_partial (mu None) 1 k_u k_du 0 1 1 2 eq_refl eq_refl ltac:(lra) ltac:(discriminate) Rlt_0_1)
    with (lo := 17/10) (hi := 23/10) as (c1 & d & h & Hc1 & D0 & H0 & S1 & _); try lra.
  { intros x Hx. split; [apply V1|]. split; [apply k_continuous|]. pose proof (k_big x). lra. }
  destruct (k_object (mu None) None) as (m0 & G0 & K0 & N0 & F0 & Sk0 & _).
  destruct (gradient_velocity_at m0 _ k_xs k_gs G0) as (V & dV & HV).
  pose proof (k_positive m0 V dV G0 (fun x => proj1 (HV x))) as PV.
  destruct (head_solution_above_partial m0 1 V dV 0 1 1 2 K0 N0 ltac:(lra) Sk0 Rlt_0_1)
    with (lo := 17/10) (hi := 23/10) as (c2 & y & z & Hc2 & Y0 & Z0 & S2 & _); try lra.
  { intros x Hx. destruct (HV x) as [A B]. split; [exact A|]. split; [exact B|]. specialize (PV x Hx). lra. }
  set (c := Rmin c1 c2). assert (L1 := Rmin_l c1 c2). assert (L2 := Rmin_r c1 c2). fold c in L1, L2.
  assert (Pc : 0 < c) by (apply Rmin_pos; lra).
  assert (Cd : forall x, 0 <= x <= c -> continuous d x).
  { intros x Hx. destruct (S1 x ltac:(lra)) as ((v & w & _ & Q & _) & _). apply (ex_derive_continuous d). eexists. exact Q. }
  assert (Cy : forall x, 0 <= x <= c -> continuous y x).
  { intros x Hx. destruct (S2 x ltac:(lra)) as ((v & w & _ & Q & _) & _). apply (ex_derive_continuous y). eexists. exact Q. }
  destruct (range_on d 0 c ltac:(lra) Cd) as (p1 & p2 & Rp & xp & Hxp & Exp).
  destruct (range_on y 0 c ltac:(lra) Cy) as (q1 & q2 & Rq & xq & Hxq & Exq).
  assert (M1 := Rmin_l p1 q1). assert (M2 := Rmin_r p1 q1). assert (M3 := Rmax_l p2 q2). assert (M4 := Rmax_r p2 q2).
  assert (SS : forall m sol p q x, solves2_at m p q x -> solves2_at (set_sol m sol) p q x) by (intros; assumption).
  exists (mu (Some (fun x => [Fin (d x); Fin (h x)]))), (set_sol m0 (Some (fun x => [Fin (y x); Fin (z x)]))),
    c, (Rmin p1 q1), (Rmax p2 q2), d, h, y, z.
  split; [lra|]. split.
  { apply Rmin_pos; [rewrite <- Exp; apply S1; lra|rewrite <- Exq; apply S2; lra]. }
  split; [reflexivity|]. split; [exact K0|]. split; [reflexivity|]. split; [exact N0|].
  split; [discriminate|]. split; [exact Sk0|]. split; [exact G0|].
  split; [exact D0|]. split; [exact Y0|]. split; [exact H0|]. split; [exact Z0|].
  split; [eexists; split; [reflexivity|exists (mkposreal 1 Rlt_0_1); reflexivity]|].
  split; [eexists; split; [reflexivity|exists (mkposreal 1 Rlt_0_1); reflexivity]|].
  intros x Hx. destruct (S1 x ltac:(lra)) as (A1 & _ & A3). destruct (S2 x ltac:(lra)) as (B1 & _ & B3).
  specialize (Rp x Hx). specialize (Rq x Hx). pose proof (k_big x ltac:(lra)).
  split; [apply V1|]. split; [apply (SS (mu None)), A1|]. split; [apply SS, B1|].
  repeat split; lra.
Qed.
