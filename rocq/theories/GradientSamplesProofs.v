(** Proofs of C156: results computed from a start value and samples of the velocity gradient. *)
From Coq Require Import Reals List Lra Lia.
From Coquelicot Require Import Coquelicot Rcomplements.
From Verif Require Import PyBase PyBaseFacts PPolyModel PPolyProofs ThwaitesFitsModel SplineSpec CoreModel PchipModel
  PchipProofs WorkflowSpec SamplingSpec SamplingProofs SamplingOdeProofs OdeSpec PointsSpec PointsProofs ThwaitesOdeProofs
  StabilityProofs SensitivityProofs HeadSensitivityProofs.
Import ListNotations.
Open Scope R_scope.

Lemma gradient_velocity_at m u0 xs gs : given_by_gradient_points m u0 xs gs ->
  exists V dV, forall x, velocity_at m V (dV x) x /\ continuous dV x.
Proof.
  intros G. destruct (gradient_points_fit m u0 xs gs G) as (p & Hp & Q).
  destruct (fit_integral xs gs p u0 Hp) as [_ D].
  exists (pp_eval (pp_shift (pp_antiderivative p) u0)), (pp_eval p). intros x. split.
  - split; [|split].
    + exists (mkposreal 1 Rlt_0_1). intros t _. apply Q.
    + apply D.
    + apply Q.
  - apply (ex_derive_continuous (pp_eval p)). eexists. apply (fit_derive xs gs p Hp).
Qed.

(** The errors of the velocity and of the gradient, in terms of the functions themselves. *)
Lemma gradient_close m U dU xs gs h L a b V dV :
  given_by_gradient_points m (U (hd 0 xs)) xs gs -> samples_of dU xs gs h -> 0 <= L ->
  (forall t, sampled_range xs t -> is_derive U t (dU t)) -> slope_at_most L dU xs ->
  sampled_range xs a -> sampled_range xs b -> (forall x, velocity_at m V (dV x) x) ->
  0 <= L * h /\ forall x, a <= x <= b ->
    Rabs (V x - U x) <= L * h * (b - hd 0 xs) /\ Rabs (dV x - dU x) <= L * h.
Proof.
  intros G S HL HD HU Ra Rb HV. destruct (gradient_points_fit m _ xs gs G) as (p & Hp & _).
  assert (Hh : 0 <= L * h) by (apply Rmult_le_pos; [exact HL|apply (step_nonneg xs gs p Hp dU h S)]).
  split; [exact Hh|]. intros x Hx.
  destruct (sampled_gradient_points_lemma m U dU xs gs h L x G S HL HD HU) as (u & du & Qu & Qd & B1 & B2);
    [unfold sampled_range in *; lra|].
  destruct (HV x) as (LV & _ & QV). apply locally_singleton in LV. cbv beta in LV.
  rewrite LV in Qu. injection Qu as <-. rewrite QV in Qd. injection Qd as <-.
  split; [|exact B1]. apply Rle_trans with (1 := B2). apply Rmult_le_compat_l; lra.
Qed.
Lemma gradient_close_smooth m U dU d2U xs gs h M a b V dV :
  given_by_gradient_points m (U (hd 0 xs)) xs gs -> samples_of dU xs gs h -> 0 <= M ->
  (forall t, sampled_range xs t -> is_derive U t (dU t) /\ is_derive dU t (d2U t)) -> slope_at_most M d2U xs ->
  sampled_range xs a -> sampled_range xs b -> (forall x, velocity_at m V (dV x) x) ->
  0 <= 5 * M * h^2 /\ forall x, a <= x <= b ->
    Rabs (V x - U x) <= 5 * M * h^2 * (b - hd 0 xs) /\ Rabs (dV x - dU x) <= 5 * M * h^2.
Proof.
  intros G S HM HD HU Ra Rb HV.
  assert (Hh : 0 <= 5 * M * h^2) by (apply Rmult_le_pos; [lra|apply pow2_ge_0]).
  split; [exact Hh|]. intros x Hx.
  destruct (sampled_gradient_points_smooth_lemma m U dU d2U xs gs h M x G S HM HD HU) as (u & du & d2u & Qu & Qd & _ & B2 & B1 & _);
    [unfold sampled_range in *; lra|].
  destruct (HV x) as (LV & _ & QV). apply locally_singleton in LV. cbv beta in LV.
  rewrite LV in Qu. injection Qu as <-. rewrite QV in Qd. injection Qd as <-.
  split; [|exact B1]. apply Rle_trans with (1 := B2). apply Rmult_le_compat_l; lra.
Qed.

(* ------------------------------------------------------------------ *)
(** * The linear method *)

Lemma close_linear m1 m2 nu U V dU dV s1 s2 a b lo e :
  m_kind m1 = ThwaitesLinear -> m_kind m2 = ThwaitesLinear -> m_nu m1 = Fin nu -> m_nu m2 = Fin nu -> 0 < nu ->
  a <= b -> 0 < lo -> 0 <= e < lo -> (forall x, velocity_at m2 V (dV x) x) ->
  (forall x, a <= x <= b -> Rabs (V x - U x) <= e) ->
  (forall x, a <= x <= b -> velocity_at m1 U (dU x) x /\ solves1_at m1 s1 x /\ solves1_at m2 s2 x /\ lo <= U x) ->
  0 <= s1 a -> s2 a = s1 a -> stored1_at m1 s1 b -> stored1_at m2 s2 b ->
  let r := e / lo in
  exists v1 v2, q_delta_m m1 b = Ok (Fin v1) /\ q_delta_m m2 b = Ok (Fin v2) /\
    ((1 - r) / (1 + r)) ^ 3 * v1 <= v2 <= ((1 + r) / (1 - r)) ^ 3 * v1.
Proof.
  intros K1 K2 N1 N2 P Hab Hlo He HV HE HX S0 SE T1 T2 r.
  assert (Er : r * lo = e) by (unfold r; field; lra).
  assert (Hr : 0 <= r < 1).
  { split; [unfold r; apply Rmult_le_pos; [lra|apply Rlt_le, Rinv_0_lt_compat, Hlo]|].
    apply Rmult_lt_reg_r with lo; lra. }
  apply (velocity_error_lemma m1 m2 nu U V dU dV s1 s2 a b (1 - r) (1 + r)); try assumption; try lra.
  intros x Hx. destruct (HX x Hx) as (A1 & A2 & A3 & A4).
  split; [exact A1|]. split; [exact A2|]. split; [apply HV|]. split; [exact A3|]. split; [lra|].
  apply (within_ratio r lo); try lra. rewrite Er. apply HE, Hx.
Qed.

Lemma gradient_linear m1 m2 nu U dU s1 s2 xs gs h L a b lo :
  m_kind m1 = ThwaitesLinear -> m_kind m2 = ThwaitesLinear -> m_nu m1 = Fin nu -> m_nu m2 = Fin nu -> 0 < nu ->
  given_by_gradient_points m2 (U (hd 0 xs)) xs gs -> samples_of dU xs gs h -> 0 <= L ->
  (forall t, sampled_range xs t -> is_derive U t (dU t)) -> slope_at_most L dU xs ->
  a <= b -> sampled_range xs a -> sampled_range xs b -> 0 < lo -> L * h * (b - hd 0 xs) < lo ->
  (forall x, a <= x <= b -> velocity_at m1 U (dU x) x /\ solves1_at m1 s1 x /\ solves1_at m2 s2 x /\ lo <= U x) ->
  0 <= s1 a -> s2 a = s1 a -> stored1_at m1 s1 b -> stored1_at m2 s2 b ->
  let r := L * h * (b - hd 0 xs) / lo in
  exists v1 v2, q_delta_m m1 b = Ok (Fin v1) /\ q_delta_m m2 b = Ok (Fin v2) /\
    ((1 - r) / (1 + r)) ^ 3 * v1 <= v2 <= ((1 + r) / (1 - r)) ^ 3 * v1.
Proof.
  intros K1 K2 N1 N2 P G S HL HD HU Hab Ra Rb Hlo He HX S0 SE T1 T2.
  destruct (gradient_velocity_at m2 _ xs gs G) as (V & dV & HV).
  destruct (gradient_close m2 U dU xs gs h L a b V dV G S HL HD HU Ra Rb (fun x => proj1 (HV x))) as [Hh HC].
  assert (0 <= L * h * (b - hd 0 xs)) by (apply Rmult_le_pos; [exact Hh|unfold sampled_range in Rb; lra]).
  apply (close_linear m1 m2 nu U V dU dV s1 s2 a b lo); try assumption; try lra.
  - intros x; apply HV.
  - intros x Hx; apply HC, Hx.
Qed.

Lemma gradient_linear_smooth m1 m2 nu U dU d2U s1 s2 xs gs h M a b lo :
  m_kind m1 = ThwaitesLinear -> m_kind m2 = ThwaitesLinear -> m_nu m1 = Fin nu -> m_nu m2 = Fin nu -> 0 < nu ->
  given_by_gradient_points m2 (U (hd 0 xs)) xs gs -> samples_of dU xs gs h -> 0 <= M ->
  (forall t, sampled_range xs t -> is_derive U t (dU t) /\ is_derive dU t (d2U t)) -> slope_at_most M d2U xs ->
  a <= b -> sampled_range xs a -> sampled_range xs b -> 0 < lo -> 5 * M * h^2 * (b - hd 0 xs) < lo ->
  (forall x, a <= x <= b -> velocity_at m1 U (dU x) x /\ solves1_at m1 s1 x /\ solves1_at m2 s2 x /\ lo <= U x) ->
  0 <= s1 a -> s2 a = s1 a -> stored1_at m1 s1 b -> stored1_at m2 s2 b ->
  let r := 5 * M * h^2 * (b - hd 0 xs) / lo in
  exists v1 v2, q_delta_m m1 b = Ok (Fin v1) /\ q_delta_m m2 b = Ok (Fin v2) /\
    ((1 - r) / (1 + r)) ^ 3 * v1 <= v2 <= ((1 + r) / (1 - r)) ^ 3 * v1.
Proof.
  intros K1 K2 N1 N2 P G S HL HD HU Hab Ra Rb Hlo He HX S0 SE T1 T2.
  destruct (gradient_velocity_at m2 _ xs gs G) as (V & dV & HV).
  destruct (gradient_close_smooth m2 U dU d2U xs gs h M a b V dV G S HL HD HU Ra Rb (fun x => proj1 (HV x))) as [Hh HC].
  assert (0 <= 5 * M * h^2 * (b - hd 0 xs)) by (apply Rmult_le_pos; [exact Hh|unfold sampled_range in Rb; lra]).
  apply (close_linear m1 m2 nu U V dU dV s1 s2 a b lo); try assumption; try lra.
  - intros x; apply HV.
  - intros x Hx; apply HC, Hx.
Qed.

(* ------------------------------------------------------------------ *)
(** * The nonlinear method *)

Lemma close_nonlinear m1 cs nu U dU s1 a b k lo A :
  m_kind m1 = ThwaitesNonlinear -> cubic_spline_ok cs -> m_fit m1 = Some (fit_spline cs) ->
  m_nu m1 = Fin nu -> 0 < nu -> a <= b -> 0 <= k -> 0 < lo -> 0 <= A ->
  (forall x, a <= x <= b -> velocity_at m1 U (dU x) x /\ solves1_at m1 s1 x /\ lo <= U x /\ Rabs (dU x) <= k * U x) ->
  0 < s1 a -> stored1_at m1 s1 b ->
  exists C, 0 < C /\ forall m2 s2 V dV e,
    m_kind m2 = ThwaitesNonlinear -> m_fit m2 = Some (fit_spline cs) -> m_nu m2 = Fin nu ->
    (forall x, velocity_at m2 V (dV x) x) -> 0 <= e <= 1 -> 2 * A * e <= lo ->
    (forall x, a <= x <= b -> Rabs (V x - U x) <= A * e /\ Rabs (dV x - dU x) <= A * e) ->
    (forall x, a <= x <= b -> solves1_at m2 s2 x) -> s2 a = s1 a -> stored1_at m2 s2 b ->
    exists v1 v2, q_delta_m m1 b = Ok (Fin v1) /\ q_delta_m m2 b = Ok (Fin v2) /\ Rabs (v2 ^ 2 - v1 ^ 2) <= C * e.
Proof.
  intros K1 CS F1 N1 P Hab Hk Hlo HM HX S0 T1.
  set (k2 := 2 * (k + A / lo)).
  set (E := exp (28 * k2 * (b - a))). set (Y := (s1 a + 44/100 / (lo / 2) * (b - a)) * E).
  set (C0 := nu * (((44/100 / (lo / 2) + 28 * k2 * Y) * (A / lo) + 28 * Y * (A / lo)) * (b - a) * E)).
  assert (PE : 0 < E) by apply exp_pos.
  assert (PM : 0 <= A / lo) by (apply Rmult_le_pos; [lra|apply Rlt_le, Rinv_0_lt_compat, Hlo]).
  assert (Pk : 0 <= k2) by (unfold k2; lra).
  assert (Pl : 0 <= 44/100 / (lo / 2)) by (apply Rlt_le, Rdiv_lt_0_compat; lra).
  assert (PY : 0 <= Y).
  { unfold Y. apply Rmult_le_pos; [|lra]. assert (0 <= 44/100 / (lo / 2) * (b - a)) by (apply Rmult_le_pos; lra). lra. }
  assert (PC : 0 <= C0).
  { unfold C0. apply Rmult_le_pos; [lra|]. apply Rmult_le_pos; [|lra]. apply Rmult_le_pos; [|lra].
    assert (0 <= 28 * k2 * Y) by (apply Rmult_le_pos; lra).
    apply Rplus_le_le_0_compat; apply Rmult_le_pos; lra. }
  exists (C0 + 1). split; [lra|].
  intros m2 s2 V dV e K2 F2 N2 HV He H2 HC HX2 SE T2.
  set (q := A / lo) in *.
  assert (Eq : q * lo = A) by (unfold q; field; lra).
  assert (Hq : q * e <= 1 / 2).
  { apply Rmult_le_reg_r with lo; [exact Hlo|]. replace (q * e * lo) with ((q * lo) * e) by ring. rewrite Eq. lra. }
  assert (Hqh : 0 <= q * e <= q) by (split; [apply Rmult_le_pos; lra|rewrite <- (Rmult_1_r q) at 2; apply Rmult_le_compat_l; lra]).
  destruct (velocity_error_nonlinear_lemma m1 m2 cs nu U V dU dV s1 s2 a b k2 (lo / 2) (q * e) (q * e))
    as (v1 & v2 & Q1 & Q2 & B); try assumption; try lra.
  - intros x Hx. destruct (HX x Hx) as (A1 & A2 & A3 & A4).
    destruct (HC x Hx) as [B1 B2].
    replace (A * e) with (q * e * lo) in B1, B2 by (transitivity ((q * lo) * e); [ring|rewrite Eq; ring]).
    assert (Z2 : q * e * lo <= q * e * U x) by (apply Rmult_le_compat_l; lra).
    assert (Z3 : q * e * U x <= 1 / 2 * U x) by (apply Rmult_le_compat_r; lra).
    assert (Z4 : q * e * U x <= q * U x) by (apply Rmult_le_compat_r; lra).
    assert (Z5 : q * e * lo <= 1 / 2 * lo) by (apply Rmult_le_compat_r; lra).
    assert (Z0 : 0 <= k2 * (1/1000)) by (apply Rmult_le_pos; lra).
    assert (Zk : 0 <= k * U x) by (apply Rmult_le_pos; lra).
    assert (Zq : 0 <= q * U x) by (apply Rmult_le_pos; lra).
    assert (B1' := B1). apply Rabs_le_between in B1'. assert (B2' := B2). apply Rabs_le_between in B2'.
    assert (A4' := A4). apply Rabs_le_between in A4'.
    split; [exact A1|]. split; [exact A2|]. split; [apply HV|].
    split; [apply HX2; exact Hx|]. split; [lra|]. split; [lra|].
    split. { apply Rle_trans with (1 := A4). rewrite Rmult_plus_distr_l. unfold k2 at 1. lra. }
    split.
    { apply Rle_trans with ((k + q) * U x).
      - apply Rabs_le. lra.
      - rewrite Rmult_plus_distr_l. assert (k2 * (1/2 * U x) <= k2 * V x) by (apply Rmult_le_compat_l; lra).
        assert (k2 * (1/2 * U x) = (k + q) * U x) by (unfold k2; field). lra. }
    split; lra.
  - exists v1, v2. split; [exact Q1|]. split; [exact Q2|]. apply Rle_trans with (1 := B).
    fold E. fold Y. apply Rle_trans with (C0 * e); [|lra].
    right. unfold C0. ring.
Qed.

Lemma gradient_nonlinear m1 cs nu U dU s1 a b k lo L D :
  m_kind m1 = ThwaitesNonlinear -> cubic_spline_ok cs -> m_fit m1 = Some (fit_spline cs) ->
  m_nu m1 = Fin nu -> 0 < nu -> a <= b -> 0 <= k -> 0 < lo -> 0 <= L -> 0 <= D ->
  (forall x, a <= x <= b -> velocity_at m1 U (dU x) x /\ solves1_at m1 s1 x /\ lo <= U x /\ Rabs (dU x) <= k * U x) ->
  0 < s1 a -> stored1_at m1 s1 b ->
  exists C, 0 < C /\ forall m2 s2 xs gs h,
    m_kind m2 = ThwaitesNonlinear -> m_fit m2 = Some (fit_spline cs) -> m_nu m2 = Fin nu ->
    given_by_gradient_points m2 (U (hd 0 xs)) xs gs -> samples_of dU xs gs h ->
    (forall t, sampled_range xs t -> is_derive U t (dU t)) -> slope_at_most L dU xs ->
    sampled_range xs a -> sampled_range xs b -> b - hd 0 xs <= D -> h <= 1 -> 2 * L * (1 + D) * h <= lo ->
    (forall x, a <= x <= b -> solves1_at m2 s2 x) -> s2 a = s1 a -> stored1_at m2 s2 b ->
    exists v1 v2, q_delta_m m1 b = Ok (Fin v1) /\ q_delta_m m2 b = Ok (Fin v2) /\ Rabs (v2 ^ 2 - v1 ^ 2) <= C * h.
Proof.
  intros K1 CS F1 N1 P Hab Hk Hlo HL PD HX S0 T1.
  destruct (close_nonlinear m1 cs nu U dU s1 a b k lo (L * (1 + D)) K1 CS F1 N1 P Hab Hk Hlo) as (C & PC & HC); try assumption.
  { apply Rmult_le_pos; lra. }
  exists C. split; [exact PC|]. intros m2 s2 xs gs h K2 F2 N2 G S HD HU Ra Rb Hb H1 H2 HX2 SE T2.
  destruct (gradient_velocity_at m2 _ xs gs G) as (V & dV & HV).
  destruct (gradient_close m2 U dU xs gs h L a b V dV G S HL HD HU Ra Rb (fun x => proj1 (HV x))) as [Hh HE].
  destruct (gradient_points_fit m2 _ xs gs G) as (p & Hp & _).
  assert (Ph : 0 <= h) by apply (step_nonneg xs gs p Hp dU h S).
  apply (HC m2 s2 V dV h); try assumption; try lra.
  - intros x; apply HV.
  - intros x Hx. destruct (HE x Hx) as [E1 E2].
    assert (L * h * (b - hd 0 xs) <= L * h * D) by (apply Rmult_le_compat_l; assumption).
    assert (0 <= L * h * D) by (apply Rmult_le_pos; assumption).
    replace (L * (1 + D) * h) with (L * h + L * h * D) by ring. lra.
Qed.

(* ------------------------------------------------------------------ *)
(** * Head's method *)

Lemma gradient_head nu (U dU : R -> R) a b d1 d2 h1 h2 L D :
  0 < nu -> a <= b -> 0 < d1 -> h2 <= 16/10 \/ 16/10 < h1 -> 0 <= L -> 0 <= D ->
  (forall x, a <= x <= b -> is_derive U x (dU x) /\ continuous dU x /\ 1/1000 <= U x) ->
  exists K, 0 < K /\ forall m1 m2 d h y z xs gs w,
  m_kind m1 = Head -> m_kind m2 = Head -> m_nu m1 = Fin nu -> m_nu m2 = Fin nu ->
  slot_kind (m_u m1) <> KInt -> slot_kind (m_u m2) <> KInt ->
  given_by_gradient_points m2 (U (hd 0 xs)) xs gs -> samples_of dU xs gs w ->
  (forall t, sampled_range xs t -> is_derive U t (dU t)) -> slope_at_most L dU xs ->
  sampled_range xs a -> sampled_range xs b -> b - hd 0 xs <= D ->
  (forall x, a <= x <= b -> velocity_at m1 U (dU x) x /\ solves2_at m1 d h x /\ solves2_at m2 y z x /\
     1/1000 + L * w * D <= U x /\
     d1 <= d x <= d2 /\ h1 <= h x <= h2 /\ d1 <= y x <= d2 /\ h1 <= z x <= h2) ->
  y a = d a -> z a = h a ->
  forall x, a <= x <= b -> stored2_at m1 d h x -> stored2_at m2 y z x ->
  exists dm1 H1 dm2 H2, q_delta_m m1 x = Ok (Fin dm1) /\ q_shape_d m1 x = Ok (Fin H1) /\
    q_delta_m m2 x = Ok (Fin dm2) /\ q_shape_d m2 x = Ok (Fin H2) /\
    Rabs (dm2 - dm1) <= K * w /\ Rabs (H2 - H1) <= K * w.
Proof.
  intros Pn Hab Pd Side HL PD V0.
  destruct (head_velocity_error_lemma nu U dU a b d1 d2 h1 h2 Pn Hab Pd Side V0) as (K & PK & HK).
  assert (PP : 0 <= K * (L * (1 + D))) by (apply Rmult_le_pos; [lra|apply Rmult_le_pos; lra]).
  exists (K * (L * (1 + D)) + 1). split; [lra|].
  intros m1 m2 d h y z xs gs w Km1 Km2 Kn1 Kn2 Sk1 Sk2 G S HD HU Ra Rb Hb HX Ey Ez x Hx T1 T2.
  destruct (gradient_velocity_at m2 _ xs gs G) as (V & dV & HV).
  destruct (gradient_close m2 U dU xs gs w L a b V dV G S HL HD HU Ra Rb (fun x => proj1 (HV x))) as [Hh HE].
  destruct (gradient_points_fit m2 _ xs gs G) as (p & Hp & _).
  assert (Pw : 0 <= w) by apply (step_nonneg xs gs p Hp dU w S).
  assert (PLD : 0 <= L * w * D) by (apply Rmult_le_pos; assumption).
  destruct (HK m1 m2 V dV d h y z (L * (1 + D) * w) Km1 Km2 Kn1 Kn2 Sk1 Sk2) with (x := x)
    as (dm1 & H1 & dm2 & H2 & A1 & A2 & A3 & A4 & B1 & B2); try assumption.
  - intros t Ht. destruct (HX t Ht) as (C1 & C2 & C3 & LU & C4). destruct (HE t Ht) as [E1 E2].
    assert (Q : L * w * (b - hd 0 xs) <= L * w * D) by (apply Rmult_le_compat_l; assumption).
    split; [exact C1|]. split; [exact C2|]. split; [apply HV|]. split; [exact C3|].
    replace (L * (1 + D) * w) with (L * w + L * w * D) by ring.
    split. { apply Rabs_le_between in E1. lra. }
    split; [lra|]. split; [lra|]. exact C4.
  - exists dm1, H1, dm2, H2. repeat (split; [assumption|]).
    rewrite Ey, Ez, !Rminus_eq_0, Rabs_R0 in B1, B2.
    replace (K * (0 + 0 + L * (1 + D) * w)) with (K * (L * (1 + D)) * w) in B1, B2 by ring. lra.
Qed.
