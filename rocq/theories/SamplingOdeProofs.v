(** C126, C127: velocities given by samples, and the momentum thickness computed from them. *)
From Coq Require Import Reals List Bool Lra Lia.
From Coquelicot Require Import Coquelicot Rcomplements.
From Verif Require Import PyBase PyBaseFacts PPolyModel PPolyProofs ThwaitesFitsModel SplineSpec CoreModel PchipModel
  PchipProofs WorkflowSpec SamplingSpec SamplingProofs OdeSpec ThwaitesOdeProofs StabilityProofs SensitivityProofs HeadSensitivityProofs.
Import ListNotations.
Open Scope R_scope.

Lemma points_fit m xs us : given_by_points m xs us -> exists p, pchip_fit xs us = Ok p /\
  forall x, q_u_e m x = Ok (pp_eval p x) /\ q_du_e m x = Ok (pp_eval (pp_derivative p) x).
Proof.
  intros (m0 & v1 & v2 & du & d2u & m' & H1 & H2 & HS & HQ).
  cbn [set_velocity] in HS. unfold set_velocity_points in HS.
  cbn [py_len List.length py_item nth_error bind] in HS. rewrite H1, H2 in HS. cbn [vec nd_shape] in HS.
  change (negb (Nat.eqb (length [length xs]) 1)) with false in HS.
  change (negb (Nat.eqb (length [length us]) 1)) with false in HS. cbv iota in HS.
  cbn [hd] in HS. change (pchip_scipy (vec xs) (vec us)) with (pchip_fit xs us) in HS.
  destruct (negb (Nat.eqb (length xs) (length us))); [discriminate|].
  destruct (Nat.ltb (length xs) 2); [discriminate|].
  destruct (pchip_fit xs us) as [p|e]; [|discriminate].
  exists p. split; [reflexivity|]. injection HS as <-.
  intros x. destruct (HQ x) as (Q1 & Q2 & _). rewrite Q1, Q2. split; reflexivity.
Qed.

Lemma points_fields m0 v1 v2 xs us du d2u m' : np_asarray v1 = Ok (vec xs) -> np_asarray v2 = Ok (vec us) ->
  set_velocity pchip_scipy m0 (PTup [v1; v2]) du d2u = (m', Ok tt) ->
  m_kind m' = m_kind m0 /\ m_nu m' = m_nu m0 /\ m_fit m' = m_fit m0 /\ slot_kind (m_u m') <> KInt.
Proof.
  intros H1 H2 HS.
  cbn [set_velocity] in HS. unfold set_velocity_points in HS.
  cbn [py_len List.length py_item nth_error bind] in HS. rewrite H1, H2 in HS. cbn [vec nd_shape] in HS.
  change (negb (Nat.eqb (length [length xs]) 1)) with false in HS.
  change (negb (Nat.eqb (length [length us]) 1)) with false in HS. cbv iota in HS.
  cbn [hd] in HS. change (pchip_scipy (vec xs) (vec us)) with (pchip_fit xs us) in HS.
  destruct (negb (Nat.eqb (length xs) (length us))); [discriminate|].
  destruct (Nat.ltb (length xs) 2); [discriminate|].
  destruct (pchip_fit xs us) as [p|e]; [|discriminate].
  injection HS as <-. repeat split; try reflexivity. discriminate.
Qed.

Lemma sampled_velocity_lemma m U xs us h L x :
  given_by_points m xs us -> samples_of U xs us h -> 0 <= L -> slope_at_most L U xs -> sampled_range xs x ->
  exists u, q_u_e m x = Ok u /\ Rabs (u - U x) <= L * h.
Proof.
  intros G S HL HU Hx. destruct (points_fit m xs us G) as (p & Hp & Q).
  exists (pp_eval p x). split; [apply Q|]. apply (sampled_value xs us p Hp U h S L x HL HU Hx).
Qed.

Lemma sampled_gradient_lemma m U dU xs us h M x :
  given_by_points m xs us -> samples_of U xs us h -> 0 <= M ->
  (forall t, sampled_range xs t -> is_derive U t (dU t)) -> slope_at_most M dU xs -> sampled_range xs x ->
  exists u du, q_u_e m x = Ok u /\ q_du_e m x = Ok du /\ Rabs (u - U x) <= 5 * M * h ^ 2 /\ Rabs (du - dU x) <= 5 * M * h.
Proof.
  intros G S HM HD HU Hx. destruct (points_fit m xs us G) as (p & Hp & Q). destruct (Q x) as [Q1 Q2].
  exists (pp_eval p x), (pp_eval (pp_derivative p) x). split; [exact Q1|]. split; [exact Q2|].
  split.
  - replace (5 * M * h ^ 2) with (5 * (M * h) * h) by ring. apply (sampled_value2 xs us p Hp U h S dU M HM HD HU x Hx).
  - replace (5 * M * h) with (5 * (M * h)) by ring. apply (sampled_slope xs us p Hp U h S dU M HM HD HU x Hx).
Qed.

Lemma points_velocity_at m xs us : given_by_points m xs us -> exists V dV, forall x, velocity_at m V (dV x) x /\ continuous dV x.
Proof.
  intros G. destruct (points_fit m xs us G) as (p & Hp & Q).
  exists (pp_eval p), (pp_eval (pp_derivative p)). intros x. split; [|apply (fit_slope_continuous xs us p Hp)].
  split; [|split].
  - exists (mkposreal 1 Rlt_0_1). intros t _. apply Q.
  - apply (fit_derive xs us p Hp).
  - apply Q.
Qed.

Lemma within_ratio r lo u v : 0 < lo -> lo <= u -> Rabs (v - u) <= r * lo -> 0 <= r -> (1 - r) * u <= v <= (1 + r) * u.
Proof.
  intros P L A Hr. apply Rabs_le_between in A.
  assert (r * lo <= r * u) by (apply Rmult_le_compat_l; assumption). lra.
Qed.

Lemma sampled_linear m1 m2 nu U dU s1 s2 xs us a b lo r :
  m_kind m1 = ThwaitesLinear -> m_kind m2 = ThwaitesLinear -> m_nu m1 = Fin nu -> m_nu m2 = Fin nu -> 0 < nu ->
  given_by_points m2 xs us -> a <= b -> 0 < lo -> 0 <= r < 1 ->
  (forall x v, a <= x <= b -> q_u_e m2 x = Ok v -> Rabs (v - U x) <= r * lo) ->
  (forall x, a <= x <= b -> velocity_at m1 U (dU x) x /\ solves1_at m1 s1 x /\ solves1_at m2 s2 x /\ lo <= U x) ->
  0 <= s1 a -> s2 a = s1 a -> stored1_at m1 s1 b -> stored1_at m2 s2 b ->
  exists v1 v2, q_delta_m m1 b = Ok (Fin v1) /\ q_delta_m m2 b = Ok (Fin v2) /\
    ((1 - r) / (1 + r)) ^ 3 * v1 <= v2 <= ((1 + r) / (1 - r)) ^ 3 * v1.
Proof.
  intros K1 K2 N1 N2 P G Hab Hlo Hr HE HX S0 SE T1 T2.
  destruct (points_velocity_at m2 xs us G) as (V & dV & HV).
  apply (velocity_error_lemma m1 m2 nu U V dU dV s1 s2 a b (1 - r) (1 + r)); try assumption; try lra.
  intros x Hx. destruct (HX x Hx) as (A1 & A2 & A3 & A4).
  split; [exact A1|]. split; [exact A2|]. split; [apply HV|]. split; [exact A3|]. split; [lra|].
  apply (within_ratio r lo); try lra. apply (HE x); [exact Hx|].
  destruct (HV x) as (((d & Hd) & _ & _) & _). apply Hd. apply ball_center.
Qed.

Lemma sampled_linear_lemma m1 m2 nu U dU s1 s2 xs us h L a b lo :
  m_kind m1 = ThwaitesLinear -> m_kind m2 = ThwaitesLinear -> m_nu m1 = Fin nu -> m_nu m2 = Fin nu -> 0 < nu ->
  given_by_points m2 xs us -> samples_of U xs us h -> 0 <= L -> slope_at_most L U xs ->
  a <= b -> sampled_range xs a -> sampled_range xs b -> 0 < lo -> L * h < lo ->
  (forall x, a <= x <= b -> velocity_at m1 U (dU x) x /\ solves1_at m1 s1 x /\ solves1_at m2 s2 x /\ lo <= U x) ->
  0 <= s1 a -> s2 a = s1 a -> stored1_at m1 s1 b -> stored1_at m2 s2 b ->
  let r := L * h / lo in
  exists v1 v2, q_delta_m m1 b = Ok (Fin v1) /\ q_delta_m m2 b = Ok (Fin v2) /\
    ((1 - r) / (1 + r)) ^ 3 * v1 <= v2 <= ((1 + r) / (1 - r)) ^ 3 * v1.
Proof.
  intros K1 K2 N1 N2 P G S HL HU Hab Ra Rb Hlo Hr HX S0 SE T1 T2 r.
  assert (Er : r * lo = L * h) by (unfold r; field; lra).
  assert (Hh : 0 <= L * h).
  { destruct (points_fit m2 xs us G) as (p & Hp & _). apply Rmult_le_pos; [exact HL|].
    apply (step_nonneg xs us p Hp U h S). }
  apply (sampled_linear m1 m2 nu U dU s1 s2 xs us a b lo r); try assumption.
  - split; [unfold r; apply Rmult_le_pos; [exact Hh|apply Rlt_le, Rinv_0_lt_compat, Hlo]|].
    apply Rmult_lt_reg_r with lo; lra.
  - intros x v Hx Q. rewrite Er.
    destruct (sampled_velocity_lemma m2 U xs us h L x G S HL HU) as (u & Qu & B); [unfold sampled_range in *; lra|].
    rewrite Q in Qu. injection Qu as <-. exact B.
Qed.

Lemma sampled_linear_smooth_lemma m1 m2 nu U dU s1 s2 xs us h M a b lo :
  m_kind m1 = ThwaitesLinear -> m_kind m2 = ThwaitesLinear -> m_nu m1 = Fin nu -> m_nu m2 = Fin nu -> 0 < nu ->
  given_by_points m2 xs us -> samples_of U xs us h -> 0 <= M ->
  (forall t, sampled_range xs t -> is_derive U t (dU t)) -> slope_at_most M dU xs ->
  a <= b -> sampled_range xs a -> sampled_range xs b -> 0 < lo -> 5 * M * h ^ 2 < lo ->
  (forall x, a <= x <= b -> velocity_at m1 U (dU x) x /\ solves1_at m1 s1 x /\ solves1_at m2 s2 x /\ lo <= U x) ->
  0 <= s1 a -> s2 a = s1 a -> stored1_at m1 s1 b -> stored1_at m2 s2 b ->
  let r := 5 * M * h ^ 2 / lo in
  exists v1 v2, q_delta_m m1 b = Ok (Fin v1) /\ q_delta_m m2 b = Ok (Fin v2) /\
    ((1 - r) / (1 + r)) ^ 3 * v1 <= v2 <= ((1 + r) / (1 - r)) ^ 3 * v1.
Proof.
  intros K1 K2 N1 N2 P G S HM HD HU Hab Ra Rb Hlo Hr HX S0 SE T1 T2 r.
  assert (Er : r * lo = 5 * M * h ^ 2) by (unfold r; field; lra).
  assert (Hh : 0 <= 5 * M * h ^ 2) by (apply Rmult_le_pos; [lra|apply pow2_ge_0]).
  apply (sampled_linear m1 m2 nu U dU s1 s2 xs us a b lo r); try assumption.
  - split; [unfold r; apply Rmult_le_pos; [exact Hh|apply Rlt_le, Rinv_0_lt_compat, Hlo]|].
    apply Rmult_lt_reg_r with lo; lra.
  - intros x v Hx Q. rewrite Er.
    destruct (sampled_gradient_lemma m2 U dU xs us h M x G S HM HD HU) as (u & du & Qu & _ & B & _);
      [unfold sampled_range in *; lra|].
    rewrite Q in Qu. injection Qu as <-. exact B.
Qed.

(** First order in the distance of the samples. *)
Lemma sampled_nonlinear_lemma m1 cs nu U dU s1 a b k lo M :
  m_kind m1 = ThwaitesNonlinear -> cubic_spline_ok cs -> m_fit m1 = Some (fit_spline cs) ->
  m_nu m1 = Fin nu -> 0 < nu -> a <= b -> 0 <= k -> 0 < lo -> 0 <= M ->
  (forall x, a <= x <= b -> velocity_at m1 U (dU x) x /\ solves1_at m1 s1 x /\ lo <= U x /\ Rabs (dU x) <= k * U x) ->
  0 < s1 a -> stored1_at m1 s1 b ->
  exists C, 0 < C /\ forall m2 s2 xs us h,
    m_kind m2 = ThwaitesNonlinear -> m_fit m2 = Some (fit_spline cs) -> m_nu m2 = Fin nu ->
    given_by_points m2 xs us -> samples_of U xs us h -> 
    (forall t, sampled_range xs t -> is_derive U t (dU t)) -> slope_at_most M dU xs ->
    sampled_range xs a -> sampled_range xs b -> h <= 1 -> 10 * M * h ^ 2 <= lo ->
    (forall x, a <= x <= b -> solves1_at m2 s2 x) -> s2 a = s1 a -> stored1_at m2 s2 b ->
    exists v1 v2, q_delta_m m1 b = Ok (Fin v1) /\ q_delta_m m2 b = Ok (Fin v2) /\ Rabs (v2 ^ 2 - v1 ^ 2) <= C * h.
Proof.
  intros K1 CS F1 N1 P Hab Hk Hlo HM HX S0 T1.
  set (k2 := 2 * (k + 5 * M / lo)).
  set (E := exp (28 * k2 * (b - a))). set (Y := (s1 a + 44/100 / (lo / 2) * (b - a)) * E).
  set (C0 := nu * (((44/100 / (lo / 2) + 28 * k2 * Y) * (5 * M / lo) + 28 * Y * (5 * M / lo)) * (b - a) * E)).
  assert (PE : 0 < E) by apply exp_pos.
  assert (PM : 0 <= 5 * M / lo) by (apply Rmult_le_pos; [lra|apply Rlt_le, Rinv_0_lt_compat, Hlo]).
  assert (Pk : 0 <= k2) by (unfold k2; lra).
  assert (Pl : 0 <= 44/100 / (lo / 2)) by (apply Rlt_le, Rdiv_lt_0_compat; lra).
  assert (PY : 0 <= Y).
  { unfold Y. apply Rmult_le_pos; [|lra]. assert (0 <= 44/100 / (lo / 2) * (b - a)) by (apply Rmult_le_pos; lra). lra. }
  assert (PC : 0 <= C0).
  { unfold C0. apply Rmult_le_pos; [lra|]. apply Rmult_le_pos; [|lra]. apply Rmult_le_pos; [|lra].
    assert (0 <= 28 * k2 * Y) by (apply Rmult_le_pos; lra).
    apply Rplus_le_le_0_compat; apply Rmult_le_pos; lra. }
  exists (C0 + 1). split; [lra|].
  intros m2 s2 xs us h K2 F2 N2 G S HD HU Ra Rb H1 H2 HX2 SE T2.
  destruct (points_fit m2 xs us G) as (p & Hp & Q).
  assert (Hh : 0 <= h) by apply (step_nonneg xs us p Hp U h S).
  set (q := 5 * M / lo) in *.
  assert (Eq : q * lo = 5 * M) by (unfold q; field; lra).
  assert (Hq : q * h ^ 2 <= 1 / 2).
  { apply Rmult_le_reg_r with lo; [exact Hlo|]. replace (q * h ^ 2 * lo) with ((q * lo) * h ^ 2) by ring. rewrite Eq. lra. }
  assert (Hq2 : 0 <= q * h ^ 2) by (apply Rmult_le_pos; [exact PM|apply pow2_ge_0]).
  assert (Hqh : 0 <= q * h <= q) by (split; [apply Rmult_le_pos; assumption|rewrite <- (Rmult_1_r q) at 2; apply Rmult_le_compat_l; lra]).
  assert (Hhh : q * h ^ 2 <= q * h) by (replace (q * h ^ 2) with (q * h * h) by ring; rewrite <- (Rmult_1_r (q * h)) at 2; apply Rmult_le_compat_l; lra).
  destruct (velocity_error_nonlinear_lemma m1 m2 cs nu U (pp_eval p) dU (pp_eval (pp_derivative p)) s1 s2 a b k2 (lo / 2) (q * h ^ 2) (q * h))
    as (v1 & v2 & Q1 & Q2 & B); try assumption; try lra.
  - intros x Hx. destruct (HX x Hx) as (A1 & A2 & A3 & A4).
    assert (Rx : sampled_range xs x) by (unfold sampled_range in *; lra).
    pose proof (sampled_value2 xs us p Hp U h S dU M HM HD HU x Rx) as B1.
    pose proof (sampled_slope xs us p Hp U h S dU M HM HD HU x Rx) as B2.
    replace (5 * (M * h) * h) with (q * h ^ 2 * lo) in B1 by (transitivity ((q * lo) * h ^ 2); [ring|rewrite Eq; ring]).
    replace (5 * (M * h)) with (q * h * lo) in B2 by (transitivity ((q * lo) * h); [ring|rewrite Eq; ring]).
    assert (Z1 : q * h ^ 2 * lo <= q * h ^ 2 * U x) by (apply Rmult_le_compat_l; assumption).
    assert (Z2 : q * h * lo <= q * h * U x) by (apply Rmult_le_compat_l; lra).
    assert (Z3 : q * h ^ 2 * U x <= 1 / 2 * U x) by (apply Rmult_le_compat_r; lra).
    assert (Z4 : q * h * U x <= q * U x) by (apply Rmult_le_compat_r; lra).
    assert (Z5 : q * h ^ 2 * lo <= 1 / 2 * lo) by (apply Rmult_le_compat_r; lra).
    assert (Z0 : 0 <= k2 * (1/1000)) by (apply Rmult_le_pos; lra).
    assert (Zk : 0 <= k * U x) by (apply Rmult_le_pos; lra).
    assert (Zq : 0 <= q * U x) by (apply Rmult_le_pos; lra).
    assert (B1' := B1). apply Rabs_le_between in B1'. assert (B2' := B2). apply Rabs_le_between in B2'.
    assert (A4' := A4). apply Rabs_le_between in A4'.
    split; [exact A1|]. split; [exact A2|].
    split. { split; [exists (mkposreal 1 Rlt_0_1); intros t _; apply Q|]. split; [apply (fit_derive xs us p Hp)|apply Q]. }
    split; [apply HX2; exact Hx|]. split; [lra|]. split; [lra|].
    split. { apply Rle_trans with (1 := A4). rewrite Rmult_plus_distr_l. unfold k2 at 1. lra. }
    split.
    { apply Rle_trans with ((k + q) * U x).
      - apply Rabs_le. lra.
      - rewrite Rmult_plus_distr_l. assert (k2 * (1/2 * U x) <= k2 * pp_eval p x) by (apply Rmult_le_compat_l; lra).
        assert (k2 * (1/2 * U x) = (k + q) * U x) by (unfold k2; field). lra. }
    split; lra.
  - exists v1, v2. split; [exact Q1|]. split; [exact Q2|]. apply Rle_trans with (1 := B).
    fold E. fold Y. apply Rle_trans with (C0 * h); [|lra].
    set (A := 44/100 / (lo / 2) + 28 * k2 * Y).
    assert (PA : 0 <= A) by (unfold A; apply Rplus_le_le_0_compat; [exact Pl|]; apply Rmult_le_pos; lra).
    replace (C0 * h) with (nu * ((A * (q * h) + 28 * Y * (q * h)) * (b - a) * E)) by (unfold C0, A; ring).
    apply Rmult_le_compat_l; [lra|]. apply Rmult_le_compat_r; [lra|]. apply Rmult_le_compat_r; [lra|].
    apply Rplus_le_compat_r. apply Rmult_le_compat_l; assumption.
Qed.

Lemma sampled_head_lemma nu (U dU : R -> R) a b d1 d2 h1 h2 M :
  0 < nu -> a <= b -> 0 < d1 -> h2 <= 16/10 \/ 16/10 < h1 -> 0 <= M ->
  (forall x, a <= x <= b -> is_derive U x (dU x) /\ continuous dU x /\ 1/1000 <= U x) ->
  exists K, 0 < K /\ forall m1 m2 d h y z xs us w,
  m_kind m1 = Head -> m_kind m2 = Head -> m_nu m1 = Fin nu -> m_nu m2 = Fin nu ->
  slot_kind (m_u m1) <> KInt -> slot_kind (m_u m2) <> KInt ->
  given_by_points m2 xs us -> samples_of U xs us w ->
  (forall t, sampled_range xs t -> is_derive U t (dU t)) -> slope_at_most M dU xs ->
  sampled_range xs a -> sampled_range xs b -> w <= 1 ->
  (forall x, a <= x <= b -> velocity_at m1 U (dU x) x /\ solves2_at m1 d h x /\ solves2_at m2 y z x /\
     1/1000 + 5 * M * w ^ 2 <= U x /\
     d1 <= d x <= d2 /\ h1 <= h x <= h2 /\ d1 <= y x <= d2 /\ h1 <= z x <= h2) ->
  y a = d a -> z a = h a ->
  forall x, a <= x <= b -> stored2_at m1 d h x -> stored2_at m2 y z x ->
  exists dm1 H1 dm2 H2, q_delta_m m1 x = Ok (Fin dm1) /\ q_shape_d m1 x = Ok (Fin H1) /\
    q_delta_m m2 x = Ok (Fin dm2) /\ q_shape_d m2 x = Ok (Fin H2) /\
    Rabs (dm2 - dm1) <= K * w /\ Rabs (H2 - H1) <= K * w.
Proof.
  intros Pn Hab Pd Side HM V.
  destruct (head_velocity_error_lemma nu U dU a b d1 d2 h1 h2 Pn Hab Pd Side) as (K & PK & HK).
  { exact V. }
  assert (0 <= K * (5 * M)) by (apply Rmult_le_pos; lra).
  exists (K * (5 * M) + 1). split; [lra|].
  intros m1 m2 d h y z xs us w Km1 Km2 Kn1 Kn2 Sk1 Sk2 G S HD HU Ra Rb Hw1 HX Ey Ez x Hx T1 T2.
  destruct (points_fit m2 xs us G) as (p & Hp & Q).
  assert (Hw : 0 <= w) by apply (step_nonneg xs us p Hp U w S).
  destruct (HK m1 m2 (pp_eval p) (pp_eval (pp_derivative p)) d h y z (5 * (M * w)) Km1 Km2 Kn1 Kn2 Sk1 Sk2) with (x := x)
    as (dm1 & H1 & dm2 & H2 & A1 & A2 & A3 & A4 & B1 & B2); try assumption.
  - intros t Ht. destruct (HX t Ht) as (C1 & C2 & C3 & LU & C4).
    assert (Rt : sampled_range xs t) by (unfold sampled_range in *; lra).
    pose proof (sampled_value2 xs us p Hp U w S dU M HM HD HU t Rt) as E1.
    pose proof (sampled_slope xs us p Hp U w S dU M HM HD HU t Rt) as E2.
    split; [exact C1|]. split; [exact C2|].
    split. { split; [exists (mkposreal 1 Rlt_0_1); intros s _; apply Q|]. split; [apply (fit_derive xs us p Hp)|apply Q]. }
    split; [exact C3|].
    assert (F : 5 * (M * w) * w <= 5 * (M * w)).
    { rewrite <- (Rmult_1_r (5 * (M * w))) at 2. apply Rmult_le_compat_l; [|exact Hw1].
      pose proof (Rmult_le_pos M w HM Hw). lra. }
    split. { apply Rabs_le_between in E1. replace (5 * (M * w) * w) with (5 * M * w ^ 2) in E1 by ring. lra. }
    split; [lra|]. split; [exact E2|]. exact C4.
  - exists dm1, H1, dm2, H2. repeat (split; [assumption|]).
    rewrite Ey, Ez, !Rminus_eq_0, Rabs_R0 in B1, B2.
    replace (K * (0 + 0 + 5 * (M * w))) with (K * (5 * M) * w) in B1, B2 by ring. lra.
Qed.
