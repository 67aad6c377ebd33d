(** Properties C126 and C127: velocities given by samples of a smooth velocity.
    [samples_of], [given_by_points], [sampled_range], [slope_at_most]: see SamplingSpec;
    [velocity_at], [solves1_at], [solves2_at], [stored1_at], [stored2_at]: OdeSpec. *)
From Coq Require Import Reals List Lra Lia.
From Coquelicot Require Import Coquelicot.
From Verif Require Import PyBase PyBaseFacts ThwaitesFitsModel HeadModel InitialConditionModel CoreModel CoreRefute PchipModel
  WorkflowSpec SamplingSpec OdeSpec SplineSpec SplineProofs WorkflowProps WellPosedProps HeadExistProofs AccelerationProps
  ThwaitesOdeProofs PchipProofs SamplingProofs SamplingOdeProofs.
Import ListNotations.
Open Scope R_scope.

(* ---------------------------------------------------------------- C126 *)
(** Samples of a velocity that changes at rate L at most: the reported velocity is within L h. *)
Theorem sampled_velocity : forall m U xs us h L x,
  given_by_points m xs us -> samples_of U xs us h -> 0 <= L -> slope_at_most L U xs -> sampled_range xs x ->
  exists u, q_u_e m x = Ok u /\ Rabs (u - U x) <= L * h.
Proof. exact sampled_velocity_lemma. Qed.
Print Assumptions sampled_velocity.

(** Samples of a velocity whose gradient changes at rate M at most: the reported velocity is within
    5 M h^2, the reported gradient within 5 M h. *)
Theorem sampled_gradient : forall m U dU xs us h M x,
  given_by_points m xs us -> samples_of U xs us h -> 0 <= M ->
  (forall t, sampled_range xs t -> is_derive U t (dU t)) -> slope_at_most M dU xs -> sampled_range xs x ->
  exists u du, q_u_e m x = Ok u /\ q_du_e m x = Ok du /\ Rabs (u - U x) <= 5 * M * h ^ 2 /\ Rabs (du - dU x) <= 5 * M * h.
Proof. exact sampled_gradient_lemma. Qed.
Print Assumptions sampled_gradient.

(** The reported gradient is the derivative of the reported velocity and is continuous, so that the
    theorems on the existence of solutions (C111, C116) apply. *)
Theorem sampled_smooth : forall m xs us, given_by_points m xs us ->
  exists V dV, forall x, velocity_at m V (dV x) x /\ continuous dV x.
Proof. exact points_velocity_at. Qed.
Print Assumptions sampled_smooth.

(** 1 + x^2/8, sampled at 0, 1/2 and 1. *)
Definition e_u (x : R) : R := 1 + x ^ 2 / 8.
Definition e_du (x : R) : R := x / 4.
Definition e_xs : list R := [0; 1/2; 1].
Definition e_us : list R := [1; 33/32; 9/8].
Lemma e_derive x : is_derive e_u x (e_du x).
Proof. unfold e_u, e_du. auto_derive; [exact I|field]. Qed.
Lemma e_usable : usable_points e_xs e_us.
Proof.
  split; [reflexivity|]. split; [cbn; lia|].
  intros [|[|[|i]]] a b Ha Hb; try discriminate; injection Ha as <-; injection Hb as <-; lra.
Qed.
Lemma e_samples : samples_of e_u e_xs e_us (1/2).
Proof.
  split.
  - intros [|[|[|i]]] x u Hx Hu; try (destruct i; discriminate); injection Hx as <-; injection Hu as <-; unfold e_u; lra.
  - intros [|[|[|i]]] a b Ha Hb; try discriminate; injection Ha as <-; injection Hb as <-; lra.
Qed.
Lemma e_range x : sampled_range e_xs x <-> 0 <= x <= 1.
Proof. unfold sampled_range, e_xs. cbn [hd last]. lra. Qed.
Lemma e_slope : slope_at_most (1/4) e_u e_xs /\ slope_at_most (1/4) e_du e_xs.
Proof.
  split; intros x y Hx Hy; apply (proj1 (e_range _)) in Hx; apply (proj1 (e_range _)) in Hy.
  - unfold e_u. replace (1 + y ^ 2 / 8 - (1 + x ^ 2 / 8)) with ((x + y) / 8 * (y - x)) by field.
    rewrite Rabs_mult. apply Rmult_le_compat_r; [apply Rabs_pos|]. rewrite Rabs_pos_eq; lra.
  - unfold e_du. replace (y / 4 - x / 4) with (1/4 * (y - x)) by field. rewrite Rabs_mult, (Rabs_pos_eq (1/4)); lra.
Qed.
(** Objects of every method with this velocity. *)
Lemma e_object m0 sol : exists m, given_by_points m e_xs e_us /\
  m_kind m = m_kind m0 /\ m_nu m = m_nu m0 /\ m_fit m = m_fit m0 /\ slot_kind (m_u m) <> KInt /\ m_sol m = sol.
Proof.
  set (v1 := PTup [PNum 0; PNum (1/2); PNum 1]). set (v2 := PTup [PNum 1; PNum (33/32); PNum (9/8)]).
  destruct (proj2 (velocity_from_points m0 v1 v2 e_xs e_us PNone PNone eq_refl eq_refl) e_usable)
    as (m' & _ & _ & _ & E & _).
  destruct (points_fields m0 v1 v2 e_xs e_us PNone PNone m' eq_refl eq_refl E) as (A1 & A2 & A3 & A4).
  exists (set_sol m' sol). split.
  { exists m0, v1, v2, PNone, PNone, m'. repeat split; try exact E; reflexivity. }
  repeat split; assumption.
Qed.

Example sampled_velocity_case : exists m, given_by_points m e_xs e_us /\ samples_of e_u e_xs e_us (1/2) /\
  slope_at_most (1/4) e_u e_xs /\ slope_at_most (1/4) e_du e_xs /\
  exists u du, q_u_e m (1/3) = Ok u /\ q_du_e m (1/3) = Ok du /\ Rabs (u - e_u (1/3)) <= 1/8 /\ Rabs (du - 1/12) <= 5/8.
Proof.
  destruct (e_object w_head None) as (m & G & _). exists m. destruct e_slope as [S1 S2].
  split; [exact G|]. split; [exact e_samples|]. split; [exact S1|]. split; [exact S2|].
  assert (Hx : sampled_range e_xs (1/3)) by (apply (proj2 (e_range _)); lra).
  destruct (sampled_velocity m e_u e_xs e_us (1/2) (1/4) (1/3) G e_samples ltac:(lra) S1 Hx) as (u & Qu & B).
  destruct (sampled_gradient m e_u e_du e_xs e_us (1/2) (1/4) (1/3) G e_samples ltac:(lra) (fun t _ => e_derive t) S2 Hx)
    as (u' & du & _ & Qd & _ & B').
  exists u, du. split; [exact Qu|]. split; [exact Qd|]. split; [lra|].
  replace (1/12) with (e_du (1/3)) by (unfold e_du; field). lra.
Qed.

(* ---------------------------------------------------------------- C127 *)
(** Linear Thwaites method, samples of a velocity of at least lo that changes at rate L at most. *)
Theorem sampled_linear_thwaites : forall m1 m2 nu U dU s1 s2 xs us h L a b lo,
  m_kind m1 = ThwaitesLinear -> m_kind m2 = ThwaitesLinear -> m_nu m1 = Fin nu -> m_nu m2 = Fin nu -> 0 < nu ->
  given_by_points m2 xs us -> samples_of U xs us h -> 0 <= L -> slope_at_most L U xs ->
  a <= b -> sampled_range xs a -> sampled_range xs b -> 0 < lo -> L * h < lo ->
  (forall x, a <= x <= b -> velocity_at m1 U (dU x) x /\ solves1_at m1 s1 x /\ solves1_at m2 s2 x /\ lo <= U x) ->
  0 <= s1 a -> s2 a = s1 a -> stored1_at m1 s1 b -> stored1_at m2 s2 b ->
  let r := L * h / lo in
  exists v1 v2, q_delta_m m1 b = Ok (Fin v1) /\ q_delta_m m2 b = Ok (Fin v2) /\
    ((1 - r) / (1 + r)) ^ 3 * v1 <= v2 <= ((1 + r) / (1 - r)) ^ 3 * v1.
Proof. exact sampled_linear_lemma. Qed.
Print Assumptions sampled_linear_thwaites.

(** The same with a velocity whose gradient changes at rate M at most: second order. *)
Theorem sampled_linear_thwaites_smooth : forall m1 m2 nu U dU s1 s2 xs us h M a b lo,
  m_kind m1 = ThwaitesLinear -> m_kind m2 = ThwaitesLinear -> m_nu m1 = Fin nu -> m_nu m2 = Fin nu -> 0 < nu ->
  given_by_points m2 xs us -> samples_of U xs us h -> 0 <= M ->
  (forall t, sampled_range xs t -> is_derive U t (dU t)) -> slope_at_most M dU xs ->
  a <= b -> sampled_range xs a -> sampled_range xs b -> 0 < lo -> 5 * M * h ^ 2 < lo ->
  (forall x, a <= x <= b -> velocity_at m1 U (dU x) x /\ solves1_at m1 s1 x /\ solves1_at m2 s2 x /\ lo <= U x) ->
  0 <= s1 a -> s2 a = s1 a -> stored1_at m1 s1 b -> stored1_at m2 s2 b ->
  let r := 5 * M * h ^ 2 / lo in
  exists v1 v2, q_delta_m m1 b = Ok (Fin v1) /\ q_delta_m m2 b = Ok (Fin v2) /\
    ((1 - r) / (1 + r)) ^ 3 * v1 <= v2 <= ((1 + r) / (1 - r)) ^ 3 * v1.
Proof. exact sampled_linear_smooth_lemma. Qed.
Print Assumptions sampled_linear_thwaites_smooth.

(** Nonlinear Thwaites method with the default fit: one constant C for all samplings. *)
Theorem sampled_nonlinear_thwaites : forall m1 cs nu U dU s1 a b k lo M,
  m_kind m1 = ThwaitesNonlinear -> cubic_spline_ok cs -> m_fit m1 = Some (fit_spline cs) ->
  m_nu m1 = Fin nu -> 0 < nu -> a <= b -> 0 <= k -> 0 < lo -> 0 <= M ->
  (forall x, a <= x <= b -> velocity_at m1 U (dU x) x /\ solves1_at m1 s1 x /\ lo <= U x /\ Rabs (dU x) <= k * U x) ->
  0 < s1 a -> stored1_at m1 s1 b ->
  exists C, 0 < C /\ forall m2 s2 xs us h,
    m_kind m2 = ThwaitesNonlinear -> m_fit m2 = Some (fit_spline cs) -> m_nu m2 = Fin nu ->
    given_by_points m2 xs us -> samples_of U xs us h ->
    (forall t, sampled_range xs t -> is_derive U t (dU t)) -> slope_at_most M dU xs ->
    sampled_range xs a -> sampled_range xs b -> h <= 1 -> 10 * M * h ^ 2 <= lo ->
    (forall x, a <= x <= b -> solves1_at m2 s2 x) -> s2 a = s1 a -> stored1_at m2 s2 b ->
    exists v1 v2, q_delta_m m1 b = Ok (Fin v1) /\ q_delta_m m2 b = Ok (Fin v2) /\ Rabs (v2 ^ 2 - v1 ^ 2) <= C * h.
Proof. exact sampled_nonlinear_lemma. Qed.
Print Assumptions sampled_nonlinear_thwaites.

(** Head's method, on one side of the shape factor 1.6: one constant K for all samplings (w apart). *)
Theorem sampled_head : forall nu U dU a b d1 d2 h1 h2 M,
  0 < nu -> a <= b -> 0 < d1 -> h2 <= 16/10 \/ 16/10 < h1 -> 0 <= M ->
  (forall x, a <= x <= b -> is_derive U x (dU x) /\ continuous dU x /\ 1/1000 <= U x) ->
  exists K, 0 < K /\ forall m1 m2 d h y z xs us w,
  m_kind m1 = Head -> m_kind m2 = Head -> m_nu m1 = Fin nu -> m_nu m2 = Fin nu ->
  slot_kind (m_u m1) <> KInt -> slot_kind (m_u m2) <> KInt ->
  given_by_points m2 xs us -> samples_of U xs us w ->
  (forall t, sampled_range xs t -> is_derive U t (dU t)) -> slope_at_most M dU xs ->
  sampled_range xs a -> sampled_range xs b -> w <= 1 ->
  (forall x, a <= x <= b -> velocity_at m1 U (dU x) x /\ solves2_at m1 d h x /\ solves2_at m2 y z x /\
     1/1000 + 5 * M * w ^ 2 <= U x /\
     d1 <= d x <= d2 /\ h1 <= h x <= h2 /\ d1 <= y x <= d2 /\ h1 <= z x <= h2) ->
  y a = d a -> z a = h a ->
  forall x, a <= x <= b -> stored2_at m1 d h x -> stored2_at m2 y z x ->
  exists dm1 H1 dm2 H2, q_delta_m m1 x = Ok (Fin dm1) /\ q_shape_d m1 x = Ok (Fin H1) /\
    q_delta_m m2 x = Ok (Fin dm2) /\ q_shape_d m2 x = Ok (Fin H2) /\
    Rabs (dm2 - dm1) <= K * w /\ Rabs (H2 - H1) <= K * w.
Proof. exact sampled_head_lemma. Qed.
Print Assumptions sampled_head.

Lemma stored_const m s x : m_sol m = Some (fun x => [Fin (s x)]) -> stored1_at m s x.
Proof. intros E. eexists. split; [exact E|]. exists (mkposreal 1 Rlt_0_1). reflexivity. Qed.
Lemma solves_sol m m' s x : m_kind m = m_kind m' -> m_nu m = m_nu m' -> m_fit m = m_fit m' ->
  m_u m = m_u m' -> m_du m = m_du m' -> solves1_at m s x -> solves1_at m' s x.
Proof.
  intros E1 E2 E3 E4 E5 (v & Ev & D). exists v. split; [|exact D]. rewrite <- Ev.
  destruct m, m'. cbn in E1, E2, E3, E4, E5. subst. reflexivity.
Qed.

Lemma e_positive m V dV : given_by_points m e_xs e_us -> (forall x, velocity_at m V (dV x) x) ->
  forall x, 0 <= x <= 1 -> 3/4 <= V x.
Proof.
  intros G HV x Hx. destruct e_slope as [S1 _].
  destruct (sampled_velocity m e_u e_xs e_us (1/2) (1/4) x G e_samples ltac:(lra) S1 (proj2 (e_range x) Hx)) as (u & Qu & B).
  destruct (HV x) as (LU & _). apply locally_singleton in LU. rewrite LU in Qu. injection Qu as <-.
  apply Rabs_le_between in B. unfold e_u in B. pose proof (pow2_ge_0 x). lra.
Qed.

(** Solutions of both kinds on [0, 1] for 1 + x^2/8 and for its samples. *)
Example sampled_thwaites_case : forall k, k = ThwaitesLinear \/ k = ThwaitesNonlinear ->
  exists m1 m2 s1 s2, m_kind m1 = k /\ m_kind m2 = k /\ m_nu m1 = Fin 1 /\ m_nu m2 = Fin 1 /\
  m_fit m1 = Some (fit_spline table_splines) /\ m_fit m2 = Some (fit_spline table_splines) /\
  given_by_points m2 e_xs e_us /\ s1 0 = 1 /\ s2 0 = 1 /\ stored1_at m1 s1 1 /\ stored1_at m2 s2 1 /\
  forall x, 0 <= x <= 1 -> velocity_at m1 e_u (e_du x) x /\ solves1_at m1 s1 x /\ solves1_at m2 s2 x /\
    1 <= e_u x /\ Rabs (e_du x) <= 1/4 * e_u x.
Proof.
  intros k Hk. set (f := fit_spline table_splines).
  assert (EX : forall m V dV, m_kind m = k -> m_fit m = Some f -> (forall x, velocity_at m V (dV x) x /\ continuous dV x) ->
     (forall x, 0 <= x <= 1 -> 3/4 <= V x) -> exists s, s 0 = 1 /\ forall x, 0 <= x <= 1 -> solves1_at m s x).
  { intros m V dV Km Fm HV HP. destruct Hk as [-> | ->].
    - destruct (linear_exists_on m V dV 1 0 Km (fun x => proj1 (HV x))) as (s & E & S); [specialize (HP 0); lra|].
      exists s. split; [exact E|]. intros x Hx. apply S. specialize (HP x Hx). lra.
    - destruct (nonlinear_solution_unique m f table_splines V dV 0 1 1 Km Fm table_splines_ok (or_introl eq_refl) ltac:(lra))
        as (s & E & S & _); [|lra|].
      + intros x Hx. destruct (HV x) as [A B]. split; [exact A|]. split; [exact B|]. specialize (HP x Hx). lra.
      + exists s. split; [exact E|]. intros x Hx. apply S, Hx. }
  assert (PU : forall x, 1 <= e_u x) by (intros x; unfold e_u; pose proof (pow2_ge_0 x); lra).
  destruct (EX (w_thwaites_of k e_u e_du f (fun _ => 0)) e_u e_du eq_refl eq_refl) as (s1 & E1 & S1).
  { intros x. split; [apply w_velocity, e_derive|]. unfold e_du. apply (ex_derive_continuous (fun x => x / 4)).
    auto_derive. exact I. }
  { intros x _. specialize (PU x). lra. }
  destruct (e_object (w_thwaites_of k e_u e_du f s1) None) as (m0 & G0 & K0 & N0 & F0 & _ & _).
  destruct (sampled_smooth m0 e_xs e_us G0) as (V & dV & HV).
  destruct (EX m0 V dV K0 F0 HV) as (s2 & E2 & S2).
  { apply (e_positive m0 V dV G0). intros x. apply HV. }
  exists (w_thwaites_of k e_u e_du f s1), (set_sol m0 (Some (fun x => [Fin (s2 x)]))), s1, s2.
  split; [reflexivity|]. split; [exact K0|]. split; [reflexivity|]. split; [exact N0|].
  split; [reflexivity|]. split; [exact F0|].
  split; [exact G0|]. split; [exact E1|]. split; [exact E2|].
  split; [apply stored_const; reflexivity|]. split; [apply stored_const; reflexivity|].
  intros x Hx. split; [apply w_velocity, e_derive|].
  split; [apply (solves_sol (w_thwaites_of k e_u e_du f (fun _ => 0))); try reflexivity; apply S1, Hx|].
  split; [apply (solves_sol m0); try reflexivity; apply S2, Hx|].
  split; [apply PU|]. specialize (PU x). unfold e_du. rewrite Rabs_pos_eq; lra.
Qed.

(** Head's method from the shape factor 2, for 1 + x^2/8 and for its samples. *)
Example sampled_head_case : exists m1 m2 c d1 d2 d h y z, 0 < c <= 1 /\ 0 < d1 /\
  m_kind m1 = Head /\ m_kind m2 = Head /\ m_nu m1 = Fin 1 /\ m_nu m2 = Fin 1 /\
  slot_kind (m_u m1) <> KInt /\ slot_kind (m_u m2) <> KInt /\ given_by_points m2 e_xs e_us /\
  d 0 = 1 /\ y 0 = 1 /\ h 0 = 2 /\ z 0 = 2 /\ stored2_at m1 d h c /\ stored2_at m2 y z c /\
  forall x, 0 <= x <= c -> velocity_at m1 e_u (e_du x) x /\ solves2_at m1 d h x /\ solves2_at m2 y z x /\
    1/1000 + 5 * (1/4) * (1/2) ^ 2 <= e_u x /\
    d1 <= d x <= d2 /\ 17/10 <= h x <= 23/10 /\ d1 <= y x <= d2 /\ 17/10 <= z x <= 23/10.
Proof.
  set (mu := fun sol => {| m_kind := Head; m_nu := Fin 1; m_u := Some (VF e_u KFloat);
     m_du := Some (VF e_du KFloat); m_d2u := Some VFd1DU; m_ic := new_manual PInf PInf (Fin 0); m_fit := None;
     m_events := []; m_sol := sol |}).
  assert (PU : forall x, 1 <= e_u x) by (intros x; unfold e_u; pose proof (pow2_ge_0 x); lra).
  assert (V1 : forall sol x, velocity_at (mu sol) e_u (e_du x) x).
  { intros sol x. split; [exists (mkposreal 1 Rlt_0_1); intros; reflexivity|]. split; [apply e_derive|reflexivity]. }
  destruct (head_solution_above_partial (mu None) 1 e_u e_du 0 1 1 2 eq_refl eq_refl ltac:(lra) ltac:(discriminate) Rlt_0_1)
    with (lo := 17/10) (hi := 23/10) as (c1 & d & h & Hc1 & D0 & H0 & S1 & _); try lra.
  { intros x _. split; [apply V1|]. split; [|specialize (PU x); lra]. unfold e_du.
    apply (ex_derive_continuous (fun x => x / 4)). auto_derive. exact I. }
  destruct (e_object (mu None) None) as (m0 & G0 & K0 & N0 & F0 & Sk0 & _).
  destruct (sampled_smooth m0 e_xs e_us G0) as (V & dV & HV).
  pose proof (e_positive m0 V dV G0 (fun x => proj1 (HV x))) as PV.
  destruct (head_solution_above_partial m0 1 V dV 0 1 1 2 K0 N0 ltac:(lra) Sk0 Rlt_0_1)
    with (lo := 17/10) (hi := 23/10) as (c2 & y & z & Hc2 & Y0 & Z0 & S2 & _); try lra.
  { intros x Hx. destruct (HV x) as [A B]. split; [exact A|]. split; [exact B|]. specialize (PV x Hx). lra. }
  set (c := Rmin c1 c2). assert (L1 := Rmin_l c1 c2). assert (L2 := Rmin_r c1 c2). fold c in L1, L2.
  assert (Pc : 0 < c) by (apply Rmin_pos; lra).
  assert (Cd : forall x, 0 <= x <= c -> continuous d x).
  { intros x Hx. destruct (S1 x ltac:(lra)) as ((v & w & _ & Q & _) & _). apply (ex_derive_continuous d). eexists. exact Q. }
  assert (Cy : forall x, 0 <= x <= c -> continuous y x).
  { intros x Hx. destruct (S2 x ltac:(lra)) as ((v & w & _ & Q & _) & _). apply (ex_derive_continuous y). eexists. exact Q. }
  destruct (range_on d 0 c ltac:(lra) Cd) as (p1 & p2 & Rp & xp & Hxp & Exp).
  destruct (range_on y 0 c ltac:(lra) Cy) as (q1 & q2 & Rq & xq & Hxq & Exq).
  assert (M1 := Rmin_l p1 q1). assert (M2 := Rmin_r p1 q1). assert (M3 := Rmax_l p2 q2). assert (M4 := Rmax_r p2 q2).
  assert (SS : forall m sol p q x, solves2_at m p q x -> solves2_at (set_sol m sol) p q x) by (intros; assumption).
  exists (mu (Some (fun x => [Fin (d x); Fin (h x)]))), (set_sol m0 (Some (fun x => [Fin (y x); Fin (z x)]))),
    c, (Rmin p1 q1), (Rmax p2 q2), d, h, y, z.
  split; [lra|]. split.
  { apply Rmin_pos; [rewrite <- Exp; apply S1; lra|rewrite <- Exq; apply S2; lra]. }
  split; [reflexivity|]. split; [exact K0|]. split; [reflexivity|]. split; [exact N0|].
  split; [discriminate|]. split; [exact Sk0|]. split; [exact G0|].
  split; [exact D0|]. split; [exact Y0|]. split; [exact H0|]. split; [exact Z0|].
  split; [eexists; split; [reflexivity|exists (mkposreal 1 Rlt_0_1); reflexivity]|].
  split; [eexists; split; [reflexivity|exists (mkposreal 1 Rlt_0_1); reflexivity]|].
  intros x Hx. destruct (S1 x ltac:(lra)) as (A1 & _ & A3). destruct (S2 x ltac:(lra)) as (B1 & _ & B3).
  specialize (Rp x Hx). specialize (Rq x Hx). specialize (PU x).
  split; [apply V1|]. split; [apply (SS (mu None)), A1|]. split; [apply SS, B1|].
  repeat split; lra.
Qed.
