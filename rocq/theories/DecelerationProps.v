(** Property C163: the layers of two flows compared, linear form of Thwaites' method.
    [falls_behind]: DecelerationSpec; [velocity_at], [solves1_at], [stored1_at]: OdeSpec. *)
From Coq Require Import Reals List Lra.
From Coquelicot Require Import Coquelicot.
From Verif Require Import PyBase PyBaseFacts ThwaitesFitsModel CoreModel OdeSpec SplineSpec SplineProofs WellPosedProps ThwaitesOdeProofs
  ThwaitesOdeProps DecelerationSpec DecelerationProofs.
Import ListNotations.
Open Scope R_scope.

(** If one flow starts no faster than the other and falls behind it, its momentum thickness is at
    least as large, for any data fit.  (The method adds 0.001 to velocities.) *)
Theorem slower_flow_thicker : forall m1 m2 nu U V dU dV s1 s2 a b,
  m_kind m1 = ThwaitesLinear -> m_kind m2 = ThwaitesLinear -> m_nu m1 = Fin nu -> m_nu m2 = Fin nu -> 0 < nu -> a <= b ->
  (forall x, a <= x <= b -> velocity_at m1 U (dU x) x /\ solves1_at m1 s1 x /\
     velocity_at m2 V (dV x) x /\ solves1_at m2 s2 x /\ 0 < U x + 1/1000 /\ 0 < V x + 1/1000) ->
  stored1_at m1 s1 b -> stored1_at m2 s2 b ->
  falls_behind (fun x => U x + 1/1000) (fun x => V x + 1/1000) a b -> V a <= U a -> 0 < s1 a <= s2 a ->
  exists d1 d2, q_delta_m m1 b = Ok (Fin d1) /\ q_delta_m m2 b = Ok (Fin d2) /\ 0 < d1 <= d2.
Proof. exact slower_thicker. Qed.
Print Assumptions slower_flow_thicker.

(** A flow that does not accelerate against one that does not decelerate (one of them may be uniform):
    with the default fit the first has the larger momentum thickness, the smaller wall shear, and while
    it is attached the larger displacement thickness.  1/4 is the upper end of the fit's table. *)
Theorem decelerating_flow_thicker : forall m1 m2 cs nu U V dU dV s1 s2 a b,
  m_kind m1 = ThwaitesLinear -> m_kind m2 = ThwaitesLinear -> cubic_spline_ok cs ->
  m_fit m1 = Some (fit_spline cs) -> m_fit m2 = Some (fit_spline cs) ->
  m_nu m1 = Fin nu -> m_nu m2 = Fin nu -> 0 < nu -> a <= b ->
  (forall x, a <= x <= b -> velocity_at m1 U (dU x) x /\ solves1_at m1 s1 x /\
     velocity_at m2 V (dV x) x /\ solves1_at m2 s2 x /\ 0 <= U x /\ 0 <= V x /\ dV x <= 0 <= dU x) ->
  stored1_at m1 s1 b -> stored1_at m2 s2 b -> V a <= U a -> 0 < s1 a <= s2 a ->
  (exists d1 d2, q_delta_m m1 b = Ok (Fin d1) /\ q_delta_m m2 b = Ok (Fin d2) /\ 0 < d1 <= d2) /\
  (s1 b * dU b <= 1/4 -> forall rho, 0 <= rho -> exists t1 t2,
      q_tau_w_thwaites m1 b rho = Ok (Fin t1) /\ q_tau_w_thwaites m2 b rho = Ok (Fin t2) /\ 0 <= t2 <= t1) /\
  (s1 b * dU b <= 1/4 -> -9/100 <= s2 b * dV b -> exists e1 e2,
      q_delta_d m1 b = Ok (Fin e1) /\ q_delta_d m2 b = Ok (Fin e2) /\ 0 < e1 <= e2).
Proof. exact decelerating_lemma. Qed.
Print Assumptions decelerating_flow_thicker.

(** A flat plate, and the flow 1 - x/2. *)
Example decelerating_flow_case : exists s1 s2,
  let U := fun _ : R => 1 in let V := fun x => 1 - x / 2 in
  let m1 := w_thwaites_of ThwaitesLinear U (fun _ => 0) (fit_spline table_splines) s1 in
  let m2 := w_thwaites_of ThwaitesLinear V (fun _ => -1/2) (fit_spline table_splines) s2 in
  cubic_spline_ok table_splines /\ s1 0 = 1/100 /\ s2 0 = 1/100 /\ stored1_at m1 s1 1 /\ stored1_at m2 s2 1 /\ s1 1 * 0 <= 1/4 /\
  forall x, 0 <= x <= 1 -> velocity_at m1 U 0 x /\ solves1_at m1 s1 x /\
    velocity_at m2 V (-1/2) x /\ solves1_at m2 s2 x /\ 0 <= U x /\ 0 <= V x /\ -1/2 <= 0 <= 0.
Proof.
  set (f := fit_spline table_splines).
  assert (DV : forall x, is_derive (fun x => 1 - x / 2) x (-1/2)) by (intros x; auto_derive; [exact I|field]).
  assert (DU : forall x : R, is_derive (fun _ : R => 1) x 0) by (intros x; apply (@is_derive_const R_AbsRing)).
  destruct (linear_solution_exists (w_thwaites_of ThwaitesLinear (fun _ => 1) (fun _ => 0) f (fun _ => 0)) (fun _ => 1) (fun _ => 0) (1/100) 0)
    as (s1 & E1 & S1); [reflexivity| |].
  { intros x. split; [apply w_velocity, DU|lra]. }
  destruct (linear_exists_on (w_thwaites_of ThwaitesLinear (fun x => 1 - x / 2) (fun _ => -1/2) f (fun _ => 0)) (fun x => 1 - x / 2) (fun _ => -1/2) (1/100) 0
    eq_refl (fun x => w_velocity _ _ (fun _ => -1/2) _ _ _ (DV x)) ltac:(lra)) as (s2 & E2 & S2).
  exists s1, s2. cbv zeta. split; [exact table_splines_ok|]. split; [exact E1|]. split; [exact E2|].
  split; [eexists; split; [reflexivity|exists (mkposreal 1 Rlt_0_1); reflexivity]|].
  split; [eexists; split; [reflexivity|exists (mkposreal 1 Rlt_0_1); reflexivity]|]. split; [lra|].
  intros x Hx. split; [apply w_velocity, DU|]. split; [apply S1|].
  split; [apply (w_velocity _ _ (fun _ => -1/2)), DV|]. split; [apply S2; lra|]. lra.
Qed.
Example slower_flow_case : falls_behind (fun x => (1 + x / 4) + 1/1000) (fun x => (1 - x / 2) + 1/1000) 0 1 /\
  falls_behind (fun x => (1 + x) + 1/1000) (fun x => (1 + x / 2) + 1/1000) 0 1.
Proof. split; intros t1 t2 H1 H2 H3; cbv beta; nra. Qed.
