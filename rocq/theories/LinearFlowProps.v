(** Properties C148 and C149: the linear form of Thwaites' method in flows whose edge velocity is
    linear in x. [linear_flow], [retarded_flow], [retarded_separation]: LinearFlowSpec;
    [initial_state], [reachable]: CoreSpec; [roots_are_zeros]: WorkflowSpec. *)
From Coq Require Import Reals List String Lra.
From Coquelicot Require Import Coquelicot.
From Verif Require Import PyBase PyBaseFacts ThwaitesFitsModel SplineSpec SplineProofs InitialConditionModel
  CoreModel CoreSpec OdeSpec WorkflowSpec LinearFlowSpec LinearFlowProofs LinearFlowWitness.
Import ListNotations.
Open Scope R_scope.

(* ---------------------------------------------------------------- C148 *)
(** What the object stores (delta_m^2 / nu) in closed form. *)
Theorem linear_velocity_closed_form : forall m u k s a b,
  m_kind m = ThwaitesLinear -> k <> 0 -> a <= b -> linear_flow m u k s a b ->
  (forall x, a <= x <= b -> 0 < u + k * x + 1/1000) ->
  s b = 75/1000 / k + (s a - 75/1000 / k) * ((u + k * a + 1/1000) / (u + k * b + 1/1000))^6.
Proof. exact linear_form. Qed.
Print Assumptions linear_velocity_closed_form.

(** In stagnation-point flow (u_e = k x) the momentum thickness should be constant. Started from
    the stagnation-point condition it falls at once by more than 6 percent: the condition uses the
    thickness of the exact solution, 0.0855 nu / k, while Thwaites' equation keeps 0.075 nu / k. *)
Theorem stagnation_thickness_refuted : forall pchip cubic_spline,
  exists ivp, ivp_contract ivp /\ roots_are_zeros ivp /\
  exists st m' ir s, reachable pchip cubic_spline ivp st /\ ic_body_of (m_ic st) = FSStag /\
    initial_state st 0 [Fin (s 0)] /\
    solve ivp st 0 1 [] = (m', Ok ir) /\ ir_x_end ir = 1 /\ linear_flow m' 0 1 s 0 1 /\
  exists d : R -> R, (forall x, 0 <= x <= 1 -> q_delta_m m' x = Ok (Fin (d x))) /\
    forall x, 1/1000 <= x <= 1 -> d x < 94/100 * d 0.
Proof.
  intros pchip cs. destruct (stag_witness pchip cs) as (ivp & C1 & C2 & st & m' & ir & s & HR & HS & HX & K & B0 & B & N & F & I0 & I1).
  exists ivp. split; [exact C1|]. split; [exact C2|]. exists st, m', ir, s.
  split; [exact HR|]. split; [exact B0|]. split; [exact I0|]. split; [exact HS|]. split; [exact HX|]. split; [exact F|].
  destruct (stagnation_lemma m' 1 1 1 s K B N Rlt_0_1 Rlt_0_1 Rle_0_1 F I1) as (d & D1 & _ & _ & _ & D5).
  exists d. split; [exact D1|]. intros x Hx. apply D5; lra.
Qed.
Print Assumptions stagnation_thickness_refuted.

(** What holds: it falls, stays above sqrt(0.075 nu / k), starts within 6.8 percent of that and is
    within 0.2 percent of it as soon as u_e exceeds 1/1000. *)
Theorem stagnation_thickness_partial : forall m nu k X s,
  m_kind m = ThwaitesLinear -> ic_body_of (m_ic m) = FSStag -> m_nu m = Fin nu -> 0 < nu ->
  0 < k -> 0 <= X -> linear_flow m 0 k s 0 X -> initial_state m 0 [Fin (s 0)] ->
  exists d : R -> R, (forall x, 0 <= x <= X -> q_delta_m m x = Ok (Fin (d x))) /\
    (forall x y, 0 <= x -> x < y -> y <= X -> d y < d x) /\
    (forall x, 0 <= x <= X -> sqrt (75/1000 * nu / k) < d x) /\
    (forall x, 0 <= x <= X -> d x <= 1068/1000 * sqrt (75/1000 * nu / k)) /\
    (forall x, 0 <= x <= X -> 1/1000 <= k * x ->
       d x <= 1002/1000 * sqrt (75/1000 * nu / k) /\ d x < 94/100 * d 0).
Proof. exact stagnation_lemma. Qed.
Print Assumptions stagnation_thickness_partial.

Example stagnation_thickness_case : forall pchip cs,
  exists ivp st m' ir s, reachable pchip cs ivp st /\ solve ivp st 0 1 [] = (m', Ok ir) /\
    m_kind m' = ThwaitesLinear /\ ic_body_of (m_ic m') = FSStag /\ m_nu m' = Fin 1 /\
    linear_flow m' 0 1 s 0 1 /\ initial_state m' 0 [Fin (s 0)].
Proof.
  intros pchip cs. destruct (stag_witness pchip cs) as (ivp & C1 & C2 & st & m' & ir & s & HR & HS & HX & K & B0 & B & N & F & I0 & I1).
  exists ivp, st, m', ir, s. auto 10.
Qed.

(* ---------------------------------------------------------------- C149 *)
(** Velocity u (1 - x / L), layer starting with thickness zero. *)
Theorem retarded_flow_wall_shear : forall m f cs nu u L s b rho x,
  m_kind m = ThwaitesLinear -> m_nu m = Fin nu -> 0 < nu -> m_fit m = Some f -> cubic_spline_ok cs ->
  f = fit_white \/ f = fit_spline cs -> 1/1000 <= u -> 0 < L -> 0 < rho ->
  retarded_flow m u L s b -> b < L -> 0 < x <= b ->
  exists v, q_tau_w_thwaites m x rho = Ok (Fin v) /\
    (x < retarded_separation u L -> 0 < v) /\ (retarded_separation u L <= x -> v = 0).
Proof.
  intros m f cs nu u L s b rho x H1 H2 H3 H4 H5 H6 H7 H8 H9 H10 H11 H12.
  exact (retarded_clamped u L m s b nu rho f H7 H8 H1 H2 H3 H4 H10 H11 H9 cs x H5 H6 H12).
Qed.
Print Assumptions retarded_flow_wall_shear.

Theorem retarded_flow_wall_shear_cb : forall m nu u L s b rho x,
  m_kind m = ThwaitesLinear -> m_nu m = Fin nu -> 0 < nu -> m_fit m = Some fit_cb ->
  1/1000 <= u -> 0 < L -> 0 < rho ->
  retarded_flow m u L s b -> b < L -> 0 < x <= b ->
  exists v, q_tau_w_thwaites m x rho = Ok (Fin v) /\
    (x <= 1229/10000 * (L * (1 + 1 / (1000 * u))) -> 0 < v) /\
    (1232/10000 * (L * (1 + 1 / (1000 * u))) <= x -> v < 0).
Proof.
  intros m nu u L s b rho x H1 H2 H3 H4 H7 H8 H9 H10 H11 H12.
  exact (retarded_cb u L m s b nu rho fit_cb H7 H8 H1 H2 H3 H4 H10 H11 H9 x eq_refl H12).
Qed.
Print Assumptions retarded_flow_wall_shear_cb.

Theorem retarded_flow_separation : forall u L, 1/1000 <= u -> 0 < L ->
  1231/10000 * (L * (1 + 1 / (1000 * u))) < retarded_separation u L
    < 1232/10000 * (L * (1 + 1 / (1000 * u))).
Proof. exact separation_value. Qed.
Print Assumptions retarded_flow_separation.

Theorem retarded_flow_reported : forall pchip cubic_spline solve_ivp st x1 l m' ir f u L s,
  reachable pchip cubic_spline solve_ivp st -> m_kind st = ThwaitesLinear ->
  roots_are_zeros solve_ivp -> cubic_spline_ok cubic_spline ->
  (forall e, In e (tl (m_events st) ++ l) -> ev_reason e <> SEPARATED) ->
  solve solve_ivp st 0 x1 l = (m', Ok ir) -> ir_status ir = SEPARATED ->
  1/1000 <= u -> 0 < L -> m_fit m' = Some f -> m_kind m' = ThwaitesLinear -> 0 <= ir_x_end ir < L ->
  retarded_flow m' u L s (ir_x_end ir) ->
  (f = fit_white \/ f = fit_spline cubic_spline -> retarded_separation u L <= ir_x_end ir) /\
  (f = fit_cb -> 1229/10000 * (L * (1 + 1 / (1000 * u))) < ir_x_end ir
                 < 1232/10000 * (L * (1 + 1 / (1000 * u)))) /\
  f <> fit_drela.
Proof. exact retarded_reported_lemma. Qed.
Print Assumptions retarded_flow_reported.

(** u_e = 1 - x, White's fit, an integrator that reports 1/8. *)
Example retarded_flow_case : forall pchip cs,
  exists ivp m' ir, roots_are_zeros ivp /\ reachable pchip cs ivp (ret_m fit_white) /\
    solve ivp (ret_m fit_white) 0 1 [] = (m', Ok ir) /\ ir_status ir = SEPARATED /\ ir_x_end ir = 1/8 /\
    m_kind m' = ThwaitesLinear /\ m_fit m' = Some fit_white /\ m_nu m' = Fin 1 /\
    retarded_flow m' 1 1 ret_s (1/8).
Proof.
  intros pchip cs. destruct (ret_witness pchip cs fit_white (1/8) (or_introl eq_refl) ltac:(lra) ret_white_zero)
    as (ivp & C1 & C2 & m' & ir & A).
  exists ivp, m', ir. split; [exact C2|exact A].
Qed.
Example retarded_flow_cb_case : exists m s, m_kind m = ThwaitesLinear /\ m_nu m = Fin 1 /\
  m_fit m = Some fit_cb /\ retarded_flow m 1 1 s (9/10).
Proof.
  exists (set_sol (set_events (set_ic (ret_m fit_cb) (m_ic (ret_m fit_cb))) []) (Some (fun x => [Fin (ret_s x)]))), ret_s.
  split; [reflexivity|]. split; [reflexivity|]. split; [reflexivity|]. apply ret_flow. reflexivity.
Qed.
