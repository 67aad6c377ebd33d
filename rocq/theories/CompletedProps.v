(** C153 and C154: what a status says about separation. [steps_checked]: CompletedSpec;
    [roots_are_zeros]: WorkflowSpec. *)
From Coq Require Import Reals List String ZArith Lra.
From Verif Require Import PyBase PyBaseFacts InitialConditionModel ThwaitesFitsModel ThwaitesFitsProofs HeadModel CoreModel CoreSpec
  CoreHistoryProofs CoreRefute WorkflowSpec OdeSpec AccelerationProofs LinearFlowWitness CompletedSpec CompletedProofs.
Import ListNotations.
Open Scope R_scope.

(* ---------------------------------------------------------------- C153 *)
(** As wanted, a solve that reached the end would not have separated. Head's method started with
    a shape factor above the critical one reaches the end with an exact solution whose shape
    factor is above the critical one everywhere. *)
Theorem completed_not_separated_refuted : forall pchip cubic_spline,
  exists ivp m' ir c d h,
  let s := run pchip cubic_spline ivp w_head [OpInitialDeltaM (Fin 2); OpInitialShapeD (Fin 3)] in
  (ivp_contract ivp /\ roots_are_zeros ivp /\ steps_checked ivp) /\
  new_head pchip (Fin 1) (PCall (const_call 1)) (PCall (const_call 0)) PNone (Fin (24/10)) = Ok w_head /\
  0 < c /\ initial_state s 0 [Fin (d 0); Fin (h 0)] /\ (forall x, 0 <= x <= c -> solves2_at s d h x) /\
  solve ivp s 0 c [] = (m', Ok ir) /\ ir_status ir = REACHED_END /\ ir_x_end ir = c /\
  forall x, 0 <= x <= c -> q_shape_d m' x = Ok (Fin (h x)) /\ 24/10 < h x.
Proof.
  intros pchip cs. destruct (plate_run pchip cs 3 ltac:(lra) ltac:(lra) ltac:(lra))
    as (ivp & m' & ir & c & d & h & C1 & C2 & C3 & N & Hc & I0 & S & E & T & X & _ & _ & K).
  exists ivp, m', ir, c, d, h. cbv zeta. refine (conj (conj C1 (conj C2 C3)) (conj N (conj Hc (conj I0 (conj S (conj E (conj T (conj X _)))))))).
  intros x Hx. destruct (K x Hx) as [K1 K2]. split; [exact K1|lra].
Qed.
Print Assumptions completed_not_separated_refuted.

(** What holds: a layer that is not separated at the start is not separated at the end. *)
Theorem completed_head_partial :
  forall pchip cubic_spline solve_ivp nu0 u0 du0 d2u0 crit0 m0 hist crit x0 x1 l m' ir d h,
  new_head pchip nu0 u0 du0 d2u0 crit0 = Ok m0 -> crit_after crit0 hist = Fin crit ->
  let s := run pchip cubic_spline solve_ivp m0 hist in
  steps_checked solve_ivp -> x0 <= x1 ->
  (forall e, In e (tl (m_events s) ++ l) -> ev_reason e <> REACHED_END) ->
  solve solve_ivp s x0 x1 l = (m', Ok ir) -> ir_status ir = REACHED_END ->
  (forall g x, m_sol m' = Some g -> x0 <= x <= x1 -> g x = [Fin (d x); Fin (h x)]) ->
  (h x0 < crit -> h (ir_x_end ir) < crit) /\ (crit < h x0 -> crit < h (ir_x_end ir)).
Proof. exact head_completed. Qed.
Print Assumptions completed_head_partial.

Theorem completed_thwaites_partial :
  forall pchip cubic_spline solve_ivp s x0 x1 l m' ir f y dU S,
  reachable pchip cubic_spline solve_ivp s -> m_kind s <> Head -> steps_checked solve_ivp -> x0 <= x1 ->
  (forall e, In e (tl (m_events s) ++ l) -> ev_reason e <> REACHED_END) ->
  solve solve_ivp s x0 x1 l = (m', Ok ir) -> ir_status ir = REACHED_END -> m_fit m' = Some f ->
  (forall g x, m_sol m' = Some g -> x0 <= x <= x1 -> g x = [Fin (y x)] /\ q_du_e m' x = Ok (dU x) /\
     shear f (Fin (y x * dU x)) = Fin (S x)) ->
  (0 < S x0 -> 0 < S (ir_x_end ir)) /\ (S x0 < 0 -> S (ir_x_end ir) < 0).
Proof. exact thwaites_completed. Qed.
Print Assumptions completed_thwaites_partial.

(** Head's method on a plate from the shape factor 2, the linear method in accelerating flow. *)
Example completed_head_case : forall pchip cs, exists ivp m' ir c d h,
  let s := run pchip cs ivp w_head [OpInitialDeltaM (Fin 2); OpInitialShapeD (Fin 2)] in
  new_head pchip (Fin 1) (PCall (const_call 1)) (PCall (const_call 0)) PNone (Fin (24/10)) = Ok w_head /\
  crit_after (Fin (24/10)) [OpInitialDeltaM (Fin 2); OpInitialShapeD (Fin 2)] = Fin (24/10) /\
  steps_checked ivp /\ 0 < c /\ solve ivp s 0 c [] = (m', Ok ir) /\ ir_status ir = REACHED_END /\
  m_sol m' = Some (fun x => [Fin (d x); Fin (h x)]) /\ h 0 < 24/10 /\ forall x, 0 <= x <= c -> solves2_at s d h x.
Proof.
  intros pchip cs. destruct (plate_run pchip cs 2 ltac:(lra) ltac:(lra) ltac:(lra))
    as (ivp & m' & ir & c & d & h & C1 & C2 & C3 & N & Hc & I0 & S & E & T & X & H0 & G & K).
  exists ivp, m', ir, c, d, h. cbv zeta. rewrite H0.
  refine (conj N (conj eq_refl (conj C3 (conj Hc (conj E (conj T (conj G (conj _ S)))))))). lra.
Qed.
Example completed_thwaites_case : forall pchip cs, exists ivp m' ir, steps_checked ivp /\ reachable pchip cs ivp acc_m /\
  solve ivp acc_m 0 2 [] = (m', Ok ir) /\ ir_status ir = REACHED_END /\ m_fit m' = Some fit_white /\
  m_sol m' = Some (fun _ => [Fin 1]) /\ (forall x, q_du_e m' x = Ok (75/1000)) /\
  exists S, shear fit_white (Fin (1 * (75/1000))) = Fin S /\ 0 < S.
Proof.
  intros pchip cs. destruct (acc_run pchip cs) as (ivp & m' & ir & A & B & C & D & _ & E & F & G).
  exists ivp, m', ir. repeat (split; [assumption|]). rewrite white_shear_in by lra.
  eexists. split; [reflexivity|apply exp_pos].
Qed.

(* ---------------------------------------------------------------- C154 *)
Theorem head_separation_location :
  forall pchip cubic_spline solve_ivp nu0 u0 du0 d2u0 crit0 m0 hist crit x0 x1 l m' ir,
  new_head pchip nu0 u0 du0 d2u0 crit0 = Ok m0 -> crit_after crit0 hist = Fin crit ->
  let s := run pchip cubic_spline solve_ivp m0 hist in
  roots_are_zeros solve_ivp ->
  (forall e, In e (tl (m_events s) ++ l) -> ev_reason e <> SEPARATED) ->
  solve solve_ivp s x0 x1 l = (m', Ok ir) -> ir_status ir = SEPARATED ->
  q_shape_d m' (ir_x_end ir) = Ok (Fin crit).
Proof. exact head_location. Qed.
Print Assumptions head_separation_location.

(** A solution whose shape factor 2 + x reaches the criterion 2.3, set after construction, at 0.3. *)
Example head_separation_location_case : forall pchip cs, exists ivp m' ir,
  let h := [OpCritical (Fin (23/10)); OpInitialDeltaM (Fin 2); OpInitialShapeD (Fin 2)] in
  let s := run pchip cs ivp w_head h in
  new_head pchip (Fin 1) (PCall (const_call 1)) (PCall (const_call 0)) PNone (Fin (24/10)) = Ok w_head /\
  crit_after (Fin (24/10)) h = Fin (23/10) /\ roots_are_zeros ivp /\ tl (m_events s) = [] /\
  solve ivp s 0 1 [] = (m', Ok ir) /\ ir_status ir = SEPARATED /\ ir_x_end ir = 3/10.
Proof.
  intros pchip cs. set (sol := fun x => [Fin 2; Fin (2 + x)]).
  set (h := [OpCritical (Fin (23/10)); OpInitialDeltaM (Fin 2); OpInitialShapeD (Fin 2)]).
  set (s := run pchip cs (ivp_until sol (3/10)) w_head h).
  assert (Es : s = set_events (set_ic w_head {| ic_du := Fin 0; ic_nu := Fin (1/100000); ic_body_of := Manual (Fin (2 * 2)) (Fin 2) (Fin 0) |}) [head_sep_event (Fin (23/10))]).
  { unfold s, h, run. cbn [fold_left step no_result fst].
    unfold set_initial_delta_m. cbn [xleb]. rewrite Rleb_false by lra.
    cbn [fst m_kind w_head set_ic set_events]. unfold set_initial_shape_d. cbn [xleb]. rewrite Rleb_false by lra. reflexivity. }
  assert (HR : reachable pchip cs (ivp_until sol (3/10)) s).
  { exists w_head, h. split; [apply w_head_created|reflexivity]. }
  assert (HI : initial_state s 0 [Fin 2; Fin 2]).
  { rewrite Es. apply (initial_state_head _ 0 0 (Fin 2) (Fin 2)); try reflexivity.
    unfold ic_shape_d. cbn [ic_body_of m_ic set_ic set_events]. rewrite py_div_fin by lra. do 2 f_equal. field. }
  pose proof (solve_cases (ivp_until sol (3/10)) s 0 1 [] (reachable_nu _ _ _ _ HR)) as C.
  destruct (solve (ivp_until sol (3/10)) s 0 1 []) as [m' r] eqn:ES. cbn [fst snd] in C.
  set (R1 := {| r_success := true; r_status := 1; r_message := ""; r_t := [0; 3/10];
                r_sol := sol; r_t_events := [[3/10]] |}).
  assert (HV : forall y, ivp_until sol (3/10) (ode_impl s) 0 1 y (ivp_events s (m_events s ++ [])) = Ok R1).
  { intros y. unfold ivp_until. rewrite Es. cbn [ivp_events m_events set_events app map].
    unfold event_value. cbn [ev_src head_sep_event sol]. unfold head_event. rewrite xsub_fin. cbn [xeqb].
    rewrite Reqb_true by lra. reflexivity. }
  inversion C as [c e N B E1 E2|c y0 e I0 B V E1 E2|c y0 r' I0 B V E1 E2]; subst m' r.
  - exfalso. exact (N _ HI).
  - rewrite HV in V. discriminate.
  - rewrite HV in V. injection V as <-. exists (ivp_until sol (3/10)). eexists. eexists. cbv zeta. fold h. fold s.
    split; [apply w_head_new|]. split; [reflexivity|]. split; [apply ivp_until_contract|].
    split; [rewrite Es; reflexivity|]. split; [rewrite ES, Es; reflexivity|]. split; reflexivity.
Qed.
