(** Properties C115 and C116: accelerating flow does not separate; Head's initial value problem.
    [velocity_at], [solves1_at], [solves2_at]: see OdeSpec; [reachable], [run], [crit_after]: CoreSpec;
    [roots_are_zeros]: WorkflowSpec; [cubic_spline_ok]: SplineSpec. *)
From Coq Require Import Reals List String Lra.
From Coquelicot Require Import Coquelicot.
From Verif Require Import PyBase PyBaseFacts ThwaitesFitsModel SplineSpec SplineProofs HeadModel InitialConditionModel
  CoreModel CoreSpec CoreRefute OdeSpec WorkflowSpec AccelerationProofs HeadExistProofs HeadUntilProofs.
Import ListNotations.
Open Scope R_scope.

(* ---------------------------------------------------------------- C115 *)
Theorem accelerating_thwaites_not_separated :
  forall pchip cubic_spline solve_ivp s x0 x1 l m' ir f U dU y,
  reachable pchip cubic_spline solve_ivp s -> m_kind s <> Head ->
  roots_are_zeros solve_ivp -> cubic_spline_ok cubic_spline ->
  (forall e, In e (tl (m_events s) ++ l) -> ev_reason e <> SEPARATED) ->
  solve solve_ivp s x0 x1 l = (m', Ok ir) -> x0 <= ir_x_end ir -> m_fit m' = Some f ->
  f = fit_white \/ f = fit_cb \/ f = fit_spline cubic_spline \/
    (f = fit_drela /\ y (ir_x_end ir) * dU (ir_x_end ir) <= 6/10) ->
  (forall g, m_sol m' = Some g -> g (ir_x_end ir) = [Fin (y (ir_x_end ir))]) -> 0 < y x0 ->
  (forall x, x0 <= x <= ir_x_end ir ->
     velocity_at m' U (dU x) x /\ solves1_at m' y x /\ 0 < U x /\ 0 <= dU x) ->
  ir_status ir <> SEPARATED.
Proof. exact thwaites_not_separated. Qed.
Print Assumptions accelerating_thwaites_not_separated.

(** The wall shear stress is positive, too. *)
Theorem accelerating_wall_shear : forall m f cs nu g U dU s a b rho,
  m_kind m <> Head -> m_nu m = Fin nu -> 0 < nu ->
  m_fit m = Some f -> cubic_spline_ok cs -> a <= b -> 0 < s a -> 0 < rho ->
  (forall x, a <= x <= b -> velocity_at m U (dU x) x /\ solves1_at m s x /\ 0 < U x /\ 0 <= dU x) ->
  m_sol m = Some g -> (forall x, a <= x <= b -> g x = [Fin (s x)]) ->
  f = fit_white \/ f = fit_cb \/ f = fit_spline cs \/ (f = fit_drela /\ s b * dU b <= 6/10) ->
  exists v, q_tau_w_thwaites m b rho = Ok (Fin v) /\ 0 < v.
Proof.
  intros m f cs nu g U dU s a b rho H1 H2 H3 H4 H5 H6 H7 H8 H9 H10 H11 H12.
  exact (proj2 (thwaites_accelerating_lemma m f cs nu g U dU s a b rho H1 H2 H3 H4 H5 H6 H7 H8 H9 H10 H11 H12)).
Qed.
Print Assumptions accelerating_wall_shear.

(** U = 1 + 3x/40, started with the momentum thickness 1. *)
Example accelerating_thwaites_case : forall pchip, exists ivp m' ir,
  reachable pchip table_splines ivp acc_m /\ roots_are_zeros ivp /\
  solve ivp acc_m 0 2 [] = (m', Ok ir) /\ ir_x_end ir = 2 /\ m_fit m' = Some fit_white /\
  m_sol m' = Some (fun _ => [Fin 1]) /\
  forall x, 0 <= x <= 2 ->
    velocity_at m' (fun x => 1 + 75/1000 * x) (75/1000) x /\ solves1_at m' (fun _ => 1) x /\ 0 < 1 + 75/1000 * x.
Proof.
  intros pchip. exists (ivp_follow (fun _ => [Fin 1])).
  destruct (follow_solve pchip table_splines (fun _ => [Fin 1]) acc_m 0 2 _ (acc_reachable _ _ _) acc_initial)
    as (c & ir & E & X).
  eexists. exists ir. split; [apply acc_reachable|]. split; [apply ivp_follow_contract|].
  split; [exact E|]. split; [exact X|]. split; [reflexivity|]. split; [reflexivity|].
  intros x Hx. split; [apply acc_velocity|]. split; [apply acc_solves; lra|lra].
Qed.

Theorem accelerating_head_not_separated :
  forall pchip cubic_spline solve_ivp nu0 u0 du0 d2u0 crit0 m0 hist crit x0 x1 l m' ir nu U dU d h,
  new_head pchip nu0 u0 du0 d2u0 crit0 = Ok m0 -> crit_after crit0 hist = Fin crit -> 2 <= crit ->
  let s := run pchip cubic_spline solve_ivp m0 hist in
  roots_are_zeros solve_ivp ->
  (forall e, In e (tl (m_events s) ++ l) -> ev_reason e <> SEPARATED) ->
  solve solve_ivp s x0 x1 l = (m', Ok ir) -> x0 <= ir_x_end ir ->
  (forall g, m_sol m' = Some g -> g (ir_x_end ir) = [Fin (d (ir_x_end ir)); Fin (h (ir_x_end ir))]) ->
  m_nu m' = Fin nu -> 0 < nu -> slot_kind (m_u m') <> KInt -> h x0 < crit ->
  (forall x, x0 <= x <= ir_x_end ir -> velocity_at m' U (dU x) x /\ solves2_at m' d h x /\
     1/1000 <= U x /\ 0 <= dU x /\ 1 <= U x * d x / nu) ->
  ir_status ir <> SEPARATED.
Proof. exact head_not_separated. Qed.
Print Assumptions accelerating_head_not_separated.

(** A flat plate, started with the momentum thickness 2 and the shape factor 2. *)
Example accelerating_head_case : forall pchip cs, exists ivp m' ir c d h,
  let s := run pchip cs ivp w_head [OpInitialDeltaM (Fin 2); OpInitialShapeD (Fin 2)] in
  new_head pchip (Fin 1) (PCall (const_call 1)) (PCall (const_call 0)) PNone (Fin (24/10)) = Ok w_head /\
  roots_are_zeros ivp /\ solve ivp s 0 c [] = (m', Ok ir) /\ ir_x_end ir = c /\ 0 < c /\ h 0 = 2 /\ d 0 = 2 /\
  m_sol m' = Some (fun x => [Fin (d x); Fin (h x)]) /\ m_nu m' = Fin 1 /\ slot_kind (m_u m') = KFloat /\
  forall x, 0 <= x <= c -> velocity_at m' (fun _ => 1) 0 x /\ solves2_at m' d h x /\ 1 <= 1 * d x / 1.
Proof.
  intros pchip cs.
  assert (V : forall x, 0 <= x <= 1 -> velocity_at w_head (fun _ => 1) 0 x /\ continuous (fun _ : R => 0) x /\ 1/1000 <= 1).
  { intros x _. split; [|split; [apply continuous_const|lra]].
    split; [exists (mkposreal 1 Rlt_0_1); intros; reflexivity|]. split; [apply (@is_derive_const R_AbsRing)|reflexivity]. }
  destruct (head_exists_lemma w_head 1 (fun _ => 1) (fun _ => 0) 0 1 2 2 eq_refl eq_refl ltac:(lra) ltac:(discriminate)
    ltac:(lra) V ltac:(lra) ltac:(lra)) as (c & d & h & Hc & D0 & H0 & S).
  set (sol := fun x => [Fin (d x); Fin (h x)]).
  set (s := run pchip cs (ivp_follow sol) w_head [OpInitialDeltaM (Fin 2); OpInitialShapeD (Fin 2)]).
  assert (Es : s = set_ic w_head {| ic_du := Fin 0; ic_nu := Fin (1/100000); ic_body_of := Manual (Fin (2 * 2)) (Fin 2) (Fin 0) |}).
  { unfold s, run. cbn [fold_left step no_result fst].
    unfold set_initial_delta_m. cbn [xleb]. rewrite Rleb_false by lra.
    cbn [fst m_kind w_head set_ic]. unfold set_initial_shape_d. cbn [xleb]. rewrite Rleb_false by lra. reflexivity. }
  destruct (follow_solve pchip cs sol s 0 c [Fin 2; Fin 2]) as (ci & ir & E & X).
  - exists w_head, [OpInitialDeltaM (Fin 2); OpInitialShapeD (Fin 2)]. split; [apply w_head_created|reflexivity].
  - rewrite Es. apply (initial_state_head _ 0 0 (Fin 2) (Fin 2)); try reflexivity.
    unfold ic_shape_d. cbn [ic_body_of m_ic set_ic]. rewrite py_div_fin by lra. do 2 f_equal. field.
  - exists (ivp_follow sol). eexists. exists ir, c, d, h. cbv zeta. fold s. split; [apply w_head_new|].
    split; [apply ivp_follow_contract|]. split; [exact E|]. split; [exact X|]. split; [lra|].
    split; [exact H0|]. split; [exact D0|]. split; [reflexivity|]. rewrite Es. split; [reflexivity|]. split; [reflexivity|].
    intros x Hx. destruct (S x ltac:(lra)) as (S1 & S2 & _). split; [apply (V x); lra|]. split; [exact S1|]. lra.
Qed.

(* ---------------------------------------------------------------- C116 *)
(** As wanted, every start with positive momentum thickness would have exactly one solution.  There
    is one for some distance, as long as the shape factor is not 1.6. *)
Theorem head_solution_partial : forall m nu U dU a b d0 h0,
  m_kind m = Head -> m_nu m = Fin nu -> 0 < nu -> slot_kind (m_u m) <> KInt -> a < b ->
  (forall x, a <= x <= b -> velocity_at m U (dU x) x /\ continuous dU x /\ 1/1000 <= U x) ->
  0 < d0 -> h0 <> 16/10 ->
  exists c d h, a < c <= b /\ d a = d0 /\ h a = h0 /\
    forall x, a <= x <= c -> solves2_at m d h x /\ d0 / 2 < d x /\ h x <> 16/10.
Proof. exact head_exists_lemma. Qed.
Print Assumptions head_solution_partial.

(** Below 1.6 the solution goes on to the end of the interval or until the shape factor is 1.6. *)
Theorem head_solution_below_partial : forall m nu U dU a b d0 h0,
  m_kind m = Head -> m_nu m = Fin nu -> 0 < nu -> slot_kind (m_u m) <> KInt -> a < b ->
  (forall x, a <= x <= b -> velocity_at m U (dU x) x /\ continuous dU x /\ 1/1000 <= U x) ->
  0 < d0 -> h0 < 16/10 ->
  exists c d h, a < c <= b /\ d a = d0 /\ h a = h0 /\
    (forall x, a <= x <= c -> solves2_at m d h x /\ 0 < d x /\ h x <= 16/10) /\
    (c = b \/ h c = 16/10).
Proof. exact head_below_lemma. Qed.
Print Assumptions head_solution_below_partial.

(** Above 1.6 it goes on to the end of the interval or until the shape factor leaves the range [lo, hi],
    whichever range above 1.6 was chosen. *)
Theorem head_solution_above_partial : forall m nu U dU a b d0 h0,
  m_kind m = Head -> m_nu m = Fin nu -> 0 < nu -> slot_kind (m_u m) <> KInt -> a < b ->
  (forall x, a <= x <= b -> velocity_at m U (dU x) x /\ continuous dU x /\ 1/1000 <= U x) ->
  0 < d0 -> forall lo hi, 16/10 < lo -> lo < h0 < hi ->
  exists c d h, a < c <= b /\ d a = d0 /\ h a = h0 /\
    (forall x, a <= x <= c -> solves2_at m d h x /\ 0 < d x /\ lo <= h x <= hi) /\
    (c = b \/ h c = lo \/ h c = hi).
Proof. exact head_above_lemma. Qed.
Print Assumptions head_solution_above_partial.

(** There is never more than one, as long as the shape factor is not 1.6. *)
Theorem head_solution_unique_partial : forall m nu U dU a b d h d' h',
  m_kind m = Head -> m_nu m = Fin nu -> 0 < nu -> slot_kind (m_u m) <> KInt -> a <= b ->
  (forall x, a <= x <= b -> velocity_at m U (dU x) x /\ continuous dU x /\ 1/1000 <= U x) ->
  0 < d a -> d a = d' a -> h a = h' a ->
  (forall x, a <= x <= b -> solves2_at m d h x /\ h x <> 16/10) ->
  (forall x, a <= x <= b -> solves2_at m d' h' x /\ h' x <> 16/10) ->
  forall x, a <= x <= b -> d x = d' x /\ h x = h' x.
Proof. exact head_unique_lemma. Qed.
Print Assumptions head_solution_unique_partial.

Lemma w_head_velocity x : velocity_at w_head (fun _ => 1) 0 x /\ continuous (fun _ : R => 0) x /\ 1/1000 <= 1.
Proof.
  split; [|split; [apply continuous_const|lra]].
  split; [exists (mkposreal 1 Rlt_0_1); intros; reflexivity|]. split; [apply (@is_derive_const R_AbsRing)|reflexivity].
Qed.
Example head_start_case : exists c d h, 0 < c <= 1 /\ d 0 = 1 /\ h 0 = 14/10 /\
  forall x, 0 <= x <= c -> velocity_at w_head (fun _ => 1) 0 x /\ solves2_at w_head d h x /\ h x <> 16/10.
Proof.
  destruct (head_solution_partial w_head 1 (fun _ => 1) (fun _ => 0) 0 1 1 (14/10) eq_refl eq_refl ltac:(lra) ltac:(discriminate)
    ltac:(lra) (fun x _ => w_head_velocity x) ltac:(lra) ltac:(lra)) as (c & d & h & Hc & D0 & H0 & S).
  exists c, d, h. repeat split; try lra; try apply S; try assumption; try (apply (w_head_velocity x)).
Qed.

(** The flat plate from the shape factors 1.4 and 2 up to the separation criterion 2.4. *)
Example head_until_case : forall b, 0 < b ->
  (exists c d h, 0 < c <= b /\ d 0 = 1 /\ h 0 = 14/10 /\
    (forall x, 0 <= x <= c -> solves2_at w_head d h x) /\ (c = b \/ h c = 16/10)) /\
  (exists c d h, 0 < c <= b /\ d 0 = 1 /\ h 0 = 2 /\
    (forall x, 0 <= x <= c -> solves2_at w_head d h x) /\ (c = b \/ h c = 161/100 \/ h c = 24/10)).
Proof.
  intros b Pb. split.
  - destruct (head_solution_below_partial w_head 1 (fun _ => 1) (fun _ => 0) 0 b 1 (14/10) eq_refl eq_refl ltac:(lra)
      ltac:(discriminate) Pb (fun x _ => w_head_velocity x) ltac:(lra) ltac:(lra)) as (c & d & h & Hc & D0 & H0 & S & O).
    exists c, d, h. split; [exact Hc|]. split; [exact D0|]. split; [exact H0|]. split; [apply S|exact O].
  - destruct (head_solution_above_partial w_head 1 (fun _ => 1) (fun _ => 0) 0 b 1 2 eq_refl eq_refl ltac:(lra)
      ltac:(discriminate) Pb (fun x _ => w_head_velocity x) ltac:(lra) (161/100) (24/10) ltac:(lra) ltac:(lra))
      as (c & d & h & Hc & D0 & H0 & S & O).
    exists c, d, h. split; [exact Hc|]. split; [exact D0|]. split; [exact H0|]. split; [apply S|exact O].
Qed.

(** Viscosity 1, velocity 1, momentum thickness 1, shape factor 1.6: no solution on any interval. *)
Theorem head_solution_refuted : forall b, 0 < b ->
  m_kind w_head = Head /\ m_nu w_head = Fin 1 /\
  (forall x, 0 <= x <= b -> velocity_at w_head (fun _ => 1) 0 x) /\
  ~ exists d h, d 0 = 1 /\ h 0 = 16/10 /\ forall x, 0 <= x <= b -> solves2_at w_head d h x.
Proof.
  intros b Pb. split; [reflexivity|]. split; [reflexivity|]. split; [intros x _; apply w_head_velocity|].
  intros (d & h & D0 & H0 & S).
  apply (no_start_lemma w_head d h b eq_refl eq_refl ltac:(discriminate) Pb); [|exact D0|exact H0|exact S].
  intros x _. split; reflexivity.
Qed.
Print Assumptions head_solution_refuted.
