(** Properties C32-C38 and C76: Head's method.  [shape_entrainment] is H1(H),
    [shape_entrainment_p] its reported derivative, [shape_d_of_entrainment] its reported
    inverse, [entrainment_velocity] is E(H1). *)
From Coq Require Import Reals List Lra Bool.
From Coquelicot Require Import Coquelicot.
From Verif Require Import PyBase PyBaseFacts XDeriv SkinFrictionModel InitialConditionModel
  HeadModel HeadProofs CoreModel CoreRefute OdeSpec HeadOdeProofs HeadArrayModel HeadArrayProofs.
Import ListNotations.
Open Scope R_scope.

(* ---------------------------------------------------------------- C32 *)
Theorem entrainment_derivative : forall h, 11/10 < h -> h <> 16/10 ->
  exists d, shape_entrainment_p (Fin h) = Fin d /\ d < 0 /\ xderiv shape_entrainment h d.
Proof. exact entrainment_derivative_lemma. Qed.
Print Assumptions entrainment_derivative.

(** The two branches, written out, and their distance at 1.6. *)
Theorem entrainment_branches :
  (forall h, 11/10 < h <= 16/10 ->
     shape_entrainment (Fin h) = Fin (33/10 + 8234/10000 / Rpower (h - 11/10) (1287/1000))) /\
  (forall h, 16/10 < h ->
     shape_entrainment (Fin h) = Fin (332254659218600974/100000000000000000
                                      + 15501/10000 / Rpower (h - 6778/10000) (3064/1000))) /\
  0 < (332254659218600974/100000000000000000
       + 15501/10000 / Rpower (16/10 - 6778/10000) (3064/1000))
      - (33/10 + 8234/10000 / Rpower (16/10 - 11/10) (1287/1000)) < 1/10^15.
Proof. exact (conj entr_lo (conj entr_hi jump_bounds)). Qed.
Print Assumptions entrainment_branches.

Example entrainment_derivative_case :
  exists d, shape_entrainment_p (Fin 2) = Fin d /\ d < 0 /\ xderiv shape_entrainment 2 d.
Proof. apply entrainment_derivative; lra. Qed.

(* ---------------------------------------------------------------- C33 *)
Theorem entrainment_inverse_left : forall h, 11/10 < h -> h < 16/10 \/ 16/10 + 1/10^14 <= h ->
  shape_d_of_entrainment (shape_entrainment (Fin h)) = Fin h.
Proof. exact inverse_left_lemma. Qed.
Print Assumptions entrainment_inverse_left.

Theorem entrainment_inverse_right : forall y, 332254659218600974/100000000000000000 < y ->
  exists h, shape_d_of_entrainment (Fin y) = Fin h /\ 11/10 < h /\ shape_entrainment (Fin h) = Fin y.
Proof. exact inverse_right_lemma. Qed.
Print Assumptions entrainment_inverse_right.

(** C33, outside the invertible range: entrainment shape factors that no shape factor has
    count as 3.323, shape factors at or below 1.1 as 1.1001. *)
Theorem entrainment_out_of_range :
  (forall y, y <= 332254659218600974/100000000000000000 ->
     exists h, shape_d_of_entrainment (Fin y) = Fin h /\
       shape_entrainment (Fin h) = Fin (3323/1000)) /\
  (forall h, h <= 11/10 -> shape_entrainment (Fin h) = shape_entrainment (Fin (11001/10000)) /\
     shape_entrainment_p (Fin h) = shape_entrainment_p (Fin (11001/10000))).
Proof. exact below_range_lemma. Qed.
Print Assumptions entrainment_out_of_range.

Example entrainment_inverse_case :
  shape_d_of_entrainment (shape_entrainment (Fin (14/10))) = Fin (14/10) /\
  332254659218600974/100000000000000000 < 4.
Proof. split; [apply entrainment_inverse_left; lra|lra]. Qed.

(* ---------------------------------------------------------------- C34 *)
Theorem entrainment_velocity_positive_decreasing :
  (forall y, finite_pos (entrainment_velocity (Fin y))) /\
  (forall y1 y2, 3 < y1 -> y1 < y2 ->
     fin_lt (entrainment_velocity (Fin y2)) (entrainment_velocity (Fin y1))) /\
  (forall h, exists y, shape_entrainment (Fin h) = Fin y /\ 3 < y).
Proof.
  exact (conj entr_vel_pos (conj entr_vel_decr entr_range3)).
Qed.
Print Assumptions entrainment_velocity_positive_decreasing.

(** C34, the published formula E = 0.0306 (H1 - 3)^-0.6169; H1 at or below 3 counts as 3.001. *)
Theorem entrainment_velocity_formula :
  (forall y, 3 < y -> entrainment_velocity (Fin y)
     = Fin (306/10000 * Rpower (y - 3) (-6169/10000))) /\
  (forall y, y <= 3 -> entrainment_velocity (Fin y)
     = Fin (306/10000 * Rpower (1/1000) (-6169/10000))).
Proof. exact entr_vel_formula_lemma. Qed.
Print Assumptions entrainment_velocity_formula.

Example entrainment_velocity_case :
  fin_lt (entrainment_velocity (Fin 5)) (entrainment_velocity (Fin 4)).
Proof. apply entrainment_velocity_positive_decreasing; lra. Qed.

(* ---------------------------------------------------------------- C35 *)
(** For a solution (d, h) of the object's ODE: von Karman's equation, and growth of the mass
    flow in the layer by entrainment.  (At h = 1.6 exactly H1 has its 1e-15 jump.) *)
Theorem head_momentum_and_entrainment : forall m nu U dU d h x,
  m_kind m = Head -> m_nu m = Fin nu -> 0 < nu -> slot_kind (m_u m) <> KInt ->
  velocity_at m U dU x -> solves2_at m d h x ->
  1/1000 <= U x -> 111/100 <= h x -> 0 < d x ->
  exists cf e : R, exists H1 : R -> R,
    ludwieg_tillman (Fin (U x * d x / nu)) (Fin (h x)) = Fin cf /\
    (forall v, shape_entrainment (Fin v) = Fin (H1 v)) /\
    entrainment_velocity (Fin (H1 (h x))) = Fin e /\
    Derive d x + (2 + h x) * (d x / U x) * dU = cf / 2 /\
    (h x <> 16/10 -> is_derive (fun t => U t * d t * H1 (h t)) x (U x * e)).
Proof. exact head_ode_lemma. Qed.
Print Assumptions head_momentum_and_entrainment.

(** Through every regular state there is a right-hand side, so the hypotheses can be met:
    here for the flat plate object [w_head] at x = 0 with d = 1, h = 2. *)
Example head_solution_case : exists v w,
  let d := fun t => 1 + v * t in let h := fun t => 2 + w * t in
  velocity_at w_head (fun _ => 1) 0 0 /\ solves2_at w_head d h 0 /\
  1/1000 <= 1 /\ 111/100 <= h 0 /\ 0 < d 0.
Proof.
  destruct (head_rhs_fin 1 1 0 1 2 KFloat) as [cf [e [p [_ [_ [_ [_ RHS]]]]]]]; try lra; [auto|].
  specialize (RHS KFloat). do 2 eexists. cbv zeta. split; [|split; [|lra]].
  - split; [|split].
    + exists (mkposreal 1 Rlt_0_1). intros; reflexivity.
    + apply (@is_derive_const R_AbsRing).
    + reflexivity.
  - do 2 eexists. split; [|split].
    + rewrite !Rmult_0_r, !Rplus_0_r. unfold ode_impl.
      cbn [w_head m_kind q_u_e q_du_e m_u m_du call_plain call_du bind slot_kind m_nu].
      rewrite RHS. reflexivity.
    + auto_derive; [exact I|]. rewrite Rmult_1_r; reflexivity.
    + auto_derive; [exact I|]. rewrite Rmult_1_r; reflexivity.
Qed.

(* ---------------------------------------------------------------- C36 *)
(** No restriction on the state is needed as long as (d, h) solves the ODE at x. *)
Theorem head_transpiration : forall m U dU d h x,
  m_kind m = Head ->
  velocity_at m U dU x -> solves2_at m d h x -> stored2_at m d h x ->
  exists v, exists dd : R -> R, q_v_e m x = Ok (Fin v) /\
    locally x (fun t => q_delta_d m t = Ok (Fin (dd t))) /\
    is_derive (fun t => U t * dd t) x v.
Proof. exact head_ve_lemma. Qed.
Print Assumptions head_transpiration.

Example head_transpiration_case : exists d h,
  let m := set_sol w_head (Some (fun t => [Fin (d t); Fin (h t)])) in
  velocity_at m (fun _ => 1) 0 0 /\ solves2_at m d h 0 /\ stored2_at m d h 0.
Proof.
  destruct head_solution_case as [v [w [V [S _]]]].
  exists (fun t => 1 + v * t), (fun t => 2 + w * t). cbv zeta. split; [exact V|].
  split; [exact S|]. eexists. split; [reflexivity|].
  exists (mkposreal 1 Rlt_0_1). intros; reflexivity.
Qed.

(* ---------------------------------------------------------------- C37 *)
(** Refuted: for a reversed flow the float form is floored at 0.001, the array form is not
    (and gives nan); a callable returning a Python int makes the right-hand side raise. *)
Theorem head_calling_form_refuted :
  (exists v w, ode_impl (w_rev KFloat) 0 [Fin 1; Fin 2] = Ok [Fin v; Fin w]) /\
  (exists w, ode_impl (w_rev KArray) 0 [Fin 1; Fin 2] = Ok [NaN; w]) /\
  ode_impl (w_rev KInt) 0 [Fin 1; Fin 2] = Err TypeError.
Proof. exact w_rev_rhs. Qed.
Print Assumptions head_calling_form_refuted.

(** [w_rev k] is the object built by the constructor from a callable returning form [k]. *)
Example head_calling_form_refuted_case : forall pchip k,
  new_head pchip (Fin 1)
    (PCall {| c_fun := fun _ => -1; c_ret := k; c_deriv := None |})
    (PCall {| c_fun := fun _ => 0; c_ret := KFloat; c_deriv := None |}) PNone (Fin (24/10))
   = Ok (w_rev k).
Proof. exact w_rev_new. Qed.

(** Proved: floats and arrays agree wherever the velocity is above -0.001. *)
Theorem head_calling_form_partial : forall pchip m c du d2u m1 m2 x y,
  m_kind m = Head ->
  set_velocity pchip m (PCall (returning KFloat c)) du d2u = (m1, Ok tt) ->
  set_velocity pchip m (PCall (returning KArray c)) du d2u = (m2, Ok tt) ->
  - (1/1000) < c_fun c x ->
  ode_impl m1 x y = ode_impl m2 x y.
Proof. exact call_form_lemma. Qed.
Print Assumptions head_calling_form_partial.

Example head_calling_form_partial_case : forall pchip, exists m1 m2,
  set_velocity pchip w_head (PCall (returning KFloat (const_call 3))) PNone PNone = (m1, Ok tt) /\
  set_velocity pchip w_head (PCall (returning KArray (const_call 3))) PNone PNone = (m2, Ok tt) /\
  m_u m1 <> m_u m2 /\ - (1/1000) < c_fun (const_call 3) 0.
Proof.
  intros. do 2 eexists. split; [reflexivity|]. split; [reflexivity|]. split; [discriminate|].
  cbn; lra.
Qed.

(* ---------------------------------------------------------------- C38 *)
(** Refuted for scalar positions: whenever the callable returns a plain float or int (or its
    argument), tau_w raises TypeError, after a successful solve. *)
Theorem tau_w_scalar_refuted : forall m s u_call x v rho,
  m_sol m = Some s -> m_u m <> None ->
  u_call (LScalar x) = UFloat v \/ u_call (LScalar x) = UInt v \/ u_call (LScalar x) = UArg ->
  head_tau_w m u_call (LScalar x) rho = (LScalar x, Err TypeError).
Proof. exact tau_scalar_lemma. Qed.
Print Assumptions tau_w_scalar_refuted.

(** Refuted: with the stagnation-point velocity [lambda x: x], tau_w (and v_e) overwrite
    every position within 0.001 of zero in the caller's array. *)
Theorem tau_w_input_overwritten_refuted : forall m s u_call l rho,
  m_sol m = Some s -> m_u m <> None -> u_call (LArray l) = UArg ->
  exists l', List.Forall2 (fun before after =>
      (Rabs before < 1/1000 -> after = 1/1000) /\ (1/1000 <= Rabs before -> after = before)) l l' /\
  fst (head_tau_w m u_call (LArray l) rho) = LArray l' /\
  fst (head_v_e_at m u_call (fun _ => 1) (LArray l)) = (if m_du m then LArray l' else LArray l).
Proof. exact tau_alias_lemma. Qed.
Print Assumptions tau_w_input_overwritten_refuted.

Definition w_solved : meth := set_sol w_head (Some (fun _ => [Fin 1; Fin 2])).
Example tau_w_refuted_case :
  head_tau_w w_solved (fun x => match x with LScalar _ => UFloat 1 | LArray l => UArr (map (fun _ => 1) l) end)
    (LScalar 3) 1 = (LScalar 3, Err TypeError) /\
  fst (head_tau_w w_solved (fun _ => UArg) (LArray [0; 1]) 1) <> LArray [0; 1].
Proof.
  split; [reflexivity|].
  destruct (tau_w_input_overwritten_refuted w_solved _ (fun _ => UArg) [0; 1] 1
             eq_refl ltac:(discriminate) eq_refl) as (l' & F & -> & _).
  inversion F as [|a b r r' [H _] F']; subst. rewrite H by (rewrite Rabs_R0; lra).
  intros E. injection E. lra.
Qed.

(** Proved: positions untouched and 0.5 rho U^2 c_f element by element, when the callable
    returns a new array with U >= 0.001 ... *)
Theorem tau_w_array_partial : forall m nu s u_call U d h l rho,
  m_nu m = Fin nu -> 0 < nu -> m_sol m = Some s -> m_u m <> None ->
  l <> [] -> u_call (LArray l) = UArr (map U l) ->
  (forall t, In t l -> s t = [Fin (d t); Fin (h t)] /\ 0 < d t /\ 1/1000 <= U t) ->
  exists taus, head_tau_w m u_call (LArray l) rho = (LArray l, Ok (map Fin taus)) /\
    Forall2 (fun t tau => exists cf,
      ludwieg_tillman (Fin (U t * d t / nu)) (Fin (h t)) = Fin cf /\ 0 < cf /\
      tau = 1/2 * rho * (U t)^2 * cf) l taus.
Proof. exact tau_array_lemma. Qed.
Print Assumptions tau_w_array_partial.

Example tau_w_array_partial_case : exists taus,
  head_tau_w w_solved (fun x => UArr (map (fun _ => 1) (positions x))) (LArray [0; 3]) 1
  = (LArray [0; 3], Ok (map Fin taus)).
Proof.
  destruct (tau_w_array_partial w_solved 1 (fun _ => [Fin 1; Fin 2])
    (fun x => UArr (map (fun _ => 1) (positions x))) (fun _ => 1) (fun _ => 1) (fun _ => 2) [0; 3] 1)
    as [taus [E _]]; try reflexivity; try lra.
  - discriminate.
  - discriminate.
  - intros t _. repeat split; lra.
  - exists taus. exact E.
Qed.

(** ... and for a scalar position when the callable is a spline (0-d array). *)
Theorem tau_w_scalar_spline_partial : forall m nu s u_call u d h x rho,
  m_nu m = Fin nu -> 0 < nu -> m_sol m = Some s -> m_u m <> None ->
  u_call (LScalar x) = UArr [u] -> s x = [Fin d; Fin h] -> 0 < d -> 1/1000 <= u ->
  exists cf, ludwieg_tillman (Fin (u * d / nu)) (Fin h) = Fin cf /\ 0 < cf /\
    head_tau_w m u_call (LScalar x) rho = (LScalar x, Ok [Fin (1/2 * rho * u^2 * cf)]).
Proof. exact tau_scalar_array_lemma. Qed.
Print Assumptions tau_w_scalar_spline_partial.

Example tau_w_scalar_spline_partial_case : exists cf,
  head_tau_w w_solved (fun _ => UArr [1]) (LScalar 3) 1
  = (LScalar 3, Ok [Fin (1/2 * 1 * 1^2 * cf)]).
Proof.
  destruct (tau_w_scalar_spline_partial w_solved 1 (fun _ => [Fin 1; Fin 2]) (fun _ => UArr [1])
    1 1 2 3 1) as [cf [_ [_ E]]]; try reflexivity; try lra; [discriminate|].
  exists cf. exact E.
Qed.

(** C15 for Head's tau_w: before a successful solve it raises and leaves x alone. *)
Theorem head_tau_before_solve : forall m u_call x rho, m_sol m = None ->
  head_tau_w m u_call x rho = (x, Err ValueError).
Proof. exact head_tau_unsolved. Qed.
Print Assumptions head_tau_before_solve.

Example head_tau_before_solve_case : m_sol w_head = None.
Proof. reflexivity. Qed.

(* ---------------------------------------------------------------- C76 *)
Theorem head_transpiration_array_partial : forall m s u_call du U l,
  m_kind m = Head -> m_sol m = Some s ->
  (forall t, q_u_e m t = Ok (U t)) -> (forall t, q_du_e m t = Ok (du t)) ->
  slot_kind (m_u m) = KArray -> l <> [] ->
  u_call (LArray l) = UArr (map U l) ->
  (forall t, In t l -> exists d h, s t = [d; h]) ->
  fst (head_v_e_at m u_call du (LArray l)) = LArray l /\
  snd (head_v_e_at m u_call du (LArray l)) = map_res (q_v_e m) l.
Proof. exact ve_array_lemma. Qed.
Print Assumptions head_transpiration_array_partial.

Example head_transpiration_array_partial_case :
  let m := set_u w_solved (Some (VF (fun _ => 1) KArray)) in
  m_kind m = Head /\ m_sol m <> None /\ (forall t, q_u_e m t = Ok 1) /\
  (forall t, q_du_e m t = Ok 0) /\ slot_kind (m_u m) = KArray.
Proof. cbv zeta. repeat split. discriminate. Qed.
