(** Property C171: mass and momentum balances over a stretch of wall.
    [velocity_at], [velocity2_at], [solves1_at], [solves2_at], [stored1_at], [stored2_at]: see OdeSpec;
    [reports], [head_shear]: BalanceSpec; [is_RInt f a b I]: the Riemann integral of f from a to b is I. *)
From Coq Require Import Reals List Lra Lia.
From Coquelicot Require Import Coquelicot.
From Verif Require Import PyBase PyBaseFacts XDeriv ThwaitesFitsModel ThwaitesFitsProofs HeadModel HeadArrayModel InitialConditionModel
  CoreModel CoreRefute OdeSpec WellPosedProps AccelerationProps ThwaitesOdeProofs SplineSpec SplineProofs FitLipschitzProofs
  WellPosedOdeProofs HeadExistProofs StabilityProps BalanceSpec BalanceProofs.
Import ListNotations.
Open Scope R_scope.

(* ---------------------------------------------------------------- C171 *)
(** Head's method: the wall shear force minus the pressure force on the displaced fluid is the gain of the
    momentum defect rho U^2 delta_m. *)
Theorem head_momentum_balance : forall m nu U dU d h u_call rho a b,
  m_kind m = Head -> m_nu m = Fin nu -> 0 < nu -> slot_kind (m_u m) <> KInt -> a <= b ->
  (forall x, a <= x <= b -> velocity_at m U (dU x) x /\ continuous dU x /\ 1/1000 <= U x /\
     solves2_at m d h x /\ stored2_at m d h x /\ 0 < d x /\ 111/100 <= h x /\ u_call (LArray [x]) = UArr [U x]) ->
  exists tau dm dd, reports (head_shear m u_call rho) tau a b /\ reports (q_delta_m m) dm a b /\
    reports (q_delta_d m) dd a b /\
    is_RInt (fun x => tau x - rho * U x * dU x * dd x) a b (rho * U b ^ 2 * dm b - rho * U a ^ 2 * dm a).
Proof. exact head_momentum_balance_lemma. Qed.
Print Assumptions head_momentum_balance.

(** Head's method, on one side of the shape factor 1.6: the transpiration velocity adds up to the gain of
    the mass defect U delta_d. *)
Theorem head_mass_balance : forall m nu U dU d h a b,
  m_kind m = Head -> m_nu m = Fin nu -> 0 < nu -> slot_kind (m_u m) <> KInt -> a <= b ->
  (forall x, a <= x <= b -> velocity_at m U (dU x) x /\ continuous dU x /\ 1/1000 <= U x /\
     solves2_at m d h x /\ stored2_at m d h x /\ 0 < d x) ->
  (forall x, a <= x <= b -> h x <= 16/10) \/ (forall x, a <= x <= b -> 16/10 < h x) ->
  exists ve dd, reports (q_v_e m) ve a b /\ reports (q_delta_d m) dd a b /\
    is_RInt ve a b (U b * dd b - U a * dd a).
Proof. exact head_mass_balance_lemma. Qed.
Print Assumptions head_mass_balance.

(** The flat plate, from the momentum thickness 1 and the shape factor 2. *)
Example head_balance_case : exists m c d h, 0 < c <= 1 /\ m_kind m = Head /\ m_nu m = Fin 1 /\
  slot_kind (m_u m) <> KInt /\ forall x, 0 <= x <= c ->
    velocity_at m (fun _ => 1) 0 x /\ solves2_at m d h x /\ stored2_at m d h x /\ 0 < d x /\ 16/10 < h x.
Proof.
  set (mu := fun sol => {| m_kind := Head; m_nu := Fin 1; m_u := Some (VF (fun _ => 1) KFloat);
     m_du := Some (VF (fun _ => 0) KFloat); m_d2u := Some VFd1DU; m_ic := new_manual PInf PInf (Fin 0); m_fit := None;
     m_events := []; m_sol := sol |}).
  assert (V1 : forall sol x, velocity_at (mu sol) (fun _ => 1) 0 x).
  { intros sol x. split; [exists (mkposreal 1 Rlt_0_1); intros; reflexivity|].
    split; [apply (@is_derive_const R_AbsRing)|reflexivity]. }
  destruct (head_solution_above_partial (mu None) 1 (fun _ => 1) (fun _ => 0) 0 1 1 2 eq_refl eq_refl ltac:(lra) ltac:(discriminate) Rlt_0_1)
    with (lo := 17/10) (hi := 23/10) as (c & d & h & Hc & D0 & _ & S & _); try lra.
  { intros x _. split; [apply V1|]. split; [apply continuous_const|lra]. }
  exists (mu (Some (fun x => [Fin (d x); Fin (h x)]))), c, d, h.
  split; [lra|]. do 2 (split; [reflexivity|]). split; [discriminate|].
  intros x Hx. destruct (S x ltac:(lra)) as (A1 & A2 & A3). split; [apply V1|]. split; [exact A1|].
  split; [eexists; split; [reflexivity|exists (mkposreal 1 Rlt_0_1); reflexivity]|]. split; [exact A2|lra].
Qed.

(** Thwaites' methods: the transpiration velocity, where it is continuous, adds up to the gain of the mass
    defect. *)
Theorem thwaites_mass_balance : forall m nu f U dU d2U s ve a b, m_kind m <> Head ->
  m_nu m = Fin nu -> 0 < nu -> m_fit m = Some f -> a <= b ->
  (forall x, a <= x <= b -> velocity2_at m U dU (d2U x) x /\ solves1_at m s x /\ stored1_at m s x /\ 0 < s x /\
     exists p, shape_p f (Fin (s x * dU x)) = Fin p /\ xderiv (shape f) (s x * dU x) p) ->
  reports (q_v_e m) ve a b -> (forall x, a <= x <= b -> continuous ve x) ->
  exists dd, reports (q_delta_d m) dd a b /\ is_RInt ve a b (U b * dd b - U a * dd a).
Proof. exact thwaites_mass_balance_lemma. Qed.
Print Assumptions thwaites_mass_balance.

(** Uniform flow, linear method with White's fit. *)
Example thwaites_mass_balance_case : exists ve,
  let s := fun x => 1 + 45/100 / (1 + 1/1000) * x in
  let m := w_thwaites_of ThwaitesLinear (fun _ => 1) (fun _ => 0) fit_white s in
  (forall x, 0 <= x <= 1 -> velocity2_at m (fun _ => 1) (fun _ => 0) 0 x /\ solves1_at m s x /\ stored1_at m s x /\ 0 < s x /\
     exists p, shape_p fit_white (Fin (s x * 0)) = Fin p /\ xderiv (shape fit_white) (s x * 0) p) /\
  reports (q_v_e m) ve 0 1 /\ (forall x, 0 <= x <= 1 -> continuous ve x).
Proof.
  set (s := fun x => 1 + 45/100 / (1 + 1/1000) * x). cbv zeta.
  set (m := w_thwaites_of ThwaitesLinear (fun _ => 1) (fun _ => 0) fit_white s).
  assert (Ps : forall x, 0 <= x -> 0 < s x).
  { intros x Hx. unfold s. assert (0 <= 45/100 / (1 + 1/1000) * x) by (apply Rmult_le_pos; lra). lra. }
  assert (Ds : forall x, is_derive s x (45/100 / (1 + 1/1000))) by (intros x; unfold s; auto_derive; [exact I|field]).
  destruct (white_finite 0) as [_ [H EH]].
  assert (Hyp : forall x, 0 <= x <= 1 -> velocity2_at m (fun _ => 1) (fun _ => 0) 0 x /\ solves1_at m s x /\ stored1_at m s x /\ 0 < s x /\
     exists p, shape_p fit_white (Fin (s x * 0)) = Fin p /\ xderiv (shape fit_white) (s x * 0) p).
  { intros x Hx. split; [|split; [|split; [|split]]].
    - split; [exists (mkposreal 1 Rlt_0_1); intros; reflexivity|].
      split; [apply (@is_derive_const R_AbsRing)|].
      split; [exists (mkposreal 1 Rlt_0_1); intros; reflexivity|].
      split; [apply (@is_derive_const R_AbsRing)|]. unfold q_d2u_e. cbn. f_equal. unfold FiniteDiffModel.fd_1f. field.
    - eexists. split; [apply (rhs_linear _ 1 0); try reflexivity; lra|].
      replace ((45/100 - 6 * (s x * 0)) / (1/1000 + 1)) with (45/100 / (1 + 1/1000)) by field. apply Ds.
    - eexists; split; [reflexivity|exists (mkposreal 1 Rlt_0_1); reflexivity].
    - apply Ps. lra.
    - apply fit_derivatives_lemma. rewrite Rmult_0_r. lra. }
  exists (fun x => 45/100 / (1 + 1/1000) * 1 / (2 * sqrt (s x * 1)) * H). split; [exact Hyp|]. split.
  - intros x Hx. destruct (Hyp x Hx) as (V & So & St & P & p & E1 & E2).
    destruct (thwaites_ve_lemma m 1 fit_white (fun _ => 1) (fun _ => 0) 0 s x p ltac:(discriminate) eq_refl Rlt_0_1 eq_refl V So St P E1 E2)
      as (v & d' & Q & Ld & D).
    rewrite Q. do 2 f_equal.
    assert (Lpos : locally x (fun t => 0 < s t)).
    { assert (Cs : continuous s x) by (eapply derive_cont; apply Ds). exact (Cs _ (locally_gt 0 (s x) P)). }
    assert (Le : locally x (fun t => 1 * d' t = sqrt (s t * 1) * H)).
    { generalize (filter_and _ _ Ld Lpos). apply filter_imp. intros t [A B]. rewrite Rmult_1_l.
      unfold q_delta_d, q_delta_m, q_shape_d, sol_at, calc_lambda in A. cbn -[xmul xsqrt shape] in A.
      rewrite !xmul_fin, Rmult_0_r, EH, xsqrt_fin, xmul_fin in A by lra. injection A as A. symmetry. exact A. }
    assert (D2 := is_derive_ext_loc _ _ _ _ Le D).
    assert (A : is_derive (fun t => s t * 1) x (45/100 / (1 + 1/1000) * 1)).
    { apply (is_derive_ext s); [intros t; change (s t = s t * 1); ring|]. rewrite Rmult_1_r. apply Ds. }
    assert (D3 : is_derive (fun t => sqrt (s t * 1) * H) x
      (45/100 / (1 + 1/1000) * 1 / (2 * sqrt (s x * 1)) * H + sqrt (s x * 1) * 0)).
    { apply (mult_derive (fun t => sqrt (s t * 1)) (fun _ => H)); [|apply (@is_derive_const R_AbsRing)].
      apply (is_derive_sqrt (fun t => s t * 1) x _ A). lra. }
    apply is_derive_unique in D2. apply is_derive_unique in D3. assert (E := eq_trans (eq_sym D2) D3). rewrite E. ring.
  - intros x Hx. assert (P := Ps x ltac:(lra)). assert (Q : 0 < sqrt (s x * 1)) by (apply sqrt_lt_R0; lra).
    apply cont_mult; [|apply cont_const]. apply cont_mult; [apply cont_const|]. apply cont_inv; [|lra].
    apply cont_mult; [apply cont_const|]. apply (ex_derive_continuous (fun t => sqrt (s t * 1))).
    unfold s in *. auto_derive. lra.
Qed.

(** The nonlinear method: the momentum balance with U + 1/1000 for one of the velocities, which leaves a term
    of a thousandth of the change of velocity. *)
Theorem thwaites_momentum_balance : forall m nu f U dU s S H rho a b, m_kind m = ThwaitesNonlinear ->
  m_nu m = Fin nu -> 0 < nu -> m_fit m = Some f -> a <= b ->
  (forall x, a <= x <= b -> velocity_at m U (dU x) x /\ continuous dU x /\ 0 < U x + 1/1000 /\
     solves1_at m s x /\ stored1_at m s x /\ 0 < s x /\
     shear f (Fin (s x * dU x)) = Fin (S x) /\ shape f (Fin (s x * dU x)) = Fin (H x) /\ continuous S x /\ continuous H x) ->
  exists tau dm dd, reports (fun x => q_tau_w_thwaites m x rho) tau a b /\ reports (q_delta_m m) dm a b /\
    reports (q_delta_d m) dd a b /\
    is_RInt (fun x => tau x - rho * U x * dU x * dd x + 1/1000 * (rho * dU x * dm x)) a b
      (rho * U b * (U b + 1/1000) * dm b - rho * U a * (U a + 1/1000) * dm a).
Proof. exact thwaites_momentum_balance_lemma. Qed.
Print Assumptions thwaites_momentum_balance.

(** Uniform flow with the default fit. *)
Example thwaites_momentum_balance_case : exists S H : R -> R,
  let s := fun x => 1 + 44/100 / (1 + 1/1000) * x in
  let m := w_thwaites_of ThwaitesNonlinear (fun _ => 1) (fun _ => 0) (fit_spline table_splines) s in
  forall x, 0 <= x <= 1 -> velocity_at m (fun _ => 1) 0 x /\ solves1_at m s x /\ stored1_at m s x /\ 0 < s x /\
     shear (fit_spline table_splines) (Fin (s x * 0)) = Fin (S x) /\
     shape (fit_spline table_splines) (Fin (s x * 0)) = Fin (H x) /\ continuous S x /\ continuous H x.
Proof.
  destruct (default_rhs table_splines table_splines_ok) as (S & H & FI & _ & F0 & _).
  exists (fun _ => S 0), (fun _ => H 0). cbv zeta. intros x Hx. rewrite Rmult_0_r. destruct (FI 0) as [A B].
  split; [apply (w_velocity _ _ (fun _ => 0)); apply (@is_derive_const R_AbsRing)|].
  split.
  { exists (44/100 / (1 + 1/1000)). split; [apply (uniform_rhs _ 1); try reflexivity; lra|]. auto_derive; [exact I|ring]. }
  split; [eexists; split; [reflexivity|exists (mkposreal 1 Rlt_0_1); reflexivity]|].
  split; [assert (0 <= 44/100 / (1 + 1/1000) * x) by (apply Rmult_le_pos; lra); lra|].
  repeat (split; [assumption|]). split; apply continuous_const.
Qed.
