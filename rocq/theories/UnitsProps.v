(** C98-C102: the velocity offset of the linear Thwaites method, how far the initial thickness
    is felt, change of units, arrays of positions, kinetic energy quantities. *)
From Coq Require Import Reals List String Bool ZArith Lra Lia.
From Coquelicot Require Import Coquelicot.
From Verif Require Import PyBase PyBaseFacts InitialConditionModel ThwaitesFitsModel HeadModel
  CoreModel CoreSpec CoreRefute OdeSpec HeadOdeProofs HeadArrayModel UnitsSpec UnitsProofs
  ThwaitesArrayModel ThwaitesArraySpec ThwaitesArrayProofs WorkflowRefute HeadProps.
Import ListNotations.
Open Scope R_scope.

(* ---------------------------------------------------------------- C98 *)
Theorem linear_offset_effect : forall m nu U dU s a b lo,
  m_kind m = ThwaitesLinear -> m_nu m = Fin nu -> 0 < nu -> 0 < lo -> a <= b ->
  (forall x, a <= x <= b -> velocity_at m U (dU x) x /\ solves1_at m s x /\ lo <= U x) ->
  0 <= s a -> stored1_at m s b ->
  let r := 1 + 1/(1000*lo) in
  let d := sqrt (nu * thwaites_quadrature U (s a) a b) in
  exists v, q_delta_m m b = Ok (Fin v) /\ d / r^3 <= v <= r^3 * d.
Proof. exact offset_delta_lemma. Qed.
Print Assumptions linear_offset_effect.

(** The flat plate with its exact solution stored. *)
Definition flat_done (u nu d : R) : meth :=
  set_sol (flat u nu d) (Some (fun x => [Fin (flat_s u nu d x)])).
Lemma flat_velocity u nu d x : velocity_at (flat_done u nu d) (fun _ => u) 0 x.
Proof.
  split; [|split; [|reflexivity]].
  - exists (mkposreal 1 Rlt_0_1). intros; reflexivity.
  - apply (@is_derive_const R_AbsRing).
Qed.
Lemma flat_stored u nu d x : stored1_at (flat_done u nu d) (flat_s u nu d) x.
Proof.
  eexists. split; [reflexivity|]. exists (mkposreal 1 Rlt_0_1). intros; reflexivity.
Qed.

Example linear_offset_effect_case :
  m_kind (flat_done 1 1 1) = ThwaitesLinear /\ m_nu (flat_done 1 1 1) = Fin 1 /\
  (forall x, 0 <= x <= 1 -> velocity_at (flat_done 1 1 1) (fun _ => 1) 0 x /\
     solves1_at (flat_done 1 1 1) (flat_s 1 1 1) x /\ 1 <= 1) /\
  0 <= flat_s 1 1 1 0 /\ stored1_at (flat_done 1 1 1) (flat_s 1 1 1) 1.
Proof.
  refine (conj eq_refl (conj eq_refl (conj _ (conj _ (flat_stored _ _ _ _))))).
  - intros x _. split; [apply flat_velocity|]. split; [apply (flat_solves 1 1 1 x); lra|lra].
  - unfold flat_s. lra.
Qed.

(* ---------------------------------------------------------------- C99 *)
Theorem initial_thickness_influence : forall m U dU s1 s2 a b, m_kind m = ThwaitesLinear ->
  (forall x, Rmin a b <= x <= Rmax a b ->
     velocity_at m U (dU x) x /\ solves1_at m s1 x /\ solves1_at m s2 x /\ 0 < U x + 1/1000) ->
  s2 b - s1 b = (s2 a - s1 a) * ((U a + 1/1000) / (U b + 1/1000))^6.
Proof. exact influence_lemma. Qed.
Print Assumptions initial_thickness_influence.

Example initial_thickness_influence_case :
  (forall x, velocity_at (flat_done 1 1 1) (fun _ => 1) 0 x /\
     solves1_at (flat_done 1 1 1) (flat_s 1 1 1) x /\
     solves1_at (flat_done 1 1 1) (flat_s 1 1 2) x /\ 0 < 1 + 1/1000) /\
  flat_s 1 1 1 0 <> flat_s 1 1 2 0.
Proof.
  split.
  - intros x. split; [apply flat_velocity|]. split; [apply (flat_solves 1 1 1 x); lra|].
    split; [apply (flat_solves 1 1 2 x); lra|lra].
  - unfold flat_s. lra.
Qed.

(* ---------------------------------------------------------------- C100 *)
(** C100 fails for the linear Thwaites method: the offset 0.001 has the unit of a velocity. *)
Theorem units_refuted : forall pchip cubic_spline, exists ivp, ivp_contract ivp /\
  exists m1 m2 (s1 s2 : R -> R) v1 v2,
  reachable pchip cubic_spline ivp m1 /\ reachable pchip cubic_spline ivp m2 /\
  m_kind m1 = ThwaitesLinear /\ same_flow 1000 1 m1 m2 /\
  (forall x, solves1_at m1 s1 x) /\ (forall x, solves1_at m2 s2 x) /\
  initial_state m1 0 [Fin (s1 0)] /\ initial_state m2 0 [Fin (s2 0)] /\ s2 0 = s1 0 /\
  m_sol (fst (solve ivp m1 0 1 [])) = Some (fun x => [Fin (s1 x)]) /\
  m_sol (fst (solve ivp m2 0 1000 [])) = Some (fun x => [Fin (s2 x)]) /\
  q_delta_m (fst (solve ivp m1 0 1 [])) 1 = Ok (Fin v1) /\
  q_delta_m (fst (solve ivp m2 0 1000 [])) 1000 = Ok (Fin v2) /\ v2 <> 1000 * v1.
Proof. exact units_witness. Qed.
Print Assumptions units_refuted.

Theorem units_linear_partial : forall L T m1 m2 nu U dU s1 s2 a b lo,
  0 < L -> 0 < T -> same_flow L T m1 m2 ->
  m_kind m1 = ThwaitesLinear -> m_nu m1 = Fin nu -> 0 < nu -> 0 < lo -> a <= b ->
  (forall x, a <= x <= b -> velocity_at m1 U (dU x) x /\ lo <= U x /\ lo <= L / T * U x /\
     solves1_at m1 s1 x /\ solves1_at m2 s2 (L * x)) ->
  0 < s1 a -> s2 (L * a) = T * s1 a -> stored1_at m1 s1 b -> stored1_at m2 s2 (L * b) ->
  let r := 1 + 1/(1000*lo) in
  exists v1 v2, q_delta_m m1 b = Ok (Fin v1) /\ q_delta_m m2 (L * b) = Ok (Fin v2) /\
    0 < v1 /\ L * v1 / r^6 <= v2 <= r^6 * (L * v1).
Proof. exact units_linear_lemma. Qed.
Print Assumptions units_linear_partial.

(** Metres to millimetres. *)
Example units_linear_case :
  let m1 := flat_done 1 1 1 in
  let m2 := flat_done (1000/1*1) (1000^2/1*1) 1000 in
  let s2 := flat_s (1000/1*1) (1000^2/1*1) 1000 in
  same_flow 1000 1 m1 m2 /\
  (forall x, 0 <= x <= 1 -> velocity_at m1 (fun _ => 1) 0 x /\ 1 <= 1 /\ 1 <= 1000 / 1 * 1 /\
     solves1_at m1 (flat_s 1 1 1) x /\ solves1_at m2 s2 (1000 * x)) /\
  0 < flat_s 1 1 1 0 /\ s2 (1000 * 0) = 1 * flat_s 1 1 1 0 /\
  stored1_at m1 (flat_s 1 1 1) 1 /\ stored1_at m2 s2 (1000 * 1).
Proof.
  intros m1 m2 s2.
  refine (conj _ (conj _ (conj _ (conj _ (conj (flat_stored _ _ _ _) (flat_stored _ _ _ _)))))).
  - pose proof (flat_same_flow 1000 1 1 1 1 1000) as S. destruct S as [A B C D E].
    constructor; assumption.
  - intros x _. split; [apply flat_velocity|]. split; [lra|]. split; [lra|].
    split; [apply (flat_solves 1 1 1 x); lra|].
    apply (flat_solves (1000/1*1) (1000^2/1*1) 1000 (1000*x)). lra.
  - unfold flat_s. lra.
  - unfold s2, flat_s. field.
Qed.

(** Head's method rescales exactly as long as the velocity is above the floor 0.001 in both
    systems of units. *)
Theorem units_head_partial : forall L T m1 m2 nu U dU d h x,
  0 < L -> 0 < T -> same_flow L T m1 m2 ->
  m_kind m1 = Head -> m_nu m1 = Fin nu -> 0 < nu -> float_or_array m1 -> float_or_array m2 ->
  velocity_at m1 U dU x -> 1/1000 <= U x -> 1/1000 <= L / T * U x -> 0 < d x ->
  let d2 := fun t => L * d (t / L) in
  let h2 := fun t => h (t / L) in
  (solves2_at m1 d h x -> solves2_at m2 d2 h2 (L * x)) /\
  (solves2_at m1 d h x -> stored2_at m1 d h x -> stored2_at m2 d2 h2 (L * x) ->
     exists vd vh vdd vv, q_delta_m m1 x = Ok (Fin vd) /\ q_delta_m m2 (L * x) = Ok (Fin (L * vd)) /\
       q_shape_d m1 x = Ok (Fin vh) /\ q_shape_d m2 (L * x) = Ok (Fin vh) /\
       q_delta_d m1 x = Ok (Fin vdd) /\ q_delta_d m2 (L * x) = Ok (Fin (L * vdd)) /\
       q_v_e m1 x = Ok (Fin vv) /\ q_v_e m2 (L * x) = Ok (Fin (L / T * vv))).
Proof. exact units_head_lemma. Qed.
Print Assumptions units_head_partial.

Definition head_mm (f : option (R -> list xr)) : meth :=
  {| m_kind := Head; m_nu := Fin (1000^2/1*1); m_u := Some (VF (fun _ => 1000/1*1) KFloat);
     m_du := Some (VF (fun _ => 0/1) KFloat); m_d2u := m_d2u w_head; m_ic := m_ic w_head;
     m_fit := m_fit w_head; m_events := m_events w_head; m_sol := f |}.
Example units_head_case : exists d h,
  let m1 := set_sol w_head (Some (fun t => [Fin (d t); Fin (h t)])) in
  let d2 := fun t => 1000 * d (t / 1000) in
  let h2 := fun t => h (t / 1000) in
  let m2 := head_mm (Some (fun t => [Fin (d2 t); Fin (h2 t)])) in
  same_flow 1000 1 m1 m2 /\ m_kind m1 = Head /\ m_nu m1 = Fin 1 /\
  float_or_array m1 /\ float_or_array m2 /\
  velocity_at m1 (fun _ => 1) 0 0 /\ 1/1000 <= 1 /\ 1/1000 <= 1000/1*1 /\ 0 < d 0 /\
  solves2_at m1 d h 0 /\ stored2_at m1 d h 0 /\ stored2_at m2 d2 h2 (1000 * 0).
Proof.
  destruct head_solution_case as [v [w [V [S [_ [_ P]]]]]].
  exists (fun t => 1 + v * t), (fun t => 2 + w * t). cbv zeta.
  refine (conj _ (conj eq_refl (conj eq_refl (conj _ (conj _ (conj V (conj _ (conj _ (conj P
    (conj S (conj _ _))))))))))); [|unfold float_or_array; discriminate|unfold float_or_array; discriminate|lra|lra| |].
  - constructor; try reflexivity.
    + intros nu E. cbn in E. injection E as <-. reflexivity.
    + intros x u E. cbn in E. injection E as <-. reflexivity.
    + intros x u E. cbn in E. injection E as <-. reflexivity.
  - eexists. split; [reflexivity|]. exists (mkposreal 1 Rlt_0_1). intros; reflexivity.
  - eexists. split; [reflexivity|]. exists (mkposreal 1 Rlt_0_1). intros; reflexivity.
Qed.

(* ---------------------------------------------------------------- C101 *)
(** C101 fails when the positions leave the range of the fit on both sides: asking for shape_d
    at two positions at once gives another value than asking one by one. *)
Theorem thwaites_array_refuted : forall pchip cubic_spline,
  exists ivp, ivp_contract ivp /\ exists m xs l,
  reachable pchip cubic_spline ivp m /\ m_kind m = ThwaitesLinear /\ xs <> [] /\
  map_res (q_shape_d m) xs = Ok l /\ shape_d_arr m xs <> Ok l.
Proof. exact thwaites_array_witness. Qed.
Print Assumptions thwaites_array_refuted.

Theorem thwaites_array_partial : forall m xs f l rho,
  m_kind m <> Head -> xs <> [] -> m_fit m = Some f -> one_sided f m xs ->
  (map_res (q_delta_m m) xs = Ok l -> delta_m_arr m xs = Ok l) /\
  (map_res (q_shape_d m) xs = Ok l -> shape_d_arr m xs = Ok l) /\
  (map_res (q_delta_d m) xs = Ok l -> delta_d_arr m xs = Ok l) /\
  (map_res (fun x => q_tau_w_thwaites m x rho) xs = Ok l -> tau_w_arr m xs rho = Ok l) /\
  (map_res (q_v_e m) xs = Ok l -> v_e_arr m xs = Ok l).
Proof.
  intros m xs f l rho K X F O.
  exact (conj (delta_m_array m xs K X l) (conj (shape_d_array m xs K X f l F O)
    (conj (delta_d_array m xs K X f l F O) (conj (tau_w_array m xs K X f rho l F O)
    (v_e_array m xs K X f l F O))))).
Qed.
Print Assumptions thwaites_array_partial.

(** White's and Drela's fits and custom ones are never left on both sides. *)
Theorem one_sided_fits : forall m xs f,
  f = fit_white \/ f = fit_drela \/ (exists s h hp, f = fit_custom3 s h hp) \/
  (exists s h, f = fit_custom2 s h) -> one_sided f m xs.
Proof.
  intros m xs f H. right. intros x lam _ _.
  destruct H as [->|[->|[(s & h & hp & ->)|(s & h & ->)]]]; destruct lam; reflexivity.
Qed.
Print Assumptions one_sided_fits.

Example thwaites_array_case : exists l,
  m_fit (flat_done 1 1 1) = Some fit_white /\ one_sided fit_white (flat_done 1 1 1) [0; 1; 2] /\
  map_res (q_delta_m (flat_done 1 1 1)) [0; 1; 2] = Ok l.
Proof.
  eexists. split; [reflexivity|]. split; [apply one_sided_fits; left; reflexivity|reflexivity].
Qed.

(* ---------------------------------------------------------------- C102 *)
(** C102 fails everywhere: the kinetic energy thickness, shape factor and dissipation are 0 for
    every boundary layer with a positive momentum thickness. *)
Theorem kinetic_energy_refuted : forall m x d rho, q_delta_m m x = Ok (Fin d) -> 0 < d ->
  q_delta_k m x = Ok (Fin 0) /\ q_shape_k m x = Ok (Fin 0) /\ q_dissipation m x rho = Ok (Fin 0).
Proof.
  intros m x d rho H P. split; [reflexivity|]. split; [|reflexivity].
  unfold q_shape_k, q_delta_k. rewrite H. cbn [bind]. rewrite xdiv_fin by lra. do 2 f_equal.
  unfold Rdiv. apply Rmult_0_l.
Qed.
Print Assumptions kinetic_energy_refuted.

Example kinetic_energy_case : exists d, q_delta_m (flat_done 1 1 1) 0 = Ok (Fin d) /\ 0 < d.
Proof.
  exists 1. split; [|lra]. unfold q_delta_m, sol_at. cbn [m_sol flat_done set_sol bind comp nth_error
    m_kind flat m_nu]. unfold flat_s. rewrite xmul_fin, xsqrt_fin by lra.
  replace ((1 * 1 / 1 + 45 / 100 / (1 / 1000 + 1) * 0) * 1) with 1 by (field; lra).
  rewrite sqrt_1. reflexivity.
Qed.
