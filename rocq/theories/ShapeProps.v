(** Properties C134 and C135: the displacement thickness is larger than the momentum thickness.
    [velocity_at], [solves1_at], [solves2_at]: see OdeSpec; [cubic_spline_ok]: SplineSpec. *)
From Coq Require Import Reals List String Lra.
From Coquelicot Require Import Coquelicot.
From Verif Require Import PyBase PyBaseFacts ThwaitesFitsModel SplineSpec SplineProofs HeadModel InitialConditionModel
  CoreModel CoreSpec CoreRefute OdeSpec WorkflowSpec ThwaitesOdeProps WellPosedProps WellPosedOdeProofs OrderProofs AccelerationProofs
  HeadExistProofs HeadUntilProofs ThwaitesOdeProofs ThwaitesFitsProofs ShapeProofs.
Import ListNotations.
Open Scope R_scope.

(* ---------------------------------------------------------------- C134 *)
(** As wanted, every layer with positive momentum thickness would have a larger displacement thickness.
    With White's fit it can be negative: a layer with momentum thickness 1 in U = 1 + (7/20) sin x. *)
Theorem displacement_refuted : exists m U dU s H,
  m_kind m = ThwaitesLinear /\ m_nu m = Fin 1 /\ m_fit m = Some fit_white /\ s 0 = 1 /\
  m_sol m = Some (fun x => [Fin (s x)]) /\
  (forall x, velocity_at m U (dU x) x /\ 0 < U x /\ solves1_at m s x) /\
  q_delta_m m 0 = Ok (Fin 1) /\ q_shape_d m 0 = Ok (Fin H) /\ q_delta_d m 0 = Ok (Fin H) /\ H < 0.
Proof.
  set (U := fun x => 1 + 7/20 * sin x). set (dU := fun x => 7/20 * cos x).
  assert (PU : forall x, 0 < U x) by (intros x; unfold U; pose proof (SIN_bound x); lra).
  assert (V : forall s x, velocity_at (w_thwaites_of ThwaitesLinear U dU fit_white s) U (dU x) x).
  { intros s x. apply (w_velocity _ _ dU). unfold U, dU. auto_derive; [exact Logic.I|lra]. }
  destruct (linear_solution_exists (w_thwaites_of ThwaitesLinear U dU fit_white (fun _ => 0)) U dU 1 0 eq_refl)
    as (s & S0 & Hs).
  { intros x. split; [apply V|]. specialize (PU x). lra. }
  set (m := w_thwaites_of ThwaitesLinear U dU fit_white s).
  assert (Q : q_delta_m m 0 = Ok (Fin 1)).
  { unfold q_delta_m. cbn. rewrite S0, Rmult_1_r. unfold xsqrt. destruct (Rlt_dec 1 0); [lra|]. rewrite sqrt_1. reflexivity. }
  destruct (thwaites_consistent_lemma m 1 fit_white 0 1 1 ltac:(discriminate) eq_refl ltac:(lra) eq_refl Q ltac:(lra)) as (A1 & A2 & _).
  destruct (A2 (U 0) (dU 0) eq_refl eq_refl) as [E _].
  rewrite (proj2 (white_is _)) in E. destruct (A1 _ E) as [ED _].
  rewrite Rmult_1_l in ED.
  exists m, U, dU, s. eexists. do 3 (split; [reflexivity|]). split; [exact S0|]. split; [reflexivity|].
  split; [intros x; split; [apply V|]; split; [apply PU|exact (Hs x)]|].
  split; [exact Q|]. split; [exact E|]. split; [exact ED|].
  unfold dU. rewrite cos_0, Rmax_right by lra. unfold whiteH. lra.
Qed.
Print Assumptions displacement_refuted.

(** It is larger with the other three data fits, and with White's as long as its argument is 0.315 at most. *)
Theorem displacement_partial : forall m nu f cs x d U dU,
  m_kind m <> Head -> m_nu m = Fin nu -> 0 < nu -> m_fit m = Some f ->
  cubic_spline_ok cs -> q_delta_m m x = Ok (Fin d) -> 0 < d -> q_u_e m x = Ok U -> q_du_e m x = Ok dU ->
  f = fit_spline cs \/ f = fit_cb \/ f = fit_drela \/ (f = fit_white /\ d ^ 2 / nu * dU <= 315/1000) ->
  exists H D, q_shape_d m x = Ok (Fin H) /\ q_delta_d m x = Ok (Fin D) /\ 1 < H /\ d < D /\
    (f <> fit_drela \/ d ^ 2 / nu * dU <= 6/10 -> H < 4).
Proof. exact displacement_lemma. Qed.
Print Assumptions displacement_partial.

Example displacement_case : forall f, f = fit_spline table_splines \/ f = fit_cb \/ f = fit_drela \/ f = fit_white ->
  let m := w_thwaites_of ThwaitesLinear (fun x => 1 + 3/10 * x) (fun _ => 3/10) f (fun _ => 1) in
  cubic_spline_ok table_splines /\ q_delta_m m 2 = Ok (Fin 1) /\ q_u_e m 2 = Ok (1 + 3/10 * 2) /\ q_du_e m 2 = Ok (3/10) /\
  1 ^ 2 / 1 * (3/10) <= 315/1000.
Proof.
  intros f _ m. split; [exact table_splines_ok|]. split; [|split; [reflexivity|split; [reflexivity|lra]]].
  unfold q_delta_m. cbn. rewrite Rmult_1_r. unfold xsqrt. destruct (Rlt_dec 1 0); [lra|]. rewrite sqrt_1. reflexivity.
Qed.

(* ---------------------------------------------------------------- C135 *)
(** Head's method in uniform or decelerating flow: a shape factor above 1.11 stays above 1.11, and the layer
    grows. *)
Theorem head_shape_low : forall m nu g U dU d h a b,
  m_kind m = Head -> m_nu m = Fin nu -> 0 < nu -> slot_kind (m_u m) <> KInt -> a <= b -> 111/100 < h a -> 0 < d a ->
  (forall x, a <= x <= b -> velocity_at m U (dU x) x /\ solves2_at m d h x /\ 1/1000 <= U x /\ dU x <= 0) ->
  m_sol m = Some g -> (forall x, a <= x <= b -> g x = [Fin (d x); Fin (h x)]) ->
  (forall x dm, a <= x <= b -> q_delta_m m x = Ok (Fin dm) -> U x * dm / nu <= 10 ^ 12) ->
  (forall x, a <= x <= b -> q_shape_d m x = Ok (Fin (h x)) /\ q_delta_m m x = Ok (Fin (d x)) /\
     q_delta_d m x = Ok (Fin (d x * h x)) /\ 111/100 < h x /\ 0 < d x) /\
  forall x y, a <= x -> x < y -> y <= b -> d x < d y.
Proof. exact head_shape_lemma. Qed.
Print Assumptions head_shape_low.

(** In uniform flow it stays between 1.11 and 2. *)
Theorem head_shape_uniform : forall m nu U dU d h a b,
  m_kind m = Head -> m_nu m = Fin nu -> 0 < nu -> slot_kind (m_u m) <> KInt -> a <= b -> 111/100 < h a < 2 ->
  (forall x, a <= x <= b -> velocity_at m U (dU x) x /\ solves2_at m d h x /\
     1/1000 <= U x /\ dU x = 0 /\ 1 <= U x * d x / nu <= 10 ^ 12) ->
  111/100 < h b < 2.
Proof. exact head_uniform_lemma. Qed.
Print Assumptions head_shape_uniform.

(** A flat plate, started with the momentum thickness 3 and the shape factor 1.3. *)
Example head_shape_case : exists c d h,
  let m := set_sol w_head (Some (fun x => [Fin (d x); Fin (h x)])) in
  0 < c /\ d 0 = 3 /\ h 0 = 13/10 /\ m_kind m = Head /\ m_nu m = Fin 1 /\ slot_kind (m_u m) = KFloat /\
  forall x, 0 <= x <= c -> velocity_at m (fun _ => 1) 0 x /\ solves2_at m d h x /\ 1 <= 1 * d x / 1 <= 10 ^ 12.
Proof.
  assert (V : forall x, 0 <= x <= 1 -> velocity_at w_head (fun _ => 1) 0 x /\ continuous (fun _ : R => 0) x /\ 1/1000 <= 1).
  { intros x _. split; [|split; [apply continuous_const|lra]].
    split; [exists (mkposreal 1 Rlt_0_1); intros; reflexivity|]. split; [apply (@is_derive_const R_AbsRing)|reflexivity]. }
  destruct (head_exists_lemma w_head 1 (fun _ => 1) (fun _ => 0) 0 1 3 (13/10) eq_refl eq_refl ltac:(lra) ltac:(discriminate)
    ltac:(lra) V ltac:(lra) ltac:(lra)) as (c & d & h & Hc & D0 & H0 & S).
  assert (C : continuous d 0).
  { destruct (S 0 ltac:(lra)) as [[v [w [_ [Dd _]]]] _]. apply (ex_derive_continuous d). exists v. exact Dd. }
  destruct (C (ball (d 0) 1) (locally_ball _ (mkposreal 1 Rlt_0_1))) as [e He].
  exists (Rmin c (e / 2)), d, h. cbv zeta.
  assert (Pe := cond_pos e). assert (M1 := Rmin_l c (e / 2)). assert (M2 := Rmin_r c (e / 2)).
  split; [apply Rmin_glb_lt; lra|]. split; [exact D0|]. split; [exact H0|]. do 3 (split; [reflexivity|]).
  intros x Hx. split; [apply (V x); lra|]. destruct (S x ltac:(lra)) as (S1 & S2 & _). split; [exact S1|].
  assert (B : ball (d 0) 1 (d x)).
  { apply He. unfold ball. cbn. unfold AbsRing_ball, abs, minus, plus, opp. cbn. rewrite Ropp_0, Rplus_0_r, Rabs_pos_eq; lra. }
  unfold ball in B. cbn in B. unfold AbsRing_ball, abs, minus, plus, opp in B. cbn in B. apply Rabs_def2 in B. split; lra.
Qed.
