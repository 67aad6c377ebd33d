(** Properties C120 - C122: continuing a calculation, comparing two starts, growth.
    [velocity_at], [solves1_at], [solves2_at]: see OdeSpec; [initial_state]: CoreSpec;
    [cubic_spline_ok]: SplineSpec. *)
From Coq Require Import Reals List Lra.
From Coquelicot Require Import Coquelicot.
From Verif Require Import PyBase PyBaseFacts ThwaitesFitsModel SplineSpec SplineProofs InitialConditionModel CoreModel CoreSpec
  CoreProofs CoreRefute OdeSpec AccelerationProofs WellPosedProps AccelerationProps OrderProofs.
Import ListNotations.
Open Scope R_scope.

(* ---------------------------------------------------------------- C120 *)
(** After a calculation over [a, b], the momentum thickness reported at [c] is assigned as initial
    value and a new calculation is made over [c, b].  When both calculations are exact, and the
    second one starts in the initial state, it reports the same values as the first. *)
Theorem restart_thwaites : forall ivp m1 cs f nu U dU s1 s2 a c b l m2 m3 r dm g1 g3,
  m_kind m1 <> Head -> cubic_spline_ok cs -> m_fit m1 = Some f ->
  f = fit_spline cs \/ f = fit_white \/ f = fit_cb \/ f = fit_drela ->
  m_nu m1 = Fin nu -> 0 < nu -> a <= c <= b -> ic_body_of (m_ic m1) <> FSStag ->
  (forall x, a <= x <= b -> velocity_at m1 U (dU x) x /\ continuous dU x /\ 0 < U x + 1/1000) ->
  m_sol m1 = Some g1 -> (forall x, a <= x <= b -> g1 x = [Fin (s1 x)] /\ solves1_at m1 s1 x) -> 0 < s1 a ->
  q_delta_m m1 c = Ok dm -> set_initial_delta_m m1 dm = (m2, Ok tt) -> solve ivp m2 c b l = (m3, Ok r) ->
  m_sol m3 = Some g3 -> (forall x, c <= x <= b -> g3 x = [Fin (s2 x)] /\ solves1_at m3 s2 x) ->
  (forall y, initial_state m2 c y -> g3 c = y) ->
  forall x, c <= x <= b -> q_delta_m m3 x = q_delta_m m1 x /\ q_shape_d m3 x = q_shape_d m1 x /\
    (forall rho, q_tau_w_thwaites m3 x rho = q_tau_w_thwaites m1 x rho).
Proof. exact restart_thwaites_lemma. Qed.
Print Assumptions restart_thwaites.

(** Head's method: momentum thickness first, then shape factor; both solutions away from the shape
    factor 1.6, where the equation has no unique solution (C116). *)
Theorem restart_head : forall ivp m1 nu U dU d1 h1 d2 h2 a c b l m2 m3 m4 r dm hm g1 g4,
  m_kind m1 = Head -> m_nu m1 = Fin nu -> 0 < nu -> slot_kind (m_u m1) <> KInt -> a <= c <= b ->
  ic_body_of (m_ic m1) <> FSStag ->
  (forall x, a <= x <= b -> velocity_at m1 U (dU x) x /\ continuous dU x /\ 1/1000 <= U x) ->
  m_sol m1 = Some g1 -> 0 < d1 a ->
  (forall x, a <= x <= b -> g1 x = [Fin (d1 x); Fin (h1 x)] /\ solves2_at m1 d1 h1 x /\ h1 x <> 16/10) ->
  q_delta_m m1 c = Ok dm -> q_shape_d m1 c = Ok hm ->
  set_initial_delta_m m1 dm = (m2, Ok tt) -> set_initial_shape_d m2 hm = (m3, Ok tt) ->
  solve ivp m3 c b l = (m4, Ok r) -> m_sol m4 = Some g4 ->
  (forall x, c <= x <= b -> g4 x = [Fin (d2 x); Fin (h2 x)] /\ solves2_at m4 d2 h2 x /\ h2 x <> 16/10) ->
  (forall y, initial_state m3 c y -> g4 c = y) ->
  forall x, c <= x <= b -> q_delta_m m4 x = q_delta_m m1 x /\ q_shape_d m4 x = q_shape_d m1 x.
Proof. exact restart_head_lemma. Qed.
Print Assumptions restart_head.

(** Decelerating flow U = 2 - x over [0, 1] with the default, Cebeci-Bradshaw or Drela fit,
    restarted at 1/2. *)
Lemma slow_velocity k f s x : velocity_at (w_thwaites_of k (fun x => 2 - x) (fun _ => -1) f s) (fun x => 2 - x) (-1) x.
Proof. apply (w_velocity _ _ (fun _ => -1)). auto_derive; [exact I|lra]. Qed.
Lemma slow_solution f s0 : f = fit_spline table_splines \/ f = fit_cb \/ f = fit_drela -> 0 < s0 -> exists s, s 0 = s0 /\
  forall s' x, 0 <= x <= 1 -> solves1_at (w_thwaites_of ThwaitesNonlinear (fun x => 2 - x) (fun _ => -1) f s') s x /\ 0 < s x.
Proof.
  intros Ef P.
  destruct (nonlinear_solution_unique
    (w_thwaites_of ThwaitesNonlinear (fun x => 2 - x) (fun _ => -1) f (fun _ => 0)) f table_splines
    (fun x => 2 - x) (fun _ => -1) 0 1 s0 eq_refl eq_refl table_splines_ok Ef ltac:(lra)) as (s & S0 & Hs & _).
  { intros x Hx. split; [apply slow_velocity|]. split; [apply continuous_const|lra]. }
  { exact P. }
  exists s. split; [exact S0|]. intros s' x Hx. exact (Hs x Hx).
Qed.

Example restart_thwaites_case : forall f, f = fit_spline table_splines \/ f = fit_cb \/ f = fit_drela ->
  exists ivp m1 s g m2 m3 r dm,
  m_kind m1 = ThwaitesNonlinear /\ m_fit m1 = Some f /\ m_nu m1 = Fin 1 /\ ic_body_of (m_ic m1) <> FSStag /\
  m_sol m1 = Some g /\ 0 < s 0 /\
  (forall x, 0 <= x <= 1 -> velocity_at m1 (fun x => 2 - x) (-1) x /\ g x = [Fin (s x)] /\ solves1_at m1 s x) /\
  q_delta_m m1 (1/2) = Ok dm /\ set_initial_delta_m m1 dm = (m2, Ok tt) /\ solve ivp m2 (1/2) 1 [] = (m3, Ok r) /\
  m_sol m3 = Some g /\ (forall x, 1/2 <= x <= 1 -> solves1_at m3 s x) /\
  (forall y, initial_state m2 (1/2) y -> g (1/2) = y).
Proof.
  intros f Ef. destruct (slow_solution f 1 Ef ltac:(lra)) as (s & S0 & Hs).
  set (g := fun x => [Fin (s x)]).
  set (m1 := w_thwaites_of ThwaitesNonlinear (fun x => 2 - x) (fun _ => -1) f s).
  assert (P : 0 < s (1/2)) by (apply (Hs (fun _ => 0)); lra).
  assert (Q : q_delta_m m1 (1/2) = Ok (Fin (sqrt (s (1/2))))).
  { unfold q_delta_m. cbn. rewrite Rmult_1_r. unfold xsqrt. destruct (Rlt_dec (s (1/2)) 0); [lra|reflexivity]. }
  assert (Pd := sqrt_lt_R0 _ P).
  set (m2 := set_ic m1 (ic_assign_del_m (m_ic m1) (Fin (sqrt (s (1/2)))))).
  assert (I : forall y, initial_state m2 (1/2) y <-> y = g (1/2)).
  { assert (E : xdiv (xmul (Fin (sqrt (s (1/2)))) (Fin (sqrt (s (1/2))))) (m_nu m2) = Fin (s (1/2))).
    { cbn [m_nu m2 m1 w_thwaites_of set_ic]. rewrite xmul_fin, xdiv_fin by lra. f_equal. rewrite sqrt_sqrt by lra. field. }
    intros y. split.
    - intros H. inversion H as [du d K QD D Ey|du d h K QD D Hh Ey]; [|discriminate].
      cbn in D. injection D as <-. unfold g. rewrite <- E. reflexivity.
    - intros ->. unfold g. rewrite <- E. apply (initial_state_thwaites m2 (1/2) (-1)); [discriminate|reflexivity|reflexivity]. }
  destruct (follow_solve_pos g m2 (1/2) 1 (g (1/2)) 1 eq_refl ltac:(lra) (proj2 (I _) eq_refl)) as (c & r & E & _).
  exists (ivp_follow g), m1, s, g, m2. eexists. exists r, (Fin (sqrt (s (1/2)))).
  split; [reflexivity|]. split; [reflexivity|]. split; [reflexivity|]. split; [discriminate|]. split; [reflexivity|].
  split; [lra|]. split.
  { intros x Hx. split; [apply slow_velocity|]. split; [reflexivity|]. apply Hs, Hx. }
  split; [exact Q|]. split.
  { unfold set_initial_delta_m. cbn [xleb]. rewrite Rleb_false by lra. reflexivity. }
  split; [exact E|]. split; [reflexivity|]. split.
  { intros x Hx. apply (Hs s x). lra. }
  intros y Hy. symmetry. apply I, Hy.
Qed.

(** A flat plate with Head's method, started with the shape factor 2 and restarted half way. *)
Lemma plate_solution : exists c d h, 0 < c <= 1 /\ d 0 = 1 /\ h 0 = 2 /\
  forall x, 0 <= x <= c -> solves2_at w_head d h x /\ 1/2 < d x /\ 16/10 < h x.
Proof.
  destruct (head_solution_partial w_head 1 (fun _ => 1) (fun _ => 0) 0 1 1 2 eq_refl eq_refl ltac:(lra) ltac:(discriminate)
    ltac:(lra) (fun x _ => w_head_velocity x) ltac:(lra) ltac:(lra)) as (c & d & h & Hc & D0 & H0 & S).
  assert (C : continuous h 0).
  { destruct (S 0 ltac:(lra)) as [[v [w [_ [_ D]]]] _]. apply (ex_derive_continuous h). eexists; exact D. }
  assert (N : locally 0 (fun x => 16/10 < h x)) by (apply (C (fun u => 16/10 < u)), open_gt; rewrite H0; lra).
  destruct N as [e He]. assert (Pe := cond_pos e). assert (X1 := Rmin_l (e / 2) c). assert (X2 := Rmin_r (e / 2) c).
  exists (Rmin (e / 2) c), d, h. split; [split; [apply Rmin_glb_lt; lra|lra]|]. split; [exact D0|]. split; [exact H0|].
  intros x Hx. destruct (S x ltac:(lra)) as (S1 & S2 & _). split; [exact S1|]. split; [lra|].
  apply He. unfold ball. cbn. unfold AbsRing_ball. cbn. unfold abs, minus, plus, opp. cbn.
  rewrite Ropp_0, Rplus_0_r, Rabs_right by lra. lra.
Qed.

Example restart_head_case : exists ivp m1 m2 m3 m4 g d h c r dm hm,
  0 < c /\ m_kind m1 = Head /\ m_nu m1 = Fin 1 /\ ic_body_of (m_ic m1) <> FSStag /\ m_sol m1 = Some g /\ 0 < d 0 /\
  (forall x, 0 <= x <= c -> velocity_at m1 (fun _ => 1) 0 x /\ g x = [Fin (d x); Fin (h x)] /\ solves2_at m1 d h x /\ h x <> 16/10) /\
  q_delta_m m1 (c / 2) = Ok dm /\ q_shape_d m1 (c / 2) = Ok hm /\ set_initial_delta_m m1 dm = (m2, Ok tt) /\
  set_initial_shape_d m2 hm = (m3, Ok tt) /\ solve ivp m3 (c / 2) c [] = (m4, Ok r) /\ m_sol m4 = Some g /\
  (forall x, c / 2 <= x <= c -> solves2_at m4 d h x) /\ (forall y, initial_state m3 (c / 2) y -> g (c / 2) = y).
Proof.
  destruct plate_solution as (c & d & h & Hc & D0 & H0 & S).
  set (g := fun x => [Fin (d x); Fin (h x)]). set (m1 := set_sol w_head (Some g)).
  destruct (S (c / 2) ltac:(lra)) as (_ & Pd & Ph).
  set (m2 := set_ic m1 (ic_assign_del_m (m_ic m1) (Fin (d (c / 2))))).
  set (m3 := set_ic m2 (ic_assign_del_d (m_ic m2) (xmul (Fin (h (c / 2))) (Fin (d (c / 2)))))).
  assert (Q : (xmul (Fin (h (c / 2))) (Fin (d (c / 2)))) = Fin (h (c / 2) * d (c / 2))) by reflexivity.
  assert (Sh : ic_shape_d {| ic_du := Fin 0; ic_nu := m_nu m3; ic_body_of := ic_body_of (m_ic m3) |} = Ok (Fin (h (c / 2)))).
  { unfold ic_shape_d. cbn [ic_body_of m3 m2 m1 m_ic set_ic set_sol w_head new_manual ic_assign_del_m ic_assign_del_d].
    rewrite Q, py_div_fin by lra. do 2 f_equal. field. lra. }
  assert (I : forall y, initial_state m3 (c / 2) y <-> y = g (c / 2)).
  { intros y. split.
    - intros H. inversion H as [du dd K QD D Ey|du dd hh K QD D Hh Ey]; [exfalso; apply K; reflexivity|].
      cbn in QD. injection QD as <-. cbn in D. injection D as <-. rewrite Sh in Hh. injection Hh as <-. reflexivity.
    - intros ->. apply (initial_state_head m3 (c / 2) 0); [reflexivity|reflexivity|reflexivity|exact Sh]. }
  destruct (follow_solve_pos g m3 (c / 2) c (g (c / 2)) 1 eq_refl ltac:(lra) (proj2 (I _) eq_refl)) as (ci & r & E & _).
  exists (ivp_follow g), m1, m2, m3. eexists. exists g, d, h, c, r, (Fin (d (c / 2))), (Fin (h (c / 2))).
  split; [lra|]. split; [reflexivity|]. split; [reflexivity|]. split; [discriminate|]. split; [reflexivity|]. split; [lra|].
  split.
  { intros x Hx. destruct (S x Hx) as (S1 & _ & S2). split; [apply (w_head_velocity x)|]. split; [reflexivity|]. split; [exact S1|lra]. }
  split; [reflexivity|]. split; [reflexivity|]. split.
  { unfold set_initial_delta_m. cbn [xleb]. rewrite Rleb_false by lra. reflexivity. }
  split.
  { unfold set_initial_shape_d. cbn [xleb]. rewrite Rleb_false by lra. reflexivity. }
  split; [exact E|]. split; [reflexivity|]. split.
  { intros x Hx. apply (S x). lra. }
  intros y Hy. symmetry. apply I, Hy.
Qed.

(* ---------------------------------------------------------------- C121 *)
(** The same flow calculated twice with the same method: the calculation that starts with the
    thicker layer has the thicker layer everywhere (strictly so with the linear method). *)
Theorem thicker_start : forall m1 m2 cs f nu g1 g2 U dU s1 s2 a b,
  m_kind m1 <> Head -> m_kind m2 = m_kind m1 -> cubic_spline_ok cs ->
  m_fit m1 = Some f -> m_fit m2 = Some f ->
  f = fit_spline cs \/ f = fit_white \/ f = fit_cb \/ f = fit_drela ->
  m_nu m1 = Fin nu -> m_nu m2 = Fin nu -> 0 < nu -> a <= b ->
  (forall x, a <= x <= b -> velocity_at m1 U (dU x) x /\ velocity_at m2 U (dU x) x /\ continuous dU x /\ 0 < U x + 1/1000) ->
  (forall x, a <= x <= b -> solves1_at m1 s1 x /\ solves1_at m2 s2 x) ->
  m_sol m1 = Some g1 -> m_sol m2 = Some g2 ->
  (forall x, a <= x <= b -> g1 x = [Fin (s1 x)] /\ g2 x = [Fin (s2 x)]) ->
  0 < s1 a <= s2 a ->
  forall x, a <= x <= b -> exists d1 d2,
    q_delta_m m1 x = Ok (Fin d1) /\ q_delta_m m2 x = Ok (Fin d2) /\ d1 <= d2 /\
    (m_kind m1 = ThwaitesLinear -> s1 a < s2 a -> d1 < d2).
Proof. exact order_lemma. Qed.
Print Assumptions thicker_start.

Example thicker_start_case : forall f, f = fit_spline table_splines \/ f = fit_cb \/ f = fit_drela -> exists s1 s2,
  let m1 := w_thwaites_of ThwaitesNonlinear (fun x => 2 - x) (fun _ => -1) f s1 in
  let m2 := w_thwaites_of ThwaitesNonlinear (fun x => 2 - x) (fun _ => -1) f s2 in
  s1 0 = 1 /\ s2 0 = 2 /\
  forall x, 0 <= x <= 1 -> velocity_at m1 (fun x => 2 - x) (-1) x /\ velocity_at m2 (fun x => 2 - x) (-1) x /\
    solves1_at m1 s1 x /\ solves1_at m2 s2 x.
Proof.
  intros f Ef. destruct (slow_solution f 1 Ef ltac:(lra)) as (s1 & A1 & H1).
  destruct (slow_solution f 2 Ef ltac:(lra)) as (s2 & A2 & H2). exists s1, s2. cbv zeta.
  split; [exact A1|]. split; [exact A2|]. intros x Hx. split; [apply slow_velocity|]. split; [apply slow_velocity|].
  split; [apply H1, Hx|apply H2, Hx].
Qed.

(* ---------------------------------------------------------------- C122 *)
(** Thwaites' methods: the momentum thickness grows downstream where the gradient parameter is
    between -0.09 (separation) and 0.07, hence wherever the flow is uniform or decelerates, and
    shrinks where it is between 0.084 and 0.1; the linear method grows wherever it is at most 0.07
    and shrinks wherever it is at least 0.084. *)
Theorem growth_thwaites : forall m cs f nu g U dU s a b,
  m_kind m <> Head -> cubic_spline_ok cs -> m_fit m = Some f ->
  f = fit_spline cs \/ f = fit_white \/ f = fit_cb \/ f = fit_drela ->
  m_nu m = Fin nu -> 0 < nu -> 0 < s a ->
  (forall x, a <= x <= b -> velocity_at m U (dU x) x /\ continuous dU x /\ 0 < U x + 1/1000) ->
  (forall x, a <= x <= b -> solves1_at m s x) ->
  m_sol m = Some g -> (forall x, a <= x <= b -> g x = [Fin (s x)]) ->
  forall x y, a <= x -> x < y -> y <= b -> exists d1 d2,
    q_delta_m m x = Ok (Fin d1) /\ q_delta_m m y = Ok (Fin d2) /\ 0 < d1 /\ 0 < d2 /\
    ((forall t, x <= t <= y -> -9/100 <= s t * dU t <= 7/100) -> d1 < d2) /\
    ((forall t, x <= t <= y -> 84/1000 <= s t * dU t <= 1/10) -> d2 < d1) /\
    (m_kind m = ThwaitesLinear -> (forall t, x <= t <= y -> s t * dU t <= 7/100) -> d1 < d2) /\
    (m_kind m = ThwaitesLinear -> (forall t, x <= t <= y -> 84/1000 <= s t * dU t) -> d2 < d1).
Proof. exact thwaites_growth_lemma. Qed.
Print Assumptions growth_thwaites.

(** Head's method grows wherever the flow is uniform or decelerates. *)
Theorem growth_head : forall m nu g U dU d h a b,
  m_kind m = Head -> m_nu m = Fin nu -> 0 < nu -> slot_kind (m_u m) <> KInt -> 0 < d a ->
  (forall x, a <= x <= b -> velocity_at m U (dU x) x /\ 1/1000 <= U x) ->
  (forall x, a <= x <= b -> solves2_at m d h x /\ 111/100 <= h x) ->
  m_sol m = Some g -> (forall x, a <= x <= b -> g x = [Fin (d x); Fin (h x)]) ->
  forall x y, a <= x -> x < y -> y <= b -> (forall t, x <= t <= y -> dU t <= 0) ->
    q_delta_m m x = Ok (Fin (d x)) /\ q_delta_m m y = Ok (Fin (d y)) /\ d x < d y.
Proof. exact head_growth_lemma. Qed.
Print Assumptions growth_head.

Example growth_thwaites_case : forall f, f = fit_spline table_splines \/ f = fit_cb \/ f = fit_drela -> exists s c,
  let m := w_thwaites_of ThwaitesNonlinear (fun x => 2 - x) (fun _ => -1) f s in
  0 < c /\ s 0 = 1/100 /\ forall x, 0 <= x <= c -> velocity_at m (fun x => 2 - x) (-1) x /\ 0 < 2 - x + 1/1000 /\ solves1_at m s x /\
    -9/100 <= s x * -1 <= 7/100.
Proof.
  intros f Ef. destruct (slow_solution f (1/100) Ef ltac:(lra)) as (s & S0 & H).
  assert (C : continuous s 0).
  { destruct (H (fun _ => 0) 0 ltac:(lra)) as [[v [_ D]] _]. apply (ex_derive_continuous s). exists v. exact D. }
  assert (N : locally 0 (fun x => s x < 9/100)) by (apply (C (fun u => u < 9/100)), open_lt; rewrite S0; lra).
  destruct N as [e He]. exists s, (Rmin (e / 2) 1). cbv zeta. assert (Pe := cond_pos e).
  split; [apply Rmin_glb_lt; lra|]. split; [exact S0|].
  intros x Hx. assert (X1 := Rmin_l (e / 2) 1). assert (X2 := Rmin_r (e / 2) 1).
  destruct (H s x ltac:(lra)) as [Hx1 Hx2]. split; [apply slow_velocity|]. split; [lra|]. split; [exact Hx1|].
  assert (s x < 9/100); [|lra].
  apply He. unfold ball. cbn. unfold AbsRing_ball. cbn. unfold abs, minus, plus, opp. cbn.
  rewrite Ropp_0, Rplus_0_r, Rabs_right by lra. lra.
Qed.
Example growth_head_case : exists c d h, let m := set_sol w_head (Some (fun x => [Fin (d x); Fin (h x)])) in
  0 < c /\ 0 < d 0 /\ forall x, 0 <= x <= c -> velocity_at m (fun _ => 1) 0 x /\ solves2_at m d h x /\ 111/100 <= h x.
Proof.
  destruct plate_solution as (c & d & h & Hc & D0 & H0 & S). exists c, d, h. cbv zeta. split; [lra|]. split; [lra|].
  intros x Hx. destruct (S x Hx) as (S1 & _ & S2). split; [apply (w_head_velocity x)|]. split; [exact S1|lra].
Qed.
