(** C168: an accelerating flow given by points can be started at its stagnation point. *)
From Coq Require Import Reals List Lra Lia.
From Verif Require Import PyBase PyBaseFacts InitialConditionModel PchipModel CoreModel CoreSpec CoreRefute WorkflowSpec
  StartPointsSpec StartPointsProofs.
Import ListNotations.
Open Scope R_scope.

(** C168 fails: the interpolation can have gradient zero at the first point, and then solve raises
    ZeroDivisionError whatever the integrator, the end and the events. *)
Theorem stagnation_points_start_refuted : exists xs us, accelerates_from_rest xs us /\
  forall m nu du d2u, starts_at_stagnation m nu ->
  exists m', set_velocity pchip_scipy m (PTup [PArr (vec xs); PArr (vec us)]) du d2u = (m', Ok tt) /\
    forall solve_ivp x_end l, snd (solve solve_ivp m' (hd 0 xs) x_end l) = Err ZeroDivisionError.
Proof. exact no_start. Qed.
Print Assumptions stagnation_points_start_refuted.

(** Exactly when the parabola through the first three points is not rising at the first of them. *)
Theorem stagnation_points_start_partial : forall m nu v1 v2 x0 x1 x2 xs u0 u1 u2 us du d2u,
  np_asarray v1 = Ok (vec (x0 :: x1 :: x2 :: xs)) -> np_asarray v2 = Ok (vec (u0 :: u1 :: u2 :: us)) ->
  usable_points (x0 :: x1 :: x2 :: xs) (u0 :: u1 :: u2 :: us) -> u0 < u1 < u2 -> starts_at_stagnation m nu ->
  let g := parabola_slope x0 u0 x1 u1 x2 u2 in
  exists m', set_velocity pchip_scipy m (PTup [v1; v2]) du d2u = (m', Ok tt) /\
    (0 < g -> q_du_e m' x0 = Ok g /\ initial_state m' x0 (stagnation_state m nu g)) /\
    (g <= 0 -> q_du_e m' x0 = Ok 0 /\
       forall solve_ivp x_end l, snd (solve solve_ivp m' x0 x_end l) = Err ZeroDivisionError).
Proof. exact three_points. Qed.
Print Assumptions stagnation_points_start_partial.

(** Two points: always, with the slope of the line through them. *)
Theorem stagnation_two_points_start_partial : forall m nu v1 v2 x0 x1 u0 u1 du d2u,
  np_asarray v1 = Ok (vec [x0; x1]) -> np_asarray v2 = Ok (vec [u0; u1]) ->
  x0 < x1 -> u0 < u1 -> starts_at_stagnation m nu ->
  exists m', set_velocity pchip_scipy m (PTup [v1; v2]) du d2u = (m', Ok tt) /\
    initial_state m' x0 (stagnation_state m nu ((u1 - u0) / (x1 - x0))).
Proof. exact two_points. Qed.
Print Assumptions stagnation_two_points_start_partial.

(** A flow that starts (gradient 5/4 at the first point), and one that does not. *)
Example stagnation_points_case :
  starts_at_stagnation (set_initial_condition w_thwaites {| ic_du := Fin 9; ic_nu := Fin 9; ic_body_of := FSStag |}) 1 /\
  usable_points [0; 1; 2] [0; 1; 1 + 1/2] /\ 0 < 1 < 1 + 1/2 /\ parabola_slope 0 0 1 1 2 (1 + 1/2) = 5/4 /\
  parabola_slope 0 0 1 1 2 5 = -1/2.
Proof.
  split; [split; [reflexivity|split; [reflexivity|lra]]|]. split.
  - split; [reflexivity|]. split; [cbn; lia|].
    intros [|[|[|i]]] a b P Q; cbn in P, Q; try discriminate; injection P as <-; injection Q as <-; lra.
  - unfold parabola_slope. lra.
Qed.
