(** C169: the integration starts from finite positive values.  [initial_state m x0 y0] (CoreSpec): a
    solve from x0 hands y0 to the integrator (C10); Thwaites: delta_m^2/nu, Head: delta_m, shape_d. *)
From Coq Require Import Reals List String Lra.
From Verif Require Import PyBase PyBaseFacts InitialConditionModel PPolyModel CoreModel CoreSpec CoreRefute StartValuesSpec StartValuesProofs.
Import ListNotations.
Open Scope R_scope.

(** C169 fails: an object that was not given initial values starts from inf, or inf and nan, ... *)
Theorem start_values_refuted : forall pchip cubic_spline, exists m1 m2,
  created pchip cubic_spline m1 /\ m_kind m1 = ThwaitesLinear /\ initial_state m1 0 [PInf] /\
  created pchip cubic_spline m2 /\ m_kind m2 = Head /\ initial_state m2 0 [PInf; NaN].
Proof.
  intros pchip cs. destruct (no_values pchip cs) as (A & B & C & D). exists w_thwaites, w_head.
  split; [exact A|]. split; [reflexivity|]. split; [exact C|]. split; [exact B|]. split; [reflexivity|exact D].
Qed.
Print Assumptions start_values_refuted.

(** ... and nan is accepted as an initial value. *)
Theorem start_values_nan_refuted : forall pchip cubic_spline solve_ivp, exists m m',
  created pchip cubic_spline m /\ step pchip cubic_spline solve_ivp m (OpInitialDeltaM NaN) = (m', Ok None) /\
  initial_state m' 0 [NaN].
Proof.
  intros pchip cs ivp. destruct (nan_value pchip cs ivp) as (m & A & B). exists w_thwaites, m.
  split; [apply w_thwaites_created|]. split; assumption.
Qed.
Print Assumptions start_values_nan_refuted.

(** True of every history of calls with finite values that gives the initial values: wherever the
    velocity gradient is known (and, with the stagnation condition, positive) there is a start, and
    it consists of positive numbers. *)
Theorem start_values_partial : forall pchip cubic_spline solve_ivp m0 h x0 du,
  created pchip cubic_spline m0 -> is_finite (m_nu m0) ->
  List.Forall (careful (m_kind m0)) h -> start_given (m_kind m0) h ->
  let m := run pchip cubic_spline solve_ivp m0 h in
  q_du_e m x0 = Ok du -> (ic_body_of (m_ic m) = FSStag -> 0 < du) ->
  exists y0, initial_state m x0 y0 /\ y0 <> [] /\ List.Forall positive_number y0.
Proof. exact start_values_lemma. Qed.
Print Assumptions start_values_partial.

(** A history with a rejected call, a solve and a change of mind; Head's method. *)
Example start_values_case : forall pchip cubic_spline,
  let h := [OpInitialShapeD (Fin 2); OpInitialDeltaM (Fin (-1)); OpInitialDeltaM (Fin (1/100)); OpSolve 0 1 [];
            OpInitialShapeD (Fin (3/2)); OpNu (Fin 2); OpInitialDeltaM (Fin (1/10))] in
  created pchip cubic_spline w_head /\ is_finite (m_nu w_head) /\ List.Forall (careful (m_kind w_head)) h /\
  start_given (m_kind w_head) h.
Proof.
  intros pchip cs h. split; [apply w_head_created|]. split; [exists 1; reflexivity|]. split.
  - repeat constructor; cbn; eexists; reflexivity.
  - apply (given_by_thickness_and_shape [OpInitialShapeD (Fin 2); OpInitialDeltaM (Fin (-1))] (Fin (1/100)) [OpSolve 0 1 []]
      (Fin (3/2)) [OpNu (Fin 2); OpInitialDeltaM (Fin (1/10))]).
    + exists (1/100). split; [reflexivity|lra].
    + exists (3/2). split; [reflexivity|lra].
Qed.
