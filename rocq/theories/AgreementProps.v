(** Property C117: Thwaites' linear and nonlinear methods agree.
    [velocity_at], [solves1_at]: see OdeSpec; [cubic_spline_ok]: SplineSpec. *)
From Coq Require Import Reals List Lra.
From Coquelicot Require Import Coquelicot.
From Verif Require Import PyBase ThwaitesFitsModel SplineSpec SplineProofs CoreModel OdeSpec ThwaitesOdeProofs WellPosedProps
  AgreementProofs.
Import ListNotations.
Open Scope R_scope.

(* ---------------------------------------------------------------- C117 *)
(** The default fit, as long as the gradient parameter of the nonlinear solution stays in its table. *)
Theorem linear_nonlinear_agree : forall m1 m2 cs nu g1 g2 U dU s1 s2 a b,
  m_kind m1 = ThwaitesLinear -> m_kind m2 = ThwaitesNonlinear ->
  cubic_spline_ok cs -> m_fit m2 = Some (fit_spline cs) ->
  m_nu m1 = Fin nu -> m_nu m2 = Fin nu -> 0 < nu -> a <= b ->
  (forall x, a <= x <= b ->
     velocity_at m1 U (dU x) x /\ velocity_at m2 U (dU x) x /\ 0 < U x + 1/1000) ->
  (forall x, a <= x <= b -> solves1_at m1 s1 x /\ solves1_at m2 s2 x) ->
  s1 a = s2 a -> 0 <= s1 a ->
  (forall x, a <= x <= b -> -9/100 <= s2 x * dU x <= 25/100) ->
  m_sol m1 = Some g1 -> m_sol m2 = Some g2 ->
  (forall x, a <= x <= b -> g1 x = [Fin (s1 x)] /\ g2 x = [Fin (s2 x)]) ->
  forall x, a <= x <= b -> exists d1 d2,
    q_delta_m m1 x = Ok (Fin d1) /\ q_delta_m m2 x = Ok (Fin d2) /\
    986/1000 * d1 <= d2 <= 1057/1000 * d1.
Proof. exact agree_default_lemma. Qed.
Print Assumptions linear_nonlinear_agree.

(** The other three fits, as long as it stays between -0.09 and 0.1. *)
Theorem linear_nonlinear_agree_fits : forall m1 m2 f nu g1 g2 U dU s1 s2 a b,
  m_kind m1 = ThwaitesLinear -> m_kind m2 = ThwaitesNonlinear ->
  m_fit m2 = Some f -> f = fit_white \/ f = fit_cb \/ f = fit_drela ->
  m_nu m1 = Fin nu -> m_nu m2 = Fin nu -> 0 < nu -> a <= b ->
  (forall x, a <= x <= b ->
     velocity_at m1 U (dU x) x /\ velocity_at m2 U (dU x) x /\ 0 < U x + 1/1000) ->
  (forall x, a <= x <= b -> solves1_at m1 s1 x /\ solves1_at m2 s2 x) ->
  s1 a = s2 a -> 0 <= s1 a ->
  (forall x, a <= x <= b -> -9/100 <= s2 x * dU x <= 1/10) ->
  m_sol m1 = Some g1 -> m_sol m2 = Some g2 ->
  (forall x, a <= x <= b -> g1 x = [Fin (s1 x)] /\ g2 x = [Fin (s2 x)]) ->
  forall x, a <= x <= b -> exists d1 d2,
    q_delta_m m1 x = Ok (Fin d1) /\ q_delta_m m2 x = Ok (Fin d2) /\
    986/1000 * d1 <= d2 <= 104/100 * d1.
Proof. exact agree_others_lemma. Qed.
Print Assumptions linear_nonlinear_agree_fits.

(** Decelerating flow U = 2 - x from s = 0.01, with the default, Cebeci-Bradshaw and Drela fits. *)
Definition agree_s1 (x : R) : R := (1/100 + 75/1000) * ((2 + 1/1000) / (2 - x + 1/1000)) ^ 6 - 75/1000.
Example agree_case : forall f,
  f = fit_spline table_splines \/ f = fit_cb \/ f = fit_drela -> exists s2 c,
  let m1 := w_thwaites_of ThwaitesLinear (fun x => 2 - x) (fun _ => -1) f agree_s1 in
  let m2 := w_thwaites_of ThwaitesNonlinear (fun x => 2 - x) (fun _ => -1) f s2 in
  0 < c /\ agree_s1 0 = s2 0 /\ 0 < s2 0 /\ forall x, 0 <= x <= c ->
    velocity_at m1 (fun x => 2 - x) (-1) x /\ velocity_at m2 (fun x => 2 - x) (-1) x /\ 0 < 2 - x + 1/1000 /\
    solves1_at m1 agree_s1 x /\ solves1_at m2 s2 x /\ -9/100 <= s2 x * -1 <= 1/10.
Proof.
  intros f Ef.
  assert (V : forall k s x, velocity_at (w_thwaites_of k (fun x => 2 - x) (fun _ => -1) f s) (fun x => 2 - x) (-1) x).
  { intros k s x. apply (w_velocity _ _ (fun _ => -1)). auto_derive; [exact I|lra]. }
  destruct (nonlinear_solution_unique
    (w_thwaites_of ThwaitesNonlinear (fun x => 2 - x) (fun _ => -1) f (fun _ => 0)) f table_splines
    (fun x => 2 - x) (fun _ => -1) 0 1 (1/100) eq_refl eq_refl table_splines_ok Ef ltac:(lra))
    as (s2 & S0 & Hs & _).
  { intros x Hx. split; [apply V|]. split; [apply continuous_const|lra]. }
  { lra. }
  assert (C : continuous s2 0).
  { destruct (Hs 0 ltac:(lra)) as [[v [_ D]] _]. apply (ex_derive_continuous s2). exists v. exact D. }
  assert (N : locally 0 (fun x => s2 x < 9/100)) by (apply (C (fun u => u < 9/100)), open_lt; rewrite S0; lra).
  destruct N as [e He]. exists s2, (Rmin (e / 2) 1). cbv zeta.
  assert (Pe := cond_pos e).
  split; [apply Rmin_glb_lt; lra|]. split; [unfold agree_s1; rewrite S0; field|]. split; [rewrite S0; lra|].
  intros x Hx. assert (X1 := Rmin_l (e / 2) 1). assert (X2 := Rmin_r (e / 2) 1).
  split; [apply V|]. split; [apply V|]. split; [lra|]. split; [|split].
  - exists ((45/100 + 6 * agree_s1 x) / (2 - x + 1/1000)). split.
    + rewrite (rhs_linear (w_thwaites_of ThwaitesLinear (fun x => 2 - x) (fun _ => -1) f agree_s1) (2 - x) (-1) _ x eq_refl eq_refl eq_refl) by lra.
      do 3 f_equal. field. lra.
    + unfold agree_s1. auto_derive; [lra|]. field. lra.
  - exact (proj1 (Hs x ltac:(lra))).
  - assert (P := proj2 (Hs x ltac:(lra))). assert (s2 x < 9/100); [|lra].
    apply He. unfold ball. cbn. unfold AbsRing_ball. cbn. unfold abs, minus, plus, opp. cbn.
    rewrite Ropp_0, Rplus_0_r, Rabs_pos_eq; lra.
Qed.
