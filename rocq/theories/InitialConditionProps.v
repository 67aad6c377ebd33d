(** Properties C45, C46: initial conditions. *)
From Coq Require Import Reals List Lra.
From Verif Require Import PyBase PyBaseFacts InitialConditionModel InitialConditionProofs.
Import ListNotations.
Open Scope R_scope.

(** C45: FalknerSkanStagCondition(du_e, nu). *)
Theorem stagnation_condition : forall nu du, 0 < nu -> 0 < du ->
  exists c d, new_fs (Fin du) (Fin nu) = Ok c /\
  ic_delta_m c = Ok (Fin d) /\ 0 < d /\
  d * d * du / nu = (29235/100000) * (123259/100000) / (42162/10000) /\
  ic_shape_d c = Ok (Fin (22162/10000)) /\ ic_shape_k c = Ok (Fin (16257/10000)) /\
  ic_delta_d c = Ok (Fin (d * (22162/10000))) /\ ic_delta_k c = Ok (Fin (d * (16257/10000))).
Proof. exact stagnation_condition_lemma. Qed.
Print Assumptions stagnation_condition.

Theorem stagnation_zero_gradient : forall nu, 0 < nu ->
  exists c, new_fs (Fin 0) (Fin nu) = Ok c /\ ic_delta_m c = Err ZeroDivisionError /\
    ic_delta_d c = Err ZeroDivisionError /\ ic_delta_k c = Err ZeroDivisionError.
Proof. exact stagnation_zero_lemma. Qed.
Print Assumptions stagnation_zero_gradient.

Theorem stagnation_negative_gradient : forall nu du, 0 < nu -> du < 0 ->
  exists c, new_fs (Fin du) (Fin nu) = Ok c /\ ic_delta_m c = Ok NaN /\
    ic_delta_d c = Ok NaN /\ ic_delta_k c = Ok NaN.
Proof. exact stagnation_negative_lemma. Qed.
Print Assumptions stagnation_negative_gradient.

Example stagnation_case : exists nu du : R, 0 < nu /\ 0 < du /\ - du < 0.
Proof. exists (1/100000), 3. lra. Qed.

(** C46: after any assignments of du_e and nu a manual condition reports what was set. *)
Theorem manual_condition : forall d m k h,
  let c := fold_left ic_step h (new_manual d m k) in
  ic_delta_d c = Ok d /\ ic_delta_m c = Ok m /\ ic_delta_k c = Ok k /\
  ic_shape_d c = py_div d m /\ ic_shape_k c = py_div k m.
Proof. exact manual_condition_lemma. Qed.
Print Assumptions manual_condition.

Theorem manual_condition_ratios : forall d m k, m <> 0 ->
  let c := new_manual (Fin d) (Fin m) (Fin k) in
  ic_shape_d c = Ok (Fin (d / m)) /\ ic_shape_k c = Ok (Fin (k / m)).
Proof. exact manual_ratios_lemma. Qed.
Print Assumptions manual_condition_ratios.

(** The viscosity of a condition never becomes nonpositive (constructor and setter). *)
Theorem condition_viscosity : forall c h,
  (forall du nu, xleb nu (Fin 0) = true -> new_fs du nu = Err ValueError) /\
  (xleb (ic_nu c) (Fin 0) = false -> xleb (ic_nu (fold_left ic_step h c)) (Fin 0) = false).
Proof. intros c h. exact (conj constructor_rejects_lemma (condition_nu_lemma c h)). Qed.
Print Assumptions condition_viscosity.

Example manual_condition_case :
  fold_left ic_step [ICnu (Fin 2); ICdu (Fin 3); ICnu (Fin 7)] (new_manual (Fin 2) (Fin 1) (Fin 3))
  = {| ic_du := Fin 3; ic_nu := Fin 7; ic_body_of := Manual (Fin 2) (Fin 1) (Fin 3) |}.
Proof.
  cbn [fold_left ic_step ic_set_nu xleb]. unfold ic_set_nu. cbn [xleb].
  rewrite !Rleb_false by lra. reflexivity.
Qed.
