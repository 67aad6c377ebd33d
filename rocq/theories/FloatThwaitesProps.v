(** C140-C142: Thwaites' method with the rounding of binary64 arithmetic. *)
From Coq Require Import Reals List Lra.
From Flocq Require Import Core IEEE754.BinarySingleNaN.
From Verif Require Import PyBase ThwaitesFitsModel InitialConditionModel CoreModel CoreRefute FloatModel FloatSpec FloatFacts
  FloatXFoilModel FloatXFoilProofs FloatThwaitesModel FloatThwaitesSpec FloatThwaitesProofs FloatFitsProofs.
Import ListNotations.
Open Scope R_scope.

(* ---------------------------------------------------------------- C140 *)
(** C140: the starting momentum thickness at a stagnation point. *)
Theorem float_stagnation_thickness : forall nu du, moderate nu -> moderate du ->
  exists d, ic_delta_m {| ic_du := Fin (real_of du); ic_nu := Fin (real_of nu); ic_body_of := FSStag |} = Ok (Fin d) /\
            units (fs_delta_m64 nu du) d 6.
Proof. exact fs_delta_m64_ok. Qed.
Print Assumptions float_stagnation_thickness.

(** C140: the value the integration starts from there. *)
Theorem float_stagnation_start : forall sq nu du, squares sq -> moderate nu -> moderate du ->
  exists d, ic_delta_m {| ic_du := Fin (real_of du); ic_nu := Fin (real_of nu); ic_body_of := FSStag |} = Ok (Fin d) /\
            units (start64 sq (fs_delta_m64 nu du) nu) (d ^ 2 / real_of nu) 14.
Proof. exact fs_start64_ok. Qed.
Print Assumptions float_stagnation_start.

(** C140: the thickness reported for a value of the solution. *)
Theorem float_delta_m : forall s nu, moderate s -> moderate nu ->
  units (delta_m64 s nu) (sqrt (real_of s * real_of nu)) 2.
Proof. exact delta_m64_ok. Qed.
Print Assumptions float_delta_m.

(** C140: the thickness set by the user comes back at the start. *)
Theorem float_start_round_trip : forall sq d nu, squares sq -> moderate d -> moderate nu ->
  units (delta_m64 (start64 sq d nu) nu) (real_of d) 4.
Proof. exact round_trip64. Qed.
Print Assumptions float_start_round_trip.

(** C140: the wall shear stress for given shear parameter and thickness. *)
Theorem float_tau_w : forall rho nu u s d, moderate rho -> moderate nu -> moderate u -> moderate s ->
  is_number d -> / 2 ^ 50 <= real_of d <= 2 ^ 50 ->
  units (tau_w64 rho nu u s d) (real_of rho * real_of nu * real_of u * real_of s / real_of d) 5.
Proof. exact tau_w64_ok. Qed.
Print Assumptions float_tau_w.

Example moderate_case : moderate b_1e_3 /\ squares (fun x => x * x)%b64 /\ / 2 ^ 50 <= real_of b_1 <= 2 ^ 50.
Proof. split; [exact moderate_example|]. split; [exact squares_example|]. destruct one_val as [_ E]. rewrite E. lra. Qed.

(* ---------------------------------------------------------------- C141 *)
(** C141: the right-hand side of the linear method. *)
Theorem float_linear_rhs : forall m x s u du, m_kind m = ThwaitesLinear ->
  q_u_e m x = Ok (real_of u) -> q_du_e m x = Ok (real_of du) ->
  is_number s -> is_number u -> is_number du ->
  Rabs (real_of s) <= 2 ^ 200 -> Rabs (real_of du) <= 2 ^ 200 -> 0 <= real_of u <= 2 ^ 200 ->
  exists r, ode_impl m x [Fin (real_of s)] = Ok [Fin r] /\
    within (linear_rhs64 s u du) r (7 / 2 ^ 53 * ((45/100 + 6 * Rabs (real_of s * real_of du)) / (1/1000 + real_of u))).
Proof. exact linear_rhs64_ok. Qed.
Print Assumptions float_linear_rhs.

Example linear_rhs_case : m_kind w_thwaites = ThwaitesLinear /\
  q_u_e w_thwaites 0 = Ok (real_of b_1) /\ q_du_e w_thwaites 0 = Ok (real_of b_0) /\
  Rabs (real_of b_1) <= 2 ^ 200 /\ Rabs (real_of b_0) <= 2 ^ 200 /\ 0 <= real_of b_1 <= 2 ^ 200.
Proof.
  destruct one_val as [_ E1]. destruct zero_val as [_ E0]. rewrite E1, E0.
  assert (1 <= 2 ^ 200) by apply two_ge_1. generalize dependent (2 ^ 200). intros B HB.
  rewrite Rabs_R1, Rabs_R0. repeat split; lra.
Qed.

(* ---------------------------------------------------------------- C142 *)
(** C142: White's shape factor. *)
Theorem float_white_shape : forall lam, is_number lam -> real_of lam <= 25/100 ->
  exists h, shape fit_white (Fin (real_of lam)) = Fin h /\ within (shape_white64 lam) h (/ 10 ^ 13).
Proof. exact shape_white64_ok. Qed.
Print Assumptions float_white_shape.

(** C142: its derivative. *)
Theorem float_white_shape_p : forall lam, is_number lam -> real_of lam <= 25/100 ->
  exists h, shape_p fit_white (Fin (real_of lam)) = Fin h /\
    within (white_shape_p64 (clamp64 b_m0_09 None lam)) h (/ 10 ^ 12).
Proof. exact shape_p_white64_ok. Qed.
Print Assumptions float_white_shape_p.

(** C142: the number White's shear fit raises to the power 0.62 is never negative, and it is zero, not
    a rounding error, at and below the lower end of the range. *)
Theorem float_white_shear_base : forall lam, is_number lam -> real_of lam <= 1 ->
  is_number (white_base64 (clamp64 b_m0_09 None lam)) /\ 0 <= real_of (white_base64 (clamp64 b_m0_09 None lam)) /\
  (real_of lam <= real_of b_m0_09 -> real_of (white_base64 (clamp64 b_m0_09 None lam)) = 0).
Proof. exact white_base64_ok. Qed.
Print Assumptions float_white_shear_base.

(** C142: Cebeci and Bradshaw's shape factor and shear parameter, for every number. *)
Theorem float_cb_fit : forall lam, is_number lam ->
  exists h t, shape fit_cb (Fin (real_of lam)) = Fin h /\ shear fit_cb (Fin (real_of lam)) = Fin t /\
    within (shape_cb64 lam) h (/ 10 ^ 14) /\ within (shear_cb64 lam) t (/ 10 ^ 14).
Proof. exact fit_cb64_ok. Qed.
Print Assumptions float_cb_fit.

(** C142: the function the nonlinear method integrates, with that fit. *)
Theorem float_cb_f : forall lam, is_number lam -> Rabs (real_of lam) <= 10 ^ 6 ->
  exists f, fit_f fit_cb (Fin (real_of lam)) = Fin f /\
    within (f_cb64 lam) f (/ 10 ^ 13 * (1 + Rabs (real_of lam))).
Proof. exact f_cb64_ok. Qed.
Print Assumptions float_cb_f.

Example fits_case : is_number b_m0_1 /\ real_of b_m0_1 <= real_of b_m0_09 /\ real_of b_m0_1 <= 25/100 /\ Rabs (real_of b_m0_1) <= 10 ^ 6.
Proof.
  destruct v_m0_1 as [A B]. destruct v_m0_09 as [_ C]. split; [exact A|]. split; [lra|]. split; [lra|]. apply Rabs_le. lra.
Qed.
