(** C175: what Thwaites' method reports, with the rounding of binary64 arithmetic.
    [accurate_reports]: see FloatReportsSpec; [moderate], [units], [within]: FloatThwaitesSpec; [powers]: FloatHeadSpec;
    [raises], [keeps_zero]: FloatPowFitsSpec. *)
From Coq Require Import Reals Lra List.
From Flocq Require Import Core IEEE754.BinarySingleNaN.
From Verif Require Import PyBase CoreModel FloatModel FloatSpec FloatXFoilModel FloatThwaitesModel FloatThwaitesSpec FloatThwaitesProofs FloatFitsProofs
  FloatHeadSpec FloatFacts FloatXFoilProofs FloatPowFitsModel FloatPowFitsSpec FloatReportsModel FloatReportsSpec FloatReportsProofs WellPosedProps.
From Verif Require Import ThwaitesFitsModel.
Open Scope R_scope.

(** C175: with White's fit. *)
Theorem float_reports_white : forall m pw, m_kind m <> Head -> m_fit m = Some fit_white -> powers pw -> keeps_zero pw ->
  accurate_reports m (shear_white64 pw) shape_white64 (3/10^10) (1/10^13).
Proof. exact white_reports. Qed.
Print Assumptions float_reports_white.

(** C175: with Cebeci and Bradshaw's, which needs no library function. *)
Theorem float_reports_cb : forall m, m_kind m <> Head -> m_fit m = Some fit_cb ->
  accurate_reports m shear_cb64 shape_cb64 (2/10^14) (1/10^14).
Proof. exact cb_reports. Qed.
Print Assumptions float_reports_cb.

(** C175: with Drela's. *)
Theorem float_reports_drela : forall m sq cube, m_kind m <> Head -> m_fit m = Some fit_drela -> raises sq 2 -> raises cube 3 ->
  accurate_reports m (shear_drela64 sq cube) (shape_drela64 sq cube) (2/10^13) (1/10^13).
Proof. exact drela_reports. Qed.
Print Assumptions float_reports_drela.

(** An accelerating flow of speed 2 with viscosity 1, gradient and value of the solution 0.22 meets the conditions in
    [accurate_reports]. *)
Example reports_case :
  let m := w_thwaites_of ThwaitesLinear (fun _ => real_of b_2) (fun _ => real_of b_0_22) fit_cb (fun _ => real_of b_0_22) in
  m_kind m <> Head /\ m_fit m = Some fit_cb /\ m_nu m = Fin (real_of b_1) /\
  q_u_e m 0 = Ok (real_of b_2) /\ q_du_e m 0 = Ok (real_of b_0_22) /\
  moderate b_0_22 /\ moderate b_1 /\ moderate b_2 /\ is_number b_0_22 /\
  -1 <= real_of b_0_22 * real_of b_0_22 <= 24/100 /\ / 2 ^ 800 <= Rabs (real_of b_0_22 * real_of b_0_22).
Proof.
  destruct FloatFitsProofs.v_0_22 as [A B]. destruct two_val as [C D]. destruct one_val as [E F].
  assert (Q : 21/100 <= real_of b_0_22 <= 221/1000) by lra. clear B.
  assert (P : 4/100 <= real_of b_0_22 * real_of b_0_22 <= 5/100) by (set (r := real_of b_0_22) in *; clearbody r; split; nra).
  assert (K : forall z, / 2 ^ 5 <= z <= 2 ^ 5 -> / 2 ^ 200 <= z <= 2 ^ 200).
  { intros z Z. apply (btw_weaken 5 200); [|exact Z]. apply Nat.leb_le. reflexivity. }
  split; [discriminate|]. split; [reflexivity|]. split; [rewrite F; reflexivity|]. split; [reflexivity|]. split; [reflexivity|].
  split; [split; [exact A|apply K; lra]|]. split; [split; [exact E|apply K; lra]|]. split; [split; [exact C|apply K; lra]|].
  split; [exact A|]. split; [lra|].
  rewrite Rabs_pos_eq by lra. apply Rle_trans with (/ 2 ^ 5); [|lra].
  apply Rinv_le_contravar; [apply two_pow|]. apply Rle_pow; [clear; lra|]. apply Nat.leb_le. reflexivity.
Qed.
