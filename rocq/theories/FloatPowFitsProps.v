(** C174: White's shear fit, Drela's fit and the right-hand side of the nonlinear Thwaites method with the rounding of
    binary64 arithmetic.  [within], [is_number], [real_of]: see FloatThwaitesSpec and FloatSpec; [powers]: FloatHeadSpec;
    [raises], [keeps_zero], [accurate_rhs]: FloatPowFitsSpec. *)
From Coq Require Import Reals Lra List.
From Flocq Require Import Core IEEE754.BinarySingleNaN.
From Verif Require Import PyBase CoreModel FloatModel FloatSpec FloatXFoilModel FloatThwaitesModel FloatThwaitesSpec FloatThwaitesProofs FloatFitsProofs
  FloatHeadSpec FloatFacts FloatXFoilProofs FloatScaleProofs FloatPowFitsModel FloatPowFitsSpec FloatPowFitsProofs WellPosedProps.
From Verif Require Import ThwaitesFitsModel.
Open Scope R_scope.

(** C174: White's shear function, up to the parameter 0.25; away from separation it is accurate, at separation the
    infinite slope of the power amplifies the rounding of the sum to at most 2e-10. *)
Theorem float_white_shear : forall pw lam, powers pw -> keeps_zero pw -> is_number lam -> real_of lam <= 25/100 ->
  exists t, shear fit_white (Fin (real_of lam)) = Fin t /\ within (shear_white64 pw lam) t (2/10^10) /\
    (-8/100 <= real_of lam -> within (shear_white64 pw lam) t (1/10^14)).
Proof.
  intros pw lam PW KZ N L. destruct (shear_white64_ab pw lam PW KZ N L) as (t & E & _ & P & Q).
  exists t. split; [exact E|]. split; [apply ab_within, P|]. intros H. apply ab_within, Q, H.
Qed.
Print Assumptions float_white_shear.

(** C174: at or below the end of its range the computed shear is exactly zero: the separation event has its root there. *)
Theorem float_white_separation : forall pw lam, keeps_zero pw -> is_number lam -> real_of lam <= real_of b_m0_09 ->
  is_number (shear_white64 pw lam) /\ real_of (shear_white64 pw lam) = 0.
Proof. exact shear_white64_zero. Qed.
Print Assumptions float_white_separation.

(** C174: Drela's three functions, up to the parameter 0.25. *)
Theorem float_drela_fit : forall sq cube lam, raises sq 2 -> raises cube 3 -> is_number lam -> real_of lam <= 25/100 ->
  exists h t h', shape fit_drela (Fin (real_of lam)) = Fin h /\ shear fit_drela (Fin (real_of lam)) = Fin t /\
    shape_p fit_drela (Fin (real_of lam)) = Fin h' /\
    within (shape_drela64 sq cube lam) h (1/10^13) /\ within (shear_drela64 sq cube lam) t (1/10^13) /\
    within (shape_p_drela64 sq cube lam) h' (1/10^11).
Proof.
  intros sq cube lam SQ CU N L. destruct (fit_drela64_ab sq cube lam SQ CU N L) as (h & t & h' & Eh & Et & Eh' & _ & _ & Ph & Pt & Ph').
  exists h, t, h'. repeat (split; [first [assumption|apply ab_within; assumption]|]). apply ab_within, Ph'.
Qed.
Print Assumptions float_drela_fit.

(** C174: the right-hand side of the nonlinear method is the exact one, for a state that differs by rounding only. *)
Theorem float_nonlinear_rhs_white : forall m pw, m_kind m = ThwaitesNonlinear -> m_fit m = Some fit_white -> powers pw -> keeps_zero pw ->
  accurate_rhs m (f64 (shear_white64 pw) shape_white64) (1/10^9).
Proof. exact white_rhs_ok. Qed.
Print Assumptions float_nonlinear_rhs_white.

Theorem float_nonlinear_rhs_cb : forall m, m_kind m = ThwaitesNonlinear -> m_fit m = Some fit_cb -> accurate_rhs m f_cb64 (1/10^12).
Proof. exact cb_rhs_ok. Qed.
Print Assumptions float_nonlinear_rhs_cb.

Theorem float_nonlinear_rhs_drela : forall m sq cube, m_kind m = ThwaitesNonlinear -> m_fit m = Some fit_drela ->
  raises sq 2 -> raises cube 3 ->
  accurate_rhs m (f64 (shear_drela64 sq cube) (shape_drela64 sq cube)) (1/10^12).
Proof. exact drela_rhs_ok. Qed.
Print Assumptions float_nonlinear_rhs_drela.

(** There are such library functions. *)
Example pow_fits_library : (exists pw, powers pw /\ keeps_zero pw) /\ (exists sq, raises sq 2) /\ (exists cube, raises cube 3).
Proof.
  split; [exists power_example; split; [exact power_example_powers|exact power_example_zero]|].
  split; [exists (fun x => float_of (real_of x ^ 2)); apply raises_example; repeat constructor
         |exists (fun x => float_of (real_of x ^ 3)); apply raises_example; repeat constructor].
Qed.

(** An accelerating flow of speed 2 with the gradient and the state 0.22 meets the conditions in [accurate_rhs]. *)
Example pow_fits_case :
  let m := w_thwaites_of ThwaitesNonlinear (fun _ => real_of b_2) (fun _ => real_of b_0_22) fit_white (fun _ => 0) in
  m_kind m = ThwaitesNonlinear /\ m_fit m = Some fit_white /\
  q_u_e m 0 = Ok (real_of b_2) /\ q_du_e m 0 = Ok (real_of b_0_22) /\
  is_number b_0_22 /\ is_number b_2 /\ 0 <= real_of b_2 <= 2 ^ 200 /\
  -1 <= real_of b_0_22 * real_of b_0_22 <= 24/100 /\ / 2 ^ 800 <= Rabs (real_of b_0_22 * real_of b_0_22).
Proof.
  destruct FloatFitsProofs.v_0_22 as [A B]. destruct two_val as [C D].
  assert (P : 4/100 <= real_of b_0_22 * real_of b_0_22 <= 5/100).
  { assert (Q : 21/100 <= real_of b_0_22 <= 221/1000) by lra. clear B D. set (r := real_of b_0_22) in *. clearbody r. split; nra. }
  repeat (split; [first [reflexivity|assumption]|]). rewrite D. split; [|split].
  - split; [lra|]. apply Rle_trans with (2 ^ 1); [clear; lra|]. apply Rle_pow; [clear; lra|]. apply Nat.leb_le. reflexivity.
  - lra.
  - rewrite Rabs_pos_eq by lra. apply Rle_trans with (/ 2 ^ 5); [|lra].
    apply Rinv_le_contravar; [apply two_pow|]. apply Rle_pow; [clear; lra|]. apply Nat.leb_le. reflexivity.
Qed.
