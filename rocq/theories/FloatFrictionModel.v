(** Felsch's and White's skin friction in binary64 (C172), one station at a time. The operations are those
    of [FloatModel]; [pw], [lg] and [ex] are the [**], [log10] and [exp] of numpy, about which
    [FloatHeadSpec.powers], [FloatFrictionSpec.logarithms] and [FloatFrictionSpec.exponentials] are assumed. *)
From Coq Require Import ZArith.
From Flocq Require Import Core IEEE754.BinarySingleNaN.
From Verif Require Import FloatModel FloatXFoilModel FloatStanfordModel FloatHeadModel.
Open Scope b64_scope.

(** The literals of ibl/skin_friction.py:61-63 and 88-89, rounded. *)
Definition b_sep : b64 := @B754_finite 53 1024 false 6752317511863044 (-51) eq_refl. (* 2.9986313485 *)
Definition b_1_95 : b64 := @B754_finite 53 1024 false 8782019273372467 (-52) eq_refl. (* 1.95 *)
Definition b_0_058 : b64 := @B754_finite 53 1024 false 8358680908399641 (-57) eq_refl. (* 0.058 *)
Definition b_0_93 : b64 := @B754_finite 53 1024 false 8376695306909123 (-53) eq_refl. (* 0.93 *)
Definition b_1_705 : b64 := @B754_finite 53 1024 false 7678637364666696 (-52) eq_refl. (* 1.705 *)
Definition b_0_3 : b64 := @B754_finite 53 1024 false 5404319552844595 (-54) eq_refl. (* 0.3 *)
Definition b_m1_33 : b64 := @B754_finite 53 1024 true 5989787504402760 (-52) eq_refl. (* -1.33 *)
Definition b_1_74 : b64 := @B754_finite 53 1024 false 7836263351624663 (-52) eq_refl. (* 1.74 *)
Definition b_0_31 : b64 := @B754_finite 53 1024 false 5584463537939415 (-54) eq_refl. (* 0.31 *)

(** np.clip(x, lo, hi) (ibl/skin_friction.py:62): nan is kept. *)
Definition clip64 (x lo hi : b64) : b64 := if flt x lo then lo else if flt hi x then hi else x.

Section Library.
Variable pw : b64 -> b64 -> b64.
Variables lg ex : b64 -> b64.

(** [0.93 - term1], ibl/skin_friction.py:61-63. *)
Definition felsch_base64 (shape_d : b64) : b64 := b_0_93 - b_1_95 * lg (clip64 shape_d b_1 b_sep).
(** ibl/skin_friction.py:39-63 [felsch]; Python reads the last line as [(0.058*p)/q]. *)
Definition felsch64 (re_delta_m shape_d : b64) : b64 :=
  b_0_058 * pw (felsch_base64 shape_d) b_1_705 / pw re_delta_m b_0_268.
(** ibl/skin_friction.py:66-89 [white]. *)
Definition white64 (re_delta_m shape_d : b64) : b64 :=
  b_0_3 * ex (b_m1_33 * shape_d) / pw (lg re_delta_m) (b_1_74 + b_0_31 * shape_d).
End Library.
