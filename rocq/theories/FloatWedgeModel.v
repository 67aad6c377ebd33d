(** Setting and reading the exponent of a Falkner-Skan solution, in binary64 arithmetic (C178). *)
From Coq Require Import ZArith.
From Flocq Require Import Core IEEE754.BinarySingleNaN.
From Verif Require Import PyBase FloatModel FloatXFoilModel FloatThwaitesModel FloatStanfordModel FloatHeadModel.
Open Scope b64_scope.

Definition b_beta_min : b64 := @B754_finite 53 1024 true 7163965999250795%positive (-55)%Z eq_refl. (* -0.19884 *)

(** ibl/analytic/_falkner_skan.py:91-94 [reset_beta]: the wedge parameter stored.  Solving for the profile
    (set_solution_parameters) does not change it. *)
Definition reset_beta64 (beta : b64) : res b64 :=
  if orb (flt beta b_beta_min) (flt b_2 beta) then Err ValueError else Ok beta.
(** ibl/analytic/_falkner_skan.py:124-129 [reset_m] for a Python float; the ints are converted to floats. *)
Definition reset_m64 (m : b64) : res b64 :=
  if feq m f_inf then reset_beta64 b_2
  else bind (py_div64 (b_2 * m) (b_1 + m)) reset_beta64.
(** ibl/analytic/_falkner_skan.py:57-63 [m]. *)
Definition wedge_m64 (beta : b64) : res b64 :=
  if feq beta b_2 then Ok f_inf else py_div64 beta (b_2 - beta).
