(** C178: the exponent of a Falkner-Skan solution read back after setting it, in binary64 arithmetic. *)
From Coq Require Import Reals ZArith Lra.
From Flocq Require Import Core IEEE754.BinarySingleNaN.
From Verif Require Import PyBase FloatModel FloatSpec FloatFacts FloatXFoilModel FloatThwaitesSpec FloatThwaitesProofs
  FloatStanfordModel FloatStanfordSpec FloatStanfordProofs FloatHeadModel FloatWedgeModel FloatWedgeProofs.
Open Scope R_scope.

(** C178: exponents from -0.09 to 200 are accepted and read back up to [6 + 4 |m|] units of 2^-53; the wedge parameter
    is accurate to four. *)
Theorem float_wedge_round_trip_partial : forall m, is_number m -> signed (real_of m) -> -9/100 <= real_of m <= 200 ->
  exists beta m', reset_m64 m = Ok beta /\ units beta (2 * real_of m / (1 + real_of m)) 4 /\
    wedge_m64 beta = Ok m' /\ units m' (real_of m) (6 + 4 * Rabs (real_of m)).
Proof. intros m N S H. apply wedge_ok; [exact N|apply zb_signed, S|exact H]. Qed.
Print Assumptions float_wedge_round_trip_partial.

(** C178: exponents from -0.9 to -0.0905 are refused, as they are exactly. *)
Theorem float_wedge_rejected_partial : forall m, is_number m -> -9/10 <= real_of m <= -905/10000 -> reset_m64 m = Err ValueError.
Proof. exact wedge_rejects. Qed.
Print Assumptions float_wedge_rejected_partial.

(** C178: an infinite exponent is read back as such. *)
Theorem float_wedge_infinite_partial : exists beta, reset_m64 f_inf = Ok beta /\ wedge_m64 beta = Ok f_inf.
Proof. exists b_2. split; vm_compute; reflexivity. Qed.
Print Assumptions float_wedge_infinite_partial.

(** C178: a large finite exponent is read back as infinity, a larger one is refused. *)
Definition ex_large : b64 := @B754_finite 53 1024 false 4503599627370496%positive 8%Z eq_refl.
Definition ex_larger : b64 := @B754_finite 53 1024 false 4503599627370496%positive 971%Z eq_refl.
Theorem float_wedge_round_trip_refuted :
  (is_number ex_large /\ real_of ex_large = 2 ^ 60 /\ exists beta, reset_m64 ex_large = Ok beta /\ wedge_m64 beta = Ok f_inf) /\
  (is_number ex_larger /\ reset_m64 ex_larger = Err ValueError).
Proof.
  split; [split; [reflexivity|split]|split; [reflexivity|]].
  - unfold ex_large, real_of, B2R, F2R. simpl. lra.
  - exists b_2. split; [|vm_compute; reflexivity].
    assert (Q : (b_2 * ex_large / (b_1 + ex_large))%b64 = b_2) by (apply B2SF_inj; vm_compute; reflexivity).
    assert (F1 : feq ex_large f_inf = false) by (vm_compute; reflexivity).
    assert (F2 : feq (b_1 + ex_large)%b64 b_0 = false) by (vm_compute; reflexivity).
    assert (F3 : reset_beta64 b_2 = Ok b_2) by (vm_compute; reflexivity).
    unfold reset_m64, py_div64. rewrite F1, F2. cbn [bind]. rewrite Q. exact F3.
  - assert (Q : (b_2 * ex_larger / (b_1 + ex_larger))%b64 = f_inf) by (apply B2SF_inj; vm_compute; reflexivity).
    assert (F1 : feq ex_larger f_inf = false) by (vm_compute; reflexivity).
    assert (F2 : feq (b_1 + ex_larger)%b64 b_0 = false) by (vm_compute; reflexivity).
    assert (F3 : reset_beta64 f_inf = Err ValueError) by (vm_compute; reflexivity).
    unfold reset_m64, py_div64. rewrite F1, F2. cbn [bind]. rewrite Q. exact F3.
Qed.
Print Assumptions float_wedge_round_trip_refuted.

(** The exponent of stagnation flow, one. *)
Example wedge_case : is_number b_1 /\ signed (real_of b_1) /\ -9/100 <= real_of b_1 <= 200.
Proof.
  destruct (literal 4503599627370496 (-52) eq_refl) as [D1 D2]. fold b_1 in D1, D2. assert (D : real_of b_1 = 1) by (rewrite D2; simpl; lra).
  rewrite D. split; [exact D1|]. split; [right; left; unfold sized; simpl; lra|lra].
Qed.
(** The exponent -1/2 is refused. *)
Definition ex_refused : b64 := @B754_finite 53 1024 true 4503599627370496%positive (-53)%Z eq_refl.
Example wedge_refused : is_number ex_refused /\ -9/10 <= real_of ex_refused <= -905/10000.
Proof. split; [reflexivity|]. unfold ex_refused, real_of, B2R, F2R. simpl. lra. Qed.
