(** Thwaites' method and the stagnation-point condition in binary64 arithmetic, as Python and
    numpy execute them (C140-C142).  See FloatModel for the numbers and operations.

    Not here: the default (spline) fit, which scipy evaluates, and what needs the C library's
    [pow] with a non-integer exponent or a third power (White's shear fit, Drela's fit). *)
From Coq Require Import ZArith Bool.
From Flocq Require Import Core IEEE754.BinarySingleNaN.
From Verif Require Import FloatModel FloatXFoilModel.
Open Scope b64_scope.

(** np.sqrt *)
Definition fsqrt (x : b64) : b64 := @Bsqrt 53 1024 Hprec Hmax mode_NE x.

(** The literals of the code: mantissa and exponent of the nearest binary64 number; products of
    literals such as [3*854] are exact. *)
Definition b_fpp0 : b64 := @B754_finite 53 1024 false 5551091864700600 (-52) eq_refl.
Definition b_fs_shape_d : b64 := @B754_finite 53 1024 false 4990438747089247 (-51) eq_refl.
Definition b_eta_m : b64 := @B754_finite 53 1024 false 5266509404247058 (-54) eq_refl.
Definition b_0_45 : b64 := @B754_finite 53 1024 false 8106479329266893 (-54) eq_refl.
Definition b_6 : b64 := @B754_finite 53 1024 false 6755399441055744 (-50) eq_refl.
Definition b_1e_3 : b64 := @B754_finite 53 1024 false 4611686018427388 (-62) eq_refl.
Definition b_0_25 : b64 := @B754_finite 53 1024 false 4503599627370496 (-54) eq_refl.
Definition b_4_14 : b64 := @B754_finite 53 1024 false 4661225614328463 (-50) eq_refl.
Definition b_m83_5 : b64 := @B754_finite 53 1024 true 5875790138834944 (-46) eq_refl.
Definition b_854 : b64 := @B754_finite 53 1024 false 7511863440965632 (-43) eq_refl.
Definition b_m3337 : b64 := @B754_finite 53 1024 true 7338140603777024 (-41) eq_refl.
Definition b_4576 : b64 := @B754_finite 53 1024 false 5031365208702976 (-40) eq_refl.
Definition b_m167 : b64 := @B754_finite 53 1024 true 5875790138834944 (-45) eq_refl.
Definition b_2562 : b64 := @B754_finite 53 1024 false 5633897580724224 (-41) eq_refl.
Definition b_m13348 : b64 := @B754_finite 53 1024 true 7338140603777024 (-39) eq_refl.
Definition b_5 : b64 := @B754_finite 53 1024 false 5629499534213120 (-50) eq_refl.
Definition b_m0_09 : b64 := @B754_finite 53 1024 true 6485183463413514 (-56) eq_refl.
Definition b_0_09 : b64 := @B754_finite 53 1024 false 6485183463413514 (-56) eq_refl.
Definition b_0_22 : b64 := @B754_finite 53 1024 false 7926335344172073 (-55) eq_refl.
Definition b_1_402 : b64 := @B754_finite 53 1024 false 6314046677573435 (-52) eq_refl.
Definition b_0_018 : b64 := @B754_finite 53 1024 false 5188146770730811 (-58) eq_refl.
Definition b_0_107 : b64 := @B754_finite 53 1024 false 7710162562058289 (-56) eq_refl.
Definition b_1_57 : b64 := @B754_finite 53 1024 false 7070651414971679 (-52) eq_refl.
Definition b_1_8 : b64 := @B754_finite 53 1024 false 8106479329266893 (-52) eq_refl.
Definition b_2_088 : b64 := @B754_finite 53 1024 false 4701758010974798 (-51) eq_refl.
Definition b_0_0731 : b64 := @B754_finite 53 1024 false 5267410124172532 (-56) eq_refl.
Definition b_0_14 : b64 := @B754_finite 53 1024 false 5044031582654956 (-55) eq_refl.
Definition b_2_61 : b64 := @B754_finite 53 1024 false 5877197513718497 (-51) eq_refl.
Definition b_3_75 : b64 := @B754_finite 53 1024 false 8444249301319680 (-51) eq_refl.
Definition b_5_24 : b64 := @B754_finite 53 1024 false 5899715511855350 (-50) eq_refl.
Definition b_m0_1 : b64 := @B754_finite 53 1024 true 7205759403792794 (-56) eq_refl.
Definition b_0_1 : b64 := @B754_finite 53 1024 false 7205759403792794 (-56) eq_refl.

(** ibl/initial_condition.py:168-177 [FalknerSkanStagCondition.delta_m]. *)
Definition fs_delta_m64 (nu du_e : b64) : b64 :=
  fsqrt (nu * b_eta_m * b_fpp0 / ((b_fs_shape_d + b_2) * du_e)).

(** ibl/thwaites_method.py:340 [_ode_setup]; [sq] stands for [delta_m**2], which the C library's
    [pow] computes. *)
Definition start64 (sq : b64 -> b64) (delta_m nu : b64) : b64 := sq delta_m / nu.

(** ibl/thwaites_method.py:229 [delta_m], [s] being the value of the stored solution. *)
Definition delta_m64 (s nu : b64) : b64 := fsqrt (s * nu).

(** ibl/thwaites_method.py:380 [_calc_lambda]. *)
Definition lambda64 (s du_e : b64) : b64 := s * du_e.

(** ibl/thwaites_method.py:449-452 [ThwaitesMethodLinear._calc_f]. *)
Definition linear_f64 (lam : b64) : b64 := b_0_45 - b_6 * lam.

(** ibl/thwaites_method.py:361 [_ode_impl] of the linear method, [u_e] and [du_e] being the values
    of the velocity and its gradient. *)
Definition linear_rhs64 (s u_e du_e : b64) : b64 :=
  linear_f64 (lambda64 s du_e) / (b_1e_3 + u_e).

(** ibl/thwaites_method.py:539-552 [_check_range] for one number. *)
Definition clamp64 (lo : b64) (hi : option b64) (lam : b64) : b64 :=
  if flt lam lo then lo
  else match hi with Some h => if flt h lam then h else lam | None => lam end.

(** ibl/thwaites_method.py:561-563 White's shape fit; its range ends at infinity. *)
Definition white_shape64 (lam : b64) : b64 :=
  let z := b_0_25 - lam in
  b_2 + z * (b_4_14 + z * (b_m83_5 + z * (b_854 + z * (b_m3337 + z * b_4576)))).
(** ibl/thwaites_method.py:565-567, its derivative. *)
Definition white_shape_p64 (lam : b64) : b64 :=
  let z := b_0_25 - lam in
  - (b_4_14 + z * (b_m167 + z * (b_2562 + z * (b_m13348 + z * b_5 * b_4576)))).
(** ibl/thwaites_method.py:558-559 the base of the power in White's shear fit. *)
Definition white_base64 (lam : b64) : b64 := lam + b_0_09.

(** ibl/thwaites_method.py:576-580 Cebeci and Bradshaw's shear fit ([lam**2] on an array is the
    rounded square). *)
Definition cb_shear64 (lam : b64) : b64 :=
  if flt lam b_0 then b_0_22 + b_1_402 * lam + b_0_018 * lam / (b_0_107 + lam)
  else b_0_22 + b_1_57 * lam - b_1_8 * (lam * lam).
(** ibl/thwaites_method.py:582-587 their shape fit. *)
Definition cb_shape64 (lam : b64) : b64 :=
  if flt lam b_0 then b_2_088 + b_0_0731 / (b_0_14 + lam)
  else b_2_61 - b_3_75 * lam + b_5_24 * (lam * lam).

(** The fits with the range check: ibl/thwaites_method.py:519-529. *)
Definition shape_white64 (lam : b64) : b64 := white_shape64 (clamp64 b_m0_09 None lam).
Definition shape_cb64 (lam : b64) : b64 := cb_shape64 (clamp64 b_m0_1 (Some b_0_1) lam).
Definition shear_cb64 (lam : b64) : b64 := cb_shear64 (clamp64 b_m0_1 (Some b_0_1) lam).

(** ibl/thwaites_method.py:531-533 [f], with Cebeci and Bradshaw's fit. *)
Definition f_cb64 (lam : b64) : b64 :=
  b_2 * (shear_cb64 lam - lam * (shape_cb64 lam + b_2)).

(** ibl/thwaites_method.py:305-307 [tau_w], the fit's value [shear] and the other values given. *)
Definition tau_w64 (rho nu u_e shear delta_m : b64) : b64 := rho * nu * u_e * shear / delta_m.
