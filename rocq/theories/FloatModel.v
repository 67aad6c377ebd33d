(** Parts of the code in binary64 arithmetic, as Python and numpy execute them (C108-C110).
    The numbers are Flocq's IEEE 754 binary64 data (with one NaN), and the operations round to
    nearest, ties to even; overflow, infinities and NaN are those of the standard. *)
From Coq Require Import ZArith.
From Flocq Require Import Core IEEE754.BinarySingleNaN.

Definition b64 : Type := binary_float 53 1024.
Definition Hprec : Prec_gt_0 53 := eq_refl.
Definition Hmax : Prec_lt_emax 53 1024 := eq_refl.

(** Python's [+], [-], [*], [/] and unary [-] on floats. *)
Definition fadd (x y : b64) : b64 := @Bplus 53 1024 Hprec Hmax mode_NE x y.
Definition fsub (x y : b64) : b64 := @Bminus 53 1024 Hprec Hmax mode_NE x y.
Definition fmul (x y : b64) : b64 := @Bmult 53 1024 Hprec Hmax mode_NE x y.
Definition fdiv (x y : b64) : b64 := @Bdiv 53 1024 Hprec Hmax mode_NE x y.
Definition fopp (x : b64) : b64 := @Bopp 53 1024 x.

Declare Scope b64_scope.
Delimit Scope b64_scope with b64.
Bind Scope b64_scope with b64.
Notation "x + y" := (fadd x y) : b64_scope.
Notation "x - y" := (fsub x y) : b64_scope.
Notation "x * y" := (fmul x y) : b64_scope.
Notation "x / y" := (fdiv x y) : b64_scope.
Notation "- x" := (fopp x) : b64_scope.
Open Scope b64_scope.

(** The literals of the code: mantissa and exponent of the nearest binary64 number, so that, for
    instance, [1e-4] is 7378697629483821 * 2^-66. *)
Definition b_0 : b64 := B754_zero false.
Definition b_2 : b64 := @B754_finite 53 1024 false 4503599627370496 (-51) eq_refl.
Definition b_2_5 : b64 := @B754_finite 53 1024 false 5629499534213120 (-51) eq_refl.
Definition b_3 : b64 := @B754_finite 53 1024 false 6755399441055744 (-51) eq_refl.
Definition b_4 : b64 := @B754_finite 53 1024 false 4503599627370496 (-50) eq_refl.
Definition b_12 : b64 := @B754_finite 53 1024 false 6755399441055744 (-49) eq_refl.
Definition b_1e_4 : b64 := @B754_finite 53 1024 false 7378697629483821 (-66) eq_refl.
Definition b_1e_5 : b64 := @B754_finite 53 1024 false 5902958103587057 (-69) eq_refl.

(** The float 1e-8, which is what [1e-4**2] evaluates to with a correctly rounded [pow]. *)
Definition sq_1e_4 : b64 := @B754_finite 53 1024 false 6044629098073146 (-79) eq_refl.

(** ibl/ibl_method.py:407-410 [fd_1f]. *)
Definition fd_1f_b64 (fun_ : b64 -> b64) (xo dx : b64) : b64 :=
  ((fun_ (xo - b_2*dx) - fun_ (xo + b_2*dx)) / b_12
   - b_2 * (fun_ (xo - dx) - fun_ (xo + dx)) / b_3) / dx.

(** ibl/ibl_method.py:411-415 [fd_2f]; [sq] stands for the value of [dx**2], which the C library
    computes. *)
Definition fd_2f_b64 (fun_ : b64 -> b64) (xo dx sq : b64) : b64 :=
  (- (fun_ (xo - b_2*dx) + fun_ (xo + b_2*dx)) / b_12
   - b_2_5 * fun_ xo
   + b_4 * (fun_ (xo - dx) + fun_ (xo + dx)) / b_3) / sq.

(** ibl/ibl_method.py:432-440: the closures of [set_velocity] for a callable without a
    [derivative] method. *)
Definition du_e_b64 (u_e : b64 -> b64) (x : b64) : b64 := fd_1f_b64 u_e x b_1e_4.
Definition d2u_e_b64 (sq : b64) (u_e : b64 -> b64) (x : b64) : b64 := fd_2f_b64 u_e x b_1e_4 sq.

(** ibl/ibl_method.py:459-463: the closure for the second derivative when a first derivative
    without a [derivative] method is given; ibl/thwaites_method.py:141-147 [shape_p_fun] evaluates
    the same expression on the given shape function. *)
Definition d2u_e_from_b64 (du_e : b64 -> b64) (x : b64) : b64 := fd_1f_b64 du_e x b_1e_5.

(** ibl/head_method.py:61-65 setter of [initial_shape_d], storing [del_d]; and the getter
    ibl/head_method.py:54-59 with ibl/initial_condition.py [ManualCondition.shape_d]. *)
Definition stored_del_d (shape_d del_m : b64) : b64 := shape_d * del_m.
Definition read_shape_d (del_d del_m : b64) : b64 := del_d / del_m.
