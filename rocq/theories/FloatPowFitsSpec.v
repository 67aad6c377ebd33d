(** Vocabulary for C174. *)
From Coq Require Import Reals List.
From Flocq Require Import Core IEEE754.BinarySingleNaN.
From Verif Require Import PyBase CoreModel FloatModel FloatSpec FloatThwaitesSpec FloatPowFitsModel.
Import ListNotations.
Open Scope R_scope.

(** [f] raises to the power [n] with an error of at most 2 units of 2^-53, or of 2^-1000 where the
    result is so small that it is not represented to full precision. *)
Definition raises (f : b64 -> b64) (n : nat) : Prop := forall x, is_number x -> Rabs (real_of x) <= 2 ^ 100 ->
  within (f x) (real_of x ^ n) (2 / 2 ^ 53 * Rabs (real_of x) ^ n + / 2 ^ 1000).

(** A positive power of zero is zero. *)
Definition keeps_zero (pw : b64 -> b64 -> b64) : Prop := forall x y, is_number x -> is_number y ->
  real_of x = 0 -> 0 < real_of y -> is_number (pw x y) /\ real_of (pw x y) = 0.

(** The right-hand side computed with [f] for the object [m] is the exact one, up to [e] over the
    speed plus 0.001, for a state that differs by rounding only. *)
Definition accurate_rhs (m : meth) (f : b64 -> b64) (e : R) : Prop := forall x s u du,
  q_u_e m x = Ok (real_of u) -> q_du_e m x = Ok (real_of du) ->
  is_number s -> is_number u -> is_number du -> 0 <= real_of u <= 2 ^ 200 ->
  -1 <= real_of s * real_of du <= 24/100 ->
  real_of s * real_of du = 0 \/ / 2 ^ 800 <= Rabs (real_of s * real_of du) ->
  exists s' r, Rabs (s' - real_of s) <= 2 / 2 ^ 53 * Rabs (real_of s) /\
    ode_impl m x [Fin s'] = Ok [Fin r] /\
    within (nonlinear_rhs64 f s u du) r (e / (1/1000 + real_of u)).
