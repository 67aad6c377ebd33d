(** Vocabulary for the statements about Felsch's and White's skin friction in binary64 (C172). *)
From Coq Require Import Reals.
From Flocq Require Import Core IEEE754.BinarySingleNaN.
From Verif Require Import FloatModel FloatSpec FloatThwaitesSpec.
Open Scope R_scope.

(** The C library takes decimal logarithms and exponentials with an error of at most 2 units of 2^-53. *)
Definition logarithms (lg : b64 -> b64) : Prop := forall x, is_number x -> 1 <= real_of x <= 2 ^ 100 ->
  units (lg x) (ln (real_of x) / ln 10) 2.
Definition exponentials (ex : b64 -> b64) : Prop := forall x, is_number x -> Rabs (real_of x) <= 200 ->
  units (ex x) (exp (real_of x)) 2.

(** Felsch's correlation is 0.058 b^1.705 / re^0.268 with b as follows; the shape factor is kept within its
    range of validity. *)
Definition felsch_number (h : R) : R :=
  93/100 - 195/100 * (ln (Rmin (Rmax h 1) (29986313485/10000000000)) / ln 10).
Definition felsch_friction (re b : R) : R := 58/1000 * Rpower b (1705/1000) / Rpower re (268/1000).
(** White's correlation. *)
Definition white_friction (re h : R) : R :=
  3/10 * exp (- (133/100) * h) / Rpower (ln re / ln 10) (174/100 + 31/100 * h).
