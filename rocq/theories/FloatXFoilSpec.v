(** What the arc lengths of a loaded dump should be, in words about real numbers (C125). *)
From Coq Require Import Reals ZArith List Sorted.
From Flocq Require Import Core.
From Verif Require Import FloatModel FloatSpec.
Import ListNotations.
Open Scope R_scope.

(** Both numbers of a row (arc length, velocity) are finite. *)
Definition numeric (r : b64 * b64) : Prop := is_number (fst r) /\ is_number (snd r).
(** Neither huge nor vanishing. *)
Definition moderate (v : R) : Prop := / 2 ^ 400 <= v <= 2 ^ 400.
(** Never decreasing along the list. *)
Definition rising (l : list b64) : Prop := Sorted Rle (map real_of l).
(** The computed numbers are finite and each is within [e] of the exact one. *)
Definition within (e : R) (vs : list b64) (ws : list R) : Prop :=
  Forall2 (fun v w => is_number v /\ Rabs (real_of v - w) <= e) vs ws.
(** The first number is exactly zero. *)
Definition from_zero (l : list b64) : Prop := exists v t, l = v :: t /\ is_number v /\ real_of v = 0.
(** Finite numbers between 0 and [m]. *)
Definition lengths (m : R) (l : list b64) : Prop := Forall (fun v => is_number v /\ 0 <= real_of v <= m) l.

(** The double that Python's [float] makes of a number printed with five decimals, [k]/100000
    (correctly rounded, ties to even). *)
Definition printed (v : b64) (k : Z) : Prop :=
  is_number v /\ real_of v = round radix2 (FLT_exp (-1074) 53) ZnearestE (IZR k / 10 ^ 5).
Definition printed_row (r : b64 * b64) (k : Z * Z) : Prop := printed (fst r) (fst k) /\ printed (snd r) (snd k).
