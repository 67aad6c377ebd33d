(** C172: Felsch's and White's skin friction with the rounding of binary64 arithmetic. *)
From Coq Require Import Reals Lra.
From Flocq Require Import Core IEEE754.BinarySingleNaN.
From Verif Require Import PyBase SkinFrictionModel FloatModel FloatSpec FloatXFoilModel FloatThwaitesSpec FloatStanfordModel FloatHeadModel
  FloatHeadSpec FloatFacts FloatScaleProofs FloatHeadProofs FloatHeadProps FloatFrictionModel FloatFrictionSpec FloatFrictionProofs.
Open Scope R_scope.

(** C172: Felsch's correlation gives a positive number for every shape factor, also at the end of its range, where the
    difference it raises to a power is as small as 2e-11. *)
Theorem float_felsch_positive : forall pw lg re h, powers pw -> logarithms lg -> is_number re -> is_number h ->
  / 2 ^ 40 <= real_of re <= 2 ^ 40 -> is_number (felsch64 pw lg re h) /\ 0 < real_of (felsch64 pw lg re h).
Proof. exact felsch64_positive. Qed.
Print Assumptions float_felsch_positive.

(** C172: the value is the one for a difference [b] that is off by at most 10 units of 2^-53. *)
Theorem float_felsch : forall pw lg re h, powers pw -> logarithms lg -> is_number re -> is_number h ->
  / 2 ^ 40 <= real_of re <= 2 ^ 40 ->
  exists b, Rabs (b - felsch_number (real_of h)) <= 10 / 2 ^ 53 /\ 1 / 10 ^ 11 <= b <= 1 /\
    units (felsch64 pw lg re h) (felsch_friction (real_of re) b) 95.
Proof. exact felsch64_ok. Qed.
Print Assumptions float_felsch.

(** C172: up to the shape factor 2.9 that is an accurate value. *)
Theorem float_felsch_accurate : forall pw lg re h, powers pw -> logarithms lg -> is_number re -> is_number h ->
  / 2 ^ 40 <= real_of re <= 2 ^ 40 -> real_of h <= 29/10 ->
  units (felsch64 pw lg re h) (felsch_friction (real_of re) (felsch_number (real_of h))) 750.
Proof. exact felsch64_away. Qed.
Print Assumptions float_felsch_accurate.

(** C172: White's correlation. *)
Theorem float_white_friction : forall pw lg ex re h, powers pw -> logarithms lg -> exponentials ex -> is_number re -> is_number h ->
  2 <= real_of re <= 2 ^ 40 -> 1 <= real_of h <= 4 ->
  units (white64 pw lg ex re h) (white_friction (real_of re) (real_of h)) 110.
Proof. exact white64_ok. Qed.
Print Assumptions float_white_friction.

(** C172: these are the values of the exact correlations (C70). *)
Theorem float_friction_exact : forall re h, 1 < re ->
  felsch (Fin re) (Fin h) = Fin (felsch_friction re (felsch_number h)) /\ white (Fin re) (Fin h) = Fin (white_friction re h).
Proof. intros re h H. split; [apply felsch_exact; lra|apply white_exact, H]. Qed.
Print Assumptions float_friction_exact.

(** Library functions as assumed; the shape factor 1.5 and the Reynolds number 1024. *)
Definition ex_re : b64 := @B754_finite 53 1024 false 4503599627370496 (-42) eq_refl.
Example friction_case : exists pw lg ex, powers pw /\ logarithms lg /\ exponentials ex /\
  is_number ex_re /\ real_of ex_re = 1024 /\ is_number ex_h /\ real_of ex_h = 3/2.
Proof.
  do 3 eexists. split; [exact powers_example|]. split; [exact logarithms_example|]. split; [exact exponentials_example|].
  destruct (literal 4503599627370496 (-42) eq_refl) as [A1 A2]. fold ex_re in A1, A2.
  destruct (literal 6755399441055744 (-52) eq_refl) as [C1 C2]. fold ex_h in C1, C2.
  split; [exact A1|]. split; [rewrite A2; simpl; lra|]. split; [exact C1|rewrite C2; simpl; lra].
Qed.
