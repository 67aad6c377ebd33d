(** Properties C41-C44 and C70: skin friction correlations (ibl/skin_friction.py).
    [finite_pos v]: v is a finite number > 0.  [fin_lt a b]: both finite and a < b. *)
From Coq Require Import Reals Lra.
From Verif Require Import PyBase PyBaseFacts SkinFrictionModel SkinFrictionProofs.
Open Scope R_scope.

(** C41 *)
Theorem skin_friction_positive : forall re h : R,
  (0 < re -> finite_pos (ludwieg_tillman (Fin re) (Fin h))) /\
  (0 < re -> finite_pos (felsch (Fin re) (Fin h))) /\
  (1 < re -> finite_pos (white (Fin re) (Fin h))).
Proof. exact skin_friction_positive_lemma. Qed.
Print Assumptions skin_friction_positive.

Example skin_friction_positive_case : 1 < 1000 /\ finite_pos (white (Fin 1000) (Fin (14/10))).
Proof. split; [lra|]. apply skin_friction_positive; lra. Qed.

(** C42 *)
Theorem skin_friction_decreases_with_re : forall re1 re2 h : R, re1 < re2 ->
  (0 < re1 -> fin_lt (ludwieg_tillman (Fin re2) (Fin h)) (ludwieg_tillman (Fin re1) (Fin h))) /\
  (0 < re1 -> fin_lt (felsch (Fin re2) (Fin h)) (felsch (Fin re1) (Fin h))) /\
  (1 < re1 -> -174/31 < h -> fin_lt (white (Fin re2) (Fin h)) (white (Fin re1) (Fin h))).
Proof. exact skin_friction_re_lemma. Qed.
Print Assumptions skin_friction_decreases_with_re.

Example skin_friction_decreases_with_re_case :
  fin_lt (white (Fin 2000) (Fin (14/10))) (white (Fin 1000) (Fin (14/10))).
Proof. apply skin_friction_decreases_with_re; lra. Qed.

(** C43 *)
Theorem skin_friction_decreases_with_shape : forall re h1 h2 : R, h1 < h2 ->
  (0 < re -> fin_lt (ludwieg_tillman (Fin re) (Fin h2)) (ludwieg_tillman (Fin re) (Fin h1))) /\
  (0 < re -> fin_le (felsch (Fin re) (Fin h2)) (felsch (Fin re) (Fin h1))) /\
  (0 < re -> 1 <= h1 -> h2 <= 29986313485/10000000000 ->
     fin_lt (felsch (Fin re) (Fin h2)) (felsch (Fin re) (Fin h1))) /\
  (10 <= re -> fin_lt (white (Fin re) (Fin h2)) (white (Fin re) (Fin h1))).
Proof. exact skin_friction_shape_lemma. Qed.
Print Assumptions skin_friction_decreases_with_shape.

Example skin_friction_decreases_with_shape_case :
  fin_lt (felsch (Fin 1000) (Fin 2)) (felsch (Fin 1000) (Fin (14/10))).
Proof. apply skin_friction_decreases_with_shape; lra. Qed.

(** C44: the power in Felsch's formula always has a positive base, for every shape factor,
    and outside [1, 2.9986313485] the correlation has its end value. *)
Theorem felsch_total_in_shape : forall re h : R, 0 < re ->
  finite_pos (xsub (Fin (93/100)) (xmul (Fin (195/100))
     (xlog10 (xclip (Fin h) (Fin 1) (Fin (29986313485/10000000000)))))) /\
  felsch (Fin re) (Fin h) <> NaN /\
  (h <= 1 -> felsch (Fin re) (Fin h) = felsch (Fin re) (Fin 1)) /\
  (29986313485/10000000000 <= h ->
     felsch (Fin re) (Fin h) = felsch (Fin re) (Fin (29986313485/10000000000))).
Proof. exact felsch_total_lemma. Qed.
Print Assumptions felsch_total_in_shape.

Example felsch_total_case : felsch (Fin 1000) (Fin 5)
  = felsch (Fin 1000) (Fin (29986313485/10000000000)).
Proof. apply felsch_total_in_shape; lra. Qed.

(** C70: the published formulas.
    Ludwieg-Tillman: 0.246 * 10^(-0.678 H) * Re^(-0.268);
    Felsch: 0.058 * Re^(-0.268) * (0.93 - 1.95 log10 H)^1.705 for 1 <= H <= 2.9986313485;
    White: 0.3 * e^(-1.33 H) * (log10 Re)^(-(1.74 + 0.31 H)). *)
Theorem skin_friction_published_formulas : forall re h : R,
  (0 < re -> ludwieg_tillman (Fin re) (Fin h)
     = Fin (246/1000 * Rpower 10 (- (678/1000) * h) * Rpower re (- (268/1000)))) /\
  (0 < re -> 1 <= h <= 29986313485/10000000000 -> felsch (Fin re) (Fin h)
     = Fin (58/1000 * Rpower re (- (268/1000))
            * Rpower (93/100 - 195/100 * (ln h / ln 10)) (1705/1000))) /\
  (1 < re -> white (Fin re) (Fin h)
     = Fin (3/10 * exp (- (133/100) * h)
            * Rpower (ln re / ln 10) (- (174/100 + 31/100 * h)))).
Proof. exact skin_friction_formulas_lemma. Qed.
Print Assumptions skin_friction_published_formulas.

Example skin_friction_published_formulas_case :
  white (Fin 10) (Fin 0) = Fin (3/10 * exp (- (133/100) * 0)
            * Rpower (ln 10 / ln 10) (- (174/100 + 31/100 * 0))).
Proof. apply skin_friction_published_formulas; lra. Qed.

(** C44, finding: the coefficient at the clipping value is positive, not zero, so
    Felsch's correlation never reports zero wall shear.  Its base there is below 3e-11. *)
Theorem felsch_separation_value : forall re h : R, 0 < re ->
  29986313485/10000000000 <= h ->
  exists b, 0 < b < 3/10^11 /\
    felsch (Fin re) (Fin h) = Fin (58/1000 * Rpower b (1705/1000) * Rpower re (- (268/1000))).
Proof. exact felsch_sep_lemma. Qed.
Print Assumptions felsch_separation_value.

Example felsch_separation_value_case : 0 < 1000 /\ 29986313485/10000000000 <= 3.
Proof. lra. Qed.
