(** Vocabulary for the statements about the Stanford tables in binary64 (C157). *)
From Coq Require Import Reals List.
From Flocq Require Import Core IEEE754.BinarySingleNaN.
From Verif Require Import StanfordSpec FloatModel FloatStanfordModel FloatSpec FloatThwaitesSpec.
Import ListNotations.
Open Scope R_scope.

(** The floats are the printed numbers correctly rounded, or at least as near to them. *)
Definition reads (row : list b64) (columns : list R) : Prop := Forall2 (fun v c => units v c 1) row columns.

(** Positive and of reasonable size; this, or zero, or the negative of it. *)
Definition sized (z : R) : Prop := / 2 ^ 50 <= z <= 2 ^ 50.
Definition signed (z : R) : Prop := z = 0 \/ sized z \/ sized (- z).

Definition sized_flow (f : flow) : Prop :=
  signed (f_x f) /\ sized (f_u_e f) /\ sized (f_theta f) /\ sized (f_h f) /\ sized (f_hs f) /\ sized (f_g f) /\
  sized (f_cf f).
Definition sized_detail (d : detail) : Prop :=
  signed (d_x d) /\ sized (d_us d) /\ sized (d_u_e d) /\ sized (d_nu d) /\ sized (d_theta d) /\ sized (d_dels d) /\
  sized (d_enth d) /\ sized (d_clth d) /\ sized (d_h d) /\ sized (d_g d) /\ sized (d_hs d) /\
  sized (d_re_theta d) /\ sized (d_re_dels d).
Definition sized_profile (p : profile) : Prop :=
  signed (p_yplus p) /\ signed (p_uplus p) /\ signed (p_y p) /\ signed (p_ratio p) /\ signed (p_yc p) /\ signed (p_defect p).

(** The quantities of the two tables that should agree, and how closely. *)
Definition compared (f : flow) (d : detail) : list (R * R * R) :=
  [(d_x d, f_x f, 2 / 1000);
   (d_u_e d, f_u_e f, 6 / 100);
   (d_theta d, f_theta f, 2 / 1000);
   (d_h d, f_h f, 2 / 1000);
   (d_hs d, f_hs f, 2 / 1000);
   (d_g d, f_g f, 2 / 1000);
   (d_dels d, f_h f * f_theta f, 5 / 1000);
   (d_enth d, f_hs f * f_theta f, 5 / 1000);
   (d_re_dels d, f_u_e f * d_dels d / d_nu d, 5);
   (d_re_theta d, f_u_e f * d_theta d / d_nu d, 5);
   (d_us d, f_u_e f * sqrt (f_cf f / 2), 5 / 1000)].
Definition compared_sample (d : detail) (p : profile) : list (R * R * R) :=
  [(p_yplus p, p_y p * d_us d / d_nu d, 1);
   (p_yc p, p_y p / d_clth d, 1 / 2);
   (p_uplus p, d_u_e d * p_ratio p / d_us d, 1 / 2);
   (p_defect p, (d_u_e d - d_u_e d * p_ratio p) / d_us d, 1 / 2)].

(** They agree within [m] times that; they are at most 10^6 in size. *)
Definition agree_by (m : R) (l : list (R * R * R)) : Prop :=
  List.Forall (fun '(a, b, t) => Rabs (a - b) < m * t) l.
Definition tame (l : list (R * R * R)) : Prop :=
  List.Forall (fun '(a, b, t) => Rabs a <= 10 ^ 6 /\ Rabs b <= 10 ^ 6) l.

(** What a station shows, up to [k] units of 2^-53. *)
Definition shows_common64 (s : station64) (f : flow) : Prop :=
  units (t_du_e s) (f_du_e f) 1 /\ units (t_c_f s) (f_cf f) 1 /\ units (t_c_f_lt s) (f_cf_lt f) 1 /\
  units (t_c_f_exp s) (f_cf_exp f) 1 /\ units (t_beta_eq s) (f_beta f) 1.
Definition shows_flow64 (k : R) (s : station64) (f : flow) : Prop :=
  shows_common64 s f /\
  units (t_x s) (f_x f) k /\ units (t_u_e s) (f_u_e f) k /\ units (t_delta_m s) (f_theta f) k /\
  units (t_shape_d s) (f_h f) k /\ units (t_shape_k s) (f_hs f) k /\ units (t_shape_eq s) (f_g f) k /\
  units (t_delta_d s) (f_h f * f_theta f) k /\ units (t_delta_k s) (f_hs f * f_theta f) k /\
  units (t_u_star s) (f_u_e f * sqrt (f_cf f / 2)) k.
Definition shows_detail64 (k : R) (s : station64) (f : flow) (d : detail) : Prop :=
  shows_common64 s f /\
  units (t_x s) (d_x d) k /\ units (t_u_e s) (d_u_e d) k /\ units (t_delta_m s) (d_theta d) k /\
  units (t_shape_d s) (d_h d) k /\ units (t_shape_k s) (d_hs d) k /\ units (t_shape_eq s) (d_g d) k /\
  units (t_delta_d s) (d_dels d) k /\ units (t_delta_k s) (d_enth d) k /\ units (t_u_star s) (d_us d) k /\
  units (t_nu s) (d_nu d) k /\ units (t_delta_c s) (d_clth d) k /\
  units (t_re_delta_m s) (d_re_theta d) k /\ units (t_re_delta_d s) (d_re_dels d) k.
Definition shows_sample64 (k : R) (a : sample64) (d : detail) (p : profile) : Prop :=
  units (a_yplus a) (p_yplus p) k /\ units (a_uplus a) (p_uplus p) k /\ units (a_y a) (p_y p) k /\
  units (a_u a) (d_u_e d * p_ratio p) k /\ units (a_yc a) (p_yc p) k /\ units (a_defect a) (p_defect p) k.
