(** Model of the 1968 Stanford Olympics readers, /repo/ibl/reference/_stanford_1968.py and
    /repo/ibl/reference/_stanford_1968_station.py.

    Text handling is modelled character by character; the conversion of words to numbers is an
    oracle ([floats] for whole rows, [float1] for one word), and so is the packaged data file
    ([read_case], [None] when there is no such file).  The contents of [np.empty] are the oracle
    [junk].  Not modelled: the public [reset] of the smoothed velocity object, error messages. *)
From Coq Require Import Reals List Bool String Ascii.
From Verif Require Import PyBase PyText.
Import ListNotations.
Open Scope R_scope.

(** _stanford_1968_station.py:14-17. *)
Definition foot_per_meter : R := 3048 / 10000.
Definition meter_per_foot : R := 1 / foot_per_meter.
Definition meter_per_inch : R := 12 * meter_per_foot.
Definition inch_per_meter : R := 1 / meter_per_inch.

(* ------------------------------------------------------------------ *)
(** * StanfordOlympics1968StationData *)

Record station := {
  st_x : xr;
  st_u_e : xr;
  st_du_e : xr;
  st_delta_m : xr;
  st_shape_d : xr;
  st_shape_k : xr;
  st_shape_eq : xr;
  st_c_f : xr;
  st_c_f_lt : xr;
  st_c_f_exp : xr;
  st_beta_eq : xr;
  st_u_star : xr;
  st_nu : xr;
  st_delta_d : xr;
  st_delta_k : xr;
  st_delta_c : xr;
  st_re_delta_m : xr;
  st_re_delta_d : xr;
  sa_y_plus : list xr;
  sa_u_plus : list xr;
  sa_y : list xr;
  sa_u : list xr;
  sa_y_c : list xr;
  sa_u_defect : list xr }.

Definition with_st_x (s : station) (v : xr) : station := {| st_x := v; st_u_e := st_u_e s; st_du_e := st_du_e s; st_delta_m := st_delta_m s; st_shape_d := st_shape_d s; st_shape_k := st_shape_k s; st_shape_eq := st_shape_eq s; st_c_f := st_c_f s; st_c_f_lt := st_c_f_lt s; st_c_f_exp := st_c_f_exp s; st_beta_eq := st_beta_eq s; st_u_star := st_u_star s; st_nu := st_nu s; st_delta_d := st_delta_d s; st_delta_k := st_delta_k s; st_delta_c := st_delta_c s; st_re_delta_m := st_re_delta_m s; st_re_delta_d := st_re_delta_d s; sa_y_plus := sa_y_plus s; sa_u_plus := sa_u_plus s; sa_y := sa_y s; sa_u := sa_u s; sa_y_c := sa_y_c s; sa_u_defect := sa_u_defect s |}.
Definition with_st_u_e (s : station) (v : xr) : station := {| st_x := st_x s; st_u_e := v; st_du_e := st_du_e s; st_delta_m := st_delta_m s; st_shape_d := st_shape_d s; st_shape_k := st_shape_k s; st_shape_eq := st_shape_eq s; st_c_f := st_c_f s; st_c_f_lt := st_c_f_lt s; st_c_f_exp := st_c_f_exp s; st_beta_eq := st_beta_eq s; st_u_star := st_u_star s; st_nu := st_nu s; st_delta_d := st_delta_d s; st_delta_k := st_delta_k s; st_delta_c := st_delta_c s; st_re_delta_m := st_re_delta_m s; st_re_delta_d := st_re_delta_d s; sa_y_plus := sa_y_plus s; sa_u_plus := sa_u_plus s; sa_y := sa_y s; sa_u := sa_u s; sa_y_c := sa_y_c s; sa_u_defect := sa_u_defect s |}.
Definition with_st_du_e (s : station) (v : xr) : station := {| st_x := st_x s; st_u_e := st_u_e s; st_du_e := v; st_delta_m := st_delta_m s; st_shape_d := st_shape_d s; st_shape_k := st_shape_k s; st_shape_eq := st_shape_eq s; st_c_f := st_c_f s; st_c_f_lt := st_c_f_lt s; st_c_f_exp := st_c_f_exp s; st_beta_eq := st_beta_eq s; st_u_star := st_u_star s; st_nu := st_nu s; st_delta_d := st_delta_d s; st_delta_k := st_delta_k s; st_delta_c := st_delta_c s; st_re_delta_m := st_re_delta_m s; st_re_delta_d := st_re_delta_d s; sa_y_plus := sa_y_plus s; sa_u_plus := sa_u_plus s; sa_y := sa_y s; sa_u := sa_u s; sa_y_c := sa_y_c s; sa_u_defect := sa_u_defect s |}.
Definition with_st_delta_m (s : station) (v : xr) : station := {| st_x := st_x s; st_u_e := st_u_e s; st_du_e := st_du_e s; st_delta_m := v; st_shape_d := st_shape_d s; st_shape_k := st_shape_k s; st_shape_eq := st_shape_eq s; st_c_f := st_c_f s; st_c_f_lt := st_c_f_lt s; st_c_f_exp := st_c_f_exp s; st_beta_eq := st_beta_eq s; st_u_star := st_u_star s; st_nu := st_nu s; st_delta_d := st_delta_d s; st_delta_k := st_delta_k s; st_delta_c := st_delta_c s; st_re_delta_m := st_re_delta_m s; st_re_delta_d := st_re_delta_d s; sa_y_plus := sa_y_plus s; sa_u_plus := sa_u_plus s; sa_y := sa_y s; sa_u := sa_u s; sa_y_c := sa_y_c s; sa_u_defect := sa_u_defect s |}.
Definition with_st_shape_d (s : station) (v : xr) : station := {| st_x := st_x s; st_u_e := st_u_e s; st_du_e := st_du_e s; st_delta_m := st_delta_m s; st_shape_d := v; st_shape_k := st_shape_k s; st_shape_eq := st_shape_eq s; st_c_f := st_c_f s; st_c_f_lt := st_c_f_lt s; st_c_f_exp := st_c_f_exp s; st_beta_eq := st_beta_eq s; st_u_star := st_u_star s; st_nu := st_nu s; st_delta_d := st_delta_d s; st_delta_k := st_delta_k s; st_delta_c := st_delta_c s; st_re_delta_m := st_re_delta_m s; st_re_delta_d := st_re_delta_d s; sa_y_plus := sa_y_plus s; sa_u_plus := sa_u_plus s; sa_y := sa_y s; sa_u := sa_u s; sa_y_c := sa_y_c s; sa_u_defect := sa_u_defect s |}.
Definition with_st_shape_k (s : station) (v : xr) : station := {| st_x := st_x s; st_u_e := st_u_e s; st_du_e := st_du_e s; st_delta_m := st_delta_m s; st_shape_d := st_shape_d s; st_shape_k := v; st_shape_eq := st_shape_eq s; st_c_f := st_c_f s; st_c_f_lt := st_c_f_lt s; st_c_f_exp := st_c_f_exp s; st_beta_eq := st_beta_eq s; st_u_star := st_u_star s; st_nu := st_nu s; st_delta_d := st_delta_d s; st_delta_k := st_delta_k s; st_delta_c := st_delta_c s; st_re_delta_m := st_re_delta_m s; st_re_delta_d := st_re_delta_d s; sa_y_plus := sa_y_plus s; sa_u_plus := sa_u_plus s; sa_y := sa_y s; sa_u := sa_u s; sa_y_c := sa_y_c s; sa_u_defect := sa_u_defect s |}.
Definition with_st_shape_eq (s : station) (v : xr) : station := {| st_x := st_x s; st_u_e := st_u_e s; st_du_e := st_du_e s; st_delta_m := st_delta_m s; st_shape_d := st_shape_d s; st_shape_k := st_shape_k s; st_shape_eq := v; st_c_f := st_c_f s; st_c_f_lt := st_c_f_lt s; st_c_f_exp := st_c_f_exp s; st_beta_eq := st_beta_eq s; st_u_star := st_u_star s; st_nu := st_nu s; st_delta_d := st_delta_d s; st_delta_k := st_delta_k s; st_delta_c := st_delta_c s; st_re_delta_m := st_re_delta_m s; st_re_delta_d := st_re_delta_d s; sa_y_plus := sa_y_plus s; sa_u_plus := sa_u_plus s; sa_y := sa_y s; sa_u := sa_u s; sa_y_c := sa_y_c s; sa_u_defect := sa_u_defect s |}.
Definition with_st_c_f (s : station) (v : xr) : station := {| st_x := st_x s; st_u_e := st_u_e s; st_du_e := st_du_e s; st_delta_m := st_delta_m s; st_shape_d := st_shape_d s; st_shape_k := st_shape_k s; st_shape_eq := st_shape_eq s; st_c_f := v; st_c_f_lt := st_c_f_lt s; st_c_f_exp := st_c_f_exp s; st_beta_eq := st_beta_eq s; st_u_star := st_u_star s; st_nu := st_nu s; st_delta_d := st_delta_d s; st_delta_k := st_delta_k s; st_delta_c := st_delta_c s; st_re_delta_m := st_re_delta_m s; st_re_delta_d := st_re_delta_d s; sa_y_plus := sa_y_plus s; sa_u_plus := sa_u_plus s; sa_y := sa_y s; sa_u := sa_u s; sa_y_c := sa_y_c s; sa_u_defect := sa_u_defect s |}.
Definition with_st_c_f_lt (s : station) (v : xr) : station := {| st_x := st_x s; st_u_e := st_u_e s; st_du_e := st_du_e s; st_delta_m := st_delta_m s; st_shape_d := st_shape_d s; st_shape_k := st_shape_k s; st_shape_eq := st_shape_eq s; st_c_f := st_c_f s; st_c_f_lt := v; st_c_f_exp := st_c_f_exp s; st_beta_eq := st_beta_eq s; st_u_star := st_u_star s; st_nu := st_nu s; st_delta_d := st_delta_d s; st_delta_k := st_delta_k s; st_delta_c := st_delta_c s; st_re_delta_m := st_re_delta_m s; st_re_delta_d := st_re_delta_d s; sa_y_plus := sa_y_plus s; sa_u_plus := sa_u_plus s; sa_y := sa_y s; sa_u := sa_u s; sa_y_c := sa_y_c s; sa_u_defect := sa_u_defect s |}.
Definition with_st_c_f_exp (s : station) (v : xr) : station := {| st_x := st_x s; st_u_e := st_u_e s; st_du_e := st_du_e s; st_delta_m := st_delta_m s; st_shape_d := st_shape_d s; st_shape_k := st_shape_k s; st_shape_eq := st_shape_eq s; st_c_f := st_c_f s; st_c_f_lt := st_c_f_lt s; st_c_f_exp := v; st_beta_eq := st_beta_eq s; st_u_star := st_u_star s; st_nu := st_nu s; st_delta_d := st_delta_d s; st_delta_k := st_delta_k s; st_delta_c := st_delta_c s; st_re_delta_m := st_re_delta_m s; st_re_delta_d := st_re_delta_d s; sa_y_plus := sa_y_plus s; sa_u_plus := sa_u_plus s; sa_y := sa_y s; sa_u := sa_u s; sa_y_c := sa_y_c s; sa_u_defect := sa_u_defect s |}.
Definition with_st_beta_eq (s : station) (v : xr) : station := {| st_x := st_x s; st_u_e := st_u_e s; st_du_e := st_du_e s; st_delta_m := st_delta_m s; st_shape_d := st_shape_d s; st_shape_k := st_shape_k s; st_shape_eq := st_shape_eq s; st_c_f := st_c_f s; st_c_f_lt := st_c_f_lt s; st_c_f_exp := st_c_f_exp s; st_beta_eq := v; st_u_star := st_u_star s; st_nu := st_nu s; st_delta_d := st_delta_d s; st_delta_k := st_delta_k s; st_delta_c := st_delta_c s; st_re_delta_m := st_re_delta_m s; st_re_delta_d := st_re_delta_d s; sa_y_plus := sa_y_plus s; sa_u_plus := sa_u_plus s; sa_y := sa_y s; sa_u := sa_u s; sa_y_c := sa_y_c s; sa_u_defect := sa_u_defect s |}.
Definition with_st_u_star (s : station) (v : xr) : station := {| st_x := st_x s; st_u_e := st_u_e s; st_du_e := st_du_e s; st_delta_m := st_delta_m s; st_shape_d := st_shape_d s; st_shape_k := st_shape_k s; st_shape_eq := st_shape_eq s; st_c_f := st_c_f s; st_c_f_lt := st_c_f_lt s; st_c_f_exp := st_c_f_exp s; st_beta_eq := st_beta_eq s; st_u_star := v; st_nu := st_nu s; st_delta_d := st_delta_d s; st_delta_k := st_delta_k s; st_delta_c := st_delta_c s; st_re_delta_m := st_re_delta_m s; st_re_delta_d := st_re_delta_d s; sa_y_plus := sa_y_plus s; sa_u_plus := sa_u_plus s; sa_y := sa_y s; sa_u := sa_u s; sa_y_c := sa_y_c s; sa_u_defect := sa_u_defect s |}.
Definition with_st_nu (s : station) (v : xr) : station := {| st_x := st_x s; st_u_e := st_u_e s; st_du_e := st_du_e s; st_delta_m := st_delta_m s; st_shape_d := st_shape_d s; st_shape_k := st_shape_k s; st_shape_eq := st_shape_eq s; st_c_f := st_c_f s; st_c_f_lt := st_c_f_lt s; st_c_f_exp := st_c_f_exp s; st_beta_eq := st_beta_eq s; st_u_star := st_u_star s; st_nu := v; st_delta_d := st_delta_d s; st_delta_k := st_delta_k s; st_delta_c := st_delta_c s; st_re_delta_m := st_re_delta_m s; st_re_delta_d := st_re_delta_d s; sa_y_plus := sa_y_plus s; sa_u_plus := sa_u_plus s; sa_y := sa_y s; sa_u := sa_u s; sa_y_c := sa_y_c s; sa_u_defect := sa_u_defect s |}.
Definition with_st_delta_d (s : station) (v : xr) : station := {| st_x := st_x s; st_u_e := st_u_e s; st_du_e := st_du_e s; st_delta_m := st_delta_m s; st_shape_d := st_shape_d s; st_shape_k := st_shape_k s; st_shape_eq := st_shape_eq s; st_c_f := st_c_f s; st_c_f_lt := st_c_f_lt s; st_c_f_exp := st_c_f_exp s; st_beta_eq := st_beta_eq s; st_u_star := st_u_star s; st_nu := st_nu s; st_delta_d := v; st_delta_k := st_delta_k s; st_delta_c := st_delta_c s; st_re_delta_m := st_re_delta_m s; st_re_delta_d := st_re_delta_d s; sa_y_plus := sa_y_plus s; sa_u_plus := sa_u_plus s; sa_y := sa_y s; sa_u := sa_u s; sa_y_c := sa_y_c s; sa_u_defect := sa_u_defect s |}.
Definition with_st_delta_k (s : station) (v : xr) : station := {| st_x := st_x s; st_u_e := st_u_e s; st_du_e := st_du_e s; st_delta_m := st_delta_m s; st_shape_d := st_shape_d s; st_shape_k := st_shape_k s; st_shape_eq := st_shape_eq s; st_c_f := st_c_f s; st_c_f_lt := st_c_f_lt s; st_c_f_exp := st_c_f_exp s; st_beta_eq := st_beta_eq s; st_u_star := st_u_star s; st_nu := st_nu s; st_delta_d := st_delta_d s; st_delta_k := v; st_delta_c := st_delta_c s; st_re_delta_m := st_re_delta_m s; st_re_delta_d := st_re_delta_d s; sa_y_plus := sa_y_plus s; sa_u_plus := sa_u_plus s; sa_y := sa_y s; sa_u := sa_u s; sa_y_c := sa_y_c s; sa_u_defect := sa_u_defect s |}.
Definition with_st_delta_c (s : station) (v : xr) : station := {| st_x := st_x s; st_u_e := st_u_e s; st_du_e := st_du_e s; st_delta_m := st_delta_m s; st_shape_d := st_shape_d s; st_shape_k := st_shape_k s; st_shape_eq := st_shape_eq s; st_c_f := st_c_f s; st_c_f_lt := st_c_f_lt s; st_c_f_exp := st_c_f_exp s; st_beta_eq := st_beta_eq s; st_u_star := st_u_star s; st_nu := st_nu s; st_delta_d := st_delta_d s; st_delta_k := st_delta_k s; st_delta_c := v; st_re_delta_m := st_re_delta_m s; st_re_delta_d := st_re_delta_d s; sa_y_plus := sa_y_plus s; sa_u_plus := sa_u_plus s; sa_y := sa_y s; sa_u := sa_u s; sa_y_c := sa_y_c s; sa_u_defect := sa_u_defect s |}.
Definition with_st_re_delta_m (s : station) (v : xr) : station := {| st_x := st_x s; st_u_e := st_u_e s; st_du_e := st_du_e s; st_delta_m := st_delta_m s; st_shape_d := st_shape_d s; st_shape_k := st_shape_k s; st_shape_eq := st_shape_eq s; st_c_f := st_c_f s; st_c_f_lt := st_c_f_lt s; st_c_f_exp := st_c_f_exp s; st_beta_eq := st_beta_eq s; st_u_star := st_u_star s; st_nu := st_nu s; st_delta_d := st_delta_d s; st_delta_k := st_delta_k s; st_delta_c := st_delta_c s; st_re_delta_m := v; st_re_delta_d := st_re_delta_d s; sa_y_plus := sa_y_plus s; sa_u_plus := sa_u_plus s; sa_y := sa_y s; sa_u := sa_u s; sa_y_c := sa_y_c s; sa_u_defect := sa_u_defect s |}.
Definition with_st_re_delta_d (s : station) (v : xr) : station := {| st_x := st_x s; st_u_e := st_u_e s; st_du_e := st_du_e s; st_delta_m := st_delta_m s; st_shape_d := st_shape_d s; st_shape_k := st_shape_k s; st_shape_eq := st_shape_eq s; st_c_f := st_c_f s; st_c_f_lt := st_c_f_lt s; st_c_f_exp := st_c_f_exp s; st_beta_eq := st_beta_eq s; st_u_star := st_u_star s; st_nu := st_nu s; st_delta_d := st_delta_d s; st_delta_k := st_delta_k s; st_delta_c := st_delta_c s; st_re_delta_m := st_re_delta_m s; st_re_delta_d := v; sa_y_plus := sa_y_plus s; sa_u_plus := sa_u_plus s; sa_y := sa_y s; sa_u := sa_u s; sa_y_c := sa_y_c s; sa_u_defect := sa_u_defect s |}.
Definition with_sa_y_plus (s : station) (v : list xr) : station := {| st_x := st_x s; st_u_e := st_u_e s; st_du_e := st_du_e s; st_delta_m := st_delta_m s; st_shape_d := st_shape_d s; st_shape_k := st_shape_k s; st_shape_eq := st_shape_eq s; st_c_f := st_c_f s; st_c_f_lt := st_c_f_lt s; st_c_f_exp := st_c_f_exp s; st_beta_eq := st_beta_eq s; st_u_star := st_u_star s; st_nu := st_nu s; st_delta_d := st_delta_d s; st_delta_k := st_delta_k s; st_delta_c := st_delta_c s; st_re_delta_m := st_re_delta_m s; st_re_delta_d := st_re_delta_d s; sa_y_plus := v; sa_u_plus := sa_u_plus s; sa_y := sa_y s; sa_u := sa_u s; sa_y_c := sa_y_c s; sa_u_defect := sa_u_defect s |}.
Definition with_sa_u_plus (s : station) (v : list xr) : station := {| st_x := st_x s; st_u_e := st_u_e s; st_du_e := st_du_e s; st_delta_m := st_delta_m s; st_shape_d := st_shape_d s; st_shape_k := st_shape_k s; st_shape_eq := st_shape_eq s; st_c_f := st_c_f s; st_c_f_lt := st_c_f_lt s; st_c_f_exp := st_c_f_exp s; st_beta_eq := st_beta_eq s; st_u_star := st_u_star s; st_nu := st_nu s; st_delta_d := st_delta_d s; st_delta_k := st_delta_k s; st_delta_c := st_delta_c s; st_re_delta_m := st_re_delta_m s; st_re_delta_d := st_re_delta_d s; sa_y_plus := sa_y_plus s; sa_u_plus := v; sa_y := sa_y s; sa_u := sa_u s; sa_y_c := sa_y_c s; sa_u_defect := sa_u_defect s |}.
Definition with_sa_y (s : station) (v : list xr) : station := {| st_x := st_x s; st_u_e := st_u_e s; st_du_e := st_du_e s; st_delta_m := st_delta_m s; st_shape_d := st_shape_d s; st_shape_k := st_shape_k s; st_shape_eq := st_shape_eq s; st_c_f := st_c_f s; st_c_f_lt := st_c_f_lt s; st_c_f_exp := st_c_f_exp s; st_beta_eq := st_beta_eq s; st_u_star := st_u_star s; st_nu := st_nu s; st_delta_d := st_delta_d s; st_delta_k := st_delta_k s; st_delta_c := st_delta_c s; st_re_delta_m := st_re_delta_m s; st_re_delta_d := st_re_delta_d s; sa_y_plus := sa_y_plus s; sa_u_plus := sa_u_plus s; sa_y := v; sa_u := sa_u s; sa_y_c := sa_y_c s; sa_u_defect := sa_u_defect s |}.
Definition with_sa_u (s : station) (v : list xr) : station := {| st_x := st_x s; st_u_e := st_u_e s; st_du_e := st_du_e s; st_delta_m := st_delta_m s; st_shape_d := st_shape_d s; st_shape_k := st_shape_k s; st_shape_eq := st_shape_eq s; st_c_f := st_c_f s; st_c_f_lt := st_c_f_lt s; st_c_f_exp := st_c_f_exp s; st_beta_eq := st_beta_eq s; st_u_star := st_u_star s; st_nu := st_nu s; st_delta_d := st_delta_d s; st_delta_k := st_delta_k s; st_delta_c := st_delta_c s; st_re_delta_m := st_re_delta_m s; st_re_delta_d := st_re_delta_d s; sa_y_plus := sa_y_plus s; sa_u_plus := sa_u_plus s; sa_y := sa_y s; sa_u := v; sa_y_c := sa_y_c s; sa_u_defect := sa_u_defect s |}.
Definition with_sa_y_c (s : station) (v : list xr) : station := {| st_x := st_x s; st_u_e := st_u_e s; st_du_e := st_du_e s; st_delta_m := st_delta_m s; st_shape_d := st_shape_d s; st_shape_k := st_shape_k s; st_shape_eq := st_shape_eq s; st_c_f := st_c_f s; st_c_f_lt := st_c_f_lt s; st_c_f_exp := st_c_f_exp s; st_beta_eq := st_beta_eq s; st_u_star := st_u_star s; st_nu := st_nu s; st_delta_d := st_delta_d s; st_delta_k := st_delta_k s; st_delta_c := st_delta_c s; st_re_delta_m := st_re_delta_m s; st_re_delta_d := st_re_delta_d s; sa_y_plus := sa_y_plus s; sa_u_plus := sa_u_plus s; sa_y := sa_y s; sa_u := sa_u s; sa_y_c := v; sa_u_defect := sa_u_defect s |}.
Definition with_sa_u_defect (s : station) (v : list xr) : station := {| st_x := st_x s; st_u_e := st_u_e s; st_du_e := st_du_e s; st_delta_m := st_delta_m s; st_shape_d := st_shape_d s; st_shape_k := st_shape_k s; st_shape_eq := st_shape_eq s; st_c_f := st_c_f s; st_c_f_lt := st_c_f_lt s; st_c_f_exp := st_c_f_exp s; st_beta_eq := st_beta_eq s; st_u_star := st_u_star s; st_nu := st_nu s; st_delta_d := st_delta_d s; st_delta_k := st_delta_k s; st_delta_c := st_delta_c s; st_re_delta_m := st_re_delta_m s; st_re_delta_d := st_re_delta_d s; sa_y_plus := sa_y_plus s; sa_u_plus := sa_u_plus s; sa_y := sa_y s; sa_u := sa_u s; sa_y_c := sa_y_c s; sa_u_defect := v |}.

(** Setters, _stanford_1968_station.py:86-323.  A positive-only setter refuses values <= 0. *)
Definition set_x (v : xr) (s : station) : station * res unit := (with_st_x s v, Ok tt).
Definition set_u_e (v : xr) (s : station) : station * res unit :=
  if xleb v (Fin 0) then (s, Err ValueError) else (with_st_u_e s v, Ok tt).
Definition set_du_e (v : xr) (s : station) : station * res unit := (with_st_du_e s v, Ok tt).
Definition set_delta_m (v : xr) (s : station) : station * res unit :=
  if xleb v (Fin 0) then (s, Err ValueError) else (with_st_delta_m s v, Ok tt).
Definition set_shape_d (v : xr) (s : station) : station * res unit :=
  if xleb v (Fin 0) then (s, Err ValueError) else (with_st_shape_d s v, Ok tt).
Definition set_shape_k (v : xr) (s : station) : station * res unit :=
  if xleb v (Fin 0) then (s, Err ValueError) else (with_st_shape_k s v, Ok tt).
Definition set_shape_eq (v : xr) (s : station) : station * res unit :=
  if xleb v (Fin 0) then (s, Err ValueError) else (with_st_shape_eq s v, Ok tt).
Definition set_c_f (v : xr) (s : station) : station * res unit := (with_st_c_f s v, Ok tt).
Definition set_c_f_lt (v : xr) (s : station) : station * res unit := (with_st_c_f_lt s v, Ok tt).
Definition set_c_f_exp (v : xr) (s : station) : station * res unit := (with_st_c_f_exp s v, Ok tt).
Definition set_beta_eq (v : xr) (s : station) : station * res unit := (with_st_beta_eq s v, Ok tt).
Definition set_u_star (v : xr) (s : station) : station * res unit :=
  if xleb v (Fin 0) then (s, Err ValueError) else (with_st_u_star s v, Ok tt).
Definition set_nu (v : xr) (s : station) : station * res unit :=
  if xleb v (Fin 0) then (s, Err ValueError) else (with_st_nu s v, Ok tt).
Definition set_delta_d (v : xr) (s : station) : station * res unit :=
  if xleb v (Fin 0) then (s, Err ValueError) else (with_st_delta_d s v, Ok tt).
Definition set_delta_k (v : xr) (s : station) : station * res unit :=
  if xleb v (Fin 0) then (s, Err ValueError) else (with_st_delta_k s v, Ok tt).
Definition set_delta_c (v : xr) (s : station) : station * res unit :=
  if xleb v (Fin 0) then (s, Err ValueError) else (with_st_delta_c s v, Ok tt).
Definition set_re_delta_m (v : xr) (s : station) : station * res unit :=
  if xleb v (Fin 0) then (s, Err ValueError) else (with_st_re_delta_m s v, Ok tt).
Definition set_re_delta_d (v : xr) (s : station) : station * res unit :=
  if xleb v (Fin 0) then (s, Err ValueError) else (with_st_re_delta_d s v, Ok tt).

(** Array setters, _stanford_1968_station.py:338-428: refuse an array with a negative entry. *)
Definition any_negative (v : list xr) : bool := existsb (fun e => xltb e (Fin 0)) v.
Definition set_y_plus (v : list xr) (s : station) : station * res unit :=
  if any_negative v then (s, Err ValueError) else (with_sa_y_plus s v, Ok tt).
Definition set_u_plus (v : list xr) (s : station) : station * res unit :=
  if any_negative v then (s, Err ValueError) else (with_sa_u_plus s v, Ok tt).
Definition set_y (v : list xr) (s : station) : station * res unit :=
  if any_negative v then (s, Err ValueError) else (with_sa_y s v, Ok tt).
Definition set_u (v : list xr) (s : station) : station * res unit :=
  if any_negative v then (s, Err ValueError) else (with_sa_u s v, Ok tt).
Definition set_y_c (v : list xr) (s : station) : station * res unit :=
  if any_negative v then (s, Err ValueError) else (with_sa_y_c s v, Ok tt).
Definition set_u_defect (v : list xr) (s : station) : station * res unit :=
  if any_negative v then (s, Err ValueError) else (with_sa_u_defect s v, Ok tt).

(** _stanford_1968_station.py:55-80: the attributes before [reset]. *)
Definition station0 : station := {| st_x := PInf; st_u_e := PInf; st_du_e := PInf; st_delta_m := PInf; st_shape_d := PInf; st_shape_k := PInf; st_shape_eq := PInf; st_c_f := PInf; st_c_f_lt := PInf; st_c_f_exp := PInf; st_beta_eq := PInf; st_u_star := PInf; st_nu := PInf; st_delta_d := PInf; st_delta_k := PInf; st_delta_c := PInf; st_re_delta_m := PInf; st_re_delta_d := PInf; sa_y_plus := []; sa_u_plus := []; sa_y := []; sa_u := []; sa_y_c := []; sa_u_defect := [] |}.

(** Statement sequencing: stop at the first exception, keeping the state reached. *)
Definition andthen (m k : station -> station * res unit) (s : station) : station * res unit :=
  match m s with
  | (s', Ok _) => k s'
  | (s', Err e) => (s', Err e)
  end.
Infix ">>" := andthen (at level 60, right associativity).
Definition skip (s : station) : station * res unit := (s, Ok tt).
Definition raise (e : exn) (s : station) : station * res unit := (s, Err e).
Definition check (b : station -> bool) (s : station) : station * res unit :=
  if b s then (s, Err ValueError) else (s, Ok tt).

(** abs(a - b) >= t *)
Definition off_by (t : R) (a b : xr) : bool := xleb (Fin t) (xabs (a - b)%xr).
(** abs(a - b) > t *)
Definition beyond (t : R) (a b : xr) : bool := xltb (Fin t) (xabs (a - b)%xr).

(** _stanford_1968_station.py:525-527 and 557-559: the derived parameters. *)
Definition derive (s : station) : station * res unit :=
  ((fun s => set_delta_d (st_shape_d s * st_delta_m s)%xr s) >>
   (fun s => set_delta_k (st_shape_k s * st_delta_m s)%xr s) >>
   (fun s => set_u_star (st_u_e s * xsqrt (Fin (1/2) * st_c_f s))%xr s)) s.

Section WithText.
Variable floats : string -> option (list xr).
Variable float1 : string -> option xr.
Variable read_case : string -> option (list string).
Variable junk : nat -> xr.

(** _stanford_1968_station.py:483-493: the summary attributes back to inf. *)
Definition clear_summary (s : station) : station :=
  with_st_beta_eq (with_st_c_f_exp (with_st_c_f_lt (with_st_c_f (with_st_shape_eq (with_st_shape_k
  (with_st_shape_d (with_st_delta_m (with_st_du_e (with_st_u_e (with_st_x s
  PInf) PInf) PInf) PInf) PInf) PInf) PInf) PInf) PInf) PInf) PInf.

(** _stanford_1968_station.py:466-527 [_reset_summary_data]. *)
Definition reset_summary (si : bool) (summary : string) (s : station) : station * res unit :=
  let s := clear_summary s in
  match floats summary with
  | Some [x; ui; dui; theta; h; hs; g; cf; cflt; cfe; beta] =>
      let x := if si then x else (x * Fin foot_per_meter)%xr in
      let ui := if si then ui else (ui * Fin foot_per_meter)%xr in
      let theta := if si then (theta * Fin (1 / 100))%xr else (theta * Fin inch_per_meter)%xr in
      (set_x x >> set_u_e ui >> set_du_e dui >> set_delta_m theta >> set_shape_d h >>
       set_shape_k hs >> set_shape_eq g >> set_c_f cf >> set_c_f_lt cflt >> set_c_f_exp cfe >>
       set_beta_eq beta >> derive) s
  | _ => (s, Err ValueError)
  end.

(** _stanford_1968_station.py:547-550. *)
Definition clear_station (s : station) : station :=
  with_st_re_delta_d (with_st_re_delta_m (with_st_delta_c (with_st_nu s PInf) PInf) PInf) PInf.

(** _stanford_1968_station.py:529-652 [_reset_station_summary].  [u_e*dels/v] and [u_e*theta/v] are
    Python float divisions. *)
Definition reset_station_summary (si : bool) (summary : string) (s : station) : station * res unit :=
  let s := clear_station s in
  ((fun s => if xeqb (st_x s) PInf
             then (with_st_delta_k (with_st_delta_d (with_st_u_star s PInf) PInf) PInf, Ok tt)
             else derive s) >>
   (fun s =>
      if String.eqb summary "" then (s, Ok tt)
      else match floats summary with
      | Some [x; us; ui; v; theta; dels; enth; clth; h; g; hs; rtheta; rdels] =>
          let v := if si then (v * Fin (1 / 10000))%xr else (v * Fin (foot_per_meter * foot_per_meter))%xr in
          let x := if si then x else (x * Fin foot_per_meter)%xr in
          let us := if si then us else (us * Fin foot_per_meter)%xr in
          let ui := if si then ui else (ui * Fin foot_per_meter)%xr in
          let thick t := if si then (t * Fin (1 / 100))%xr else (t * Fin inch_per_meter)%xr in
          let theta := thick theta in
          let dels := thick dels in
          let enth := thick enth in
          let clth := thick clth in
          (check (fun s => off_by (2 / 1000) x (st_x s)) >>
           check (fun s => off_by (6 / 100) ui (st_u_e s)) >>
           check (fun s => off_by (2 / 1000) theta (st_delta_m s)) >>
           check (fun s => off_by (2 / 1000) h (st_shape_d s)) >>
           check (fun s => off_by (2 / 1000) hs (st_shape_k s)) >>
           check (fun s => off_by (2 / 1000) g (st_shape_eq s)) >>
           check (fun s => off_by (5 / 1000) dels (st_shape_d s * st_delta_m s)%xr) >>
           check (fun s => off_by (5 / 1000) enth (st_shape_k s * st_delta_m s)%xr) >>
           (fun s => match py_div (st_u_e s * dels)%xr v with
                     | Err e => raise e s
                     | Ok q => check (fun _ => off_by 5 rdels q) s end) >>
           (fun s => match py_div (st_u_e s * theta)%xr v with
                     | Err e => raise e s
                     | Ok q => check (fun _ => off_by 5 rtheta q) s end) >>
           check (fun s => off_by (5 / 1000) us (st_u_e s * xsqrt (Fin (1/2) * st_c_f s))%xr) >>
           set_x x >> set_u_star us >> set_u_e ui >> set_nu v >> set_delta_m theta >>
           set_delta_d dels >> set_delta_k enth >> set_delta_c clth >> set_shape_d h >>
           set_shape_eq g >> set_shape_k hs >> set_re_delta_m rtheta >> set_re_delta_d rdels) s
      | _ => (s, Err ValueError)
      end)) s.

(** a[i] = v *)
Fixpoint put (l : list xr) (i : nat) (v : xr) : list xr :=
  match l, i with
  | [], _ => []
  | _ :: t, O => v :: t
  | h :: t, S k => h :: put t k v
  end.

(** _stanford_1968_station.py:683-721, one sample.  nu, delta_c and u_star are never zero (their
    setters refuse it), so the divisions do not raise. *)
Definition sample (si : bool) (i : nat) (row : string) (s : station) : station * res unit :=
  match floats row with
  | Some [yplus; uplus; y; uoui; ycd; udef] =>
      let u := (st_u_e s * uoui)%xr in
      let y := if si then (y * Fin (1 / 100))%xr else (y * Fin inch_per_meter)%xr in
      (check (fun s => beyond 1 yplus (xdiv (y * st_u_star s) (st_nu s))%xr) >>
       check (fun s => beyond (5 / 10) ycd (xdiv y (st_delta_c s))) >>
       check (fun s => beyond (5 / 10) uplus (xdiv u (st_u_star s))) >>
       check (fun s => beyond (5 / 10) udef (xdiv (st_u_e s - u)%xr (st_u_star s))) >>
       (fun s => (with_sa_y_plus s (put (sa_y_plus s) i yplus), Ok tt)) >>
       (fun s => (with_sa_u_plus s (put (sa_u_plus s) i uplus), Ok tt)) >>
       (fun s => (with_sa_y s (put (sa_y s) i y), Ok tt)) >>
       (fun s => (with_sa_u s (put (sa_u s) i u), Ok tt)) >>
       (fun s => (with_sa_y_c s (put (sa_y_c s) i ycd), Ok tt)) >>
       (fun s => (with_sa_u_defect s (put (sa_u_defect s) i udef), Ok tt))) s
  | _ => (s, Err ValueError)
  end.

Fixpoint samples (si : bool) (i : nat) (rows : list string) (s : station) : station * res unit :=
  match rows with
  | [] => (s, Ok tt)
  | r :: t => (sample si i r >> samples si (S i) t) s
  end.

(** np.empty(n) *)
Definition np_empty (n : nat) : list xr := map junk (seq 0 n).

(** _stanford_1968_station.py:654-721 [_reset_station_data]. *)
Definition reset_station_data (si : bool) (rows : list string) (s : station) : station * res unit :=
  let e := np_empty (List.length rows) in
  samples si 0 rows
    (with_sa_u_defect (with_sa_y_c (with_sa_u (with_sa_y (with_sa_u_plus (with_sa_y_plus s e) e) e) e) e) e).

(** _stanford_1968_station.py:435-453 [reset]. *)
Definition reset (si : bool) (summ stat : string) (rows : list string) (s : station)
  : station * res unit :=
  (reset_summary si summ >> reset_station_summary si stat >> reset_station_data si rows) s.

(** _stanford_1968_station.py:38-80: the constructor. *)
Definition new_station (si : bool) (summ stat : string) (rows : list string) : res station :=
  match reset si summ stat rows station0 with
  | (s, Ok _) => Ok s
  | (_, Err e) => Err e
  end.

(* ------------------------------------------------------------------ *)
(** * StanfordOlympics1968SmoothVel, _stanford_1968_station.py:736-807 *)

Record smooth := { sm_x : list xr; sm_u_e : list xr; sm_du_e : list xr }.

Definition smooth_row (si : bool) (row : string) : res (xr * xr * xr) :=
  match floats row with
  | Some [x; ui; dui] =>
      Ok (if si then x else (x * Fin foot_per_meter)%xr,
          if si then ui else (ui * Fin foot_per_meter)%xr, dui)
  | _ => Err ValueError
  end.

Fixpoint new_smooth (si : bool) (rows : list string) : res smooth :=
  match rows with
  | [] => Ok {| sm_x := []; sm_u_e := []; sm_du_e := [] |}
  | r :: t => bind (smooth_row si r) (fun '(x, ui, dui) => bind (new_smooth si t) (fun m =>
      Ok {| sm_x := x :: sm_x m; sm_u_e := ui :: sm_u_e m; sm_du_e := dui :: sm_du_e m |}))
  end.

(* ------------------------------------------------------------------ *)
(** * The case file *)

(** "# " in s *)
Fixpoint has_marker (s : string) : bool :=
  match s with
  | EmptyString => false
  | String c t => (Ascii.eqb c "#" && match t with String d _ => Ascii.eqb d " " | _ => false end)
                  || has_marker t
  end.

(** s.split(c) for a one-character separator *)
Fixpoint split_on (c : ascii) (s : string) : list string :=
  match s with
  | EmptyString => [EmptyString]
  | String a t =>
      if Ascii.eqb a c then EmptyString :: split_on c t
      else match split_on c t with
           | [] => [String a EmptyString]
           | h :: r => String a h :: r
           end
  end.

Fixpoint drop_space (l : list ascii) : list ascii :=
  match l with
  | c :: t => if is_space c then drop_space t else l
  | [] => []
  end.
(** x.rstrip().lstrip() *)
Definition strip (s : string) : string :=
  string_of_list_ascii (drop_space (rev (drop_space (rev (list_ascii_of_string s))))).

(** Indices of the lines with a marker, from [idx]. *)
Fixpoint marks (ls : list string) (idx : nat) : list nat :=
  match ls with
  | [] => []
  | l :: t => if has_marker l then idx :: marks t (S idx) else marks t (S idx)
  end.

(** buff[a:b] *)
Definition slice (buff : list string) (a b : nat) : list string := firstn (b - a) (skipn a buff).

Definition nl : ascii := "010"%char.
Definition nonempty (s : string) : bool := negb (String.eqb s "").
(** _stanford_1968.py:602-604. *)
Definition block (lines : list string) : list string :=
  filter nonempty (split_on nl (String.concat "" lines)).

(** _stanford_1968.py:599-609. *)
Fixpoint chunks (buff : list string) (idx_prev : nat) (cs : list nat) : list (list string) :=
  match cs with
  | [] => []
  | c :: t => if Nat.ltb idx_prev c
              then block (slice buff (idx_prev + 1) c) :: chunks buff (c + 1) t
              else chunks buff c t
  end.

(** _stanford_1968.py:569-611 [_get_case_data]. *)
Definition get_case_data (case_id : string) : list (list string) :=
  match read_case case_id with
  | None => []
  | Some buff =>
      match marks buff 0 ++ [List.length buff] with
      | [] => []
      | c0 :: t => chunks buff c0 t
      end
  end.

(* ------------------------------------------------------------------ *)
(** * StanfordOlympics1968 *)

Record casedata := {
  cd_case : string; cd_nu_ref : xr; cd_smooth : option smooth; cd_station : list station }.
Definition cwith_case (o : casedata) (v : string) : casedata :=
  {| cd_case := v; cd_nu_ref := cd_nu_ref o; cd_smooth := cd_smooth o; cd_station := cd_station o |}.
Definition cwith_nu_ref (o : casedata) (v : xr) : casedata :=
  {| cd_case := cd_case o; cd_nu_ref := v; cd_smooth := cd_smooth o; cd_station := cd_station o |}.
Definition cwith_smooth (o : casedata) (v : option smooth) : casedata :=
  {| cd_case := cd_case o; cd_nu_ref := cd_nu_ref o; cd_smooth := v; cd_station := cd_station o |}.
Definition cwith_station (o : casedata) (v : list station) : casedata :=
  {| cd_case := cd_case o; cd_nu_ref := cd_nu_ref o; cd_smooth := cd_smooth o; cd_station := v |}.

(** _stanford_1968.py:147-168: what each station is built from. *)
Definition station_inputs (data : list (list string)) (summ : list string)
  : list (string * string * list string) :=
  if Nat.ltb (List.length data) 4 then map (fun s => (s, ""%string, [])) summ
  else let stat := nth 3 data [] in
       if Nat.ltb (List.length data) 5 then map (fun p => (fst p, snd p, [])) (combine summ stat)
       else combine (combine summ stat) (skipn 4 data).

(** The loops of _stanford_1968.py:148-168: append stations until one raises. *)
Fixpoint add_stations (si : bool) (l : list (string * string * list string)) (o : casedata)
  : casedata * res unit :=
  match l with
  | [] => (o, Ok tt)
  | (summ, stat, rows) :: t =>
      match new_station si summ stat rows with
      | Err e => (o, Err e)
      | Ok s => add_stations si t (cwith_station o (cd_station o ++ [s]))
      end
  end.

(** xs[i], IndexError outside the list *)
Definition item {A} (l : list A) (i : nat) : res A :=
  match nth_error l i with Some a => Ok a | None => Err IndexError end.

(** _stanford_1968.py:123-131: the identifier line. *)
Definition check_ident (data : list (list string)) (case : string) : res unit :=
  bind (item data 0) (fun sec => bind (item sec 0) (fun line =>
  let parts := map strip (split_on "=" line) in
  bind (item parts 0) (fun p0 =>
  if negb (String.eqb p0 "IDENT") && negb (String.eqb p0 "ident") then Err ValueError
  else bind (item parts 1) (fun p1 => if String.eqb p1 case then Ok tt else Err ValueError)))).

Definition si_case (case : string) : bool :=
  match case with String c _ => Ascii.eqb c "1" | _ => false end.

(** _stanford_1968.py:135-141: the viscosity line. *)
Definition read_nu (data : list (list string)) (si : bool) : res xr :=
  bind (item data 0) (fun sec => bind (item sec 1) (fun line =>
  let parts := map strip (split_on "=" line) in
  bind (item parts 0) (fun p0 =>
  if negb (String.eqb p0 "V") && negb (String.eqb p0 "v") then Err ValueError
  else bind (item parts 1) (fun p1 =>
    match float1 p1 with
    | None => Err ValueError
    | Some v => Ok (if si then (v * Fin (1 / 10000))%xr
                    else (v * Fin (foot_per_meter * foot_per_meter))%xr)
    end)))).

(** _stanford_1968.py:92-168 the [case] setter. *)
Definition set_case (o : casedata) (case : string) : casedata * res unit :=
  let o := cwith_station (cwith_smooth (cwith_nu_ref o PInf) None) [] in
  if String.eqb case "" then (cwith_case o "", Ok tt)
  else
    let data := get_case_data case in
    match check_ident data case with
    | Err e => (o, Err e)
    | Ok _ =>
        let o := cwith_case o case in
        let si := si_case case in
        match read_nu data si with
        | Err e => (o, Err e)
        | Ok nu =>
            let o := cwith_nu_ref o nu in
            match bind (item data 2) (new_smooth si) with
            | Err e => (o, Err e)
            | Ok m =>
                let o := cwith_smooth o (Some m) in
                match item data 1 with
                | Err e => (o, Err e)
                | Ok summ => add_stations si (station_inputs data summ) o
                end
            end
        end
    end.

(** _stanford_1968.py:65-80 the constructor. *)
Definition casedata0 : casedata :=
  {| cd_case := ""; cd_nu_ref := PInf; cd_smooth := None; cd_station := [] |}.
Definition new_case (case : option string) : res casedata :=
  match case with
  | None => Ok casedata0
  | Some c => match set_case casedata0 c with
              | (o, Ok _) => Ok o
              | (_, Err e) => Err e
              end
  end.

End WithText.

(** _stanford_1968.py:170-179.  The other queries are in CaseQueryModel. *)
Definition station_count (o : casedata) : nat := List.length (cd_station o).
