(** The queries of a Stanford case, ibl/reference/_stanford_1968.py:170-567.  Arrays are lists; the
    docstrings' "idx: float" is a Python int (a float raises TypeError, not modelled). *)
From Coq Require Import Reals List ZArith.
From Verif Require Import PyBase StanfordModel.
Import ListNotations.
Open Scope R_scope.

(** [l[k]] of a list with an int, which may count from the end. *)
Definition list_item {A} (l : list A) (k : Z) : res A :=
  let n := Z.of_nat (List.length l) in
  let j := if Z.ltb k 0 then (k + n)%Z else k in
  if Z.ltb j 0 then Err IndexError else item l (Z.to_nat j).

(** _stanford_1968.py:181-196. *)
Definition case_station (o : casedata) (k : Z) : res station := list_item (cd_station o) k.

(** _stanford_1968.py:198-235: empty arrays when nothing is loaded. *)
Definition case_x_smooth (o : casedata) : list xr :=
  match cd_smooth o with None => [] | Some m => sm_x m end.
Definition case_u_e_smooth (o : casedata) : list xr :=
  match cd_smooth o with None => [] | Some m => sm_u_e m end.
Definition case_du_e_smooth (o : casedata) : list xr :=
  match cd_smooth o with None => [] | Some m => sm_du_e m end.

(** _stanford_1968.py:237-471: one number per station. *)
Definition case_x (o : casedata) : list xr := map st_x (cd_station o).                 (* 246 *)
Definition case_u_e (o : casedata) : list xr := map st_u_e (cd_station o).             (* 259 *)
Definition case_du_e (o : casedata) : list xr := map st_du_e (cd_station o).           (* 272 *)
Definition case_delta_d (o : casedata) : list xr := map st_delta_d (cd_station o).     (* 285 *)
Definition case_delta_m (o : casedata) : list xr := map st_delta_m (cd_station o).     (* 298 *)
Definition case_delta_k (o : casedata) : list xr := map st_delta_k (cd_station o).     (* 311 *)
Definition case_delta_c (o : casedata) : list xr := map st_delta_c (cd_station o).     (* 324 *)
Definition case_shape_d (o : casedata) : list xr := map st_shape_d (cd_station o).     (* 337 *)
Definition case_shape_k (o : casedata) : list xr := map st_shape_k (cd_station o).     (* 350 *)
Definition case_shape_eq (o : casedata) : list xr := map st_shape_eq (cd_station o).   (* 363 *)
Definition case_c_f (o : casedata) : list xr := map st_c_f (cd_station o).             (* 376 *)
Definition case_c_f_lt (o : casedata) : list xr := map st_c_f_lt (cd_station o).       (* 389 *)
Definition case_c_f_exp (o : casedata) : list xr := map st_c_f_exp (cd_station o).     (* 402 *)
Definition case_beta_eq (o : casedata) : list xr := map st_beta_eq (cd_station o).     (* 415 *)
Definition case_u_star (o : casedata) : list xr := map st_u_star (cd_station o).       (* 428 *)
Definition case_nu (o : casedata) : list xr := map st_nu (cd_station o).               (* 441 *)
Definition case_re_delta_d (o : casedata) : list xr := map st_re_delta_d (cd_station o). (* 454 *)
Definition case_re_delta_m (o : casedata) : list xr := map st_re_delta_m (cd_station o). (* 468 *)

(** _stanford_1968.py:473-567: one number per sample of a station's profile. *)
Definition case_y (o : casedata) (k : Z) : res (list xr) := bind (case_station o k) (fun s => Ok (sa_y s)).
Definition case_y_plus (o : casedata) (k : Z) : res (list xr) := bind (case_station o k) (fun s => Ok (sa_y_plus s)).
Definition case_y_c (o : casedata) (k : Z) : res (list xr) := bind (case_station o k) (fun s => Ok (sa_y_c s)).
Definition case_u (o : casedata) (k : Z) : res (list xr) := bind (case_station o k) (fun s => Ok (sa_u s)).
Definition case_u_plus (o : casedata) (k : Z) : res (list xr) := bind (case_station o k) (fun s => Ok (sa_u_plus s)).
Definition case_u_defect (o : casedata) (k : Z) : res (list xr) := bind (case_station o k) (fun s => Ok (sa_u_defect s)).
