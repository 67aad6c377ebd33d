(** Model of ibl/initial_condition.py.  Values are Python floats: division raises
    ZeroDivisionError, np.sqrt of a negative number is nan. *)
From Coq Require Import Reals.
From Verif Require Import PyBase.
Open Scope R_scope.

(** The two concrete classes: FalknerSkanStagCondition (ibl/initial_condition.py:115-189)
    and ManualCondition (192-273) with attributes del_d, del_m, del_k. *)
Inductive ic_body :=
| FSStag
| Manual (del_d del_m del_k : xr).

(** ibl/initial_condition.py:27-32: every condition carries du_e and nu. *)
Record ic := { ic_du : xr; ic_nu : xr; ic_body_of : ic_body }.

(** ibl/initial_condition.py:41-43 [du_e] setter. *)
Definition ic_set_du (c : ic) (v : xr) : ic :=
  {| ic_du := v; ic_nu := ic_nu c; ic_body_of := ic_body_of c |}.

(** ibl/initial_condition.py:53-57 [nu] setter: new object state and outcome. *)
Definition ic_set_nu (c : ic) (v : xr) : ic * res unit :=
  if xleb v (Fin 0) then (c, Err ValueError)
  else ({| ic_du := ic_du c; ic_nu := v; ic_body_of := ic_body_of c |}, Ok tt).

(** ibl/initial_condition.py:27-32 and 123-128: constructor of FalknerSkanStagCondition. *)
Definition new_fs (du nu : xr) : res ic :=
  let c0 := {| ic_du := du; ic_nu := PInf; ic_body_of := FSStag |} in
  match ic_set_nu c0 nu with (c, Ok _) => Ok c | (_, Err e) => Err e end.

(** ibl/initial_condition.py:209-213: constructor of ManualCondition. *)
Definition new_manual (d m k : xr) : ic :=
  {| ic_du := Fin 0; ic_nu := Fin (1/100000); ic_body_of := Manual d m k |}.

(** ibl/initial_condition.py:125-128, constants. *)
Definition fs_fpp0 : R := 123259/100000.
Definition fs_shape_d : R := 22162/10000.
Definition fs_shape_k : R := 16257/10000.
Definition fs_eta_m : R := 29235/100000.

(** ibl/initial_condition.py:167-177 and 252-261 [delta_m]. *)
Definition ic_delta_m (c : ic) : res xr :=
  match ic_body_of c with
  | FSStag =>
      bind (py_div (ic_nu c * Fin fs_eta_m * Fin fs_fpp0)%xr
                   ((Fin fs_shape_d + Fin 2) * ic_du c)%xr)
           (fun q => Ok (xsqrt q))
  | Manual _ m _ => Ok m
  end.

(** ibl/initial_condition.py:131-140 and 216-225 [shape_d]. *)
Definition ic_shape_d (c : ic) : res xr :=
  match ic_body_of c with
  | FSStag => Ok (Fin fs_shape_d)
  | Manual d m _ => py_div d m
  end.

(** ibl/initial_condition.py:143-152 and 228-237 [shape_k]. *)
Definition ic_shape_k (c : ic) : res xr :=
  match ic_body_of c with
  | FSStag => Ok (Fin fs_shape_k)
  | Manual _ m k => py_div k m
  end.

(** ibl/initial_condition.py:155-164 and 240-249 [delta_d]. *)
Definition ic_delta_d (c : ic) : res xr :=
  match ic_body_of c with
  | FSStag => bind (ic_delta_m c) (fun m => bind (ic_shape_d c) (fun h => Ok (m * h)%xr))
  | Manual d _ _ => Ok d
  end.

(** ibl/initial_condition.py:180-189 and 264-273 [delta_k]. *)
Definition ic_delta_k (c : ic) : res xr :=
  match ic_body_of c with
  | FSStag => bind (ic_delta_m c) (fun m => bind (ic_shape_k c) (fun h => Ok (m * h)%xr))
  | Manual _ _ k => Ok k
  end.

(** Attribute assignment [ic.del_m = v], [ic.del_d = v] through a cast
    (ibl/thwaites_method.py:79, ibl/head_method.py:51 and 65).  On a
    FalknerSkanStagCondition Python creates an attribute no method reads. *)
Definition ic_assign_del_m (c : ic) (v : xr) : ic :=
  match ic_body_of c with
  | FSStag => c
  | Manual d _ k => {| ic_du := ic_du c; ic_nu := ic_nu c; ic_body_of := Manual d v k |}
  end.
Definition ic_assign_del_d (c : ic) (v : xr) : ic :=
  match ic_body_of c with
  | FSStag => c
  | Manual _ m k => {| ic_du := ic_du c; ic_nu := ic_nu c; ic_body_of := Manual v m k |}
  end.
