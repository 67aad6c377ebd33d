(** Model of ibl/skin_friction.py.

    Array arguments act element by element (plain numpy broadcasting), so the model
    treats one element, with numpy float64 semantics (see [PyBase]). *)
From Coq Require Import Reals.
From Verif Require Import PyBase.
Open Scope R_scope.

(** ibl/skin_friction.py:14-36 [ludwieg_tillman]. *)
Definition ludwieg_tillman (re_delta_m shape_d : xr) : xr :=
  (Fin (246/1000)
   / (xpow re_delta_m (Fin (268/1000))
      * xpow (Fin 10) (Fin (678/1000) * shape_d)))%xr.

(** ibl/skin_friction.py:61 [shape_d_sep]. *)
Definition felsch_shape_d_sep : R := 29986313485/10000000000.

(** ibl/skin_friction.py:39-63 [felsch]. *)
Definition felsch (re_delta_m shape_d : xr) : xr :=
  let term1 := (Fin (195/100)
                * xlog10 (xclip shape_d (Fin 1) (Fin felsch_shape_d_sep)))%xr in
  (Fin (58/1000) * xpow (Fin (93/100) - term1) (Fin (1705/1000))
   / xpow re_delta_m (Fin (268/1000)))%xr.

(** ibl/skin_friction.py:66-89 [white]. *)
Definition white (re_delta_m shape_d : xr) : xr :=
  (Fin (3/10) * xexp (Fin (- (133/100)) * shape_d)
   / xpow (xlog10 re_delta_m) (Fin (174/100) + Fin (31/100) * shape_d))%xr.
