(** What Thwaites' method reports, in binary64 arithmetic, for given fits (C175). *)
From Flocq Require Import Core IEEE754.BinarySingleNaN.
From Verif Require Import FloatModel FloatThwaitesModel.
Open Scope b64_scope.

(** ibl/thwaites_method.py:249-267 [shape_d] for the value [s] of the solution. *)
Definition shape_d64 (shape : b64 -> b64) (s du_e : b64) : b64 := shape (lambda64 s du_e).
(** ibl/thwaites_method.py:195-209 [delta_d]. *)
Definition delta_d64 (shape : b64 -> b64) (s nu du_e : b64) : b64 := delta_m64 s nu * shape_d64 shape s du_e.
(** ibl/thwaites_method.py:287-307 [tau_w]. *)
Definition wall_shear64 (shear : b64 -> b64) (rho s nu u_e du_e : b64) : b64 :=
  tau_w64 rho nu u_e (shear (lambda64 s du_e)) (delta_m64 s nu).
