(** Finite-difference closures of [IBLMethod.set_velocity], over exact reals. *)
From Coq Require Import Reals.
Open Scope R_scope.

(** ibl/ibl_method.py:407-410 [fd_1f]; the same expression appears at
    ibl/thwaites_method.py:141-146 ([shape_p_fun]). *)
Definition fd_1f (fun_ : R -> R) (xo dx : R) : R :=
  ((fun_ (xo - 2*dx) - fun_ (xo + 2*dx)) / 12
   - 2 * (fun_ (xo - dx) - fun_ (xo + dx)) / 3) / dx.

(** ibl/ibl_method.py:411-415 [fd_2f]. *)
Definition fd_2f (fun_ : R -> R) (xo dx : R) : R :=
  (- (fun_ (xo - 2*dx) + fun_ (xo + 2*dx)) / 12
   - (25/10) * fun_ xo
   + 4 * (fun_ (xo - dx) + fun_ (xo + dx)) / 3) / (dx ^ 2).
