(** Model of the relations of ibl/head_method.py (one element at a time, numpy semantics). *)
From Coq Require Import Reals List.
From Verif Require Import PyBase SkinFrictionModel.
Import ListNotations.
Open Scope R_scope.

(** np.piecewise(v, [v <= c, v > c], [f, g]); 0 where no condition holds (nan). *)
Definition piecewise_le (c : xr) (f g : xr -> xr) (v : xr) : xr :=
  if xleb v c then f v else if xltb c v then g v else Fin 0.

(** [d + a/(shape_d - b)**c], the shape shared by ibl/head_method.py:322-334. *)
Definition entr_branch (a b c d : R) (h : xr) : xr :=
  (Fin d + Fin a / xpow (h - Fin b) (Fin c))%xr.

Definition lo_a : R := 8234/10000.
Definition lo_b : R := 11/10.
Definition lo_c : R := 1287/1000.
Definition lo_d : R := 33/10.
Definition hi_a : R := 15501/10000.
Definition hi_b : R := 6778/10000.
Definition hi_c : R := 3064/1000.
Definition hi_d : R := 332254659218600974/100000000000000000.

(** ibl/head_method.py:317-318: values at or below 1.1 are replaced by 1.1001. *)
Definition entr_guard (h : xr) : xr := if xleb h (Fin (11/10)) then Fin (11001/10000) else h.

(** ibl/head_method.py:303-338 [_shape_entrainment]. *)
Definition shape_entrainment (shape_d : xr) : xr :=
  piecewise_le (Fin (16/10)) (entr_branch lo_a lo_b lo_c lo_d)
               (entr_branch hi_a hi_b hi_c hi_d) (entr_guard shape_d).

(** [-a*c/(shape_d - b)**(c+1)], ibl/head_method.py:361-371. *)
Definition entr_p_branch (a b c : R) (h : xr) : xr :=
  (Fin (- a * c) / xpow (h - Fin b) (Fin (c + 1)))%xr.

(** ibl/head_method.py:341-374 [_shape_entrainment_p]. *)
Definition shape_entrainment_p (shape_d : xr) : xr :=
  piecewise_le (Fin (16/10)) (entr_p_branch lo_a lo_b lo_c)
               (entr_p_branch hi_a hi_b hi_c) (entr_guard shape_d).

(** [b + (a/(shape_entrainment - d))**(1/c)], ibl/head_method.py:396-408. *)
Definition entr_inv_branch (a b c d : R) (h1 : xr) : xr :=
  (Fin b + xpow (Fin a / (h1 - Fin d)) (Fin (1 / c)))%xr.

(** ibl/head_method.py:377-415 [_shape_d]. *)
Definition shape_d_of_entrainment (h1 : xr) : xr :=
  let h1' := if xleb h1 (Fin hi_d) then Fin (3323/1000) else h1 in
  piecewise_le (shape_entrainment (Fin (16/10)))
               (entr_inv_branch hi_a hi_b hi_c hi_d)
               (entr_inv_branch lo_a lo_b lo_c lo_d) h1'.

(** ibl/head_method.py:418-424 [_entrainment_velocity]. *)
Definition entrainment_velocity (h1 : xr) : xr :=
  let h1' := if xleb h1 (Fin 3) then Fin (3001/1000) else h1 in
  (Fin (306/10000) / xpow (h1' - Fin 3) (Fin (6169/10000)))%xr.

(** What a velocity callable hands back for one location: a Python/numpy float, a Python
    int, or a numpy array (0-d for a spline, or an element of a longer array). *)
Inductive velval :=
| VFloat (v : xr)
| VInt (v : xr)
| VArray (v : xr).
Definition vel_num (v : velval) : xr := match v with VFloat r | VInt r | VArray r => r end.

(** ibl/head_method.py:285-289: lower bound on the edge velocity inside [_ode_impl].
    Floats: [max(u_e, 0.001)] (which is u_e itself when u_e is nan, as [0.001 > nan] is
    false); everything else: item assignment, which a Python int does not support. *)
Definition ode_u_guard (v : velval) : res xr :=
  match v with
  | VFloat r => Ok (if xltb r (Fin (1/1000)) then Fin (1/1000) else r)
  | VInt _ => Err TypeError
  | VArray r => Ok (if xltb (xabs r) (Fin (1/1000)) then Fin (1/1000) else r)
  end.

(** ibl/head_method.py:262-300 [_ode_impl] on a state (delta_m, shape_d): both components
    of the right-hand side. [c_f_fun] is [ludwieg_tillman] (ibl/head_method.py:17). *)
Definition head_rhs (nu : xr) (u du : velval) (delta_m shape_d : xr) : res (xr * xr) :=
  let h := if xltb shape_d (Fin (111/100)) then Fin (111/100) else shape_d in
  bind (ode_u_guard u) (fun u_e =>
  let du_e := vel_num du in
  let re_delta_m := (u_e * delta_m / nu)%xr in
  let c_f := ludwieg_tillman re_delta_m h in
  let h1 := shape_entrainment h in
  let h1p := shape_entrainment_p h in
  let f0 := (Fin (5/10) * c_f - delta_m * (Fin 2 + h) * du_e / u_e)%xr in
  let f1 := ((u_e * entrainment_velocity h1 - u_e * f0 * h1 - du_e * delta_m * h1)
             / (h1p * u_e * delta_m))%xr in
  Ok (f0, f1)).

(** ibl/head_method.py:85-107 [v_e], given the solution value at x. *)
Definition head_v_e (nu : xr) (u du : velval) (delta_m shape_d : xr) : res xr :=
  bind (head_rhs nu u du delta_m shape_d) (fun yp =>
  let u_e := vel_num u in
  let du_e := vel_num du in
  Ok (du_e * shape_d * delta_m + u_e * snd yp * delta_m + u_e * shape_d * fst yp)%xr).

(** ibl/head_method.py:455-472 [_HeadSeparationEvent._call_impl]. *)
Definition head_event (shape_d_crit : xr) (f1 : xr) : xr := (shape_d_crit - f1)%xr.
