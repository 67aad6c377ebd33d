(** The similarity solutions' queries with the kinds of positions Python code passes:
    ibl/analytic/_analytic_2d_base.py:136-432, _blasius.py:64-78, _falkner_skan.py:132-146.

    Simplifications: arrays are one-dimensional; a 0-d array counts as a numpy scalar; the values of
    complex numbers are not modelled, only that a result is one; [u_ref], [nu_ref], [alpha], [beta]
    and the stored thicknesses are Python floats (an int behaves alike). *)
From Coq Require Import Reals List Bool.
From Verif Require Import PyBase SimilarityModel.
Import ListNotations.
Open Scope R_scope.

(** A position: a Python float, a numpy float or a float array. *)
Inductive arg := PyNum (x : R) | NpNum (x : R) | NpArr (l : list R).

(** A value: a Python float, a numpy float, a float array, or something complex. *)
Inductive nval := VPy (v : xr) | VNp (v : xr) | VArr (l : list xr) | VCx.
Definition of_arg (a : arg) : nval :=
  match a with PyNum x => VPy (Fin x) | NpNum x => VNp (Fin x) | NpArr l => VArr (map Fin l) end.

(** numpy's broadcasting of two one-dimensional arrays. *)
Fixpoint zip2 (f : xr -> xr -> xr) (a b : list xr) : list xr :=
  match a, b with x :: a', y :: b' => f x y :: zip2 f a' b' | _, _ => [] end.
Definition broadcast (f : xr -> xr -> xr) (a b : list xr) : res nval :=
  if Nat.eqb (List.length a) (List.length b) then Ok (VArr (zip2 f a b))
  else match a, b with
       | [x], _ => Ok (VArr (map (f x) b))
       | _, [y] => Ok (VArr (map (fun v => f v y) a))
       | _, _ => Err ValueError
       end.
(** An arithmetic operator that does not raise for scalars. *)
Definition nbin (f : xr -> xr -> xr) (a b : nval) : res nval :=
  match a, b with
  | VCx, _ | _, VCx => Ok VCx
  | VArr l, VArr r => broadcast f l r
  | VArr l, (VPy y | VNp y) => Ok (VArr (map (fun v => f v y) l))
  | (VPy x | VNp x), VArr r => Ok (VArr (map (f x) r))
  | VPy x, VPy y => Ok (VPy (f x y))
  | VPy x, VNp y | VNp x, VPy y | VNp x, VNp y => Ok (VNp (f x y))
  end.
Definition nmul := nbin xmul.
Definition nadd := nbin xadd.
(** Division: Python floats raise ZeroDivisionError, numpy does not. *)
Definition ndiv (a b : nval) : res nval :=
  match a, b with
  | VPy x, VPy y => bind (py_div x y) (fun v => Ok (VPy v))
  | _, _ => nbin xdiv a b
  end.
Definition nneg (a : nval) : nval :=
  match a with VPy v => VPy (- v)%xr | VNp v => VNp (- v)%xr | VArr l => VArr (map xneg l) | VCx => VCx end.
(** np.sqrt: a numpy float also for a Python float. *)
Definition nsqrt (a : nval) : nval :=
  match a with VPy v | VNp v => VNp (xsqrt v) | VArr l => VArr (map xsqrt l) | VCx => VCx end.
(** Power with a Python float [e] as exponent. Python floats: 0.0 to a negative power raises
    ZeroDivisionError, a negative number to a power that is no integer is complex. *)
Definition npow (a : nval) (e : xr) : res nval :=
  match a with
  | VCx => Ok VCx
  | VNp v => Ok (VNp (xpow v e))
  | VArr l => Ok (VArr (map (fun v => xpow v e) l))
  | VPy (Fin x) =>
      match e with
      | Fin y => if Req_EM_T x 0 then (if Rlt_dec y 0 then Err ZeroDivisionError else Ok (VPy (xpow (Fin x) e)))
                 else if Rlt_dec x 0 then (if Req_EM_T (frac_part y) 0 then Ok (VPy (xpow (Fin x) e)) else Ok VCx)
                 else Ok (VPy (xpow (Fin x) e))
      | _ => Ok (VPy (xpow (Fin x) e))
      end
  | VPy v => Ok (VPy (xpow v e))
  end.
(** np.asarray *)
Definition asarray (a : arg) : arg := match a with PyNum x => NpNum x | _ => a end.

(** [self._f(eta)[k]], scipy's dense output: ValueError for an empty array. [eta] below is never
    complex, as it is computed from numpy values. *)
Definition dense (y : xr -> triple) (k : triple -> xr) (eta : nval) : res nval :=
  match eta with
  | VPy v | VNp v => Ok (VNp (k (y v)))
  | VArr [] => Err ValueError
  | VArr l => Ok (VArr (map (fun v => k (y v)) l))
  | VCx => Err TypeError
  end.
(** _analytic_2d_base.py:136-192 [f], [f_p], [f_pp] *)
Definition a_f (o : sim) (eta : nval) : res nval :=
  match s_f o with None => Err ValueError | Some y => dense y t0 eta end.
Definition a_f_p (o : sim) (eta : nval) : res nval :=
  match s_f o with None => Err ValueError | Some y => dense y t1 eta end.
Definition a_f_pp (o : sim) (eta : nval) : res nval :=
  match s_f o with None => Err ValueError | Some y => dense y t2 eta end.

(** _analytic_2d_base.py:194-210 [u_e] *)
Definition a_u_e (o : sim) (x : arg) : res nval :=
  bind (py_div (s_beta o) (Fin 2 * s_alpha o - s_beta o)%xr) (fun e =>
  bind (npow (of_arg x) e) (fun p => nmul (VPy (s_u_ref o)) p)).

(** _blasius.py:64-78 and _falkner_skan.py:132-146 [_g] *)
Definition a_g (o : sim) (x : arg) : res nval :=
  bind (a_u_e o x) (fun u =>
  bind (nmul (VPy (match s_class o with
                   | CBlasius => (Fin 2 * s_nu_ref o)%xr
                   | CFalknerSkan => ((Fin 2 - s_beta o) * s_nu_ref o)%xr end)) (of_arg x)) (fun d =>
  bind (ndiv u d) (fun q => Ok (nsqrt q)))).

(** _analytic_2d_base.py:212-226 [v_e] *)
Definition a_v_e (o : sim) (x : arg) : res nval :=
  bind (a_g o x) (fun g => bind (nmul (VPy (s_nu_ref o)) g) (fun p => nmul p (VPy (s_eta_d o)))).

(** _analytic_2d_base.py:228-250 [eta] *)
Definition a_eta (o : sim) (x y : arg) : res nval :=
  bind (a_g o (asarray x)) (fun g => nmul (of_arg (asarray y)) g).

(** _analytic_2d_base.py:252-272 [u] *)
Definition a_u (o : sim) (x y : arg) : res nval :=
  bind (a_u_e o x) (fun ue => bind (a_eta o x y) (fun eta => bind (a_f_p o eta) (fun fp => nmul ue fp))).

(** _analytic_2d_base.py:274-297 [v] *)
Definition a_v (o : sim) (x y : arg) : res nval :=
  bind (a_eta o x y) (fun eta =>
  bind (a_g o x) (fun g => bind (nmul (VPy (s_alpha o * s_nu_ref o)%xr) g) (fun p =>
  bind (a_f o eta) (fun f =>
  bind (py_div (s_beta o) (s_alpha o)) (fun ba =>
  bind (nmul (VPy (ba - Fin 1)%xr) eta) (fun q => bind (a_f_p o eta) (fun fp =>
  bind (nmul q fp) (fun q' => bind (nadd f q') (fun w =>
  bind (nmul p w) (fun r => Ok (nneg r))))))))))).

(** _analytic_2d_base.py:299-361 [delta_d], [delta_m], [delta_k], [delta_s] *)
Definition a_over_g (c : sim -> xr) (o : sim) (x : arg) : res nval :=
  bind (a_g o x) (fun g => ndiv (VPy (c o)) g).
Definition a_delta_d := a_over_g s_eta_d.
Definition a_delta_m := a_over_g s_eta_m.
Definition a_delta_k := a_over_g s_eta_k.
Definition a_delta_s := a_over_g s_eta_s.

(** np.ones_like *)
Definition ones_like (a : arg) : nval :=
  match a with PyNum _ | NpNum _ => VNp (Fin 1) | NpArr l => VArr (map (fun _ => Fin 1) l) end.
(** _analytic_2d_base.py:363-395 [shape_d], [shape_k] *)
Definition a_shape (c : sim -> xr) (o : sim) (x : arg) : res nval :=
  bind (py_div (c o) (s_eta_m o)) (fun h => nmul (VPy h) (ones_like (asarray x))).
Definition a_shape_d := a_shape s_eta_d.
Definition a_shape_k := a_shape s_eta_k.

(** _analytic_2d_base.py:397-413 [tau_w] *)
Definition a_tau_w (o : sim) (x : arg) (rho : xr) : res nval :=
  bind (a_u_e o x) (fun ue => bind (nmul (VPy (rho * s_nu_ref o)%xr) ue) (fun p =>
  bind (a_g o x) (fun g => bind (nmul p g) (fun q =>
  bind (q_fw_pp o) (fun fw => nmul q (VPy fw)))))).

(** _analytic_2d_base.py:415-432 [dissipation] *)
Definition a_dissipation (o : sim) (x : arg) (rho : xr) : res nval :=
  bind (a_g o x) (fun g => bind (nmul (VPy (rho * s_nu_ref o)%xr) g) (fun p =>
  bind (a_u_e o x) (fun ue => bind (nmul ue ue) (fun u2 =>
  bind (nmul p u2) (fun q =>
  nmul q (VPy (Fin (5/10) * (s_alpha o + Fin 2 * s_beta o) * s_eta_k o)%xr)))))).
