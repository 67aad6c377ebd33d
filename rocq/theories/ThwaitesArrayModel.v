(** ThwaitesMethod's queries with an array of positions (ibl/thwaites_method.py:165-307).

    Simplifications: the dense output and the velocity functions act element by element on
    arrays (numpy arithmetic does), one list entry per position; a velocity function that
    returns a scalar for an array is broadcast by numpy, which gives the same entries. *)
From Coq Require Import Reals List.
From Verif Require Import PyBase InitialConditionModel ThwaitesFitsModel HeadModel CoreModel
  HeadArrayModel.
Import ListNotations.
Open Scope R_scope.

(** Elementwise arithmetic of two arrays of the same length. *)
Fixpoint zip {A B C} (f : A -> B -> C) (a : list A) (b : list B) : list C :=
  match a, b with
  | x :: a', y :: b' => f x y :: zip f a' b'
  | _, _ => []
  end.

(** [self._solution(x)[0]]; scipy's dense output raises ValueError for an empty array (it
    concatenates one piece per integration step that has positions in it). *)
Definition sol0_arr (m : meth) (xs : list R) : res (list xr) :=
  match m_sol m, xs with
  | None, _ | _, [] => Err ValueError
  | Some s, _ => map_res (fun x => comp 0 (s x)) xs
  end.

(** 363-380 [_calc_lambda] *)
Definition lambda_arr (m : meth) (xs : list R) (s : list xr) : res (list xr) :=
  bind (map_res (q_du_e m) xs) (fun du => Ok (zip (fun a b => (a * Fin b)%xr) s du)).

(** 212-229 [delta_m] *)
Definition delta_m_arr (m : meth) (xs : list R) : res (list xr) :=
  bind (sol0_arr m xs) (fun s => Ok (map (fun v => xsqrt (v * m_nu m)%xr) s)).

(** 249-267 [shape_d] *)
Definition shape_d_arr (m : meth) (xs : list R) : res (list xr) :=
  bind (sol0_arr m xs) (fun s => bind (lambda_arr m xs s) (fun lam =>
  match m_fit m with Some f => Ok (shape_arr f lam) | None => Err AttributeError end)).

(** 195-209 [delta_d] *)
Definition delta_d_arr (m : meth) (xs : list R) : res (list xr) :=
  bind (delta_m_arr m xs) (fun d => bind (shape_d_arr m xs) (fun h => Ok (zip xmul d h))).

(** 287-307 [tau_w] *)
Definition tau_w_arr (m : meth) (xs : list R) (rho : R) : res (list xr) :=
  bind (sol0_arr m xs) (fun s => bind (lambda_arr m xs s) (fun lam =>
  bind (map_res (q_u_e m) xs) (fun u =>
  match m_fit m with
  | None => Err AttributeError
  | Some f => bind (delta_m_arr m xs) (fun d =>
      Ok (zip xdiv (zip xmul (map (fun v => (Fin rho * m_nu m * Fin v)%xr) u) (shear_arr f lam)) d))
  end))).

(** 426-452 and 476-500 [_calc_f], 531-533 [f] *)
Definition calc_f_arr (m : meth) (xs : list R) (s : list xr) : res (list xr) :=
  bind (lambda_arr m xs s) (fun lam =>
  match m_kind m with
  | ThwaitesLinear => Ok (map (fun l => (Fin (45/100) - Fin 6 * l)%xr) lam)
  | _ => match m_fit m with
         | None => Err AttributeError
         | Some f => Ok (map (fun v => (Fin 2 * v)%xr)
             (zip xsub (shear_arr f lam)
                       (zip xmul lam (map (fun h => (h + Fin 2)%xr) (shape_arr f lam)))))
         end
  end).

(** 343-361 [_ode_impl] *)
Definition ode_impl_arr (m : meth) (xs : list R) (s : list xr) : res (list xr) :=
  bind (calc_f_arr m xs s) (fun F => bind (map_res (q_u_e m) xs) (fun u =>
  Ok (zip xdiv F (map (fun v => (Fin (1/1000) + Fin v)%xr) u)))).

(** 165-192 [v_e] *)
Definition v_e_arr (m : meth) (xs : list R) : res (list xr) :=
  bind (sol0_arr m xs) (fun s =>
  bind (map_res (q_u_e m) xs) (fun u => bind (map_res (q_du_e m) xs) (fun du =>
  bind (delta_d_arr m xs) (fun dd =>
  let term1 := zip (fun a b => (Fin a * b)%xr) du dd in
  let term2 := map (fun v => xsqrt (m_nu m / v)%xr) s in
  bind (ode_impl_arr m xs s) (fun dsol =>
  bind (shape_d_arr m xs) (fun h =>
  let term3 := zip xmul (zip (fun a b => (Fin (5/10) * Fin a * b)%xr) u h) dsol in
  bind (lambda_arr m xs s) (fun lam =>
  match m_fit m with
  | None => Err AttributeError
  | Some f =>
      let term4 := zip xmul (zip (fun a b => (Fin a * b)%xr) u s) (shape_p_arr f lam) in
      bind (map_res (q_d2u_e m) xs) (fun d2u =>
      let term5 := zip xadd (zip (fun a b => (Fin a * b)%xr) du dsol)
                            (zip (fun a b => (Fin a * b)%xr) d2u s) in
      Ok (zip xadd term1 (zip xmul term2 (zip xadd term3 (zip xmul term4 term5)))))
  end))))))).
