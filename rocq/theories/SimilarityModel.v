(** Model of the similarity solutions: ibl/analytic/_analytic_2d_base.py, _blasius.py and
    _falkner_skan.py.

    scipy's [solve_ivp], [quad] and [root_scalar] are parameters.  Positions are scalars with
    numpy semantics (Python's own float power and division raise at x = 0, where numpy gives
    inf or nan).  [eta_inf] and [fw_pp] arguments are floats or None. *)
From Coq Require Import Reals List Bool.
From Verif Require Import PyBase.
Import ListNotations.
Open Scope R_scope.

(** State (f, f', f'') of the similarity ODE. *)
Definition triple := (xr * xr * xr)%type.
Definition t0 (y : triple) : xr := fst (fst y).
Definition t1 (y : triple) : xr := snd (fst y).
Definition t2 (y : triple) : xr := snd y.

(** The two concrete classes differ in [_g] and in the constructor. *)
Inductive sclass := CBlasius | CFalknerSkan.

(** Attributes set at ibl/analytic/_analytic_2d_base.py:41-60. *)
Record sim := {
  s_class : sclass;
  s_u_ref : xr;
  s_nu_ref : xr;
  s_alpha : xr;
  s_beta : xr;
  s_gamma : xr;
  s_f : option (xr -> triple);
  s_eta_inf : xr;
  s_eta_d : xr;
  s_eta_m : xr;
  s_eta_k : xr;
  s_eta_s : xr }.

Definition sim_with_u_ref o v := {| s_class := s_class o; s_u_ref := v; s_nu_ref := s_nu_ref o; s_alpha := s_alpha o; s_beta := s_beta o; s_gamma := s_gamma o; s_f := s_f o; s_eta_inf := s_eta_inf o; s_eta_d := s_eta_d o; s_eta_m := s_eta_m o; s_eta_k := s_eta_k o; s_eta_s := s_eta_s o |}.
Definition sim_with_nu_ref o v := {| s_class := s_class o; s_u_ref := s_u_ref o; s_nu_ref := v; s_alpha := s_alpha o; s_beta := s_beta o; s_gamma := s_gamma o; s_f := s_f o; s_eta_inf := s_eta_inf o; s_eta_d := s_eta_d o; s_eta_m := s_eta_m o; s_eta_k := s_eta_k o; s_eta_s := s_eta_s o |}.
Definition sim_with_beta o v := {| s_class := s_class o; s_u_ref := s_u_ref o; s_nu_ref := s_nu_ref o; s_alpha := s_alpha o; s_beta := v; s_gamma := s_gamma o; s_f := s_f o; s_eta_inf := s_eta_inf o; s_eta_d := s_eta_d o; s_eta_m := s_eta_m o; s_eta_k := s_eta_k o; s_eta_s := s_eta_s o |}.
Definition sim_with_f o v := {| s_class := s_class o; s_u_ref := s_u_ref o; s_nu_ref := s_nu_ref o; s_alpha := s_alpha o; s_beta := s_beta o; s_gamma := s_gamma o; s_f := v; s_eta_inf := s_eta_inf o; s_eta_d := s_eta_d o; s_eta_m := s_eta_m o; s_eta_k := s_eta_k o; s_eta_s := s_eta_s o |}.
Definition sim_with_eta_inf o v := {| s_class := s_class o; s_u_ref := s_u_ref o; s_nu_ref := s_nu_ref o; s_alpha := s_alpha o; s_beta := s_beta o; s_gamma := s_gamma o; s_f := s_f o; s_eta_inf := v; s_eta_d := s_eta_d o; s_eta_m := s_eta_m o; s_eta_k := s_eta_k o; s_eta_s := s_eta_s o |}.
Definition sim_with_eta_d o v := {| s_class := s_class o; s_u_ref := s_u_ref o; s_nu_ref := s_nu_ref o; s_alpha := s_alpha o; s_beta := s_beta o; s_gamma := s_gamma o; s_f := s_f o; s_eta_inf := s_eta_inf o; s_eta_d := v; s_eta_m := s_eta_m o; s_eta_k := s_eta_k o; s_eta_s := s_eta_s o |}.
Definition sim_with_eta_m o v := {| s_class := s_class o; s_u_ref := s_u_ref o; s_nu_ref := s_nu_ref o; s_alpha := s_alpha o; s_beta := s_beta o; s_gamma := s_gamma o; s_f := s_f o; s_eta_inf := s_eta_inf o; s_eta_d := s_eta_d o; s_eta_m := v; s_eta_k := s_eta_k o; s_eta_s := s_eta_s o |}.
Definition sim_with_eta_k o v := {| s_class := s_class o; s_u_ref := s_u_ref o; s_nu_ref := s_nu_ref o; s_alpha := s_alpha o; s_beta := s_beta o; s_gamma := s_gamma o; s_f := s_f o; s_eta_inf := s_eta_inf o; s_eta_d := s_eta_d o; s_eta_m := s_eta_m o; s_eta_k := v; s_eta_s := s_eta_s o |}.
Definition sim_with_eta_s o v := {| s_class := s_class o; s_u_ref := s_u_ref o; s_nu_ref := s_nu_ref o; s_alpha := s_alpha o; s_beta := s_beta o; s_gamma := s_gamma o; s_f := s_f o; s_eta_inf := s_eta_inf o; s_eta_d := s_eta_d o; s_eta_m := s_eta_m o; s_eta_k := s_eta_k o; s_eta_s := v |}.

(* ------------------------------------------------------------------ *)
(** * Accessors *)

(** _analytic_2d_base.py:70-75, 85-90: setters of [u_ref] and [nu_ref]. *)
Definition set_u_ref (o : sim) (v : xr) : sim * res unit :=
  if xleb v (Fin 0) then (o, Err ValueError) else (sim_with_u_ref o v, Ok tt).
Definition set_nu_ref (o : sim) (v : xr) : sim * res unit :=
  if xleb v (Fin 0) then (o, Err ValueError) else (sim_with_nu_ref o v, Ok tt).

(** _analytic_2d_base.py:136-192 [f], [f_p], [f_pp]. *)
Definition q_f (o : sim) (eta : xr) : res xr :=
  match s_f o with None => Err ValueError | Some y => Ok (t0 (y eta)) end.
Definition q_f_p (o : sim) (eta : xr) : res xr :=
  match s_f o with None => Err ValueError | Some y => Ok (t1 (y eta)) end.
Definition q_f_pp (o : sim) (eta : xr) : res xr :=
  match s_f o with None => Err ValueError | Some y => Ok (t2 (y eta)) end.

(** _analytic_2d_base.py:92-99 [fw_pp]. *)
Definition q_fw_pp (o : sim) : res xr :=
  match s_f o with None => Ok PInf | Some _ => q_f_pp o (Fin 0) end.

(** _analytic_2d_base.py:194-210 [u_e]: the exponent is a division of Python floats. *)
Definition qs_u_e (o : sim) (x : R) : res xr :=
  bind (py_div (s_beta o) (Fin 2 * s_alpha o - s_beta o)%xr) (fun e =>
  Ok (s_u_ref o * xpow (Fin x) e)%xr).

(** _blasius.py:64-78 and _falkner_skan.py:132-146 [_g]. *)
Definition q_g (o : sim) (x : R) : res xr :=
  bind (qs_u_e o x) (fun u =>
  match s_class o with
  | CBlasius => Ok (xsqrt (u / (Fin 2 * s_nu_ref o * Fin x)))%xr
  | CFalknerSkan => Ok (xsqrt (u / ((Fin 2 - s_beta o) * s_nu_ref o * Fin x)))%xr
  end).

(** _analytic_2d_base.py:212-226 [v_e]. *)
Definition qs_v_e (o : sim) (x : R) : res xr :=
  bind (q_g o x) (fun g => Ok (s_nu_ref o * g * s_eta_d o)%xr).

(** _analytic_2d_base.py:228-250 [eta]. *)
Definition q_eta (o : sim) (x y : R) : res xr := bind (q_g o x) (fun g => Ok (Fin y * g)%xr).

(** _analytic_2d_base.py:252-272 [u]. *)
Definition q_u (o : sim) (x y : R) : res xr :=
  bind (qs_u_e o x) (fun ue => bind (q_eta o x y) (fun eta => bind (q_f_p o eta) (fun fp =>
  Ok (ue * fp)%xr))).

(** _analytic_2d_base.py:274-297 [v]. *)
Definition q_v (o : sim) (x y : R) : res xr :=
  bind (q_eta o x y) (fun eta => bind (q_g o x) (fun g => bind (q_f o eta) (fun f =>
  bind (py_div (s_beta o) (s_alpha o)) (fun ba => bind (q_f_p o eta) (fun fp =>
  Ok (- (s_alpha o * s_nu_ref o * g * (f + (ba - Fin 1) * eta * fp)))%xr))))).

(** _analytic_2d_base.py:299-361 [delta_d], [delta_m], [delta_k], [delta_s]. *)
Definition qs_delta_d (o : sim) (x : R) : res xr := bind (q_g o x) (fun g => Ok (s_eta_d o / g)%xr).
Definition qs_delta_m (o : sim) (x : R) : res xr := bind (q_g o x) (fun g => Ok (s_eta_m o / g)%xr).
Definition qs_delta_k (o : sim) (x : R) : res xr := bind (q_g o x) (fun g => Ok (s_eta_k o / g)%xr).
Definition qs_delta_s (o : sim) (x : R) : res xr := bind (q_g o x) (fun g => Ok (s_eta_s o / g)%xr).

(** _analytic_2d_base.py:363-395 [shape_d], [shape_k] (Python float division). *)
Definition qs_shape_d (o : sim) (x : R) : res xr := py_div (s_eta_d o) (s_eta_m o).
Definition qs_shape_k (o : sim) (x : R) : res xr := py_div (s_eta_k o) (s_eta_m o).

(** _analytic_2d_base.py:397-413 [tau_w]. *)
Definition qs_tau_w (o : sim) (x : R) (rho : xr) : res xr :=
  bind (qs_u_e o x) (fun ue => bind (q_g o x) (fun g => bind (q_fw_pp o) (fun fw =>
  Ok (rho * s_nu_ref o * ue * g * fw)%xr))).

(** _analytic_2d_base.py:415-432 [dissipation]. *)
Definition qs_dissipation (o : sim) (x : R) (rho : xr) : res xr :=
  bind (q_g o x) (fun g => bind (qs_u_e o x) (fun ue =>
  Ok (rho * s_nu_ref o * g * (ue * ue)
      * (Fin (5/10) * (s_alpha o + Fin 2 * s_beta o) * s_eta_k o))%xr)).

(** _falkner_skan.py:57-63 [m]. *)
Definition q_m (o : sim) : res xr :=
  if xeqb (s_beta o) (Fin 2) then Ok PInf else py_div (s_beta o) (Fin 2 - s_beta o)%xr.

(* ------------------------------------------------------------------ *)
(** * The ODE and the search for its parameters *)

(** _analytic_2d_base.py:635-658 [_ode_fun] of the final run. *)
Definition sim_rhs (alpha beta gamma : xr) (y : triple) : triple :=
  (t1 y, t2 y, - (alpha * t0 y * t2 y + beta * (gamma - t1 y * t1 y)))%xr.

(** _analytic_2d_base.py:550-577 [_ode_fun] of [_solve]: the same stretched to [0, 1]. *)
Definition sim_rhs_scaled (alpha beta gamma eta_inf : xr) (y : triple) : triple :=
  (eta_inf * t1 y, eta_inf * t2 y,
   - eta_inf * (alpha * t0 y * t2 y + beta * (gamma - t1 y * t1 y)))%xr.

Section WithScipy.

(** What is used of solve_ivp's result: success, the last column of y, the dense output. *)
Record ivp3 := { i_success : bool; i_last : triple; i_sol : xr -> triple }.
(** solve_ivp(fun, [0, t_end], y0) *)
Variable ivp : (triple -> triple) -> xr -> triple -> res ivp3.
(** quad(fun, 0, b)[0] *)
Variable quad : (xr -> res xr) -> xr -> res xr.
(** root_scalar(fun, method="bisect", bracket=[0, b]): (converged, root) *)
Variable bisect : (xr -> res xr) -> xr -> res (bool * xr).

(** _analytic_2d_base.py:530-590 [_solve]. *)
Definition shoot (alpha beta gamma eta_inf fw_pp : xr) : res (xr * xr) :=
  bind (ivp (sim_rhs_scaled alpha beta gamma eta_inf) (Fin 1) (Fin 0, Fin 0, fw_pp)) (fun r =>
  if i_success r then Ok (t1 (i_last r), t2 (i_last r)) else Err ValueError).

(** Why a loop stopped.  The code does not record this; it is carried along for the
    theorems only. *)
Inductive stop := Converged | Stalled | Exhausted.

(** One integration done by the search: eta_inf, fw_pp and the two edge values found. *)
Record shot := { sh_eta : xr; sh_fw : xr; sh_f1 : xr; sh_f2 : xr }.

Definition tol : xr := Fin (1/100000000).
Definition near_one (f1 : xr) : bool := xltb (xabs (Fin 1 - f1)%xr) tol.
Definition near_zero (f2 : xr) : bool := xltb (xabs f2) tol.

Record inner_state := {
  in_fw_prev : xr; in_fw_curr : xr; in_f1_prev : xr; in_f2_curr : xr }.

(** _analytic_2d_base.py:610-620, the inner loop; [n] is [i_max - i].  The list of
    integrations done so far (newest first) is carried along. *)
Fixpoint inner (al be ga eta : xr) (n : nat) (st : inner_state) (log : list shot)
  : list shot * res (inner_state * stop) :=
  match n with
  | O => (log, Ok (st, Exhausted))
  | S n' =>
      match shoot al be ga eta (in_fw_curr st) with
      | Err e => (log, Err e)
      | Ok (f1, f2) =>
          let log' := {| sh_eta := eta; sh_fw := in_fw_curr st; sh_f1 := f1; sh_f2 := f2 |} :: log in
          let same := xeqb (in_fw_prev st) (in_fw_curr st) in
          if orb same (near_one f1) then
            (log', Ok ({| in_fw_prev := in_fw_prev st; in_fw_curr := in_fw_curr st;
                          in_f1_prev := in_f1_prev st; in_f2_curr := f2 |},
                       if near_one f1 then Converged else Stalled))
          else
            let d := ((Fin 1 - f1) * (in_fw_curr st - in_fw_prev st) / (f1 - in_f1_prev st))%xr in
            inner al be ga eta n'
              {| in_fw_prev := in_fw_curr st; in_fw_curr := (in_fw_curr st + d)%xr;
                 in_f1_prev := f1; in_f2_curr := f2 |} log'
      end
  end.

Record outer_state := {
  ou_eta_prev : xr; ou_eta_curr : xr; ou_fw_prev : xr; ou_fw_curr : xr;
  ou_f1_prev : xr; ou_f2_prev : xr }.

(** _analytic_2d_base.py:602-629, the outer loop; [n] is [j_max - j], [imax] is [i_max].
    The answer carries the reasons why the last inner and the outer loop stopped. *)
Fixpoint outer (al be ga : xr) (fw_given : bool) (imax n : nat) (st : outer_state)
  (last : stop) (log : list shot) : list shot * res (outer_state * stop * stop) :=
  match n with
  | O => (log, Ok (st, last, Exhausted))
  | S n' =>
      let fw0 := if fw_given then ou_fw_prev st else (Fin (101/100) * ou_fw_prev st)%xr in
      match inner al be ga (ou_eta_curr st) imax
              {| in_fw_prev := ou_fw_prev st; in_fw_curr := fw0;
                 in_f1_prev := ou_f1_prev st; in_f2_curr := Fin 0 |} log with
      | (log', Err e) => (log', Err e)
      | (log', Ok (ist, why)) =>
          let f2 := in_f2_curr ist in
          let same := xeqb (ou_eta_curr st) (ou_eta_prev st) in
          if orb same (near_zero f2) then
            (log', Ok ({| ou_eta_prev := ou_eta_prev st; ou_eta_curr := ou_eta_curr st;
                          ou_fw_prev := in_fw_prev ist; ou_fw_curr := in_fw_curr ist;
                          ou_f1_prev := in_f1_prev ist; ou_f2_prev := ou_f2_prev st |},
                       why, if near_zero f2 then Converged else Stalled))
          else
            let d := (- f2 * (ou_eta_curr st - ou_eta_prev st) / (f2 - ou_f2_prev st))%xr in
            outer al be ga fw_given imax n'
              {| ou_eta_prev := ou_eta_curr st; ou_eta_curr := (ou_eta_curr st + d)%xr;
                 ou_fw_prev := in_fw_prev ist; ou_fw_curr := in_fw_curr ist;
                 ou_f1_prev := in_f1_prev ist; ou_f2_prev := f2 |} why log'
      end
  end.

Definition i_max : nat := 100.
Definition j_max : nat := 100.

Definition is_some {A} (o : option A) : bool := match o with Some _ => true | None => false end.

(** _analytic_2d_base.py:508-632: the parameters to use.  Answer: the integrations done
    (newest first) and (eta_inf, fw_pp, reasons). *)
Definition search (al be ga : xr) (eta_inf fw_pp : option xr)
  : list shot * res (xr * xr * stop * stop) :=
  match eta_inf, fw_pp with
  | Some e, Some w => ([], Ok (e, w, Converged, Converged))
  | _, _ =>
      let e0 := match eta_inf with Some e => e | None => Fin 1 end in
      let w0 := match fw_pp with Some w => w | None => Fin 1 end in
      match shoot al be ga e0 w0 with
      | Err e => ([], Err e)
      | Ok (f1, f2) =>
          let log := [{| sh_eta := e0; sh_fw := w0; sh_f1 := f1; sh_f2 := f2 |}] in
          let e1 := match eta_inf with None => (Fin (101/100) * e0)%xr | Some _ => e0 end in
          match outer al be ga (is_some fw_pp) i_max j_max
                  {| ou_eta_prev := e0; ou_eta_curr := e1; ou_fw_prev := w0; ou_fw_curr := Fin 0;
                     ou_f1_prev := f1; ou_f2_prev := f2 |} Converged log with
          | (l, Err e) => (l, Err e)
          | (l, Ok (st, a, b)) => (l, Ok (ou_eta_curr st, ou_fw_curr st, a, b))
          end
      end
  end.

(** _analytic_2d_base.py:486-672 [_calculate_solution]. *)
Definition calculate_solution (o : sim) (eta_inf fw_pp : option xr) : sim * res unit :=
  match snd (search (s_alpha o) (s_beta o) (s_gamma o) eta_inf fw_pp) with
  | Err e => (o, Err e)
  | Ok (e, w, _, _) =>
      let o1 := sim_with_eta_inf o e in
      match ivp (sim_rhs (s_alpha o) (s_beta o) (s_gamma o)) e (Fin 0, Fin 0, w) with
      | Err x => (o1, Err x)
      | Ok r => if i_success r then (sim_with_f o1 (Some (i_sol r)), Ok tt)
                else (sim_with_f o1 None, Err ValueError)
      end
  end.

Definition bad_positive (v : option xr) : bool :=
  match v with Some w => xleb w (Fin 0) | None => false end.

(** k_fun and s_fun, _analytic_2d_base.py:472-473, 477-478. *)
Definition k_fun (o : sim) (eta : xr) : res xr :=
  bind (q_f o eta) (fun f => bind (q_f_p o eta) (fun fp => bind (q_f_pp o eta) (fun fpp =>
  Ok (Fin 2 * f * fp * fpp)%xr))).
Definition s_fun (o : sim) (eta : xr) : res xr :=
  bind (q_f_p o eta) (fun fp => Ok (Fin (99/100) - fp)%xr).

(** _analytic_2d_base.py:434-484 [set_solution_parameters]. *)
Definition set_solution_parameters (o : sim) (eta_inf fw_pp : option xr) : sim * res unit :=
  if bad_positive eta_inf then (o, Err ValueError)
  else if bad_positive fw_pp then (o, Err ValueError)
  else match calculate_solution o eta_inf fw_pp with
  | (o1, Err e) => (o1, Err e)
  | (o1, Ok _) =>
      match q_f o1 (s_eta_inf o1) with
      | Err e => (o1, Err e)
      | Ok fe =>
          let o2 := sim_with_eta_d o1 (s_eta_inf o1 - fe)%xr in
          match bind (q_fw_pp o2) (fun fw =>
                  py_div (fw - s_beta o2 * s_eta_d o2)%xr (s_alpha o2 + s_beta o2)%xr) with
          | Err e => (o2, Err e)
          | Ok em =>
              let o3 := sim_with_eta_m o2 em in
              match quad (k_fun o3) (s_eta_inf o3) with
              | Err e => (o3, Err e)
              | Ok ek =>
                  let o4 := sim_with_eta_k o3 ek in
                  match bisect (s_fun o4) (s_eta_inf o4) with
                  | Err e => (o4, Err e)
                  | Ok (true, r) => (sim_with_eta_s o4 r, Ok tt)
                  | Ok (false, _) => (o4, Err ValueError)
                  end
              end
          end
      end
  end.

(** _analytic_2d_base.py:41-60 [__init__]. *)
Definition new_sim (c : sclass) (u_ref nu_ref alpha beta gamma : xr) (fw_pp eta_inf : option xr)
  : res sim :=
  if xleb u_ref (Fin 0) then Err ValueError
  else if xleb nu_ref (Fin 0) then Err ValueError
  else let o := {| s_class := c; s_u_ref := u_ref; s_nu_ref := nu_ref; s_alpha := alpha;
                   s_beta := beta; s_gamma := gamma; s_f := None; s_eta_inf := Fin (-1);
                   s_eta_d := Fin (-1); s_eta_m := Fin (-1); s_eta_k := Fin (-1);
                   s_eta_s := Fin (-1) |} in
       match set_solution_parameters o eta_inf fw_pp with
       | (o', Ok _) => Ok o'
       | (_, Err e) => Err e
       end.

(** _blasius.py:38-51, defaults used when neither parameter is given. *)
Definition blasius_fw_pp : R := 4695999888844369/10000000000000000.
Definition blasius_eta_inf : R := 714513231841832/100000000000000.
Definition new_blasius (u_ref nu_ref : xr) (fw_pp eta_inf : option xr) : res sim :=
  let p := match fw_pp, eta_inf with
           | None, None => (Some (Fin blasius_fw_pp), Some (Fin blasius_eta_inf))
           | _, _ => (fw_pp, eta_inf)
           end in
  new_sim CBlasius u_ref nu_ref (Fin 1) (Fin 0) (Fin 1) (fst p) (snd p).

Definition beta_min : R := - (19884/100000).
(** The range test of _falkner_skan.py:41-42 and 91-93. *)
Definition beta_rejected (beta : xr) : bool := orb (xltb beta (Fin beta_min)) (xltb (Fin 2) beta).

(** _falkner_skan.py:38-47 [FalknerSkan.__init__]. *)
Definition new_falkner_skan (beta u_ref nu_ref : xr) (fw_pp eta_inf : option xr) : res sim :=
  if beta_rejected beta then Err ValueError
  else new_sim CFalknerSkan u_ref nu_ref (Fin 1) beta (Fin 1) fw_pp eta_inf.

(** _falkner_skan.py:65-96 [reset_beta]. *)
Definition reset_beta (o : sim) (beta : xr) (eta_inf fw_pp : option xr) : sim * res unit :=
  if beta_rejected beta then (o, Err ValueError)
  else set_solution_parameters (sim_with_beta o beta) eta_inf fw_pp.

(** _falkner_skan.py:98-129 [reset_m]. *)
Definition reset_m (o : sim) (m : xr) (eta_inf fw_pp : option xr) : sim * res unit :=
  if xeqb m PInf then reset_beta o (Fin 2) eta_inf fw_pp
  else match py_div (Fin 2 * m)%xr (Fin 1 + m)%xr with
       | Err e => (o, Err e)
       | Ok beta => reset_beta o beta eta_inf fw_pp
       end.

End WithScipy.
