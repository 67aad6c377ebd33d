(** Property C159: one calculation takes over from another.
    [keeps_start], [same_layer]: see HandoffSpec. *)
From Coq Require Import Reals List Lra String ZArith.
From Verif Require Import PyBase PyBaseFacts ThwaitesFitsModel InitialConditionModel CoreModel CoreSpec CoreRefute ThwaitesFitsProofs WellPosedProps
  HandoffSpec HandoffProofs.
Import ListNotations.
Open Scope R_scope.

(* ---------------------------------------------------------------- C159 *)
(** Any solved object (say laminar) reports a momentum thickness and a shape factor at [c].  Assigning
    them, in that order, to an object of Head's method is accepted, and a successful solve from [c] then
    reports at [c] the layer the first object reported. *)
Theorem head_takes_over : forall lam tur c d h, m_kind tur = Head -> ic_body_of (m_ic tur) <> FSStag ->
  q_delta_m lam c = Ok (Fin d) -> q_shape_d lam c = Ok (Fin h) -> 0 < d -> 0 < h ->
  exists t1 t2, set_initial_delta_m tur (Fin d) = (t1, Ok tt) /\ set_initial_shape_d t1 (Fin h) = (t2, Ok tt) /\
  forall ivp b l t3 r, keeps_start ivp -> solve ivp t2 c b l = (t3, Ok r) -> ir_success r = true -> same_layer t3 lam c.
Proof. exact head_takeover_lemma. Qed.
Print Assumptions head_takes_over.

(** The same with a condition object built from the reported thicknesses, whatever condition the
    turbulent object had. *)
Theorem head_takes_over_condition : forall lam tur c d h, m_kind tur = Head ->
  q_delta_m lam c = Ok (Fin d) -> q_shape_d lam c = Ok (Fin h) -> 0 < d ->
  exists dd, q_delta_d lam c = Ok dd /\
  forall ivp b l t r, keeps_start ivp -> solve ivp (set_initial_condition tur (new_manual dd (Fin d) (Fin 0))) c b l = (t, Ok r) -> ir_success r = true ->
    same_layer t lam c.
Proof. exact condition_takeover_lemma. Qed.
Print Assumptions head_takes_over_condition.

(** Thwaites' methods, with another fit or viscosity than the first object's: the momentum thickness
    is taken over. *)
Theorem thwaites_takes_over : forall lam m c d nu, m_kind m <> Head -> ic_body_of (m_ic m) <> FSStag -> m_nu m = Fin nu -> 0 < nu ->
  q_delta_m lam c = Ok (Fin d) -> 0 < d ->
  exists m1, set_initial_delta_m m (Fin d) = (m1, Ok tt) /\
  forall ivp b l m2 r, keeps_start ivp -> solve ivp m1 c b l = (m2, Ok r) -> ir_success r = true -> q_delta_m m2 c = q_delta_m lam c.
Proof. exact thwaites_takeover_lemma. Qed.
Print Assumptions thwaites_takes_over.

(** An integrator whose solution stays in the initial state. *)
Definition ivp_stay : ivp_t := fun _ a b y e =>
  Ok {| r_success := true; r_status := 0; r_message := ""; r_t := [a; b]; r_sol := fun _ => y; r_t_events := map (fun _ => []) e |}.

Lemma solve_stay m : m_nu m = Fin 1 -> m_du m = Some (VF (fun _ => 0) KFloat) ->
  (exists y, ode_setup (set_ic m {| ic_du := Fin 0; ic_nu := m_nu m; ic_body_of := ic_body_of (m_ic m) |}) = Ok y) ->
  exists t r, solve ivp_stay m 1 2 [] = (t, Ok r) /\ ir_success r = true.
Proof.
  destruct m as [k nu u du d2u c f evs sl]. cbn [m_nu m_du m_ic]. intros -> -> [y E]. unfold solve, ic_set_nu. cbn [xleb m_nu m_ic].
  rewrite Rleb_false by lra. unfold set_ic in *. cbn -[ode_setup gather] in *. unfold ic_set_du. cbn [ic_nu ic_body_of]. rewrite E. cbn. do 2 eexists. split; reflexivity.
Qed.

(** A laminar flat plate with momentum thickness 1, taken over by Head's method and by Thwaites'. *)
Example takes_over_case :
  let lam := w_thwaites_of ThwaitesLinear (fun _ => 1) (fun _ => 0) fit_cb (fun _ => 1) in
  keeps_start ivp_stay /\ m_kind w_head = Head /\ ic_body_of (m_ic w_head) <> FSStag /\
  q_delta_m lam 1 = Ok (Fin 1) /\ (exists h, q_shape_d lam 1 = Ok (Fin h) /\ 2 < h < 3 /\
   exists t1 t2, set_initial_delta_m w_head (Fin 1) = (t1, Ok tt) /\ set_initial_shape_d t1 (Fin h) = (t2, Ok tt) /\
    exists t3 r, solve ivp_stay t2 1 2 [] = (t3, Ok r) /\ ir_success r = true) /\
  (exists t r, solve ivp_stay (set_initial_condition w_head (new_manual (Fin 2) (Fin 1) (Fin 0))) 1 2 [] = (t, Ok r) /\ ir_success r = true) /\
  m_kind w_thwaites <> Head /\ ic_body_of (m_ic w_thwaites) <> FSStag /\
  (exists m1, set_initial_delta_m w_thwaites (Fin 1) = (m1, Ok tt) /\ exists m2 r, solve ivp_stay m1 1 2 [] = (m2, Ok r) /\ ir_success r = true).
Proof.
  cbv zeta. split. { intros f a b y e r E _. injection E as <-. reflexivity. }
  split; [reflexivity|]. split; [discriminate|].
  split. { unfold q_delta_m, sol_at. cbn [m_sol w_thwaites_of bind comp nth_error m_kind m_nu]. rewrite xmul_fin, xsqrt_fin by lra. replace (1 * 1) with (1 * 1) by ring. rewrite sqrt_square by lra. reflexivity. }
  split.
  { exists (261/100). split.
    { unfold q_shape_d, sol_at. cbn [m_sol w_thwaites_of bind comp nth_error m_kind m_fit calc_lambda q_du_e]. unfold calc_lambda, q_du_e.
      cbn [m_du w_thwaites_of bind]. unfold call_du. cbn [m_du w_thwaites_of bind]. rewrite xmul_fin. cbn [m_fit]. unfold shape. cbn [fit_cb fit_shape fit_lo fit_hi].
      rewrite check_range_inside by lra. unfold cb_shape, piecewise0, xsq. rewrite !xmul_fin. cbn [xleb]. rewrite Rleb_true by lra.
      cbn. do 2 f_equal. ring. }
    split; [lra|].
    do 2 eexists. split. { unfold set_initial_delta_m. cbn [xleb]. rewrite Rleb_false by lra. reflexivity. }
    split. { unfold set_initial_shape_d. cbn [xleb]. rewrite Rleb_false by lra. reflexivity. }
    apply solve_stay; [reflexivity|reflexivity|]. unfold ode_setup. cbn. rewrite py_div_fin by lra. eexists; reflexivity. }
  split. { apply solve_stay; [reflexivity|reflexivity|]. unfold ode_setup. cbn. rewrite py_div_fin by lra. eexists; reflexivity. }
  split; [discriminate|]. split; [discriminate|].
  eexists. split. { unfold set_initial_delta_m. cbn [xleb]. rewrite Rleb_false by lra. reflexivity. }
  apply solve_stay; [reflexivity|reflexivity|]. unfold ode_setup. cbn. rewrite py_div_fin by lra. eexists; reflexivity.
Qed.
