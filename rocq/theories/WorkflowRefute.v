(** C96: two methods that refer to one condition object are not independent. *)
From Coq Require Import Reals List String Bool ZArith Lra.
From Verif Require Import PyBase PyBaseFacts FiniteDiffModel PPolyModel InitialConditionModel
  ThwaitesFitsModel HeadModel CoreModel CoreSpec CoreRefute WorkflowModel WorkflowSpec.
Import ListNotations.
Open Scope R_scope.

(** An integrator that holds the initial state. *)
Definition ivp_hold : ivp_t := fun _ a b y e =>
  Ok {| r_success := true; r_status := 0; r_message := ""; r_t := [a; b];
        r_sol := fun _ => y; r_t_events := map (fun _ => []) e |}.
Lemma ivp_hold_contract : ivp_contract ivp_hold.
Proof.
  constructor; unfold ivp_hold; intros f a b y e r H; injection H as <-; cbn; try reflexivity;
    try discriminate.
  apply map_length.
Qed.

(** Flat plate object started with the momentum thickness [d]. *)
Definition plate (c : ic) : meth := set_ic w_thwaites c.

Lemma plate_solve d du nu x0 x1 : 0 < d ->
  let c := {| ic_du := du; ic_nu := nu; ic_body_of := Manual (Fin 0) (Fin d) (Fin 0) |} in
  q_delta_m (fst (solve ivp_hold (plate c) x0 x1 [])) x0 = Ok (Fin d).
Proof.
  intros H c. unfold solve, plate. cbn [m_ic set_ic m_nu w_thwaites]. unfold ic_set_nu.
  cbn [xleb]. rewrite Rleb_false by lra.
  match goal with |- context [q_du_e ?M x0] => change (q_du_e M x0) with (@Ok R 0) end.
  cbn iota beta. cbv zeta.
  match goal with |- context [ode_setup ?M] =>
    assert (E : ode_setup M = Ok [Fin (d * d)]) end.
  { unfold ode_setup, c. cbn [m_kind set_ic m_ic m_nu w_thwaites ic_delta_m ic_set_du ic_body_of bind].
    unfold xsq. rewrite xmul_fin. rewrite py_div_fin by lra. cbn [bind]. do 3 f_equal. field. }
  rewrite E. unfold ivp_hold. cbn [r_success r_sol fst].
  unfold q_delta_m, sol_at. cbn [m_sol set_sol bind comp nth_error m_kind add_kill_events set_events
    set_ic w_thwaites m_nu].
  rewrite xmul_fin, xsqrt_fin by nra. rewrite Rmult_1_r, sqrt_square by lra. reflexivity.
Qed.

Lemma shared_witness pchip cubic_spline : exists ivp, ivp_contract ivp /\ exists w h d1 d2,
  (forall i, reachable pchip cubic_spline ivp (view w i)) /\
  w_ref w 0%nat = w_ref w 1%nat /\
  h = [WCall 0 (OpInitialDeltaM (Fin d2)); WCall 1 (OpSolve 0 1 [])] /\
  calls_of 1 h = [OpSolve 0 1 []] /\ d1 <> d2 /\
  q_delta_m (run pchip cubic_spline ivp (view w 1) (calls_of 1 h)) 0 = Ok (Fin d1) /\
  q_delta_m (view (wrun pchip cubic_spline ivp w h) 1) 0 = Ok (Fin d2).
Proof.
  exists ivp_hold. split; [apply ivp_hold_contract|].
  set (c := new_manual (Fin 0) (Fin (1/10)) (Fin 0)).
  exists {| w_conds := fun _ => c; w_meths := fun _ => w_thwaites; w_ref := fun _ => 0%nat;
            w_next := 1%nat |}.
  exists [WCall 0 (OpInitialDeltaM (Fin (1/2))); WCall 1 (OpSolve 0 1 [])], (1/10), (1/2).
  refine (conj _ (conj eq_refl (conj eq_refl (conj eq_refl (conj _ (conj _ _)))))); [|lra| |].
  - intros i. exists w_thwaites, [OpCondition c]. split; [apply w_thwaites_created|reflexivity].
  - change (q_delta_m (fst (solve ivp_hold (plate c) 0 1 [])) 0 = Ok (Fin (1/10))).
    apply plate_solve. lra.
  - set (w := {| w_conds := _ |}).
    assert (V : view (wrun pchip cubic_spline ivp_hold w
                  [WCall 0 (OpInitialDeltaM (Fin (1/2)))]) 1
                = plate (new_manual (Fin 0) (Fin (1/2)) (Fin 0))).
    { unfold wrun. cbn [fold_left wstep step fst snd no_result].
      unfold set_initial_delta_m. cbn [xleb view m_ic set_ic w w_conds w_meths w_ref].
      unfold c, new_manual. cbn [ic_body_of]. rewrite Rleb_false by lra. reflexivity. }
    unfold wrun in *. cbn [fold_left] in *.
    set (w1 := fst (wstep pchip cubic_spline ivp_hold w _)) in *.
    cbn [wstep step fst snd]. rewrite V.
    change (q_delta_m (fst (solve ivp_hold (plate (new_manual (Fin 0) (Fin (1/2)) (Fin 0))) 0 1 [])) 0
            = Ok (Fin (1/2))).
    apply plate_solve. lra.
Qed.
