(** Concrete objects for C148 and C149. *)
From Coq Require Import Reals List String Bool ZArith Lra.
From Coquelicot Require Import Coquelicot.
From Verif Require Import PyBase PyBaseFacts FiniteDiffModel PPolyModel InitialConditionModel ThwaitesFitsModel
  ThwaitesFitsProps HeadModel CoreModel CoreSpec CoreProofs CoreHistoryProofs CoreRefute SplineSpec SplineProofs
  OdeSpec WorkflowSpec LocationProofs AccelerationProofs LinearFlowSpec LinearFlowProofs.
Import ListNotations.
Open Scope R_scope.

(** ** U = x, viscosity 1, started from the stagnation-point condition *)
Definition stag_m : meth :=
  {| m_kind := ThwaitesLinear; m_nu := Fin 1; m_u := Some (VF (fun x => 0 + 1 * x) KFloat);
     m_du := Some (VF (fun _ => 1) KFloat); m_d2u := Some VFd1DU;
     m_ic := {| ic_du := Fin 0; ic_nu := Fin 1; ic_body_of := FSStag |}; m_fit := Some fit_white;
     m_events := [thwaites_event fit_white]; m_sol := None |}.
Definition stag_s (x : R) : R := 75/1000 + (hiemenz - 75/1000) * ((1/1000) / (1/1000 + x))^6.
Lemma stag_reachable pchip cs ivp : reachable pchip cs ivp stag_m.
Proof.
  exists {| m_kind := ThwaitesLinear; m_nu := Fin 1; m_u := Some (VF (fun x => 0 + 1 * x) KFloat);
     m_du := Some (VF (fun _ => 1) KFloat); m_d2u := Some VFd1DU;
     m_ic := new_manual (Fin 0) PInf (Fin 0); m_fit := Some fit_white;
     m_events := [thwaites_event fit_white]; m_sol := None |},
    [OpCondition {| ic_du := Fin 0; ic_nu := Fin 1; ic_body_of := FSStag |}].
  split.
  - apply (created_thwaites pchip cs true (Fin 1)
      (PCall {| c_fun := fun x => 0 + 1 * x; c_ret := KFloat; c_deriv := None |})
      (PCall (const_call 1)) PNone (FName "White")).
    unfold new_thwaites, new_base, new_fs, ic_set_nu. cbn [xleb].
    rewrite Rleb_false by lra. reflexivity.
  - reflexivity.
Qed.
Lemma stag_initial : initial_state stag_m 0 [Fin (stag_s 0)].
Proof.
  pose proof hiemenz_value as Hz.
  assert (E0 : stag_s 0 = hiemenz).
  { unfold stag_s. replace (1/1000 / (1/1000 + 0)) with 1 by field. rewrite pow1. ring. }
  replace (Fin (stag_s 0)) with (Fin (sqrt hiemenz) * Fin (sqrt hiemenz) / m_nu stag_m)%xr.
  - apply (initial_state_thwaites stag_m 0 1 (Fin (sqrt hiemenz))); [discriminate|reflexivity|].
    unfold ic_delta_m. cbn [ic_body_of m_ic stag_m ic_nu ic_du m_nu].
    rewrite !xmul_fin, xadd_fin, xmul_fin. unfold py_div, fs_shape_d, fs_eta_m, fs_fpp0.
    cbn [xeqb]. rewrite Reqb_false by lra. cbn [bind]. rewrite xdiv_fin by lra.
    replace (1 * (29235 / 100000) * (123259 / 100000) / ((22162 / 10000 + 2) * 1)) with hiemenz
      by (unfold hiemenz; field; lra).
    rewrite xsqrt_fin by lra. reflexivity.
  - cbn [m_nu stag_m]. rewrite xmul_fin, xdiv_fin, sqrt_sqrt by lra. f_equal. rewrite E0. field.
Qed.
Lemma stag_flow s c l : s = Some (fun x => [Fin (stag_s x)]) ->
  linear_flow (set_sol (set_events (set_ic stag_m c) l) s) 0 1 stag_s 0 1.
Proof.
  intros ->. split.
  - intros x Hx. split.
    + split; [exists (mkposreal 1 Rlt_0_1); intros; reflexivity|]. split; [auto_derive; [exact I|ring]|reflexivity].
    + exists ((45/100 - 6 * (stag_s x * 1)) / (1/1000 + (0 + 1 * x))). split.
      * unfold ode_impl, calc_f, calc_lambda.
        cbn [m_kind stag_m q_du_e m_du call_du bind q_u_e m_u call_plain set_sol set_events set_ic].
        rewrite !xmul_fin, xsub_fin, xadd_fin, xdiv_fin by lra. reflexivity.
      * unfold stag_s. set (h := hiemenz). auto_derive; [lra|]. field. lra.
  - eexists. split; [reflexivity|]. reflexivity.
Qed.
Lemma stag_witness pchip cs : exists ivp, ivp_contract ivp /\ roots_are_zeros ivp /\
  exists st m' ir s, reachable pchip cs ivp st /\ solve ivp st 0 1 [] = (m', Ok ir) /\ ir_x_end ir = 1 /\
    m_kind m' = ThwaitesLinear /\ ic_body_of (m_ic st) = FSStag /\ ic_body_of (m_ic m') = FSStag /\ m_nu m' = Fin 1 /\
    linear_flow m' 0 1 s 0 1 /\ initial_state st 0 [Fin (s 0)] /\ initial_state m' 0 [Fin (s 0)].
Proof.
  set (sol := fun x => [Fin (stag_s x)]). destruct (ivp_follow_contract sol) as [C1 C2].
  exists (ivp_follow sol). split; [exact C1|]. split; [exact C2|].
  pose proof (solve_cases (ivp_follow sol) stag_m 0 1 [] (reachable_nu _ _ _ _ (stag_reachable pchip cs (ivp_follow sol)))) as C.
  destruct (solve (ivp_follow sol) stag_m 0 1 []) as [m' r] eqn:ES. cbn [fst snd] in C.
  inversion C as [c e N B E1 E2|c y0 e I0 B V E1 E2|c y0 r' I0 B V E1 E2]; subst.
  - exfalso. exact (N _ stag_initial).
  - discriminate V.
  - injection V as <-. exists stag_m. eexists. eexists. exists stag_s.
    split; [apply stag_reachable|]. split; [exact ES|]. split; [reflexivity|]. split; [reflexivity|].
    split; [reflexivity|]. split; [exact B|]. split; [reflexivity|].
    split; [apply stag_flow; reflexivity|]. split; [exact stag_initial|].
    pose proof stag_initial as Q. inversion Q as [du d K0 QD HD E|].
    match goal with |- initial_state ?mm _ _ => apply (initial_state_thwaites mm 0 du d); [exact K0|exact QD|] end.
    cbn [m_ic set_sol set_events set_ic]. rewrite B. exact HD.
Qed.

(** ** U = 1 - x, viscosity 1, started with thickness 0 *)
Definition ret_m (f : fit) : meth :=
  {| m_kind := ThwaitesLinear; m_nu := Fin 1; m_u := Some (VF (fun x => 1 + - (1 / 1) * x) KFloat);
     m_du := Some (VF (fun _ => - (1 / 1)) KFloat); m_d2u := Some VFd1DU;
     m_ic := new_manual (Fin 0) (Fin 0) (Fin 0); m_fit := Some f;
     m_events := [thwaites_event f]; m_sol := None |}.
Definition ret_s (x : R) : R := 75/1000 * ((1001/1000 / (1001/1000 - x))^6 - 1).
Lemma ret_reachable pchip cs ivp f : In f [fit_white; fit_cb] -> reachable pchip cs ivp (ret_m f).
Proof.
  intros Hf.
  exists {| m_kind := ThwaitesLinear; m_nu := Fin 1; m_u := Some (VF (fun x => 1 + - (1 / 1) * x) KFloat);
     m_du := Some (VF (fun _ => - (1 / 1)) KFloat); m_d2u := Some VFd1DU;
     m_ic := new_manual (Fin 0) PInf (Fin 0); m_fit := Some f;
     m_events := [thwaites_event f]; m_sol := None |},
    [OpCondition (new_manual (Fin 0) (Fin 0) (Fin 0))].
  split; [|reflexivity].
  destruct Hf as [<-|[<-|[]]].
  - apply (created_thwaites pchip cs true (Fin 1)
      (PCall {| c_fun := fun x => 1 + - (1 / 1) * x; c_ret := KFloat; c_deriv := None |})
      (PCall (const_call (- (1 / 1)))) PNone (FName "White")).
    unfold new_thwaites, new_base, new_fs, ic_set_nu. cbn [xleb].
    rewrite Rleb_false by lra. reflexivity.
  - apply (created_thwaites pchip cs true (Fin 1)
      (PCall {| c_fun := fun x => 1 + - (1 / 1) * x; c_ret := KFloat; c_deriv := None |})
      (PCall (const_call (- (1 / 1)))) PNone (FName "Cebeci-Bradshaw")).
    unfold new_thwaites, new_base, new_fs, ic_set_nu. cbn [xleb].
    rewrite Rleb_false by lra. reflexivity.
Qed.
Lemma ret_flow f s c l : s = Some (fun x => [Fin (ret_s x)]) -> 
  retarded_flow (set_sol (set_events (set_ic (ret_m f) c) l) s) 1 1 ret_s (9/10).
Proof.
  intros ->. split; [split|].
  - intros x Hx. split.
    + split; [exists (mkposreal 1 Rlt_0_1); intros; reflexivity|]. split; [auto_derive; [exact I|ring]|reflexivity].
    + exists ((45/100 - 6 * (ret_s x * - (1 / 1))) / (1/1000 + (1 + - (1 / 1) * x))). split.
      * unfold ode_impl, calc_f, calc_lambda.
        cbn [m_kind ret_m q_du_e m_du call_du bind q_u_e m_u call_plain set_sol set_events set_ic].
        rewrite !xmul_fin, xsub_fin, xadd_fin, xdiv_fin by lra. reflexivity.
      * unfold ret_s. auto_derive; [lra|]. field. lra.
  - eexists. split; [reflexivity|]. reflexivity.
  - unfold ret_s. replace (1001/1000 / (1001/1000 - 0)) with 1 by field. rewrite pow1. ring.
Qed.
Lemma ret_initial f : initial_state (ret_m f) 0 [Fin 0].
Proof.
  replace (Fin 0) with (Fin 0 * Fin 0 / m_nu (ret_m f))%xr.
  - apply (initial_state_thwaites (ret_m f) 0 (- (1 / 1)) (Fin 0)); [discriminate|reflexivity|reflexivity].
  - cbn [m_nu ret_m]. rewrite xmul_fin, xdiv_fin by lra. f_equal. field.
Qed.

(** An integrator that follows [sol] and stops at [xs] if the event function is zero there. *)
Definition ivp_until (sol : R -> list xr) (xs : R) : ivp_t := fun _ a b _ e =>
  let stop := {| r_success := true; r_status := 1; r_message := ""; r_t := [a; xs];
                 r_sol := sol; r_t_events := [[xs]] |} in
  let go := {| r_success := true; r_status := 0; r_message := ""; r_t := [a; b];
               r_sol := sol; r_t_events := map (fun _ => []) e |} in
  match e with
  | [(_, g)] => match g xs (sol xs) with
                | Ok v => if xeqb v (Fin 0) then Ok stop else Ok go
                | Err _ => Ok go
                end
  | _ => Ok go
  end.
Lemma ivp_until_contract sol xs : ivp_contract (ivp_until sol xs) /\ roots_are_zeros (ivp_until sol xs).
Proof.
  split.
  - constructor; unfold ivp_until; intros f a b y e r H;
      (destruct e as [|[t g] [|e2 e']]; [| |]);
      try (destruct (g xs (sol xs)) as [v|]; [destruct (xeqb v (Fin 0))|]);
      injection H as <-; cbn; try reflexivity; try discriminate;
      try (rewrite map_length; reflexivity).
    intros _ _. exists 0%nat, xs. split; [reflexivity|].
    intros [|j] l Hj Hne; [congruence|]. destruct j; discriminate.
  - intros f a b y e r H i t g roots x Hg Hr Hx. unfold ivp_until in H.
    destruct e as [|[t' g'] [|e2 e']].
    + destruct i; discriminate.
    + destruct (g' xs (sol xs)) as [v|] eqn:E; [destruct (xeqb v (Fin 0)) eqn:EV|].
      * injection H as <-. cbn [r_t_events r_sol] in *.
        destruct i as [|i]; [|destruct i; discriminate]. cbn in Hg, Hr.
        injection Hg as <- <-. injection Hr as <-. destruct Hx as [<-|[]]. rewrite E.
        destruct v; try discriminate EV. apply Reqb_iff in EV. subst. reflexivity.
      * injection H as <-. exfalso. exact (map_nil_In [(t', g')] _ _ _ Hr Hx).
      * injection H as <-. exfalso. exact (map_nil_In [(t', g')] _ _ _ Hr Hx).
    + injection H as <-. exfalso. exact (map_nil_In ((t', g') :: e2 :: e') _ _ _ Hr Hx).
Qed.

Lemma ret_witness pchip cs f xs : In f [fit_white; fit_cb] -> 0 <= xs <= 9/10 ->
  shear f (Fin (ret_s xs * - (1 / 1))) = Fin 0 ->
  exists ivp, ivp_contract ivp /\ roots_are_zeros ivp /\
  exists m' ir, reachable pchip cs ivp (ret_m f) /\ solve ivp (ret_m f) 0 1 [] = (m', Ok ir) /\
    ir_status ir = SEPARATED /\ ir_x_end ir = xs /\ m_kind m' = ThwaitesLinear /\ m_fit m' = Some f /\ m_nu m' = Fin 1 /\
    retarded_flow m' 1 1 ret_s xs.
Proof.
  intros Hf Hx Z. set (sol := fun x => [Fin (ret_s x)]). destruct (ivp_until_contract sol xs) as [C1 C2].
  exists (ivp_until sol xs). split; [exact C1|]. split; [exact C2|].
  assert (HR := ret_reachable pchip cs (ivp_until sol xs) f Hf).
  pose proof (solve_cases (ivp_until sol xs) (ret_m f) 0 1 [] (reachable_nu _ _ _ _ HR)) as C.
  destruct (solve (ivp_until sol xs) (ret_m f) 0 1 []) as [m' r] eqn:ES. cbn [fst snd] in C.
  set (R1 := {| r_success := true; r_status := 1; r_message := ""; r_t := [0; xs];
                r_sol := sol; r_t_events := [[xs]] |}).
  assert (HI : forall y, ivp_until sol xs (ode_impl (ret_m f)) 0 1 y (ivp_events (ret_m f) (m_events (ret_m f) ++ [])) = Ok R1).
  { intros y. unfold ivp_until, ivp_events.
    change (map (fun e => (ev_terminal e, event_value (ret_m f) e)) (m_events (ret_m f) ++ []))
      with [(true, event_value (ret_m f) (thwaites_event f))].
    cbv iota beta.
    assert (EV : event_value (ret_m f) (thwaites_event f) xs (sol xs) = Ok (Fin 0)).
    { unfold event_value, calc_lambda, sol. cbn [ev_src thwaites_event q_du_e m_du ret_m call_du bind].
      rewrite xmul_fin, Z. reflexivity. }
    rewrite EV. cbn [xeqb]. rewrite Reqb_true by reflexivity. reflexivity. }
  inversion C as [c e N B E1 E2|c y0 e I0 B V E1 E2|c y0 r' I0 B V E1 E2]; subst.
  - exfalso. exact (N _ (ret_initial f)).
  - rewrite HI in V. discriminate.
  - rewrite HI in V. injection V as <-. eexists. eexists. split; [exact HR|]. split; [reflexivity|].
    cbn [ir_status ir_x_end]. split; [reflexivity|]. split; [reflexivity|]. split; [reflexivity|].
    split; [reflexivity|]. split; [reflexivity|].
    destruct (ret_flow f (Some sol) c (m_events (ret_m f) ++ []) eq_refl) as [G S0].
    split; [|exact S0]. apply (flow_shrink _ _ _ _ _ (9/10)); [exact G|lra].
Qed.

Lemma ret_white_zero : shear fit_white (Fin (ret_s (1/8) * - (1 / 1))) = Fin 0.
Proof.
  apply (proj1 (proj2 white_shear_zero_iff)). unfold ret_s.
  replace (1001/1000 - 1/8) with (876/1000) by field. lra.
Qed.
