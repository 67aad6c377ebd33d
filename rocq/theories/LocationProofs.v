From Coq Require Import Reals List String Bool ZArith Lra Lia.
From Coquelicot Require Import Coquelicot.
From Verif Require Import PyBase PyBaseFacts XDeriv FiniteDiffModel PPolyModel
  InitialConditionModel ThwaitesFitsModel ThwaitesFitsProofs ThwaitesFitsProps HeadModel CoreModel CoreSpec CoreProofs
  CoreHistoryProofs CoreRefute SplineSpec SplineProofs SplineProps WorkflowModel WorkflowSpec.
Import ListNotations.
Open Scope R_scope.

Section Location.
Variable pchip : ndarray -> ndarray -> res ppoly.
Variable cubic_spline : list R -> list R -> (xr -> xr) * (xr -> xr).
Variable solve_ivp :
  (R -> list xr -> res (list xr)) -> R -> R -> list xr ->
  list (bool * (R -> list xr -> res xr)) -> res ivp_result.

Lemma first_event_root te : forall evs x e, first_event te evs = Ok (Some (x, e)) ->
  exists i roots, nth_error te i = Some roots /\ In x roots /\ nth_error evs i = Some e.
Proof.
  induction te as [|[|y ys] te IH]; intros evs x e H; cbn in H; try discriminate.
  - destruct (IH _ _ _ H) as (i & roots & A & B & C). exists (S i), roots.
    split; [exact A|]. split; [exact B|]. destruct evs; [destruct i; discriminate|exact C].
  - destruct evs as [|e' evs]; [discriminate|]. injection H as <- <-.
    exists 0%nat, (y :: ys). split; [reflexivity|]. split; [left; reflexivity|reflexivity].
Qed.

(** C97 *)
Lemma location_lemma s x0 x1 l m' ir :
  reachable pchip cubic_spline solve_ivp s -> m_kind s <> Head ->
  roots_are_zeros solve_ivp ->
  (forall e, In e (tl (m_events s) ++ l) -> ev_reason e <> SEPARATED) ->
  solve solve_ivp s x0 x1 l = (m', Ok ir) -> ir_status ir = SEPARATED ->
  exists f sol z du, m_fit m' = Some f /\ m_sol m' = Some sol /\ sol (ir_x_end ir) = [z] /\
    q_du_e m' (ir_x_end ir) = Ok du /\ shear f (z * Fin du)%xr = Fin 0 /\
    forall v, z = Fin v ->
      (f = fit_white -> v * du <= -9/100) /\
      (f = fit_cb -> -900/10000 < v * du < -898/10000) /\
      (f = fit_spline cubic_spline -> cubic_spline_ok cubic_spline -> v * du <= -9/100) /\
      (f = fit_drela -> 6/10 < v * du) /\
      (0 < v -> forall nu u rho, m_nu m' = Fin nu -> 0 < nu -> q_u_e m' (ir_x_end ir) = Ok u ->
         q_tau_w_thwaites m' (ir_x_end ir) rho = Ok (Fin 0)).
Proof.
  intros HR HK HZ HE HS HT.
  assert (HN := reachable_nu _ _ _ _ HR).
  destruct HR as (m0 & h & HC & Es).
  assert (HK0 : m_kind m0 <> Head).
  { intros Q. apply HK. rewrite Es. clear - Q.
    assert (G : forall g m, m_kind (run pchip cubic_spline solve_ivp m g) = m_kind m).
    { induction g as [|o g IH]; intros m; [reflexivity|]. rewrite run_cons, IH. apply step_kind. }
    rewrite G. exact Q. }
  destruct (event_fit_history pchip cubic_spline solve_ivp m0 h HC HK0) as (f & rest & EF & EE).
  rewrite <- Es in EF, EE.
  pose proof (solve_cases solve_ivp s x0 x1 l HN) as C. rewrite HS in C. cbn [fst snd] in C.
  inversion C as [| |c y0 r HI HB HV E1 E2]; subst m'.
  unfold gather in E2. destruct (r_success r) eqn:ER; [|injection E2 as <-; discriminate HT].
  destruct (Z.eqb (r_status r) 0).
  { destruct (last_t (r_t r)); [|discriminate]. injection E2 as <-. discriminate HT. }
  destruct (Z.eqb (r_status r) 1); [|injection E2 as <-; discriminate HT].
  destruct (first_event (r_t_events r) (m_events s ++ l)) as [[[x e]|]|] eqn:FE; try discriminate;
    [|injection E2 as <-; discriminate HT].
  injection E2 as <-. cbn [ir_status ir_x_end] in *.
  destruct (first_event_root _ _ _ _ FE) as (i & roots & A & B & D).
  rewrite EE in D, HE. cbn [tl app] in D, HE.
  destruct i as [|i]; [|exfalso; apply (HE e); [exact (nth_error_In (rest ++ l) i D)|exact HT]].
  cbn in D. injection D as <-.
  assert (ND : nth_error (ivp_events s (m_events s ++ l)) 0 =
               Some (true, event_value s (thwaites_event f))) by (rewrite EE; reflexivity).
  pose proof (HZ _ _ _ _ _ _ HV 0%nat _ _ roots x ND A B) as Z0.
  unfold event_value in Z0. cbn [ev_src thwaites_event] in Z0.
  destruct (r_sol r x) as [|z [|]] eqn:ES; try discriminate.
  unfold calc_lambda in Z0. destruct (q_du_e s x) as [du|] eqn:ED; [|discriminate].
  cbn [bind] in Z0. injection Z0 as Z0.
  exists f, (r_sol r), z, du. cbn [m_fit m_sol set_sol set_events set_ic].
  split; [exact EF|]. split; [reflexivity|]. split; [exact ES|].
  split; [exact ED|]. split; [exact Z0|].
  intros v ->. rewrite xmul_fin in Z0. refine (conj _ (conj _ (conj _ (conj _ _)))).
  - intros ->. apply (proj1 (proj2 white_shear_zero_iff)). exact Z0.
  - intros ->. destruct cebeci_bradshaw_shear_zero as (q & Q1 & Q2 & Q3 & Q4).
    destruct (Rtotal_order (v * du) q) as [L|[->|L]]; [|lra|].
    + destruct (Q3 _ L) as (w & W & Wn). rewrite W in Z0. injection Z0 as ->. lra.
    + pose proof (Q4 _ L) as Q5. rewrite Z0 in Q5. cbn in Q5.
      destruct Q5 as (w & W & Wn). injection W as <-. lra.
  - intros -> OK. destruct (proj1 (default_fit_well_behaved _ OK) (v * du)) as (w & W & _ & Q).
    rewrite Z0 in W. injection W as <-. apply Q. reflexivity.
  - intros ->. destruct (Rle_dec (v * du) (6/10)) as [L|L]; [|lra].
    pose proof (drela_separation_refuted _ L) as P. rewrite Z0 in P. cbn in P.
    destruct P as (w & W & Wn). injection W as <-. lra.
  - intros Hv nu u rho Hnu Pn Hu. cbn [m_nu set_sol set_events set_ic] in Hnu.
    unfold q_tau_w_thwaites, sol_at. cbn [m_sol set_sol bind]. rewrite ES. cbn [comp nth_error bind].
    change (calc_lambda (set_sol (set_events (set_ic s c) (m_events s ++ l)) (Some (r_sol r))) x (Fin v))
      with (calc_lambda s x (Fin v)).
    unfold calc_lambda. rewrite ED. cbn [bind]. rewrite Hu. cbn [bind].
    cbn [m_fit set_sol set_events set_ic]. rewrite EF.
    unfold q_delta_m, sol_at. cbn [m_sol set_sol bind]. rewrite ES. cbn [comp nth_error bind].
    cbn [m_kind m_nu set_sol set_events set_ic].
    assert (Q : (match m_kind s with Head => Ok (Fin v) | _ => Ok (xsqrt (Fin v * m_nu s)%xr) end)
                = Ok (Fin (sqrt (v * nu)))).
    { rewrite Hnu, xmul_fin, xsqrt_fin by nra. destruct (m_kind s); congruence. }
    rewrite Q. cbn [bind]. rewrite Hnu, !xmul_fin, Z0, xmul_fin.
    rewrite xdiv_fin; [f_equal; f_equal; unfold Rdiv; ring|].
    assert (0 < sqrt (v * nu)) by (apply sqrt_lt_R0; nra). lra.
Qed.

(* ------------------------------------------------------------------ *)
(** * The reported location need not be the first one *)

(** U_e = 1 - x with nu = 1, started with delta_m = 0.1: the exact solution of the linear
    method. *)
Definition late_s (x : R) : R := 85/1000 * (1001/1000 / (1001/1000 - x))^6 - 75/1000.

Lemma late_s_derive x : x <= 1/5 ->
  is_derive late_s x ((45/100 - 6 * (late_s x * -1)) / (1/1000 + (1 - x))).
Proof.
  intros H. unfold late_s. auto_derive; [lra|]. field. lra.
Qed.

Definition late_m : meth :=
  {| m_kind := ThwaitesLinear; m_nu := Fin 1; m_u := Some (VF (fun x => 1 - x) KFloat);
     m_du := Some (VF (fun _ => -1) KFloat); m_d2u := Some VFd1DU;
     m_ic := new_manual (Fin 0) (Fin (1/10)) (Fin 0); m_fit := Some fit_white;
     m_events := [thwaites_event fit_white]; m_sol := None |}.

Lemma late_reachable : reachable pchip cubic_spline solve_ivp late_m.
Proof.
  exists {| m_kind := ThwaitesLinear; m_nu := Fin 1; m_u := Some (VF (fun x => 1 - x) KFloat);
     m_du := Some (VF (fun _ => -1) KFloat); m_d2u := Some VFd1DU;
     m_ic := new_manual (Fin 0) PInf (Fin 0); m_fit := Some fit_white;
     m_events := [thwaites_event fit_white]; m_sol := None |}, [OpInitialDeltaM (Fin (1/10))].
  split.
  - apply (created_thwaites pchip cubic_spline true (Fin 1)
      (PCall {| c_fun := fun x => 1 - x; c_ret := KFloat; c_deriv := None |})
      (PCall (const_call (-1))) PNone (FName "White")).
    unfold new_thwaites, new_base, new_fs, ic_set_nu. cbn [xleb].
    rewrite Rleb_false by lra. reflexivity.
  - cbn [run fold_left step no_result fst]. unfold run. cbn [fold_left step no_result fst].
    unfold set_initial_delta_m. cbn [xleb]. rewrite Rleb_false by lra. reflexivity.
Qed.

End Location.

(** An integrator that reports the point 1/5 when the event function is zero there. *)
Definition ivp_late : ivp_t := fun _ a b _ e =>
  let stop := {| r_success := true; r_status := 1; r_message := ""; r_t := [a; 1/5];
                 r_sol := fun x => [Fin (late_s x)]; r_t_events := [[1/5]] |} in
  let go := {| r_success := true; r_status := 0; r_message := ""; r_t := [a; b];
               r_sol := fun x => [Fin (late_s x)]; r_t_events := map (fun _ => []) e |} in
  match e with
  | [(_, g)] => match g (1/5) [Fin (late_s (1/5))] with
                | Ok v => if xeqb v (Fin 0) then Ok stop else Ok go
                | Err _ => Ok go
                end
  | _ => Ok go
  end.

Lemma map_nil_In {A B} (e : list A) i (roots : list B) x :
  nth_error (map (fun _ => []) e) i = Some roots -> In x roots -> False.
Proof.
  revert i. induction e as [|a e IH]; intros [|i] H I0; cbn in H; try discriminate.
  - injection H as <-. exact I0.
  - exact (IH i H I0).
Qed.

Lemma ivp_late_contract : ivp_contract ivp_late /\ roots_are_zeros ivp_late.
Proof.
  split.
  - constructor; unfold ivp_late; intros f a b y e r H;
      (destruct e as [|[t g] [|e2 e']]; [| |]);
      try (destruct (g (1/5) [Fin (late_s (1/5))]) as [v|]; [destruct (xeqb v (Fin 0))|]);
      injection H as <-; cbn; try reflexivity; try discriminate;
      try (rewrite map_length; reflexivity).
    intros _ _. exists 0%nat, (1/5). split; [reflexivity|].
    intros [|j] l Hj Hne; [congruence|]. destruct j; discriminate.
  - intros f a b y e r H i t g roots x Hg Hr Hx. unfold ivp_late in H.
    destruct e as [|[t' g'] [|e2 e']].
    + destruct i; discriminate.
    + destruct (g' (1/5) [Fin (late_s (1/5))]) as [v|] eqn:E; [destruct (xeqb v (Fin 0)) eqn:EV|].
      * injection H as <-. cbn [r_t_events r_sol] in *.
        destruct i as [|i]; [|destruct i; discriminate]. cbn in Hg, Hr.
        injection Hg as <- <-. injection Hr as <-. destruct Hx as [<-|[]]. rewrite E.
        destruct v; try discriminate EV. apply Reqb_iff in EV. subst. reflexivity.
      * injection H as <-. exfalso. exact (map_nil_In [(t', g')] _ _ _ Hr Hx).
      * injection H as <-. exfalso. exact (map_nil_In [(t', g')] _ _ _ Hr Hx).
    + injection H as <-. exfalso. exact (map_nil_In ((t', g') :: e2 :: e') _ _ _ Hr Hx).
Qed.

Lemma late_s_big x : 15/100 <= x <= 1/5 -> 9/100 <= late_s x.
Proof.
  intros H. unfold late_s. set (q := 1001/1000 / (1001/1000 - x)).
  assert (Q : 117/100 <= q).
  { unfold q. apply (Rle_div_r (117/100) (1001/1000) (1001/1000 - x)); lra. }
  assert ((117/100)^6 <= q^6) by (apply pow_incr; lra). lra.
Qed.

Lemma late_witness pchip cubic_spline : exists ivp, ivp_contract ivp /\ roots_are_zeros ivp /\
  exists s (sol : R -> R) m' ir, reachable pchip cubic_spline ivp s /\
    initial_state s 0 [Fin (sol 0)] /\
    (forall x, 0 <= x <= 1/5 -> exists d, is_derive sol x d /\
       ode_impl s x [Fin (sol x)] = Ok [Fin d]) /\
    solve ivp s 0 1 [] = (m', Ok ir) /\ ir_status ir = SEPARATED /\ ir_x_end ir = 1/5 /\
    m_sol m' = Some (fun x => [Fin (sol x)]) /\
    forall x, 15/100 <= x <= 1/5 -> q_tau_w_thwaites m' x 1 = Ok (Fin 0).
Proof.
  destruct ivp_late_contract as [C1 C2]. exists ivp_late. split; [exact C1|]. split; [exact C2|].
  assert (HS : initial_state late_m 0 [Fin (late_s 0)]).
  { replace (Fin (late_s 0)) with (Fin (1/10) * Fin (1/10) / m_nu late_m)%xr.
    - apply (initial_state_thwaites late_m 0 (-1) (Fin (1/10))); [discriminate|reflexivity|reflexivity].
    - cbn [m_nu late_m]. rewrite xmul_fin, xdiv_fin by lra. f_equal. unfold late_s. field. }
  assert (HV : forall x, 15/100 <= x <= 1/5 -> shear fit_white (Fin (late_s x * -1)) = Fin 0).
  { intros x Hx. apply (proj1 (proj2 white_shear_zero_iff)). pose proof (late_s_big x Hx). lra. }
  pose proof (solve_cases ivp_late late_m 0 1 []) as HC.
  specialize (HC (reachable_nu _ _ _ _ (late_reachable pchip cubic_spline ivp_late))).
  destruct (solve ivp_late late_m 0 1 []) as [m' r] eqn:ES. cbn [fst snd] in HC.
  set (R1 := {| r_success := true; r_status := 1; r_message := ""; r_t := [0; 1/5];
                r_sol := fun x => [Fin (late_s x)]; r_t_events := [[1/5]] |}).
  assert (HI : forall y, ivp_late (ode_impl late_m) 0 1 y (ivp_events late_m (m_events late_m ++ []))
               = Ok R1).
  { intros y. unfold ivp_late, ivp_events.
    change (map (fun e => (ev_terminal e, event_value late_m e)) (m_events late_m ++ []))
      with [(true, event_value late_m (thwaites_event fit_white))].
    cbv iota beta.
    assert (EV : event_value late_m (thwaites_event fit_white) (1/5) [Fin (late_s (1/5))] = Ok (Fin 0)).
    { unfold event_value, calc_lambda. cbn [ev_src thwaites_event q_du_e m_du late_m call_du bind].
      rewrite xmul_fin, HV by lra. reflexivity. }
    rewrite EV. cbn [xeqb]. rewrite Reqb_true by reflexivity. reflexivity. }
  inversion HC as [c e N B E1 E2|c y0 e I0 B V E1 E2|c y0 r' I0 B V E1 E2]; subst.
  - exfalso. apply (N _ HS).
  - rewrite HI in V. discriminate.
  - rewrite HI in V. injection V as <-.
    exists late_m, late_s. eexists. eexists.
    split; [apply late_reachable|]. split; [exact HS|]. split.
    { intros x Hx. eexists. split; [apply late_s_derive; lra|].
      unfold ode_impl, calc_f, calc_lambda.
      cbn [m_kind late_m q_du_e m_du call_du bind q_u_e m_u call_plain].
      rewrite !xmul_fin, xsub_fin, xadd_fin, xdiv_fin by lra. reflexivity. }
    split; [exact ES|]. cbn [ir_status ir_x_end].
    split; [reflexivity|]. split; [reflexivity|]. split; [reflexivity|].
    intros x Hx. unfold q_tau_w_thwaites, q_delta_m, sol_at, calc_lambda.
    cbn [m_sol set_sol r_sol R1 r_success comp nth_error bind q_du_e m_du set_events set_ic late_m call_du
         q_u_e m_u call_plain m_fit m_kind m_nu].
    pose proof (late_s_big x Hx) as P.
    rewrite !xmul_fin, HV by exact Hx. rewrite xsqrt_fin by lra. rewrite xmul_fin.
    rewrite xdiv_fin; [f_equal; f_equal; unfold Rdiv; ring|].
    assert (0 < sqrt (late_s x * 1)) by (apply sqrt_lt_R0; lra). lra.
Qed.
