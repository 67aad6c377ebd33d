(** Concrete programs: witnesses for refuted properties and for the hypotheses of the
    core theorems. *)
From Coq Require Import Reals List String Bool ZArith Lra Lia.
From Verif Require Import PyBase PyBaseFacts FiniteDiffModel PPolyModel
  InitialConditionModel ThwaitesFitsModel HeadModel CoreModel CoreSpec CoreProofs
  CoreHistoryProofs.
Import ListNotations.
Open Scope R_scope.

Definition const_call (v : R) : callable := {| c_fun := fun _ => v; c_ret := KFloat; c_deriv := None |}.

(** ThwaitesMethodLinear(nu=1, U_e=lambda x: 1, dU_e=lambda x: 0, data_fits="White"). *)
Definition w_thwaites : meth :=
  {| m_kind := ThwaitesLinear; m_nu := Fin 1; m_u := Some (VF (fun _ => 1) KFloat);
     m_du := Some (VF (fun _ => 0) KFloat); m_d2u := Some VFd1DU;
     m_ic := new_manual (Fin 0) PInf (Fin 0); m_fit := Some fit_white;
     m_events := [thwaites_event fit_white]; m_sol := None |}.
Lemma w_thwaites_new pchip cs :
  new_thwaites pchip cs true (Fin 1) (PCall (const_call 1)) (PCall (const_call 0)) PNone
    (FName "White") = Ok w_thwaites.
Proof.
  unfold new_thwaites, new_base, new_fs, ic_set_nu. cbn [xleb].
  rewrite Rleb_false by lra. reflexivity.
Qed.
Lemma w_thwaites_created pchip cs : created pchip cs w_thwaites.
Proof. eapply created_thwaites. apply w_thwaites_new. Qed.
Lemma created_reachable pchip cs ivp m : created pchip cs m -> reachable pchip cs ivp m.
Proof. intros H. exists m, []. split; [exact H|reflexivity]. Qed.

(** HeadMethod(nu=1, U_e=lambda x: 1, dU_e=lambda x: 0). *)
Definition w_head : meth :=
  {| m_kind := Head; m_nu := Fin 1; m_u := Some (VF (fun _ => 1) KFloat);
     m_du := Some (VF (fun _ => 0) KFloat); m_d2u := Some VFd1DU;
     m_ic := new_manual PInf PInf (Fin 0); m_fit := None;
     m_events := [head_sep_event (Fin (24/10))]; m_sol := None |}.
Lemma w_head_new pchip :
  new_head pchip (Fin 1) (PCall (const_call 1)) (PCall (const_call 0)) PNone (Fin (24/10))
   = Ok w_head.
Proof.
  unfold new_head, new_base, new_fs, ic_set_nu. cbn [xleb].
  rewrite Rleb_false by lra. reflexivity.
Qed.
Lemma w_head_created pchip cs : created pchip cs w_head.
Proof. eapply created_head. apply w_head_new. Qed.

Definition ivp_t :=
  (R -> list xr -> res (list xr)) -> R -> R -> list xr ->
  list (bool * (R -> list xr -> res xr)) -> res ivp_result.

(** An integrator that always reaches the end, with the constant solution [1]. *)
Definition ivp_end : ivp_t := fun _ a b _ e =>
  Ok {| r_success := true; r_status := 0; r_message := ""; r_t := [a; b];
        r_sol := fun _ => [Fin 1; Fin 2]; r_t_events := map (fun _ => []) e |}.
Lemma ivp_end_contract : ivp_contract ivp_end.
Proof.
  constructor; unfold ivp_end; intros f a b y e r H; injection H as <-; cbn; try reflexivity;
    try discriminate.
  apply map_length.
Qed.

(** An integrator that fails. *)
Definition ivp_fail : ivp_t := fun _ a b _ e =>
  Ok {| r_success := false; r_status := -1; r_message := "step"; r_t := [a];
        r_sol := fun _ => []; r_t_events := map (fun _ => []) e |}.
Lemma ivp_fail_contract : ivp_contract ivp_fail.
Proof.
  constructor; unfold ivp_fail; intros f a b y e r H; injection H as <-; cbn; try reflexivity;
    try discriminate.
  apply map_length.
Qed.

(** An integrator whose second event, if there is one and all are terminal, stops it at
    the midpoint. *)
Definition ivp_second : ivp_t := fun _ a b _ e =>
  match e with
  | _ :: _ :: e' =>
      Ok {| r_success := true; r_status := 1; r_message := ""; r_t := [a; (a + b) / 2];
            r_sol := fun _ => [Fin 1; Fin 2];
            r_t_events := [] :: [(a + b) / 2] :: map (fun _ => []) e' |}
  | _ => Ok {| r_success := true; r_status := 0; r_message := ""; r_t := [a; b];
               r_sol := fun _ => [Fin 1; Fin 2]; r_t_events := map (fun _ => []) e |}
  end.
Lemma ivp_second_contract : ivp_contract ivp_second.
Proof.
  constructor; unfold ivp_second; intros f a b y e r H;
    destruct e as [|e1 [|e2 e']]; injection H as <-; cbn; try reflexivity; try discriminate.
  - rewrite map_length. reflexivity.
  - intros _ _. exists 1%nat, ((a + b) / 2). split; [reflexivity|].
    intros [|[|j]] l Hj Hne; cbn in Hj; try congruence.
    clear -Hj. revert j Hj. induction e' as [|x e IH]; intros [|j] Hj; cbn in Hj; try discriminate.
    + congruence.
    + eapply IH. exact Hj.
Qed.

(** An integrator that crosses a first, non-terminal event at a quarter of the way and is
    stopped by the second one at the midpoint. *)
Definition ivp_nonterminal : ivp_t := fun _ a b _ e =>
  match e with
  | [_; (false, _); (true, _)] =>
      Ok {| r_success := true; r_status := 1; r_message := ""; r_t := [a; (a + b) / 2];
            r_sol := fun _ => [Fin 1; Fin 2];
            r_t_events := [[]; [(3 * a + b) / 4]; [(a + b) / 2]] |}
  | _ => Ok {| r_success := true; r_status := 0; r_message := ""; r_t := [a; b];
               r_sol := fun _ => [Fin 1; Fin 2]; r_t_events := map (fun _ => []) e |}
  end.
Lemma ivp_nonterminal_contract : ivp_contract ivp_nonterminal.
Proof.
  constructor; unfold ivp_nonterminal; intros f a b y e r H;
    destruct e as [|e1 [|[[] e2] [|[[] e3] [|e4 e']]]]; injection H as <-; cbn;
    try reflexivity; try discriminate; try (rewrite map_length; reflexivity).
  intros _ HF. inversion HF as [|? ? _ HF2]; subst. inversion HF2 as [|? ? HF3 _]; subst.
  discriminate.
Qed.

Definition user_event (r : reason) (t : bool) (msg : string) : event :=
  {| ev_reason := r; ev_message := msg; ev_terminal := t; ev_src := EvUser (fun _ _ => Fin 1) |}.

Section Witnesses.
Variable pchip : ndarray -> ndarray -> res ppoly.
Variable cs : list R -> list R -> (xr -> xr) * (xr -> xr).

Lemma w_solve ivp (m := w_thwaites) x0 x1 l : solve ivp m x0 x1 l =
  let c := {| ic_du := Fin 0; ic_nu := Fin 1; ic_body_of := Manual (Fin 0) PInf (Fin 0) |} in
  let m3 := add_kill_events (set_ic m c) l in
  match ivp (ode_impl m3) x0 x1 [PInf]
          (map (fun e => (ev_terminal e, event_value m3 e)) (m_events m3)) with
  | Err e => (m3, Err e)
  | Ok r => let m4 := set_sol m3 (if r_success r then Some (r_sol r) else None) in
            (m4, gather x0 [PInf] (m_events m4) r)
  end.
Proof.
  unfold solve, ic_set_nu. cbn [m_nu m_ic m w_thwaites new_manual xleb].
  rewrite Rleb_false by lra.
  assert (E : ode_setup (set_ic (set_ic w_thwaites {| ic_du := Fin 0; ic_nu := Fin 1;
      ic_body_of := Manual (Fin 0) PInf (Fin 0) |})
      (ic_set_du {| ic_du := Fin 0; ic_nu := Fin 1;
      ic_body_of := Manual (Fin 0) PInf (Fin 0) |} (Fin 0))) = Ok [PInf]).
  { unfold ode_setup. cbn [m_kind set_ic m_ic m_nu w_thwaites ic_delta_m ic_set_du ic_body_of bind].
    unfold py_div. cbn [xeqb]. rewrite Reqb_false by lra. cbn [bind].
    unfold xsq. cbn [xmul xdiv]. destruct (Req_EM_T 1 0); [lra|].
    unfold inf_times. destruct (Rlt_dec 0 1); [reflexivity|lra]. }
  cbv zeta. match goal with |- context [q_du_e ?M x0] => change (q_du_e M x0) with (@Ok R 0) end.
  cbv iota beta.
  match goal with |- context [ode_setup ?M] =>
    replace (ode_setup M) with (Ok [PInf]) by (symmetry; exact E) end.
  reflexivity.
Qed.

(** C04 *)
Lemma rejected_velocity_witness : forall ivp, exists m u du d2u m',
  reachable pchip cs ivp m /\ set_velocity pchip m u du d2u = (m', Err ValueError) /\
  q_u_e m 0 = Ok 1 /\ q_u_e m' 0 = Ok 2 /\ q_du_e m' 0 = Ok 0 /\ q_d2u_e m' 0 = q_d2u_e m 0.
Proof.
  intros ivp. exists w_thwaites, (PCall (const_call 2)), (PNum 5), PNone, (set_u w_thwaites (Some (VF (fun _ => 2) KFloat))).
  split; [apply created_reachable, w_thwaites_created|]. repeat split.
Qed.

(** C05 *)
Lemma bad_d2u_witness : forall ivp, exists m u du d2u m',
  reachable pchip cs ivp m /\ (forall c, d2u <> PCall c) /\ d2u <> PNone /\
  set_velocity pchip m u du d2u = (m', Ok tt) /\ forall x, q_d2u_e m' x = Err TypeError.
Proof.
  intros ivp. exists w_thwaites, (PCall (const_call 2)), (PCall (const_call 0)), (PNum 5).
  eexists. split; [apply created_reachable, w_thwaites_created|].
  split; [discriminate|]. split; [discriminate|]. split; reflexivity.
Qed.

(** C11: outside its hypothesis. *)
Lemma nonterminal_witness : exists ivp, ivp_contract ivp /\
  exists a b ir, ev_terminal a = false /\ ev_terminal b = true /\
  snd (solve ivp w_thwaites 0 4 [a; b]) = Ok ir /\
  (* stopped by b at 2, reported as a at 1 *)
  ir_status ir = ev_reason a /\ ev_reason a <> ev_reason b /\ ir_x_end ir = 1.
Proof.
  exists ivp_nonterminal. split; [exact ivp_nonterminal_contract|].
  exists (user_event UNKNOWN false "watch"), (user_event TRANSITIONED true "").
  rewrite w_solve. cbn. eexists. repeat split; [discriminate|]. cbn. lra.
Qed.

(** C13 *)
Lemma events_leak_witness : exists ivp, ivp_contract ivp /\ exists e r1 r2,
  reachable pchip cs ivp w_thwaites /\
  snd (solve ivp (fst (solve ivp w_thwaites 0 1 [])) 0 1 []) = Ok r1 /\
  snd (solve ivp (fst (solve ivp w_thwaites 0 1 [e])) 0 1 []) = Ok r2 /\
  ir_status r1 = REACHED_END /\ ir_status r2 = ev_reason e /\ ev_reason e = TRANSITIONED.
Proof.
  exists ivp_second. split; [exact ivp_second_contract|].
  exists (user_event TRANSITIONED true "").
  assert (W : forall l, let m := fst (solve ivp_second w_thwaites 0 1 l) in
     ode_setup (set_ic m (m_ic m)) = Ok [PInf] /\
     m_ic m = {| ic_du := Fin 0; ic_nu := Fin 1; ic_body_of := Manual (Fin 0) PInf (Fin 0) |} /\
     m_nu m = Fin 1 /\ (forall x, q_du_e m x = Ok 0) /\ m_events m = thwaites_event fit_white :: l).
  { intros l. rewrite w_solve.
    assert (P : py_div (xsq PInf) (Fin 1) = Ok PInf).
    { unfold py_div. cbn [xeqb]. rewrite Reqb_false by lra. unfold xsq. cbn [xmul xdiv].
      destruct (Req_EM_T 1 0); [lra|]. unfold inf_times. destruct (Rlt_dec 0 1); [reflexivity|lra]. }
    destruct l; cbn -[py_div xsq]; rewrite ?P; repeat split. }
  assert (S : forall l, let m := fst (solve ivp_second w_thwaites 0 1 l) in
     snd (solve ivp_second m 0 1 []) =
     gather 0 [PInf] (thwaites_event fit_white :: l)
       (match ivp_second (ode_impl m) 0 1 [PInf] (ivp_events m (thwaites_event fit_white :: l)) with
        | Ok r => r | Err _ => {| r_success := false; r_status := 0; r_message := ""; r_t := [];
            r_sol := fun _ => []; r_t_events := [] |} end)).
  { intros l m. destruct (W l) as (E1 & E2 & E3 & E4 & E5). fold m in E1, E2, E3, E4, E5.
    assert (N : nu_ok m). { unfold nu_ok. rewrite E3. cbn. apply Rleb_false. lra. }
    assert (I : initial_state m 0 [PInf]).
    { replace PInf with (PInf * PInf / m_nu m)%xr.
      - apply (initial_state_thwaites m 0 0 PInf).
        + unfold m. rewrite w_solve. destruct l; discriminate.
        + apply E4.
        + rewrite E2. reflexivity.
      - rewrite E3. cbn. destruct (Req_EM_T 1 0); [lra|]. unfold inf_times.
        destruct (Rlt_dec 0 1); [reflexivity|lra]. }
    pose proof (solve_cases ivp_second m 0 1 [] N) as C.
    inversion C as [c e Hn Hb F1 F2|c y0 e Hi Hb Hs F1 F2|c y0 r Hi Hb Hs F1 F2].
    - exfalso. eapply Hn, I.
    - exfalso. clear -Hs. unfold ivp_second in Hs.
      destruct (ivp_events m (m_events m ++ [])) as [|? [|? ?]]; discriminate.
    - rewrite (initial_state_fun _ _ _ _ Hi I) in *. rewrite app_nil_r, E5 in *. rewrite Hs.
      reflexivity. }
  do 2 eexists. split; [apply created_reachable, w_thwaites_created|].
  rewrite !S. cbn. repeat split.
Qed.

(** C17 *)
Lemma insulated_witness : exists ivp, ivp_contract ivp /\ exists h m' x,
  run pchip cs ivp w_thwaites h = m' /\
  q_delta_m m' x = Ok (Fin 1) /\
  q_delta_m (fst (step pchip cs ivp m' (OpNu (Fin 4)))) x = Ok (Fin 2) /\
  (exists v w, q_shape_d m' x = Ok v /\
     q_shape_d (fst (step pchip cs ivp m' (OpFits (FName "Drela")))) x = Ok w /\ v <> w).
Proof.
  exists ivp_end. split; [exact ivp_end_contract|].
  exists [OpSolve 0 1 []]. eexists. exists 0. split; [reflexivity|].
  unfold run. cbn [fold_left step fst]. rewrite w_solve. cbv zeta. cbn [ivp_end fst r_success r_sol].
  split; [|split].
  - cbn. destruct (Rlt_dec (1 * 1) 0); [lra|]. rewrite Rmult_1_r, sqrt_1. reflexivity.
  - unfold set_nu, no_result. cbn [xleb]. rewrite Rleb_false by lra. cbn.
    destruct (Rlt_dec (1 * 4) 0); [lra|]. rewrite Rmult_1_l.
    replace 4 with (2 * 2) by lra. rewrite sqrt_square by lra. reflexivity.
  - cbn -[shape fit_white fit_drela]. do 2 eexists. repeat split.
    assert (CR : check_range (Fin (-9/100)) PInf (Fin 0) = Fin 0).
    { unfold check_range. cbn [xltb]. rewrite Rltb_false by lra. reflexivity. }
    unfold shape. cbn [fit_lo fit_hi fit_shape fit_white fit_drela].
    rewrite Rmult_0_r, CR.
    unfold white_shape, drela_shape, xsq, xcube, xsub. cbn [xneg xadd xmul].
    rewrite xdiv_fin by lra. cbn [xneg xadd xmul]. intros E. injection E as E. lra.
Qed.

(** C30 *)
Lemma stagnation_ignores_witness : forall ivp, exists m x0 y0 y1,
  reachable pchip cs ivp m /\ initial_state m x0 y0 /\
  snd (step pchip cs ivp m (OpInitialDeltaM (Fin 3))) = Ok None /\
  initial_state (fst (step pchip cs ivp m (OpInitialDeltaM (Fin 3)))) x0 y1 /\
  m_nu m = Fin 1 /\ y1 <> [Fin (3 * 3 / 1)].
Proof.
  intros ivp.
  set (m := run pchip cs ivp w_thwaites
     [OpCondition {| ic_du := Fin 0; ic_nu := Fin 1; ic_body_of := FSStag |};
      OpVelocity (PCall (const_call 1)) (PCall (const_call 1)) PNone]).
  set (y := [(Fin (sqrt (1 * (29235/100000) * (123259/100000) / ((22162/10000 + 2) * 1)))
              * Fin (sqrt (1 * (29235/100000) * (123259/100000) / ((22162/10000 + 2) * 1)))
              / Fin 1)%xr]).
  assert (I : initial_state m 0 y).
  { apply (initial_state_thwaites m 0 1).
    - discriminate.
    - reflexivity.
    - unfold ic_delta_m. cbn [ic_body_of m_ic m run fold_left step fst set_initial_condition
        set_ic no_result CoreModel.set_velocity set_velocity_callable const_call c_deriv set_d2u
        set_du set_u ic_nu ic_du m_nu w_thwaites].
      unfold fs_eta_m, fs_fpp0, fs_shape_d. rewrite !xmul_fin, !xadd_fin, !xmul_fin.
      rewrite py_div_fin by lra. cbn [bind]. rewrite xsqrt_fin; [reflexivity|].
      lra. }
  exists m, 0, y, y. split; [exists w_thwaites; eexists; split; [apply w_thwaites_created|reflexivity]|].
  rewrite initial_delta_m_stagnation_lemma; [|reflexivity|lra]. cbn [fst snd].
  repeat split; try exact I. unfold y. rewrite xmul_fin, xdiv_fin by lra.
  rewrite sqrt_sqrt by lra. intros E. injection E as E. lra.
Qed.

(** C40 *)
Lemma head_order_witness : forall ivp, exists m m1 m2 x0 y0,
  reachable pchip cs ivp m /\
  step pchip cs ivp m (OpInitialShapeD (Fin 2)) = (m1, Ok None) /\
  step pchip cs ivp m1 (OpInitialDeltaM (Fin 1)) = (m2, Ok None) /\
  initial_state m2 x0 y0 /\ y0 = [Fin 1; PInf].
Proof.
  intros ivp.
  exists w_head. do 2 eexists. exists 0, [Fin 1; PInf].
  split; [apply created_reachable, w_head_created|].
  split; [cbn [step m_kind w_head]; unfold set_initial_shape_d, no_result; cbn [xleb];
    rewrite Rleb_false by lra; cbn; unfold inf_times; destruct (Rlt_dec 0 2); [reflexivity|lra]|].
  split; [cbn [step]; unfold set_initial_delta_m, no_result; cbn [xleb];
    rewrite Rleb_false by lra; reflexivity|].
  split; [|reflexivity].
  apply (initial_state_head _ 0 0); try reflexivity.
  cbn. unfold py_div. cbn [xeqb]. rewrite Reqb_false by lra. cbn [xdiv].
  destruct (Req_EM_T 1 0); [lra|]. unfold inf_times. destruct (Rlt_dec 0 1); [reflexivity|lra].
Qed.

Lemma head_start_example : forall ivp, exists m1 m2,
  step pchip cs ivp w_head (OpInitialDeltaM (Fin (1/2))) = (m1, Ok None) /\
  step pchip cs ivp m1 (OpInitialShapeD (Fin 2)) = (m2, Ok None) /\
  initial_state m2 0 [Fin (1/2); Fin 2].
Proof.
  intros ivp. do 2 eexists.
  split; [cbn [step]; unfold set_initial_delta_m, no_result; cbn [xleb];
    rewrite Rleb_false by lra; reflexivity|].
  split; [cbn [step m_kind set_ic fst w_head]; unfold set_initial_shape_d, no_result; cbn [xleb];
    rewrite Rleb_false by lra; reflexivity|].
  apply (initial_state_head _ 0 0); try reflexivity.
  change (py_div (Fin (2 * (1/2))) (Fin (1/2)) = Ok (Fin 2)).
  rewrite py_div_fin by lra. f_equal. f_equal. field.
Qed.

Lemma events_added_example :
  let e := user_event TRANSITIONED true "" in
  events_added pchip cs ivp_end w_thwaites [OpNu (Fin 2); OpSolve 0 1 [e]; OpSolve 0 2 [e; e]] [e; e; e].
Proof.
  intros e. set (h := [OpNu (Fin 2); OpSolve 0 1 [e]; OpSolve 0 2 [e; e]]).
  apply ea_other; [discriminate|].
  set (m1 := fst (step pchip cs ivp_end w_thwaites (OpNu (Fin 2)))).
  assert (E1 : m1 = set_nu_field w_thwaites (Fin 2)).
  { unfold m1. cbn [step]. unfold set_nu, no_result. cbn [xleb].
    rewrite Rleb_false by lra. reflexivity. }
  assert (G : forall m, m_nu m = Fin 2 -> m_kind m = ThwaitesLinear -> m_du m = Some (VF (fun _ => 0) KFloat) ->
     ic_body_of (m_ic m) = Manual (Fin 0) PInf (Fin 0) -> exists y, initial_state m 0 y).
  { intros m Hn Hk Hd Hb. eexists. apply (initial_state_thwaites m 0 0 PInf).
    - congruence.
    - unfold q_du_e, call_du. rewrite Hd. reflexivity.
    - rewrite Hb. reflexivity. }
  assert (N1 : nu_ok m1) by (rewrite E1; unfold nu_ok; cbn; apply Rleb_false; lra).
  destruct (G m1) as [y1 I1]; try (rewrite E1; reflexivity).
  change [e; e; e] with ([e] ++ [e; e]).
  eapply ea_solve; [exact I1|].
  set (m2 := fst (step pchip cs ivp_end m1 (OpSolve 0 1 [e]))).
  destruct (G m2) as [y2 I2].
  - unfold m2. rewrite step_nu_field by reflexivity. rewrite E1. reflexivity.
  - unfold m2. rewrite step_kind, E1. reflexivity.
  - assert (S : slots m2 = slots m1) by (apply step_slots; reflexivity).
    unfold slots in S. injection S as S1 S2 S3. rewrite S2, E1. reflexivity.
  - unfold m2. rewrite step_body by (try exact N1; reflexivity). rewrite E1. reflexivity.
  - change [e; e] with ([e; e] ++ []). eapply ea_solve; [exact I2|]. constructor.
Qed.

(** A solve that raises after a successful one: the stagnation condition with du_e = 0
    divides by zero. *)
Lemma failed_solve_example : exists m m' e,
  reachable pchip cs ivp_end m /\ m_sol m <> None /\ solve ivp_end m 0 1 [] = (m', Err e).
Proof.
  set (m := run pchip cs ivp_end w_thwaites
     [OpSolve 0 1 []; OpCondition {| ic_du := Fin 0; ic_nu := Fin 1; ic_body_of := FSStag |}]).
  assert (E : m = set_ic (fst (solve ivp_end w_thwaites 0 1 []))
     {| ic_du := Fin 0; ic_nu := Fin 1; ic_body_of := FSStag |}) by reflexivity.
  exists m. do 2 eexists. split; [|split].
  - exists w_thwaites. eexists. split; [apply w_thwaites_created|reflexivity].
  - rewrite E, w_solve. discriminate.
  - rewrite E, w_solve. cbv zeta. cbn [ivp_end fst].
    unfold solve, ic_set_nu. cbn [m_nu m_ic set_sol set_events add_kill_events set_ic w_thwaites xleb ic_du ic_body_of].
    rewrite Rleb_false by lra. cbv zeta.
    match goal with |- context [q_du_e ?M 0] => change (q_du_e M 0) with (@Ok R 0) end.
    cbv iota beta.
    match goal with |- context [ode_setup ?M] =>
      replace (ode_setup M) with (@Err (list xr) ZeroDivisionError) end; [reflexivity|].
    assert (D : py_div (Fin 1 * Fin fs_eta_m * Fin fs_fpp0)%xr
                       (Fin ((fs_shape_d + 2) * 0)) = Err ZeroDivisionError).
    { rewrite Rmult_0_r. unfold py_div. cbn [xeqb]. rewrite Reqb_true by reflexivity. reflexivity. }
    symmetry.
    change (bind (bind (py_div (Fin 1 * Fin fs_eta_m * Fin fs_fpp0)%xr
                       (Fin ((fs_shape_d + 2) * 0))) (fun q => Ok (xsqrt q)))
      (fun d => bind (py_div (xsq d) (Fin 1)) (fun s => Ok [s])) = Err ZeroDivisionError).
    rewrite D. reflexivity.
Qed.

End Witnesses.
