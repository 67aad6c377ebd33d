(** C92-C97: points velocities, repeated solves, order of configuration, Reynolds number
    independence, shared conditions, reported separation location. *)
From Coq Require Import Reals List String Bool ZArith Lra Lia.
From Coquelicot Require Import Coquelicot.
From Verif Require Import PyBase PyBaseFacts FiniteDiffModel PPolyModel PchipModel PchipProofs
  InitialConditionModel ThwaitesFitsModel HeadModel CoreModel CoreSpec CoreRefute SplineSpec OdeSpec
  WorkflowModel WorkflowSpec WorkflowProofs WorkflowRefute ReynoldsProofs LocationProofs.
Import ListNotations.
Open Scope R_scope.

(* ---------------------------------------------------------------- C92 *)
Theorem velocity_from_points : forall m v1 v2 xs us du d2u,
  np_asarray v1 = Ok (vec xs) -> np_asarray v2 = Ok (vec us) ->
  (~ usable_points xs us ->
     set_velocity pchip_scipy m (PTup [v1; v2]) du d2u = (m, Err ValueError)) /\
  (usable_points xs us ->
     exists m' U dU d2U,
       set_velocity pchip_scipy m (PTup [v1; v2]) du d2u = (m', Ok tt) /\
       answers m' U (fun x => Ok (dU x)) (fun x => Ok (d2U x)) /\
       follows U xs us /\
       (forall x, is_derive U x (dU x)) /\
       (forall x, ~ In x xs -> is_derive dU x (d2U x)) /\
       (forall lo hi, (forall u, In u us -> lo <= u <= hi) ->
          forall x, hd 0 xs <= x <= last xs 0 -> lo <= U x <= hi)).
Proof. exact points_velocity_lemma. Qed.
Print Assumptions velocity_from_points.

Theorem velocity_from_gradient_points : forall m u0 v1 v2 xs gs d2u,
  np_asarray v1 = Ok (vec xs) -> np_asarray v2 = Ok (vec gs) ->
  (~ usable_points xs gs ->
     set_velocity pchip_scipy m (PNum u0) (PTup [v1; v2]) d2u = (m, Err ValueError)) /\
  (usable_points xs gs ->
     exists m' U dU d2U,
       set_velocity pchip_scipy m (PNum u0) (PTup [v1; v2]) d2u = (m', Ok tt) /\
       answers m' U (fun x => Ok (dU x)) (fun x => Ok (d2U x)) /\
       U (hd 0 xs) = u0 /\
       follows dU xs gs /\
       (forall x, is_derive U x (dU x)) /\
       (forall x, is_derive dU x (d2U x))).
Proof. exact derivative_points_lemma. Qed.
Print Assumptions velocity_from_gradient_points.

Lemma usable_case : usable_points [0; 1; 3] [1; 2; 1].
Proof.
  split; [reflexivity|]. split; [cbn; lia|].
  intros [|[|[|i]]] a b H1 H2; cbn in H1, H2; try discriminate;
    try (destruct i; discriminate); injection H1 as <-; injection H2 as <-; lra.
Qed.
(** Three points given as lists: the velocity stays between 1 and 2 on the whole range. *)
Example velocity_from_points_case : exists m' U,
  fst (set_velocity pchip_scipy w_thwaites
         (PTup [PTup [PNum 0; PNum 1; PNum 3]; PTup [PNum 1; PNum 2; PNum 1]]) PNone PNone) = m' /\
  (forall x, q_u_e m' x = Ok (U x)) /\ U 1 = 2 /\ forall x, 0 <= x <= 3 -> 1 <= U x <= 2.
Proof.
  destruct (proj2 (velocity_from_points w_thwaites (PTup [PNum 0; PNum 1; PNum 3])
    (PTup [PNum 1; PNum 2; PNum 1]) [0; 1; 3] [1; 2; 1] PNone PNone eq_refl eq_refl) usable_case)
    as (m' & U & dU & d2U & E & A & F & _ & _ & B).
  exists m', U. split; [rewrite E; reflexivity|]. split; [intros x; apply A|].
  split; [exact (proj1 F 1%nat 1 2 eq_refl eq_refl)|].
  intros x H. apply B; [|exact H].
  intros u [<-|[<-|[<-|[]]]]; lra.
Qed.
(** Two equal abscissas are refused. *)
Example velocity_from_points_refused :
  set_velocity pchip_scipy w_thwaites
    (PTup [PTup [PNum 0; PNum 0]; PTup [PNum 1; PNum 2]]) PNone PNone = (w_thwaites, Err ValueError).
Proof.
  apply (proj1 (velocity_from_points w_thwaites (PTup [PNum 0; PNum 0]) (PTup [PNum 1; PNum 2])
    [0; 0] [1; 2] PNone PNone eq_refl eq_refl)).
  intros (_ & _ & H). specialize (H 0%nat 0 0 eq_refl eq_refl). lra.
Qed.
Example velocity_from_gradient_points_case : exists m' U dU,
  fst (set_velocity pchip_scipy w_thwaites (PNum 5)
         (PTup [PTup [PNum 0; PNum 1; PNum 3]; PTup [PNum 1; PNum 2; PNum 1]]) PNone) = m' /\
  (forall x, q_u_e m' x = Ok (U x)) /\ (forall x, is_derive U x (dU x)) /\ U 0 = 5 /\ dU 1 = 2.
Proof.
  destruct (proj2 (velocity_from_gradient_points w_thwaites 5 (PTup [PNum 0; PNum 1; PNum 3])
    (PTup [PNum 1; PNum 2; PNum 1]) [0; 1; 3] [1; 2; 1] PNone eq_refl eq_refl) usable_case)
    as (m' & U & dU & d2U & E & A & U0 & F & D & _).
  exists m', U, dU. split; [rewrite E; reflexivity|]. split; [intros x; apply A|].
  split; [exact D|]. split; [exact U0|]. exact (proj1 F 1%nat 1 2 eq_refl eq_refl).
Qed.

(* ---------------------------------------------------------------- C93 *)
(** Solves before this one (without extra events) change nothing about it: its outcome is the
    same, and if it returns so is the object afterwards. *)
Theorem solve_repeatable : forall pchip cubic_spline solve_ivp s h x0 x1 l,
  List.Forall plain_solve h ->
  let once := step pchip cubic_spline solve_ivp s (OpSolve x0 x1 l) in
  let again := step pchip cubic_spline solve_ivp (run pchip cubic_spline solve_ivp s h)
                 (OpSolve x0 x1 l) in
  snd again = snd once /\ (forall r, snd once = Ok r -> fst again = fst once).
Proof. exact repeat_lemma. Qed.
Print Assumptions solve_repeatable.
Example solve_repeatable_case :
  List.Forall plain_solve [OpSolve 0 1 []; OpSolve 2 3 []] /\
  exists r, snd (step pchip_scipy (fun _ _ => (fun v => v, fun v => v)) ivp_end w_thwaites
                   (OpSolve 0 1 [])) = Ok (Some r) /\ ir_success r = true.
Proof.
  split; [repeat constructor; repeat eexists|].
  cbn [step snd]. rewrite w_solve. unfold ivp_end. cbn. eexists. split; reflexivity.
Qed.

(* ---------------------------------------------------------------- C94 *)
Theorem configuration_order : forall pchip cubic_spline solve_ivp s h1 h2,
  List.Forall (fun o => is_solve o = false) h1 -> List.Forall (fun o => is_solve o = false) h2 ->
  same_calls h1 h2 ->
  run pchip cubic_spline solve_ivp s h1 = run pchip cubic_spline solve_ivp s h2 /\
  forall p, about p (trace pchip cubic_spline solve_ivp s h1)
            = about p (trace pchip cubic_spline solve_ivp s h2).
Proof. exact config_order_lemma. Qed.
Print Assumptions configuration_order.
(** Four calls in two orders, one of them refused. *)
Example configuration_order_case :
  let h1 := [OpNu (Fin 2); OpVelocity (PCall (const_call 1)) PNone PNone; OpNu (Fin (-1));
             OpInitialDeltaM (Fin 1)] in
  let h2 := [OpInitialDeltaM (Fin 1); OpNu (Fin 2); OpNu (Fin (-1));
             OpVelocity (PCall (const_call 1)) PNone PNone] in
  List.Forall (fun o => is_solve o = false) h1 /\ List.Forall (fun o => is_solve o = false) h2 /\
  same_calls h1 h2 /\ h1 <> h2.
Proof.
  cbv zeta. split; [repeat constructor|]. split; [repeat constructor|].
  split; [intros []; reflexivity|discriminate].
Qed.

(* ---------------------------------------------------------------- C95 *)
Theorem reynolds_independence : forall pchip cubic_spline solve_ivp s c1 c2 nu1 nu2 x0 x1 l,
  m_kind s <> Head -> 0 < nu1 -> 0 < nu2 ->
  let k := sqrt (nu2 / nu1) in
  (ic_body_of c1 = FSStag /\ ic_body_of c2 = FSStag) \/
  (exists dd1 d dk1 dd2 dk2, ic_body_of c1 = Manual dd1 (Fin d) dk1 /\
                             ic_body_of c2 = Manual dd2 (Fin (k * d)) dk2) ->
  let a := run pchip cubic_spline solve_ivp s [OpCondition c1; OpNu (Fin nu1)] in
  let b := run pchip cubic_spline solve_ivp s [OpCondition c2; OpNu (Fin nu2)] in
  let pa := step pchip cubic_spline solve_ivp a (OpSolve x0 x1 l) in
  let pb := step pchip cubic_spline solve_ivp b (OpSolve x0 x1 l) in
  snd pa = snd pb /\
  forall x rho,
    q_shape_d (fst pb) x = q_shape_d (fst pa) x /\
    scaled k (q_delta_m (fst pa) x) (q_delta_m (fst pb) x) /\
    scaled k (q_delta_d (fst pa) x) (q_delta_d (fst pb) x) /\
    scaled k (q_tau_w_thwaites (fst pa) x rho) (q_tau_w_thwaites (fst pb) x rho) /\
    scaled k (q_v_e (fst pa) x) (q_v_e (fst pb) x).
Proof. exact reynolds_lemma. Qed.
Print Assumptions reynolds_independence.
(** Four times the viscosity and twice the initial thickness: twice the thickness. *)
Example reynolds_independence_case : exists a b,
  q_delta_m a 0 = Ok (Fin (1/10)) /\ scaled 2 (q_delta_m a 0) (q_delta_m b 0).
Proof.
  set (c1 := new_manual (Fin 0) (Fin (1/10)) (Fin 0)).
  set (c2 := new_manual (Fin 0) (Fin (2 * (1/10))) (Fin 0)).
  assert (K : sqrt (4 / 1) = 2).
  { replace (4 / 1) with (2 * 2) by lra. apply sqrt_square. lra. }
  pose proof (reynolds_independence pchip_scipy (fun _ _ => (fun v => v, fun v => v)) ivp_hold
    w_thwaites c1 c2 1 4 0 1 []) as T. cbv zeta in T. rewrite K in T.
  destruct T as [_ T]; try lra; [discriminate| |].
  { right. exists (Fin 0), (1/10), (Fin 0), (Fin 0), (Fin 0). split; reflexivity. }
  destruct (T 0 1) as (_ & T1 & _).
  eexists. eexists. split; [|exact T1].
  assert (E : run pchip_scipy (fun _ _ => (fun v => v, fun v => v)) ivp_hold w_thwaites
                [OpCondition c1; OpNu (Fin 1)] = plate c1).
  { cbn. unfold set_nu, xleb. rewrite Rleb_false by lra. reflexivity. }
  rewrite E. cbn [step fst]. apply plate_solve. lra.
Qed.

(* ---------------------------------------------------------------- C96 *)
(** As wanted, method 1 would answer as if method 0 did not exist. It does not: they were given
    one condition object, and setting the initial thickness of one sets the other's. *)
Theorem shared_condition_refuted : forall pchip cubic_spline,
  exists ivp, ivp_contract ivp /\ exists w h d1 d2,
  (forall i, reachable pchip cubic_spline ivp (view w i)) /\
  w_ref w 0%nat = w_ref w 1%nat /\
  h = [WCall 0 (OpInitialDeltaM (Fin d2)); WCall 1 (OpSolve 0 1 [])] /\
  calls_of 1 h = [OpSolve 0 1 []] /\ d1 <> d2 /\
  q_delta_m (run pchip cubic_spline ivp (view w 1) (calls_of 1 h)) 0 = Ok (Fin d1) /\
  q_delta_m (view (wrun pchip cubic_spline ivp w h) 1) 0 = Ok (Fin d2).
Proof. exact shared_witness. Qed.
Print Assumptions shared_condition_refuted.

(** While no call exchanges or edits a condition, sharing is invisible: whatever the other
    methods do (including solving with other viscosities and velocities), method [i] returns,
    raises and stores what it would alone. *)
Theorem shared_condition_partial : forall pchip cubic_spline solve_ivp w h i,
  List.Forall leaves_conditions h ->
  outcomes_of i (wtrace pchip cubic_spline solve_ivp w h)
    = trace pchip cubic_spline solve_ivp (view w i) (calls_of i h) /\
  m_sol (view (wrun pchip cubic_spline solve_ivp w h) i)
    = m_sol (run pchip cubic_spline solve_ivp (view w i) (calls_of i h)).
Proof. exact shared_conditions_lemma. Qed.
Print Assumptions shared_condition_partial.
Example shared_condition_case :
  let h := [WCall 0 (OpNu (Fin 2)); WCall 0 (OpSolve 0 1 []); WCall 1 (OpSolve 0 1 []);
            WCall 0 (OpSolve 1 2 [])] in
  List.Forall leaves_conditions h /\ calls_of 1 h = [OpSolve 0 1 []].
Proof. split; [repeat constructor|reflexivity]. Qed.

(** Methods that refer to different condition objects are independent, whatever they do with
    them: each returns, raises and becomes what it would alone. *)
Theorem separate_conditions_independent : forall pchip cubic_spline solve_ivp n w h i,
  own_conditions n w -> (i < n)%nat -> List.Forall (no_sharing n) h ->
  outcomes_of i (wtrace pchip cubic_spline solve_ivp w h)
    = trace pchip cubic_spline solve_ivp (view w i) (calls_of i h) /\
  view (wrun pchip cubic_spline solve_ivp w h) i
    = run pchip cubic_spline solve_ivp (view w i) (calls_of i h).
Proof. intros p c s n w h i. exact (separate_lemma p c s n h w i). Qed.
Print Assumptions separate_conditions_independent.
(** Once method [j] is given method [i]'s condition object, the two have the same condition at
    every later moment, whichever of them (or another method) edits it, until one of the two is
    given another object. *)
Theorem shared_condition_live : forall pchip cubic_spline solve_ivp w i j h,
  List.Forall (keeps_reference i j) h ->
  let w' := wrun pchip cubic_spline solve_ivp
              (fst (wstep pchip cubic_spline solve_ivp w (WShare j (w_ref w i)))) h in
  m_ic (view w' j) = m_ic (view w' i).
Proof. exact live_lemma. Qed.
Print Assumptions shared_condition_live.
(** Two methods, each with a condition of its own, that edit and exchange them. *)
Definition two_methods : world :=
  {| w_conds := fun _ => new_manual (Fin 1) (Fin 1) (Fin 1); w_meths := fun _ => w_thwaites;
     w_ref := fun i => i; w_next := 2 |}.
Example separate_conditions_case : own_conditions 2 two_methods /\
  let h := [WCall 0 (OpInitialDeltaM (Fin 2));
            WCall 1 (OpCondition (new_manual (Fin 3) (Fin 3) (Fin 3)));
            WCall 1 (OpInitialDeltaM (Fin 4))] in
  List.Forall (no_sharing 2) h /\ calls_of 1 h <> [].
Proof.
  split; [split; cbn; intros; lia|]. cbv zeta. split; [|discriminate].
  repeat constructor; cbn; lia.
Qed.
Example shared_condition_live_case :
  List.Forall (keeps_reference 0 1) [WCall 0 (OpInitialDeltaM (Fin 2)); WCall 1 (OpInitialDeltaM (Fin 4));
                                     WCall 2 (OpCondition (new_manual (Fin 3) (Fin 3) (Fin 3)))].
Proof. repeat constructor; lia. Qed.

(* ---------------------------------------------------------------- C97 *)
(** As wanted, the reported separation location would be the first zero of the wall shear. An
    integrator that keeps its contract can report 1/5 where the exact solution has zero wall
    shear already from 0.15 on: past separation the fit's shear function is clamped to 0, so
    the event function does not change sign. *)
Theorem separation_location_refuted : forall pchip cubic_spline,
  exists ivp, ivp_contract ivp /\ roots_are_zeros ivp /\
  exists s (sol : R -> R) m' ir, reachable pchip cubic_spline ivp s /\
    initial_state s 0 [Fin (sol 0)] /\
    (forall x, 0 <= x <= 1/5 -> exists d, is_derive sol x d /\
       ode_impl s x [Fin (sol x)] = Ok [Fin d]) /\
    solve ivp s 0 1 [] = (m', Ok ir) /\ ir_status ir = SEPARATED /\ ir_x_end ir = 1/5 /\
    m_sol m' = Some (fun x => [Fin (sol x)]) /\
    forall x, 15/100 <= x <= 1/5 -> q_tau_w_thwaites m' x 1 = Ok (Fin 0).
Proof. exact late_witness. Qed.
Print Assumptions separation_location_refuted.

(** What holds: at the reported location the wall shear is zero, and the gradient parameter is
    in the range the fit has separation at. *)
Theorem separation_location_partial : forall pchip cubic_spline solve_ivp s x0 x1 l m' ir,
  reachable pchip cubic_spline solve_ivp s -> m_kind s <> Head ->
  roots_are_zeros solve_ivp ->
  (forall e, In e (tl (m_events s) ++ l) -> ev_reason e <> SEPARATED) ->
  solve solve_ivp s x0 x1 l = (m', Ok ir) -> ir_status ir = SEPARATED ->
  exists f sol z du, m_fit m' = Some f /\ m_sol m' = Some sol /\ sol (ir_x_end ir) = [z] /\
    q_du_e m' (ir_x_end ir) = Ok du /\ shear f (z * Fin du)%xr = Fin 0 /\
    forall v, z = Fin v ->
      (f = fit_white -> v * du <= -9/100) /\
      (f = fit_cb -> -900/10000 < v * du < -898/10000) /\
      (f = fit_spline cubic_spline -> cubic_spline_ok cubic_spline -> v * du <= -9/100) /\
      (f = fit_drela -> 6/10 < v * du) /\
      (0 < v -> forall nu u rho, m_nu m' = Fin nu -> 0 < nu -> q_u_e m' (ir_x_end ir) = Ok u ->
         q_tau_w_thwaites m' (ir_x_end ir) rho = Ok (Fin 0)).
Proof. exact location_lemma. Qed.
Print Assumptions separation_location_partial.
Example separation_location_case : forall pchip cubic_spline,
  exists ivp s m' ir, reachable pchip cubic_spline ivp s /\ roots_are_zeros ivp /\
    solve ivp s 0 1 [] = (m', Ok ir) /\ ir_status ir = SEPARATED.
Proof.
  intros pchip cs. destruct (separation_location_refuted pchip cs)
    as (ivp & _ & Z & s & sol & m' & ir & R & _ & _ & E & S & _).
  exists ivp, s, m', ir. repeat split; assumption.
Qed.
