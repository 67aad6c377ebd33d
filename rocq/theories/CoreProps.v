(** Properties C01-C17, C30, C31, C39, C40, C71-C74: the method objects.

    [pchip], [cubic_spline] and [solve_ivp] stand for the scipy routines of these names and
    are arbitrary; what is assumed of them is written in each theorem.  [reachable] states
    are those that some sequence of API calls, raising or not, brings an object into. *)
From Coq Require Import Reals List String Bool ZArith Lra Lia.
From Coquelicot Require Import Coquelicot.
From Verif Require Import PyBase PyBaseFacts FiniteDiffModel FiniteDiffProofs PPolyModel
  PPolyProofs InitialConditionModel ThwaitesFitsModel HeadModel CoreModel CoreSpec CoreProofs
  CoreHistoryProofs CoreRefute.
Import ListNotations.
Open Scope R_scope.

(* ---------------------------------------------------------------- C01 *)
(** C01: accuracy of the finite-difference first derivative; [smooth_near f n x r]: f has
    derivatives up to order n on [x-r, x+r]. *)
Theorem fd_first_derivative_error : forall pchip m m' c x r K,
  c_deriv c = None -> set_velocity pchip m (PCall c) PNone PNone = (m', Ok tt) ->
  2/10000 < r -> smooth_near (c_fun c) 5 x r ->
  (forall t, Rabs (t - x) <= r -> Rabs (Derive_n (c_fun c) 5 t) <= K) ->
  exists v, q_du_e m' x = Ok v /\ Rabs (v - Derive (c_fun c) x) <= K * (1/10000)^4 / 18.
Proof. exact fd_first_lemma. Qed.
Print Assumptions fd_first_derivative_error.

(** C01, C02: polynomials. *)
Theorem fd_derivatives_exact : forall pchip m m' c a0 a1 a2 a3 a4 a5 x,
  c_deriv c = None -> set_velocity pchip m (PCall c) PNone PNone = (m', Ok tt) ->
  (forall t, c_fun c t = a0 + a1*t + a2*t^2 + a3*t^3 + a4*t^4 + a5*t^5) ->
  (a5 = 0 -> q_du_e m' x = Ok (Derive (c_fun c) x)) /\
  q_d2u_e m' x = Ok (Derive_n (c_fun c) 2 x).
Proof. exact fd_exact_lemma. Qed.
Print Assumptions fd_derivatives_exact.

(* ---------------------------------------------------------------- C02 *)
Theorem fd_second_derivative_error : forall pchip m m' c x r K,
  c_deriv c = None -> set_velocity pchip m (PCall c) PNone PNone = (m', Ok tt) ->
  2/10000 < r -> smooth_near (c_fun c) 6 x r ->
  (forall t, Rabs (t - x) <= r -> Rabs (Derive_n (c_fun c) 6 t) <= K) ->
  exists v, q_d2u_e m' x = Ok v /\ Rabs (v - Derive_n (c_fun c) 2 x) <= K * (1/10000)^4 / 54.
Proof. exact fd_second_lemma. Qed.
Print Assumptions fd_second_derivative_error.

(** The same when only du_e is supplied. *)
Theorem fd_second_from_first_error : forall pchip m m' c dc x r K,
  c_deriv dc = None -> set_velocity pchip m (PCall c) (PCall dc) PNone = (m', Ok tt) ->
  2/100000 < r -> smooth_near (c_fun dc) 5 x r ->
  (forall t, Rabs (t - x) <= r -> Rabs (Derive_n (c_fun dc) 5 t) <= K) ->
  exists v, q_d2u_e m' x = Ok v /\ Rabs (v - Derive (c_fun dc) x) <= K * (1/100000)^4 / 18.
Proof. exact fd_second_from_first_lemma. Qed.
Print Assumptions fd_second_from_first_error.

Example fd_case : forall pchip, exists m',
  set_velocity pchip w_thwaites (PCall {| c_fun := exp; c_ret := KFloat; c_deriv := None |})
    PNone PNone = (m', Ok tt) /\ smooth_near exp 6 0 1 /\
  forall t, Rabs (t - 0) <= 1 -> Rabs (Derive_n exp 6 t) <= exp 1.
Proof.
  intros pchip. eexists. split; [reflexivity|].
  assert (D : forall n t, is_derive_n exp n t (exp t)).
  { induction n as [|n IH]; intros t; [reflexivity|]. cbn.
    apply (is_derive_ext exp).
    - intros s. symmetry. apply is_derive_n_unique. apply IH.
    - apply is_derive_exp. }
  split.
  - intros t Ht k Hk. destruct k as [|k]; [exact I|]. exists (exp t). apply (D (S k)).
  - intros t Ht. rewrite (is_derive_n_unique _ _ _ _ (D 6%nat t)).
    rewrite Rabs_pos_eq by (left; apply exp_pos).
    apply Rabs_le_between in Ht.
    destruct (Req_dec t 1) as [->|N]; [lra|]. left. apply exp_increasing. lra.
Qed.

(* ---------------------------------------------------------------- C03 *)
(** C03: [profile u du d2u fu fdu fd2u] lists the ways to specify a velocity and the three
    functions meant (CoreSpec); [answers m fu fdu fd2u]: the queries return them. *)
Theorem derivatives_current : forall pchip cubic_spline solve_ivp m h u du d2u,
  all_velocities_accepted (trace pchip cubic_spline solve_ivp m h) ->
  last_velocity h = Some (u, du, d2u) ->
  exists fu fdu fd2u, profile pchip u du d2u fu fdu fd2u /\
    answers (run pchip cubic_spline solve_ivp m h) fu fdu fd2u.
Proof. exact derivatives_current_lemma. Qed.
Print Assumptions derivatives_current.

(** [profile] determines the functions. *)
Theorem derivatives_current_unique : forall pchip u du d2u f1 g1 h1 f2 g2 h2 x,
  profile pchip u du d2u f1 g1 h1 -> profile pchip u du d2u f2 g2 h2 ->
  f1 x = f2 x /\ g1 x = g2 x /\ h1 x = h2 x.
Proof. exact profile_deterministic. Qed.
Print Assumptions derivatives_current_unique.

(** The velocity may also come from the constructor. *)
Theorem constructor_velocity : forall pchip cubic_spline,
  (forall linear nu u du d2u a m, u <> PNone ->
     new_thwaites pchip cubic_spline linear nu u du d2u a = Ok m ->
     exists fu fdu fd2u, profile pchip u du d2u fu fdu fd2u /\ answers m fu fdu fd2u) /\
  (forall nu u du d2u crit m, u <> PNone ->
     new_head pchip nu u du d2u crit = Ok m ->
     exists fu fdu fd2u, profile pchip u du d2u fu fdu fd2u /\ answers m fu fdu fd2u).
Proof. exact created_velocity_lemma. Qed.
Print Assumptions constructor_velocity.

Example derivatives_current_case : forall pchip cs ivp,
  let h := [OpVelocity (PCall (const_call 2)) PNone PNone; OpNu (Fin 3);
            OpVelocity (PCall (const_call 5)) (PCall (const_call 7)) PNone; OpSolve 0 1 []] in
  all_velocities_accepted (trace pchip cs ivp w_thwaites h) /\
  last_velocity h = Some (PCall (const_call 5), PCall (const_call 7), PNone).
Proof. intros. split; [cbn; exact I|reflexivity]. Qed.

(* ---------------------------------------------------------------- C04 *)
(** C04 fails: a rejected call with a callable u_e has already replaced the velocity, and
    leaves it with the derivatives of the old one. *)
Theorem rejected_velocity_refuted : forall pchip cubic_spline solve_ivp, exists m u du d2u m',
  reachable pchip cubic_spline solve_ivp m /\
  set_velocity pchip m u du d2u = (m', Err ValueError) /\
  q_u_e m 0 = Ok 1 /\ q_u_e m' 0 = Ok 2 /\ q_du_e m' 0 = Ok 0 /\ q_d2u_e m' 0 = q_d2u_e m 0.
Proof. exact rejected_velocity_witness. Qed.
Print Assumptions rejected_velocity_refuted.

(** It holds when the rejected u_e is not callable (a number, points, anything else) ... *)
Theorem rejected_velocity_partial : forall pchip m u du d2u m' e,
  set_velocity pchip m u du d2u = (m', Err e) -> (forall c, u <> PCall c) -> m' = m.
Proof. exact rejected_lemma. Qed.
Print Assumptions rejected_velocity_partial.

(** ... and this is what a rejected callable leaves behind. *)
Theorem rejected_callable_velocity : forall pchip m c du d2u m' e,
  set_velocity pchip m (PCall c) du d2u = (m', Err e) ->
  (forall x, q_u_e m' x = Ok (c_fun c x)) /\ m_d2u m' = m_d2u m /\
  (du <> PNone -> (forall dc, du <> PCall dc) -> m_du m' = m_du m) /\
  (d2u <> PNone -> m_du m' = m_du m \/ exists dc, du = PCall dc).
Proof. exact rejected_callable_lemma. Qed.
Print Assumptions rejected_callable_velocity.

Example rejected_velocity_case : forall pchip,
  set_velocity pchip w_thwaites (PNum 3) (PTup [PNum 1]) PNone = (w_thwaites, Err ValueError) /\
  set_velocity pchip w_thwaites (PTup [PNum 1]) PNone PNone = (w_thwaites, Err ValueError).
Proof. intros. split; reflexivity. Qed.

(* ---------------------------------------------------------------- C05 *)
(** C05 fails for d2u_e: a non-callable one is accepted and only raises when queried. *)
Theorem bad_derivative_refuted : forall pchip cubic_spline solve_ivp, exists m u du d2u m',
  reachable pchip cubic_spline solve_ivp m /\ (forall c, d2u <> PCall c) /\ d2u <> PNone /\
  set_velocity pchip m u du d2u = (m', Ok tt) /\ forall x, q_d2u_e m' x = Err TypeError.
Proof. exact bad_d2u_witness. Qed.
Print Assumptions bad_derivative_refuted.

Theorem bad_derivative_partial : forall pchip m c du d2u,
  (du <> PNone -> (forall dc, du <> PCall dc) ->
     snd (set_velocity pchip m (PCall c) du d2u) = Err ValueError) /\
  (d2u <> PNone -> snd (set_velocity pchip m (PCall c) PNone d2u) = Err ValueError).
Proof.
  intros pchip m c du d2u.
  exact (conj (bad_du_lemma pchip m c du d2u) (d2u_without_du_lemma pchip m c d2u)).
Qed.
Print Assumptions bad_derivative_partial.

Example bad_derivative_case : PArr {| nd_shape := [2%nat]; nd_data := [1; 2] |} <> PNone /\
  forall dc, PArr {| nd_shape := [2%nat]; nd_data := [1; 2] |} <> PCall dc.
Proof. split; discriminate. Qed.

(* ---------------------------------------------------------------- C06 *)
(** C06, for any interpolation routine that returns well-formed C1 piecewise polynomials. *)
Theorem velocity_from_derivative_points : forall pchip m u0 du d2u m',
  (forall x y p, pchip x y = Ok p -> pp_wf p /\ pp_continuous p /\ pp_continuous (pp_derivative p)) ->
  set_velocity pchip m (PNum u0) du d2u = (m', Ok tt) ->
  exists (U dU d2U : R -> R) x xs y p,
    bind (py_item du 0) np_asarray = Ok x /\ bind (py_item du 1) np_asarray = Ok y /\
    pchip x y = Ok p /\ hd 0 (pp_x p) = xs /\
    (forall t, q_u_e m' t = Ok (U t)) /\ (forall t, q_du_e m' t = Ok (dU t)) /\
    (forall t, q_d2u_e m' t = Ok (d2U t)) /\
    U xs = u0 /\ (forall t, dU t = pp_eval p t) /\
    (forall t, is_derive U t (dU t)) /\ (forall t, is_derive dU t (d2U t)).
Proof. exact scalar_points_lemma. Qed.
Print Assumptions velocity_from_derivative_points.

Definition line_pchip (x y : ndarray) : res ppoly :=
  Ok {| pp_x := [0; 1; 3]; pp_c := [[2; 1]; [2; 3]] |}.
Example velocity_from_derivative_points_case :
  (forall x y p, line_pchip x y = Ok p ->
     pp_wf p /\ pp_continuous p /\ pp_continuous (pp_derivative p)) /\
  exists m', set_velocity line_pchip w_thwaites (PNum 4)
    (PTup [PArr {| nd_shape := [3%nat]; nd_data := [0; 1; 3] |};
           PArr {| nd_shape := [3%nat]; nd_data := [1; 3; 7] |}]) PNone = (m', Ok tt).
Proof.
  split; [|eexists; reflexivity].
  intros x y p H. injection H as <-. repeat split; cbn; auto; try lra; try lia;
    try (repeat constructor; lra).
Qed.

(* ---------------------------------------------------------------- C07 *)
Theorem point_input_validated : forall pchip m v1 v2 x u du d2u,
  np_asarray v1 = Ok x -> np_asarray v2 = Ok u ->
  (good_shapes x u -> snd (set_velocity pchip m (PTup [v1; v2]) du d2u)
     = match pchip x u with Ok _ => Ok tt | Err e => Err e end) /\
  (~ good_shapes x u -> nd_shape x <> [] ->
     set_velocity pchip m (PTup [v1; v2]) du d2u = (m, Err ValueError)) /\
  (nd_shape x = [] -> set_velocity pchip m (PTup [v1; v2]) du d2u = (m, Err IndexError)).
Proof. exact points_spec. Qed.
Print Assumptions point_input_validated.

Theorem point_input_length : forall pchip m l du d2u, List.length l <> 2%nat ->
  set_velocity pchip m (PTup l) du d2u = (m, Err ValueError).
Proof. exact points_wrong_length. Qed.
Print Assumptions point_input_length.

Example point_input_case :
  np_asarray (PTup [PNum 1; PNum 2]) = Ok {| nd_shape := [2%nat]; nd_data := [1; 2] |} /\
  good_shapes {| nd_shape := [2%nat]; nd_data := [1; 2] |} {| nd_shape := [2%nat]; nd_data := [5; 6] |} /\
  ~ good_shapes {| nd_shape := [1%nat; 2%nat]; nd_data := [1; 2] |}
                {| nd_shape := [2%nat]; nd_data := [5; 6] |}.
Proof.
  split; [reflexivity|]. split; [exists 2%nat; auto|]. intros (n & E & _). discriminate.
Qed.

(* ---------------------------------------------------------------- C08 *)
(** C08: an object constructed without velocity holds none ... *)
Theorem constructed_without_velocity : forall pchip cubic_spline,
  (forall linear nu du d2u a m,
     new_thwaites pchip cubic_spline linear nu PNone du d2u a = Ok m -> no_velocity m) /\
  (forall nu du d2u crit m, new_head pchip nu PNone du d2u crit = Ok m -> no_velocity m).
Proof.
  intros. exact (conj (created_no_velocity_thwaites pchip cubic_spline)
                      (created_no_velocity_head pchip)).
Qed.
Print Assumptions constructed_without_velocity.

(** ... and until a set_velocity call reaches the assignment, each query raises. *)
Theorem velocity_query_before_set : forall pchip cubic_spline solve_ivp m h,
  no_velocity m ->
  let t := trace pchip cubic_spline solve_ivp m h in
  let s := run pchip cubic_spline solve_ivp m h in
  (velocity_outcomes (fun u _ _ r => rejected r /\ forall c, u <> PCall c) t ->
     forall x, q_u_e s x = Err ValueError /\ q_du_e s x = Err ValueError /\
               q_d2u_e s x = Err ValueError) /\
  (velocity_outcomes (fun u du _ r => rejected r /\
     (forall c, u = PCall c -> c_deriv c = None) /\ (forall dc, du <> PCall dc)) t ->
     forall x, q_du_e s x = Err ValueError) /\
  (velocity_outcomes (fun _ _ _ r => rejected r) t ->
     forall x, q_d2u_e s x = Err ValueError).
Proof.
  intros pchip cs ivp m h (E1 & E2 & E3).
  exact (conj (no_success_all pchip cs ivp m h E1 E2 E3)
        (conj (no_success_du pchip cs ivp m h E2) (no_success_d2u pchip cs ivp m h E3))).
Qed.
Print Assumptions velocity_query_before_set.

(** Once a velocity is accepted no later call, accepted or not, makes the queries raise it. *)
Theorem velocity_query_after_set : forall pchip cubic_spline solve_ivp m u du d2u m' h x,
  set_velocity pchip m u du d2u = (m', Ok tt) ->
  let s := run pchip cubic_spline solve_ivp m' h in
  (exists v, q_u_e s x = Ok v) /\ (exists v, q_du_e s x = Ok v) /\ q_d2u_e s x <> Err ValueError.
Proof. exact velocity_set_history. Qed.
Print Assumptions velocity_query_after_set.

Example velocity_query_case : forall pchip cs ivp,
  let m := {| m_kind := Head; m_nu := Fin 1; m_u := None; m_du := None; m_d2u := None;
     m_ic := new_manual PInf PInf (Fin 0); m_fit := None;
     m_events := [head_sep_event (Fin (24/10))]; m_sol := None |} in
  new_head pchip (Fin 1) PNone PNone PNone (Fin (24/10)) = Ok m /\
  velocity_outcomes (fun u _ _ r => rejected r /\ forall c, u <> PCall c)
    (trace pchip cs ivp m [OpVelocity (PTup []) PNone PNone; OpSolve 0 1 []]).
Proof.
  intros. split.
  - unfold new_head, new_base, new_fs, ic_set_nu. cbn [xleb]. rewrite Rleb_false by lra. reflexivity.
  - repeat constructor; [exists ValueError; reflexivity|discriminate].
Qed.

(* ---------------------------------------------------------------- C09 *)
(** C09: in every reachable state the comparison nu <= 0 is false. *)
Theorem viscosity_never_nonpositive : forall pchip cubic_spline solve_ivp m h,
  created pchip cubic_spline m ->
  xleb (m_nu (run pchip cubic_spline solve_ivp m h)) (Fin 0) = false.
Proof. exact nu_history. Qed.
Print Assumptions viscosity_never_nonpositive.

Example viscosity_case : forall pchip cs ivp,
  created pchip cs w_thwaites /\
  snd (step pchip cs ivp w_thwaites (OpNu (Fin (-1)))) = Err ValueError.
Proof.
  intros. split; [apply w_thwaites_created|].
  cbn [step]. unfold set_nu, no_result. cbn [xleb]. rewrite Rleb_true by lra. reflexivity.
Qed.

(* ---------------------------------------------------------------- C10 *)
(** C10: [initial_state m x0 y0] is the starting vector prescribed by the condition in
    force; [ode_impl m] the right-hand side; the events are those of the object followed
    by those of the call. *)
Theorem solve_reports : forall pchip cubic_spline solve_ivp m x0 x1 l m' ir,
  reachable pchip cubic_spline solve_ivp m ->
  solve solve_ivp m x0 x1 l = (m', Ok ir) ->
  exists y0 r, initial_state m x0 y0 /\
    solve_ivp (ode_impl m) x0 x1 y0 (ivp_events m (m_events m ++ l)) = Ok r /\
    ir_success ir = r_success r /\
    (r_success r = true -> r_status r = 0%Z ->
       ir_status ir = REACHED_END /\ r_t r <> [] /\ ir_x_end ir = last (r_t r) 0 /\
       ir_f_end ir = r_sol r (ir_x_end ir)) /\
    (r_success r = false ->
       ir_status ir = UNKNOWN /\ ir_x_end ir = x0 /\ ir_f_end ir = y0) /\
    (ir_status ir = REACHED_END -> (forall e, In e (m_events m ++ l) -> ev_reason e <> REACHED_END) ->
       r_status r = 0%Z).
Proof.
  intros pchip cs ivp m x0 x1 l m' ir HR.
  exact (solve_reports_lemma ivp m x0 x1 l m' ir (reachable_nu pchip cs ivp m HR)).
Qed.
Print Assumptions solve_reports.

Example solve_reports_case : forall pchip cs, exists m' ir,
  reachable pchip cs ivp_end w_thwaites /\ solve ivp_end w_thwaites 0 3 [] = (m', Ok ir) /\
  ir_status ir = REACHED_END /\ ir_x_end ir = 3.
Proof.
  intros. rewrite w_solve. cbn. do 2 eexists.
  split; [apply created_reachable, w_thwaites_created|]. repeat split.
Qed.

(* ---------------------------------------------------------------- C11 *)
Theorem event_attribution : forall pchip cubic_spline solve_ivp m x0 x1 l m' ir,
  ivp_contract solve_ivp -> reachable pchip cubic_spline solve_ivp m ->
  List.Forall (fun e => ev_terminal e = true) (m_events m ++ l) ->
  solve solve_ivp m x0 x1 l = (m', Ok ir) ->
  exists y0 r, solve_ivp (ode_impl m) x0 x1 y0 (ivp_events m (m_events m ++ l)) = Ok r /\
  (r_status r = 1%Z -> exists i e x,
     nth_error (m_events m ++ l) i = Some e /\ nth_error (r_t_events r) i = Some [x] /\
     (forall j t, nth_error (r_t_events r) j = Some t -> j <> i -> t = []) /\
     ir_x_end ir = x /\ ir_f_end ir = r_sol r x /\ ir_status ir = ev_reason e /\
     ir_message ir = full_message (ev_reason e) (ev_message e)).
Proof.
  intros pchip cs ivp m x0 x1 l m' ir HC HR.
  exact (event_attribution_lemma ivp m x0 x1 l m' ir HC (reachable_nu pchip cs ivp m HR)).
Qed.
Print Assumptions event_attribution.

Example event_attribution_case : forall pchip cs, exists m' ir,
  ivp_contract ivp_second /\ reachable pchip cs ivp_second w_thwaites /\
  solve ivp_second w_thwaites 0 4 [user_event TRANSITIONED true "tripped"] = (m', Ok ir) /\
  ir_status ir = TRANSITIONED /\ ir_message ir = "Transition: tripped"%string /\ ir_x_end ir = 2.
Proof.
  intros. rewrite w_solve. cbn. do 2 eexists. split; [exact ivp_second_contract|].
  split; [apply created_reachable, w_thwaites_created|]. repeat split. cbn. lra.
Qed.

(** Why the events have to be terminal: a non-terminal event that was merely crossed is
    reported as the one that stopped the integration. *)
Theorem nonterminal_event_misattributed : exists solve_ivp, ivp_contract solve_ivp /\
  exists a b ir, ev_terminal a = false /\ ev_terminal b = true /\
  snd (solve solve_ivp w_thwaites 0 4 [a; b]) = Ok ir /\
  ir_status ir = ev_reason a /\ ev_reason a <> ev_reason b /\ ir_x_end ir = 1.
Proof. exact nonterminal_witness. Qed.
Print Assumptions nonterminal_event_misattributed.

(* ---------------------------------------------------------------- C12 *)
Theorem message_begins_with_status : forall solve_ivp m x0 x1 l m' ir,
  solve solve_ivp m x0 x1 l = (m', Ok ir) ->
  exists rest, ir_message ir = (status_name (ir_status ir) ++ rest)%string /\
    ir_message ir <> ""%string /\
    (rest = ""%string \/ exists t, rest = (": " ++ t)%string /\ t <> ""%string).
Proof. exact message_lemma. Qed.
Print Assumptions message_begins_with_status.

Example message_case : exists m' ir, solve ivp_fail w_thwaites 0 4 [] = (m', Ok ir) /\
  ir_message ir = "Unknown Event: step"%string.
Proof. rewrite w_solve. cbn. do 2 eexists. split; reflexivity. Qed.

(** C11, C12: what the result says for every answer the integrator can give, with no
    assumption on the integrator: the event named is the first one, in the order the
    events were registered, for which a root was recorded. *)
Theorem result_details : forall pchip cubic_spline solve_ivp m x0 x1 l m' ir,
  reachable pchip cubic_spline solve_ivp m ->
  solve solve_ivp m x0 x1 l = (m', Ok ir) ->
  exists y0 r, initial_state m x0 y0 /\
    solve_ivp (ode_impl m) x0 x1 y0 (ivp_events m (m_events m ++ l)) = Ok r /\
    (r_success r = false -> ir_message ir = full_message UNKNOWN (r_message r)) /\
    (r_success r = true -> r_status r = 0%Z ->
       ir_message ir = full_message REACHED_END "") /\
    (r_success r = true -> r_status r = 1%Z ->
       (exists i e x t,
          nth_error (m_events m ++ l) i = Some e /\ nth_error (r_t_events r) i = Some (x :: t) /\
          (forall j, (j < i)%nat -> nth_error (r_t_events r) j = Some []) /\
          ir_x_end ir = x /\ ir_f_end ir = r_sol r x /\ ir_status ir = ev_reason e /\
          ir_message ir = full_message (ev_reason e) (ev_message e)) \/
       (List.Forall (fun t => t = []) (r_t_events r) /\ ir_x_end ir = x0 /\ ir_f_end ir = y0 /\
          ir_status ir = UNKNOWN /\
          ir_message ir = full_message UNKNOWN "Event not found.")) /\
    (r_success r = true -> r_status r <> 0%Z -> r_status r <> 1%Z ->
       ir_x_end ir = x0 /\ ir_f_end ir = y0 /\ ir_status ir = UNKNOWN /\
       ir_message ir = full_message UNKNOWN (r_message r)).
Proof.
  intros pchip cs ivp m x0 x1 l m' ir HR.
  exact (result_details_lemma ivp m x0 x1 l m' ir (reachable_nu pchip cs ivp m HR)).
Qed.
Print Assumptions result_details.

Example result_details_case : forall pchip cs, exists m' ir,
  reachable pchip cs ivp_fail w_thwaites /\ solve ivp_fail w_thwaites 0 4 [] = (m', Ok ir) /\
  ir_message ir = full_message UNKNOWN "step".
Proof.
  intros. rewrite w_solve. cbn. do 2 eexists.
  split; [apply created_reachable, w_thwaites_created|]. split; reflexivity.
Qed.

(* ---------------------------------------------------------------- C13 *)
(** C13 fails: the second of two solve calls without user events is stopped by the event
    passed to the first one. *)
Theorem events_leak_refuted : forall pchip cubic_spline,
  exists solve_ivp, ivp_contract solve_ivp /\ exists e r1 r2,
  reachable pchip cubic_spline solve_ivp w_thwaites /\
  snd (solve solve_ivp (fst (solve solve_ivp w_thwaites 0 1 [])) 0 1 []) = Ok r1 /\
  snd (solve solve_ivp (fst (solve solve_ivp w_thwaites 0 1 [e])) 0 1 []) = Ok r2 /\
  ir_status r1 = REACHED_END /\ ir_status r2 = ev_reason e /\ ev_reason e = TRANSITIONED.
Proof. exact events_leak_witness. Qed.
Print Assumptions events_leak_refuted.

(* ---------------------------------------------------------------- C14 *)
(** C14: the events in force after a history without configuration calls: those before it,
    then those of each solve that reached the integrator ([events_added], CoreSpec). *)
Theorem events_in_force : forall pchip cubic_spline solve_ivp m h,
  reachable pchip cubic_spline solve_ivp m ->
  List.Forall (fun o => is_config o = false) h ->
  (exists r, events_added pchip cubic_spline solve_ivp m h r) /\
  (forall r, events_added pchip cubic_spline solve_ivp m h r ->
     m_events (run pchip cubic_spline solve_ivp m h) = m_events m ++ r).
Proof.
  intros pchip cs ivp m h HR HF.
  exact (conj (events_added_total pchip cs ivp m h (reachable_nu pchip cs ivp m HR))
     (fun r => events_history_lemma pchip cs ivp m h r (reachable_nu pchip cs ivp m HR) HF)).
Qed.
Print Assumptions events_in_force.

(** What configuration calls install. *)
Theorem events_after_configuration : forall pchip cubic_spline solve_ivp m,
  (forall a m', m_kind m <> Head ->
     step pchip cubic_spline solve_ivp m (OpFits a) = (m', Ok None) ->
     exists f, choose_fit cubic_spline a = Ok f /\ m_events m' = [thwaites_event f]) /\
  (forall c m', m_kind m = Head ->
     step pchip cubic_spline solve_ivp m (OpCritical c) = (m', Ok None) ->
     m_events m' = [head_sep_event c]).
Proof. exact config_step_events. Qed.
Print Assumptions events_after_configuration.

Example events_in_force_case : forall pchip cs,
  let e := user_event TRANSITIONED true "" in
  events_added pchip cs ivp_end w_thwaites [OpNu (Fin 2); OpSolve 0 1 [e]; OpSolve 0 2 [e; e]] [e; e; e].
Proof. exact events_added_example. Qed.

(* ---------------------------------------------------------------- C15 *)
Theorem queries_before_solve : forall pchip cubic_spline solve_ivp m h x rho,
  ivp_contract solve_ivp -> created pchip cubic_spline m ->
  last_solve (trace pchip cubic_spline solve_ivp m h) <> Some true ->
  let s := run pchip cubic_spline solve_ivp m h in
  q_delta_m s x = Err ValueError /\ q_delta_d s x = Err ValueError /\
  q_shape_d s x = Err ValueError /\ q_shape_k s x = Err ValueError /\
  q_v_e s x = Err ValueError /\ q_tau_w_thwaites s x rho = Err ValueError.
Proof. exact queries_before_solve_lemma. Qed.
Print Assumptions queries_before_solve.

(** And a solution is held exactly when the last completed solve succeeded. *)
Theorem solution_held_iff : forall pchip cubic_spline solve_ivp m h,
  ivp_contract solve_ivp -> created pchip cubic_spline m ->
  (m_sol (run pchip cubic_spline solve_ivp m h) = None <->
   last_solve (trace pchip cubic_spline solve_ivp m h) <> Some true).
Proof. exact sol_history. Qed.
Print Assumptions solution_held_iff.

Example queries_before_solve_case : forall pchip cs,
  ivp_contract ivp_fail /\ created pchip cs w_thwaites /\
  last_solve (trace pchip cs ivp_fail w_thwaites [OpSolve 0 1 []]) = Some false.
Proof.
  intros. split; [exact ivp_fail_contract|]. split; [apply w_thwaites_created|].
  cbn [trace step fst snd]. rewrite w_solve. reflexivity.
Qed.

(* ---------------------------------------------------------------- C16 *)
(** C16: with the stagnation condition in force, whatever the history of the object, the
    starting vector follows from the viscosity and du_e(x0) of the moment (and by
    [solve_reports] that vector is handed to the integrator). *)
Theorem stagnation_start : forall m x0 nu d y0,
  ic_body_of (m_ic m) = FSStag -> m_nu m = Fin nu -> 0 < nu ->
  q_du_e m x0 = Ok d -> 0 < d -> initial_state m x0 y0 ->
  y0 = match m_kind m with
       | Head => [Fin (sqrt (nu * (29235/100000) * (123259/100000) / ((22162/10000 + 2) * d)));
                  Fin (22162/10000)]
       | _ => [Fin ((29235/100000) * (123259/100000) / ((22162/10000 + 2) * d))]
       end.
Proof. exact stagnation_start_lemma. Qed.
Print Assumptions stagnation_start.

Example stagnation_start_case : forall pchip cs ivp,
  let m := run pchip cs ivp w_thwaites
     [OpCondition {| ic_du := Fin 9; ic_nu := Fin 9; ic_body_of := FSStag |};
      OpVelocity (PCall (const_call 1)) (PCall (const_call 2)) PNone] in
  ic_body_of (m_ic m) = FSStag /\ m_nu m = Fin 1 /\ q_du_e m 0 = Ok 2.
Proof. intros. repeat split. Qed.

(* ---------------------------------------------------------------- C17 *)
(** C17 fails: for a Thwaites method, changing nu changes delta_m and changing the data
    fits changes shape_d of the boundary layer already solved. *)
Theorem solution_insulated_refuted : forall pchip cubic_spline,
  exists solve_ivp, ivp_contract solve_ivp /\ exists h m' x,
  run pchip cubic_spline solve_ivp w_thwaites h = m' /\
  q_delta_m m' x = Ok (Fin 1) /\
  q_delta_m (fst (step pchip cubic_spline solve_ivp m' (OpNu (Fin 4)))) x = Ok (Fin 2) /\
  (exists v w, q_shape_d m' x = Ok v /\
     q_shape_d (fst (step pchip cubic_spline solve_ivp m' (OpFits (FName "Drela")))) x = Ok w /\
     v <> w).
Proof. exact insulated_witness. Qed.
Print Assumptions solution_insulated_refuted.

(** It holds for delta_m, shape_d and delta_d of Head's method, and for delta_m of
    Thwaites' method as long as nu is not assigned. *)
Theorem solution_insulated_partial : forall pchip cubic_spline solve_ivp m h x,
  let s := run pchip cubic_spline solve_ivp m h in
  (m_kind m = Head -> List.Forall (fun o => is_solve o = false) h ->
     q_delta_m s x = q_delta_m m x /\ q_shape_d s x = q_shape_d m x /\
     q_delta_d s x = q_delta_d m x) /\
  (List.Forall (fun o => is_solve o = false /\ is_nu o = false) h -> q_delta_m s x = q_delta_m m x).
Proof.
  intros pchip cs ivp m h x.
  exact (conj (head_insulated_lemma pchip cs ivp m h x)
              (thwaites_delta_m_insulated_lemma pchip cs ivp m h x)).
Qed.
Print Assumptions solution_insulated_partial.

(* ---------------------------------------------------------------- C30 *)
(** C30 fails with the stagnation condition: the value is accepted and ignored. *)
Theorem initial_delta_m_refuted : forall pchip cubic_spline solve_ivp, exists m x0 y0 y1,
  reachable pchip cubic_spline solve_ivp m /\ initial_state m x0 y0 /\
  snd (step pchip cubic_spline solve_ivp m (OpInitialDeltaM (Fin 3))) = Ok None /\
  initial_state (fst (step pchip cubic_spline solve_ivp m (OpInitialDeltaM (Fin 3)))) x0 y1 /\
  m_nu m = Fin 1 /\ y1 <> [Fin (3 * 3 / 1)].
Proof. exact stagnation_ignores_witness. Qed.
Print Assumptions initial_delta_m_refuted.

(** With a manual condition (the default) the value holds until a call that edits the
    condition, whatever else happens (Thwaites integrates delta_m^2/nu). *)
Theorem initial_delta_m_partial : forall pchip cubic_spline solve_ivp m dd dm dk d m' h x0 y0 nu,
  reachable pchip cubic_spline solve_ivp m -> ic_body_of (m_ic m) = Manual dd dm dk ->
  step pchip cubic_spline solve_ivp m (OpInitialDeltaM (Fin d)) = (m', Ok None) ->
  List.Forall (fun o => edits_condition o = false) h ->
  m_nu (run pchip cubic_spline solve_ivp m' h) = Fin nu -> 0 < nu ->
  initial_state (run pchip cubic_spline solve_ivp m' h) x0 y0 ->
  match m_kind m with
  | Head => hd NaN y0 = Fin d
  | _ => y0 = [Fin (d * d / nu)]
  end.
Proof.
  intros pchip cs ivp m dd dm dk d m' h x0 y0 nu HR.
  exact (initial_delta_m_lemma pchip cs ivp m dd dm dk d m' h x0 y0 nu (reachable_nu pchip cs ivp m HR)).
Qed.
Print Assumptions initial_delta_m_partial.

Theorem initial_delta_m_rejected : forall pchip cubic_spline solve_ivp m v,
  xleb v (Fin 0) = true ->
  step pchip cubic_spline solve_ivp m (OpInitialDeltaM v) = (m, Err ValueError).
Proof. exact initial_delta_m_rejected_lemma. Qed.
Print Assumptions initial_delta_m_rejected.

Example initial_delta_m_case : forall pchip cs ivp, exists m',
  reachable pchip cs ivp w_head /\ ic_body_of (m_ic w_head) = Manual PInf PInf (Fin 0) /\
  step pchip cs ivp w_head (OpInitialDeltaM (Fin (1/2))) = (m', Ok None) /\
  xleb (Fin (-1)) (Fin 0) = true.
Proof.
  intros. eexists. split; [apply created_reachable, w_head_created|]. split; [reflexivity|].
  split; [|cbn; apply Rleb_true; lra].
  cbn [step]. unfold set_initial_delta_m, no_result. cbn [xleb]. rewrite Rleb_false by lra. reflexivity.
Qed.

(* ---------------------------------------------------------------- C31 *)
(** C31: the fit in force is the one chosen by the last accepted set_data_fits call (or
    the constructor) ... *)
Theorem fit_in_force : forall pchip cubic_spline solve_ivp m h linear nu u du d2u a,
  new_thwaites pchip cubic_spline linear nu u du d2u a = Ok m ->
  exists f, choose_fit cubic_spline (fits_after a (trace pchip cubic_spline solve_ivp m h)) = Ok f /\
    m_fit (run pchip cubic_spline solve_ivp m h) = Some f.
Proof. exact fit_history. Qed.
Print Assumptions fit_in_force.

(** ... and for a 2-tuple its derivative is exact for polynomial shape functions. *)
Theorem custom_fit_derivative : forall cubic_spline s h a0 a1 a2 a3 a4 x,
  (forall t, h (Fin t) = Fin (a0 + a1*t + a2*t^2 + a3*t^3 + a4*t^4)) ->
  exists f, choose_fit cubic_spline (FTup [Some s; Some h]) = Ok f /\
    (forall t, shape f (Fin t) = h (Fin t)) /\ (forall t, shear f (Fin t) = s (Fin t)) /\
    shape_p f (Fin x) = Fin (a1 + 2*a2*x + 3*a3*x^2 + 4*a4*x^3).
Proof. exact custom2_fit_lemma. Qed.
Print Assumptions custom_fit_derivative.

(** C31, which fit a call of set_data_fits selects: the four names, or the caller's own
    functions, which are then used unchanged at every finite argument. *)
Theorem fit_selection : forall cubic_spline,
  (forall n f, choose_fit cubic_spline (FName n) = Ok f <->
     (n = "Spline"%string /\ f = fit_spline cubic_spline) \/ (n = "White"%string /\ f = fit_white) \/
     (n = "Cebeci-Bradshaw"%string /\ f = fit_cb) \/ (n = "Drela"%string /\ f = fit_drela)) /\
  (forall l f, choose_fit cubic_spline (FTup l) = Ok f ->
     exists s h, firstn 2 l = [Some s; Some h] /\
       (forall t, shear f (Fin t) = s (Fin t)) /\ (forall t, shape f (Fin t) = h (Fin t)) /\
       (l = [Some s; Some h] \/ exists hp, l = [Some s; Some h; Some hp] /\
          forall t, shape_p f (Fin t) = hp (Fin t))) /\
  (forall l, (exists s h, l = [Some s; Some h] \/ exists hp, l = [Some s; Some h; Some hp]) ->
     exists f, choose_fit cubic_spline (FTup l) = Ok f).
Proof. exact fit_choice_lemma. Qed.
Print Assumptions fit_selection.

Example custom_fit_case : forall pchip cs ivp,
  new_thwaites pchip cs true (Fin 1) (PCall (const_call 1)) (PCall (const_call 0)) PNone
    (FName "White") = Ok w_thwaites /\
  fits_after (FName "White") (trace pchip cs ivp w_thwaites
     [OpFits (FName "Drela"); OpFits (FName "nonsense"); OpNu (Fin 2)]) = FName "Drela".
Proof. intros. split; [apply w_thwaites_new|reflexivity]. Qed.

(* ---------------------------------------------------------------- C39 *)
(** C39: after any history the first event is a terminal separation event whose value has
    the sign of (critical value last set - shape factor). *)
Theorem head_event_current : forall pchip cubic_spline solve_ivp nu u du d2u crit m h,
  new_head pchip nu u du d2u crit = Ok m ->
  let s := run pchip cubic_spline solve_ivp m h in
  exists e rest, m_events s = e :: rest /\
    ev_reason e = SEPARATED /\ ev_terminal e = true /\ ev_message e = ""%string /\
    forall c x d shape, crit_after crit h = Fin c ->
      exists v, event_value s e x [d; Fin shape] = Ok (Fin v) /\
        (0 < v <-> shape < c) /\ (v = 0 <-> shape = c) /\ (v < 0 <-> c < shape).
Proof. exact head_event_lemma. Qed.
Print Assumptions head_event_current.

Example head_event_case : forall pchip,
  new_head pchip (Fin 1) (PCall (const_call 1)) (PCall (const_call 0)) PNone (Fin (24/10)) = Ok w_head /\
  crit_after (Fin (24/10)) [OpCritical (Fin 3); OpSolve 0 1 []; OpCritical (Fin 2); OpNu (Fin 1)] = Fin 2.
Proof. intros. split; [apply w_head_new|reflexivity]. Qed.

(* ---------------------------------------------------------------- C40 *)
(** C40 fails when the shape factor is set first. *)
Theorem head_start_order_refuted : forall pchip cubic_spline solve_ivp, exists m m1 m2 x0 y0,
  reachable pchip cubic_spline solve_ivp m /\
  step pchip cubic_spline solve_ivp m (OpInitialShapeD (Fin 2)) = (m1, Ok None) /\
  step pchip cubic_spline solve_ivp m1 (OpInitialDeltaM (Fin 1)) = (m2, Ok None) /\
  initial_state m2 x0 y0 /\ y0 = [Fin 1; PInf].
Proof. exact head_order_witness. Qed.
Print Assumptions head_start_order_refuted.

(** It holds when the momentum thickness is set first, whatever follows. *)
Theorem head_start_order_partial : forall pchip cubic_spline solve_ivp m dd dm dk d s m1 m2 h x0 y0,
  reachable pchip cubic_spline solve_ivp m -> m_kind m = Head ->
  ic_body_of (m_ic m) = Manual dd dm dk ->
  step pchip cubic_spline solve_ivp m (OpInitialDeltaM (Fin d)) = (m1, Ok None) ->
  step pchip cubic_spline solve_ivp m1 (OpInitialShapeD (Fin s)) = (m2, Ok None) ->
  List.Forall (fun o => edits_condition o = false) h ->
  initial_state (run pchip cubic_spline solve_ivp m2 h) x0 y0 -> y0 = [Fin d; Fin s].
Proof.
  intros pchip cs ivp m dd dm dk d s m1 m2 h x0 y0 HR.
  exact (head_start_order_lemma pchip cs ivp m dd dm dk d s m1 m2 h x0 y0 (reachable_nu pchip cs ivp m HR)).
Qed.
Print Assumptions head_start_order_partial.

(** What the other order starts from, when the previous momentum thickness was finite. *)
Theorem head_start_other_order : forall pchip cubic_spline solve_ivp m dd d0 dk d s m1 m2 h x0 y0,
  reachable pchip cubic_spline solve_ivp m -> m_kind m = Head ->
  ic_body_of (m_ic m) = Manual dd (Fin d0) dk ->
  step pchip cubic_spline solve_ivp m (OpInitialShapeD (Fin s)) = (m1, Ok None) ->
  step pchip cubic_spline solve_ivp m1 (OpInitialDeltaM (Fin d)) = (m2, Ok None) ->
  List.Forall (fun o => edits_condition o = false) h ->
  initial_state (run pchip cubic_spline solve_ivp m2 h) x0 y0 -> y0 = [Fin d; Fin (s * d0 / d)].
Proof.
  intros pchip cs ivp m dd d0 dk d s m1 m2 h x0 y0 HR.
  exact (head_start_reverse_lemma pchip cs ivp m dd d0 dk d s m1 m2 h x0 y0 (reachable_nu pchip cs ivp m HR)).
Qed.
Print Assumptions head_start_other_order.

Example head_start_case : forall pchip cs ivp, exists m1 m2,
  step pchip cs ivp w_head (OpInitialDeltaM (Fin (1/2))) = (m1, Ok None) /\
  step pchip cs ivp m1 (OpInitialShapeD (Fin 2)) = (m2, Ok None) /\
  initial_state m2 0 [Fin (1/2); Fin 2].
Proof. exact head_start_example. Qed.

(* ---------------------------------------------------------------- C71-C74 *)
(** C71: a rejected set_data_fits call raises ValueError and changes nothing. *)
Theorem data_fits_atomic : forall cubic_spline m a m' e,
  set_data_fits cubic_spline m a = (m', Err e) -> m' = m /\ e = ValueError.
Proof. exact data_fits_atomic_lemma. Qed.
Print Assumptions data_fits_atomic.

Example data_fits_atomic_case : forall cs,
  set_data_fits cs w_thwaites (FTup [Some (fun x => x); None]) = (w_thwaites, Err ValueError).
Proof. reflexivity. Qed.

(** C72: the first event of a Thwaites method is a terminal separation event, and its value
    is the shear function of the fit in force at lambda = (state) * U'. *)
Theorem separation_event_uses_fit : forall pchip cubic_spline solve_ivp m h,
  created pchip cubic_spline m -> m_kind m <> Head ->
  let s := run pchip cubic_spline solve_ivp m h in
  exists f e rest, m_fit s = Some f /\ m_events s = e :: rest /\
    ev_reason e = SEPARATED /\ ev_terminal e = true /\ ev_message e = ""%string /\
    forall x y du, q_du_e s x = Ok du ->
      event_value s e x [Fin y] = Ok (shear f (Fin (y * du))).
Proof. exact separation_event_lemma. Qed.
Print Assumptions separation_event_uses_fit.

Example separation_event_case : forall pchip cs, created pchip cs w_thwaites /\ m_kind w_thwaites <> Head.
Proof. intros. split; [apply w_thwaites_created|discriminate]. Qed.

(** C73: passing the velocity to the constructor is the same as set_velocity afterwards. *)
Theorem construct_then_set : forall pchip cubic_spline u du d2u m, u <> PNone ->
  (forall linear nu a,
     new_thwaites pchip cubic_spline linear nu u du d2u a = Ok m <->
     exists m0, new_thwaites pchip cubic_spline linear nu PNone PNone PNone a = Ok m0 /\
       set_velocity pchip m0 u du d2u = (m, Ok tt)) /\
  (forall nu crit,
     new_head pchip nu u du d2u crit = Ok m <->
     exists m0, new_head pchip nu PNone PNone PNone crit = Ok m0 /\
       set_velocity pchip m0 u du d2u = (m, Ok tt)).
Proof. exact construct_then_set_lemma. Qed.
Print Assumptions construct_then_set.

(** C74: a solve that raises leaves the previous solution in place. *)
Theorem failed_solve_keeps_previous : forall pchip cubic_spline solve_ivp m x0 x1 l m' e,
  ivp_contract solve_ivp -> reachable pchip cubic_spline solve_ivp m ->
  solve solve_ivp m x0 x1 l = (m', Err e) -> m_sol m' = m_sol m.
Proof.
  intros pchip cs ivp m x0 x1 l m' e HC HR.
  exact (failed_solve_keeps_solution ivp m x0 x1 l m' e HC (reachable_nu pchip cs ivp m HR)).
Qed.
Print Assumptions failed_solve_keeps_previous.

Example failed_solve_case : forall pchip cs, exists m m' e,
  reachable pchip cs ivp_end m /\ m_sol m <> None /\ solve ivp_end m 0 1 [] = (m', Err e).
Proof. exact failed_solve_example. Qed.
