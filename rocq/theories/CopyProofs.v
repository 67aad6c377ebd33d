(** Proofs about copies. *)
From Coq Require Import Reals List String Bool ZArith Lra Lia FunctionalExtensionality.
From Verif Require Import PyBase FiniteDiffModel PPolyModel InitialConditionModel
  ThwaitesFitsModel HeadModel CoreModel CoreSpec CopyModel CopySpec.
Import ListNotations.
Open Scope R_scope.

(* ------------------------------------------------------------------ *)
(** * One object alone *)

Definition norm_du (m : meth) : option vfun :=
  match m_du m with Some VFd1U => Some (diff1_u (m_u m)) | v => v end.
Definition norm_d2u (m : meth) : option vfun :=
  match m_d2u m with
  | Some VFd2U => Some (diff2_u (m_u m))
  | Some VFd1DU =>
      Some (match call_plain (norm_du m) with
            | Ok f => VF (fun x => fd_1f f x (1/100000)) KFloat
            | Err _ => VBad
            end)
  | v => v
  end.
Definition norm_fit (m : meth) : option fit :=
  match m_fit m with
  | Some f =>
      match fit_shape_p f with
      | SPFun _ => Some f
      | SPFd =>
          Some {| fit_name := fit_name f; fit_shear := fit_shear f; fit_shape := fit_shape f;
                  fit_shape_p := SPFun (shape_fd f); fit_lo := fit_lo f; fit_hi := fit_hi f |}
      end
  | None => None
  end.
Definition norm (m : meth) : meth :=
  set_fit (set_d2u (set_du m (norm_du m)) (norm_d2u m)) (norm_fit m).

Lemma norm_u_e m x : q_u_e (norm m) x = q_u_e m x.
Proof. reflexivity. Qed.

Lemma norm_du_e m x : q_du_e (norm m) x = q_du_e m x.
Proof.
  unfold q_du_e, call_du, norm, norm_du, diff1_u; cbn.
  destruct (m_du m) as [[| | | |]|]; auto.
  unfold call_plain. destruct (m_u m) as [[| | | |]|]; reflexivity.
Qed.

Lemma norm_du_fun m : call_plain (norm_du m) = du_fun m.
Proof.
  unfold norm_du, du_fun, diff1_u.
  destruct (m_du m) as [[| | | |]|]; auto.
  cbn [call_plain].
  destruct (call_plain (m_u m)) as [f|e] eqn:E; cbn; auto.
  unfold call_plain in E. destruct (m_u m) as [[| | | |]|]; congruence.
Qed.

Lemma norm_d2u_e m x : q_d2u_e (norm m) x = q_d2u_e m x.
Proof.
  unfold q_d2u_e, call_d2u.
  replace (m_d2u (norm m)) with (norm_d2u m) by reflexivity.
  unfold norm_d2u, diff2_u.
  destruct (m_d2u m) as [[| | | |]|] eqn:E; auto.
  - change (call_plain (m_u (norm m))) with (call_plain (m_u m)).
    destruct (call_plain (m_u m)) as [f|e] eqn:E1; cbn; auto.
    unfold call_plain in E1. destruct (m_u m) as [[| | | |]|]; congruence.
  - rewrite norm_du_fun. destruct (du_fun m) as [f|e] eqn:E1; cbn; auto.
    unfold du_fun, call_plain in E1.
    destruct (m_du m) as [[| | | |]|]; try congruence.
    destruct (m_u m) as [[| | | |]|]; cbn in E1; congruence.
Qed.

Lemma norm_slot_kind m x du :
  q_du_e m x = Ok du -> slot_kind (m_du (norm m)) = slot_kind (m_du m).
Proof.
  unfold q_du_e, call_du, norm, norm_du, diff1_u; cbn.
  destruct (m_du m) as [[| | | |]|]; auto.
  destruct (call_plain (m_u m)); auto.
Qed.

Lemma norm_fit_shear m f : m_fit m = Some f ->
  exists g, m_fit (norm m) = Some g /\ shear g = shear f /\ shape g = shape f /\
            (forall l, shape_p g l = shape_p f l).
Proof.
  intro H. unfold norm, norm_fit; cbn. rewrite H.
  destruct (fit_shape_p f) eqn:E.
  - exists f. auto.
  - eexists; split; [reflexivity|]. split; [|split].
    + reflexivity.
    + reflexivity.
    + intro l. unfold shape_p; cbn. rewrite E. reflexivity.
Qed.

Lemma norm_fit_none m : m_fit m = None -> m_fit (norm m) = None.
Proof. intro H. unfold norm, norm_fit; cbn. rewrite H. reflexivity. Qed.

Lemma norm_lambda m x s : calc_lambda (norm m) x s = calc_lambda m x s.
Proof. unfold calc_lambda. rewrite norm_du_e. reflexivity. Qed.

Lemma norm_calc_f m x s : calc_f (norm m) x s = calc_f m x s.
Proof.
  unfold calc_f. rewrite norm_lambda.
  destruct (calc_lambda m x s); cbn [bind]; auto.
  change (m_kind (norm m)) with (m_kind m).
  destruct (m_kind m); auto.
  all: destruct (m_fit m) as [f|] eqn:E;
    [destruct (norm_fit_shear m f E) as (g & -> & E1 & E2 & _); unfold fit_f; rewrite E1, E2; auto
    |rewrite (norm_fit_none m E); auto].
Qed.

Lemma norm_ode m x f : ode_impl (norm m) x f = ode_impl m x f.
Proof.
  unfold ode_impl. change (m_kind (norm m)) with (m_kind m).
  change (m_nu (norm m)) with (m_nu m).
  destruct (m_kind m).
  - destruct f as [|s [|]]; auto. rewrite norm_calc_f. reflexivity.
  - destruct f as [|s [|]]; auto. rewrite norm_calc_f. reflexivity.
  - destruct f as [|d [|h [|]]]; auto. rewrite norm_u_e, norm_du_e.
    destruct (q_u_e m x); cbn [bind]; auto.
    destruct (q_du_e m x) eqn:E; cbn [bind]; auto.
    rewrite (norm_slot_kind m x _ E). reflexivity.
Qed.

Lemma norm_event m e x f : event_value (norm m) e x f = event_value m e x f.
Proof.
  unfold event_value. destruct (ev_src e); auto.
  destruct f as [|s [|]]; auto. rewrite norm_lambda. reflexivity.
Qed.

Lemma norm_delta_m m x : q_delta_m (norm m) x = q_delta_m m x.
Proof. reflexivity. Qed.

Lemma norm_shape_d m x : q_shape_d (norm m) x = q_shape_d m x.
Proof.
  unfold q_shape_d. change (sol_at (norm m) x) with (sol_at m x).
  destruct (sol_at m x); cbn [bind]; auto.
  change (m_kind (norm m)) with (m_kind m).
  destruct (m_kind m); auto.
  all: destruct (comp 0 a); cbn [bind]; auto; rewrite norm_lambda;
    destruct (calc_lambda m x a0); cbn [bind]; auto;
    destruct (m_fit m) as [f|] eqn:E;
    [destruct (norm_fit_shear m f E) as (g & -> & E1 & E2 & _); rewrite E2; auto
    |rewrite (norm_fit_none m E); auto].
Qed.

Lemma norm_answers m : same_answers (norm m) m.
Proof.
  assert (HT : forall x rho, q_tau_w_thwaites (norm m) x rho = q_tau_w_thwaites m x rho).
  { intros. unfold q_tau_w_thwaites. change (sol_at (norm m) x) with (sol_at m x).
    destruct (sol_at m x); cbn [bind]; auto.
    destruct (comp 0 a); cbn [bind]; auto. rewrite norm_lambda.
    destruct (calc_lambda m x a0); cbn [bind]; auto. rewrite norm_u_e.
    destruct (q_u_e m x); cbn [bind]; auto.
    destruct (m_fit m) as [f|] eqn:E;
    [destruct (norm_fit_shear m f E) as (g & -> & E1 & E2 & _); rewrite E1; auto
    |rewrite (norm_fit_none m E); auto]. }
  assert (HD : forall x, q_delta_d (norm m) x = q_delta_d m x).
  { intros. unfold q_delta_d. rewrite norm_shape_d. reflexivity. }
  repeat split; auto using norm_du_e, norm_d2u_e, norm_shape_d.
  intro x. unfold q_v_e. change (sol_at (norm m) x) with (sol_at m x).
  destruct (sol_at m x) as [y|]; cbn [bind]; auto.
  change (m_kind (norm m)) with (m_kind m). change (m_nu (norm m)) with (m_nu m).
  rewrite norm_u_e, norm_du_e.
  destruct (m_kind m).
  3:{ destruct y as [|d [|h [|]]]; auto.
      destruct (q_u_e m x); cbn [bind]; auto.
      destruct (q_du_e m x) eqn:E; cbn [bind]; auto.
      rewrite (norm_slot_kind m x _ E). reflexivity. }
  all: destruct (q_u_e m x); cbn [bind]; auto;
    destruct (q_du_e m x) eqn:E; cbn [bind]; auto;
    destruct (comp 0 y); cbn [bind]; auto; rewrite HD;
    destruct (q_delta_d m x); cbn [bind]; auto; rewrite norm_ode;
    destruct (ode_impl m x [a1]); cbn [bind]; auto;
    destruct (comp 0 a3); cbn [bind]; auto; rewrite norm_shape_d;
    destruct (q_shape_d m x); cbn [bind]; auto; rewrite norm_lambda;
    destruct (calc_lambda m x a1); cbn [bind]; auto;
    destruct (m_fit m) as [f|] eqn:E2;
    [destruct (norm_fit_shear m f E2) as (g & -> & E3 & E4 & E5); rewrite E5, norm_d2u_e; auto
    |rewrite (norm_fit_none m E2); auto].
Qed.

Section P.
Variable pchip : ndarray -> ndarray -> res ppoly.
Variable cubic_spline : list R -> list R -> (xr -> xr) * (xr -> xr).
Variable solve_ivp :
  (R -> list xr -> res (list xr)) -> R -> R -> list xr ->
  list (bool * (R -> list xr -> res xr)) -> res ivp_result.
Notation step := (step pchip cubic_spline solve_ivp).
Notation run := (run pchip cubic_spline solve_ivp).
Notation trace := (trace pchip cubic_spline solve_ivp).
Notation call_on := (call_on pchip cubic_spline solve_ivp).
Notation cstep := (cstep pchip cubic_spline solve_ivp).
Notation crun := (crun pchip cubic_spline solve_ivp).
Notation outcomes := (outcomes pchip cubic_spline solve_ivp).

Definition write_back (m r : meth) : meth :=
  set_sol (set_events (set_ic m (m_ic r)) (m_events r)) (m_sol r).

Lemma norm_solve m x0 x1 l :
  solve solve_ivp (norm m) x0 x1 l
  = (norm (fst (solve solve_ivp m x0 x1 l)), snd (solve solve_ivp m x0 x1 l)).
Proof.
  unfold solve. change (m_ic (norm m)) with (m_ic m). change (m_nu (norm m)) with (m_nu m).
  destruct (ic_set_nu (m_ic m) (m_nu m)) as [c [u|e]]; [|reflexivity].
  change (set_ic (norm m) c) with (norm (set_ic m c)).
  rewrite norm_du_e. destruct (q_du_e (set_ic m c) x0) as [du|e]; [|reflexivity].
  change (set_ic (norm (set_ic m c)) (ic_set_du (m_ic (norm (set_ic m c))) (Fin du)))
    with (norm (set_ic (set_ic m c) (ic_set_du (m_ic (set_ic m c)) (Fin du)))).
  set (m2 := set_ic (set_ic m c) (ic_set_du (m_ic (set_ic m c)) (Fin du))).
  change (ode_setup (norm m2)) with (ode_setup m2).
  destruct (ode_setup m2) as [y0|e]; [|reflexivity].
  change (add_kill_events (norm m2) l) with (norm (add_kill_events m2 l)).
  set (m3 := add_kill_events m2 l).
  change (m_events (norm m3)) with (m_events m3).
  replace (ode_impl (norm m3)) with (ode_impl m3)
    by (extensionality x; extensionality f; symmetry; apply norm_ode).
  replace (map (fun e => (ev_terminal e, event_value (norm m3) e)) (m_events m3))
    with (map (fun e => (ev_terminal e, event_value m3 e)) (m_events m3))
    by (apply map_ext; intro e; f_equal; extensionality x; extensionality f;
        symmetry; apply norm_event).
  destruct (solve_ivp _ _ _ _ _) as [r|e]; reflexivity.
Qed.

Lemma solve_write_back m x0 x1 l :
  write_back m (fst (solve solve_ivp m x0 x1 l)) = fst (solve solve_ivp m x0 x1 l).
Proof.
  unfold solve.
  destruct (ic_set_nu (m_ic m) (m_nu m)) as [c [u|e]]; [|reflexivity].
  destruct (q_du_e (set_ic m c) x0) as [du|e]; [|reflexivity].
  destruct (ode_setup _) as [y0|e]; [|reflexivity].
  destruct (solve_ivp _ _ _ _ _) as [r|e]; reflexivity.
Qed.

(* ------------------------------------------------------------------ *)
(** * What the calls do to the functions of an object *)

Definition fns (m : meth) := (m_u m, m_du m, m_d2u m, m_fit m).

Lemma keeps_fns m o : keeps_functions o = true -> fns (fst (step m o)) = fns m.
Proof.
  destruct o; cbn [keeps_functions]; try discriminate; intros _.
  - unfold CoreSpec.step, set_nu. destruct (xleb v (Fin 0)); reflexivity.
  - reflexivity.
  - unfold CoreSpec.step, set_initial_delta_m. destruct (xleb v (Fin 0)); reflexivity.
  - unfold CoreSpec.step, set_initial_shape_d. destruct (m_kind m); try reflexivity.
    destruct (xleb v (Fin 0)); [reflexivity|].
    destruct (get_initial_delta_m m); reflexivity.
  - unfold CoreSpec.step. destruct (m_kind m); reflexivity.
  - cbn [CoreSpec.step fst]. rewrite <- solve_write_back. reflexivity.
Qed.

Lemma velocity_fit m u du d2u : m_fit (fst (step m (OpVelocity u du d2u))) = m_fit m.
Proof.
  assert (HC : forall c du d2u, m_fit (fst (set_velocity_callable m c du d2u)) = m_fit m).
  { intros. unfold set_velocity_callable.
    repeat (match goal with |- context [match ?a with _ => _ end] => destruct a end;
            try reflexivity). }
  cbn [CoreSpec.step no_result fst]. unfold set_velocity.
  destruct u; try apply HC; unfold set_velocity_scalar, set_velocity_points;
  repeat (match goal with |- context [match ?a with _ => _ end] => destruct a end;
          try reflexivity; try apply HC).
Qed.

Lemma fits_velocity m a :
  m_u (fst (step m (OpFits a))) = m_u m /\ m_du (fst (step m (OpFits a))) = m_du m /\
  m_d2u (fst (step m (OpFits a))) = m_d2u m.
Proof.
  cbn [CoreSpec.step no_result fst]. unfold set_data_fits.
  destruct (m_kind m), (choose_fit cubic_spline a); auto.
Qed.

(** What a call of set_velocity leaves: the outcome and, when accepted, the three slots do not
    depend on the object; when rejected no difference formula appears that was not there. *)
Lemma callable_slots m m' c du d2u :
  snd (set_velocity_callable m c du d2u) = snd (set_velocity_callable m' c du d2u) /\
  (accepted (snd (set_velocity_callable m c du d2u)) = true ->
   m_u (fst (set_velocity_callable m c du d2u)) = m_u (fst (set_velocity_callable m' c du d2u)) /\
   m_du (fst (set_velocity_callable m c du d2u)) = m_du (fst (set_velocity_callable m' c du d2u)) /\
   m_d2u (fst (set_velocity_callable m c du d2u)) = m_d2u (fst (set_velocity_callable m' c du d2u))).
Proof.
  unfold set_velocity_callable.
  repeat (match goal with |- context [match ?a with _ => _ end] => destruct a end; cbn; auto;
          try (split; [reflexivity|discriminate])).
Qed.

Lemma velocity_slots m m' u du d2u :
  snd (step m (OpVelocity u du d2u)) = snd (step m' (OpVelocity u du d2u)) /\
  (accepted (snd (step m (OpVelocity u du d2u))) = true ->
   m_u (fst (step m (OpVelocity u du d2u))) = m_u (fst (step m' (OpVelocity u du d2u))) /\
   m_du (fst (step m (OpVelocity u du d2u))) = m_du (fst (step m' (OpVelocity u du d2u))) /\
   m_d2u (fst (step m (OpVelocity u du d2u))) = m_d2u (fst (step m' (OpVelocity u du d2u)))).
Proof.
  assert (HX : forall p p' : meth * res unit,
    snd p = snd p' /\ (accepted (snd p) = true ->
      m_u (fst p) = m_u (fst p') /\ m_du (fst p) = m_du (fst p') /\ m_d2u (fst p) = m_d2u (fst p')) ->
    snd (@no_result meth unit p) = snd (@no_result meth unit p') /\
    (accepted (snd (@no_result meth unit p)) = true ->
      m_u (fst (@no_result meth unit p)) = m_u (fst (@no_result meth unit p')) /\
      m_du (fst (@no_result meth unit p)) = m_du (fst (@no_result meth unit p')) /\
      m_d2u (fst (@no_result meth unit p)) = m_d2u (fst (@no_result meth unit p')))).
  { intros [a [|]] [b [|]]; cbn; intros [H1 H2]; try discriminate;
    (split; [congruence|auto]). }
  cbn [CoreSpec.step]. apply HX. clear HX.
  unfold set_velocity.
  destruct u; try apply callable_slots; unfold set_velocity_scalar, set_velocity_points;
  repeat (match goal with |- context [match ?a with _ => _ end] => destruct a end;
          try apply callable_slots; cbn; auto; try (split; [reflexivity|discriminate])).
Qed.

Lemma callable_rejected m c du d2u :
  accepted (snd (set_velocity_callable m c du d2u)) = false ->
  (m_du (fst (set_velocity_callable m c du d2u)) = m_du m \/
   exists f k, m_du (fst (set_velocity_callable m c du d2u)) = Some (VF f k)) /\
  m_d2u (fst (set_velocity_callable m c du d2u)) = m_d2u m.
Proof.
  unfold set_velocity_callable.
  repeat (match goal with |- context [match ?a with _ => _ end] => destruct a end;
          cbn; try discriminate; eauto).
Qed.

Lemma velocity_rejected m u du d2u :
  accepted (snd (step m (OpVelocity u du d2u))) = false ->
  (m_du (fst (step m (OpVelocity u du d2u))) = m_du m \/
   exists f k, m_du (fst (step m (OpVelocity u du d2u))) = Some (VF f k)) /\
  m_d2u (fst (step m (OpVelocity u du d2u))) = m_d2u m.
Proof.
  assert (HX : forall p : meth * res unit, accepted (snd (no_result p)) = accepted (snd p))
    by (intros [a [|]]; reflexivity).
  cbn [CoreSpec.step]. rewrite HX. cbn [no_result fst].
  unfold set_velocity.
  destruct u; try apply callable_rejected; unfold set_velocity_scalar, set_velocity_points;
  repeat (match goal with |- context [match ?a with _ => _ end] => destruct a end;
          try apply callable_rejected; cbn; auto; try discriminate).
Qed.

(** Likewise for the fit. *)
Lemma fits_slots m m' a : m_kind m = m_kind m' ->
  snd (step m (OpFits a)) = snd (step m' (OpFits a)) /\
  (accepted (snd (step m (OpFits a))) = true ->
   m_fit (fst (step m (OpFits a))) = m_fit (fst (step m' (OpFits a))) /\
   m_events (fst (step m (OpFits a))) = m_events (fst (step m' (OpFits a)))) /\
  (accepted (snd (step m (OpFits a))) = false -> fst (step m (OpFits a)) = m).
Proof.
  intro Hk. cbn [CoreSpec.step]. rewrite <- Hk. unfold set_data_fits.
  destruct (m_kind m); [| |cbn; repeat split; congruence].
  all: destruct (choose_fit cubic_spline a); cbn; repeat split; congruence.
Qed.

(* ------------------------------------------------------------------ *)
(** * Objects whose functions are their own *)

Definition own (w : heap) (k : nat) : Prop :=
  let x := h_obj w k in
  (m_du (o_meth x) = Some VFd1U -> o_du_self x = k) /\
  (m_d2u (o_meth x) = Some VFd2U \/ m_d2u (o_meth x) = Some VFd1DU -> o_d2u_self x = k) /\
  (forall f, m_fit (o_meth x) = Some f -> fit_shape_p f = SPFd -> o_fit_self x = k).

Lemma own_seen w k : own w k -> as_seen w k = norm (o_meth (h_obj w k)).
Proof.
  intros (H1 & H2 & H3).
  assert (E1 : du_of w k = norm_du (o_meth (h_obj w k))).
  { unfold du_of, norm_du. destruct (m_du (o_meth (h_obj w k))) as [[| | | |]|]; auto.
    rewrite H1; auto. }
  assert (E2 : d2u_of w k = norm_d2u (o_meth (h_obj w k))).
  { unfold d2u_of, norm_d2u. destruct (m_d2u (o_meth (h_obj w k))) as [[| | | |]|]; auto.
    - rewrite H2; auto.
    - rewrite H2, E1; auto. }
  assert (E3 : fit_of w k = norm_fit (o_meth (h_obj w k))).
  { unfold fit_of, norm_fit. destruct (m_fit (o_meth (h_obj w k))) as [f|] eqn:E; auto.
    destruct (fit_shape_p f) eqn:E4; auto.
    rewrite (H3 f eq_refl E4), E. reflexivity. }
  unfold as_seen, norm. rewrite E1, E2, E3. reflexivity.
Qed.

Lemma put_same w k x : h_obj (put w k x) k = x.
Proof. unfold put; cbn. rewrite Nat.eqb_refl. reflexivity. Qed.
Lemma put_other w k x i : i <> k -> h_obj (put w k x) i = h_obj w i.
Proof. intro H. unfold put; cbn. destruct (Nat.eqb_spec i k); congruence. Qed.

Lemma call_other w i o k : i <> k -> h_obj (fst (call_on w i o)) k = h_obj w k.
Proof. intro H. destruct o; cbn [CopyModel.call_on fst]; apply put_other; auto. Qed.
Lemma call_next w i o : h_next (fst (call_on w i o)) = h_next w.
Proof. destruct o; reflexivity. Qed.
Lemma copy_other w i k : k <> h_next w -> h_obj (deep_copy w i) k = h_obj w k.
Proof. intro H. unfold deep_copy; cbn. destruct (Nat.eqb_spec k (h_next w)); congruence. Qed.
Lemma copy_new w i : h_obj (deep_copy w i) (h_next w) = h_obj w i.
Proof. unfold deep_copy; cbn. rewrite Nat.eqb_refl. reflexivity. Qed.

Lemma own_ext w w' k : h_obj w' k = h_obj w k -> own w k -> own w' k.
Proof. unfold own. intros ->. auto. Qed.

Lemma norm_step m o : snd (step (norm m) (OpSolve (fst (fst o)) (snd (fst o)) (snd o)))
  = snd (step m (OpSolve (fst (fst o)) (snd (fst o)) (snd o))).
Proof. destruct o as [[x0 x1] l]. cbn [CoreSpec.step fst snd]. rewrite norm_solve. reflexivity. Qed.

(** A call on an object whose functions are its own: CoreModel's step. *)
Lemma own_call w k o : own w k ->
  snd (call_on w k o) = snd (step (o_meth (h_obj w k)) o) /\
  o_meth (h_obj (fst (call_on w k o)) k) = fst (step (o_meth (h_obj w k)) o) /\
  own (fst (call_on w k o)) k.
Proof.
  intro Hown. pose proof Hown as (H1 & H2 & H3).
  set (m := o_meth (h_obj w k)) in *.
  assert (Hkeep : keeps_functions o = true -> forall w' x, h_obj w' k = x ->
     o_meth x = fst (step m o) -> o_du_self x = o_du_self (h_obj w k) ->
     o_d2u_self x = o_d2u_self (h_obj w k) -> o_fit_self x = o_fit_self (h_obj w k) -> own w' k).
  { intros Hk w' x Ex Em E1 E2 E3. pose proof (keeps_fns m o Hk) as F.
    unfold fns in F. injection F as F1 F2 F3 F4.
    unfold own. rewrite Ex, Em, E1, E2, E3, F2, F3, F4. auto. }
  destruct o.
  1,3,4,5,7:
    (cbn [CopyModel.call_on fst snd]; split; [reflexivity|]; split;
      [rewrite put_same; reflexivity|];
     eapply Hkeep; [reflexivity|apply put_same| | | |]; reflexivity).
  - (* velocity *)
    cbn [CopyModel.call_on fst snd]. split; [reflexivity|]. rewrite put_same. split; [reflexivity|].
    unfold own. rewrite put_same. cbn [o_meth o_du_self o_d2u_self o_fit_self].
    fold m. rewrite velocity_fit.
    destruct (accepted (snd (step m (OpVelocity u du d2u)))) eqn:E.
    + repeat split; auto.
    + destruct (velocity_rejected m u du d2u E) as [D1 D2].
      rewrite D2. repeat split; auto.
      intro G. destruct D1 as [D1|(f & kk & D1)]; rewrite D1 in G; [auto|congruence].
  - (* fits *)
    cbn [CopyModel.call_on fst snd]. split; [reflexivity|]. rewrite put_same. split; [reflexivity|].
    unfold own. rewrite put_same. cbn [o_meth o_du_self o_d2u_self o_fit_self].
    fold m. destruct (fits_velocity m a) as (F1 & F2 & F3). rewrite F2, F3.
    destruct (fits_slots m m a eq_refl) as (_ & _ & G).
    destruct (accepted (snd (step m (OpFits a)))) eqn:E.
    + repeat split; auto.
    + rewrite (G eq_refl). repeat split; auto.
  - (* solve *)
    cbn [CopyModel.call_on fst snd].
    rewrite (own_seen w k Hown). fold m.
    assert (E : step (norm m) (OpSolve x0 x_end l) =
                (norm (fst (step m (OpSolve x0 x_end l))), snd (step m (OpSolve x0 x_end l)))).
    { cbn [CoreSpec.step fst snd]. rewrite norm_solve. reflexivity. }
    rewrite E. cbn [fst snd].
    split; [reflexivity|]. rewrite put_same. cbn [o_meth].
    assert (Eo : write_back m (norm (fst (step m (OpSolve x0 x_end l))))
                 = fst (step m (OpSolve x0 x_end l))).
    { cbn [CoreSpec.step fst]. exact (solve_write_back m x0 x_end l). }
    split; [exact Eo|].
    eapply Hkeep; [reflexivity|apply put_same| | | |]; try reflexivity. exact Eo.
Qed.

Lemma own_program k p : forall w, (k < h_next w)%nat -> own w k ->
  outcomes k w p = trace (o_meth (h_obj w k)) (calls_on k p) /\
  o_meth (h_obj (crun w p) k) = run (o_meth (h_obj w k)) (calls_on k p) /\
  own (crun w p) k /\ (k < h_next (crun w p))%nat.
Proof.
  induction p as [|c p IH]; intros w Hk Ho.
  - cbn. auto.
  - destruct c as [i o|i].
    + cbn [CopyModel.outcomes calls_on]. unfold CopyModel.crun. cbn [fold_left].
      change (fold_left (fun s c => fst (cstep s c)) p (fst (cstep w (CCall i o))))
        with (crun (fst (cstep w (CCall i o))) p).
      unfold CopyModel.cstep. destruct (Nat.ltb_spec i (h_next w)) as [Hi|Hi]; cbn [fst snd].
      * destruct (Nat.eqb_spec i k) as [->|Hik].
        -- destruct (own_call w k o Ho) as (E1 & E2 & E3).
           destruct (IH (fst (call_on w k o))) as (I1 & I2 & I3 & I4); auto.
           { rewrite call_next. exact Hk. }
           unfold CoreSpec.run. cbn [CoreSpec.trace fold_left]. rewrite I1, E1, E2.
           split; [reflexivity|]. split; [|auto]. rewrite I2, E2. reflexivity.
        -- destruct (IH (fst (call_on w i o))) as (I1 & I2 & I3 & I4); auto.
           { rewrite call_next. exact Hk. }
           { eapply own_ext; [|exact Ho]. apply call_other; auto. }
           rewrite call_other in I1, I2 by auto. auto.
      * destruct (Nat.eqb_spec i k); [lia|]. apply IH; auto.
    + cbn [CopyModel.outcomes calls_on]. unfold CopyModel.crun. cbn [fold_left].
      change (fold_left (fun s c => fst (cstep s c)) p (fst (cstep w (CCopy i))))
        with (crun (fst (cstep w (CCopy i))) p).
      unfold CopyModel.cstep. destruct (Nat.ltb_spec i (h_next w)) as [Hi|Hi]; cbn [fst snd].
      * destruct (IH (deep_copy w i)) as (I1 & I2 & I3 & I4).
        { cbn. lia. }
        { eapply own_ext; [|exact Ho]. apply copy_other. lia. }
        rewrite copy_other in I1, I2 by lia. auto.
      * apply IH; auto.
Qed.

Lemma start_own n ms k : own (start n ms) k.
Proof. unfold own, start; cbn. auto. Qed.

Lemma original_alone n ms k p : (k < n)%nat ->
  outcomes k (start n ms) p = trace (ms k) (calls_on k p) /\
  same_answers (as_seen (crun (start n ms) p) k) (run (ms k) (calls_on k p)).
Proof.
  intro Hk. destruct (own_program k p (start n ms) Hk (start_own n ms k)) as (I1 & I2 & I3 & _).
  split; [exact I1|]. rewrite (own_seen _ _ I3), I2. apply norm_answers.
Qed.

Lemma given_own w k : given_derivatives (o_meth (h_obj w k)) ->
  given_fit_derivative (o_meth (h_obj w k)) -> own w k.
Proof.
  intros (A & B & C) D. unfold own. split; [|split].
  - intro H. destruct (A H).
  - intros [H|H]; [destruct (B H)|destruct (C H)].
  - intros f H1 H2. destruct (D f H1 H2).
Qed.

Lemma given_copy_alone n ms p0 i p :
  let w := crun (start n ms) p0 in
  (i < h_next w)%nat ->
  given_derivatives (o_meth (h_obj w i)) -> given_fit_derivative (o_meth (h_obj w i)) ->
  outcomes (h_next w) (deep_copy w i) p = trace (o_meth (h_obj w i)) (calls_on (h_next w) p) /\
  same_answers (as_seen (crun (deep_copy w i) p) (h_next w))
               (run (o_meth (h_obj w i)) (calls_on (h_next w) p)).
Proof.
  intros w Hi H1 H2.
  assert (Ho : own (deep_copy w i) (h_next w))
    by (apply given_own; rewrite copy_new; assumption).
  destruct (own_program (h_next w) p (deep_copy w i)) as (I1 & I2 & I3 & _); auto.
  rewrite copy_new in I1, I2. split; [exact I1|].
  rewrite (own_seen _ _ I3), I2. apply norm_answers.
Qed.

(* ------------------------------------------------------------------ *)
(** * How the derivatives come to be given *)

Lemma explicit_given m u du d2u :
  explicit_velocity u du d2u -> accepted (snd (step m (OpVelocity u du d2u))) = true ->
  given_derivatives (fst (step m (OpVelocity u du d2u))).
Proof.
  assert (HX : forall p : meth * res unit, accepted (snd (no_result p)) = accepted (snd p))
    by (intros [a [|]]; reflexivity).
  cbn [CoreSpec.step]. rewrite HX. cbn [no_result fst]. intro H.
  assert (HC : forall c du d2u, explicit_velocity (PCall c) du d2u ->
    accepted (snd (set_velocity_callable m c du d2u)) = true ->
    given_derivatives (fst (set_velocity_callable m c du d2u))).
  { intros c du' d2u' HE. unfold set_velocity_callable.
    inversion HE; subst; try rewrite H1;
    repeat (match goal with |- context [match ?a with _ => _ end] => destruct a eqn:? end;
            cbn; try discriminate; try congruence;
            try (intros _; repeat split; cbn; discriminate)).
    all: try (intros _; repeat split; cbn; unfold as_slot; congruence).
    all: try (exfalso; match goal with G : forall c, _ <> _ |- _ => eapply G; reflexivity end). }
  assert (HP : forall p, explicit_velocity (PCall (callable_of_ppoly p)) PNone PNone)
    by (intro p; eapply explicit_method; reflexivity).
  unfold set_velocity.
  destruct u; try (apply HC; exact H); unfold set_velocity_scalar, set_velocity_points;
  repeat (match goal with |- context [match ?a with _ => _ end] => destruct a end;
          cbn [fst snd accepted]; try discriminate; try (apply HC; apply HP);
          try (intros _; repeat split; cbn; discriminate)).
Qed.

Lemma fit_given m a : explicit_fit a -> accepted (snd (step m (OpFits a))) = true ->
  given_fit_derivative (fst (step m (OpFits a))).
Proof.
  intro H. cbn [CoreSpec.step]. unfold set_data_fits.
  assert (HF : forall f, choose_fit cubic_spline a = Ok f -> fit_shape_p f <> SPFd).
  { intro f. unfold choose_fit. destruct a as [s|l|]; [| |discriminate].
    - destruct (String.eqb s "Spline"); [intro E; injection E as <-; cbn; discriminate|].
      destruct (String.eqb s "White"); [intro E; injection E as <-; cbn; discriminate|].
      destruct (String.eqb s "Cebeci-Bradshaw"); [intro E; injection E as <-; cbn; discriminate|].
      destruct (String.eqb s "Drela"); [intro E; injection E as <-; cbn; discriminate|discriminate].
    - destruct l as [|[s|] [|[h|] [|[hp|] [|]]]]; try discriminate.
      + cbn in H. congruence.
      + intro E; injection E as <-; cbn; discriminate. }
  destruct (m_kind m); [| |discriminate].
  all: destruct (choose_fit cubic_spline a) as [f|e] eqn:E; [|discriminate]; intros _ g; cbn;
    intro G; injection G as <-; apply HF; reflexivity.
Qed.

Lemma given_kept_program i p : forall w,
  Forall (fun o => keeps_functions o = true) (calls_on i p) -> (i < h_next w)%nat ->
  fns (o_meth (h_obj (crun w p) i)) = fns (o_meth (h_obj w i)).
Proof.
  assert (HC : forall w o, keeps_functions o = true ->
    fns (o_meth (h_obj (fst (call_on w i o)) i)) = fns (o_meth (h_obj w i))).
  { intros w o Ho. destruct o; cbn [keeps_functions] in Ho; try discriminate;
      cbn [CopyModel.call_on fst]; rewrite put_same; cbn [o_meth];
      try (apply keeps_fns; reflexivity). reflexivity. }
  induction p as [|c p IH]; intros w Hf Hi; [reflexivity|].
  unfold CopyModel.crun. cbn [fold_left].
  change (fold_left (fun s c => fst (cstep s c)) p (fst (cstep w c)))
    with (crun (fst (cstep w c)) p).
  destruct c as [a o|a]; cbn [calls_on] in Hf; unfold CopyModel.cstep.
  - destruct (Nat.eqb_spec a i) as [->|Ha].
    + inversion Hf; subst. apply Nat.ltb_lt in Hi as Hi'. rewrite Hi'. cbn [fst].
      rewrite IH; auto. rewrite call_next. exact Hi.
    + destruct (Nat.ltb a (h_next w)); cbn [fst]; [|auto].
      rewrite IH; auto; [rewrite call_other by auto; reflexivity|]. rewrite call_next. exact Hi.
  - destruct (Nat.ltb a (h_next w)); cbn [fst]; [|auto].
    rewrite IH; auto; [rewrite copy_other by lia; reflexivity|]. cbn. lia.
Qed.

Lemma given_kept w i p :
  (i < h_next w)%nat -> Forall (fun o => keeps_functions o = true) (calls_on i p) ->
  (given_derivatives (o_meth (h_obj w i)) -> given_derivatives (o_meth (h_obj (crun w p) i))) /\
  (given_fit_derivative (o_meth (h_obj w i)) ->
   given_fit_derivative (o_meth (h_obj (crun w p) i))).
Proof.
  intros Hi Hf. pose proof (given_kept_program i p w Hf Hi) as E. unfold fns in E.
  injection E as E1 E2 E3 E4. unfold given_derivatives, given_fit_derivative.
  rewrite E2, E3, E4. auto.
Qed.

(* ------------------------------------------------------------------ *)
(** * What an object sees depends on the functions of the objects it reads *)

Definition ofns (x : obj) := (fns (o_meth x), o_du_self x, o_d2u_self x, o_fit_self x).

Definition closed (P : nat -> Prop) (w : heap) : Prop :=
  forall i, P i -> P (o_du_self (h_obj w i)) /\ P (o_d2u_self (h_obj w i)) /\
                   P (o_fit_self (h_obj w i)).

Section Frame.
Variable P : nat -> Prop.
Variables w w' : heap.
Hypothesis HP : closed P w'.
Hypothesis HA : forall i, P i -> ofns (h_obj w i) = ofns (h_obj w' i).

Lemma frame_du i : P i -> du_of w i = du_of w' i.
Proof.
  intro Hi. unfold du_of. pose proof (HA i Hi) as E. unfold ofns, fns in E.
  injection E as E1 E2 E3 E4 E5 E6 E7. rewrite E2, E5.
  destruct (HP i Hi) as (H1 & _ & _). pose proof (HA _ H1) as G. unfold ofns, fns in G.
  injection G as G1 _ _ _ _ _ _. rewrite G1. reflexivity.
Qed.

Lemma frame_d2u i : P i -> d2u_of w i = d2u_of w' i.
Proof.
  intro Hi. unfold d2u_of. pose proof (HA i Hi) as E. unfold ofns, fns in E.
  injection E as E1 E2 E3 E4 E5 E6 E7. rewrite E3, E6.
  destruct (HP i Hi) as (_ & H1 & _). pose proof (HA _ H1) as G. unfold ofns, fns in G.
  injection G as G1 _ _ _ _ _ _. rewrite G1, (frame_du _ H1). reflexivity.
Qed.

Lemma frame_fit i : P i -> fit_of w i = fit_of w' i.
Proof.
  intro Hi. unfold fit_of. pose proof (HA i Hi) as E. unfold ofns, fns in E.
  injection E as E1 E2 E3 E4 E5 E6 E7. rewrite E4, E7.
  destruct (HP i Hi) as (_ & _ & H1). pose proof (HA _ H1) as G. unfold ofns, fns in G.
  injection G as _ _ _ G1 _ _ _. rewrite G1. reflexivity.
Qed.

Lemma frame_seen i : P i -> o_meth (h_obj w i) = o_meth (h_obj w' i) ->
  as_seen w i = as_seen w' i.
Proof.
  intros Hi E. unfold as_seen. rewrite frame_du, frame_d2u, frame_fit, E; auto.
Qed.
End Frame.

(** Functions read only objects that exist. *)
Definition wf (w : heap) : Prop := closed (fun i => (i < h_next w)%nat) w.

Lemma wf_start n ms : wf (start n ms).
Proof. intros i Hi. cbn in *. auto. Qed.

Lemma wf_step w c : wf w -> wf (fst (cstep w c)).
Proof.
  intro H. destruct c as [i o|i]; unfold CopyModel.cstep;
    destruct (Nat.ltb_spec i (h_next w)) as [Hi|Hi]; cbn [fst]; auto.
  - intros k Hk. rewrite call_next in *. pose proof (H k Hk) as (A & B & C).
    destruct (Nat.eq_dec k i) as [->|Hki]; [|rewrite call_other by auto; auto].
    destruct o; cbn [CopyModel.call_on fst]; rewrite put_same;
      cbn [o_du_self o_d2u_self o_fit_self]; auto.
    + destruct (accepted _); auto.
    + destruct (accepted _); auto.
  - intros k Hk. cbn [deep_copy h_next] in *.
    destruct (Nat.eq_dec k (h_next w)) as [->|Hkn].
    + rewrite copy_new. destruct (H i Hi) as (A & B & C). lia.
    + rewrite copy_other by auto. assert (Hk' : (k < h_next w)%nat) by lia.
      destruct (H k Hk') as (A & B & C). lia.
Qed.

Lemma wf_run p : forall w, wf w -> wf (crun w p).
Proof.
  induction p as [|c p IH]; intros w H; [exact H|].
  unfold CopyModel.crun. cbn [fold_left]. apply IH. apply wf_step. exact H.
Qed.

(** Copying: the copy is seen as its original was, the others as before. *)
Lemma copy_seen w i : wf w -> (i < h_next w)%nat ->
  as_seen (deep_copy w i) (h_next w) = as_seen w i /\
  forall k, (k < h_next w)%nat -> as_seen (deep_copy w i) k = as_seen w k.
Proof.
  intros H Hi.
  assert (HA : forall k, (k < h_next w)%nat ->
             ofns (h_obj (deep_copy w i) k) = ofns (h_obj w k)).
  { intros k Hk. rewrite copy_other by lia. reflexivity. }
  split.
  - destruct (H i Hi) as (A & B & C).
    assert (E1 : du_of (deep_copy w i) (h_next w) = du_of w i).
    { unfold du_of. rewrite copy_new. rewrite copy_other by lia. reflexivity. }
    assert (E2 : d2u_of (deep_copy w i) (h_next w) = d2u_of w i).
    { unfold d2u_of. rewrite copy_new. rewrite copy_other by lia.
      rewrite (frame_du _ _ _ H HA) by assumption. reflexivity. }
    assert (E3 : fit_of (deep_copy w i) (h_next w) = fit_of w i).
    { unfold fit_of. rewrite copy_new. rewrite copy_other by lia. reflexivity. }
    unfold as_seen. rewrite E1, E2, E3, copy_new. reflexivity.
  - intros k Hk. apply (frame_seen _ _ _ H HA k Hk). rewrite copy_other by lia. reflexivity.
Qed.

(* ------------------------------------------------------------------ *)
(** * The same calls on two objects that are seen alike *)

Definition dress (m : meth) (du d2u : option vfun) (f : option fit) : meth :=
  set_fit (set_d2u (set_du m du) d2u) f.

Lemma step_dress m du d2u f o : keeps_functions o = true ->
  (forall x0 x1 l, o <> OpSolve x0 x1 l) ->
  step (dress m du d2u f) o = (dress (fst (step m o)) du d2u f, snd (step m o)).
Proof.
  destruct o; cbn [keeps_functions]; try discriminate; intros _ H.
  - unfold CoreSpec.step, set_nu. destruct (xleb v (Fin 0)); reflexivity.
  - reflexivity.
  - unfold CoreSpec.step, set_initial_delta_m. destruct (xleb v (Fin 0)); reflexivity.
  - unfold CoreSpec.step, set_initial_shape_d.
    change (m_kind (dress m du d2u f)) with (m_kind m).
    destruct (m_kind m); try reflexivity.
    change (get_initial_delta_m (dress m du d2u f)) with (get_initial_delta_m m).
    destruct (xleb v (Fin 0)); [reflexivity|].
    destruct (get_initial_delta_m m); reflexivity.
  - unfold CoreSpec.step. change (m_kind (dress m du d2u f)) with (m_kind m).
    destruct (m_kind m); reflexivity.
  - destruct (H x0 x_end l). reflexivity.
Qed.

Lemma put_frame w k x : ofns x = ofns (h_obj w k) ->
  as_seen (put w k x) k = dress (o_meth x) (du_of w k) (d2u_of w k) (fit_of w k).
Proof.
  intro E.
  assert (HA : forall i, True -> ofns (h_obj (put w k x) i) = ofns (h_obj w i)).
  { intros i _. destruct (Nat.eq_dec i k) as [->|]; [rewrite put_same; exact E|].
    rewrite put_other by auto. reflexivity. }
  assert (HP : closed (fun _ => True) w) by (intros ? ?; auto).
  unfold as_seen. rewrite (frame_du _ _ _ HP HA), (frame_d2u _ _ _ HP HA),
    (frame_fit _ _ _ HP HA), put_same by exact Logic.I. reflexivity.
Qed.

Lemma velocity_others m u du d2u :
  let r := fst (step m (OpVelocity u du d2u)) in
  m_kind r = m_kind m /\ m_nu r = m_nu m /\ m_ic r = m_ic m /\ m_events r = m_events m /\
  m_sol r = m_sol m.
Proof.
  assert (HC : forall c du d2u, let r := fst (set_velocity_callable m c du d2u) in
    m_kind r = m_kind m /\ m_nu r = m_nu m /\ m_ic r = m_ic m /\ m_events r = m_events m /\
    m_sol r = m_sol m).
  { intros. subst r. unfold set_velocity_callable.
    repeat (match goal with |- context [match ?a with _ => _ end] => destruct a end;
            try (repeat split; reflexivity)). }
  cbn [CoreSpec.step no_result fst]. unfold set_velocity.
  destruct u; try apply HC; unfold set_velocity_scalar, set_velocity_points;
  repeat (match goal with |- context [match ?a with _ => _ end] => destruct a end;
          try (repeat split; reflexivity); try apply HC).
Qed.

Lemma fits_others m a :
  let r := fst (step m (OpFits a)) in
  m_kind r = m_kind m /\ m_nu r = m_nu m /\ m_ic r = m_ic m /\ m_sol r = m_sol m.
Proof.
  cbn [CoreSpec.step no_result fst]. unfold set_data_fits.
  destruct (m_kind m) eqn:E, (choose_fit cubic_spline a); cbn; auto.
Qed.

Lemma velocity_seen w k u du d2u :
  let m' := fst (step (o_meth (h_obj w k)) (OpVelocity u du d2u)) in
  accepted (snd (step (o_meth (h_obj w k)) (OpVelocity u du d2u))) = true ->
  as_seen (fst (call_on w k (OpVelocity u du d2u))) k
  = dress m' (norm_du m') (norm_d2u m') (fit_of w k).
Proof.
  intros m' Hacc. cbn [CopyModel.call_on fst]. rewrite Hacc.
  match goal with |- as_seen (put _ _ ?x) _ = _ => set (x' := x) end.
  assert (E1 : du_of (put w k x') k = norm_du m').
  { unfold du_of, norm_du. rewrite put_same. cbn [o_meth x' o_du_self].
    fold m'. change (h_obj (put w k x')) with (h_obj (put w k x')).
    rewrite put_same. reflexivity. }
  assert (E2 : d2u_of (put w k x') k = norm_d2u m').
  { unfold d2u_of, norm_d2u. rewrite put_same. cbn [x' o_meth o_d2u_self]. fold x'.
    rewrite E1. rewrite put_same. reflexivity. }
  assert (E3 : fit_of (put w k x') k = fit_of w k).
  { unfold fit_of. rewrite put_same. cbn [x' o_meth o_fit_self]. fold x'.
    rewrite velocity_fit.
    destruct (Nat.eq_dec (o_fit_self (h_obj w k)) k) as [E|E].
    - rewrite E, put_same. cbn [x' o_meth]. rewrite velocity_fit. reflexivity.
    - rewrite put_other by auto. reflexivity. }
  unfold as_seen. rewrite E1, E2, E3, put_same. reflexivity.
Qed.

Lemma fits_seen w k a :
  let m' := fst (step (o_meth (h_obj w k)) (OpFits a)) in
  accepted (snd (step (o_meth (h_obj w k)) (OpFits a))) = true ->
  as_seen (fst (call_on w k (OpFits a))) k
  = dress m' (du_of w k) (d2u_of w k) (norm_fit m').
Proof.
  intros m' Hacc. cbn [CopyModel.call_on fst]. rewrite Hacc.
  match goal with |- as_seen (put _ _ ?x) _ = _ => set (x' := x) end.
  destruct (fits_velocity (o_meth (h_obj w k)) a) as (F1 & F2 & F3).
  assert (HU : forall i, m_u (o_meth (h_obj (put w k x') i)) = m_u (o_meth (h_obj w i))).
  { intro i. destruct (Nat.eq_dec i k) as [->|]; [rewrite put_same; exact F1|].
    rewrite put_other by auto. reflexivity. }
  assert (HD : forall i, du_of (put w k x') i = du_of w i).
  { intro i. unfold du_of. rewrite HU. destruct (Nat.eq_dec i k) as [->|].
    - rewrite put_same. cbn [x' o_meth o_du_self]. rewrite F2. reflexivity.
    - rewrite put_other by auto. reflexivity. }
  assert (E2 : d2u_of (put w k x') k = d2u_of w k).
  { unfold d2u_of. rewrite HD, HU. rewrite put_same. cbn [x' o_meth o_d2u_self]. rewrite F3.
    reflexivity. }
  assert (E3 : fit_of (put w k x') k = norm_fit m').
  { unfold fit_of, norm_fit. rewrite put_same. cbn [x' o_meth o_fit_self]. fold x'. fold m'.
    rewrite put_same. cbn [x' o_meth]. fold m'.
    destruct (m_fit m'); reflexivity. }
  unfold as_seen. rewrite HD, E2, E3, put_same. reflexivity.
Qed.

Lemma dress_eq m m' du du' d2u d2u' f f' :
  m_kind m = m_kind m' -> m_nu m = m_nu m' -> m_u m = m_u m' -> du = du' -> d2u = d2u' ->
  m_ic m = m_ic m' -> f = f' -> m_events m = m_events m' -> m_sol m = m_sol m' ->
  dress m du d2u f = dress m' du' d2u' f'.
Proof.
  intros. unfold dress, set_fit, set_d2u, set_du; cbn. congruence.
Qed.

Definition velocity_ok (p : op * res (option int_result)) : Prop :=
  match p with (OpVelocity _ _ _, Err _) => False | _ => True end.

Lemma call_alike w1 j w2 i o :
  as_seen w1 j = as_seen w2 i -> velocity_ok (o, snd (call_on w2 i o)) ->
  snd (call_on w1 j o) = snd (call_on w2 i o) /\
  as_seen (fst (call_on w1 j o)) j = as_seen (fst (call_on w2 i o)) i.
Proof.
  intros E Hok.
  set (m1 := o_meth (h_obj w1 j)). set (m2 := o_meth (h_obj w2 i)).
  assert (E1 : as_seen w1 j = dress m1 (du_of w1 j) (d2u_of w1 j) (fit_of w1 j)) by reflexivity.
  assert (E2 : as_seen w2 i = dress m2 (du_of w2 i) (d2u_of w2 i) (fit_of w2 i)) by reflexivity.
  assert (Ekind : m_kind m1 = m_kind m2) by exact (f_equal m_kind E).
  assert (Enu : m_nu m1 = m_nu m2) by exact (f_equal m_nu E).
  assert (Eu : m_u m1 = m_u m2) by exact (f_equal m_u E).
  assert (Edu : du_of w1 j = du_of w2 i) by exact (f_equal m_du E).
  assert (Ed2u : d2u_of w1 j = d2u_of w2 i) by exact (f_equal m_d2u E).
  assert (Eic : m_ic m1 = m_ic m2) by exact (f_equal m_ic E).
  assert (Efit : fit_of w1 j = fit_of w2 i) by exact (f_equal m_fit E).
  assert (Eev : m_events m1 = m_events m2) by exact (f_equal m_events E).
  assert (Esol : m_sol m1 = m_sol m2) by exact (f_equal m_sol E).
  assert (Hkeep : keeps_functions o = true -> (forall x0 x1 l, o <> OpSolve x0 x1 l) ->
     snd (step m1 o) = snd (step m2 o) /\
     dress (fst (step m1 o)) (du_of w1 j) (d2u_of w1 j) (fit_of w1 j)
     = dress (fst (step m2 o)) (du_of w2 i) (d2u_of w2 i) (fit_of w2 i)).
  { intros Hk Hns. rewrite E1, E2 in E.
    pose proof (step_dress m1 (du_of w1 j) (d2u_of w1 j) (fit_of w1 j) o Hk Hns) as S1.
    pose proof (step_dress m2 (du_of w2 i) (d2u_of w2 i) (fit_of w2 i) o Hk Hns) as S2.
    rewrite E in S1. rewrite S1 in S2.
    pose proof (f_equal fst S2) as S3. pose proof (f_equal snd S2) as S4. cbn [fst snd] in S3, S4.
    split; [exact S4|].
    exact S3. }
  assert (HO : forall w k o0, keeps_functions o0 = true ->
     ofns {| o_meth := fst (step (o_meth (h_obj w k)) o0); o_du_self := o_du_self (h_obj w k);
             o_d2u_self := o_d2u_self (h_obj w k); o_fit_self := o_fit_self (h_obj w k) |}
     = ofns (h_obj w k)).
  { intros w k o0 Hk. unfold ofns. cbn [o_meth o_du_self o_d2u_self o_fit_self].
    rewrite (keeps_fns _ _ Hk). reflexivity. }
  destruct o.
  1,3,4,5,7:
    (destruct Hkeep as [K1 K2]; [reflexivity|discriminate|];
     cbn [CopyModel.call_on fst snd]; split; [exact K1|];
     rewrite !put_frame by (apply HO; reflexivity); exact K2).
  - (* velocity *)
    destruct (velocity_slots m1 m2 u du d2u) as [V1 V2].
    assert (Hacc2 : accepted (snd (step m2 (OpVelocity u du d2u))) = true).
    { cbn [CopyModel.call_on snd] in Hok. fold m2 in Hok.
      destruct (snd (step m2 (OpVelocity u du d2u))); [reflexivity|contradiction]. }
    assert (Hacc1 : accepted (snd (step m1 (OpVelocity u du d2u))) = true)
      by (rewrite V1; exact Hacc2).
    split; [exact V1|].
    rewrite (velocity_seen w1 j) by exact Hacc1. rewrite (velocity_seen w2 i) by exact Hacc2.
    fold m1 m2. destruct (V2 Hacc1) as (S1 & S2 & S3).
    destruct (velocity_others m1 u du d2u) as (O1 & O2 & O3 & O4 & O5).
    destruct (velocity_others m2 u du d2u) as (Q1 & Q2 & Q3 & Q4 & Q5).
    assert (N1 : norm_du (fst (step m1 (OpVelocity u du d2u)))
                 = norm_du (fst (step m2 (OpVelocity u du d2u))))
      by (unfold norm_du; rewrite S1, S2; reflexivity).
    apply dress_eq; try congruence.
    unfold norm_d2u. rewrite N1, S1, S3. reflexivity.
  - (* fits *)
    destruct (fits_slots m1 m2 a Ekind) as (V1 & V2 & V3).
    destruct (fits_slots m2 m2 a eq_refl) as (_ & _ & V4).
    split; [exact V1|].
    destruct (fits_others m1 a) as (O1 & O2 & O3 & O4).
    destruct (fits_others m2 a) as (Q1 & Q2 & Q3 & Q4).
    destruct (fits_velocity m1 a) as (F1 & _ & _).
    destruct (fits_velocity m2 a) as (G1 & _ & _).
    destruct (accepted (snd (step m1 (OpFits a)))) eqn:Ha.
    + rewrite (fits_seen w1 j) by exact Ha.
      rewrite V1 in Ha. rewrite (fits_seen w2 i) by exact Ha. fold m1 m2.
      destruct (V2 eq_refl) as (S1 & S2).
      apply dress_eq; try congruence. unfold norm_fit. rewrite S1. reflexivity.
    + pose proof Ha as Ha2. rewrite V1 in Ha2.
      cbn [CopyModel.call_on fst]. fold m1 m2. rewrite Ha, Ha2, (V3 eq_refl), (V4 Ha2).
      rewrite !put_frame by reflexivity. cbn [o_meth]. exact E.
  - (* solve *)
    cbn [CopyModel.call_on fst snd]. rewrite E. split; [reflexivity|].
    rewrite !put_frame by reflexivity. cbn [o_meth]. fold m1 m2.
    apply dress_eq; try assumption; reflexivity.
Qed.

Lemma accepted_cons o r t :
  all_velocities_accepted ((o, r) :: t) <-> velocity_ok (o, r) /\ all_velocities_accepted t.
Proof. destruct o, r; cbn; tauto. Qed.

Lemma acts_alike l : forall w1 j w2 i,
  (j < h_next w1)%nat -> (i < h_next w2)%nat ->
  as_seen w1 j = as_seen w2 i ->
  all_velocities_accepted (outcomes i w2 (map (CCall i) l)) ->
  outcomes j w1 (map (CCall j) l) = outcomes i w2 (map (CCall i) l) /\
  as_seen (crun w1 (map (CCall j) l)) j = as_seen (crun w2 (map (CCall i) l)) i.
Proof.
  induction l as [|o l IH]; intros w1 j w2 i Hj Hi E Hacc; [split; [reflexivity|exact E]|].
  cbn [map CopyModel.outcomes] in *. unfold CopyModel.crun. cbn [fold_left].
  unfold CopyModel.cstep in *. apply Nat.ltb_lt in Hj as Hj', Hi as Hi'.
  rewrite Hj', Hi' in *. cbn [fst snd] in *. rewrite Nat.eqb_refl in *.
  apply accepted_cons in Hacc. destruct Hacc as [A1 A2].
  destruct (call_alike w1 j w2 i o E A1) as [B1 B2].
  destruct (IH (fst (call_on w1 j o)) j (fst (call_on w2 i o)) i) as [I1 I2]; auto;
    try (rewrite call_next; assumption).
  rewrite Nat.eqb_refl.
  rewrite B1, I1. split; [reflexivity|exact I2].
Qed.

Lemma copy_acts_alike n ms p0 i l :
  let w := crun (start n ms) p0 in
  let j := h_next w in
  (i < h_next w)%nat ->
  as_seen (deep_copy w i) j = as_seen w i /\
  (all_velocities_accepted (outcomes i w (map (CCall i) l)) ->
   outcomes j (deep_copy w i) (map (CCall j) l) = outcomes i w (map (CCall i) l) /\
   as_seen (crun (deep_copy w i) (map (CCall j) l)) j = as_seen (crun w (map (CCall i) l)) i).
Proof.
  intros w j Hi. assert (Hwf : wf w) by (apply wf_run, wf_start).
  destruct (copy_seen w i Hwf Hi) as [E _]. split; [exact E|].
  intro Hacc. apply acts_alike; auto.
Qed.

Lemma copying_changes_nobody n ms p0 i k :
  let w := crun (start n ms) p0 in
  (i < h_next w)%nat -> (k < h_next w)%nat -> as_seen (deep_copy w i) k = as_seen w k.
Proof.
  intros w Hi Hk. apply copy_seen; auto. apply wf_run, wf_start.
Qed.

(* ------------------------------------------------------------------ *)
(** * Calls on other objects that replace no function *)

Lemma call_same w w' k o : as_seen w k = as_seen w' k -> h_obj w k = h_obj w' k ->
  snd (call_on w k o) = snd (call_on w' k o) /\
  h_obj (fst (call_on w k o)) k = h_obj (fst (call_on w' k o)) k.
Proof.
  intros E1 E2. destruct o; cbn [CopyModel.call_on fst snd]; rewrite ?E1, ?E2, !put_same; auto.
Qed.

Lemma call_keeps_ofns w i o k : keeps_functions o = true ->
  ofns (h_obj (fst (call_on w i o)) k) = ofns (h_obj w k).
Proof.
  intro Hk. destruct (Nat.eq_dec k i) as [->|Hki]; [|rewrite call_other by auto; reflexivity].
  unfold ofns.
  destruct o; cbn [keeps_functions] in Hk; try discriminate; cbn [CopyModel.call_on fst];
    rewrite put_same; cbn [o_meth o_du_self o_d2u_self o_fit_self];
    rewrite ?keeps_fns by reflexivity; reflexivity.
Qed.

Lemma harmless k p : forall w w',
  wf w' -> (k < h_next w')%nat -> (h_next w' <= h_next w)%nat ->
  (forall i, (i < h_next w')%nat -> ofns (h_obj w i) = ofns (h_obj w' i)) ->
  h_obj w k = h_obj w' k ->
  others_keep_functions k p ->
  outcomes k w p = outcomes k w' (filter (concerns k) p) /\
  as_seen (crun w p) k = as_seen (crun w' (filter (concerns k) p)) k.
Proof.
  induction p as [|c p IH]; intros w w' Hwf Hk Hn HA Ek Hp.
  - split; [reflexivity|].
    apply (frame_seen _ _ _ Hwf HA k Hk). rewrite Ek. reflexivity.
  - inversion Hp as [|? ? Hc Hp']; subst. clear Hp.
    assert (Es : as_seen w k = as_seen w' k)
      by (apply (frame_seen _ _ _ Hwf HA k Hk); rewrite Ek; reflexivity).
    unfold CopyModel.crun. cbn [fold_left].
    change (fold_left (fun s c => fst (cstep s c)) p (fst (cstep w c)))
      with (crun (fst (cstep w c)) p).
    destruct c as [i o|i]; cbn [concerns filter].
    + destruct (Nat.eqb_spec i k) as [->|Hik].
      * cbn [fold_left].
        change (fold_left (fun s c => fst (cstep s c)) (filter (concerns k) p)
                  (fst (cstep w' (CCall k o))))
          with (crun (fst (cstep w' (CCall k o))) (filter (concerns k) p)).
        pose proof (wf_step w' (CCall k o) Hwf) as Hwf2.
        cbn [CopyModel.outcomes]. unfold CopyModel.cstep in *.
        assert (B1 : Nat.ltb k (h_next w) = true) by (apply Nat.ltb_lt; lia).
        assert (B2 : Nat.ltb k (h_next w') = true) by (apply Nat.ltb_lt; lia).
        rewrite B1, B2 in *. cbn [fst snd] in *. rewrite Nat.eqb_refl.
        destruct (call_same w w' k o Es Ek) as [C1 C2].
        destruct (IH (fst (call_on w k o)) (fst (call_on w' k o))) as [I1 I2]; auto;
          rewrite ?call_next; auto.
        { intros i Hi. destruct (Nat.eq_dec i k) as [->|]; [rewrite C2; reflexivity|].
          rewrite !call_other by auto. auto. }
        rewrite C1, I1. auto.
      * cbn [CopyModel.outcomes]. unfold CopyModel.cstep.
        destruct Hc as [Hc|Hc]; [congruence|].
        destruct (Nat.ltb i (h_next w)); cbn [fst snd];
          [|exact (IH w w' Hwf Hk Hn HA Ek Hp')].
        destruct (Nat.eqb_spec i k); [congruence|].
        apply IH; auto; rewrite ?call_next; auto.
        -- intros a Ha. rewrite call_keeps_ofns by exact Hc. auto.
        -- rewrite call_other by auto. exact Ek.
    + cbn [CopyModel.outcomes]. unfold CopyModel.cstep.
      destruct (Nat.ltb i (h_next w)); cbn [fst snd];
          [|exact (IH w w' Hwf Hk Hn HA Ek Hp')].
      apply IH; auto.
      * cbn. lia.
      * intros a Ha. rewrite copy_other by lia. auto.
      * rewrite copy_other by lia. exact Ek.
Qed.

Lemma others_harmless n ms p0 k p :
  let w := crun (start n ms) p0 in
  (k < h_next w)%nat -> others_keep_functions k p ->
  outcomes k w p = outcomes k w (filter (concerns k) p) /\
  as_seen (crun w p) k = as_seen (crun w (filter (concerns k) p)) k.
Proof.
  intros w Hk Hp. apply harmless; auto. apply wf_run, wf_start.
Qed.

(** A copy whose velocity and fit have been replaced is on its own. *)
Lemma renewed_alone n ms p0 k u du d2u a p :
  let w := crun (start n ms) p0 in
  let w1 := crun w [CCall k (OpVelocity u du d2u); CCall k (OpFits a)] in
  (k < h_next w)%nat ->
  accepted (snd (step (o_meth (h_obj w k)) (OpVelocity u du d2u))) = true ->
  (accepted (snd (step (fst (step (o_meth (h_obj w k)) (OpVelocity u du d2u))) (OpFits a))) = true
   \/ given_fit_derivative (o_meth (h_obj w k))) ->
  outcomes k w1 p = trace (o_meth (h_obj w1 k)) (calls_on k p) /\
  same_answers (as_seen (crun w1 p) k) (run (o_meth (h_obj w1 k)) (calls_on k p)).
Proof.
  intros w w1 Hk H1 H2.
  assert (Hltb : Nat.ltb k (h_next w) = true) by (apply Nat.ltb_lt; exact Hk).
  set (m := o_meth (h_obj w k)) in *.
  assert (Hn : h_next w1 = h_next w).
  { subst w1. unfold CopyModel.crun at 1. cbn [fold_left CopyModel.cstep]. rewrite Hltb.
    cbn [fst]. rewrite call_next, Hltb. cbn [fst]. rewrite !call_next. reflexivity. }
  assert (Ho : own w1 k).
  { subst w1. unfold CopyModel.crun at 1. cbn [fold_left CopyModel.cstep]. rewrite Hltb.
    cbn [fst]. rewrite call_next, Hltb. cbn [fst].
    set (wa := fst (call_on w k (OpVelocity u du d2u))).
    assert (Ea : h_obj wa k = {| o_meth := fst (step m (OpVelocity u du d2u)); o_du_self := k;
                    o_d2u_self := k; o_fit_self := o_fit_self (h_obj w k) |}).
    { subst wa. cbn [CopyModel.call_on fst]. fold m. rewrite H1, put_same. reflexivity. }
    unfold own. cbn [CopyModel.call_on fst]. rewrite put_same, Ea.
    cbn [o_meth o_du_self o_d2u_self o_fit_self].
    split; [auto|]. split; [auto|].
    set (mv := fst (step m (OpVelocity u du d2u))) in *.
    destruct (accepted (snd (step mv (OpFits a)))) eqn:E; [auto|].
    destruct (fits_slots mv mv a eq_refl) as (_ & _ & G). rewrite (G E).
    destruct H2 as [H2|H2]; [discriminate|].
    intros f Hf1 Hf2. subst mv. rewrite velocity_fit in Hf1. destruct (H2 f Hf1 Hf2). }
  destruct (own_program k p w1) as (I1 & I2 & I3 & _); auto.
  { rewrite Hn. exact Hk. }
  split; [exact I1|]. rewrite (own_seen _ _ I3), I2. apply norm_answers.
Qed.

(* ------------------------------------------------------------------ *)
(** * What goes wrong *)

Lemma velocity_sets_u m c du d2u :
  m_u (fst (step m (OpVelocity (PCall c) du d2u))) = Some (VF (c_fun c) (c_ret c)).
Proof.
  cbn [CoreSpec.step no_result fst set_velocity]. unfold set_velocity_callable.
  repeat (match goal with |- context [match ?a with _ => _ end] => destruct a end;
          try reflexivity).
Qed.

Lemma copy_follows n ms p0 i c c' du d2u :
  let w := crun (start n ms) p0 in
  let j := h_next w in
  let w' := crun w [CCall i (OpVelocity (PCall c) PNone PNone); CCopy i;
                    CCall i (OpVelocity (PCall c') du d2u)] in
  (i < h_next w)%nat -> c_deriv c = None ->
  forall x, q_u_e (as_seen w' j) x = Ok (c_fun c x) /\
            q_du_e (as_seen w' j) x = Ok (fd_1f (c_fun c') x (1/10000)) /\
            q_d2u_e (as_seen w' j) x = Ok (fd_2f (c_fun c') x (1/10000)).
Proof.
  intros w j w' Hi Hc x.
  assert (Hltb : Nat.ltb i (h_next w) = true) by (apply Nat.ltb_lt; exact Hi).
  assert (Hltb2 : Nat.ltb i (S (h_next w)) = true) by (apply Nat.ltb_lt; lia).
  set (m := o_meth (h_obj w i)).
  assert (E1 : step m (OpVelocity (PCall c) PNone PNone)
     = (set_d2u (set_du (set_u m (Some (VF (c_fun c) (c_ret c)))) (Some VFd1U)) (Some VFd2U),
        Ok None)).
  { cbn [CoreSpec.step set_velocity set_velocity_callable]. rewrite Hc. reflexivity. }
  set (w1 := fst (call_on w i (OpVelocity (PCall c) PNone PNone))).
  set (m1 := set_d2u (set_du (set_u m (Some (VF (c_fun c) (c_ret c)))) (Some VFd1U)) (Some VFd2U)).
  assert (O1 : h_obj w1 i = {| o_meth := m1; o_du_self := i; o_d2u_self := i;
                               o_fit_self := o_fit_self (h_obj w i) |}).
  { subst w1. cbn [CopyModel.call_on fst]. fold m. rewrite E1. cbn [snd fst accepted].
    apply put_same. }
  assert (Ew : w' = fst (call_on (deep_copy w1 i) i (OpVelocity (PCall c') du d2u))).
  { subst w'. unfold CopyModel.crun at 1. cbn [fold_left CopyModel.cstep]. rewrite Hltb.
    cbn [fst]. rewrite call_next, Hltb. cbn [fst deep_copy h_next]. fold w1.
    replace (h_next w1) with (h_next w) by (symmetry; apply call_next).
    rewrite Hltb2. reflexivity. }
  assert (Hn1 : h_next w1 = h_next w) by (subst w1; apply call_next).
  assert (Oj : h_obj w' j = h_obj w1 i).
  { rewrite Ew, call_other by (unfold j; lia). unfold j. rewrite <- Hn1. apply copy_new. }
  assert (Ui : m_u (o_meth (h_obj w' i)) = Some (VF (c_fun c') (c_ret c'))).
  { rewrite Ew. cbn [CopyModel.call_on fst]. rewrite put_same. cbn [o_meth].
    apply velocity_sets_u. }
  unfold q_u_e, q_du_e, q_d2u_e, call_du, call_d2u, as_seen, du_of, d2u_of; cbn [m_u m_du m_d2u
    set_fit set_d2u set_du o_meth].
  rewrite Oj, O1. cbn [o_meth o_du_self o_d2u_self m1 m_u m_du m_d2u set_u set_du set_d2u].
  unfold diff1_u, diff2_u. rewrite Ui. cbn. auto.
Qed.

Lemma copy_rejects n ms p0 i c c' d2u :
  let w := crun (start n ms) p0 in
  let j := h_next w in
  let bad := OpVelocity (PCall c') PNone d2u in
  (i < h_next w)%nat -> c_deriv c = None -> d2u <> PNone ->
  forall x,
  (let w' := crun w [CCall i (OpVelocity (PCall c) PNone PNone); CCopy i; CCall j bad] in
   q_u_e (as_seen w' j) x = Ok (c_fun c' x) /\
   q_du_e (as_seen w' j) x = Ok (fd_1f (c_fun c) x (1/10000))) /\
  (let w' := crun w [CCall i (OpVelocity (PCall c) PNone PNone); CCall i bad] in
   q_u_e (as_seen w' i) x = Ok (c_fun c' x) /\
   q_du_e (as_seen w' i) x = Ok (fd_1f (c_fun c') x (1/10000))).
Proof.
  intros w j bad Hi Hc Hd x.
  assert (Hltb : Nat.ltb i (h_next w) = true) by (apply Nat.ltb_lt; exact Hi).
  assert (Hltb2 : Nat.ltb j (S (h_next w)) = true) by (apply Nat.ltb_lt; unfold j; lia).
  set (m := o_meth (h_obj w i)).
  assert (E1 : step m (OpVelocity (PCall c) PNone PNone)
     = (set_d2u (set_du (set_u m (Some (VF (c_fun c) (c_ret c)))) (Some VFd1U)) (Some VFd2U),
        Ok None)).
  { cbn [CoreSpec.step set_velocity set_velocity_callable]. rewrite Hc. reflexivity. }
  assert (Eb : forall m0, step m0 bad
     = (set_u m0 (Some (VF (c_fun c') (c_ret c'))), Err ValueError)).
  { intro m0. subst bad. cbn [CoreSpec.step set_velocity set_velocity_callable].
    destruct d2u; try reflexivity. congruence. }
  set (w1 := fst (call_on w i (OpVelocity (PCall c) PNone PNone))).
  set (m1 := set_d2u (set_du (set_u m (Some (VF (c_fun c) (c_ret c)))) (Some VFd1U)) (Some VFd2U)).
  assert (O1 : h_obj w1 i = {| o_meth := m1; o_du_self := i; o_d2u_self := i;
                               o_fit_self := o_fit_self (h_obj w i) |}).
  { subst w1. cbn [CopyModel.call_on fst]. fold m. rewrite E1. cbn [snd fst accepted].
    apply put_same. }
  assert (Hn1 : h_next w1 = h_next w) by (subst w1; apply call_next).
  split; intro w'.
  - assert (Ew : w' = fst (call_on (deep_copy w1 i) j bad)).
    { subst w'. unfold CopyModel.crun at 1. cbn [fold_left CopyModel.cstep]. rewrite Hltb.
      cbn [fst]. rewrite call_next, Hltb. cbn [fst deep_copy h_next]. fold w1.
      rewrite Hn1, Hltb2. reflexivity. }
    assert (Oj : h_obj (deep_copy w1 i) j = h_obj w1 i)
      by (unfold j; rewrite <- Hn1; apply copy_new).
    assert (Oj' : h_obj w' j = {| o_meth := set_u m1 (Some (VF (c_fun c') (c_ret c')));
         o_du_self := i; o_d2u_self := i; o_fit_self := o_fit_self (h_obj w i) |}).
    { rewrite Ew. unfold bad at 1. cbn [CopyModel.call_on fst]. fold bad.
      rewrite put_same, Oj, O1. cbn [o_meth o_du_self o_d2u_self o_fit_self].
      rewrite Eb. reflexivity. }
    assert (Ui : m_u (o_meth (h_obj w' i)) = Some (VF (c_fun c) (c_ret c))).
    { rewrite Ew, call_other by (unfold j; lia). rewrite copy_other by lia. rewrite O1.
      reflexivity. }
    unfold q_u_e, q_du_e, call_du, as_seen, du_of; cbn [m_u m_du m_d2u
      set_fit set_d2u set_du o_meth].
    rewrite Oj'. cbn [o_meth o_du_self o_d2u_self m1 m_u m_du m_d2u set_u set_du set_d2u].
    unfold diff1_u. rewrite Ui. cbn. auto.
  - assert (Ew : w' = fst (call_on w1 i bad)).
    { subst w'. unfold CopyModel.crun at 1. cbn [fold_left CopyModel.cstep]. rewrite Hltb.
      cbn [fst]. rewrite call_next, Hltb. reflexivity. }
    assert (Oi' : h_obj w' i = {| o_meth := set_u m1 (Some (VF (c_fun c') (c_ret c')));
         o_du_self := i; o_d2u_self := i; o_fit_self := o_fit_self (h_obj w i) |}).
    { rewrite Ew. unfold bad at 1. cbn [CopyModel.call_on fst]. fold bad.
      rewrite put_same, O1. cbn [o_meth o_du_self o_d2u_self o_fit_self].
      rewrite Eb. reflexivity. }
    unfold q_u_e, q_du_e, call_du, as_seen, du_of; cbn [m_u m_du m_d2u
      set_fit set_d2u set_du o_meth].
    rewrite Oi'. cbn [o_meth o_du_self o_d2u_self m1 m_u m_du m_d2u set_u set_du set_d2u].
    rewrite Oi'. unfold diff1_u. cbn. auto.
Qed.

(** The same for a fit given as a pair. *)
Lemma copy_fit_follows_obj n ms p0 i s h s' h' :
  let w := crun (start n ms) p0 in
  let j := h_next w in
  let w' := crun w [CCall i (OpFits (FTup [Some s; Some h])); CCopy i;
                    CCall i (OpFits (FTup [Some s'; Some h']))] in
  (i < h_next w)%nat -> m_kind (o_meth (h_obj w i)) <> Head ->
  o_meth (h_obj w' j) = fst (step (o_meth (h_obj w i)) (OpFits (FTup [Some s; Some h]))) /\
  m_fit (as_seen w' j) = Some (fit_custom3 s h (shape_fd (fit_custom2 s' h'))) /\
  o_du_self (h_obj w' j) = o_du_self (h_obj w i) /\
  o_d2u_self (h_obj w' j) = o_d2u_self (h_obj w i).
Proof.
  intros w j w' Hi Hk.
  assert (Hltb : Nat.ltb i (h_next w) = true) by (apply Nat.ltb_lt; exact Hi).
  assert (Hltb2 : Nat.ltb i (S (h_next w)) = true) by (apply Nat.ltb_lt; lia).
  set (m := o_meth (h_obj w i)) in *.
  assert (Es : forall m0 a b, m_kind m0 <> Head -> step m0 (OpFits (FTup [Some a; Some b]))
     = (set_kill_event (set_fit m0 (Some (fit_custom2 a b))) (thwaites_event (fit_custom2 a b)),
        Ok None)).
  { intros m0 a b Hm. cbn [CoreSpec.step]. destruct (m_kind m0); [reflexivity|reflexivity|congruence]. }
  set (w1 := fst (call_on w i (OpFits (FTup [Some s; Some h])))).
  set (m1 := set_kill_event (set_fit m (Some (fit_custom2 s h))) (thwaites_event (fit_custom2 s h))).
  assert (O1 : h_obj w1 i = {| o_meth := m1; o_du_self := o_du_self (h_obj w i);
                 o_d2u_self := o_d2u_self (h_obj w i); o_fit_self := i |}).
  { subst w1. cbn [CopyModel.call_on fst]. fold m. rewrite Es by exact Hk. cbn [snd fst accepted].
    apply put_same. }
  assert (Hn1 : h_next w1 = h_next w) by (subst w1; apply call_next).
  assert (Ew : w' = fst (call_on (deep_copy w1 i) i (OpFits (FTup [Some s'; Some h'])))).
  { subst w'. unfold CopyModel.crun at 1. cbn [fold_left CopyModel.cstep]. rewrite Hltb.
    cbn [fst]. rewrite call_next, Hltb. cbn [fst deep_copy h_next]. fold w1.
    rewrite Hn1, Hltb2. reflexivity. }
  assert (Oj : h_obj w' j = h_obj w1 i).
  { rewrite Ew, call_other by (unfold j; lia). unfold j. rewrite <- Hn1. apply copy_new. }
  assert (Fi : m_fit (o_meth (h_obj w' i)) = Some (fit_custom2 s' h')).
  { rewrite Ew. cbn [CopyModel.call_on fst]. rewrite put_same. cbn [o_meth].
    rewrite copy_other by lia. rewrite O1. cbn [o_meth]. rewrite Es by exact Hk. reflexivity. }
  split; [|split; [|split]].
  - rewrite Oj, O1, Es by exact Hk. reflexivity.
  - unfold as_seen, fit_of; cbn [m_fit set_fit]. rewrite Oj, O1.
    cbn [o_meth o_fit_self m1 m_fit set_kill_event set_events set_fit fit_shape_p fit_custom2].
    rewrite Fi. reflexivity.
  - rewrite Oj, O1. reflexivity.
  - rewrite Oj, O1. reflexivity.
Qed.

End P.

(* ------------------------------------------------------------------ *)
(** * Witnesses *)
From Verif Require Import PyBaseFacts CoreRefute.

Definition line_call : callable := {| c_fun := fun x => x; c_ret := KFloat; c_deriv := None |}.

Lemma fd1_const v x d : fd_1f (fun _ => v) x d = 0.
Proof. unfold fd_1f, Rdiv. ring. Qed.
Lemma fd1_line x d : d <> 0 -> fd_1f (fun y => y) x d = 1.
Proof. intro H. unfold fd_1f. field. exact H. Qed.

Lemma follows_witness pchip cs ivp : exists m p,
  created pchip cs m /\
  let w := crun pchip cs ivp (start 1 (fun _ => m)) [CCopy 0] in
  calls_on 1 p = [] /\
  q_du_e (as_seen w 1) 0 <> q_du_e (as_seen (crun pchip cs ivp w p) 1) 0.
Proof.
  destruct (new_thwaites pchip cs true (Fin 1) (PCall (const_call 1)) PNone PNone (FName "White"))
    as [m|e] eqn:E.
  2:{ revert E. unfold new_thwaites, new_base, new_fs, ic_set_nu. cbn [xleb].
      rewrite Rleb_false by lra. discriminate. }
  assert (Hm : m = {| m_kind := ThwaitesLinear; m_nu := Fin 1; m_u := Some (VF (fun _ => 1) KFloat);
     m_du := Some VFd1U; m_d2u := Some VFd2U;
     m_ic := new_manual (Fin 0) PInf (Fin 0); m_fit := Some fit_white;
     m_events := [thwaites_event fit_white]; m_sol := None |}).
  { revert E. unfold new_thwaites, new_base, new_fs, ic_set_nu. cbn [xleb].
    rewrite Rleb_false by lra. intro E. injection E as <-. reflexivity. }
  exists m, [CCall 0 (OpVelocity (PCall line_call) PNone PNone)].
  split; [eapply created_thwaites; exact E|]. split; [reflexivity|].
  subst m. unfold q_du_e, call_du. cbn -[fd_1f].
  rewrite fd1_const, fd1_line by lra. intro H. injection H as H. lra.
Qed.

Lemma alike_witness pchip cs ivp : exists m l,
  created pchip cs m /\
  let w := start 1 (fun _ => m) in
  q_du_e (as_seen (crun pchip cs ivp (deep_copy w 0) (map (CCall 1) l)) 1) 0
  <> q_du_e (as_seen (crun pchip cs ivp w (map (CCall 0) l)) 0) 0.
Proof.
  destruct (new_thwaites pchip cs true (Fin 1) (PCall (const_call 1)) PNone PNone (FName "White"))
    as [m|e] eqn:E.
  2:{ revert E. unfold new_thwaites, new_base, new_fs, ic_set_nu. cbn [xleb].
      rewrite Rleb_false by lra. discriminate. }
  assert (Hm : m = {| m_kind := ThwaitesLinear; m_nu := Fin 1; m_u := Some (VF (fun _ => 1) KFloat);
     m_du := Some VFd1U; m_d2u := Some VFd2U;
     m_ic := new_manual (Fin 0) PInf (Fin 0); m_fit := Some fit_white;
     m_events := [thwaites_event fit_white]; m_sol := None |}).
  { revert E. unfold new_thwaites, new_base, new_fs, ic_set_nu. cbn [xleb].
    rewrite Rleb_false by lra. intro E. injection E as <-. reflexivity. }
  exists m, [OpVelocity (PCall line_call) PNone (PCall line_call)].
  split; [eapply created_thwaites; exact E|].
  subst m. unfold q_du_e, call_du. cbn -[fd_1f].
  rewrite fd1_const, fd1_line by lra. intro H. injection H as H. lra.
Qed.

Lemma ve_value m x f p :
  m_kind m = ThwaitesLinear -> m_nu m = Fin 1 -> m_sol m = Some (fun _ => [Fin 1; Fin 2]) ->
  q_u_e m x = Ok 1 -> q_du_e m x = Ok 1 -> q_d2u_e m x = Ok 1 -> m_fit m = Some f ->
  shape f (Fin 1) = Fin 2 -> shape_p f (Fin 1) = Fin p ->
  exists a b, b <> 0 /\ q_v_e m x = Ok (Fin (a + b * p)) /\
    a = 2 + 1 * ((45/100 - 6) / (1001/1000)) /\ b = (45/100 - 6) / (1001/1000) + 1.
Proof.
  intros Hk Hnu Hs Hu Hdu Hd2 Hf Hsh Hp.
  exists (2 + 1 * ((45/100 - 6) / (1001/1000))), ((45/100 - 6) / (1001/1000) + 1).
  split; [lra|]. split; [|auto].
  assert (HL : calc_lambda m x (Fin 1) = Ok (Fin 1)).
  { unfold calc_lambda. rewrite Hdu. cbn [bind]. f_equal. cbn [xmul]. f_equal. lra. }
  assert (HS : q_shape_d m x = Ok (Fin 2)).
  { unfold q_shape_d, sol_at. rewrite Hs, Hk. cbn [bind comp nth_error]. rewrite HL. cbn [bind].
    rewrite Hf, Hsh. reflexivity. }
  assert (HM : q_delta_m m x = Ok (Fin 1)).
  { unfold q_delta_m, sol_at. rewrite Hs, Hk, Hnu. cbn [bind comp nth_error].
    f_equal. rewrite xmul_fin, Rmult_1_r. rewrite xsqrt_fin by lra. rewrite sqrt_1. reflexivity. }
  assert (HO : ode_impl m x [Fin 1] = Ok [Fin ((45/100 - 6) / (1001/1000))]).
  { unfold ode_impl, calc_f. rewrite Hk, HL, Hu. cbn [bind].
    rewrite xmul_fin, xsub_fin, xadd_fin, xdiv_fin by lra. do 3 f_equal; lra. }
  unfold q_v_e, q_delta_d. rewrite HM, HS. unfold sol_at.
  rewrite Hs, Hk, Hu, Hdu. cbn [bind comp nth_error].
  rewrite HO. cbn [bind comp nth_error]. rewrite HL. cbn [bind]. rewrite Hf, Hd2, Hp, Hnu.
  cbn [bind]. f_equal.
  rewrite !xmul_fin, xdiv_fin by lra.
  rewrite xsqrt_fin by lra. replace (1 / 1) with 1 by lra. rewrite sqrt_1.
  rewrite ?xmul_fin, ?xadd_fin, ?xmul_fin, ?xadd_fin. rewrite ?xmul_fin, ?xadd_fin. f_equal. field.
Qed.

Definition one_pair : fitarg := FTup [Some (fun _ => Fin 1); Some (fun _ => Fin 2)].
Definition line_pair : fitarg := FTup [Some (fun _ => Fin 1); Some (fun l => l)].

Definition fit_meth : meth :=
  {| m_kind := ThwaitesLinear; m_nu := Fin 1; m_u := Some (VF (fun _ => 1) KFloat);
     m_du := Some (VF (fun _ => 1) KFloat); m_d2u := Some (VF (fun _ => 1) KFloat);
     m_ic := new_manual (Fin 0) PInf (Fin 0);
     m_fit := Some (fit_custom2 (fun _ => Fin 1) (fun _ => Fin 2));
     m_events := [thwaites_event (fit_custom2 (fun _ => Fin 1) (fun _ => Fin 2))]; m_sol := None |}.
Lemma fit_meth_created pchip cs : created pchip cs fit_meth.
Proof.
  eapply (created_thwaites pchip cs true (Fin 1) (PCall (const_call 1)) (PCall (const_call 1))
           (PCall (const_call 1)) one_pair).
  unfold new_thwaites, new_base, new_fs, ic_set_nu. cbn [xleb].
  rewrite Rleb_false by lra. reflexivity.
Qed.

Lemma fit_meth_solved pchip cs :
  let m := run pchip cs ivp_end fit_meth [OpInitialDeltaM (Fin 1); OpSolve 0 1 []] in
  m_kind m = ThwaitesLinear /\ m_nu m = Fin 1 /\ m_u m = Some (VF (fun _ => 1) KFloat) /\
  m_du m = Some (VF (fun _ => 1) KFloat) /\ m_d2u m = Some (VF (fun _ => 1) KFloat) /\
  m_sol m = Some (fun _ => [Fin 1; Fin 2]).
Proof.
  cbv zeta. unfold run, fold_left. cbn [step fst]. unfold no_result, set_initial_delta_m.
  replace (xleb (Fin 1) (Fin 0)) with false by (cbn [xleb]; rewrite Rleb_false by lra; reflexivity).
  cbn [fst]. unfold solve, ic_set_nu.
  replace (xleb (m_nu (set_ic fit_meth (ic_assign_del_m (m_ic fit_meth) (Fin 1)))) (Fin 0)) with false
    by (cbn [xleb m_nu set_ic fit_meth]; rewrite Rleb_false by lra; reflexivity).
  cbn -[xleb xdiv xsq py_div]. unfold py_div.
  replace (xeqb (Fin 1) (Fin 0)) with false
    by (symmetry; cbn [xeqb]; unfold Reqb; destruct (Req_EM_T 1 0); [lra|reflexivity]).
  cbn -[xleb xdiv xsq]. auto 10.
Qed.

Lemma fit_witness pchip cs : exists m p p',
  created pchip cs m /\ ivp_contract ivp_end /\
  let w := crun pchip cs ivp_end (start 1 (fun _ => m))
    [CCall 0 (OpInitialDeltaM (Fin 1)); CCall 0 (OpSolve 0 1 []); CCall 0 (OpFits one_pair);
     CCopy 0] in
  calls_on 1 p = [] /\ calls_on 1 p' = [] /\
  q_v_e (as_seen (crun pchip cs ivp_end w p) 1) 0 <> q_v_e (as_seen (crun pchip cs ivp_end w p') 1) 0.
Proof.
  exists fit_meth, [CCall 0 (OpFits one_pair)], [CCall 0 (OpFits line_pair)].
  split; [apply fit_meth_created|]. split; [apply ivp_end_contract|].
  cbv zeta. split; [reflexivity|]. split; [reflexivity|].
  set (p0 := [CCall 0 (OpInitialDeltaM (Fin 1)); CCall 0 (OpSolve 0 1 [])]).
  set (ms := fun _ : nat => fit_meth).
  set (w := crun pchip cs ivp_end (start 1 ms) p0).
  destruct (own_program pchip cs ivp_end 0 p0 (start 1 ms)) as (_ & I2 & I3 & I4);
    [cbn; lia|apply start_own|].
  fold w in I2, I3, I4.
  change (run pchip cs ivp_end (o_meth (h_obj (start 1 ms) 0)) (calls_on 0 p0))
    with (run pchip cs ivp_end fit_meth [OpInitialDeltaM (Fin 1); OpSolve 0 1 []]) in I2.
  destruct (fit_meth_solved pchip cs) as (M1 & M2 & M3 & M4 & M5 & M6). cbv zeta in *.
  rewrite <- I2 in M1, M2, M3, M4, M5, M6.
  assert (Hn : h_next w = 1%nat) by reflexivity.
  assert (HV : forall h', exists a b, b <> 0 /\
     a = 2 + 1 * ((45/100 - 6) / (1001/1000)) /\ b = (45/100 - 6) / (1001/1000) + 1 /\
     forall p, shape_fd (fit_custom2 (fun _ => Fin 1) h') (Fin 1) = Fin p ->
     q_v_e (as_seen (crun pchip cs ivp_end w [CCall 0 (OpFits one_pair); CCopy 0;
       CCall 0 (OpFits (FTup [Some (fun _ => Fin 1); Some h']))]) 1) 0 = Ok (Fin (a + b * p))).
  { intro h'.
    destruct (copy_fit_follows_obj pchip cs ivp_end 1 ms p0 0 (fun _ => Fin 1) (fun _ => Fin 2)
                (fun _ => Fin 1) h') as (F1 & F2 & F3 & F4).
    { fold w. rewrite Hn. lia. }
    { fold w. rewrite M1. discriminate. }
    fold w in F1, F2, F3, F4. rewrite Hn in F1, F2, F3, F4.
    change (FTup [Some (fun _ : xr => Fin 1); Some (fun _ : xr => Fin 2)]) with one_pair in *.
    set (w' := crun pchip cs ivp_end w [CCall 0 (OpFits one_pair); CCopy 0;
       CCall 0 (OpFits (FTup [Some (fun _ => Fin 1); Some h']))]) in *.
    set (mo := fst (step pchip cs ivp_end (o_meth (h_obj w 0)) (OpFits one_pair))) in *.
    destruct (fits_velocity pchip cs ivp_end (o_meth (h_obj w 0)) one_pair) as (G1 & G2 & G3).
    destruct (fits_others pchip cs ivp_end (o_meth (h_obj w 0)) one_pair) as (K1 & K2 & K3 & K4).
    fold mo in G1, G2, G3, K1, K2, K4.
    exists (2 + 1 * ((45/100 - 6) / (1001/1000))), ((45/100 - 6) / (1001/1000) + 1).
    split; [lra|]. split; [reflexivity|]. split; [reflexivity|]. intros p Hp.
    destruct (ve_value (as_seen w' 1) 0 (fit_custom3 (fun _ => Fin 1) (fun _ => Fin 2)
       (shape_fd (fit_custom2 (fun _ => Fin 1) h'))) p) as (a & b & _ & V & -> & ->).
    - unfold as_seen; cbn [m_kind set_fit set_d2u set_du]. rewrite F1, K1. exact M1.
    - unfold as_seen; cbn [m_nu set_fit set_d2u set_du]. rewrite F1, K2. exact M2.
    - unfold as_seen; cbn [m_sol set_fit set_d2u set_du]. rewrite F1, K4. exact M6.
    - unfold q_u_e, as_seen; cbn [m_u set_fit set_d2u set_du]. rewrite F1, G1, M3. reflexivity.
    - unfold q_du_e, call_du, as_seen; cbn [m_u m_du set_fit set_d2u set_du].
      unfold du_of. rewrite F1, G2, M4. reflexivity.
    - unfold q_d2u_e, call_d2u, as_seen; cbn [m_u m_d2u set_fit set_d2u set_du].
      unfold d2u_of. rewrite F1, G3, M5. reflexivity.
    - exact F2.
    - reflexivity.
    - cbn -[shape_fd]. exact Hp.
    - exact V. }
  destruct (HV (fun _ => Fin 2)) as (a & b & Hb & -> & -> & V1).
  destruct (HV (fun l => l)) as (a' & b' & _ & -> & -> & V2).
  assert (P1 : shape_fd (fit_custom2 (fun _ : xr => Fin 1) (fun _ : xr => Fin 2)) (Fin 1) = Fin 0).
  { unfold shape_fd. cbn [shape fit_shape fit_custom2].
    rewrite !xsub_fin, !xmul_fin, !xdiv_fin by lra. rewrite xsub_fin, xdiv_fin by lra. f_equal. lra. }
  assert (P2 : shape_fd (fit_custom2 (fun _ : xr => Fin 1) (fun l : xr => l)) (Fin 1) = Fin 1).
  { unfold shape_fd, shape, check_range. cbn [fit_shape fit_lo fit_hi fit_custom2].
    rewrite !xmul_fin, !xsub_fin, !xadd_fin. cbn [xltb].
    rewrite !xsub_fin, !xmul_fin, !xdiv_fin by lra. rewrite xsub_fin, xdiv_fin by lra. f_equal. lra. }
  specialize (V1 0 P1). specialize (V2 1 P2).
  unfold one_pair in V1. fold one_pair in V1.
  assert (Q : forall c, crun pchip cs ivp_end (crun pchip cs ivp_end (start 1 ms)
     [CCall 0 (OpInitialDeltaM (Fin 1)); CCall 0 (OpSolve 0 1 []); CCall 0 (OpFits one_pair);
      CCopy 0]) [c] = crun pchip cs ivp_end w [CCall 0 (OpFits one_pair); CCopy 0; c])
    by (intro c; reflexivity).
  rewrite !Q.
  change (CCall 0 (OpFits line_pair))
    with (CCall 0 (OpFits (FTup [Some (fun _ : xr => Fin 1); Some (fun l : xr => l)]))).
  rewrite V2.
  rewrite V1. intro H. injection H as H. lra.
Qed.
