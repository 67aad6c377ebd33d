(** The origin of the streamwise coordinate does not matter (C119). *)
From Coq Require Import Reals List Lra Lia Bool ZArith FunctionalExtensionality.
From Verif Require Import PyBase PyBaseFacts FiniteDiffModel PPolyModel PchipModel InitialConditionModel
  CoreModel CoreSpec TranslationSpec.
Import ListNotations.
Open Scope R_scope.

Definition moved_vfun k v := match v with VF f r => VF (moved k f) r | w => w end.
Definition moved_meth (k : R) (m : meth) : meth :=
  {| m_kind := m_kind m; m_nu := m_nu m; m_u := option_map (moved_vfun k) (m_u m);
     m_du := option_map (moved_vfun k) (m_du m); m_d2u := option_map (moved_vfun k) (m_d2u m);
     m_ic := m_ic m; m_fit := m_fit m; m_events := map (moved_event k) (m_events m);
     m_sol := option_map (moved k) (m_sol m) |}.

Lemma moved_at {A} k (f : R -> A) x : moved k f (x + k) = f x.
Proof. unfold moved. f_equal. ring. Qed.

Lemma fd_1f_moved k f x dx : fd_1f (moved k f) (x + k) dx = fd_1f f x dx.
Proof.
  unfold fd_1f, moved.
  replace (x + k - 2 * dx - k) with (x - 2 * dx) by ring. replace (x + k + 2 * dx - k) with (x + 2 * dx) by ring.
  replace (x + k - dx - k) with (x - dx) by ring. replace (x + k + dx - k) with (x + dx) by ring. reflexivity.
Qed.
Lemma fd_2f_moved k f x dx : fd_2f (moved k f) (x + k) dx = fd_2f f x dx.
Proof.
  unfold fd_2f, moved.
  replace (x + k - 2 * dx - k) with (x - 2 * dx) by ring. replace (x + k + 2 * dx - k) with (x + 2 * dx) by ring.
  replace (x + k - dx - k) with (x - dx) by ring. replace (x + k + dx - k) with (x + dx) by ring.
  replace (x + k - k) with x by ring. reflexivity.
Qed.

Lemma q_u_moved k m x : q_u_e (moved_meth k m) (x + k) = q_u_e m x.
Proof.
  unfold q_u_e. cbn [moved_meth m_u]. destruct (m_u m) as [[]|]; cbn [option_map moved_vfun call_plain bind]; try reflexivity.
  rewrite moved_at. reflexivity.
Qed.
Lemma call_du_moved k m x : call_du (moved_meth k m) (x + k) = call_du m x.
Proof.
  unfold call_du. cbn [moved_meth m_u m_du]. destruct (m_du m) as [[]|]; cbn [option_map moved_vfun]; try reflexivity.
  - rewrite moved_at. reflexivity.
  - destruct (m_u m) as [[]|]; cbn [option_map moved_vfun call_plain bind]; try reflexivity.
    rewrite fd_1f_moved. reflexivity.
Qed.
Lemma q_du_moved k m x : q_du_e (moved_meth k m) (x + k) = q_du_e m x.
Proof.
  unfold q_du_e. rewrite call_du_moved. cbn [moved_meth m_du]. destruct (m_du m); reflexivity.
Qed.
Lemma du_fun_moved k m : du_fun (moved_meth k m) = res_map (moved k) (du_fun m).
Proof.
  unfold du_fun. cbn [moved_meth m_u m_du]. destruct (m_du m) as [[]|]; cbn [option_map moved_vfun]; try reflexivity.
  destruct (m_u m) as [[]|]; cbn [option_map moved_vfun call_plain bind res_map]; try reflexivity.
  f_equal. apply functional_extensionality. intros x. unfold moved at 2.
  replace x with (x - k + k) at 1 by ring. apply fd_1f_moved.
Qed.
Lemma q_d2u_moved k m x : q_d2u_e (moved_meth k m) (x + k) = q_d2u_e m x.
Proof.
  unfold q_d2u_e, call_d2u. rewrite du_fun_moved. cbn [moved_meth m_u m_d2u].
  destruct (m_d2u m) as [[]|]; cbn [option_map moved_vfun]; try reflexivity.
  - rewrite moved_at. reflexivity.
  - destruct (m_u m) as [[]|]; cbn [option_map moved_vfun call_plain bind]; try reflexivity.
    rewrite fd_2f_moved. reflexivity.
  - destruct (du_fun m); cbn [res_map bind]; [|reflexivity]. rewrite fd_1f_moved. reflexivity.
Qed.

Lemma slot_moved k v : slot_kind (option_map (moved_vfun k) v) = slot_kind v.
Proof. destruct v as [[]|]; reflexivity. Qed.

Lemma lambda_moved k m x s : calc_lambda (moved_meth k m) (x + k) s = calc_lambda m x s.
Proof. unfold calc_lambda. rewrite q_du_moved. reflexivity. Qed.

Lemma ode_moved_at k m x y : ode_impl (moved_meth k m) (x + k) y = ode_impl m x y.
Proof.
  unfold ode_impl, calc_f. cbn [moved_meth m_kind m_fit m_nu m_u m_du]. rewrite !slot_moved.
  change (calc_lambda _ (x + k)) with (calc_lambda (moved_meth k m) (x + k)).
  change (q_u_e _ (x + k)) with (q_u_e (moved_meth k m) (x + k)).
  change (q_du_e _ (x + k)) with (q_du_e (moved_meth k m) (x + k)).
  rewrite q_u_moved, q_du_moved.
  destruct (m_kind m); try reflexivity; destruct y as [|? [|]]; try reflexivity; rewrite lambda_moved; reflexivity.
Qed.
Lemma ode_moved k m : ode_impl (moved_meth k m) = moved k (ode_impl m).
Proof.
  apply functional_extensionality. intros x. unfold moved. apply functional_extensionality. intros y.
  replace x with (x - k + k) at 1 by ring. apply ode_moved_at.
Qed.
Lemma event_moved_at k m e x y : event_value (moved_meth k m) (moved_event k e) (x + k) y = event_value m e x y.
Proof.
  unfold event_value. cbn [moved_event ev_src]. destruct (ev_src e); try reflexivity.
  - rewrite moved_at. reflexivity.
  - destruct y as [|? [|]]; try reflexivity. rewrite lambda_moved. reflexivity.
Qed.
Lemma event_moved k m e : event_value (moved_meth k m) (moved_event k e) = moved k (event_value m e).
Proof.
  apply functional_extensionality. intros x. unfold moved at 1. apply functional_extensionality. intros y.
  replace x with (x - k + k) at 1 by ring. apply event_moved_at.
Qed.

Lemma sol_moved k m x : sol_at (moved_meth k m) (x + k) = sol_at m x.
Proof. unfold sol_at. cbn [moved_meth m_sol]. destruct (m_sol m); cbn [option_map]; [rewrite moved_at|]; reflexivity. Qed.

Lemma reports_moved_meth k m : reports_moved k m (moved_meth k m).
Proof.
  assert (DM : forall x, q_delta_m (moved_meth k m) (x + k) = q_delta_m m x).
  { intros x. unfold q_delta_m. rewrite sol_moved. reflexivity. }
  assert (SD : forall x, q_shape_d (moved_meth k m) (x + k) = q_shape_d m x).
  { intros x. unfold q_shape_d. rewrite sol_moved. destruct (sol_at m x); [|reflexivity]. cbn [bind].
    cbn [moved_meth m_kind m_fit]. destruct (m_kind m); try reflexivity;
      (destruct (comp 0 a); [|reflexivity]); cbn [bind];
      change (calc_lambda _ (x + k)) with (calc_lambda (moved_meth k m) (x + k)); rewrite lambda_moved; reflexivity. }
  assert (DD : forall x, q_delta_d (moved_meth k m) (x + k) = q_delta_d m x).
  { intros x. unfold q_delta_d. rewrite DM, SD. reflexivity. }
  constructor; try assumption.
  - apply q_u_moved.
  - apply q_du_moved.
  - apply q_d2u_moved.
  - intros x. unfold q_shape_k. rewrite DM. reflexivity.
  - intros x rho. unfold q_tau_w_thwaites. rewrite sol_moved, q_u_moved, DM.
    destruct (sol_at m x); [|reflexivity]. cbn [bind]. destruct (comp 0 a); [|reflexivity]. cbn [bind].
    rewrite lambda_moved. reflexivity.
  - intros x. unfold q_v_e. rewrite sol_moved, q_u_moved, q_du_moved, q_d2u_moved, DD, SD.
    destruct (sol_at m x); [|reflexivity]. cbn [bind moved_meth m_kind m_fit m_nu m_u m_du]. rewrite !slot_moved.
    destruct (m_kind m); try reflexivity;
      (destruct (q_u_e m x); [|reflexivity]); (destruct (q_du_e m x); [|reflexivity]); cbn [bind];
      (destruct (comp 0 a); [|reflexivity]); cbn [bind];
      (destruct (q_delta_d m x); [|reflexivity]); cbn [bind];
      match goal with |- context [ode_impl ?m' (x + k)] => change (ode_impl m' (x + k)) with (ode_impl (moved_meth k m) (x + k)) end;
      rewrite ode_moved_at;
      match goal with |- context [calc_lambda ?m' (x + k)] => change (calc_lambda m' (x + k)) with (calc_lambda (moved_meth k m) (x + k)) end;
      rewrite lambda_moved; reflexivity.
Qed.

(** ** Point data *)
Lemma horner_moved c x x0 k : horner c (x + k - (x0 + k)) = horner c (x - x0).
Proof. f_equal. ring. Qed.
Lemma pp_eval_moved k p x : pp_eval (pp_moved k p) (x + k) = pp_eval p x.
Proof.
  unfold pp_eval. cbn [pp_moved pp_x pp_c]. generalize (pp_c p). induction (pp_x p) as [|x0 xs IH]; [reflexivity|].
  intros [|c cs]; [reflexivity|]. cbn [map pp_eval_aux]. destruct xs as [|x1 xs].
  - cbn [map]. apply horner_moved.
  - cbn [map]. destruct cs as [|c1 cs]; [apply horner_moved|].
    destruct (Rlt_dec (x + k) (x1 + k)), (Rlt_dec x x1); try lra; [apply horner_moved|]. apply IH.
Qed.
Lemma pp_eval_moved_fun k p : pp_eval (pp_moved k p) = moved k (pp_eval p).
Proof.
  apply functional_extensionality. intros x. unfold moved. replace x with (x - k + k) at 1 by ring. apply pp_eval_moved.
Qed.
Lemma pp_derivative_moved k p : pp_derivative (pp_moved k p) = pp_moved k (pp_derivative p).
Proof. reflexivity. Qed.
Lemma pp_derivative_n_moved k n : forall p, pp_derivative_n n (pp_moved k p) = pp_moved k (pp_derivative_n n p).
Proof. induction n; intros p; cbn [pp_derivative_n]; [reflexivity|]. rewrite pp_derivative_moved. apply IHn. Qed.
Lemma pp_antiderivative_moved k p : pp_antiderivative (pp_moved k p) = pp_moved k (pp_antiderivative p).
Proof.
  unfold pp_antiderivative, pp_moved. cbn [pp_x pp_c]. f_equal. generalize 0, (pp_c p).
  induction (pp_x p) as [|x0 xs IH]; [reflexivity|]. intros z [|c cs]; [reflexivity|]. cbn [map antideriv_cols].
  destruct xs as [|x1 xs]; [reflexivity|]. cbn [map]. f_equal.
  replace (x1 + k - (x0 + k)) with (x1 - x0) by ring. apply IH.
Qed.
Lemma pp_shift_moved k p v : pp_shift (pp_moved k p) v = pp_moved k (pp_shift p v).
Proof. reflexivity. Qed.

Lemma asarray_moved k : forall v, np_asarray (add_all k v) = res_map (nd_add k) (np_asarray v).
Proof.
  fix IH 1. intros v. destruct v as [|c|r|a|l|]; try reflexivity.
  cbn [add_all np_asarray].
  set (go := fix go (l : list pyval) : res (list ndarray) :=
               match l with
               | [] => Ok []
               | x :: l' => bind (np_asarray x) (fun a => bind (go l') (fun r => Ok (a :: r)))
               end).
  assert (G : go (map (add_all k) l) = res_map (map (nd_add k)) (go l)).
  { induction l as [|x l IHl]; [reflexivity|].
    cbn [map]. change (go (add_all k x :: map (add_all k) l)) with
      (bind (np_asarray (add_all k x)) (fun a => bind (go (map (add_all k) l)) (fun r => Ok (a :: r)))).
    change (go (x :: l)) with (bind (np_asarray x) (fun a => bind (go l) (fun r => Ok (a :: r)))).
    rewrite (IH x), IHl. destruct (np_asarray x); cbn [res_map bind]; [|reflexivity].
    destruct (go l); reflexivity. }
  rewrite G. destruct (go l) as [ds|e]; cbn [res_map bind]; [|reflexivity].
  unfold nd_stack. destruct ds as [|d ds]; [reflexivity|]. cbn [map].
  assert (F : forallb (fun b => if list_eq_dec PeanoNat.Nat.eq_dec (nd_shape (nd_add k d)) (nd_shape b) then true else false)
                (nd_add k d :: map (nd_add k) ds)
            = forallb (fun b => if list_eq_dec PeanoNat.Nat.eq_dec (nd_shape d) (nd_shape b) then true else false) (d :: ds)).
  { change (nd_add k d :: map (nd_add k) ds) with (map (nd_add k) (d :: ds)). generalize (d :: ds) as q.
    induction q as [|q0 q IHq]; [reflexivity|]. cbn [map forallb]. rewrite IHq. reflexivity. }
  rewrite F. destruct (forallb _ (d :: ds)); [|reflexivity]. cbn [res_map].
  change (nd_add k d :: map (nd_add k) ds) with (map (nd_add k) (d :: ds)). rewrite map_length.
  assert (D : forall q, flat_map nd_data (map (nd_add k) q) = map (fun r => r + k) (flat_map nd_data q)).
  { induction q as [|q0 q IHq]; [reflexivity|]. cbn [map flat_map]. rewrite map_app, IHq. reflexivity. }
  rewrite D. reflexivity.
Qed.

(** ** The calls *)
Lemma len_moved k v : py_len (moved_arg k v) = py_len v.
Proof.
  destruct v as [| | |a|l|]; try reflexivity; cbn [moved_arg py_len].
  - destruct (nd_shape a) as [|n s] eqn:E; cbn [py_len]; [rewrite E; reflexivity|reflexivity].
  - destruct l; reflexivity.
Qed.
Lemma skipn_row {A} n (f : A -> A) l : skipn n (map f (firstn n l) ++ skipn n l) = skipn n l.
Proof.
  revert l. induction n; intros l; [reflexivity|]. destruct l; [reflexivity|]. cbn. apply IHn.
Qed.
Lemma firstn_row {A} n (f : A -> A) l : firstn n (map f (firstn n l) ++ skipn n l) = map f (firstn n l).
Proof. revert l. induction n; intros l; [reflexivity|]. destruct l; [reflexivity|]. cbn. f_equal. apply IHn. Qed.

Lemma item0_moved k v : py_len v = Ok 2%nat ->
  bind (py_item (moved_arg k v) 0) np_asarray = res_map (nd_add k) (bind (py_item v 0) np_asarray).
Proof.
  intros L. destruct v as [| | |a|l|]; try discriminate; cbn [moved_arg].
  - cbn [py_len] in L. destruct (nd_shape a) as [|n s] eqn:E; [discriminate|]. injection L as ->.
    unfold py_item. rewrite E. cbn [nd_shape nd_data]. replace (Nat.ltb 0 2) with true by reflexivity. cbv zeta.
    cbn [bind np_asarray res_map Nat.mul skipn]. unfold nd_add. cbn [nd_shape nd_data]. rewrite firstn_row. reflexivity.
  - destruct l as [|x [|y [|]]]; try discriminate. cbn [py_item nth_error bind]. apply asarray_moved.
Qed.
Lemma item1_moved k v : py_len v = Ok 2%nat ->
  bind (py_item (moved_arg k v) 1) np_asarray = bind (py_item v 1) np_asarray.
Proof.
  intros L. destruct v as [| | |a|l|]; try discriminate; cbn [moved_arg].
  - cbn [py_len] in L. destruct (nd_shape a) as [|n s] eqn:E; [discriminate|]. injection L as ->.
    unfold py_item. rewrite E. cbn [nd_shape nd_data]. replace (Nat.ltb 1 2) with true by reflexivity. cbv zeta.
    cbn [bind np_asarray]. rewrite Nat.mul_1_l, skipn_row. reflexivity.
  - destruct l as [|x [|y [|]]]; try discriminate. reflexivity.
Qed.

Lemma moved_none k v : moved_arg k v = PNone -> v = PNone.
Proof.
  destruct v as [| | |a|l|]; cbn; try discriminate; auto.
  - destruct (nd_shape a); discriminate.
  - destruct l; discriminate.
Qed.

Definition moved_pair k {A} (p : meth * res A) := (moved_meth k (fst p), snd p).

Lemma as_slot_moved k v : as_slot (moved_arg k v) = moved_vfun k (as_slot v).
Proof. destruct v as [| | |a|l|]; try reflexivity; cbn; [destruct (nd_shape a)|destruct l]; reflexivity. Qed.

Lemma set_callable_moved k m c du d2u :
  set_velocity_callable (moved_meth k m) (moved_callable k c) (moved_arg k du) (moved_arg k d2u)
  = moved_pair k (set_velocity_callable m c du d2u).
Proof.
  assert (ND : forall v, match v with PCall _ | PNone => False | _ => True end ->
             match moved_arg k v with PCall _ | PNone => False | _ => True end).
  { intros [| | |a|l|]; cbn; auto; [destruct (nd_shape a)|destruct l]; exact (fun _ => I). }
  unfold set_velocity_callable. destruct du as [|dc| |a|l|].
  - cbn [moved_arg]. destruct d2u as [|c2| |a|l|]; cbn [moved_arg]; try reflexivity.
    + cbn [moved_callable c_deriv]. destruct (c_deriv c) as [d|]; [|reflexivity].
      destruct (d 1%nat); cbn [res_map]; [|reflexivity]. destruct (d 2%nat); reflexivity.
    + destruct (nd_shape a); reflexivity.
    + destruct l; reflexivity.
  - cbn [moved_arg]. assert (Q := as_slot_moved k d2u). destruct d2u as [|c2| |a|l|]; cbn [moved_arg] in *; try reflexivity.
    + cbn [moved_callable c_deriv]. destruct (c_deriv dc) as [d|]; [|reflexivity].
      destruct (d 1%nat); reflexivity.
    + destruct (nd_shape a); reflexivity.
    + destruct l; reflexivity.
  - reflexivity.
  - cbn [moved_arg]. destruct (nd_shape a); reflexivity.
  - cbn [moved_arg]. destruct l; reflexivity.
  - reflexivity.
Qed.

Section Moves.
Variable pchip : ndarray -> ndarray -> res ppoly.
Variable cs : list R -> list R -> (xr -> xr) * (xr -> xr).
Variable ivp : ivp_fun.
Hypothesis PM : pchip_moves pchip.
Hypothesis IM : ivp_moves ivp.

Lemma set_scalar_moved k m u0 du :
  set_velocity_scalar pchip (moved_meth k m) u0 (moved_arg k du) = moved_pair k (set_velocity_scalar pchip m u0 du).
Proof.
  unfold set_velocity_scalar. rewrite len_moved. destruct (py_len du) as [[|[|[|n]]]|] eqn:E; try reflexivity.
  rewrite item0_moved, item1_moved by exact E.
  destruct (bind (py_item du 0) np_asarray) as [x|]; cbn [res_map].
  2: destruct (bind (py_item du 1) np_asarray); reflexivity.
  destruct (bind (py_item du 1) np_asarray) as [y|]; [|reflexivity].
  rewrite PM. destruct (pchip x y) as [p|]; cbn [res_map]; [|reflexivity].
  rewrite pp_antiderivative_moved, pp_shift_moved, pp_derivative_moved, !pp_eval_moved_fun. reflexivity.
Qed.

Lemma set_points_moved k m u :
  set_velocity_points pchip (moved_meth k m) (moved_arg k u) = moved_pair k (set_velocity_points pchip m u).
Proof.
  unfold set_velocity_points. rewrite len_moved. destruct (py_len u) as [[|[|[|n]]]|] eqn:E; try reflexivity.
  rewrite item0_moved, item1_moved by exact E.
  destruct (bind (py_item u 0) np_asarray) as [x|]; cbn [res_map].
  2: destruct (bind (py_item u 1) np_asarray); reflexivity.
  destruct (bind (py_item u 1) np_asarray) as [y|]; [|reflexivity].
  cbn [nd_add nd_shape]. destruct (nd_shape x) as [|n l]; [reflexivity|].
  destruct (negb _); [reflexivity|]. destruct (negb _); [reflexivity|]. destruct (negb _); [reflexivity|].
  destruct (Nat.ltb n 2); [reflexivity|].
  change {| nd_shape := _; nd_data := _ |} with (nd_add k x) || idtac.
  rewrite PM. destruct (pchip x y) as [p|]; cbn [res_map]; [|reflexivity].
  rewrite <- (set_callable_moved k m (callable_of_ppoly p) PNone PNone). f_equal.
  unfold callable_of_ppoly, moved_callable. cbn [c_fun c_ret c_deriv]. rewrite pp_eval_moved_fun. do 2 f_equal.
  apply functional_extensionality. intros nu. cbn [res_map]. rewrite pp_derivative_n_moved, pp_eval_moved_fun. reflexivity.
Qed.

Lemma set_velocity_moved k m u du d2u :
  set_velocity pchip (moved_meth k m) (moved_arg k u) (moved_arg k du) (moved_arg k d2u)
  = moved_pair k (set_velocity pchip m u du d2u).
Proof.
  destruct u as [| | |a|l|]; cbn [set_velocity moved_arg].
  - apply (set_points_moved k m PNone).
  - apply set_callable_moved.
  - apply set_scalar_moved.
  - rewrite <- set_points_moved. cbn [moved_arg]. destruct (nd_shape a); reflexivity.
  - rewrite <- set_points_moved. cbn [moved_arg]. destruct l; reflexivity.
  - apply (set_points_moved k m PObj).
Qed.

Lemma gather_moved k x0 y0 evs r :
  gather (x0 + k) y0 (map (moved_event k) evs) (moved_ivp k r) = res_map (moved_result k) (gather x0 y0 evs r).
Proof.
  unfold gather. cbn [moved_ivp r_success r_status r_message r_t r_sol r_t_events].
  destruct (r_success r); [|reflexivity]. destruct (Z.eqb (r_status r) 0).
  - unfold last_t. rewrite <- map_rev. destruct (rev (r_t r)); cbn [map bind res_map]; [reflexivity|].
    rewrite moved_at. reflexivity.
  - destruct (Z.eqb (r_status r) 1); [|reflexivity].
    assert (F : forall te es, first_event (map (map (fun t => t + k)) te) (map (moved_event k) es)
              = res_map (option_map (fun p => (fst p + k, moved_event k (snd p)))) (first_event te es)).
    { induction te as [|[|t ts] te IH]; intros es; cbn [map first_event]; [reflexivity| |].
      - rewrite <- IH. f_equal. destruct es; reflexivity.
      - destruct es; reflexivity. }
    rewrite F. destruct (first_event (r_t_events r) evs) as [[[x e]|]|]; cbn [res_map option_map bind fst snd]; try reflexivity.
    rewrite moved_at. reflexivity.
Qed.

Lemma solve_moved k m x0 x1 l :
  solve ivp (moved_meth k m) (x0 + k) (x1 + k) (map (moved_event k) l)
  = (moved_meth k (fst (solve ivp m x0 x1 l)), res_map (moved_result k) (snd (solve ivp m x0 x1 l))).
Proof.
  unfold solve. change (m_ic (moved_meth k m)) with (m_ic m). change (m_nu (moved_meth k m)) with (m_nu m).
  destruct (ic_set_nu (m_ic m) (m_nu m)) as [c [u|e]]; [|reflexivity].
  change (set_ic (moved_meth k m) c) with (moved_meth k (set_ic m c)). rewrite q_du_moved.
  destruct (q_du_e (set_ic m c) x0) as [du|e]; [|reflexivity].
  change (m_ic (moved_meth k (set_ic m c))) with (m_ic (set_ic m c)).
  set (m2 := set_ic (set_ic m c) (ic_set_du (m_ic (set_ic m c)) (Fin du))).
  change (set_ic (moved_meth k (set_ic m c)) (ic_set_du (m_ic (set_ic m c)) (Fin du))) with (moved_meth k m2).
  change (ode_setup (moved_meth k m2)) with (ode_setup m2).
  destruct (ode_setup m2) as [y0|e]; [|reflexivity].
  replace (add_kill_events (moved_meth k m2) (map (moved_event k) l)) with (moved_meth k (add_kill_events m2 l)).
  2:{ unfold moved_meth, add_kill_events, set_events. cbn [m_kind m_nu m_u m_du m_d2u m_ic m_fit m_events m_sol].
      rewrite map_app. reflexivity. }
  set (m3 := add_kill_events m2 l). rewrite ode_moved.
  replace (map (fun e => (ev_terminal e, event_value (moved_meth k m3) e)) (m_events (moved_meth k m3)))
    with (map (fun p => (fst p, moved k (snd p))) (map (fun e => (ev_terminal e, event_value m3 e)) (m_events m3))).
  2:{ cbn [moved_meth m_events]. rewrite !map_map. apply map_ext. intros e. cbn [fst snd moved_event ev_terminal].
      f_equal. symmetry. apply (event_moved k m3 e). }
  rewrite IM. destruct (ivp (ode_impl m3) x0 x1 y0 _) as [r|e]; cbn [res_map]; [|reflexivity]. cbn [fst snd].
  f_equal.
  - unfold moved_meth, set_sol. cbn [m_kind m_nu m_u m_du m_d2u m_ic m_fit m_events m_sol].
    cbn [moved_ivp r_success r_sol]. destruct (r_success r); reflexivity.
  - cbn [set_sol m_events moved_meth]. apply gather_moved.
Qed.

Lemma step_moved k m o :
  step pchip cs ivp (moved_meth k m) (moved_op k o)
  = (moved_meth k (fst (step pchip cs ivp m o)), moved_outcome k (snd (step pchip cs ivp m o))).
Proof.
  destruct o as [v|u du d2u|c|v|v|a|v|x0 x1 l]; cbn [moved_op step].
  - unfold set_nu. destruct (xleb v (Fin 0)); reflexivity.
  - rewrite set_velocity_moved. unfold no_result, moved_pair. cbn [fst snd].
    destruct (set_velocity pchip m u du d2u) as [m1 [[]|e]]; reflexivity.
  - reflexivity.
  - unfold set_initial_delta_m. destruct (xleb v (Fin 0)); reflexivity.
  - cbn [moved_meth m_kind]. destruct (m_kind m); try reflexivity.
    unfold set_initial_shape_d. destruct (xleb v (Fin 0)); [reflexivity|]. unfold get_initial_delta_m. change (m_ic (moved_meth k m)) with (m_ic m).
    destruct (ic_delta_m (m_ic m)); reflexivity.
  - cbn [moved_meth m_kind]. destruct (m_kind m); try reflexivity; unfold set_data_fits; destruct (choose_fit cs a); reflexivity.
  - cbn [moved_meth m_kind]. destruct (m_kind m); reflexivity.
  - rewrite solve_moved. cbn [fst snd]. destruct (snd (solve ivp m x0 x1 l)); reflexivity.
Qed.

Lemma run_moved k h : forall m, run pchip cs ivp (moved_meth k m) (map (moved_op k) h) = moved_meth k (run pchip cs ivp m h).
Proof.
  unfold run. induction h as [|o h IH]; intros m; [reflexivity|]. cbn [map fold_left].
  rewrite step_moved. cbn [fst]. apply IH.
Qed.
Lemma trace_moved k h : forall m, map snd (trace pchip cs ivp (moved_meth k m) (map (moved_op k) h))
  = map (moved_outcome k) (map snd (trace pchip cs ivp m h)).
Proof.
  induction h as [|o h IH]; intros m; [reflexivity|]. cbn [map trace snd].
  rewrite step_moved. cbn [fst snd]. f_equal. apply IH.
Qed.

Lemma new_base_moved k kd nu u du d2u c :
  new_base pchip kd nu (moved_arg k u) (moved_arg k du) (moved_arg k d2u) c
  = res_map (moved_meth k) (new_base pchip kd nu u du d2u c).
Proof.
  unfold new_base. destruct (new_fs (Fin 0) nu) as [fs|]; [|reflexivity]. cbv zeta.
  set (m0 := {| m_kind := kd |}).
  assert (G : match set_velocity pchip m0 (moved_arg k u) (moved_arg k du) (moved_arg k d2u) with
              | (m1, Ok _) => Ok (set_initial_condition m1 c) | (_, Err e) => Err e end
            = res_map (moved_meth k) match set_velocity pchip m0 u du d2u with
              | (m1, Ok _) => Ok (set_initial_condition m1 c) | (_, Err e) => Err e end).
  { change m0 with (moved_meth k m0) at 1. rewrite set_velocity_moved. unfold moved_pair.
    destruct (set_velocity pchip m0 u du d2u) as [m1 [[]|e]]; reflexivity. }
  destruct u as [| | |a|l|]; try exact G.
  - assert (N : forall v, match moved_arg k v with PNone => True | _ => False end <-> match v with PNone => True | _ => False end).
    { intros [| | |a|l|]; cbn; try tauto; [destruct (nd_shape a)|destruct l]; tauto. }
    cbn [moved_arg]. assert (N1 := N du). assert (N2 := N d2u).
    destruct (moved_arg k du) eqn:E1, du; try tauto; destruct (moved_arg k d2u) eqn:E2, d2u; try tauto; reflexivity.
  - cbn [moved_arg] in *. destruct (nd_shape a); exact G.
  - cbn [moved_arg] in *. destruct l; exact G.
Qed.
Lemma new_thwaites_moved k linear nu u du d2u a :
  new_thwaites pchip cs linear nu (moved_arg k u) (moved_arg k du) (moved_arg k d2u) a
  = res_map (moved_meth k) (new_thwaites pchip cs linear nu u du d2u a).
Proof.
  unfold new_thwaites. rewrite new_base_moved. destruct (new_base pchip _ nu u du d2u _) as [m|]; cbn [res_map]; [|reflexivity].
  unfold set_data_fits. destruct (choose_fit cs a); reflexivity.
Qed.
Lemma new_head_moved k nu u du d2u crit :
  new_head pchip nu (moved_arg k u) (moved_arg k du) (moved_arg k d2u) crit
  = res_map (moved_meth k) (new_head pchip nu u du d2u crit).
Proof.
  unfold new_head. rewrite new_base_moved. destruct (new_base pchip _ nu u du d2u _) as [m|]; reflexivity.
Qed.

Lemma thwaites_moved_lemma k linear nu u du d2u a h :
  match new_thwaites pchip cs linear nu u du d2u a,
        new_thwaites pchip cs linear nu (moved_arg k u) (moved_arg k du) (moved_arg k d2u) a with
  | Ok m, Ok m' =>
      map snd (trace pchip cs ivp m' (map (moved_op k) h)) = map (moved_outcome k) (map snd (trace pchip cs ivp m h)) /\
      reports_moved k (run pchip cs ivp m h) (run pchip cs ivp m' (map (moved_op k) h))
  | Err e, Err e' => e = e'
  | _, _ => False
  end.
Proof.
  rewrite new_thwaites_moved. destruct (new_thwaites pchip cs linear nu u du d2u a) as [m|e]; cbn [res_map]; [|reflexivity].
  split; [apply trace_moved|]. rewrite run_moved. apply reports_moved_meth.
Qed.
Lemma head_moved_lemma k nu u du d2u crit h :
  match new_head pchip nu u du d2u crit,
        new_head pchip nu (moved_arg k u) (moved_arg k du) (moved_arg k d2u) crit with
  | Ok m, Ok m' =>
      map snd (trace pchip cs ivp m' (map (moved_op k) h)) = map (moved_outcome k) (map snd (trace pchip cs ivp m h)) /\
      reports_moved k (run pchip cs ivp m h) (run pchip cs ivp m' (map (moved_op k) h))
  | Err e, Err e' => e = e'
  | _, _ => False
  end.
Proof.
  rewrite new_head_moved. destruct (new_head pchip nu u du d2u crit) as [m|e]; cbn [res_map]; [|reflexivity].
  split; [apply trace_moved|]. rewrite run_moved. apply reports_moved_meth.
Qed.
End Moves.

(** ** The documented PCHIP algorithm moves along *)
Lemma pchip_moves_lemma : pchip_moves pchip_scipy.
Proof.
  intros k x y. unfold pchip_scipy. cbn [nd_add nd_shape nd_data].
  destruct (nd_shape x) as [|? [|]]; try reflexivity. destruct (nd_shape y) as [|? [|]]; try reflexivity.
  unfold pchip_fit. rewrite map_length.
  assert (SI : forall l, strictly_increasing (map (fun r => r + k) l) = strictly_increasing l).
  { induction l as [|a [|b l] IH]; try reflexivity. cbn [map strictly_increasing] in *. rewrite IH. f_equal.
    unfold Rltb. destruct (Rlt_dec a b), (Rlt_dec (a + k) (b + k)); try reflexivity; lra. }
  rewrite SI. destruct (andb _ _); [|reflexivity]. cbn [res_map]. unfold pp_moved. cbn [pp_x pp_c]. do 2 f_equal.
  set (mv := fun p : R * R => (fst p + k, snd p)).
  replace (combine (map (fun r => r + k) (nd_data x)) (nd_data y)) with (map mv (combine (nd_data x) (nd_data y))).
  2:{ generalize (nd_data y). induction (nd_data x) as [|a l IH]; [reflexivity|]. intros [|b l']; [reflexivity|].
      cbn [combine map]. f_equal. apply IH. }
  generalize (combine (nd_data x) (nd_data y)). clear.
  assert (S : forall p q, secant (mv p) (mv q) = secant p q).
  { intros p q. unfold secant, mv. cbn [fst snd]. f_equal. ring. }
  assert (Fs : forall p q, fst (mv q) - fst (mv p) = fst q - fst p).
  { intros p q. unfold mv. cbn [fst]. ring. }
  assert (I : forall p q r, pchip_inner (mv p) (mv q) (mv r) = pchip_inner p q r).
  { intros p q r. unfold pchip_inner. rewrite !S, !Fs. reflexivity. }
  assert (Rs : forall l p q, pchip_rest (mv p) (mv q) (map mv l) = pchip_rest p q l).
  { induction l as [|r l IH]; intros p q; [reflexivity|]. cbn [map pchip_rest]. rewrite I. f_equal.
    destruct l as [|r2 l]; [cbn [map]; rewrite !S, !Fs; reflexivity|]. apply (IH q r). }
  assert (Sl : forall l, pchip_slopes (map mv l) = pchip_slopes l).
  { intros [|p [|q [|r l]]]; try reflexivity; cbn [map pchip_slopes]; [rewrite !S; reflexivity|].
    rewrite !S, !Fs. f_equal. apply (Rs (r :: l) p q). }
  intros l. rewrite Sl. generalize (pchip_slopes l) as ds.
  induction l as [|p l IH]; [reflexivity|]. intros [|d0 ds]; [reflexivity|]. cbn [map hermite_cols].
  destruct l as [|q l]; [reflexivity|]. cbn [map]. destruct ds as [|d1 ds]; [reflexivity|]. f_equal; [|apply (IH (d1 :: ds))].
  unfold hermite_col. rewrite S, Fs. reflexivity.
Qed.
