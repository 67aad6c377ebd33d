(** C118 and C119: only the flow in the interval matters, and not where the origin is. *)
From Coq Require Import Reals List String Lra.
From Verif Require Import PyBase PPolyModel PchipModel ThwaitesFitsModel CoreModel CoreSpec
  TranslationSpec TranslationProofs LocalityProofs UnitsProofs.
Import ListNotations.
Open Scope R_scope.

(** C118, as first stated, fails: a velocity given without derivatives is differenced with points up
    to 2e-4 outside the interval.  Two velocities that agree on all of [0, 1] (and beyond) give
    different results of a solve over [0, 1], although the integrator stays inside. *)
Theorem locality_refuted : forall pchip cubic_spline,
  exists ivp, local_ivp ivp /\ ivp_contract ivp /\ exists m c c' r r',
  reachable pchip cubic_spline ivp m /\ c_deriv c = None /\ c_deriv c' = None /\ c_ret c' = c_ret c /\
  (forall x, 0 <= x -> c_fun c' x = c_fun c x) /\
  snd (solve ivp (fst (set_velocity pchip m (PCall c) PNone PNone)) 0 1 []) = Ok r /\
  snd (solve ivp (fst (set_velocity pchip m (PCall c') PNone PNone)) 0 1 []) = Ok r' /\
  ir_status r = REACHED_END /\ ir_status r' = REACHED_END /\ ir_f_end r' <> ir_f_end r.
Proof. exact locality_witness. Qed.
Print Assumptions locality_refuted.

(** Velocities that agree on the interval widened by 2e-4 on both sides give the same result
    object and the same reports on the interval, whatever they do elsewhere. *)
Theorem locality_differenced : forall pchip ivp m c c' a b l, local_ivp ivp -> a <= b ->
  c_deriv c = None -> c_deriv c' = None -> c_ret c' = c_ret c ->
  (forall x, a - 2/10000 <= x <= b + 2/10000 -> c_fun c' x = c_fun c x) ->
  let m1 := fst (set_velocity pchip m (PCall c) PNone PNone) in
  let m2 := fst (set_velocity pchip m (PCall c') PNone PNone) in
  snd (solve ivp m2 a b l) = snd (solve ivp m1 a b l) /\
  same_reports (fst (solve ivp m1 a b l)) (fst (solve ivp m2 a b l)) a b.
Proof. exact locality_lemma. Qed.
Print Assumptions locality_differenced.

(** With the derivatives given, agreement on the interval itself is enough. *)
Theorem locality_given : forall pchip ivp m c dc d2c c' dc' d2c' a b l, local_ivp ivp -> a <= b ->
  c_ret c' = c_ret c -> c_ret dc' = c_ret dc ->
  (forall x, a <= x <= b -> c_fun c' x = c_fun c x /\ c_fun dc' x = c_fun dc x /\ c_fun d2c' x = c_fun d2c x) ->
  let m1 := fst (set_velocity pchip m (PCall c) (PCall dc) (PCall d2c)) in
  let m2 := fst (set_velocity pchip m (PCall c') (PCall dc') (PCall d2c')) in
  snd (solve ivp m2 a b l) = snd (solve ivp m1 a b l) /\
  same_reports (fst (solve ivp m1 a b l)) (fst (solve ivp m2 a b l)) a b.
Proof. exact locality_given_lemma. Qed.
Print Assumptions locality_given.

(** A uniform stream and one with a step a unit upstream of the interval. *)
Example locality_case :
  let c := {| c_fun := fun _ => 1; c_ret := KFloat; c_deriv := None |} in
  let c' := {| c_fun := fun x => if Rle_dec x 4 then 2 else 1; c_ret := KFloat; c_deriv := None |} in
  let pchip := pchip_scipy in
  let m1 := fst (set_velocity pchip (flat 1 1 1) (PCall c) PNone PNone) in
  let m2 := fst (set_velocity pchip (flat 1 1 1) (PCall c') PNone PNone) in
  snd (solve ivp_slope m2 5 6 []) = snd (solve ivp_slope m1 5 6 []) /\
  q_u_e m1 3 <> q_u_e m2 3.
Proof.
  intros c c' pchip m1 m2. split.
  - apply (locality_differenced pchip ivp_slope (flat 1 1 1) c c' 5 6 [] ivp_slope_local); try reflexivity; [lra|].
    intros x Hx. unfold c, c'. cbn [c_fun]. destruct (Rle_dec x 4); [lra|reflexivity].
  - unfold m1, m2. cbn. destruct (Rle_dec 3 4); [|lra]. intros Q. injection Q as Q. lra.
Qed.

(** C119.  Two programs that differ only in the position of the origin - constructor and every
    call with profile, point data, stopping conditions and interval moved by [k] - have the same
    outcomes, with the end points moved by [k], and afterwards report the same at moved positions. *)
Theorem translation_thwaites : forall pchip cubic_spline ivp, pchip_moves pchip -> ivp_moves ivp ->
  forall k linear nu u du d2u a h,
  match new_thwaites pchip cubic_spline linear nu u du d2u a,
        new_thwaites pchip cubic_spline linear nu (moved_arg k u) (moved_arg k du) (moved_arg k d2u) a with
  | Ok m, Ok m' =>
      map snd (trace pchip cubic_spline ivp m' (map (moved_op k) h))
      = map (moved_outcome k) (map snd (trace pchip cubic_spline ivp m h)) /\
      reports_moved k (run pchip cubic_spline ivp m h) (run pchip cubic_spline ivp m' (map (moved_op k) h))
  | Err e, Err e' => e = e'
  | _, _ => False
  end.
Proof. exact thwaites_moved_lemma. Qed.
Print Assumptions translation_thwaites.

Theorem translation_head : forall pchip cubic_spline ivp, pchip_moves pchip -> ivp_moves ivp ->
  forall k nu u du d2u crit h,
  match new_head pchip nu u du d2u crit,
        new_head pchip nu (moved_arg k u) (moved_arg k du) (moved_arg k d2u) crit with
  | Ok m, Ok m' =>
      map snd (trace pchip cubic_spline ivp m' (map (moved_op k) h))
      = map (moved_outcome k) (map snd (trace pchip cubic_spline ivp m h)) /\
      reports_moved k (run pchip cubic_spline ivp m h) (run pchip cubic_spline ivp m' (map (moved_op k) h))
  | Err e, Err e' => e = e'
  | _, _ => False
  end.
Proof. exact head_moved_lemma. Qed.
Print Assumptions translation_head.

(** The documented PCHIP algorithm is of the assumed kind. *)
Theorem pchip_scipy_moves : pchip_moves pchip_scipy.
Proof. exact pchip_moves_lemma. Qed.
Print Assumptions pchip_scipy_moves.

(** An integrator of the assumed kind, and point data moved by 5: the same history, outcome and
    report. *)
Example translation_case :
  ivp_moves ivp_slope /\
  let u := PTup [PTup [PNum 0; PNum 1; PNum 2]; PTup [PNum 1; PNum 2; PNum 4]] in
  moved_arg 5 u = PTup [PTup [PNum (0 + 5); PNum (1 + 5); PNum (2 + 5)]; PTup [PNum 1; PNum 2; PNum 4]] /\
  exists m, new_thwaites pchip_scipy (fun _ _ => (fun x => x, fun x => x)) true (Fin 1) u PNone PNone (FName "White") = Ok m /\
    q_u_e m 1 = Ok 2.
Proof.
  split; [exact ivp_slope_moves|]. intros u. split; [reflexivity|]. eexists. split.
  - unfold u, new_thwaites, new_base, InitialConditionModel.new_fs, InitialConditionModel.ic_set_nu. cbn [xleb].
    rewrite PyBaseFacts.Rleb_false by lra. unfold set_velocity, set_velocity_points. cbn [py_len length py_item nth_error bind np_asarray].
    unfold nd_stack. cbn [forallb nd_shape length list_eq_dec flat_map nd_data app andb].
    destruct (list_eq_dec _ _ _) as [_|N]; [|contradiction]. cbn [andb nd_shape length negb Nat.eqb hd Nat.ltb Nat.leb].
    unfold pchip_scipy. cbn [nd_shape nd_data]. unfold pchip_fit. cbn [length Nat.eqb Nat.leb andb strictly_increasing].
    rewrite !PyBaseFacts.Rltb_true by lra. cbn [andb]. unfold set_velocity_callable, callable_of_ppoly. cbn [c_deriv]. reflexivity.
  - unfold q_u_e. cbn. f_equal. unfold pp_eval. cbn [pp_x pp_c pp_eval_aux]. destruct (Rlt_dec 1 1); [lra|].
    unfold horner. cbn. lra.
Qed.
