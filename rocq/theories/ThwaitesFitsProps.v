(** Properties C18-C23: the Thwaites data fits.  [shape m], [shape_p m], [shear m] are the
    methods of the fit object [m]; [xderiv g x d]: g is finite near x with derivative d. *)
From Coq Require Import Reals List Lra.
From Verif Require Import PyBase PyBaseFacts XDeriv ThwaitesFitsModel ThwaitesFitsProofs.
Import ListNotations.
Open Scope R_scope.

(** C18: wherever the shape factor of a fit has a derivative inside the range, the derivative
    function returns that derivative ... *)
Theorem fit_derivative_reported : forall l d : R,
  (-9/100 < l -> xderiv (shape fit_white) l d -> shape_p fit_white (Fin l) = Fin d) /\
  (-1/10 < l < 1/10 -> xderiv (shape fit_cb) l d -> shape_p fit_cb (Fin l) = Fin d) /\
  (-9/100 < l -> xderiv (shape fit_drela) l d -> shape_p fit_drela (Fin l) = Fin d).
Proof. exact fit_derivative_reported_lemma. Qed.
Print Assumptions fit_derivative_reported.

(** ... and it has one at every parameter inside the range (Cebeci-Bradshaw: except 0). *)
Theorem fit_derivative_exists : forall l : R,
  (-9/100 < l -> exists d, shape_p fit_white (Fin l) = Fin d /\ xderiv (shape fit_white) l d) /\
  (-1/10 < l < 1/10 -> l <> 0 ->
     exists d, shape_p fit_cb (Fin l) = Fin d /\ xderiv (shape fit_cb) l d) /\
  (-9/100 < l -> exists d, shape_p fit_drela (Fin l) = Fin d /\ xderiv (shape fit_drela) l d).
Proof. exact fit_derivatives_lemma. Qed.
Print Assumptions fit_derivative_exists.

Example fit_derivative_case : exists d, shape_p fit_drela (Fin (-5/100)) = Fin d /\
  xderiv (shape fit_drela) (-5/100) d.
Proof. apply fit_derivative_exists. lra. Qed.

(** The default fit, given that scipy's spline differentiates its own interpolant. *)
Theorem spline_fit_derivative : forall cs l, spline_differentiates cs -> -9/100 < l < 25/100 ->
  exists d, shape_p (fit_spline cs) (Fin l) = Fin d /\ xderiv (shape (fit_spline cs)) l d.
Proof. exact spline_derivative_lemma. Qed.
Print Assumptions spline_fit_derivative.

Example spline_fit_derivative_case :
  spline_differentiates (fun _ _ => (fun _ => Fin 1, fun _ => Fin 0)).
Proof.
  intros xs ys a b x _ _ _. exists 0. split; [reflexivity|].
  exists (fun _ => 1). split; [exists (mkposreal 1 Rlt_0_1); intros; reflexivity|].
  apply (@Coquelicot.Derive.is_derive_const Coquelicot.Hierarchy.R_AbsRing).
Qed.

(** C18, boundary of the property: outside the range the shape factor is constant, yet the
    derivative function does not return 0. *)
Theorem fit_derivative_out_of_range_refuted :
  exists l d, xderiv (shape fit_white) l 0 /\ shape_p fit_white (Fin l) = Fin d /\ d <> 0.
Proof. exact clamped_derivative_lemma. Qed.
Print Assumptions fit_derivative_out_of_range_refuted.

(** C19: continuous shear; the shape factor is 2.61 at 0 and tends to 2.61 + 1/7000 from
    below, so it is not continuous there. *)
Theorem cebeci_bradshaw_jump :
  (forall l, -1/10 < l < 1/10 -> xcontinuous (shear fit_cb) l) /\
  shape fit_cb (Fin 0) = Fin (261/100) /\
  (forall eps, 0 < eps -> exists delta, 0 < delta /\
     forall l, - delta < l < 0 ->
     exists v, shape fit_cb (Fin l) = Fin v /\ Rabs (v - (261/100 + 1/7000)) < eps) /\
  ~ xcontinuous (shape fit_cb) 0.
Proof. exact cb_jump_lemma. Qed.
Print Assumptions cebeci_bradshaw_jump.

Example cebeci_bradshaw_jump_case : 0 < 1/7000 < 2/10000.
Proof. lra. Qed.

(** C20 *)
Theorem out_of_range_scalar : forall (m : fit) (lo l : R),
  fit_lo m = Fin lo -> xltb (fit_hi m) (Fin lo) = false ->
  (l <= lo -> shear m (Fin l) = shear m (Fin lo) /\ shape m (Fin l) = shape m (Fin lo)) /\
  (forall hi, fit_hi m = Fin hi -> hi <= l ->
     shear m (Fin l) = shear m (Fin hi) /\ shape m (Fin l) = shape m (Fin hi)).
Proof. exact clamp_scalar_lemma. Qed.
Print Assumptions out_of_range_scalar.

Example out_of_range_scalar_case :
  shear fit_cb (Fin (-3)) = shear fit_cb (Fin (-1/10)) /\
  shape fit_cb (Fin 5) = shape fit_cb (Fin (1/10)) /\
  shear fit_white (Fin (-3)) = shear fit_white (Fin (-9/100)).
Proof.
  assert (H : xltb (fit_hi fit_cb) (Fin (-1/10)) = false)
    by (cbn; apply PyBaseFacts.Rltb_false; lra).
  split; [|split].
  - apply (proj1 (out_of_range_scalar fit_cb (-1/10) (-3) eq_refl H)); lra.
  - apply (proj2 (out_of_range_scalar fit_cb (-1/10) 5 eq_refl H) (1/10) eq_refl); lra.
  - apply (proj1 (out_of_range_scalar fit_white (-9/100) (-3) eq_refl eq_refl)); lra.
Qed.

(** C21 as worded is false: an array with elements on both sides of the range. *)
Theorem array_elementwise_refuted :
  exists l : list xr, shape_arr fit_cb l <> map (shape fit_cb) l.
Proof. exact array_mixed_lemma. Qed.
Print Assumptions array_elementwise_refuted.

(** C21 holds for every array that does not leave the range on both sides. *)
Theorem array_elementwise_partial : forall (m : fit) (l : list xr),
  (forall v, In v l -> xltb v (fit_lo m) = false) \/
  (forall v, In v l -> xltb (fit_hi m) v = false) ->
  shear_arr m l = map (shear m) l /\ shape_arr m l = map (shape m) l /\
  shape_p_arr m l = map (shape_p m) l.
Proof. exact array_agrees_lemma. Qed.
Print Assumptions array_elementwise_partial.

Example array_elementwise_case : forall v, In v [Fin (-2/10); Fin 0; Fin (5/100)] ->
  xltb (fit_hi fit_cb) v = false.
Proof.
  intros v H. cbn in H.
  repeat (destruct H as [<-|H]; [cbn; apply PyBaseFacts.Rltb_false; lra|]). destruct H.
Qed.

(** C21, exactly what an array evaluates to: once some element is below the range, elements
    above it are no longer clamped. *)
Theorem array_exact : forall (m : fit) (l : list xr),
  shape_arr m l = (if existsb (fun v => xltb v (fit_lo m)) l
    then map (fun v => fit_shape m (if xltb v (fit_lo m) then fit_lo m else v)) l
    else map (shape m) l).
Proof. exact array_exact_lemma. Qed.
Print Assumptions array_exact.

(** C22 *)
Theorem white_shear_zero_iff :
  (forall l, fin_le (Fin 0) (shear fit_white (Fin l))) /\
  (forall l, shear fit_white (Fin l) = Fin 0 <-> l <= -9/100) /\
  (forall a b, -9/100 <= a -> a < b ->
     fin_lt (shear fit_white (Fin a)) (shear fit_white (Fin b))).
Proof. exact white_shear_lemma. Qed.
Print Assumptions white_shear_zero_iff.

Theorem cebeci_bradshaw_shear_zero :
  exists r, -900/10000 < r < -898/10000 /\
    shear fit_cb (Fin r) = Fin 0 /\
    (forall l, l < r -> exists v, shear fit_cb (Fin l) = Fin v /\ v < 0) /\
    (forall l, r < l -> finite_pos (shear fit_cb (Fin l))).
Proof. exact cb_shear_sep_lemma. Qed.
Print Assumptions cebeci_bradshaw_shear_zero.

Example white_shear_case : fin_lt (shear fit_white (Fin 0)) (shear fit_white (Fin 1)).
Proof. apply white_shear_zero_iff; lra. Qed.

(** C23: three of the four fits detect separation ... *)
Theorem separation_detected_partial : forall cs, spline_interpolates cs ->
  (forall l, l <= -9/100 -> shear (fit_spline cs) (Fin l) = Fin 0) /\
  (forall l, l <= -9/100 -> shear fit_white (Fin l) = Fin 0) /\
  (forall l, l <= -9/100 -> exists v, shear fit_cb (Fin l) = Fin v /\ v < 0).
Proof. exact separation_detected_lemma. Qed.
Print Assumptions separation_detected_partial.

(** ... but the Drela fit's shear is positive for every adverse gradient, however strong
    (indeed for every parameter up to 0.6) ... *)
Theorem drela_separation_refuted :
  forall l, l <= 6/10 -> finite_pos (shear fit_drela (Fin l)).
Proof. exact drela_shear_lemma. Qed.
Print Assumptions drela_separation_refuted.

(** ... and negative, so reported as separation, in a strongly favourable gradient. *)
Theorem drela_spurious_separation :
  exists v, shear fit_drela (Fin (7/10)) = Fin v /\ v < 0.
Proof. exact drela_shear_spurious. Qed.
Print Assumptions drela_spurious_separation.

(** [spline_interpolates] is met by table lookup. *)
Example separation_detected_case : exists cs, spline_interpolates cs.
Proof. eexists. exact spline_interpolates_witness. Qed.
