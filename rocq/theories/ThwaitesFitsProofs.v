From Coq Require Import Reals List Lra Psatz.
From Coquelicot Require Import Coquelicot.
From Interval Require Import Tactic.
From Verif Require Import PyBase PyBaseFacts XDeriv ThwaitesFitsModel.
From Coq Require Import Sorting.Sorted.
Import ListNotations.
Open Scope R_scope.

(* ------------------------------------------------------------------ *)
(** Range check *)
Lemma check_range_inside lo hi r :
  lo <= r <= hi -> check_range (Fin lo) (Fin hi) (Fin r) = Fin r.
Proof.
  intros [H1 H2]. unfold check_range. cbn [xltb].
  rewrite Rltb_false by exact H1. rewrite Rltb_false by exact H2. reflexivity.
Qed.
Lemma check_range_inside_inf lo r :
  lo <= r -> check_range (Fin lo) PInf (Fin r) = Fin r.
Proof.
  intros H1. unfold check_range. cbn [xltb]. rewrite Rltb_false by exact H1. reflexivity.
Qed.
Lemma check_range_low lo hi r : r <= lo ->
  xltb hi (Fin lo) = false -> check_range (Fin lo) hi (Fin r) = Fin lo.
Proof.
  intros [H| ->] Hhi; unfold check_range.
  - cbn [xltb]. rewrite Rltb_true by exact H. reflexivity.
  - rewrite Hhi. cbn [xltb]. rewrite Rltb_false by lra. reflexivity.
Qed.
Lemma check_range_high lo hi r : hi <= r -> lo <= hi ->
  check_range (Fin lo) (Fin hi) (Fin r) = Fin hi.
Proof.
  intros H Hlh. unfold check_range. cbn [xltb]. rewrite Rltb_false by lra.
  destruct H as [H| ->]; [rewrite Rltb_true by exact H|rewrite Rltb_false by lra]; reflexivity.
Qed.

(* ------------------------------------------------------------------ *)
(** Closed forms *)
Definition whiteH (l : R) : R :=
  let z := 25/100 - l in 2 + z*(414/100 + z*(-835/10 + z*(854 + z*(-3337 + z*4576)))).
Definition whiteHp (l : R) : R :=
  let z := 25/100 - l in
  - (414/100 + z*(-2*(835/10) + z*(3*854 + z*(-4*3337 + z*5*4576)))).
Definition cbS_neg (l : R) : R := 22/100 + 1402/1000*l + 18/1000*l/(107/1000 + l).
Definition cbS_pos (l : R) : R := 22/100 + 157/100*l - 18/10*(l*l).
Definition cbH_neg (l : R) : R := 2088/1000 + 731/10000/(14/100 + l).
Definition cbH_pos (l : R) : R := 261/100 - 375/100*l + 524/100*(l*l).
Definition cbHp_neg (l : R) : R := (-731/10000)/((14/100 + l)*(14/100 + l)).
Definition cbHp_pos (l : R) : R := -375/100 + 2*(524/100)*l.
Definition drelaS (l : R) : R :=
  220/1000 + 152/100*l - 5*(l*l*l) - 72/1000*(l*l)/((l+18/100)*(l+18/100)).
Definition drelaH (l : R) : R :=
  261/100 - 41/10*l + 14*(l*l*l) + 56/100*(l*l)/((l+18/100)*(l+18/100)).
Definition drelaHp (l : R) : R :=
  -41/10 + 42*(l*l) + 2016/10000*l/((l+18/100)*(l+18/100)*(l+18/100)).

Lemma white_shape_eval r : white_shape (Fin r) = Fin (whiteH r).
Proof. reflexivity. Qed.
Lemma white_shape_p_eval r : white_shape_p (Fin r) = Fin (whiteHp r).
Proof. reflexivity. Qed.
Lemma white_shear_eval r : -9/100 < r -> white_shear (Fin r) = Fin (Rpower (r + 9/100) (62/100)).
Proof. intros H. unfold white_shear. rewrite xadd_fin, xpow_fin by lra. reflexivity. Qed.
Lemma white_shear_eval_sep : white_shear (Fin (-9/100)) = Fin 0.
Proof.
  unfold white_shear. rewrite xadd_fin. replace (-9/100 + 9/100) with 0 by field.
  apply xpow_fin_0. lra.
Qed.

Lemma piecewise0_neg f g r : r < 0 -> piecewise0 f g (Fin r) = f (Fin r).
Proof.
  intros H. unfold piecewise0. cbn [xleb xltb].
  rewrite Rleb_false by exact H. rewrite Rltb_true by exact H. reflexivity.
Qed.
Lemma piecewise0_pos f g r : 0 <= r -> piecewise0 f g (Fin r) = g (Fin r).
Proof. intros H. unfold piecewise0. cbn [xleb]. rewrite Rleb_true by exact H. reflexivity. Qed.

Lemma cb_shear_neg r : -107/1000 < r < 0 -> cb_shear (Fin r) = Fin (cbS_neg r).
Proof.
  intros H. unfold cb_shear. rewrite piecewise0_neg by lra.
  rewrite !xmul_fin, !xadd_fin, xdiv_fin, xadd_fin by lra. reflexivity.
Qed.
Lemma cb_shear_pos r : 0 <= r -> cb_shear (Fin r) = Fin (cbS_pos r).
Proof. intros H. unfold cb_shear. rewrite piecewise0_pos by lra. reflexivity. Qed.
Lemma cb_shape_neg r : -14/100 < r < 0 -> cb_shape (Fin r) = Fin (cbH_neg r).
Proof.
  intros H. unfold cb_shape. rewrite piecewise0_neg by lra.
  rewrite xadd_fin, xdiv_fin, xadd_fin by lra. reflexivity.
Qed.
Lemma cb_shape_pos r : 0 <= r -> cb_shape (Fin r) = Fin (cbH_pos r).
Proof. intros H. unfold cb_shape. rewrite piecewise0_pos by lra. reflexivity. Qed.
Lemma cb_shape_p_neg r : -14/100 < r < 0 -> cb_shape_p (Fin r) = Fin (cbHp_neg r).
Proof.
  intros H. unfold cb_shape_p. rewrite piecewise0_neg by lra.
  unfold xsq. rewrite xadd_fin, xmul_fin, xdiv_fin by nra. reflexivity.
Qed.
Lemma cb_shape_p_pos r : 0 <= r -> cb_shape_p (Fin r) = Fin (cbHp_pos r).
Proof. intros H. unfold cb_shape_p. rewrite piecewise0_pos by lra. reflexivity. Qed.
Lemma drela_shear_eval r : -18/100 < r -> drela_shear (Fin r) = Fin (drelaS r).
Proof.
  intros H. unfold drela_shear, xsq, xcube.
  rewrite !xadd_fin, !xmul_fin, xdiv_fin by nra. reflexivity.
Qed.
Lemma drela_shape_eval r : -18/100 < r -> drela_shape (Fin r) = Fin (drelaH r).
Proof.
  intros H. unfold drela_shape, xsq, xcube.
  rewrite !xadd_fin, !xmul_fin, xdiv_fin by nra. reflexivity.
Qed.
Lemma drela_shape_p_eval r : -18/100 < r -> drela_shape_p (Fin r) = Fin (drelaHp r).
Proof.
  intros H. unfold drela_shape_p, xsq, xcube.
  rewrite !xadd_fin, !xmul_fin, xdiv_fin; [reflexivity|].
  apply Rgt_not_eq. repeat apply Rmult_lt_0_compat; lra.
Qed.

(* ------------------------------------------------------------------ *)
(** C18: derivatives *)
Lemma whiteH_derive l : is_derive whiteH l (whiteHp l).
Proof. unfold whiteH, whiteHp. auto_derive; [trivial|]. field. Qed.
Lemma cbH_neg_derive l : -14/100 < l -> is_derive cbH_neg l (cbHp_neg l).
Proof. intros H. unfold cbH_neg, cbHp_neg. auto_derive; [lra|]. field. lra. Qed.
Lemma cbH_pos_derive l : is_derive cbH_pos l (cbHp_pos l).
Proof. unfold cbH_pos, cbHp_pos. auto_derive; [trivial|]. field. Qed.
Lemma drelaH_derive l : -18/100 < l -> is_derive drelaH l (drelaHp l).
Proof. intros H. unfold drelaH, drelaHp. auto_derive; [nra|]. field. lra. Qed.

Lemma white_deriv_lemma l : -9/100 < l ->
  exists d, shape_p fit_white (Fin l) = Fin d /\ xderiv (shape fit_white) l d.
Proof.
  intros H. exists (whiteHp l). split.
  - unfold shape_p. cbn [fit_shape_p fit_white fit_lo fit_hi].
    rewrite check_range_inside_inf by lra. apply white_shape_p_eval.
  - exists whiteH. split; [|apply whiteH_derive].
    generalize (locally_gt _ _ H). apply filter_imp. intros y Hy.
    unfold shape. cbn [fit_shape fit_white fit_lo fit_hi].
    rewrite check_range_inside_inf by lra. apply white_shape_eval.
Qed.

Lemma cb_deriv_lemma l : -1/10 < l < 1/10 -> l <> 0 ->
  exists d, shape_p fit_cb (Fin l) = Fin d /\ xderiv (shape fit_cb) l d.
Proof.
  intros H Hl. destruct (Rlt_dec l 0) as [Hn|Hn].
  - exists (cbHp_neg l). split.
    + unfold shape_p. cbn [fit_shape_p fit_cb fit_lo fit_hi].
      rewrite check_range_inside by lra. apply cb_shape_p_neg. lra.
    + exists cbH_neg. split; [|apply cbH_neg_derive; lra].
      generalize (locally_between (-1/10) 0 l ltac:(lra)). apply filter_imp. intros y Hy.
      unfold shape. cbn [fit_shape fit_cb fit_lo fit_hi].
      rewrite check_range_inside by lra. apply cb_shape_neg. lra.
  - exists (cbHp_pos l). split.
    + unfold shape_p. cbn [fit_shape_p fit_cb fit_lo fit_hi].
      rewrite check_range_inside by lra. apply cb_shape_p_pos. lra.
    + exists cbH_pos. split; [|apply cbH_pos_derive].
      generalize (locally_between 0 (1/10) l ltac:(lra)). apply filter_imp. intros y Hy.
      unfold shape. cbn [fit_shape fit_cb fit_lo fit_hi].
      rewrite check_range_inside by lra. apply cb_shape_pos. lra.
Qed.

Lemma drela_deriv_lemma l : -9/100 < l ->
  exists d, shape_p fit_drela (Fin l) = Fin d /\ xderiv (shape fit_drela) l d.
Proof.
  intros H. exists (drelaHp l). split.
  - unfold shape_p. cbn [fit_shape_p fit_drela fit_lo fit_hi].
    rewrite check_range_inside_inf by lra. apply drela_shape_p_eval. lra.
  - exists drelaH. split; [|apply drelaH_derive; lra].
    generalize (locally_gt _ _ H). apply filter_imp. intros y Hy.
    unfold shape. cbn [fit_shape fit_drela fit_lo fit_hi].
    rewrite check_range_inside_inf by lra. apply drela_shape_eval. lra.
Qed.

Lemma fit_derivatives_lemma l :
  (-9/100 < l -> exists d, shape_p fit_white (Fin l) = Fin d /\ xderiv (shape fit_white) l d) /\
  (-1/10 < l < 1/10 -> l <> 0 ->
     exists d, shape_p fit_cb (Fin l) = Fin d /\ xderiv (shape fit_cb) l d) /\
  (-9/100 < l -> exists d, shape_p fit_drela (Fin l) = Fin d /\ xderiv (shape fit_drela) l d).
Proof.
  split; [apply white_deriv_lemma|]. split; [apply cb_deriv_lemma|apply drela_deriv_lemma].
Qed.

(** Below the range the shape factor is constant but the reported derivative is not 0. *)
Lemma clamped_derivative_lemma :
  exists l d, xderiv (shape fit_white) l 0 /\ shape_p fit_white (Fin l) = Fin d /\ d <> 0.
Proof.
  exists (-1), (whiteHp (-9/100)). split; [|split].
  - exists (fun _ => whiteH (-9/100)). split; [|apply @is_derive_const].
    generalize (locally_lt (-9/100) (-1) ltac:(lra)). apply filter_imp. intros y Hy.
    unfold shape. cbn [fit_shape fit_white fit_lo fit_hi].
    rewrite check_range_low by (try reflexivity; lra). apply white_shape_eval.
  - unfold shape_p. cbn [fit_shape_p fit_white fit_lo fit_hi].
    rewrite check_range_low by (try reflexivity; lra). apply white_shape_p_eval.
  - unfold whiteHp. cbv zeta. lra.
Qed.

(* ------------------------------------------------------------------ *)
(** C19: behaviour of the Cebeci-Bradshaw fit at zero *)
Lemma cb_shear_inside r : -1/10 <= r <= 1/10 ->
  shear fit_cb (Fin r) = Fin (if Rlt_dec r 0 then cbS_neg r else cbS_pos r).
Proof.
  intros H. unfold shear. cbn [fit_shear fit_cb fit_lo fit_hi].
  rewrite check_range_inside by lra. destruct (Rlt_dec r 0).
  - apply cb_shear_neg; lra.
  - apply cb_shear_pos; lra.
Qed.
Lemma cb_shape_inside r : -1/10 <= r <= 1/10 ->
  shape fit_cb (Fin r) = Fin (if Rlt_dec r 0 then cbH_neg r else cbH_pos r).
Proof.
  intros H. unfold shape. cbn [fit_shape fit_cb fit_lo fit_hi].
  rewrite check_range_inside by lra. destruct (Rlt_dec r 0).
  - apply cb_shape_neg; lra.
  - apply cb_shape_pos; lra.
Qed.

Lemma cbS_neg_cont l : -107/1000 < l -> continuous cbS_neg l.
Proof.
  intros H. apply (ex_derive_continuous cbS_neg).
  unfold cbS_neg. auto_derive. lra.
Qed.
Lemma cbS_pos_cont l : continuous cbS_pos l.
Proof. apply (ex_derive_continuous cbS_pos). unfold cbS_pos. auto_derive. trivial. Qed.

Lemma glue_continuous (f g : R -> R) (a : R) :
  f a = g a -> continuous f a -> continuous g a ->
  continuous (fun x => if Rlt_dec x a then f x else g x) a.
Proof.
  intros E Hf Hg. apply continuity_pt_filterlim in Hf. apply continuity_pt_filterlim in Hg.
  apply continuity_pt_filterlim. intros eps Heps.
  destruct (Hf eps Heps) as [d1 [Hd1 H1]]. destruct (Hg eps Heps) as [d2 [Hd2 H2]].
  exists (Rmin d1 d2). split; [apply Rmin_pos; assumption|].
  intros x [Hx Hd]. destruct (Rlt_dec a a) as [?|_]; [lra|].
  destruct (Rlt_dec x a).
  - rewrite <- E. apply H1. split; [exact Hx|].
    eapply Rlt_le_trans; [exact Hd|apply Rmin_l].
  - apply H2. split; [exact Hx|]. eapply Rlt_le_trans; [exact Hd|apply Rmin_r].
Qed.

Lemma cb_jump_lemma :
  (forall l, -1/10 < l < 1/10 -> xcontinuous (shear fit_cb) l) /\
  shape fit_cb (Fin 0) = Fin (261/100) /\
  (forall eps, 0 < eps -> exists delta, 0 < delta /\
     forall l, - delta < l < 0 ->
     exists v, shape fit_cb (Fin l) = Fin v /\ Rabs (v - (261/100 + 1/7000)) < eps) /\
  ~ xcontinuous (shape fit_cb) 0.
Proof.
  assert (Hlim : forall eps, 0 < eps -> exists delta, 0 < delta /\
     forall l, - delta < l < 0 ->
     exists v, shape fit_cb (Fin l) = Fin v /\ Rabs (v - (261/100 + 1/7000)) < eps).
  { intros eps Heps.
    assert (C : continuous cbH_neg 0).
    { apply (ex_derive_continuous cbH_neg). unfold cbH_neg. auto_derive. lra. }
    apply continuity_pt_filterlim in C. destruct (C eps Heps) as [d [Hd HC]].
    exists (Rmin d (1/10)). split; [apply Rmin_pos; lra|].
    intros l Hl. pose proof (Rmin_l d (1/10)). pose proof (Rmin_r d (1/10)).
    exists (cbH_neg l). split.
    - rewrite cb_shape_inside by lra. destruct (Rlt_dec l 0); [reflexivity|lra].
    - replace (261/100 + 1/7000) with (cbH_neg 0) by (unfold cbH_neg; field).
      apply HC. split; [split; [exact I|lra]|].
      simpl. unfold R_dist. apply Rabs_def1; lra. }
  assert (H0 : shape fit_cb (Fin 0) = Fin (261/100)).
  { rewrite cb_shape_inside by lra. destruct (Rlt_dec 0 0); [lra|].
    f_equal. unfold cbH_pos. ring. }
  split; [|split; [exact H0|split; [exact Hlim|]]].
  - intros l Hl. exists (fun r => if Rlt_dec r 0 then cbS_neg r else cbS_pos r). split.
    + generalize (locally_between _ _ _ Hl). apply filter_imp. intros y Hy.
      apply cb_shear_inside; lra.
    + destruct (Rtotal_order l 0) as [H|[->|H]].
      * apply (continuous_ext_loc _ cbS_neg).
        -- generalize (locally_lt _ _ H). apply filter_imp. intros y Hy.
           destruct (Rlt_dec y 0); [reflexivity|lra].
        -- apply cbS_neg_cont; lra.
      * apply glue_continuous; [unfold cbS_neg, cbS_pos; field
                               |apply cbS_neg_cont; lra|apply cbS_pos_cont].
      * apply (continuous_ext_loc _ cbS_pos).
        -- generalize (locally_gt _ _ H). apply filter_imp. intros y Hy.
           destruct (Rlt_dec y 0); [lra|reflexivity].
        -- apply cbS_pos_cont.
  - intros [gR [L C]]. apply continuity_pt_filterlim in C.
    destruct (C (1/20000) ltac:(lra)) as [d1 [Hd1 H1]].
    destruct L as [d2 H2]. destruct (Hlim (1/20000) ltac:(lra)) as [d3 [Hd3 H3]].
    set (m := Rmin d1 (Rmin d2 d3)).
    assert (Hm : 0 < m) by (unfold m; repeat apply Rmin_pos; try assumption; apply cond_pos).
    pose proof (Rmin_l d1 (Rmin d2 d3)). pose proof (Rmin_r d1 (Rmin d2 d3)).
    pose proof (Rmin_l d2 d3). pose proof (Rmin_r d2 d3).
    fold m in H, H0, H4, H5.
    destruct (H3 (- (m/2)) ltac:(lra)) as [v [Ev Hv]].
    assert (Ey : shape fit_cb (Fin (- (m/2))) = Fin (gR (- (m/2)))).
    { apply H2. unfold ball; simpl; unfold AbsRing_ball, abs, minus, plus, opp; simpl.
      apply Rabs_def1; lra. }
    assert (E0 : shape fit_cb (Fin 0) = Fin (gR 0)).
    { apply H2. apply ball_center. }
    assert (D : Rabs (gR (- (m/2)) - gR 0) < 1/20000).
    { apply H1. split; [split; [exact I|lra]|]. simpl. unfold R_dist. apply Rabs_def1; lra. }
    rewrite Ev in Ey. injection Ey as Ey. rewrite <- Ey in D.
    assert (G0 : gR 0 = 261/100).
    { rewrite cb_shape_inside in E0 by lra. destruct (Rlt_dec 0 0); [lra|].
      injection E0 as E0. rewrite <- E0. unfold cbH_pos. ring. }
    rewrite G0 in D. apply Rabs_def2 in D. apply Rabs_def2 in Hv. lra.
Qed.

(* ------------------------------------------------------------------ *)
(** C20: scalars outside the range *)
Lemma clamp_scalar_lemma (m : fit) (lo : R) (l : R) :
  fit_lo m = Fin lo -> xltb (fit_hi m) (Fin lo) = false ->
  (l <= lo -> shear m (Fin l) = shear m (Fin lo) /\ shape m (Fin l) = shape m (Fin lo)) /\
  (forall hi, fit_hi m = Fin hi -> hi <= l ->
     shear m (Fin l) = shear m (Fin hi) /\ shape m (Fin l) = shape m (Fin hi)).
Proof.
  intros Elo Hhi. unfold shear, shape. rewrite Elo. split.
  - intros Hl. rewrite !check_range_low by (try exact Hhi; lra). split; reflexivity.
  - intros hi Ehi Hl. rewrite Ehi in *. cbn [xltb] in Hhi.
    assert (lo <= hi).
    { unfold Rltb in Hhi. destruct (Rlt_dec hi lo); [discriminate|lra]. }
    rewrite !check_range_high by lra. split; reflexivity.
Qed.

(* ------------------------------------------------------------------ *)
(** C21: arrays *)
Lemma check_range_arr_map lo hi l :
  (forall v, In v l -> xltb v lo = false) \/ (forall v, In v l -> xltb hi v = false) ->
  check_range_arr lo hi l = map (check_range lo hi) l.
Proof.
  intros H. unfold check_range_arr, check_range.
  destruct (existsb (fun v => xltb v lo) l) eqn:E1.
  - destruct H as [H|H].
    + apply existsb_exists in E1. destruct E1 as [v [Hv E]].
      rewrite (H v Hv) in E. discriminate.
    + apply map_ext_in. intros v Hv. destruct (xltb v lo); [reflexivity|].
      rewrite (H v Hv). reflexivity.
  - assert (H1 : forall v, In v l -> xltb v lo = false).
    { intros v Hv. destruct (xltb v lo) eqn:E; [|reflexivity].
      rewrite <- E1. symmetry. apply existsb_exists. exists v; auto. }
    destruct (existsb (fun v => xltb hi v) l) eqn:E2.
    + apply map_ext_in. intros v Hv. rewrite (H1 v Hv). reflexivity.
    + rewrite <- (map_id l) at 1. apply map_ext_in. intros v Hv. rewrite (H1 v Hv).
      destruct (xltb hi v) eqn:E; [|reflexivity].
      assert (existsb (fun v => xltb hi v) l = true) by (apply existsb_exists; exists v; auto).
      congruence.
Qed.

Lemma array_agrees_lemma m l :
  (forall v, In v l -> xltb v (fit_lo m) = false) \/
  (forall v, In v l -> xltb (fit_hi m) v = false) ->
  shear_arr m l = map (shear m) l /\ shape_arr m l = map (shape m) l /\
  shape_p_arr m l = map (shape_p m) l.
Proof.
  intros H. unfold shear_arr, shape_arr, shape_p_arr.
  rewrite (check_range_arr_map _ _ _ H), !map_map.
  split; [reflexivity|split; [reflexivity|]].
  unfold shape_p. destruct (fit_shape_p m); try rewrite map_map; reflexivity.
Qed.

Lemma array_mixed_lemma :
  exists (l : list xr), shape_arr fit_cb l <> map (shape fit_cb) l.
Proof.
  exists [Fin (-2/10); Fin (2/10)]. unfold shape_arr.
  replace (check_range_arr (fit_lo fit_cb) (fit_hi fit_cb) [Fin (-2/10); Fin (2/10)])
    with [Fin (-1/10); Fin (2/10)].
  2:{ unfold check_range_arr. cbn [fit_lo fit_cb existsb xltb map].
      rewrite Rltb_true by lra. cbn [orb]. rewrite Rltb_false by lra. reflexivity. }
  cbn [map fit_shape fit_cb]. intros E. injection E as _ E.
  unfold shape in E. cbn [fit_shape fit_cb fit_lo fit_hi] in E.
  rewrite check_range_high in E by lra. rewrite !cb_shape_pos in E by lra.
  injection E as E. unfold cbH_pos in E. lra.
Qed.

(** Elements of a mixed array above the range are passed on unclamped. *)
Lemma array_exact_lemma m l :
  shape_arr m l = (if existsb (fun v => xltb v (fit_lo m)) l
    then map (fun v => fit_shape m (if xltb v (fit_lo m) then fit_lo m else v)) l
    else map (shape m) l).
Proof.
  destruct (existsb (fun v => xltb v (fit_lo m)) l) eqn:E.
  - unfold shape_arr, check_range_arr. rewrite E, map_map. reflexivity.
  - apply array_agrees_lemma. left. intros v Hv.
    destruct (xltb v (fit_lo m)) eqn:E2; [|reflexivity].
    rewrite <- E. symmetry. apply existsb_exists. exists v; auto.
Qed.

(* ------------------------------------------------------------------ *)
(** C22: where the shear vanishes *)
Lemma white_shear_low l : l <= -9/100 -> shear fit_white (Fin l) = Fin 0.
Proof.
  intros H. unfold shear. cbn [fit_shear fit_white fit_lo fit_hi].
  rewrite check_range_low by (try reflexivity; exact H). apply white_shear_eval_sep.
Qed.
Lemma white_shear_in l : -9/100 < l ->
  shear fit_white (Fin l) = Fin (Rpower (l + 9/100) (62/100)).
Proof.
  intros H. unfold shear. cbn [fit_shear fit_white fit_lo fit_hi].
  rewrite check_range_inside_inf by lra. apply white_shear_eval. exact H.
Qed.

Lemma white_shear_lemma :
  (forall l, fin_le (Fin 0) (shear fit_white (Fin l))) /\
  (forall l, shear fit_white (Fin l) = Fin 0 <-> l <= -9/100) /\
  (forall a b, -9/100 <= a -> a < b ->
     fin_lt (shear fit_white (Fin a)) (shear fit_white (Fin b))).
Proof.
  assert (P : forall x y, 0 < Rpower x y) by (intros; apply exp_pos).
  split; [|split].
  - intros l. destruct (Rle_lt_dec l (-9/100)) as [H|H].
    + rewrite white_shear_low by exact H. exists 0, 0. repeat split; lra.
    + rewrite white_shear_in by exact H. do 2 eexists. repeat split. apply Rlt_le, P.
  - intros l. split.
    + intros E. destruct (Rle_lt_dec l (-9/100)) as [H|H]; [exact H|].
      rewrite white_shear_in in E by exact H. injection E as E.
      pose proof (P (l + 9/100) (62/100)). lra.
    + apply white_shear_low.
  - intros a b [Ha| <-] Hab.
    + rewrite !white_shear_in by lra. do 2 eexists. repeat split.
      unfold Rpower. apply exp_increasing. apply Rmult_lt_compat_l; [lra|].
      apply ln_increasing; lra.
    + rewrite white_shear_low by lra. rewrite white_shear_in by lra.
      do 2 eexists. repeat split. apply P.
Qed.

Lemma cbS_neg_incr a b : -107/1000 < a -> a < b -> cbS_neg a < cbS_neg b.
Proof.
  intros Ha Hab.
  assert (E : cbS_neg b - cbS_neg a
    = (b - a) * (1402/1000 + 1926/1000000 / ((107/1000 + a) * (107/1000 + b)))).
  { unfold cbS_neg. field. lra. }
  assert (0 < 1926/1000000 / ((107/1000 + a) * (107/1000 + b))).
  { apply Rdiv_lt_0_compat; [lra|]. apply Rmult_lt_0_compat; lra. }
  assert (0 < (b - a) * (1402/1000 + 1926/1000000 / ((107/1000 + a) * (107/1000 + b)))).
  { apply Rmult_lt_0_compat; lra. }
  lra.
Qed.

Lemma cb_shear_sep_lemma :
  exists r, -900/10000 < r < -898/10000 /\
    shear fit_cb (Fin r) = Fin 0 /\
    (forall l, l < r -> exists v, shear fit_cb (Fin l) = Fin v /\ v < 0) /\
    (forall l, r < l -> finite_pos (shear fit_cb (Fin l))).
Proof.
  destruct (Ranalysis5.IVT_interv cbS_neg (-900/10000) (-898/10000)) as [r [Hr Er]].
  - intros x Hx. apply continuity_pt_filterlim. apply cbS_neg_cont. lra.
  - lra.
  - unfold cbS_neg. lra.
  - unfold cbS_neg. lra.
  - assert (r <> -900/10000) by (intros ->; unfold cbS_neg in Er; lra).
    assert (r <> -898/10000) by (intros ->; unfold cbS_neg in Er; lra).
    exists r. split; [lra|]. split; [|split].
    + rewrite cb_shear_inside by lra. destruct (Rlt_dec r 0); [f_equal; exact Er|lra].
    + intros l Hl. destruct (Rle_lt_dec (-1/10) l) as [H1|H1].
      * exists (cbS_neg l). split.
        -- rewrite cb_shear_inside by lra. destruct (Rlt_dec l 0); [reflexivity|lra].
        -- rewrite <- Er. apply cbS_neg_incr; lra.
      * exists (cbS_neg (-1/10)). split.
        -- unfold shear. cbn [fit_shear fit_cb fit_lo fit_hi].
           rewrite check_range_low; [|lra|cbn [xltb]; apply Rltb_false; lra].
           apply cb_shear_neg. lra.
        -- unfold cbS_neg. lra.
    + intros l Hl. assert (Q : forall x, 0 <= x <= 1/10 -> 0 < cbS_pos x)
        by (intros x Hx; unfold cbS_pos; nra).
      destruct (Rle_lt_dec l (1/10)) as [H1|H1].
      * rewrite cb_shear_inside by lra. eexists. split; [reflexivity|].
        destruct (Rlt_dec l 0); [rewrite <- Er; apply cbS_neg_incr; lra|apply Q; lra].
      * exists (cbS_pos (1/10)). split; [|apply Q; lra].
        unfold shear. cbn [fit_shear fit_cb fit_lo fit_hi].
        rewrite check_range_high by lra. apply cb_shear_pos. lra.
Qed.

(* ------------------------------------------------------------------ *)
(** C23: Drela's shear never vanishes for parameters up to 0.6 *)
Lemma drelaS_pos l : -9/100 <= l <= 6/10 -> 0 < drelaS l.
Proof. intros H. unfold drelaS. interval with (i_bisect l, i_autodiff l, i_prec 40). Qed.

Lemma drela_shear_lemma l : l <= 6/10 -> finite_pos (shear fit_drela (Fin l)).
Proof.
  intros H. unfold shear. cbn [fit_shear fit_drela fit_lo fit_hi].
  destruct (Rle_lt_dec (-9/100) l) as [H1|H1].
  - rewrite check_range_inside_inf, drela_shear_eval by lra.
    eexists; split; [reflexivity|apply drelaS_pos; lra].
  - rewrite check_range_low, drela_shear_eval by (try reflexivity; lra).
    eexists; split; [reflexivity|apply drelaS_pos; lra].
Qed.

Lemma drela_shear_spurious : exists v, shear fit_drela (Fin (7/10)) = Fin v /\ v < 0.
Proof.
  unfold shear. cbn [fit_shear fit_drela fit_lo fit_hi].
  rewrite check_range_inside_inf, drela_shear_eval by lra.
  eexists; split; [reflexivity|]. unfold drelaS. lra.
Qed.

(* ------------------------------------------------------------------ *)
(** * Statements assembled for the property file *)

Lemma xderiv_xcontinuous g x d : xderiv g x d -> xcontinuous g x.
Proof.
  intros [gR [L D]]. exists gR. split; [exact L|].
  apply (ex_derive_continuous gR). exists d. exact D.
Qed.

Lemma fit_derivative_reported_lemma l d :
  (-9/100 < l -> xderiv (shape fit_white) l d -> shape_p fit_white (Fin l) = Fin d) /\
  (-1/10 < l < 1/10 -> xderiv (shape fit_cb) l d -> shape_p fit_cb (Fin l) = Fin d) /\
  (-9/100 < l -> xderiv (shape fit_drela) l d -> shape_p fit_drela (Fin l) = Fin d).
Proof.
  split; [|split].
  - intros H D. destruct (white_deriv_lemma l H) as [d' [E D']].
    rewrite (xderiv_unique _ _ _ _ D D'). exact E.
  - intros H D. destruct (Req_EM_T l 0) as [->|Hl].
    + exfalso. apply xderiv_xcontinuous in D. apply (proj2 (proj2 (proj2 cb_jump_lemma))). exact D.
    + destruct (cb_deriv_lemma l H Hl) as [d' [E D']].
      rewrite (xderiv_unique _ _ _ _ D D'). exact E.
  - intros H D. destruct (drela_deriv_lemma l H) as [d' [E D']].
    rewrite (xderiv_unique _ _ _ _ D D'). exact E.
Qed.

(** scipy's CubicSpline, assumed only to interpolate and to return a derivative. *)
Definition spline_interpolates (cs : list R -> list R -> (xr -> xr) * (xr -> xr)) : Prop :=
  forall xs ys i x y, StronglySorted Rlt xs ->
    nth_error xs i = Some x -> nth_error ys i = Some y ->
    fst (cs xs ys) (Fin x) = Fin y.
Definition spline_differentiates (cs : list R -> list R -> (xr -> xr) * (xr -> xr)) : Prop :=
  forall xs ys a b x, head xs = Some a -> last xs 0 = b -> a < x < b ->
    exists d, snd (cs xs ys) (Fin x) = Fin d /\ xderiv (fst (cs xs ys)) x d.

Lemma tab_lambda_sorted : StronglySorted Rlt tab_lambda.
Proof. unfold tab_lambda. repeat constructor; lra. Qed.

(** Table lookup meets the interpolation contract. *)
Fixpoint table_lookup (xs ys : list R) (x : R) : R :=
  match xs, ys with
  | a :: xs', b :: ys' => if Req_EM_T a x then b else table_lookup xs' ys' x
  | _, _ => 0
  end.
Lemma spline_interpolates_witness : spline_interpolates (fun xs ys =>
  (fun v => match v with Fin x => Fin (table_lookup xs ys x) | _ => NaN end, fun _ => NaN)).
Proof.
  intros xs ys i x y H. revert ys i. induction H as [|a xs HS IH Ha]; intros ys i Hx Hy.
  - destruct i; discriminate.
  - destruct ys as [|b ys]; [destruct i; discriminate|]. cbn [fst table_lookup].
    destruct i as [|i]; cbn in Hx, Hy.
    + injection Hx as ->. injection Hy as ->. destruct (Req_EM_T x x); [reflexivity|lra].
    + destruct (Req_EM_T a x) as [->|_]; [|apply (IH ys i Hx Hy)].
      exfalso. apply nth_error_In in Hx. rewrite Forall_forall in Ha.
      specialize (Ha x Hx). lra.
Qed.

Lemma spline_separation_lemma cs l : spline_interpolates cs -> l <= -9/100 ->
  shear (fit_spline cs) (Fin l) = Fin 0 /\ shape (fit_spline cs) (Fin l) = Fin (355/100).
Proof.
  intros H Hl. unfold shear, shape. cbn [fit_shear fit_shape fit_spline fit_lo fit_hi].
  rewrite !check_range_low by (try (cbn [xltb]; apply Rltb_false); lra). split.
  - replace (-90/1000) with (IZR (-90) / 1000) by (cbn; lra).
    rewrite (H tab_lambda tab_shear 0%nat (IZR (-90)/1000) (IZR 0/1000)) by (try exact tab_lambda_sorted; reflexivity).
    f_equal. lra.
  - replace (-90/1000) with (IZR (-90) / 1000) by (cbn; lra).
    apply (H tab_lambda tab_shape 0%nat (IZR (-90)/1000) (IZR 355/100)); try exact tab_lambda_sorted; reflexivity.
Qed.

Lemma spline_derivative_lemma cs l : spline_differentiates cs -> -9/100 < l < 25/100 ->
  exists d, shape_p (fit_spline cs) (Fin l) = Fin d /\ xderiv (shape (fit_spline cs)) l d.
Proof.
  intros H Hl.
  destruct (H tab_lambda tab_shape (-90/1000) (250/1000) l) as [d [E D]];
    [reflexivity|cbn; lra|lra|].
  exists d. split.
  - unfold shape_p. cbn [fit_shape_p fit_spline fit_lo fit_hi].
    rewrite check_range_inside by lra. exact E.
  - destruct D as [gR [L D]]. exists gR. split; [|exact D].
    generalize (filter_and _ _ L (locally_between (-9/100) (25/100) l Hl)).
    apply filter_imp. intros y [Hy1 Hy2]. unfold shape.
    cbn [fit_shape fit_spline fit_lo fit_hi]. rewrite check_range_inside by lra. exact Hy1.
Qed.


Lemma separation_detected_lemma cs : spline_interpolates cs ->
  (forall l, l <= -9/100 -> shear (fit_spline cs) (Fin l) = Fin 0) /\
  (forall l, l <= -9/100 -> shear fit_white (Fin l) = Fin 0) /\
  (forall l, l <= -9/100 -> exists v, shear fit_cb (Fin l) = Fin v /\ v < 0).
Proof.
  intros H. split; [|split].
  - intros l Hl. apply spline_separation_lemma; assumption.
  - apply white_shear_low.
  - intros l Hl. destruct cb_shear_sep_lemma as [r [Hr [_ [Hn _]]]]. apply Hn. lra.
Qed.
