(** Proofs about ibl/head_method.py's relations (C32-C34, C37). *)
From Coq Require Import Reals Lra Bool.
From Coquelicot Require Import Coquelicot.
From Interval Require Import Tactic.
From Verif Require Import PyBase PyBaseFacts XDeriv SkinFrictionModel HeadModel.
Open Scope R_scope.

Definition branch (a b c d h : R) : R := d + a / Rpower (h - b) c.
Definition branch_p (a b c h : R) : R := - a * c / Rpower (h - b) (c + 1).

Lemma Rpower_pos x y : 0 < Rpower x y.
Proof. apply exp_pos. Qed.
Lemma Rpower_nz x y : Rpower x y <> 0.
Proof. apply Rgt_not_eq, exp_pos. Qed.

Lemma entr_branch_fin a b c d h : b < h ->
  entr_branch a b c d (Fin h) = Fin (branch a b c d h).
Proof.
  intros H. unfold entr_branch, branch. rewrite xsub_fin, xpow_fin by lra.
  rewrite xdiv_fin by apply Rpower_nz. apply xadd_fin.
Qed.
Lemma entr_p_branch_fin a b c h : b < h ->
  entr_p_branch a b c (Fin h) = Fin (branch_p a b c h).
Proof.
  intros H. unfold entr_p_branch, branch_p. rewrite xsub_fin, xpow_fin by lra.
  rewrite xdiv_fin by apply Rpower_nz. reflexivity.
Qed.

Lemma guard_gt h : 11/10 < h -> entr_guard (Fin h) = Fin h.
Proof. intros H. unfold entr_guard. cbn [xleb]. rewrite Rleb_false by lra. reflexivity. Qed.
Lemma guard_le h : h <= 11/10 -> entr_guard (Fin h) = Fin (11001/10000).
Proof. intros H. unfold entr_guard. cbn [xleb]. rewrite Rleb_true by lra. reflexivity. Qed.

Lemma pw_lo c f g v : v <= c -> piecewise_le (Fin c) f g (Fin v) = f (Fin v).
Proof. intros H. unfold piecewise_le. cbn [xleb]. rewrite Rleb_true by lra. reflexivity. Qed.
Lemma pw_hi c f g v : c < v -> piecewise_le (Fin c) f g (Fin v) = g (Fin v).
Proof.
  intros H. unfold piecewise_le. cbn [xleb xltb]. rewrite Rleb_false, Rltb_true by lra.
  reflexivity.
Qed.

Lemma entr_lo h : 11/10 < h <= 16/10 ->
  shape_entrainment (Fin h) = Fin (branch lo_a lo_b lo_c lo_d h).
Proof.
  intros H. unfold shape_entrainment. rewrite guard_gt, pw_lo by lra.
  apply entr_branch_fin. unfold lo_b; lra.
Qed.
Lemma entr_hi h : 16/10 < h ->
  shape_entrainment (Fin h) = Fin (branch hi_a hi_b hi_c hi_d h).
Proof.
  intros H. unfold shape_entrainment. rewrite guard_gt, pw_hi by lra.
  apply entr_branch_fin. unfold hi_b; lra.
Qed.
Lemma entr_below h : h <= 11/10 ->
  shape_entrainment (Fin h) = Fin (branch lo_a lo_b lo_c lo_d (11001/10000)).
Proof.
  intros H. unfold shape_entrainment. rewrite guard_le, pw_lo by lra.
  apply entr_branch_fin. unfold lo_b; lra.
Qed.
Lemma entr_p_lo h : 11/10 < h <= 16/10 ->
  shape_entrainment_p (Fin h) = Fin (branch_p lo_a lo_b lo_c h).
Proof.
  intros H. unfold shape_entrainment_p. rewrite guard_gt, pw_lo by lra.
  apply entr_p_branch_fin. unfold lo_b; lra.
Qed.
Lemma entr_p_hi h : 16/10 < h ->
  shape_entrainment_p (Fin h) = Fin (branch_p hi_a hi_b hi_c h).
Proof.
  intros H. unfold shape_entrainment_p. rewrite guard_gt, pw_hi by lra.
  apply entr_p_branch_fin. unfold hi_b; lra.
Qed.

Lemma branch_derive a b c d h : b < h ->
  is_derive (branch a b c d) h (branch_p a b c h).
Proof.
  intros H. unfold branch, branch_p, Rpower.
  auto_derive.
  - split; [lra|]. split; [apply Rgt_not_eq, exp_pos|exact I].
  - replace (h + - b) with (h - b) by ring.
    replace (exp ((c + 1) * ln (h - b))) with (exp (c * ln (h - b)) * (h - b)).
    2:{ replace ((c + 1) * ln (h - b)) with (c * ln (h - b) + ln (h - b)) by ring.
        rewrite exp_plus, exp_ln by lra. reflexivity. }
    assert (exp (c * ln (h - b)) <> 0) by (apply Rgt_not_eq, exp_pos).
    field. split; [lra|assumption].
Qed.

(** ** C32 *)
Lemma entrainment_derivative_lemma h : 11/10 < h -> h <> 16/10 ->
  exists d, shape_entrainment_p (Fin h) = Fin d /\ d < 0 /\ xderiv shape_entrainment h d.
Proof.
  intros H Hn. destruct (Rlt_or_le h (16/10)) as [L|L].
  - exists (branch_p lo_a lo_b lo_c h). split; [apply entr_p_lo; lra|]. split.
    + unfold branch_p. assert (0 < Rpower (h - lo_b) (lo_c + 1)) by apply Rpower_pos.
      assert (- lo_a * lo_c < 0) by (unfold lo_a, lo_c; lra).
      apply Ropp_lt_cancel. rewrite Ropp_0.
      replace (- (- lo_a * lo_c / Rpower (h - lo_b) (lo_c + 1)))
        with ((lo_a * lo_c) / Rpower (h - lo_b) (lo_c + 1)) by (field; apply Rpower_nz).
      apply Rdiv_lt_0_compat; [lra|assumption].
    + exists (branch lo_a lo_b lo_c lo_d). split.
      * generalize (locally_between (11/10) (16/10) h (conj H L)). apply filter_imp.
        intros y Hy. apply entr_lo; lra.
      * apply branch_derive. unfold lo_b; lra.
  - exists (branch_p hi_a hi_b hi_c h). split; [apply entr_p_hi; lra|]. split.
    + unfold branch_p. assert (0 < Rpower (h - hi_b) (hi_c + 1)) by apply Rpower_pos.
      apply Ropp_lt_cancel. rewrite Ropp_0.
      replace (- (- hi_a * hi_c / Rpower (h - hi_b) (hi_c + 1)))
        with ((hi_a * hi_c) / Rpower (h - hi_b) (hi_c + 1)) by (field; apply Rpower_nz).
      apply Rdiv_lt_0_compat; [unfold hi_a, hi_c; lra|assumption].
    + exists (branch hi_a hi_b hi_c hi_d). split.
      * assert (L' : 16/10 < h) by lra. generalize (locally_gt _ _ L'). apply filter_imp.
        intros y Hy. apply entr_hi; lra.
      * apply branch_derive. unfold hi_b; lra.
Qed.

Definition jump := branch hi_a hi_b hi_c hi_d (16/10) - branch lo_a lo_b lo_c lo_d (16/10).
Lemma jump_bounds : 0 < jump < 1/10^15.
Proof.
  unfold jump, branch, hi_a, hi_b, hi_c, hi_d, lo_a, lo_b, lo_c, lo_d, Rpower.
  split; interval with (i_prec 100).
Qed.

Lemma branch_decr a b c d h1 h2 : 0 < a -> 0 < c -> b < h1 -> h1 < h2 ->
  branch a b c d h2 < branch a b c d h1.
Proof.
  intros Ha Hc H1 H2. unfold branch.
  apply Rplus_lt_compat_l. apply Rmult_lt_compat_l; [assumption|].
  apply Rinv_lt_contravar.
  - apply Rmult_lt_0_compat; apply Rpower_pos.
  - unfold Rpower. apply exp_increasing. apply Rmult_lt_compat_l; [assumption|].
    apply ln_increasing; lra.
Qed.
Lemma branch_gt a b c d h : 0 < a -> d < branch a b c d h.
Proof.
  intros H. unfold branch. assert (0 < a / Rpower (h - b) c).
  { apply Rdiv_lt_0_compat; [assumption|apply Rpower_pos]. } lra.
Qed.

Definition inv_branch (a b c d y : R) : R := b + Rpower (a / (y - d)) (1 / c).
Lemma inv_branch_fin a b c d y : 0 < a -> d < y ->
  entr_inv_branch a b c d (Fin y) = Fin (inv_branch a b c d y).
Proof.
  intros Ha Hy. unfold entr_inv_branch, inv_branch.
  rewrite xsub_fin, xdiv_fin by lra.
  rewrite xpow_fin by (apply Rdiv_lt_0_compat; lra). apply xadd_fin.
Qed.
Lemma inv_of_branch a b c d h : 0 < a -> c <> 0 -> b < h ->
  inv_branch a b c d (branch a b c d h) = h.
Proof.
  intros Ha Hc Hh. unfold inv_branch, branch.
  assert (N := Rpower_nz (h - b) c).
  replace (a / (d + a / Rpower (h - b) c - d)) with (Rpower (h - b) c)
    by (field; split; [assumption|lra]).
  rewrite Rpower_mult. replace (c * (1 / c)) with 1 by (field; assumption).
  rewrite Rpower_1 by lra. ring.
Qed.
Lemma branch_of_inv a b c d y : 0 < a -> c <> 0 -> d < y ->
  branch a b c d (inv_branch a b c d y) = y.
Proof.
  intros Ha Hc Hy. unfold inv_branch, branch.
  replace (b + Rpower (a / (y - d)) (1 / c) - b) with (Rpower (a / (y - d)) (1 / c)) by ring.
  rewrite Rpower_mult. replace (1 / c * c) with 1 by (field; assumption).
  rewrite Rpower_1 by (apply Rdiv_lt_0_compat; lra).
  field. split; lra.
Qed.
Lemma inv_branch_gt a b c d y : b < inv_branch a b c d y.
Proof. unfold inv_branch. assert (P := Rpower_pos (a / (y - d)) (1 / c)). lra. Qed.

Definition y16 := branch lo_a lo_b lo_c lo_d (16/10).
Lemma entr_16 : shape_entrainment (Fin (16/10)) = Fin y16.
Proof. apply entr_lo; lra. Qed.
Lemma y16_bounds : lo_d < y16.
Proof. apply branch_gt. unfold lo_a; lra. Qed.
Lemma hi_d_y16 : hi_d < y16.
Proof. unfold y16, branch, hi_d, lo_a, lo_b, lo_c, lo_d, Rpower. interval. Qed.

Lemma hi_near_16 : branch hi_a hi_b hi_c hi_d (16/10 + 1/10^14) <= y16.
Proof.
  unfold y16, branch, hi_a, hi_b, hi_c, hi_d, lo_a, lo_b, lo_c, lo_d, Rpower.
  interval with (i_prec 100).
Qed.

Lemma shape_d_hi y : hi_d < y -> y <= y16 ->
  shape_d_of_entrainment (Fin y) = Fin (inv_branch hi_a hi_b hi_c hi_d y).
Proof.
  intros H1 H2. unfold shape_d_of_entrainment. cbn [xleb]. rewrite Rleb_false by assumption.
  rewrite entr_16. cbv zeta. rewrite pw_lo by assumption. apply inv_branch_fin; [unfold hi_a; lra|lra].
Qed.
Lemma shape_d_lo y : y16 < y ->
  shape_d_of_entrainment (Fin y) = Fin (inv_branch lo_a lo_b lo_c lo_d y).
Proof.
  intros H1. assert (D := hi_d_y16). assert (L := y16_bounds).
  unfold shape_d_of_entrainment. cbn [xleb]. rewrite Rleb_false by lra.
  rewrite entr_16. cbv zeta. rewrite pw_hi by assumption. apply inv_branch_fin; [unfold lo_a; lra|lra].
Qed.

(** ** C33 *)
Lemma inverse_left_lemma h : 11/10 < h -> h < 16/10 \/ 16/10 + 1/10^14 <= h ->
  shape_d_of_entrainment (shape_entrainment (Fin h)) = Fin h.
Proof.
  intros H [L|L].
  - rewrite entr_lo by lra. rewrite shape_d_lo.
    + rewrite inv_of_branch; [reflexivity|unfold lo_a; lra|unfold lo_c; lra|unfold lo_b; lra].
    + apply branch_decr; unfold lo_a, lo_b, lo_c; lra.
  - rewrite entr_hi by lra.
    assert (D : branch hi_a hi_b hi_c hi_d h <= y16).
    { apply Rle_trans with (2 := hi_near_16). destruct L as [L|L].
      - left. apply branch_decr; unfold hi_a, hi_b, hi_c; lra.
      - rewrite L. apply Rle_refl. }
    rewrite shape_d_hi; [|apply branch_gt; unfold hi_a; lra|assumption].
    rewrite inv_of_branch; [reflexivity|unfold hi_a; lra|unfold hi_c; lra|unfold hi_b; lra].
Qed.

Lemma inverse_right_lemma y : hi_d < y ->
  exists h, shape_d_of_entrainment (Fin y) = Fin h /\ 11/10 < h /\ shape_entrainment (Fin h) = Fin y.
Proof.
  intros H. assert (J := jump_bounds). unfold jump in J. fold y16 in J.
  destruct (Rle_or_lt y y16) as [L|L].
  - exists (inv_branch hi_a hi_b hi_c hi_d y). split; [apply shape_d_hi; assumption|].
    assert (G : 16/10 < inv_branch hi_a hi_b hi_c hi_d y).
    { apply Rnot_le_lt. intros C.
      assert (E : branch hi_a hi_b hi_c hi_d (inv_branch hi_a hi_b hi_c hi_d y) = y)
        by (apply branch_of_inv; [unfold hi_a; lra|unfold hi_c; lra|assumption]).
      assert (branch hi_a hi_b hi_c hi_d (16/10)
              <= branch hi_a hi_b hi_c hi_d (inv_branch hi_a hi_b hi_c hi_d y)).
      { destruct C as [C|C].
        - left. apply branch_decr; [unfold hi_a; lra|unfold hi_c; lra|apply inv_branch_gt|exact C].
        - rewrite C. apply Rle_refl. }
      lra. }
    split; [lra|]. rewrite entr_hi by exact G. f_equal.
    apply branch_of_inv; [unfold hi_a; lra|unfold hi_c; lra|assumption].
  - exists (inv_branch lo_a lo_b lo_c lo_d y). split; [apply shape_d_lo; assumption|].
    assert (B := y16_bounds).
    assert (G1 : lo_b < inv_branch lo_a lo_b lo_c lo_d y) by apply inv_branch_gt.
    unfold lo_b in G1 at 1.
    assert (E : branch lo_a lo_b lo_c lo_d (inv_branch lo_a lo_b lo_c lo_d y) = y)
      by (apply branch_of_inv; [unfold lo_a; lra|unfold lo_c; lra|lra]).
    assert (G : inv_branch lo_a lo_b lo_c lo_d y < 16/10).
    { apply Rnot_le_lt. intros [C|C].
      - assert (branch lo_a lo_b lo_c lo_d (inv_branch lo_a lo_b lo_c lo_d y) < y16)
          by (apply branch_decr; [unfold lo_a; lra|unfold lo_c; lra|unfold lo_b; lra|exact C]).
        lra.
      - rewrite <- C in E. fold y16 in E. lra. }
    split; [lra|]. rewrite entr_lo by lra. rewrite E. reflexivity.
Qed.

(** ** C34 *)
Lemma entr_vel_fin y : 3 < y ->
  entrainment_velocity (Fin y) = Fin (306/10000 / Rpower (y - 3) (6169/10000)).
Proof.
  intros H. unfold entrainment_velocity. cbn [xleb]. rewrite Rleb_false by assumption.
  cbv zeta. rewrite xsub_fin, xpow_fin by lra. apply xdiv_fin, Rpower_nz.
Qed.
Lemma entr_vel_low y : y <= 3 ->
  entrainment_velocity (Fin y) = Fin (306/10000 / Rpower (3001/1000 - 3) (6169/10000)).
Proof.
  intros H. unfold entrainment_velocity. cbn [xleb]. rewrite Rleb_true by assumption.
  cbv zeta. rewrite xsub_fin, xpow_fin by lra. apply xdiv_fin, Rpower_nz.
Qed.
Lemma entr_vel_pos y : finite_pos (entrainment_velocity (Fin y)).
Proof.
  destruct (Rle_or_lt y 3) as [H|H].
  - rewrite entr_vel_low by assumption. eexists; split; [reflexivity|]. apply Rdiv_lt_0_compat; [lra|apply Rpower_pos].
  - rewrite entr_vel_fin by assumption. eexists; split; [reflexivity|]. apply Rdiv_lt_0_compat; [lra|apply Rpower_pos].
Qed.
Lemma entr_vel_decr y1 y2 : 3 < y1 -> y1 < y2 ->
  fin_lt (entrainment_velocity (Fin y2)) (entrainment_velocity (Fin y1)).
Proof.
  intros H1 H2. rewrite !entr_vel_fin by lra.
  assert (B := branch_decr (306/10000) 3 (6169/10000) 0 y1 y2).
  unfold branch in B. do 2 eexists; split; [reflexivity|]; split; [reflexivity|].
  assert (0 + 306 / 10000 / Rpower (y2 - 3) (6169 / 10000)
    < 0 + 306 / 10000 / Rpower (y1 - 3) (6169 / 10000)) by (apply B; lra).
  lra.
Qed.
(** The values the method feeds in (H1 of a shape factor) are always above 3, and the
    entrainment grows with the shape factor on each branch. *)
Lemma entr_range h : exists y, shape_entrainment (Fin h) = Fin y /\ hi_d < y.
Proof.
  destruct (Rle_or_lt h (11/10)) as [A|A].
  - exists (branch lo_a lo_b lo_c lo_d (11001/10000)). split; [apply entr_below; assumption|].
    assert (D := hi_d_y16). apply Rlt_trans with (1 := D). unfold y16.
    apply branch_decr; unfold lo_a, lo_b, lo_c; lra.
  - destruct (Rle_or_lt h (16/10)) as [L|L].
    + exists (branch lo_a lo_b lo_c lo_d h). split; [apply entr_lo; lra|].
      assert (D := hi_d_y16). apply Rlt_le_trans with (1 := D). unfold y16.
      destruct L as [L|L]; [|rewrite L; apply Rle_refl].
      left; apply branch_decr; unfold lo_a, lo_b, lo_c; lra.
    + exists (branch hi_a hi_b hi_c hi_d h). split; [apply entr_hi; assumption|].
      apply branch_gt. unfold hi_a; lra.
Qed.

(** ** C37 *)
Lemma guard_same r : - (1/1000) < r ->
  ode_u_guard (VFloat (Fin r)) = ode_u_guard (VArray (Fin r)).
Proof.
  intros H. unfold ode_u_guard. cbn [xabs xltb].
  destruct (Rlt_or_le r (1/1000)) as [A|A].
  - rewrite Rltb_true by exact A. rewrite Rltb_true; [reflexivity|].
    apply Rabs_def1; lra.
  - rewrite Rltb_false by exact A. rewrite Rltb_false; [reflexivity|].
    rewrite Rabs_pos_eq by lra. exact A.
Qed.
Lemma entr_range3 h : exists y, shape_entrainment (Fin h) = Fin y /\ 3 < y.
Proof.
  destruct (entr_range h) as [y [E L]]. exists y. split; [exact E|]. unfold hi_d in L. lra.
Qed.

(** Values below the invertible range count as 3.323, values of the shape factor at or below
    1.1 as 1.1001. *)
Lemma below_range_lemma :
  (forall y, y <= hi_d -> exists h, shape_d_of_entrainment (Fin y) = Fin h /\
     shape_entrainment (Fin h) = Fin (3323/1000)) /\
  (forall h, h <= 11/10 -> shape_entrainment (Fin h) = shape_entrainment (Fin (11001/10000)) /\
     shape_entrainment_p (Fin h) = shape_entrainment_p (Fin (11001/10000))).
Proof.
  split.
  - intros y Hy. destruct (inverse_right_lemma (3323/1000)) as [h [E [_ E']]]; [unfold hi_d; lra|].
    exists h. split; [|exact E']. rewrite <- E. unfold shape_d_of_entrainment. cbn [xleb].
    rewrite (proj2 (Rleb_iff y hi_d)) by exact Hy.
    rewrite (Rleb_false (3323/1000) hi_d) by (unfold hi_d; lra). reflexivity.
  - intros h Hh. unfold shape_entrainment, shape_entrainment_p, entr_guard. cbn [xleb].
    rewrite (proj2 (Rleb_iff h (11/10))) by exact Hh.
    rewrite (Rleb_false (11001/10000) (11/10)) by lra. split; reflexivity.
Qed.

Lemma entr_vel_formula_lemma :
  (forall y, 3 < y -> entrainment_velocity (Fin y)
     = Fin (306/10000 * Rpower (y - 3) (-6169/10000))) /\
  (forall y, y <= 3 -> entrainment_velocity (Fin y)
     = Fin (306/10000 * Rpower (1/1000) (-6169/10000))).
Proof.
  assert (G : forall y, 3 < y -> entrainment_velocity (Fin y)
     = Fin (306/10000 * Rpower (y - 3) (-6169/10000))).
  { intros y Hy. unfold entrainment_velocity. cbn [xleb]. rewrite Rleb_false by lra.
    rewrite xsub_fin, xpow_fin by lra. rewrite xdiv_fin.
    - f_equal. replace (-6169/10000) with (- (6169/10000)) by lra. rewrite Rpower_Ropp. reflexivity.
    - apply Rgt_not_eq. apply exp_pos. }
  split; [exact G|]. intros y Hy. specialize (G (3001/1000) ltac:(lra)).
  replace (3001/1000 - 3) with (1/1000) in G by lra. rewrite <- G.
  unfold entrainment_velocity. cbn [xleb].
  rewrite (proj2 (Rleb_iff y 3)) by exact Hy. rewrite (Rleb_false (3001/1000) 3) by lra. reflexivity.
Qed.
