From Coq Require Import Reals Lra.
From Interval Require Import Tactic.
From Verif Require Import PyBase PyBaseFacts SkinFrictionModel.
Open Scope R_scope.

(** Closed forms on finite arguments. *)
Definition log10 (x : R) : R := ln x / ln 10.
Definition clip (x lo hi : R) : R := Rmin (Rmax x lo) hi.
Definition lt_R (re h : R) : R :=
  (246/1000) / (Rpower re (268/1000) * Rpower 10 (678/1000 * h)).
Definition felsch_base (h : R) : R :=
  93/100 - 195/100 * log10 (clip h 1 felsch_shape_d_sep).
Definition felsch_R (re h : R) : R :=
  58/1000 * Rpower (felsch_base h) (1705/1000) / Rpower re (268/1000).
Definition white_R (re h : R) : R :=
  3/10 * exp (- (133/100) * h) / Rpower (log10 re) (174/100 + 31/100 * h).

Lemma Rpower_pos x y : 0 < Rpower x y.
Proof. unfold Rpower; apply exp_pos. Qed.

(** Strict monotonicity of [Rpower] in the base, for a positive exponent. *)
Lemma Rpower_lt_base a b y : 0 < y -> 0 < a -> a < b -> Rpower a y < Rpower b y.
Proof.
  intros Hy Ha Hab. unfold Rpower. apply exp_increasing.
  apply Rmult_lt_compat_l; [exact Hy|]. apply ln_increasing; assumption.
Qed.

Lemma Rpower_le_base a b y : 0 <= y -> 0 < a -> a <= b -> Rpower a y <= Rpower b y.
Proof. intros Hy Ha Hab. apply Rle_Rpower_l; [exact Hy| split; assumption]. Qed.

Lemma ln10_pos : 0 < ln 10.
Proof. rewrite <- ln_1. apply ln_increasing; lra. Qed.

Lemma log10_pos x : 1 < x -> 0 < log10 x.
Proof.
  intros H. unfold log10. apply Rdiv_lt_0_compat; [|apply ln10_pos].
  rewrite <- ln_1. apply ln_increasing; lra.
Qed.

Lemma log10_lt a b : 0 < a -> a < b -> log10 a < log10 b.
Proof.
  intros Ha Hab. unfold log10. apply Rmult_lt_compat_r.
  - apply Rinv_0_lt_compat, ln10_pos.
  - apply ln_increasing; assumption.
Qed.

Lemma log10_10 : log10 10 = 1.
Proof. unfold log10. field. apply Rgt_not_eq, ln10_pos. Qed.

Lemma clip_bounds x lo hi : lo <= hi -> lo <= clip x lo hi <= hi.
Proof.
  intros H. unfold clip. split.
  - apply Rmin_glb; [apply Rmax_r | exact H].
  - apply Rmin_r.
Qed.

Lemma clip_inside x lo hi : lo <= x <= hi -> clip x lo hi = x.
Proof. intros [H1 H2]. unfold clip. rewrite Rmax_left, Rmin_left; lra. Qed.

Lemma clip_low x lo hi : x <= lo -> lo <= hi -> clip x lo hi = lo.
Proof. intros H1 H2. unfold clip. rewrite Rmax_right, Rmin_left; lra. Qed.

Lemma clip_high x lo hi : hi <= x -> lo <= hi -> clip x lo hi = hi.
Proof. intros H1 H2. unfold clip. rewrite Rmax_left, Rmin_right; lra. Qed.

Lemma clip_le a b lo hi : a <= b -> clip a lo hi <= clip b lo hi.
Proof.
  intros H. unfold clip. apply Rle_min_compat_r. apply Rle_max_compat_r. exact H.
Qed.

Lemma sep_ge_1 : 1 <= felsch_shape_d_sep.
Proof. unfold felsch_shape_d_sep; lra. Qed.

(** 0.93 - 1.95*log10(2.9986313485) is about 2.1e-11: tiny, but positive. *)
Lemma felsch_base_at_sep : 0 < 93/100 - 195/100 * log10 felsch_shape_d_sep.
Proof. unfold log10, felsch_shape_d_sep. interval with (i_prec 80). Qed.

Lemma felsch_base_at_sep_small :
  93/100 - 195/100 * log10 felsch_shape_d_sep < 3 / 10^11.
Proof. unfold log10, felsch_shape_d_sep. interval with (i_prec 80). Qed.

Lemma felsch_base_pos h : 0 < felsch_base h.
Proof.
  unfold felsch_base.
  pose proof (clip_bounds h 1 felsch_shape_d_sep sep_ge_1) as [H1 H2].
  pose proof felsch_base_at_sep as H3.
  destruct (Rle_lt_or_eq_dec _ _ H2) as [H|H].
  - pose proof (log10_lt (clip h 1 felsch_shape_d_sep) felsch_shape_d_sep) as L. lra.
  - rewrite H. exact H3.
Qed.

Lemma felsch_base_antitone a b : a <= b -> felsch_base b <= felsch_base a.
Proof.
  intros H. unfold felsch_base.
  pose proof (clip_bounds a 1 felsch_shape_d_sep sep_ge_1) as [Ha1 Ha2].
  pose proof (clip_le a b 1 felsch_shape_d_sep H) as [L|E].
  - pose proof (log10_lt (clip a 1 felsch_shape_d_sep) (clip b 1 felsch_shape_d_sep)) as G.
    lra.
  - rewrite E. lra.
Qed.

Lemma felsch_base_strict a b :
  1 <= a -> a < b -> b <= felsch_shape_d_sep -> felsch_base b < felsch_base a.
Proof.
  intros H1 H2 H3. unfold felsch_base.
  rewrite (clip_inside a), (clip_inside b) by lra.
  pose proof (log10_lt a b). lra.
Qed.

(* --- positivity --- *)
Lemma lt_pos re h : 0 < lt_R re h.
Proof.
  unfold lt_R. apply Rdiv_lt_0_compat; [lra|].
  apply Rmult_lt_0_compat; apply Rpower_pos.
Qed.

Lemma felsch_pos re h : 0 < felsch_R re h.
Proof.
  unfold felsch_R. apply Rdiv_lt_0_compat; [|apply Rpower_pos].
  apply Rmult_lt_0_compat; [lra|apply Rpower_pos].
Qed.

Lemma white_pos re h : 0 < white_R re h.
Proof.
  unfold white_R. apply Rdiv_lt_0_compat; [|apply Rpower_pos].
  apply Rmult_lt_0_compat; [lra|apply exp_pos].
Qed.

(* --- monotonicity in the Reynolds number --- *)
Lemma div_lt_denominator n a b : 0 < n -> 0 < a -> a < b -> n / b < n / a.
Proof.
  intros Hn Ha Hab. unfold Rdiv. apply Rmult_lt_compat_l; [exact Hn|].
  apply Rinv_lt_contravar; [|exact Hab]. apply Rmult_lt_0_compat; lra.
Qed.

Lemma lt_re a b h : 0 < a -> a < b -> lt_R b h < lt_R a h.
Proof.
  intros Ha Hab. unfold lt_R. apply div_lt_denominator; [lra| |].
  - apply Rmult_lt_0_compat; apply Rpower_pos.
  - apply Rmult_lt_compat_r; [apply Rpower_pos|]. apply Rpower_lt_base; lra.
Qed.

Lemma felsch_re a b h : 0 < a -> a < b -> felsch_R b h < felsch_R a h.
Proof.
  intros Ha Hab. unfold felsch_R. apply div_lt_denominator.
  - apply Rmult_lt_0_compat; [lra|apply Rpower_pos].
  - apply Rpower_pos.
  - apply Rpower_lt_base; lra.
Qed.

Lemma white_re a b h :
  1 < a -> a < b -> -174/31 < h -> white_R b h < white_R a h.
Proof.
  intros Ha Hab Hh. unfold white_R. apply div_lt_denominator.
  - apply Rmult_lt_0_compat; [lra|apply exp_pos].
  - apply Rpower_pos.
  - apply Rpower_lt_base; [lra| apply log10_pos; lra |]. apply log10_lt; lra.
Qed.

(* --- monotonicity in the shape factor --- *)
Lemma lt_shape re a b : a < b -> lt_R re b < lt_R re a.
Proof.
  intros Hab. unfold lt_R. apply div_lt_denominator; [lra| |].
  - apply Rmult_lt_0_compat; apply Rpower_pos.
  - apply Rmult_lt_compat_l; [apply Rpower_pos|]. apply Rpower_lt; lra.
Qed.

Lemma felsch_shape re a b : a <= b -> felsch_R re b <= felsch_R re a.
Proof.
  intros Hab. unfold felsch_R, Rdiv. apply Rmult_le_compat_r.
  - apply Rlt_le, Rinv_0_lt_compat, Rpower_pos.
  - apply Rmult_le_compat_l; [lra|].
    apply Rpower_le_base; [lra|apply felsch_base_pos|apply felsch_base_antitone; exact Hab].
Qed.

Lemma felsch_shape_strict re a b :
  1 <= a -> a < b -> b <= felsch_shape_d_sep -> felsch_R re b < felsch_R re a.
Proof.
  intros H1 H2 H3. unfold felsch_R, Rdiv. apply Rmult_lt_compat_r.
  - apply Rinv_0_lt_compat, Rpower_pos.
  - apply Rmult_lt_compat_l; [lra|].
    apply Rpower_lt_base; [lra|apply felsch_base_pos|apply felsch_base_strict; assumption].
Qed.

Lemma white_shape re a b : 10 <= re -> a < b -> white_R re b < white_R re a.
Proof.
  intros Hre Hab. unfold white_R.
  assert (HL : 1 <= log10 re).
  { destruct Hre as [H|<-]; [|rewrite log10_10; lra].
    apply Rlt_le. rewrite <- log10_10. apply log10_lt; lra. }
  assert (H0 : 0 <= ln (log10 re)).
  { destruct HL as [HL|<-]; [|rewrite ln_1; lra].
    apply Rlt_le. rewrite <- ln_1. apply ln_increasing; lra. }
  assert (E : forall h, 3/10 * exp (- (133/100) * h)
      / Rpower (log10 re) (174/100 + 31/100 * h)
      = 3/10 * exp (- (133/100) * h - (174/100 + 31/100 * h) * ln (log10 re))).
  { intros h. unfold Rpower. unfold Rminus. rewrite exp_plus, exp_Ropp. field.
    apply Rgt_not_eq, exp_pos. }
  rewrite !E. apply Rmult_lt_compat_l; [lra|]. apply exp_increasing. nra.
Qed.

Lemma felsch_low re h : h <= 1 -> felsch_R re h = felsch_R re 1.
Proof.
  intros H. unfold felsch_R, felsch_base.
  rewrite (clip_low h), (clip_low 1); try apply sep_ge_1; lra.
Qed.

Lemma felsch_high re h :
  felsch_shape_d_sep <= h -> felsch_R re h = felsch_R re felsch_shape_d_sep.
Proof.
  intros H. unfold felsch_R, felsch_base.
  rewrite (clip_high h), (clip_high felsch_shape_d_sep); try apply sep_ge_1; lra.
Qed.

(** The model agrees with the closed forms. *)
Lemma lt_eval re h : 0 < re -> ludwieg_tillman (Fin re) (Fin h) = Fin (lt_R re h).
Proof.
  intros H. unfold ludwieg_tillman. rewrite xmul_fin, !xpow_fin, xmul_fin, xdiv_fin; try lra.
  - reflexivity.
  - apply Rgt_not_eq, Rmult_lt_0_compat; apply Rpower_pos.
Qed.

Lemma felsch_eval re h : 0 < re -> felsch (Fin re) (Fin h) = Fin (felsch_R re h).
Proof.
  intros H. unfold felsch. cbv zeta. rewrite xclip_fin.
  rewrite xlog10_fin by (pose proof (clip_bounds h 1 felsch_shape_d_sep sep_ge_1) as C;
                         unfold clip in C; lra).
  rewrite xmul_fin, xsub_fin.
  rewrite xpow_fin by (pose proof (felsch_base_pos h) as C; unfold felsch_base in C; exact C).
  rewrite xpow_fin, xmul_fin, xdiv_fin; [reflexivity| |exact H].
  apply Rgt_not_eq, Rpower_pos.
Qed.

Lemma white_eval re h : 1 < re -> white (Fin re) (Fin h) = Fin (white_R re h).
Proof.
  intros H. unfold white. rewrite xlog10_fin by lra. rewrite !xmul_fin, xadd_fin.
  rewrite xpow_fin by (apply (log10_pos re); exact H). cbn [xexp].
  rewrite xmul_fin, xdiv_fin; [reflexivity|]. apply Rgt_not_eq, Rpower_pos.
Qed.

Lemma felsch_base_eval h :
  xsub (Fin (93/100)) (xmul (Fin (195/100))
     (xlog10 (xclip (Fin h) (Fin 1) (Fin felsch_shape_d_sep)))) = Fin (felsch_base h).
Proof.
  rewrite xclip_fin, xlog10_fin; [reflexivity|].
  pose proof (clip_bounds h 1 felsch_shape_d_sep sep_ge_1) as C. unfold clip in C; lra.
Qed.

Lemma skin_friction_positive_lemma re h :
  (0 < re -> finite_pos (ludwieg_tillman (Fin re) (Fin h))) /\
  (0 < re -> finite_pos (felsch (Fin re) (Fin h))) /\
  (1 < re -> finite_pos (white (Fin re) (Fin h))).
Proof.
  unfold finite_pos. split; [|split]; intros H.
  - rewrite lt_eval by exact H. eexists; split; [reflexivity|apply lt_pos].
  - rewrite felsch_eval by exact H. eexists; split; [reflexivity|apply felsch_pos].
  - rewrite white_eval by exact H. eexists; split; [reflexivity|apply white_pos].
Qed.

Lemma skin_friction_re_lemma re1 re2 h : re1 < re2 ->
  (0 < re1 -> fin_lt (ludwieg_tillman (Fin re2) (Fin h)) (ludwieg_tillman (Fin re1) (Fin h))) /\
  (0 < re1 -> fin_lt (felsch (Fin re2) (Fin h)) (felsch (Fin re1) (Fin h))) /\
  (1 < re1 -> -174/31 < h -> fin_lt (white (Fin re2) (Fin h)) (white (Fin re1) (Fin h))).
Proof.
  unfold fin_lt. intros Hre. split; [|split]; intros H.
  - rewrite !lt_eval by lra. do 2 eexists; repeat split. apply lt_re; lra.
  - rewrite !felsch_eval by lra. do 2 eexists; repeat split. apply felsch_re; lra.
  - intros Hh. rewrite !white_eval by lra. do 2 eexists; repeat split. apply white_re; lra.
Qed.

Lemma skin_friction_shape_lemma re h1 h2 : h1 < h2 ->
  (0 < re -> fin_lt (ludwieg_tillman (Fin re) (Fin h2)) (ludwieg_tillman (Fin re) (Fin h1))) /\
  (0 < re -> fin_le (felsch (Fin re) (Fin h2)) (felsch (Fin re) (Fin h1))) /\
  (0 < re -> 1 <= h1 -> h2 <= felsch_shape_d_sep ->
     fin_lt (felsch (Fin re) (Fin h2)) (felsch (Fin re) (Fin h1))) /\
  (10 <= re -> fin_lt (white (Fin re) (Fin h2)) (white (Fin re) (Fin h1))).
Proof.
  unfold fin_lt, fin_le. intros Hh. repeat split; intros H.
  - rewrite !lt_eval by lra. do 2 eexists; repeat split. apply lt_shape; lra.
  - rewrite !felsch_eval by lra. do 2 eexists; repeat split. apply felsch_shape; lra.
  - intros H1 H2. rewrite !felsch_eval by lra. do 2 eexists; repeat split.
    apply felsch_shape_strict; lra.
  - rewrite !white_eval by lra. do 2 eexists; repeat split. apply white_shape; lra.
Qed.

Lemma felsch_total_lemma re h : 0 < re ->
  finite_pos (xsub (Fin (93/100)) (xmul (Fin (195/100))
     (xlog10 (xclip (Fin h) (Fin 1) (Fin felsch_shape_d_sep))))) /\
  felsch (Fin re) (Fin h) <> NaN /\
  (h <= 1 -> felsch (Fin re) (Fin h) = felsch (Fin re) (Fin 1)) /\
  (felsch_shape_d_sep <= h ->
     felsch (Fin re) (Fin h) = felsch (Fin re) (Fin felsch_shape_d_sep)).
Proof.
  intros H. rewrite felsch_base_eval, !felsch_eval by exact H.
  split; [eexists; split; [reflexivity|apply felsch_base_pos]|].
  split; [discriminate|]. split; intros Hh; f_equal.
  - apply felsch_low; exact Hh.
  - apply felsch_high; exact Hh.
Qed.

Lemma skin_friction_formulas_lemma re h :
  (0 < re -> ludwieg_tillman (Fin re) (Fin h)
     = Fin (246/1000 * Rpower 10 (- (678/1000) * h) * Rpower re (- (268/1000)))) /\
  (0 < re -> 1 <= h <= felsch_shape_d_sep -> felsch (Fin re) (Fin h)
     = Fin (58/1000 * Rpower re (- (268/1000))
            * Rpower (93/100 - 195/100 * (ln h / ln 10)) (1705/1000))) /\
  (1 < re -> white (Fin re) (Fin h)
     = Fin (3/10 * exp (- (133/100) * h)
            * Rpower (ln re / ln 10) (- (174/100 + 31/100 * h)))).
Proof.
  split; [|split]; intros H.
  - rewrite lt_eval by exact H. f_equal. unfold lt_R.
    replace (- (678/1000) * h) with (- (678/1000 * h)) by ring.
    rewrite !Rpower_Ropp. field.
    split; apply Rgt_not_eq, Rpower_pos.
  - intros Hh. rewrite felsch_eval by exact H. f_equal. unfold felsch_R, felsch_base.
    rewrite clip_inside by exact Hh. rewrite Rpower_Ropp. unfold log10, Rdiv. ring.
  - rewrite white_eval by exact H. f_equal. unfold white_R.
    rewrite Rpower_Ropp. unfold log10, Rdiv. ring.
Qed.

Lemma felsch_sep_lemma re h : 0 < re -> felsch_shape_d_sep <= h ->
  exists b, 0 < b < 3/10^11 /\
    felsch (Fin re) (Fin h) = Fin (58/1000 * Rpower b (1705/1000) * Rpower re (- (268/1000))).
Proof.
  intros H Hh. exists (felsch_base felsch_shape_d_sep).
  assert (E : clip felsch_shape_d_sep 1 felsch_shape_d_sep = felsch_shape_d_sep)
    by (apply clip_inside; pose proof sep_ge_1; lra).
  split.
  - split; [apply felsch_base_pos|]. unfold felsch_base. rewrite E.
    apply felsch_base_at_sep_small.
  - rewrite felsch_eval by exact H. f_equal. rewrite felsch_high by exact Hh.
    unfold felsch_R. rewrite Rpower_Ropp. unfold Rdiv. ring.
Qed.
