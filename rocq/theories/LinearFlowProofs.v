From Coq Require Import Reals List String Lra Lia.
From Coquelicot Require Import Coquelicot.
From Verif Require Import PyBase PyBaseFacts ThwaitesFitsModel ThwaitesFitsProps SplineSpec SplineProofs SplineProps
  HeadModel InitialConditionModel CoreModel CoreSpec CoreHistoryProofs OdeSpec WorkflowSpec ThwaitesOdeProofs LocationProofs LinearFlowSpec.
Import ListNotations.
Open Scope R_scope.

Notation c0 := (1/1000).

Lemma power5_int u k a b : k <> 0 ->
  RInt (fun x => (u + k * x + c0)^5) a b = ((u + k * b + c0)^6 - (u + k * a + c0)^6) / (6 * k).
Proof.
  intros K. apply is_RInt_unique.
  replace (((u + k * b + c0)^6 - (u + k * a + c0)^6) / (6 * k))
    with (minus ((u + k * b + c0)^6 / (6 * k)) ((u + k * a + c0)^6 / (6 * k)))
    by (unfold minus, plus, opp; cbn [AbelianGroup.opp]; cbn; field; exact K).
  apply (is_RInt_derive (fun x => (u + k * x + c0)^6 / (6 * k))).
  - intros x _. auto_derive; [exact I|]. field. exact K.
  - intros x _. apply (ex_derive_continuous (V := R_NormedModule)). auto_derive. exact I.
Qed.

Lemma linear_form m u k s a b : m_kind m = ThwaitesLinear -> k <> 0 -> a <= b ->
  linear_flow m u k s a b -> (forall x, a <= x <= b -> 0 < u + k * x + c0) ->
  s b = 75/1000 / k + (s a - 75/1000 / k) * ((u + k * a + c0) / (u + k * b + c0))^6.
Proof.
  intros K Hk L [F _] P.
  assert (Q := linear_quadrature_lemma m (fun t => u + k * t) (fun _ => k) s a b K).
  rewrite Rmin_left, Rmax_right in Q by exact L.
  assert (Q' := Q (fun x Hx => conj (proj1 (F x Hx)) (conj (proj2 (F x Hx)) (P x Hx)))). clear Q.
  rewrite power5_int in Q' by exact Hk.
  assert (Pa := P a ltac:(lra)). assert (Pb := P b ltac:(lra)).
  set (A := u + k * a + c0) in *. set (B := u + k * b + c0) in *.
  assert (B6 : B^6 <> 0) by (apply pow_nonzero; lra).
  apply Rmult_eq_reg_r with (B^6); [|exact B6]. rewrite Q'.
  replace ((A / B)^6) with (A^6 / B^6) by (unfold Rdiv; rewrite Rpow_mult_distr, pow_inv; reflexivity).
  field. split; [lra|exact Hk].
Qed.

Lemma flow_shrink m u k s a b b' : linear_flow m u k s a b -> b' <= b -> linear_flow m u k s a b'.
Proof.
  intros [F [g [Eg G]]] L. split; [intros x Hx; apply F; lra|].
  exists g. split; [exact Eg|]. intros x Hx. apply G. lra.
Qed.

(** ** Stagnation-point flow *)
Definition hiemenz : R := (29235/100000) * (123259/100000) / (22162/10000 + 2).
Lemma hiemenz_value : 8546/100000 < hiemenz < 8547/100000.
Proof. unfold hiemenz. split; lra. Qed.

Section Stag.
Variables (m : meth) (nu k X : R) (s : R -> R).
Hypothesis K : m_kind m = ThwaitesLinear.
Hypothesis Kc : ic_body_of (m_ic m) = FSStag.
Hypothesis Kn : m_nu m = Fin nu.
Hypothesis Pn : 0 < nu.
Hypothesis Pk : 0 < k.
Hypothesis PX : 0 <= X.
Hypothesis F : linear_flow m 0 k s 0 X.
Hypothesis I0 : initial_state m 0 [Fin (s 0)].

Lemma stag_start : s 0 = hiemenz / k.
Proof.
  destruct F as [G _]. destruct (G 0 ltac:(lra)) as [[_ [_ D]] _].
  assert (Q := stagnation_start_lemma m 0 nu k [Fin (s 0)] Kc Kn Pn D Pk I0). rewrite K in Q.
  injection Q as Q. rewrite Q. unfold hiemenz. field. lra.
Qed.
Lemma stag_value x : 0 <= x <= X ->
  s x = (75/1000 + (hiemenz - 75/1000) * (1 / (1 + 1000 * (k * x)))^6) / k.
Proof.
  intros Hx.
  assert (P0 : forall y, 0 <= y -> 0 <= k * y) by (intros y Hy; apply Rmult_le_pos; lra).
  assert (Q := linear_form m 0 k s 0 x K ltac:(lra) ltac:(lra) (flow_shrink m 0 k s 0 X x F ltac:(lra))).
  rewrite Q, stag_start by (intros y Hy; pose proof (P0 y ltac:(lra)); lra).
  pose proof (P0 x ltac:(lra)) as Px.
  replace ((0 + k * 0 + c0) / (0 + k * x + c0)) with (1 / (1 + 1000 * (k * x))) by (field; lra).
  set (q := (1 / (1 + 1000 * (k * x)))^6). field. lra.
Qed.
Lemma stag_delta x : 0 <= x <= X ->
  q_delta_m m x = Ok (Fin (sqrt (nu / k * (75/1000 + (hiemenz - 75/1000) * (1 / (1 + 1000 * (k * x)))^6)))).
Proof.
  intros Hx. destruct F as [_ [g [Eg G]]]. unfold q_delta_m, sol_at. rewrite Eg. cbn [bind].
  rewrite G by exact Hx. cbn [comp nth_error bind]. rewrite K, Kn, xmul_fin, (stag_value x Hx).
  pose proof hiemenz_value as H.
  assert (Px : 0 <= k * x) by (apply Rmult_le_pos; lra).
  assert (Q : 0 <= (1 / (1 + 1000 * (k * x)))^6) by (apply pow_le, Rlt_le, Rdiv_lt_0_compat; lra).
  set (q := (1 / (1 + 1000 * (k * x)))^6) in *.
  assert (0 < nu / k) by (apply Rdiv_lt_0_compat; assumption).
  assert (E : (75 / 1000 + (hiemenz - 75 / 1000) * q) / k * nu = nu / k * (75/1000 + (hiemenz - 75/1000) * q))
    by (field; lra).
  rewrite E, xsqrt_fin; [reflexivity|]. apply Rmult_le_pos; [lra|nra].
Qed.
End Stag.

Lemma pow6_lt a b : 0 <= a -> a < b -> a^6 < b^6.
Proof.
  intros H L. assert (P2 : a * a < b * b) by nra. assert (0 <= a * a) by nra.
  assert (P4 : a * a * (a * a) < b * b * (b * b)) by nra. assert (0 <= a * a * (a * a)) by nra.
  replace (a^6) with (a * a * (a * a) * (a * a)) by ring.
  replace (b^6) with (b * b * (b * b) * (b * b)) by ring.
  set (p := a * a) in *. set (q := b * b) in *. nra.
Qed.
Lemma ratio_range t : 0 <= t -> 0 < (1 / (1 + 1000 * t))^6 <= 1.
Proof.
  intros H. assert (A : 0 < 1 / (1 + 1000 * t)) by (apply Rdiv_lt_0_compat; lra).
  assert (B : 1 / (1 + 1000 * t) <= 1) by (apply Rle_div_l; lra).
  split; [apply pow_lt, A|]. apply Rle_trans with (1^6); [apply pow_incr; lra|lra].
Qed.
Lemma ratio_small t : 1/1000 <= t -> (1 / (1 + 1000 * t))^6 <= 1/64.
Proof.
  intros H. assert (A : 0 < 1 / (1 + 1000 * t)) by (apply Rdiv_lt_0_compat; lra).
  assert (B : 1 / (1 + 1000 * t) <= 1/2) by (apply Rle_div_l; lra).
  apply Rle_trans with ((1/2)^6); [apply pow_incr; lra|lra].
Qed.
Lemma ratio_decr t t' : 0 <= t -> t < t' -> (1 / (1 + 1000 * t'))^6 < (1 / (1 + 1000 * t))^6.
Proof.
  intros H L. assert (A : 0 < 1 / (1 + 1000 * t')) by (apply Rdiv_lt_0_compat; lra).
  assert (B : 1 / (1 + 1000 * t') < 1 / (1 + 1000 * t)).
  { apply Rmult_lt_compat_l; [lra|]. apply Rinv_lt_contravar; [apply Rmult_lt_0_compat; lra|lra]. }
  set (p := 1 / (1 + 1000 * t')) in *. set (q := 1 / (1 + 1000 * t)) in *.
  apply pow6_lt; lra.
Qed.

Lemma sqrt_factor a f g : 0 <= f -> f * f <= g -> 0 <= a -> f * sqrt a <= sqrt (a * g).
Proof.
  intros Hf H Ha. replace f with (sqrt (f * f)) by (apply sqrt_square; exact Hf).
  rewrite <- sqrt_mult by nra. apply sqrt_le_1; nra.
Qed.
Lemma sqrt_factor' a f g : 0 <= f -> 0 <= g -> g <= f * f -> 0 <= a -> sqrt (a * g) <= f * sqrt a.
Proof.
  intros Hf Hg H Ha. replace f with (sqrt (f * f)) by (apply sqrt_square; exact Hf).
  rewrite <- sqrt_mult by nra. apply sqrt_le_1; nra.
Qed.

Lemma stagnation_lemma m nu k X s : m_kind m = ThwaitesLinear ->
  ic_body_of (m_ic m) = FSStag -> m_nu m = Fin nu -> 0 < nu -> 0 < k -> 0 <= X ->
  linear_flow m 0 k s 0 X -> initial_state m 0 [Fin (s 0)] ->
  exists d : R -> R, (forall x, 0 <= x <= X -> q_delta_m m x = Ok (Fin (d x))) /\
    (forall x y, 0 <= x -> x < y -> y <= X -> d y < d x) /\
    (forall x, 0 <= x <= X -> sqrt (75/1000 * nu / k) < d x) /\
    (forall x, 0 <= x <= X -> d x <= 1068/1000 * sqrt (75/1000 * nu / k)) /\
    (forall x, 0 <= x <= X -> 1/1000 <= k * x ->
       d x <= 1002/1000 * sqrt (75/1000 * nu / k) /\ d x < 94/100 * d 0).
Proof.
  intros K Kc Kn Pn Pk PX F I0. pose proof hiemenz_value as Hz.
  set (q := fun x => (1 / (1 + 1000 * (k * x)))^6).
  exists (fun x => sqrt (nu / k * (75/1000 + (hiemenz - 75/1000) * q x))).
  split; [intros x Hx; apply (stag_delta m nu k X s K Kc Kn Pn Pk PX F I0 x Hx)|].
  assert (Pa : 0 < nu / k) by (apply Rdiv_lt_0_compat; assumption).
  assert (Pq : forall x, 0 <= x -> 0 < q x <= 1).
  { intros x Hx. apply ratio_range. apply Rmult_le_pos; lra. }
  assert (E : 75/1000 * nu / k = nu / k * (75/1000)) by (field; lra).
  split; [|split; [|split]].
  - intros x y H0 L _. apply sqrt_lt_1_alt. pose proof (Pq x H0) as A. pose proof (Pq y ltac:(lra)) as B.
    assert (D : q y < q x). { apply ratio_decr; [apply Rmult_le_pos; lra|apply Rmult_lt_compat_l; lra]. }
    split; [apply Rmult_le_pos; [lra|nra]|]. apply Rmult_lt_compat_l; [exact Pa|]. nra.
  - intros x Hx. rewrite E. apply sqrt_lt_1_alt. pose proof (Pq x ltac:(lra)).
    split; [nra|]. apply Rmult_lt_compat_l; [exact Pa|]. nra.
  - intros x Hx. pose proof (Pq x ltac:(lra)). rewrite E.
    replace (nu / k * (75/1000 + (hiemenz - 75/1000) * q x))
      with (nu / k * (75/1000) * (1 + (hiemenz - 75/1000) * q x * (1000/75))) by (field; lra).
    apply sqrt_factor'; nra.
  - intros x Hx Hk. pose proof (Pq x ltac:(lra)) as A.
    assert (B : q x <= 1/64) by (apply ratio_small; exact Hk).
    assert (Q0 : q 0 = 1). { unfold q. rewrite Rmult_0_r. replace (1 / (1 + 1000 * 0)) with 1 by field. apply pow1. }
    split.
    + rewrite E.
      replace (nu / k * (75/1000 + (hiemenz - 75/1000) * q x))
        with (nu / k * (75/1000) * (1 + (hiemenz - 75/1000) * q x * (1000/75))) by (field; lra).
      apply sqrt_factor'; nra.
    + rewrite Q0. replace (94/100) with (sqrt (94/100 * (94/100))) by (apply sqrt_square; lra).
      rewrite <- sqrt_mult by nra. apply sqrt_lt_1_alt. split; [apply Rmult_le_pos; [lra|nra]|].
      replace (94 / 100 * (94 / 100) * (nu / k * (75 / 1000 + (hiemenz - 75 / 1000) * 1)))
        with (nu / k * (94 / 100 * (94 / 100) * hiemenz)) by ring.
      apply Rmult_lt_compat_l; [exact Pa|]. nra.
Qed.

(** ** Linearly retarded flow *)
Lemma sixth_root : Rpower (5/11) (1/6) ^ 6 = 5/11.
Proof.
  rewrite <- Rpower_pow by apply exp_pos. rewrite Rpower_mult.
  replace (1/6 * INR 6) with 1 by (change (INR 6) with (1+1+1+1+1+1); field). apply Rpower_1. lra.
Qed.
Lemma sixth_root_value : 8768/10000 < Rpower (5/11) (1/6) < 8769/10000.
Proof.
  pose proof sixth_root as E. assert (P : 0 < Rpower (5/11) (1/6)) by apply exp_pos.
  set (r := Rpower (5/11) (1/6)) in *. split; apply Rnot_le_lt; intros H.
  - destruct H as [H|H]; [pose proof (pow6_lt r (8768/10000) ltac:(lra) H) as Q|rewrite H in E]; lra.
  - destruct H as [H|H]; [pose proof (pow6_lt (8769/10000) r ltac:(lra) H) as Q|rewrite <- H in E]; lra.
Qed.

Section Retarded.
Variables (u L : R).
Hypothesis Pu : 1/1000 <= u.
Hypothesis PL : 0 < L.
Notation L' := (L * (1 + 1 / (1000 * u))).

Lemma scale_pos : 0 < L'.
Proof. apply Rmult_lt_0_compat; [exact PL|]. assert (0 < 1 / (1000 * u)) by (apply Rdiv_lt_0_compat; lra). lra. Qed.
Lemma scaled_velocity x : u + - (u / L) * x + c0 = (u + c0) * (1 - x / L').
Proof. field. repeat split; lra. Qed.

Variables (m : meth) (s : R -> R) (b : R).
Hypothesis K : m_kind m = ThwaitesLinear.
Hypothesis F : retarded_flow m u L s b.
Hypothesis Hb : b < L'.

Lemma retarded_lambda x : 0 <= x <= b ->
  s x * - (u / L) = 75/1000 * (1 - 1 / (1 - x / L')^6).
Proof.
  intros Hx. destruct F as [G S0]. pose proof scale_pos as PS.
  assert (Puc : 0 < u + c0) by lra.
  assert (W : forall y, y <= b -> 0 < 1 - y / L').
  { intros y Hy. assert (y / L' < 1) by (apply Rlt_div_l; lra). lra. }
  assert (NK : - (u / L) <> 0) by (assert (0 < u / L) by (apply Rdiv_lt_0_compat; lra); lra).
  rewrite (linear_form m u (- (u / L)) s 0 x K NK ltac:(lra) (flow_shrink m u (- (u / L)) s 0 b x G ltac:(lra))).
  2:{ intros y Hy. rewrite scaled_velocity. apply Rmult_lt_0_compat; [lra|apply W; lra]. }
  rewrite S0, !scaled_velocity.
  assert (Wx := W x ltac:(lra)). set (w := 1 - x / L') in *.
  replace (1 - 0 / L') with 1 by (unfold Rdiv; rewrite Rmult_0_l; ring).
  replace ((u + c0) * 1 / ((u + c0) * w)) with (/ w) by (field; lra).
  rewrite pow_inv. set (w6 := w^6). assert (w6 <> 0) by (apply pow_nonzero; lra). field. repeat split; lra.
Qed.

Lemma lambda_mono x r : 0 <= x <= b -> 0 < r ->
  (x < L' * (1 - r) -> 75/1000 * (1 - 1 / r^6) < s x * - (u / L)) /\
  (x = L' * (1 - r) -> 75/1000 * (1 - 1 / r^6) = s x * - (u / L)) /\
  (L' * (1 - r) < x -> s x * - (u / L) < 75/1000 * (1 - 1 / r^6)).
Proof.
  intros Hx Pr. rewrite (retarded_lambda x Hx). pose proof scale_pos as PS.
  assert (Wx : 0 < 1 - x / L'). { assert (x / L' < 1) by (apply Rlt_div_l; lra). lra. }
  set (w := 1 - x / L') in *.
  assert (Ex : x = L' * (1 - w)) by (unfold w; field; repeat split; lra).
  assert (M : forall p q, 0 < p -> p < q -> 1 / q^6 < 1 / p^6).
  { intros p q Hp Hq. apply Rmult_lt_compat_l; [lra|].
    apply Rinv_lt_contravar; [apply Rmult_lt_0_compat; apply pow_lt; lra|]. apply pow6_lt; lra. }
  split; [|split]; intros H.
  - assert (A : r < w). { apply Rnot_le_lt. intros Q. assert (L' * (1 - r) <= L' * (1 - w)) by (apply Rmult_le_compat_l; lra). lra. }
    pose proof (M _ _ Pr A). lra.
  - assert (A : w = r). { apply Rmult_eq_reg_l with L'; [|lra]. lra. } rewrite A. reflexivity.
  - assert (A : w < r). { apply Rnot_le_lt. intros Q. assert (L' * (1 - w) <= L' * (1 - r)) by (apply Rmult_le_compat_l; lra). lra. }
    pose proof (M _ _ Wx A). lra.
Qed.
End Retarded.

Lemma separation_value u L : 1/1000 <= u -> 0 < L ->
  1231/10000 * (L * (1 + 1 / (1000 * u))) < retarded_separation u L < 1232/10000 * (L * (1 + 1 / (1000 * u))).
Proof.
  intros Pu PL. pose proof (scale_pos u L Pu PL) as P. unfold retarded_separation.
  pose proof sixth_root_value. set (L' := L * (1 + 1 / (1000 * u))) in *. set (r := Rpower (5/11) (1/6)) in *. split; nra.
Qed.

Lemma retarded_threshold : 75/1000 * (1 - 1 / Rpower (5/11) (1/6) ^ 6) = -9/100.
Proof. rewrite sixth_root. lra. Qed.

Lemma tau_is m f nu (s : R -> R) x u du w g rho : m_kind m = ThwaitesLinear -> m_nu m = Fin nu -> 0 < nu ->
  m_fit m = Some f -> m_sol m = Some g -> g x = [Fin (s x)] -> 0 < s x ->
  q_u_e m x = Ok u -> q_du_e m x = Ok du -> shear f (Fin (s x * du)) = Fin w ->
  q_tau_w_thwaites m x rho = Ok (Fin (rho * nu * u * w / sqrt (s x * nu))).
Proof.
  intros K Kn Pn Kf Eg G Ps QU QD W.
  assert (Psn : 0 < s x * nu) by (apply Rmult_lt_0_compat; assumption).
  unfold q_tau_w_thwaites, q_delta_m, sol_at. rewrite Eg. cbn [bind]. rewrite G. cbn [comp nth_error bind].
  unfold calc_lambda. rewrite QD. cbn [bind]. rewrite QU. cbn [bind]. rewrite Kf, K. cbn [bind].
  rewrite Kn, !(xmul_fin (s x)), W, xsqrt_fin, !xmul_fin by lra. rewrite xdiv_fin; [reflexivity|].
  pose proof (sqrt_lt_R0 _ Psn). lra.
Qed.

Section Shear.
Variables (u L : R) (m : meth) (s : R -> R) (b nu rho : R) (f : fit).
Hypothesis Pu : 1/1000 <= u.
Hypothesis PL : 0 < L.
Hypothesis K : m_kind m = ThwaitesLinear.
Hypothesis Kn : m_nu m = Fin nu.
Hypothesis Pn : 0 < nu.
Hypothesis Kf : m_fit m = Some f.
Hypothesis F : retarded_flow m u L s b.
Hypothesis Hb : b < L.
Hypothesis Pr : 0 < rho.

Lemma below_scale : b < L * (1 + 1 / (1000 * u)).
Proof. assert (0 < 1 / (1000 * u)) by (apply Rdiv_lt_0_compat; lra). assert (0 < L * (1 / (1000 * u))) by (apply Rmult_lt_0_compat; assumption). lra. Qed.

Lemma retarded_positive x : 0 < x <= b -> 0 < s x.
Proof.
  intros Hx. destruct (lambda_mono u L Pu PL m s b K F below_scale x 1 ltac:(lra) Rlt_0_1) as (_ & _ & H).
  assert (A : s x * - (u / L) < 0) by (rewrite pow1 in H; lra).
  assert (0 < u / L) by (apply Rdiv_lt_0_compat; lra). nra.
Qed.

Lemma retarded_tau x w : 0 < x <= b -> shear f (Fin (s x * - (u / L))) = Fin w ->
  exists v, q_tau_w_thwaites m x rho = Ok (Fin v) /\ (0 < w -> 0 < v) /\ (w = 0 -> v = 0) /\ (w < 0 -> v < 0).
Proof.
  intros Hx W. pose proof (retarded_positive x Hx) as Ps. destruct F as [[G [g [Eg E]]] _].
  destruct (G x ltac:(lra)) as [[LU [_ QD]] _]. assert (QU := locally_singleton _ _ LU). cbv beta in QU.
  eexists. split; [apply (tau_is m f nu s x _ _ w g rho K Kn Pn Kf Eg (E x ltac:(lra)) Ps QU QD W)|].
  assert (Psn : 0 < s x * nu) by (apply Rmult_lt_0_compat; assumption).
  pose proof (sqrt_lt_R0 _ Psn) as Pq. set (q := sqrt (s x * nu)) in *.
  assert (PU : 0 < u + - (u / L) * x).
  { replace (u + - (u / L) * x) with (u * ((L - x) / L)) by (field; lra).
    apply Rmult_lt_0_compat; [lra|]. apply Rdiv_lt_0_compat; lra. }
  set (U := u + - (u / L) * x) in *.
  assert (PC : 0 < rho * nu * U / q) by (apply Rdiv_lt_0_compat; [repeat apply Rmult_lt_0_compat; assumption|exact Pq]).
  replace (rho * nu * U * w / q) with (rho * nu * U / q * w) by (field; lra).
  split; [intros; apply Rmult_lt_0_compat; assumption|]. split; [intros ->; ring|].
  intros Hw. nra.
Qed.

Lemma retarded_clamped cs x : cubic_spline_ok cs -> f = fit_white \/ f = fit_spline cs -> 0 < x <= b ->
  exists v, q_tau_w_thwaites m x rho = Ok (Fin v) /\
    (x < retarded_separation u L -> 0 < v) /\ (retarded_separation u L <= x -> v = 0).
Proof.
  intros OK Hf Hx.
  assert (S : exists w, shear f (Fin (s x * - (u / L))) = Fin w /\ 0 <= w /\ (w = 0 <-> s x * - (u / L) <= -9/100)).
  { destruct Hf as [->| ->].
    - destruct white_shear_zero_iff as (A & B & _). destruct (A (s x * - (u / L))) as (p & w & Ep & Ew & Le).
      injection Ep as <-. exists w. split; [exact Ew|]. split; [exact Le|]. rewrite <- B, Ew.
      split; [intros ->; reflexivity|intros Q; injection Q; auto].
    - destruct (proj1 (default_fit_well_behaved _ OK) (s x * - (u / L))) as (w & W & R1 & Z). exists w. split; [exact W|]. split; [lra|exact Z]. }
  destruct S as (w & W & P & Z).
  destruct (retarded_tau x w Hx W) as (v & E & V1 & V2 & _). exists v. split; [exact E|].
  destruct (lambda_mono u L Pu PL m s b K F below_scale x (Rpower (5/11) (1/6)) ltac:(lra) ltac:(apply exp_pos)) as (M1 & M2 & M3).
  rewrite retarded_threshold in M1, M2, M3. unfold retarded_separation. split; intros H.
  - apply V1. specialize (M1 H). destruct P as [P|P]; [exact P|]. symmetry in P. apply Z in P. lra.
  - apply V2. apply Z. destruct H as [H|H]; [specialize (M3 H); lra|]. symmetry in H. specialize (M2 H). lra.
Qed.

Lemma cb_root : 75/1000 * (1 - 1 / (8771/10000)^6) > -898/10000.
Proof. lra. Qed.
Lemma cb_root' : 75/1000 * (1 - 1 / (8768/10000)^6) < -900/10000.
Proof. lra. Qed.

Lemma retarded_cb x : f = fit_cb -> 0 < x <= b ->
  exists v, q_tau_w_thwaites m x rho = Ok (Fin v) /\
    (x <= 1229/10000 * (L * (1 + 1 / (1000 * u))) -> 0 < v) /\
    (1232/10000 * (L * (1 + 1 / (1000 * u))) <= x -> v < 0).
Proof.
  intros Hf Hx. destruct cebeci_bradshaw_shear_zero as (q & Q1 & Q2 & Q3 & Q4).
  set (lam := s x * - (u / L)).
  assert (S : exists w, shear f (Fin lam) = Fin w /\ (q < lam -> 0 < w) /\ (lam < q -> w < 0)).
  { rewrite Hf. destruct (Rtotal_order lam q) as [H|[->|H]].
    - destruct (Q3 _ H) as (w & W & N). exists w. split; [exact W|]. split; [lra|auto].
    - exists 0. split; [exact Q2|]. split; lra.
    - destruct (Q4 _ H) as (w & W & N). exists w. split; [exact W|]. split; [auto|lra]. }
  destruct S as (w & W & P & N).
  destruct (retarded_tau x w Hx W) as (v & E & V1 & _ & V3). exists v. split; [exact E|].
  pose proof cb_root. pose proof cb_root'.
  split; intros H1.
  - apply V1, P. destruct (lambda_mono u L Pu PL m s b K F below_scale x (8771/10000) ltac:(lra) ltac:(lra)) as (M1 & M2 & _).
    fold lam in M1, M2. destruct H1 as [H1|H1].
    + assert (A : x < L * (1 + 1 / (1000 * u)) * (1 - 8771/10000)) by lra. specialize (M1 A). lra.
    + assert (A : x = L * (1 + 1 / (1000 * u)) * (1 - 8771/10000)) by lra. specialize (M2 A). lra.
  - apply V3, N. destruct (lambda_mono u L Pu PL m s b K F below_scale x (8768/10000) ltac:(lra) ltac:(lra)) as (_ & M2 & M3).
    fold lam in M2, M3. destruct H1 as [H1|H1].
    + assert (A : L * (1 + 1 / (1000 * u)) * (1 - 8768/10000) < x) by lra. specialize (M3 A). lra.
    + assert (A : x = L * (1 + 1 / (1000 * u)) * (1 - 8768/10000)) by lra. specialize (M2 A). lra.
Qed.
End Shear.

Lemma retarded_reported_lemma pchip cubic_spline solve_ivp st x1 l m' ir f u L s :
  reachable pchip cubic_spline solve_ivp st -> m_kind st = ThwaitesLinear ->
  roots_are_zeros solve_ivp -> cubic_spline_ok cubic_spline ->
  (forall e, In e (tl (m_events st) ++ l) -> ev_reason e <> SEPARATED) ->
  solve solve_ivp st 0 x1 l = (m', Ok ir) -> ir_status ir = SEPARATED ->
  1/1000 <= u -> 0 < L -> m_fit m' = Some f -> m_kind m' = ThwaitesLinear -> 0 <= ir_x_end ir < L ->
  retarded_flow m' u L s (ir_x_end ir) ->
  (f = fit_white \/ f = fit_spline cubic_spline -> retarded_separation u L <= ir_x_end ir) /\
  (f = fit_cb -> 1229/10000 * (L * (1 + 1 / (1000 * u))) < ir_x_end ir < 1232/10000 * (L * (1 + 1 / (1000 * u)))) /\
  f <> fit_drela.
Proof.
  intros HR HK HZ OK HE HS HT Pu PL Kf K' Hb F.
  destruct (location_lemma pchip cubic_spline solve_ivp st 0 x1 l m' ir HR ltac:(congruence) HZ HE HS HT)
    as (f' & sol & z & du & Ef & Es & Ez & QD & _ & V).
  rewrite Kf in Ef. injection Ef as <-.
  assert (HbL := below_scale u L (ir_x_end ir) Pu PL (proj2 Hb)).
  assert (M := lambda_mono u L Pu PL m' s (ir_x_end ir) K' F HbL (ir_x_end ir)).
  destruct F as [[G [g [Eg E]]] S0]. rewrite Es in Eg. injection Eg as <-.
  rewrite E in Ez by lra. injection Ez as <-.
  destruct (G (ir_x_end ir) ltac:(lra)) as [[_ [_ QD']] _]. rewrite QD in QD'. injection QD' as ->.
  destruct (V _ eq_refl) as (V1 & V2 & V3 & V4 & _).
  split; [|split].
  - intros Hf. assert (A : s (ir_x_end ir) * - (u / L) <= -9/100) by (destruct Hf as [Hf|Hf]; auto).
    destruct (M (Rpower (5/11) (1/6)) ltac:(lra) ltac:(apply exp_pos)) as (M1 & _ & _).
    rewrite retarded_threshold in M1. apply Rnot_lt_le. intros Q. specialize (M1 Q). lra.
  - intros Hf. specialize (V2 Hf). pose proof cb_root. pose proof cb_root'. split; apply Rnot_le_lt; intros Q.
    + destruct (M (8771/10000) ltac:(lra) ltac:(lra)) as (M1 & M2 & _). destruct Q as [Q|Q].
      * assert (A : ir_x_end ir < L * (1 + 1 / (1000 * u)) * (1 - 8771/10000)) by lra. specialize (M1 A). lra.
      * assert (A : ir_x_end ir = L * (1 + 1 / (1000 * u)) * (1 - 8771/10000)) by lra. specialize (M2 A). lra.
    + destruct (M (8768/10000) ltac:(lra) ltac:(lra)) as (_ & M2 & M3). destruct Q as [Q|Q].
      * assert (A : L * (1 + 1 / (1000 * u)) * (1 - 8768/10000) < ir_x_end ir) by lra. specialize (M3 A). lra.
      * assert (A : ir_x_end ir = L * (1 + 1 / (1000 * u)) * (1 - 8768/10000)) by lra. specialize (M2 A). lra.
  - intros Hf. specialize (V4 Hf).
    destruct (M 1 ltac:(lra) Rlt_0_1) as (_ & M2 & M3). rewrite pow1 in M2, M3.
    destruct (Req_dec (ir_x_end ir) 0) as [Q|Q].
    + rewrite Q, S0 in V4. lra.
    + assert (A : s (ir_x_end ir) * - (u / L) < 75/1000 * (1 - 1/1)) by (apply M3; lra). lra.
Qed.
