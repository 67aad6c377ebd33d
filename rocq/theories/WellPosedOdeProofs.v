(** Thwaites' equation as an initial value problem: existence, uniqueness, blow-up and the
    effect of a residual (C111 - C113). *)
From Coq Require Import Reals List Lra Lia.
From Coquelicot Require Import Coquelicot.
From Verif Require Import PyBase PyBaseFacts XDeriv ThwaitesFitsModel ThwaitesFitsProofs SplineSpec
  CoreModel OdeSpec ThwaitesOdeProofs PositivityProofs WellPosedProofs FitLipschitzProofs WellPosedSpec.
Import ListNotations.
Open Scope R_scope.

Lemma rhs_nonlinear m f S H x s U dU : m_kind m = ThwaitesNonlinear -> m_fit m = Some f -> fit_is f S H ->
  q_u_e m x = Ok U -> q_du_e m x = Ok dU -> U + 1/1000 <> 0 ->
  ode_impl m x [Fin s] = Ok [Fin (rhsF S H (s * dU) / (U + 1/1000))].
Proof.
  intros Km Ef FI QU QD N. destruct (FI (s * dU)) as [ES EH].
  unfold ode_impl, calc_f, calc_lambda. rewrite Km, QD. cbn [bind]. rewrite Ef. cbn [bind].
  rewrite QU. cbn [bind]. unfold fit_f. rewrite xmul_fin, ES, EH.
  rewrite !xadd_fin, !xmul_fin, xsub_fin, xmul_fin, xdiv_fin by lra.
  unfold rhsF. rewrite (Rplus_comm (U)). reflexivity.
Qed.

(** ** Existence *)
Lemma nonlinear_exists m f S H U dU a b s0 A B : m_kind m = ThwaitesNonlinear -> m_fit m = Some f ->
  fit_is f S H -> locally_lip (rhsF S H) -> 0 < rhsF S H 0 -> 0 <= A -> 0 <= B ->
  (forall p, rhsF S H p <= A + B * Rabs p) -> a <= b ->
  (forall x, a <= x <= b -> velocity_at m U (dU x) x /\ continuous dU x /\ 0 < U x + 1/1000) -> 0 < s0 ->
  exists s, s a = s0 /\ forall x, a <= x <= b -> solves1_at m s x /\ 0 < s x.
Proof.
  intros Km Ef FI LL F0 HA HB Up L V P.
  destruct (solution_exists (rhsF S H) dU (fun x => U x + 1/1000) a b A B s0 L LL F0 HA HB Up) as [s [Sa Hs]].
  - intros x Hx. apply V, Hx.
  - intros x Hx. destruct (V x Hx) as [[_ [DU _]] [_ W]]. split; [|exact W].
    apply (ex_derive_continuous (fun x => U x + 1/1000)). auto_derive. eexists; exact DU.
  - exact P.
  - exists s. split; [exact Sa|]. intros x Hx. destruct (Hs x Hx) as [D Pos]. split; [|exact Pos].
    destruct (V x Hx) as [[LU [_ QD]] [_ W]]. assert (QU := locally_singleton _ _ LU). cbv beta in QU.
    exists (rhsF S H (s x * dU x) / (U x + 1/1000)). split; [|exact D].
    apply (rhs_nonlinear m f S H x (s x) (U x) (dU x)); try assumption. lra.
Qed.

(** ** Uniqueness *)
Definition one_sided (F : R -> R) : Prop :=
  forall M, 0 < M -> exists L, forall p q d, 0 <= p -> 0 <= q -> Rabs (p * d) <= M -> Rabs (q * d) <= M ->
    (F (p * d) - F (q * d)) * (p - q) <= L * Rabs d * (p - q) ^ 2.

Lemma lip_one_sided F : locally_lip F -> one_sided F.
Proof.
  intros H M HM. destruct (H M HM) as [L HL]. exists L. intros p q d _ _ Bp Bq.
  assert (K := HL _ _ Bp Bq). rewrite <- Rmult_minus_distr_r, Rabs_mult in K.
  eapply Rle_trans; [apply Rle_abs|]. rewrite Rabs_mult.
  apply Rle_trans with (L * (Rabs (p - q) * Rabs d) * Rabs (p - q)).
  - apply Rmult_le_compat_r; [apply Rabs_pos|exact K].
  - rewrite <- (pow2_abs (p - q)). simpl. lra.
Qed.

Lemma continuous_bounded (g : R -> R) a b : a <= b -> (forall x, a <= x <= b -> continuous g x) ->
  exists D, 0 < D /\ forall x, a <= x <= b -> Rabs (g x) <= D.
Proof. intros L C. exact (bound_above a b L g C). Qed.

Lemma nonlinear_unique m f S H U dU s1 s2 a b : m_kind m = ThwaitesNonlinear -> m_fit m = Some f ->
  fit_is f S H -> one_sided (rhsF S H) -> 0 < S 0 -> a <= b ->
  (forall x, a <= x <= b -> velocity_at m U (dU x) x /\ continuous dU x /\ 0 < U x + 1/1000) ->
  0 < s1 a -> s1 a = s2 a ->
  (forall x, a <= x <= b -> solves1_at m s1 x) -> (forall x, a <= x <= b -> solves1_at m s2 x) ->
  forall x, a <= x <= b -> s1 x = s2 x.
Proof.
  intros Km Ef FI OS S0 L V P E H1 H2 x Hx.
  assert (Pos : forall s, 0 < s a -> (forall x, a <= x <= b -> solves1_at m s x) -> forall z, a <= z <= b -> 0 < s z).
  { intros s Ps Hs z Hz. apply (thwaites_positive_lemma m U dU s a z); try lra.
    - rewrite Km. discriminate.
    - right. destruct (FI 0) as [F1 F2]. exists f, (S 0), (H 0). repeat split; assumption.
    - intros t Ht. destruct (V t ltac:(lra)) as [V1 [_ V2]]. split; [exact V1|]. split; [apply Hs; lra|exact V2]. }
  assert (P1 := Pos s1 P H1). assert (P2 := Pos s2 ltac:(lra) H2).
  assert (Cs : forall s, (forall x, a <= x <= b -> solves1_at m s x) -> forall z, a <= z <= b -> continuous s z).
  { intros s Hs z Hz. destruct (Hs z Hz) as [v [_ D]]. apply (ex_derive_continuous s). eexists; exact D. }
  destruct (continuous_bounded s1 a b L (Cs s1 H1)) as [B1 [B1p HB1]].
  destruct (continuous_bounded s2 a b L (Cs s2 H2)) as [B2 [B2p HB2]].
  destruct (continuous_bounded dU a b L) as [D [Dp HD]]; [intros z Hz; apply V, Hz|].
  destruct (bound_below (fun x => U x + 1/1000) a b L) as [w [Wp HW]].
  { intros z Hz. destruct (V z Hz) as [[_ [DU _]] [_ W]]. split; [|exact W].
    apply (ex_derive_continuous (fun x => U x + 1/1000)). auto_derive. eexists; exact DU. }
  destruct (OS ((B1 + B2) * D)) as [L0 HL0]; [apply Rmult_lt_0_compat; lra|].
  set (K := Rabs L0 * D / w).
  assert (HK : 0 <= K).
  { apply Rdiv_le_0_compat; [apply Rmult_le_pos; [apply Rabs_pos|lra]|exact Wp]. }
  set (g := fun s t => rhsF S H (s t * dU t) / (U t + 1/1000)).
  assert (Dg : forall s, (forall x, a <= x <= b -> solves1_at m s x) -> forall z, a <= z <= b -> is_derive s z (g s z)).
  { intros s Hs z Hz. destruct (Hs z Hz) as [v [Ev D0]].
    destruct (V z Hz) as [[LU [_ QD]] [_ W]]. assert (QU := locally_singleton _ _ LU). cbv beta in QU.
    rewrite (rhs_nonlinear m f S H z (s z) (U z) (dU z) Km Ef FI QU QD) in Ev by lra.
    injection Ev as Ev. unfold g. rewrite Ev. exact D0. }
  assert (R0 := osl_error s1 s2 (g s1) (g s2) a x K 0 ltac:(lra) HK ltac:(lra)).
  replace (s1 a - s2 a) with 0 in R0 by lra. rewrite Rabs_R0 in R0.
  assert (R1 : Rabs (s1 x - s2 x) <= (0 + 0 * (x - a)) * exp (K * (x - a))).
  { apply R0. intros z Hz. split; [apply Dg; [exact H1|lra]|]. split; [apply Dg; [exact H2|lra]|].
    rewrite Rmult_0_l, Rplus_0_r. unfold g.
    destruct (V z ltac:(lra)) as [_ [_ Wz]]. assert (wz := HW z ltac:(lra)). cbv beta in wz.
    assert (Q := HL0 (s1 z) (s2 z) (dU z) ltac:(left; apply P1; lra) ltac:(left; apply P2; lra)).
    assert (A1 : Rabs (s1 z * dU z) <= (B1 + B2) * D).
    { rewrite Rabs_mult. apply Rmult_le_compat; try apply Rabs_pos; [specialize (HB1 z ltac:(lra)); lra|apply HD; lra]. }
    assert (A2 : Rabs (s2 z * dU z) <= (B1 + B2) * D).
    { rewrite Rabs_mult. apply Rmult_le_compat; try apply Rabs_pos; [specialize (HB2 z ltac:(lra)); lra|apply HD; lra]. }
    specialize (Q A1 A2).
    replace ((rhsF S H (s1 z * dU z) / (U z + 1/1000) - rhsF S H (s2 z * dU z) / (U z + 1/1000)) * (s1 z - s2 z))
      with ((rhsF S H (s1 z * dU z) - rhsF S H (s2 z * dU z)) * (s1 z - s2 z) / (U z + 1/1000)) by (field; lra).
    set (e2 := (s1 z - s2 z) ^ 2) in *. assert (E2 : 0 <= e2) by apply pow2_ge_0.
    apply Rle_trans with (Rabs L0 * D * e2 / (U z + 1/1000)).
    - apply Rmult_le_compat_r; [left; apply Rinv_0_lt_compat; lra|].
      eapply Rle_trans; [exact Q|]. apply Rmult_le_compat_r; [exact E2|].
      apply Rle_trans with (Rabs L0 * Rabs (dU z)).
      + apply Rmult_le_compat_r; [apply Rabs_pos|apply Rle_abs].
      + apply Rmult_le_compat_l; [apply Rabs_pos|apply HD; lra].
    - replace (K * e2) with (Rabs L0 * D * e2 / w) by (unfold K; field; lra).
      apply Rmult_le_compat_l; [|apply Rinv_le_contravar; lra].
      apply Rmult_le_pos; [apply Rmult_le_pos; [apply Rabs_pos|lra]|exact E2]. }
  rewrite Rmult_0_l, Rplus_0_r, Rmult_0_l in R1. pose proof (Rabs_pos (s1 x - s2 x)).
  assert (Z : Rabs (s1 x - s2 x) = 0) by lra. destruct (Req_dec (s1 x - s2 x) 0) as [Q|Q]; [lra|].
  apply Rabs_no_R0 in Q. contradiction.
Qed.

(** ** C111 *)
Lemma F0_S0 S H : 0 < rhsF S H 0 -> 0 < S 0.
Proof. unfold rhsF. intros P. rewrite Rmult_0_l in P. lra. Qed.

Lemma nonlinear_problem_lemma m f cs U dU a b s0 : m_kind m = ThwaitesNonlinear -> m_fit m = Some f ->
  cubic_spline_ok cs -> f = fit_spline cs \/ f = fit_cb \/ f = fit_drela -> a <= b ->
  (forall x, a <= x <= b -> velocity_at m U (dU x) x /\ continuous dU x /\ 0 < U x + 1/1000) -> 0 < s0 ->
  exists s, s a = s0 /\ (forall x, a <= x <= b -> solves1_at m s x /\ 0 < s x) /\
    forall s2, s2 a = s0 -> (forall x, a <= x <= b -> solves1_at m s2 x) ->
      forall x, a <= x <= b -> s2 x = s x.
Proof.
  intros Km Ef OK Hf L V P.
  assert (Q : exists S H, fit_is f S H /\ locally_lip (rhsF S H) /\ rhsF S H 0 = 44/100 /\
    exists A B, 0 <= A /\ 0 <= B /\ forall p, rhsF S H p <= A + B * Rabs p).
  { destruct Hf as [->|[->| ->]]; [|exact cb_rhs|exact drela_rhs].
    destruct (default_rhs cs OK) as (S & H & FI & LL & F0 & _). exists S, H. split; [exact FI|].
    split; [intros M _; exists 28; intros p q _ _; apply LL|]. split; [exact F0|].
    exists (44/100), 28. split; [lra|]. split; [lra|]. intros p. specialize (LL p 0). rewrite F0, Rminus_0_r in LL.
    pose proof (Rle_abs (rhsF S H p - 44/100)). lra. }
  destruct Q as (S & H & FI & LL & F0 & A & B & HA & HB & Up).
  assert (F0' : 0 < rhsF S H 0) by lra.
  destruct (nonlinear_exists m f S H U dU a b s0 A B Km Ef FI LL F0' HA HB Up L V P) as [s [Sa Hs]].
  exists s. split; [exact Sa|]. split; [exact Hs|]. intros s2 E2 H2 x Hx. symmetry.
  apply (nonlinear_unique m f S H U dU s s2 a b Km Ef FI (lip_one_sided _ LL) (F0_S0 _ _ F0') L V); try lra.
  - intros z Hz. apply Hs, Hz.
  - exact H2.
Qed.

(** ** C112: White's fit *)
Definition whiteS (l : R) : R := if Rle_dec l (-9/100) then 0 else Rpower (l + 9/100) (62/100).
Lemma white_is : fit_is fit_white whiteS (fun l => whiteH (Rmax (-9/100) l)).
Proof.
  intros l. split.
  - unfold whiteS. destruct (Rle_dec l (-9/100)); [apply white_shear_low; assumption|apply white_shear_in; lra].
  - unfold shape. cbn [fit_white fit_shape fit_lo fit_hi]. rewrite check_range_max. apply white_shape_eval.
Qed.
Lemma whiteS_mono p q : p <= q -> whiteS p <= whiteS q.
Proof.
  intros H. unfold whiteS. destruct (Rle_dec p (-9/100)), (Rle_dec q (-9/100)); try lra.
  - left. apply exp_pos.
  - apply Rle_Rpower_l; lra.
Qed.

Lemma white_one_sided : one_sided (rhsF whiteS (fun l => whiteH (Rmax (-9/100) l))).
Proof.
  intros M HM.
  assert (GL : exists L, lip_on (fun l => l * (whiteH (Rmax (-9/100) l) + 2)) (- M) M L).
  { apply (lip_glue_ex _ (- M) (-9/100) M).
    - exists (Rabs (whiteH (-9/100) + 2)). apply (lip_ext _ (fun x => 0 + (whiteH (-9/100) + 2) * x)).
      + intros x Hx. rewrite Rmax_left by lra. ring.
      + apply lip_affine.
    - destruct (lip_smooth (fun l => l * (whiteH l + 2)) (fun l => whiteH l + 2 + l * whiteHp l) (-9/100) M) as [L HL].
      + intros x Hx. split.
        * unfold whiteH, whiteHp. auto_derive; [exact I|]. field.
        * unfold whiteH, whiteHp. auto_derive. exact I.
      + exists L. eapply lip_ext; [|exact HL]. intros x Hx. cbv beta. rewrite Rmax_right by lra. reflexivity. }
  assert (SL : exists L, lip_on whiteS 0 M L).
  { destruct (lip_smooth (fun l => Rpower (l + 9/100) (62/100))
       (fun l => Rpower (l + 9/100) (62/100) * (62/100) / (l + 9/100)) 0 M) as [L HL].
    + intros x Hx. unfold Rpower. split.
      * auto_derive; [lra|]. field. lra.
      * auto_derive. split; lra.
    + exists L. eapply lip_ext; [|exact HL]. intros x Hx. unfold whiteS. destruct (Rle_dec x (-9/100)); [lra|reflexivity]. }
  destruct GL as [LG HG]. destruct SL as [LS HS].
  exists (2 * (Rabs LS + Rabs LG)). intros p q d Pp Pq Bp Bq.
  assert (Ip := proj1 (Rabs_le_between _ _) Bp). assert (Iq := proj1 (Rabs_le_between _ _) Bq).
  assert (KG : - ((p * d * (whiteH (Rmax (-9/100) (p * d)) + 2) - q * d * (whiteH (Rmax (-9/100) (q * d)) + 2)) * (p - q))
    <= Rabs LG * Rabs d * (p - q) ^ 2).
  { assert (K := HG _ _ Ip Iq). cbv beta in K. rewrite <- Rmult_minus_distr_r, Rabs_mult in K.
    eapply Rle_trans; [apply Rle_abs|]. rewrite Rabs_Ropp, Rabs_mult.
    apply Rle_trans with (Rabs LG * (Rabs (p - q) * Rabs d) * Rabs (p - q)).
    - apply Rmult_le_compat_r; [apply Rabs_pos|]. eapply Rle_trans; [exact K|].
      apply Rmult_le_compat_r; [apply Rmult_le_pos; apply Rabs_pos|apply Rle_abs].
    - rewrite <- (pow2_abs (p - q)). simpl. lra. }
  assert (KS : (whiteS (p * d) - whiteS (q * d)) * (p - q) <= Rabs LS * Rabs d * (p - q) ^ 2).
  { destruct (Rle_lt_dec 0 d) as [Pd|Nd].
    - assert (K := HS (p * d) (q * d) ltac:(split; [apply Rmult_le_pos; lra|lra]) ltac:(split; [apply Rmult_le_pos; lra|lra])).
      rewrite <- Rmult_minus_distr_r, Rabs_mult in K.
      eapply Rle_trans; [apply Rle_abs|]. rewrite Rabs_mult.
      apply Rle_trans with (Rabs LS * (Rabs (p - q) * Rabs d) * Rabs (p - q)).
      + apply Rmult_le_compat_r; [apply Rabs_pos|]. eapply Rle_trans; [exact K|].
        apply Rmult_le_compat_r; [apply Rmult_le_pos; apply Rabs_pos|apply Rle_abs].
      + rewrite <- (pow2_abs (p - q)). simpl. lra.
    - apply Rle_trans with 0.
      + destruct (Rle_lt_dec p q).
        * assert (whiteS (q * d) <= whiteS (p * d)) by (apply whiteS_mono; nra). nra.
        * assert (whiteS (p * d) <= whiteS (q * d)) by (apply whiteS_mono; nra). nra.
      + apply Rmult_le_pos; [|apply pow2_ge_0]. apply Rmult_le_pos; apply Rabs_pos. }
  unfold rhsF. lra.
Qed.

Lemma white_S0 : 0 < whiteS 0.
Proof. unfold whiteS. destruct (Rle_dec 0 (-9/100)); [lra|apply exp_pos]. Qed.

Lemma white_unique_lemma m U dU s1 s2 a b : m_kind m = ThwaitesNonlinear -> m_fit m = Some fit_white -> a <= b ->
  (forall x, a <= x <= b -> velocity_at m U (dU x) x /\ continuous dU x /\ 0 < U x + 1/1000) ->
  0 < s1 a -> s1 a = s2 a ->
  (forall x, a <= x <= b -> solves1_at m s1 x) -> (forall x, a <= x <= b -> solves1_at m s2 x) ->
  forall x, a <= x <= b -> s1 x = s2 x.
Proof.
  intros Km Ef. apply (nonlinear_unique m fit_white _ _ U dU s1 s2 a b Km Ef white_is white_one_sided white_S0).
Qed.

(** A thick layer in accelerating flow: the equation with White's fit blows up. *)
Lemma white_fast s : 1 <= s -> 8 * (s * s) <= rhsF whiteS (fun l => whiteH (Rmax (-9/100) l)) s.
Proof.
  intros H. unfold rhsF. rewrite Rmax_right by lra.
  assert (S0 : 0 <= whiteS s).
  { unfold whiteS. destruct (Rle_dec s (-9/100)); [lra|left; apply exp_pos]. }
  assert (HH : whiteH s + 2 <= - (4 * s)).
  { unfold whiteH. cbv zeta. set (w := s - 25/100). replace (25/100 - s) with (- w) by (unfold w; ring).
    replace s with (w + 25/100) by (unfold w; ring).
    assert (Hw : 75/100 <= w) by (unfold w; lra). clearbody w. clear s H S0.
    assert (0 <= w * w) by apply Rle_0_sqr.
    assert (w2 : 5/10 * w <= w * w) by nra.
    assert (w3 : 4/10 * w <= w * (w * w)) by nra.
    assert (w4 : 0 <= w * (w * (w * w))) by nra.
    assert (w5 : 0 <= w * (w * (w * (w * w)))) by nra.
    replace (2 + - w * (414/100 + - w * (-835/10 + - w * (854 + - w * (-3337 + - w * 4576)))) + 2)
      with (4 - 414/100 * w - 835/10 * (w * w) - 854 * (w * (w * w)) - 3337 * (w * (w * (w * w))) - 4576 * (w * (w * (w * (w * w)))))
      by field. nra. }
  nra.
Qed.

Lemma white_blow_up m U s : m_kind m = ThwaitesNonlinear -> m_fit m = Some fit_white ->
  (forall x, 0 <= x <= 1 -> velocity_at m U 1 x /\ 0 < U x + 1/1000 <= 8/3) ->
  s 0 = 2 -> ~ (forall x, 0 <= x <= 1 -> solves1_at m s x).
Proof.
  intros Km Ef V S0 Hs. set (F := rhsF whiteS (fun l => whiteH (Rmax (-9/100) l))).
  assert (D : forall x, 0 <= x <= 1 -> is_derive s x (F (s x) / (U x + 1/1000))).
  { intros x Hx. destruct (Hs x Hx) as [v [Ev D0]].
    destruct (V x Hx) as [[LU [_ QD]] W]. assert (QU := locally_singleton _ _ LU). cbv beta in QU.
    rewrite (rhs_nonlinear m fit_white _ _ x (s x) (U x) 1 Km Ef white_is QU QD) in Ev by lra.
    injection Ev as Ev. rewrite Rmult_1_r in Ev. unfold F. rewrite Ev. exact D0. }
  assert (B : forall x, 0 <= x <= 1 -> 1 < s x).
  { intros x Hx. assert (0 < s x - 1); [|lra].
    apply (stays_positive (fun x => s x - 1) 0 x); [lra|lra|]. intros z Hz.
    exists (F (s z) / (U z + 1/1000)). split.
    - assert (Dz := D z ltac:(lra)). auto_derive; [eexists; exact Dz|].
      assert (Us : Derive (fun t : R => s t) z = _) by exact (is_derive_unique s z _ Dz). rewrite Us. ring.
    - intros Z. apply Rdiv_lt_0_compat; [|apply V; lra].
      assert (K := white_fast (s z) ltac:(lra)). fold F in K. nra. }
  assert (G : / s 1 + 3 * 1 <= / s 0 + 3 * 0).
  { apply (decreasing_on (fun x => / s x + 3 * x)
      (fun x => - (F (s x) / (U x + 1/1000)) / (s x) ^ 2 + 3)); [lra|].
    intros x Hx. assert (Dx := D x Hx). assert (Bx := B x Hx). destruct (V x Hx) as [_ W]. split.
    - auto_derive; [split; [eexists; exact Dx|split; [lra|exact I]]|].
      assert (Us : Derive (fun t : R => s t) x = _) by exact (is_derive_unique s x _ Dx). rewrite Us.
      field. lra.
    - assert (K := white_fast (s x) ltac:(lra)). fold F in K.
      assert (P2 : 0 < s x ^ 2) by (apply pow_lt; lra).
      assert (Q : 3 <= F (s x) / (U x + 1/1000) / s x ^ 2); [|unfold Rdiv in *; lra].
      apply (Rmult_le_reg_r (s x ^ 2)); [exact P2|].
      replace (F (s x) / (U x + 1/1000) / s x ^ 2 * s x ^ 2) with (F (s x) / (U x + 1/1000)) by (field; lra).
      apply (Rmult_le_reg_r (U x + 1/1000)); [lra|].
      replace (F (s x) / (U x + 1/1000) * (U x + 1/1000)) with (F (s x)) by (field; lra).
      eapply Rle_trans; [|exact K]. simpl. nra. }
  assert (P1 := Rinv_0_lt_compat (s 1) ltac:(specialize (B 1 ltac:(lra)); lra)).
  rewrite S0 in G. lra.
Qed.

(** ** C113: the effect of a residual *)
Lemma default_residual_lemma m cs U dU s y a b k rho : m_kind m = ThwaitesNonlinear ->
  cubic_spline_ok cs -> m_fit m = Some (fit_spline cs) -> a <= b -> 0 <= k -> 0 <= rho ->
  (forall x, a <= x <= b -> velocity_at m U (dU x) x /\ 0 < U x + 1/1000 /\ Rabs (dU x) <= k * (U x + 1/1000)) ->
  (forall x, a <= x <= b -> solves1_at m s x) -> (forall x, a <= x <= b -> residual1_at m y x rho) ->
  Rabs (y b - s b) <= (Rabs (y a - s a) + rho * (b - a)) * exp (28 * k * (b - a)).
Proof.
  intros Km OK Ef L Hk Hr V Hs Hy. destruct (default_rhs cs OK) as (S & H & FI & LL & _).
  set (g := fun t => rhsF S H (s t * dU t) / (U t + 1/1000)).
  apply (osl_error y s (Derive y) g a b (28 * k) rho L ltac:(lra) Hr).
  intros x Hx. destruct (V x Hx) as [[LU [_ QD]] [W B]]. assert (QU := locally_singleton _ _ LU). cbv beta in QU.
  destruct (Hs x Hx) as [v [Ev Dv]]. destruct (Hy x Hx) as [u [u' [Eu [Du Ru]]]].
  rewrite (rhs_nonlinear m _ S H x (s x) (U x) (dU x) Km Ef FI QU QD) in Ev by lra. injection Ev as Ev.
  rewrite (rhs_nonlinear m _ S H x (y x) (U x) (dU x) Km Ef FI QU QD) in Eu by lra. injection Eu as Eu.
  assert (U1 := is_derive_unique y x _ Du).
  split; [rewrite U1; exact Du|]. split; [unfold g; rewrite Ev; exact Dv|].
  rewrite U1. unfold g. set (e := y x - s x).
  replace (u' - rhsF S H (s x * dU x) / (U x + 1/1000))
    with ((u' - u) + (rhsF S H (y x * dU x) - rhsF S H (s x * dU x)) / (U x + 1/1000)) by (rewrite <- Eu; field; lra).
  rewrite Rmult_plus_distr_r, Rplus_comm. apply Rplus_le_compat.
  - eapply Rle_trans; [apply Rle_abs|]. rewrite Rabs_mult. unfold Rdiv. rewrite Rabs_mult, (Rabs_pos_eq (/ _)) by (left; apply Rinv_0_lt_compat, W).
    assert (K := LL (y x * dU x) (s x * dU x)). rewrite <- Rmult_minus_distr_r, Rabs_mult in K. fold e in K.
    rewrite <- (pow2_abs e). assert (E0 := Rabs_pos e).
    apply Rle_trans with (28 * (Rabs e * (k * (U x + 1/1000))) * / (U x + 1/1000) * Rabs e).
    + apply Rmult_le_compat_r; [exact E0|]. apply Rmult_le_compat_r; [left; apply Rinv_0_lt_compat, W|].
      eapply Rle_trans; [exact K|]. apply Rmult_le_compat_l; [lra|]. apply Rmult_le_compat_l; assumption.
    + right. field. lra.
  - eapply Rle_trans; [apply Rle_abs|]. rewrite Rabs_mult. apply Rmult_le_compat_r; [apply Rabs_pos|exact Ru].
Qed.

Lemma linear_residual_lemma m U dU s y a b rho : m_kind m = ThwaitesLinear -> a <= b -> 0 <= rho ->
  (forall x, a <= x <= b -> velocity_at m U (dU x) x /\ 0 < U x + 1/1000) ->
  (forall x, a <= x <= b -> solves1_at m s x) -> (forall x, a <= x <= b -> residual1_at m y x rho) ->
  Rabs (y b - s b) * (U b + 1/1000) ^ 6
  <= Rabs (y a - s a) * (U a + 1/1000) ^ 6 + rho * RInt (fun x => (U x + 1/1000) ^ 6) a b.
Proof.
  intros Km L Hr V Hs Hy.
  set (W := fun x => U x + 1/1000). change (fun x => (U x + 1/1000) ^ 6) with (fun x => (W x) ^ 6).
  set (g := fun x => (y x - s x) * (W x) ^ 6).
  assert (C : forall x, a <= x <= b -> continuous (fun x => (W x) ^ 6) x).
  { intros x Hx. destruct (V x Hx) as [[_ [DU _]] _]. apply (ex_derive_continuous (fun x => (W x) ^ 6)).
    unfold W. auto_derive. exists (dU x). exact DU. }
  assert (D : forall x, a <= x <= b -> exists r, Rabs r <= rho /\ is_derive g x (r * (W x) ^ 6)).
  { intros x Hx. destruct (V x Hx) as [[LU [DU QD]] Wp]. assert (QU := locally_singleton _ _ LU). cbv beta in QU.
    destruct (Hs x Hx) as [v [Ev Dv]]. destruct (Hy x Hx) as [u [u' [Eu [Du Ru]]]].
    rewrite (rhs_linear m (U x) (dU x) (s x) x Km QU QD) in Ev by lra. injection Ev as Ev.
    rewrite (rhs_linear m (U x) (dU x) (y x) x Km QU QD) in Eu by lra. injection Eu as Eu.
    exists (u' - u). split; [exact Ru|]. unfold g, W. auto_derive.
    - split; [eexists; exact Du|]. split; [eexists; exact Dv|]. split; [eexists; exact DU|exact I].
    - assert (U1 : Derive (fun t : R => y t) x = u') by exact (is_derive_unique y x _ Du).
      assert (U2 : Derive (fun t : R => s t) x = v) by exact (is_derive_unique s x _ Dv).
      assert (U3 : Derive (fun t : R => U t) x = dU x) by exact (is_derive_unique U x _ DU).
      rewrite U1, U2, U3, <- Ev, <- Eu. simpl. field. lra. }
  assert (Key : forall sg, sg = 1 \/ sg = -1 -> sg * g b <= sg * g a + rho * RInt (fun x => (W x) ^ 6) a b).
  { intros sg Hsg.
    destruct (MVT_gen (fun x => sg * g x - rho * RInt (fun t => (W (clip a b t)) ^ 6) a x) a b
      (fun x => sg * Derive g x - rho * (W x) ^ 6)) as [c [Hc E]].
    - intros x Hx. rewrite Rmin_left, Rmax_right in Hx by lra.
      destruct (D x ltac:(lra)) as [r [Rr Dr]].
      assert (DI : is_derive (RInt (fun t => (W (clip a b t)) ^ 6) a) x ((W x) ^ 6)).
      { replace ((W x) ^ 6) with ((W (clip a b x)) ^ 6) by (rewrite clip_id by lra; reflexivity).
        assert (CC : forall t, continuous (fun t => (W (clip a b t)) ^ 6) t).
        { intros t. apply (continuous_comp (clip a b) (fun x => (W x) ^ 6)); [apply clip_continuous, L|].
          apply C, clip_in, L. }
        apply (is_derive_RInt (fun t => (W (clip a b t)) ^ 6) _ a x).
        - exists (mkposreal 1 Rlt_0_1). intros z _. apply (RInt_correct (fun t => (W (clip a b t)) ^ 6)).
          apply ex_RInt_continuous. intros t _. apply CC.
        - apply CC. }
      assert (Dg : is_derive (fun x => sg * g x) x (sg * Derive g x)).
      { rewrite (is_derive_unique g x _ Dr). apply (is_derive_scal g x sg). exact Dr. }
      apply (is_derive_minus (fun x => sg * g x) (fun x => rho * RInt (fun t => (W (clip a b t)) ^ 6) a x)); [exact Dg|].
      apply (is_derive_scal (RInt (fun t => (W (clip a b t)) ^ 6) a) x rho). exact DI.
    - intros x Hx. rewrite Rmin_left, Rmax_right in Hx by lra. apply continuity_pt_filterlim.
      assert (CC : forall t, continuous (fun t => (W (clip a b t)) ^ 6) t).
      { intros t. apply (continuous_comp (clip a b) (fun x => (W x) ^ 6)); [apply clip_continuous, L|].
        apply C, clip_in, L. }
      destruct (D x ltac:(lra)) as [r [Rr Dr]].
      apply (ex_derive_continuous (fun x => sg * g x - rho * RInt (fun t => (W (clip a b t)) ^ 6) a x)).
      eexists. apply (is_derive_minus (fun x => sg * g x) (fun x => rho * RInt (fun t => (W (clip a b t)) ^ 6) a x)).
      + apply (is_derive_scal g x sg). exact Dr.
      + apply (is_derive_scal (RInt (fun t => (W (clip a b t)) ^ 6) a) x rho).
        apply (is_derive_RInt (fun t => (W (clip a b t)) ^ 6) _ a x).
        * exists (mkposreal 1 Rlt_0_1). intros z _. apply (RInt_correct (fun t => (W (clip a b t)) ^ 6)).
          apply ex_RInt_continuous. intros t _. apply CC.
        * apply CC.
    - rewrite Rmin_left, Rmax_right in Hc by lra. destruct (D c ltac:(lra)) as [r [Rr Dr]].
      rewrite (is_derive_unique g c _ Dr) in E. rewrite RInt_point in E.
      assert (EI : RInt (fun t => (W (clip a b t)) ^ 6) a b = RInt (fun x => (W x) ^ 6) a b).
      { apply RInt_ext. intros t Ht. rewrite Rmin_left, Rmax_right in Ht by lra. rewrite clip_id by lra. reflexivity. }
      rewrite EI in E. change zero with 0 in E.
      assert (P6 : 0 <= (W c) ^ 6) by (apply pow_le; left; apply V; lra).
      assert (sg * (r * (W c) ^ 6) <= rho * (W c) ^ 6).
      { rewrite <- Rmult_assoc. apply Rmult_le_compat_r; [exact P6|]. apply Rabs_le_between in Rr. destruct Hsg as [->| ->]; lra. }
      assert ((sg * (r * (W c) ^ 6) - rho * (W c) ^ 6) * (b - a) <= 0) by nra. lra. }
  assert (K1 := Key 1 (or_introl eq_refl)). assert (K2 := Key (-1) (or_intror eq_refl)).
  assert (Pa : 0 <= (W a) ^ 6) by (apply pow_le; left; apply V; lra).
  assert (Pb : 0 <= (W b) ^ 6) by (apply pow_le; left; apply V; lra).
  replace (Rabs (y b - s b) * (U b + 1/1000) ^ 6) with (Rabs (g b)) by (unfold g; rewrite Rabs_mult, (Rabs_pos_eq (W b ^ 6)) by exact Pb; reflexivity).
  replace (Rabs (y a - s a) * (U a + 1/1000) ^ 6) with (Rabs (g a)) by (unfold g; rewrite Rabs_mult, (Rabs_pos_eq (W a ^ 6)) by exact Pa; reflexivity).
  assert (A1 := Rle_abs (g a)). assert (A2 := Rle_abs (- g a)). rewrite Rabs_Ropp in A2.
  apply Rabs_le. lra.
Qed.

(** The same for the momentum thickness the object reports. *)
Lemma delta_m_of m nu g v b : m_kind m <> Head -> m_nu m = Fin nu -> 0 < nu -> m_sol m = Some g ->
  g b = [Fin v] -> 0 <= v -> exists d, q_delta_m m b = Ok (Fin d) /\ d ^ 2 = nu * v.
Proof.
  intros K Kn Pn Eg Gb Pv. assert (0 <= v * nu) by (apply Rmult_le_pos; lra).
  exists (sqrt (v * nu)). split; [|rewrite <- Rsqr_pow2, Rsqr_sqrt by assumption; ring].
  unfold q_delta_m, sol_at. rewrite Eg. cbn [bind]. rewrite Gb. cbn [comp nth_error bind].
  rewrite Kn, xmul_fin, xsqrt_fin by assumption. destruct (m_kind m); [reflexivity|reflexivity|congruence].
Qed.

Lemma default_accuracy_lemma m cs nu g U dU s y a b k rho : m_kind m = ThwaitesNonlinear ->
  cubic_spline_ok cs -> m_fit m = Some (fit_spline cs) -> m_nu m = Fin nu -> 0 < nu ->
  a <= b -> 0 <= k -> 0 <= rho ->
  (forall x, a <= x <= b -> velocity_at m U (dU x) x /\ 0 < U x + 1/1000 /\ Rabs (dU x) <= k * (U x + 1/1000)) ->
  (forall x, a <= x <= b -> solves1_at m s x) -> (forall x, a <= x <= b -> residual1_at m y x rho) ->
  m_sol m = Some g -> g b = [Fin (y b)] -> 0 <= y b ->
  exists d, q_delta_m m b = Ok (Fin d) /\
    Rabs (d ^ 2 - nu * s b) <= nu * ((Rabs (y a - s a) + rho * (b - a)) * exp (28 * k * (b - a))).
Proof.
  intros Km OK Ef Kn Pn L Hk Hr V Hs Hy Eg Gb Py.
  destruct (delta_m_of m nu g (y b) b ltac:(rewrite Km; discriminate) Kn Pn Eg Gb Py) as [d [Ed D2]].
  exists d. split; [exact Ed|]. rewrite D2, <- Rmult_minus_distr_l, Rabs_mult, (Rabs_pos_eq nu) by lra.
  apply Rmult_le_compat_l; [lra|].
  exact (default_residual_lemma m cs U dU s y a b k rho Km OK Ef L Hk Hr V Hs Hy).
Qed.

Lemma linear_accuracy_lemma m nu g U dU s y a b rho : m_kind m = ThwaitesLinear ->
  m_nu m = Fin nu -> 0 < nu -> a <= b -> 0 <= rho ->
  (forall x, a <= x <= b -> velocity_at m U (dU x) x /\ 0 < U x + 1/1000) ->
  (forall x, a <= x <= b -> solves1_at m s x) -> (forall x, a <= x <= b -> residual1_at m y x rho) ->
  m_sol m = Some g -> g b = [Fin (y b)] -> 0 <= y b ->
  exists d, q_delta_m m b = Ok (Fin d) /\
    Rabs (d ^ 2 - nu * s b) * (U b + 1/1000) ^ 6 <=
    nu * (Rabs (y a - s a) * (U a + 1/1000) ^ 6 + rho * RInt (fun x => (U x + 1/1000) ^ 6) a b).
Proof.
  intros Km Kn Pn L Hr V Hs Hy Eg Gb Py.
  destruct (delta_m_of m nu g (y b) b ltac:(rewrite Km; discriminate) Kn Pn Eg Gb Py) as [d [Ed D2]].
  exists d. split; [exact Ed|]. rewrite D2, <- Rmult_minus_distr_l, Rabs_mult, (Rabs_pos_eq nu) by lra.
  rewrite Rmult_assoc. apply Rmult_le_compat_l; [lra|].
  exact (linear_residual_lemma m U dU s y a b rho Km L Hr V Hs Hy).
Qed.
