(** Proofs about exact solutions of Thwaites' ODEs (C24-C29, C75). *)
From Coq Require Import Reals List Lra Bool.
From Coquelicot Require Import Coquelicot.
From Verif Require Import PyBase PyBaseFacts XDeriv ThwaitesFitsModel ThwaitesFitsProofs HeadModel
  CoreModel OdeSpec.
Import ListNotations.
Open Scope R_scope.

Lemma mult_derive (f g : R -> R) x a b : is_derive f x a -> is_derive g x b ->
  is_derive (fun t => f t * g t) x (a * g x + f x * b).
Proof. intros F G. apply (is_derive_mult f g x a b F G). intros; apply Rmult_comm. Qed.

Lemma affine_derive (g : R -> R) c k x l : is_derive g x l ->
  is_derive (fun t => c + k * g t) x (k * l).
Proof.
  intros D. auto_derive; [exists l; exact D|].
  replace (Derive (fun x0 : R => g x0) x) with l by (symmetry; apply is_derive_unique; exact D).
  ring.
Qed.

Lemma rhs_linear m U dU s x : m_kind m = ThwaitesLinear ->
  q_u_e m x = Ok U -> q_du_e m x = Ok dU -> U + 1/1000 <> 0 ->
  ode_impl m x [Fin s] = Ok [Fin ((45/100 - 6 * (s * dU)) / (1/1000 + U))].
Proof.
  intros K QU QD W. unfold ode_impl, calc_f, calc_lambda. rewrite K, QD. cbn [bind].
  rewrite QU. cbn [bind]. rewrite !xmul_fin, xsub_fin, xadd_fin, xdiv_fin by lra. reflexivity.
Qed.

Lemma linear_product_derive m U dU s x : m_kind m = ThwaitesLinear ->
  velocity_at m U dU x -> solves1_at m s x -> 0 < U x + 1/1000 ->
  is_derive (fun t => s t * (U t + 1/1000)^6) x (45/100 * (U x + 1/1000)^5).
Proof.
  intros K [LU [DU QD]] [v [E Ds]] W.
  assert (QU := locally_singleton _ _ LU).
  rewrite (rhs_linear m (U x) dU (s x) x K QU QD) in E by lra. injection E as E.
  assert (Dw : is_derive (fun t => (U t + 1/1000)^6) x (6 * dU * (U x + 1/1000)^5)).
  { auto_derive; [exists dU; exact DU|].
    replace (Derive (fun x0 : R => U x0) x) with dU by (symmetry; apply is_derive_unique; exact DU).
    cbn. ring. }
  assert (D := mult_derive _ _ _ _ _ Ds Dw).
  replace (45/100 * (U x + 1/1000)^5)
    with (v * (U x + 1/1000)^6 + s x * (6 * dU * (U x + 1/1000)^5)); [exact D|].
  rewrite <- E. field. lra.
Qed.

(** ** C24 *)
Lemma linear_quadrature_lemma m U dU s a b : m_kind m = ThwaitesLinear ->
  (forall x, Rmin a b <= x <= Rmax a b ->
     velocity_at m U (dU x) x /\ solves1_at m s x /\ 0 < U x + 1/1000) ->
  s b * (U b + 1/1000)^6
  = s a * (U a + 1/1000)^6 + 45/100 * RInt (fun x => (U x + 1/1000)^5) a b.
Proof.
  intros K H.
  assert (C : forall x, Rmin a b <= x <= Rmax a b ->
     continuous (fun x => (U x + 1/1000)^5) x).
  { intros x Hx. destruct (H x Hx) as [[_ [DU _]] _].
    apply (ex_derive_continuous (fun x => (U x + 1/1000)^5)).
    auto_derive. exists (dU x). exact DU. }
  assert (I : is_RInt (fun x => 45/100 * (U x + 1/1000)^5) a b
     (minus (s b * (U b + 1/1000)^6) (s a * (U a + 1/1000)^6))).
  { apply (is_RInt_derive (fun x => s x * (U x + 1/1000)^6)).
    - intros x Hx. destruct (H x Hx) as [V [S W]].
      apply (linear_product_derive m U (dU x) s x K V S W).
    - intros x Hx. apply (continuous_scal_r (45/100) (fun x => (U x + 1/1000)^5)).
      apply C. exact Hx. }
  assert (J : is_RInt (fun x => 45/100 * (U x + 1/1000)^5) a b
                (45/100 * RInt (fun x => (U x + 1/1000)^5) a b)).
  { apply (is_RInt_scal (fun x => (U x + 1/1000)^5) a b (45/100)).
    apply (RInt_correct (fun x => (U x + 1/1000)^5)), ex_RInt_continuous. exact C. }
  assert (E := is_RInt_unique _ _ _ _ I). rewrite (is_RInt_unique _ _ _ _ J) in E.
  unfold minus, plus, opp in E. cbn in E. cbn. lra.
Qed.

(** ** C25 *)
Lemma linear_unique_lemma m U dU s1 s2 a b : m_kind m = ThwaitesLinear ->
  (forall x, Rmin a b <= x <= Rmax a b ->
     velocity_at m U (dU x) x /\ solves1_at m s1 x /\ solves1_at m s2 x /\ 0 < U x + 1/1000) ->
  s1 a = s2 a -> s1 b = s2 b.
Proof.
  intros K H E.
  assert (Q1 := linear_quadrature_lemma m U dU s1 a b K
     (fun x Hx => match H x Hx with conj V (conj S1 (conj _ W)) => conj V (conj S1 W) end)).
  assert (Q2 := linear_quadrature_lemma m U dU s2 a b K
     (fun x Hx => match H x Hx with conj V (conj _ (conj S2 W)) => conj V (conj S2 W) end)).
  rewrite E, <- Q2 in Q1.
  assert (0 < U b + 1/1000) by (apply (H b); split; [apply Rmin_r|apply Rmax_r]).
  apply Rmult_eq_reg_r with (1 := Q1). apply pow_nonzero. lra.
Qed.
Lemma linear_positive_lemma m nu U dU s a b : m_kind m = ThwaitesLinear ->
  m_nu m = Fin nu -> 0 < nu -> a <= b ->
  (forall x, a <= x <= b ->
     velocity_at m U (dU x) x /\ solves1_at m s x /\ 0 < U x + 1/1000) ->
  0 < s a ->
  0 < s b /\
  (stored1_at m s b -> exists d, q_delta_m m b = Ok (Fin d) /\ 0 < d /\ d^2 = nu * s b).
Proof.
  intros K Kn Pn L H Pa.
  assert (H' : forall x, Rmin a b <= x <= Rmax a b ->
     velocity_at m U (dU x) x /\ solves1_at m s x /\ 0 < U x + 1/1000).
  { rewrite Rmin_left, Rmax_right by assumption. exact H. }
  assert (Q := linear_quadrature_lemma m U dU s a b K H').
  assert (I : 0 <= RInt (fun x => (U x + 1/1000)^5) a b).
  { apply RInt_ge_0; [assumption| |].
    - apply (ex_RInt_continuous (fun x => (U x + 1/1000)^5)). intros x Hx. destruct (H' x Hx) as [[_ [DU _]] _].
      apply (ex_derive_continuous (fun x => (U x + 1/1000)^5)).
      auto_derive. exists (dU x). exact DU.
    - intros x Hx. apply pow_le. destruct (H x ltac:(lra)) as [_ [_ W]]. lra. }
  destruct (H a ltac:(lra)) as [_ [_ Wa]]. destruct (H b ltac:(lra)) as [_ [_ Wb]].
  assert (Pb : 0 < s b).
  { apply Rmult_lt_reg_r with ((U b + 1/1000)^6); [apply pow_lt; lra|].
    rewrite Rmult_0_l, Q.
    assert (0 < s a * (U a + 1/1000)^6) by (apply Rmult_lt_0_compat; [lra|apply pow_lt; lra]).
    lra. }
  split; [exact Pb|]. intros [f [Ef Lf]]. assert (Eb := locally_singleton _ _ Lf).
  exists (sqrt (s b * nu)). unfold q_delta_m, sol_at. rewrite Ef. cbn [bind].
  rewrite Eb, K, Kn. cbn [comp nth_error bind].
  assert (0 < s b * nu) by (apply Rmult_lt_0_compat; lra).
  rewrite xmul_fin, xsqrt_fin by lra. split; [reflexivity|]. split; [apply sqrt_lt_R0; lra|].
  rewrite pow2_sqrt by lra. ring.
Qed.

(** The closed form solves the ODE: solutions exist for every velocity function with
    [U + 1e-3 > 0] and continuous integrand. *)
Lemma linear_exists_on m U dU s0 a : m_kind m = ThwaitesLinear ->
  (forall x, velocity_at m U (dU x) x) -> 0 < U a + 1/1000 ->
  exists s, s a = s0 /\ forall x, 0 < U x + 1/1000 -> solves1_at m s x.
Proof.
  intros K H Ha.
  set (w := fun x => U x + 1/1000).
  assert (C : forall x, continuous (fun x => (w x)^5) x).
  { intros x. destruct (H x) as [_ [DU _]]. unfold w.
    apply (ex_derive_continuous (fun x => (U x + 1/1000)^5)).
    auto_derive. exists (dU x). exact DU. }
  exists (fun x => (s0 * (w a)^6 + 45/100 * RInt (fun x => (w x)^5) a x) / (w x)^6).
  assert (Wa : 0 < w a) by (unfold w; exact Ha).
  split.
  - rewrite RInt_point. unfold zero; cbn. field. lra.
  - intros x W. destruct (H x) as [LU [DU QD]].
    assert (QU := locally_singleton _ _ LU).
    eexists. split.
    + apply (rhs_linear m (U x) (dU x) _ x K QU QD). lra.
    + assert (DI : is_derive (fun x => RInt (fun x => (w x)^5) a x) x ((w x)^5)).
      { apply (is_derive_RInt (fun x => (w x)^5) (fun x => RInt (fun x => (w x)^5) a x) a x).
        - exists (mkposreal 1 Rlt_0_1). intros y _. apply (RInt_correct (fun x => (w x)^5)).
          apply (ex_RInt_continuous (fun x => (w x)^5)). intros z _. apply C.
        - apply C. }
      assert (DN : is_derive (fun x => s0 * (w a)^6 + 45/100 * RInt (fun x => (w x)^5) a x) x
                     (45/100 * (w x)^5)).
      { apply (affine_derive (fun x => RInt (fun x => (w x)^5) a x)). exact DI. }
      assert (DW : is_derive (fun x => / (w x)^6) x (- (6 * dU x) / (w x)^7)).
      { unfold w. auto_derive.
        - split; [exists (dU x); exact DU|]. split; [|exact I].
          unfold w in *. repeat (apply Rmult_integral_contrapositive_currified; [lra|]). lra.
        - replace (Derive (fun x0 : R => U x0) x) with (dU x)
            by (symmetry; apply is_derive_unique; exact DU).
          cbn. field. lra. }
      assert (D := mult_derive _ _ _ _ _ DN DW). cbv beta in D. unfold Rdiv at 1.
      fold (w x). replace (1/1000 + U x) with (w x) by (unfold w; ring).
      unfold w in W. fold (w x) in W.
      match type of D with is_derive ?f ?p ?l => match goal with |- is_derive ?g ?q ?r =>
        replace r with l; [exact D|] end end.
      field. lra.
Qed.

Lemma linear_exists_lemma m U dU s0 a : m_kind m = ThwaitesLinear ->
  (forall x, velocity_at m U (dU x) x /\ 0 < U x + 1/1000) ->
  exists s, s a = s0 /\ forall x, solves1_at m s x.
Proof.
  intros K H. destruct (linear_exists_on m U dU s0 a K (fun x => proj1 (H x)) (proj2 (H a))) as (s & E & S).
  exists s. split; [exact E|]. intros x. apply S, H.
Qed.

(** ** C26 *)
Lemma thwaites_ve_lemma m nu f U dU d2U s x p : m_kind m <> Head ->
  m_nu m = Fin nu -> 0 < nu -> m_fit m = Some f ->
  velocity2_at m U dU d2U x -> solves1_at m s x -> stored1_at m s x -> 0 < s x ->
  shape_p f (Fin (s x * dU x)) = Fin p -> xderiv (shape f) (s x * dU x) p ->
  exists v, exists dd : R -> R, q_v_e m x = Ok (Fin v) /\
    locally x (fun t => q_delta_d m t = Ok (Fin (dd t))) /\
    is_derive (fun t => U t * dd t) x v.
Proof.
  intros K Kn Pn Kf [LU [DU [LD [D2 Q2]]]] [v [E Ds]] [g [Eg Lg]] Ps Ep [HR [LH DH]].
  assert (QU := locally_singleton _ _ LU). assert (QD := locally_singleton _ _ LD).
  assert (Sx := locally_singleton _ _ Lg). cbv beta in QU, QD, Sx.
  assert (Dlam : is_derive (fun t => s t * dU t) x (v * dU x + s x * d2U)).
  { apply mult_derive; assumption. }
  assert (Clam : filterlim (fun t => s t * dU t) (locally x) (locally (s x * dU x))).
  { apply (ex_derive_continuous (fun t => s t * dU t)). eexists; exact Dlam. }
  assert (LHx : locally x (fun t => shape f (Fin (s t * dU t)) = Fin (HR (s t * dU t)))).
  { exact (Clam _ LH). }
  assert (Hx : shape f (Fin (s x * dU x)) = Fin (HR (s x * dU x)))
    by exact (locally_singleton _ _ LHx).
  assert (Lpos : locally x (fun t => 0 < s t)).
  { assert (Cs : filterlim s (locally x) (locally (s x))).
    { apply (ex_derive_continuous s). eexists; exact Ds. }
    exact (Cs _ (locally_gt 0 (s x) Ps)). }
  exists (dU x * (sqrt (s x * nu) * HR (s x * dU x))
     + sqrt (nu / s x) * (5/10 * U x * HR (s x * dU x) * v
        + U x * s x * p * (dU x * v + d2U * s x))),
    (fun t => sqrt (s t * nu) * HR (s t * dU t)).
  assert (QDD : forall t, g t = [Fin (s t)] -> q_du_e m t = Ok (dU t) -> 0 < s t ->
     shape f (Fin (s t * dU t)) = Fin (HR (s t * dU t)) ->
     q_shape_d m t = Ok (Fin (HR (s t * dU t))) /\
     q_delta_m m t = Ok (Fin (sqrt (s t * nu))) /\
     q_delta_d m t = Ok (Fin (sqrt (s t * nu) * HR (s t * dU t)))).
  { intros t E1 E2 P E3.
    assert (A : q_shape_d m t = Ok (Fin (HR (s t * dU t)))).
    { unfold q_shape_d, sol_at. rewrite Eg. cbn [bind]. rewrite E1.
      destruct (m_kind m); [| |congruence]; cbn [comp nth_error bind]; unfold calc_lambda;
        rewrite E2; cbn [bind]; rewrite Kf, xmul_fin, E3; reflexivity. }
    assert (B : q_delta_m m t = Ok (Fin (sqrt (s t * nu)))).
    { unfold q_delta_m, sol_at. rewrite Eg. cbn [bind]. rewrite E1. cbn [comp nth_error bind].
      assert (0 < s t * nu) by (apply Rmult_lt_0_compat; lra).
      rewrite Kn, xmul_fin, xsqrt_fin by lra. destruct (m_kind m); [| |congruence]; reflexivity. }
    split; [exact A|]. split; [exact B|]. unfold q_delta_d. rewrite A, B. cbn [bind].
    rewrite xmul_fin. reflexivity. }
  destruct (QDD x Sx QD Ps Hx) as [QA [QB QC]].
  split; [|split].
  - unfold q_v_e, sol_at. rewrite Eg. cbn [bind]. rewrite Sx.
    assert (M : forall (A : Type) (P Q : A), match m_kind m with Head => P | _ => Q end = Q).
    { intros. destruct (m_kind m); [reflexivity|reflexivity|congruence]. }
    rewrite M. rewrite QU, QD. cbn [bind comp nth_error]. rewrite QC. cbn [bind].
    rewrite E. cbn [bind comp nth_error]. rewrite QA. cbn [bind]. unfold calc_lambda.
    rewrite QD. cbn [bind]. rewrite Kf, Q2. cbn [bind]. rewrite !xmul_fin, Ep, Kn.
    rewrite (xdiv_fin nu (s x)) by lra.
    rewrite xsqrt_fin by (left; apply Rdiv_lt_0_compat; lra).
    repeat (rewrite ?xmul_fin, ?xadd_fin). reflexivity.
  - generalize (filter_and _ _ (filter_and _ _ Lg LD) (filter_and _ _ Lpos LHx)).
    apply filter_imp. intros t [[E1 E2] [E3 E4]]. apply (QDD t); assumption.
  - assert (Psn : 0 < s x * nu) by (apply Rmult_lt_0_compat; lra).
    assert (Dsq : is_derive (fun t => sqrt (s t * nu)) x (v * nu / (2 * sqrt (s x * nu)))).
    { assert (A : is_derive (fun t => s t * nu) x (v * nu)).
      { auto_derive; [exists v; exact Ds|].
        replace (Derive (fun x0 : R => s x0) x) with v by (symmetry; apply is_derive_unique; exact Ds).
        ring. }
      apply (is_derive_sqrt (fun t => s t * nu) x (v * nu) A Psn). }
    assert (DHl : is_derive (fun t => HR (s t * dU t)) x ((v * dU x + s x * d2U) * p)).
    { apply (is_derive_comp HR (fun t => s t * dU t) x p _ DH Dlam). }
    assert (D1 := mult_derive _ _ _ _ _ Dsq DHl). cbv beta in D1.
    assert (D := mult_derive _ _ _ _ _ DU D1). cbv beta in D.
    match type of D with is_derive ?f ?q ?l => match goal with |- is_derive ?g ?q ?r =>
        replace r with l; [exact D|] end end.
    assert (SQ : sqrt (s x * nu) = sqrt (nu / s x) * s x).
    { apply sqrt_lem_1; [lra| |].
      - apply Rmult_le_pos; [apply sqrt_pos|lra].
      - replace (sqrt (nu / s x) * s x * (sqrt (nu / s x) * s x))
          with ((sqrt (nu / s x) * sqrt (nu / s x)) * (s x * s x)) by ring.
        rewrite sqrt_sqrt by (left; apply Rdiv_lt_0_compat; lra). field. lra. }
    assert (SN : nu = sqrt (nu / s x) * sqrt (nu / s x) * s x).
    { rewrite sqrt_sqrt by (left; apply Rdiv_lt_0_compat; lra). field. lra. }
    assert (SP : 0 < sqrt (nu / s x)) by (apply sqrt_lt_R0, Rdiv_lt_0_compat; lra).
    replace (v * nu / (2 * sqrt (s x * nu))) with (v * sqrt (nu / s x) / 2).
    2:{ rewrite SQ. rewrite SN at 2. field. split; lra. }
    rewrite SQ. field.
Qed.

(** ** C27 *)
Lemma thwaites_momentum_lemma m nu f U dU s x S H rho : m_kind m = ThwaitesNonlinear ->
  m_nu m = Fin nu -> 0 < nu -> m_fit m = Some f ->
  velocity_at m U dU x -> solves1_at m s x -> stored1_at m s x -> 0 < s x ->
  0 < U x + 1/1000 ->
  shear f (Fin (s x * dU)) = Fin S -> shape f (Fin (s x * dU)) = Fin H ->
  exists tau, exists d : R -> R,
    q_tau_w_thwaites m x rho = Ok (Fin tau) /\ q_shape_d m x = Ok (Fin H) /\
    locally x (fun t => q_delta_m m t = Ok (Fin (d t))) /\ 0 < d x /\
    is_derive d x (Derive d x) /\
    rho * U x * (U x + 1/1000) * (Derive d x + (2 + H) * (d x / (U x + 1/1000)) * dU) = tau.
Proof.
  intros K Kn Pn Kf [LU [DU QD]] [v [E Ds]] [g [Eg Lg]] Ps W ES EH.
  assert (QU := locally_singleton _ _ LU).
  assert (Sx := locally_singleton _ _ Lg). cbv beta in QU, Sx.
  assert (Psn : 0 < s x * nu) by (apply Rmult_lt_0_compat; lra).
  assert (Psq : 0 < sqrt (s x * nu)) by (apply sqrt_lt_R0; assumption).
  assert (Lpos : locally x (fun t => 0 < s t)).
  { assert (Cs : filterlim s (locally x) (locally (s x))).
    { apply (ex_derive_continuous s). eexists; exact Ds. }
    exact (Cs _ (locally_gt 0 (s x) Ps)). }
  assert (QB : forall t, g t = [Fin (s t)] -> 0 < s t -> q_delta_m m t = Ok (Fin (sqrt (s t * nu)))).
  { intros t E1 P. unfold q_delta_m, sol_at. rewrite Eg. cbn [bind]. rewrite E1. cbn [comp nth_error bind].
      assert (0 < s t * nu) by (apply Rmult_lt_0_compat; lra).
      rewrite Kn, xmul_fin, xsqrt_fin by lra. rewrite K. reflexivity. }
  assert (Dsq : is_derive (fun t => sqrt (s t * nu)) x (v * nu / (2 * sqrt (s x * nu)))).
  { assert (A : is_derive (fun t => s t * nu) x (v * nu)).
    { auto_derive; [exists v; exact Ds|].
      replace (Derive (fun x0 : R => s x0) x) with v by (symmetry; apply is_derive_unique; exact Ds).
      ring. }
    apply (is_derive_sqrt (fun t => s t * nu) x (v * nu) A Psn). }
  exists (rho * nu * U x * S / sqrt (s x * nu)), (fun t => sqrt (s t * nu)).
  split; [|split; [|split; [|split; [|split]]]].
  - unfold q_tau_w_thwaites, sol_at. rewrite Eg. cbn [bind]. rewrite Sx. cbn [comp nth_error bind].
    unfold calc_lambda. rewrite QD. cbn [bind]. rewrite QU. cbn [bind].
    rewrite Kf, (QB x Sx Ps). cbn [bind]. rewrite xmul_fin, ES, Kn, !xmul_fin, xdiv_fin by lra.
    reflexivity.
  - unfold q_shape_d, sol_at. rewrite Eg. cbn [bind]. rewrite Sx, K. cbn [comp nth_error bind].
    unfold calc_lambda. rewrite QD. cbn [bind]. rewrite Kf, xmul_fin, EH. reflexivity.
  - generalize (filter_and _ _ Lg Lpos). apply filter_imp. intros t [A B]. apply QB; assumption.
  - exact Psq.
  - assert (DD := is_derive_unique _ _ _ Dsq). cbn in DD |- *. rewrite DD. exact Dsq.
  - assert (DD := is_derive_unique _ _ _ Dsq).
    match goal with |- context [Derive ?f x] => change (Derive f x) with (Derive (fun t => sqrt (s t * nu)) x) end.
    match type of DD with ?a = ?b => change a with (Derive (fun t => sqrt (s t * nu)) x) in DD end.
    rewrite DD.
    unfold ode_impl, calc_f, calc_lambda in E. rewrite K, QD in E. cbn [bind] in E.
    rewrite Kf in E. cbn [bind] in E. rewrite QU in E. cbn [bind] in E.
    unfold fit_f in E. rewrite xmul_fin, ES, EH in E.
    rewrite !xadd_fin, !xmul_fin, xsub_fin, xmul_fin, xdiv_fin in E by lra. injection E as <-.
    assert (SS : sqrt (s x * nu) * sqrt (s x * nu) = s x * nu) by (apply sqrt_sqrt; lra).
    set (q := sqrt (s x * nu)) in *.
    assert (Es : s x = q * q / nu) by (rewrite SS; field; lra).
    rewrite Es. field. repeat split; lra.
Qed.

(** ** C28 *)
Lemma thwaites_consistent_lemma m nu f x rho d : m_kind m <> Head ->
  m_nu m = Fin nu -> 0 < nu -> m_fit m = Some f ->
  q_delta_m m x = Ok (Fin d) -> 0 < d ->
  (forall H, q_shape_d m x = Ok (Fin H) ->
     q_delta_d m x = Ok (Fin (d * H)) /\ q_shape_d m x = Ok (Fin (d * H) / Fin d)%xr) /\
  (forall U dU, q_u_e m x = Ok U -> q_du_e m x = Ok dU ->
     q_shape_d m x = Ok (shape f (Fin (d^2 / nu * dU))) /\
     forall S, shear f (Fin (d^2 / nu * dU)) = Fin S ->
     exists tau, q_tau_w_thwaites m x rho = Ok (Fin tau) /\ tau * d = rho * nu * U * S) /\
  q_delta_k m x = Ok (Fin 0) /\ q_shape_k m x = Ok (Fin 0) /\ q_dissipation m x rho = Ok (Fin 0).
Proof.
  intros K Kn Pn Kf QD Pd.
  assert (exists y s, sol_at m x = Ok y /\ comp 0 y = Ok (Fin s) /\ d = sqrt (s * nu) /\ 0 < s * nu)
    as [y [s [E1 [E2 [E3 E4]]]]].
  { unfold q_delta_m in QD. destruct (sol_at m x) as [y|]; [|discriminate]. cbn [bind] in QD.
    destruct (comp 0 y) as [s|] eqn:Es; [|discriminate]. cbn [bind] in QD. exists y.
    assert (QD' : xsqrt (s * m_nu m)%xr = Fin d)
      by (destruct (m_kind m); [| |congruence]; injection QD as QD; exact QD).
    rewrite Kn in QD'. destruct s as [s| | |].
    - exists s. rewrite xmul_fin in QD'. unfold xsqrt in QD'.
      destruct (Rlt_dec (s * nu) 0); [discriminate|]. injection QD' as <-.
      split; [reflexivity|]. split; [exact Es|]. split; [reflexivity|]. destruct (Rle_lt_or_eq_dec 0 (s * nu)) as [L|L]; [lra|exact L|].
      rewrite <- L, sqrt_0 in Pd. lra.
    - exfalso. revert QD'. cbn. unfold inf_times. destruct (Rlt_dec 0 nu); [discriminate|lra].
    - exfalso. revert QD'. cbn. unfold inf_times. destruct (Rlt_dec 0 (- nu)); [lra|].
      destruct (Rlt_dec (- nu) 0); [discriminate|lra].
    - discriminate. }
  assert (L : forall dU, s * dU = d^2 / nu * dU).
  { intros dU. rewrite E3, pow2_sqrt by lra. field. lra. }
  split; [|split; [|split; [|split]]].
  - intros H QH. split.
    + unfold q_delta_d. rewrite QD, QH. cbn [bind]. rewrite xmul_fin. reflexivity.
    + rewrite QH, xdiv_fin by lra. do 2 f_equal. field. lra.
  - intros U dU QU QdU. split.
    + unfold q_shape_d. rewrite E1. cbn [bind].
      destruct (m_kind m); [| |congruence]; rewrite E2; cbn [bind]; unfold calc_lambda;
        rewrite QdU; cbn [bind]; rewrite Kf, xmul_fin, L; reflexivity.
    + intros S ES. exists (rho * nu * U * S / d). split; [|field; lra].
      unfold q_tau_w_thwaites. rewrite E1. cbn [bind]. rewrite E2. cbn [bind]. unfold calc_lambda.
      rewrite QdU. cbn [bind]. rewrite QU. cbn [bind]. rewrite Kf, QD. cbn [bind].
      rewrite xmul_fin, L, ES, Kn, !xmul_fin, xdiv_fin by lra. reflexivity.
  - reflexivity.
  - unfold q_shape_k, q_delta_k. rewrite QD. cbn [bind]. rewrite (xdiv_fin 0 d) by lra. do 2 f_equal. field. lra.
  - reflexivity.
Qed.

(** ** C29 *)
Definition fit_finite (f : fit) : Prop :=
  forall l, (exists S, shear f (Fin l) = Fin S) /\ (exists H, shape f (Fin l) = Fin H).

Lemma white_finite : fit_finite fit_white.
Proof.
  intros l. split.
  - destruct (Rle_or_lt l (-9/100)) as [A|A].
    + exists 0. apply white_shear_low. exact A.
    + eexists. apply white_shear_in. exact A.
  - unfold shape. destruct (Rle_or_lt l (-9/100)) as [A|A].
    + cbn [fit_white fit_lo fit_hi fit_shape].
      unfold check_range. cbn [xltb]. destruct (Rlt_or_le l (-9/100)).
      * rewrite Rltb_true by assumption. eexists; apply white_shape_eval.
      * rewrite Rltb_false by assumption. eexists; apply white_shape_eval.
    + cbn [fit_white fit_lo fit_hi fit_shape]. unfold check_range. cbn [xltb].
      rewrite Rltb_false by lra. eexists; apply white_shape_eval.
Qed.
Lemma check_range_fin lo hi l : lo <= hi ->
  exists r, check_range (Fin lo) (Fin hi) (Fin l) = Fin r /\ lo <= r <= hi.
Proof.
  intros L. unfold check_range. cbn [xltb]. destruct (Rlt_or_le l lo) as [A|A].
  - rewrite Rltb_true by assumption. exists lo. split; [reflexivity|lra].
  - rewrite Rltb_false by assumption. destruct (Rlt_or_le hi l) as [B|B].
    + rewrite Rltb_true by assumption. exists hi. split; [reflexivity|lra].
    + rewrite Rltb_false by assumption. exists l. split; [reflexivity|lra].
Qed.
Lemma check_range_fin_inf lo l :
  exists r, check_range (Fin lo) PInf (Fin l) = Fin r /\ lo <= r.
Proof.
  unfold check_range. cbn [xltb]. destruct (Rlt_or_le l lo) as [A|A].
  - rewrite Rltb_true by assumption. exists lo. split; [reflexivity|lra].
  - rewrite Rltb_false by assumption. exists l. split; [reflexivity|lra].
Qed.
Lemma cb_finite : fit_finite fit_cb.
Proof.
  intros l. unfold shear, shape. cbn [fit_cb fit_lo fit_hi fit_shear fit_shape].
  destruct (check_range_fin (-1/10) (1/10) l) as [r [E B]]; [lra|]. rewrite E. split.
  - destruct (Rlt_or_le r 0); eexists; [apply cb_shear_neg|apply cb_shear_pos]; lra.
  - destruct (Rlt_or_le r 0); eexists; [apply cb_shape_neg|apply cb_shape_pos]; lra.
Qed.
Lemma drela_finite : fit_finite fit_drela.
Proof.
  intros l. unfold shear, shape. cbn [fit_drela fit_lo fit_hi fit_shear fit_shape].
  destruct (check_range_fin_inf (-9/100) l) as [r [E B]]. rewrite E. split.
  - eexists; apply drela_shear_eval; lra.
  - eexists; apply drela_shape_eval; lra.
Qed.
Lemma spline_finite cs :
  (forall ys r, ys = tab_shear \/ ys = tab_shape -> -90/1000 <= r <= 250/1000 ->
     exists v, fst (cs tab_lambda ys) (Fin r) = Fin v) ->
  fit_finite (fit_spline cs).
Proof.
  intros H l. unfold shear, shape. cbn [fit_spline fit_lo fit_hi fit_shear fit_shape].
  destruct (check_range_fin (-90/1000) (250/1000) l) as [r [E B]]; [lra|]. rewrite E.
  split; apply H; auto.
Qed.

Lemma rhs_finite_lemma m x s U dU : m_kind m <> Head ->
  q_u_e m x = Ok U -> q_du_e m x = Ok dU -> 0 <= U ->
  (m_kind m = ThwaitesLinear \/
   exists f, m_fit m = Some f /\ fit_finite f) ->
  exists v, ode_impl m x [Fin s] = Ok [Fin v].
Proof.
  intros K QU QD PU C. destruct (m_kind m) eqn:Km; [| |congruence].
  - eexists. apply (rhs_linear m U dU s x Km QU QD). lra.
  - destruct C as [C|[f [Ef FF]]]; [discriminate|].
    destruct (FF (s * dU)) as [[S ES] [H EH]].
    unfold ode_impl, calc_f, calc_lambda. rewrite Km, QD. cbn [bind]. rewrite Ef. cbn [bind].
    rewrite QU. cbn [bind]. unfold fit_f. rewrite xmul_fin, ES, EH.
    rewrite !xadd_fin, !xmul_fin, xsub_fin, xmul_fin, xdiv_fin by lra. eexists. reflexivity.
Qed.

Lemma thwaites_ve_builtin_lemma : forall m nu f U dU d2U s x, m_kind m <> Head ->
  m_nu m = Fin nu -> 0 < nu -> m_fit m = Some f ->
  velocity2_at m U dU d2U x -> solves1_at m s x -> stored1_at m s x -> 0 < s x ->
  (f = fit_white /\ -9/100 < s x * dU x) \/ (f = fit_drela /\ -9/100 < s x * dU x) \/
  (f = fit_cb /\ -1/10 < s x * dU x < 1/10 /\ s x * dU x <> 0) ->
  exists v, exists dd : R -> R, q_v_e m x = Ok (Fin v) /\
    locally x (fun t => q_delta_d m t = Ok (Fin (dd t))) /\
    is_derive (fun t => U t * dd t) x v.
Proof.
  intros m nu f U dU d2U s x K Kn Pn Kf V S St Ps C.
  assert (exists p, shape_p f (Fin (s x * dU x)) = Fin p /\ xderiv (shape f) (s x * dU x) p)
    as [p [E1 E2]].
  { destruct C as [[-> C]|[[-> C]|[-> [C N]]]]; apply fit_derivatives_lemma; assumption. }
  exact (thwaites_ve_lemma m nu f U dU d2U s x p K Kn Pn Kf V S St Ps E1 E2).
Qed.
