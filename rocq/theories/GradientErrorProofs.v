(** What an inexact gradient does to the results (C170). *)
From Coq Require Import Reals List Lra Lia.
From Coquelicot Require Import Coquelicot Rcomplements.
From Verif Require Import PyBase PyBaseFacts FiniteDiffProofs ThwaitesFitsModel SplineSpec SplineProofs SkinFrictionModel HeadModel HeadProofs
  CoreModel CoreProofs OdeSpec WellPosedSpec ThwaitesOdeProofs HeadOdeProofs PositivityProofs WellPosedProofs
  WellPosedOdeProofs FitLipschitzProofs SystemProofs HeadExistProofs StabilityProofs SensitivityProofs
  HeadSensitivityProofs FiniteDiffModel CoreRefute WellPosedProps GradientErrorSpec.
Import ListNotations.
Open Scope R_scope.

Lemma drops f f' a b : a <= b -> (forall x, a <= x <= b -> is_derive f x (f' x) /\ f' x <= 0) -> f b <= f a.
Proof.
  intros L H. destruct (MVT_gen f a b f') as (c & Hc & E).
  - intros x Hx. rewrite Rmin_left, Rmax_right in Hx by lra. apply H. lra.
  - intros x Hx. rewrite Rmin_left, Rmax_right in Hx by lra. apply continuity_pt_filterlim.
    apply (ex_derive_continuous f). eexists. apply H. lra.
  - rewrite Rmin_left, Rmax_right in Hc by lra. destruct (H c Hc) as [_ N].
    assert (f' c * (b - a) <= 0) by (apply Rmult_le_0_r; lra). lra.
Qed.

Lemma is_derive_to (f : R -> R) (x l l' : R) : is_derive f x l -> l = l' -> is_derive f x l'.
Proof. intros A <-. exact A. Qed.

Lemma minus_derive (f g : R -> R) (x p q : R) : is_derive f x p -> is_derive g x q -> is_derive (fun t => f t - g t) x (p - q).
Proof. intros A B. exact (is_derive_minus f g x p q A B). Qed.

Section Linear.
Variables (a b q : R) (E dU D s1 s2 : R -> R).
Hypothesis Hab : a <= b.
Hypothesis Hq : 0 <= q.
Hypothesis H : forall x, a <= x <= b -> 0 < E x /\ is_derive E x (dU x) /\ 0 < s2 x /\
  is_derive s1 x ((45/100 - 6 * (s1 x * dU x)) / E x) /\ is_derive s2 x ((45/100 - 6 * (s2 x * D x)) / E x) /\
  6 * Rabs (D x - dU x) <= q * E x.
Hypothesis Ea : s2 a = s1 a.

Lemma product1 x : a <= x <= b -> is_derive (fun t => s1 t * E t ^ 6) x (45/100 * E x ^ 5).
Proof.
  intros Hx. destruct (H x Hx) as (PE & DE & _ & D1 & _).
  auto_derive; [split; [eexists; exact D1|split; [eexists; exact DE|exact I]]|].
  change (Derive (fun x0 => s1 x0) x) with (Derive s1 x). change (Derive (fun x0 => E x0) x) with (Derive E x).
  rewrite (is_derive_unique s1 _ _ D1), (is_derive_unique E _ _ DE). field. lra.
Qed.

Lemma product2 x : a <= x <= b ->
  is_derive (fun t => s2 t * E t ^ 6) x (45/100 * E x ^ 5 - 6 * (D x - dU x) * s2 x * E x ^ 5).
Proof.
  intros Hx. destruct (H x Hx) as (PE & DE & _ & _ & D2 & _).
  auto_derive; [split; [eexists; exact D2|split; [eexists; exact DE|exact I]]|].
  change (Derive (fun x0 => s2 x0) x) with (Derive s2 x). change (Derive (fun x0 => E x0) x) with (Derive E x).
  rewrite (is_derive_unique s2 _ _ D2), (is_derive_unique E _ _ DE). field. lra.
Qed.

Lemma drift x : a <= x <= b -> Rabs (6 * (D x - dU x) * s2 x * E x ^ 5) <= q * (s2 x * E x ^ 6).
Proof.
  intros Hx. destruct (H x Hx) as (PE & _ & P2 & _ & _ & B).
  assert (P5 : 0 < E x ^ 5) by (apply pow_lt; exact PE).
  rewrite !Rabs_mult, (Rabs_pos_eq 6), (Rabs_pos_eq (s2 x)), (Rabs_pos_eq (E x ^ 5)) by lra.
  replace (q * (s2 x * E x ^ 6)) with (q * E x * s2 x * E x ^ 5) by ring.
  apply Rmult_le_compat_r; [lra|]. apply Rmult_le_compat_r; lra.
Qed.

Lemma linear_bounds : s2 b <= exp (q * (b - a)) * s1 b /\ s1 b <= exp (q * (b - a)) * s2 b.
Proof.
  assert (PEb : 0 < E b ^ 6) by (apply pow_lt, H; lra).
  assert (X : forall x, a <= x -> 1 <= exp (q * (x - a))).
  { intros x Hx. rewrite <- exp_0. assert (0 <= q * (x - a)) by (apply Rmult_le_pos; lra).
    destruct (Req_dec (q * (x - a)) 0) as [->|]; [lra|left; apply exp_increasing; lra]. }
  split.
  - assert (L : s2 b * E b ^ 6 * exp (- (q * (b - a))) - s1 b * E b ^ 6 <= s2 a * E a ^ 6 * exp (- (q * (a - a))) - s1 a * E a ^ 6).
    { apply (drops (fun x => s2 x * E x ^ 6 * exp (- (q * (x - a))) - s1 x * E x ^ 6)
        (fun x => (45/100 * E x ^ 5 - 6 * (D x - dU x) * s2 x * E x ^ 5) * exp (- (q * (x - a)))
                  - q * (s2 x * E x ^ 6) * exp (- (q * (x - a))) - 45/100 * E x ^ 5) a b Hab).
      intros x Hx. assert (A1 := product1 x Hx). assert (A2 := product2 x Hx). assert (B := drift x Hx).
      apply Rabs_le_between in B.
      assert (A3 : is_derive (fun t => exp (- (q * (t - a)))) x (- q * exp (- (q * (x - a))))) by (auto_derive; [exact I|unfold Rminus; ring]).
      split.
      - assert (A4 := minus_derive _ _ _ _ _ (mult_derive _ _ _ _ _ A2 A3) A1).
        cbv beta in A4. eapply is_derive_to; [exact A4|]. ring.
      - set (w := exp (- (q * (x - a)))) in *. assert (Pw : 0 < w) by apply exp_pos.
        assert (w <= 1).
        { unfold w. rewrite exp_Ropp. rewrite <- Rinv_1. apply Rinv_le_contravar; [lra|]. apply X. lra. }
        destruct (H x Hx) as (PE & _). assert (P5 : 0 < E x ^ 5) by (apply pow_lt; exact PE).
        assert (T1 : (- (6 * (D x - dU x) * s2 x * E x ^ 5) - q * (s2 x * E x ^ 6)) * w <= 0) by (apply Rmult_le_0_r; lra).
        assert (T2 : 45/100 * E x ^ 5 * w <= 45/100 * E x ^ 5 * 1) by (apply Rmult_le_compat_l; lra).
        lra. }
    rewrite Rminus_eq_0, Rmult_0_r, Ropp_0, exp_0, Ea in L. rewrite exp_Ropp in L.
    assert (P := exp_pos (q * (b - a))). set (w := exp (q * (b - a))) in *.
    assert (L2 : s2 b * E b ^ 6 * / w <= s1 b * E b ^ 6) by lra.
    apply (Rmult_le_reg_r (E b ^ 6)); [exact PEb|].
    apply (Rmult_le_compat_r w) in L2; [|lra]. rewrite Rmult_assoc, Rinv_l in L2 by lra. lra.
  - assert (L : s1 b * E b ^ 6 - s2 b * E b ^ 6 * exp (q * (b - a)) <= s1 a * E a ^ 6 - s2 a * E a ^ 6 * exp (q * (a - a))).
    { apply (drops (fun x => s1 x * E x ^ 6 - s2 x * E x ^ 6 * exp (q * (x - a)))
        (fun x => 45/100 * E x ^ 5 - (45/100 * E x ^ 5 - 6 * (D x - dU x) * s2 x * E x ^ 5) * exp (q * (x - a))
                  - q * (s2 x * E x ^ 6) * exp (q * (x - a))) a b Hab).
      intros x Hx. assert (A1 := product1 x Hx). assert (A2 := product2 x Hx). assert (B := drift x Hx).
      apply Rabs_le_between in B.
      assert (A3 : is_derive (fun t => exp (q * (t - a))) x (q * exp (q * (x - a)))) by (auto_derive; [exact I|unfold Rminus; ring]).
      split.
      - assert (A4 := minus_derive _ _ _ _ _ A1 (mult_derive _ _ _ _ _ A2 A3)).
        cbv beta in A4. eapply is_derive_to; [exact A4|]. ring.
      - assert (Pw := X x ltac:(lra)). set (w := exp (q * (x - a))) in *.
        destruct (H x Hx) as (PE & _). assert (P5 : 0 < E x ^ 5) by (apply pow_lt; exact PE).
        assert (T1 : (6 * (D x - dU x) * s2 x * E x ^ 5 - q * (s2 x * E x ^ 6)) * w <= 0) by (apply Rmult_le_0_r; lra).
        assert (T2 : 45/100 * E x ^ 5 * 1 <= 45/100 * E x ^ 5 * w) by (apply Rmult_le_compat_l; lra).
        lra. }
    rewrite Rminus_eq_0, Rmult_0_r, exp_0, Ea in L.
    apply (Rmult_le_reg_r (E b ^ 6)); [exact PEb|]. lra.
Qed.
End Linear.

(** The gradient that is reported, as a function of position. *)
Definition grad_of (m : meth) (x : R) : R := match q_du_e m x with Ok g => g | Err _ => 0 end.

Lemma grad_of_ok m U dU e x : gradient_within m U dU e x ->
  q_u_e m x = Ok (U x) /\ q_du_e m x = Ok (grad_of m x) /\ Rabs (grad_of m x - dU) <= e.
Proof. intros (g & A & B & C). unfold grad_of. rewrite B. auto. Qed.

Lemma sub_between a b x : a <= x <= b -> forall y, a <= y <= x -> a <= y <= b.
Proof. intros; lra. Qed.

Lemma delta_ratio v1 v2 nu s1 s2 p : 0 < nu -> 0 < s1 -> 0 <= v1 -> 0 <= v2 -> v1 ^ 2 = nu * s1 -> v2 ^ 2 = nu * s2 ->
  s2 <= exp (2 * p) * s1 -> v2 <= exp p * v1.
Proof.
  intros Pn P1 Q1 Q2 E1 E2 L. assert (P := exp_pos p).
  assert (v2 ^ 2 <= (exp p * v1) ^ 2).
  { rewrite Rpow_mult_distr, E1, E2. replace (exp p ^ 2) with (exp (2 * p)) by (rewrite double, exp_plus; ring).
    replace (exp (2 * p) * (nu * s1)) with (nu * (exp (2 * p) * s1)) by ring. apply Rmult_le_compat_l; lra. }
  assert (0 <= exp p * v1) by (apply Rmult_le_pos; lra).
  apply Rsqr_incr_0_var; [|assumption]. unfold Rsqr. lra.
Qed.

Lemma delta_m_root m nu g v b : m_kind m <> Head -> m_nu m = Fin nu -> 0 < nu -> m_sol m = Some g ->
  g b = [Fin v] -> 0 <= v -> exists d, q_delta_m m b = Ok (Fin d) /\ 0 <= d /\ d ^ 2 = nu * v.
Proof.
  intros K Kn Pn Eg Gb Pv. assert (0 <= v * nu) by (apply Rmult_le_pos; lra).
  exists (sqrt (v * nu)). split; [|split; [apply sqrt_pos|rewrite <- Rsqr_pow2, Rsqr_sqrt by assumption; ring]].
  unfold q_delta_m, sol_at. rewrite Eg. cbn [bind]. rewrite Gb. cbn [comp nth_error bind].
  rewrite Kn, xmul_fin, xsqrt_fin by assumption. destruct (m_kind m); [reflexivity|reflexivity|congruence].
Qed.

Lemma gradient_error_linear_lemma m1 m2 nu U dU s1 s2 a b lo e :
  m_kind m1 = ThwaitesLinear -> m_kind m2 = ThwaitesLinear -> m_nu m1 = Fin nu -> m_nu m2 = Fin nu -> 0 < nu ->
  a <= b -> 0 < lo ->
  (forall x, a <= x <= b -> velocity_at m1 U (dU x) x /\ solves1_at m1 s1 x /\
     gradient_within m2 U (dU x) e x /\ solves1_at m2 s2 x /\ lo <= U x + 1/1000) ->
  0 < s1 a -> s2 a = s1 a -> stored1_at m1 s1 b -> stored1_at m2 s2 b ->
  exists v1 v2, q_delta_m m1 b = Ok (Fin v1) /\ q_delta_m m2 b = Ok (Fin v2) /\ 0 < v1 /\
    exp (- (3 * e * (b - a) / lo)) * v1 <= v2 <= exp (3 * e * (b - a) / lo) * v1.
Proof.
  intros K1 K2 N1 N2 Pn Hab Hlo H Pa Ea (g1 & G1 & L1) (g2 & G2 & L2).
  assert (R2 : forall x, a <= x <= b -> is_derive s2 x ((45/100 - 6 * (s2 x * grad_of m2 x)) / (U x + 1/1000))).
  { intros x Hx. destruct (H x Hx) as (_ & _ & Gw & (v & Ev & Dv) & W).
    destruct (grad_of_ok _ _ _ _ _ Gw) as (QU & QD & _).
    rewrite (rhs_linear m2 (U x) (grad_of m2 x) (s2 x) x K2 QU QD) in Ev by lra. injection Ev as Ev.
    rewrite (Rplus_comm (U x)). rewrite Ev. exact Dv. }
  assert (R1 : forall x, a <= x <= b -> is_derive s1 x ((45/100 - 6 * (s1 x * dU x)) / (U x + 1/1000))).
  { intros x Hx. destruct (H x Hx) as ((LU & _ & QD) & (v & Ev & Dv) & _ & _ & W).
    assert (QU := locally_singleton _ _ LU). cbv beta in QU.
    rewrite (rhs_linear m1 (U x) (dU x) (s1 x) x K1 QU QD) in Ev by lra. injection Ev as Ev.
    rewrite (Rplus_comm (U x)). rewrite Ev. exact Dv. }
  assert (Pos : forall (s p : R -> R), 0 < s a ->
     (forall x, a <= x <= b -> is_derive s x ((45/100 - 6 * (s x * p x)) / (U x + 1/1000))) ->
     forall x, a <= x <= b -> 0 < s x).
  { intros s p P0 D x Hx. apply (stays_positive s a x ltac:(lra) P0). intros y Hy.
    eexists. split; [apply D; lra|]. intros ->. apply Rdiv_lt_0_compat; [lra|].
    destruct (H y ltac:(lra)) as (_ & _ & _ & _ & W). lra. }
  assert (P1 := Pos s1 dU Pa R1). assert (P2 := Pos s2 (grad_of m2) ltac:(lra) R2).
  assert (He : 0 <= e).
  { destruct (H b ltac:(lra)) as (_ & _ & (g & _ & _ & B) & _). eapply Rle_trans; [apply Rabs_pos|exact B]. }
  destruct (delta_m_root m1 nu g1 (s1 b) b ltac:(rewrite K1; discriminate) N1 Pn G1 (locally_singleton _ _ L1)
    ltac:(left; apply P1; lra)) as (v1 & Q1 & S1 & D1).
  destruct (delta_m_root m2 nu g2 (s2 b) b ltac:(rewrite K2; discriminate) N2 Pn G2 (locally_singleton _ _ L2)
    ltac:(left; apply P2; lra)) as (v2 & Q2 & S2 & D2).
  exists v1, v2. split; [exact Q1|]. split; [exact Q2|].
  assert (Pq : 0 <= 6 * e / lo) by (apply Rmult_le_pos; [lra|left; apply Rinv_0_lt_compat, Hlo]).
  destruct (linear_bounds a b (6 * e / lo) (fun x => U x + 1/1000) dU (grad_of m2) s1 s2 Hab Pq) as (B1 & B2); [|exact Ea|].
  { intros x Hx. destruct (H x Hx) as ((_ & DU & _) & _ & Gw & _ & W). destruct (grad_of_ok _ _ _ _ _ Gw) as (_ & _ & B).
    split; [lra|]. split; [|split; [apply P2, Hx|split; [apply R1, Hx|split; [apply R2, Hx|]]]].
    - auto_derive; [eexists; exact DU|]. change (Derive (fun x0 => U x0) x) with (Derive U x). rewrite (is_derive_unique U _ _ DU). ring.
    - apply Rle_trans with (6 * e / lo * lo); [replace (6 * e / lo * lo) with (6 * e) by (field; lra); lra|].
      apply Rmult_le_compat_l; assumption. }
  replace (6 * e / lo * (b - a)) with (2 * (3 * e * (b - a) / lo)) in B1, B2 by (field; lra).
  assert (Pb1 := P1 b ltac:(lra)). assert (Pb2 := P2 b ltac:(lra)).
  split.
  - assert (0 < nu * s1 b) by (apply Rmult_lt_0_compat; assumption).
    destruct S1 as [|Z]; [assumption|]. rewrite <- Z in D1. lra.
  - split.
    + rewrite exp_Ropp. assert (P := exp_pos (3 * e * (b - a) / lo)).
      apply (Rmult_le_reg_l (exp (3 * e * (b - a) / lo))); [exact P|].
      rewrite <- Rmult_assoc, Rinv_r, Rmult_1_l by lra.
      apply (delta_ratio v2 v1 nu (s2 b) (s1 b)); assumption.
    + apply (delta_ratio v1 v2 nu (s1 b) (s2 b)); assumption.
Qed.

Lemma gradient_error_nonlinear_lemma m1 m2 cs nu U dU s1 s2 a b k lo e :
  m_kind m1 = ThwaitesNonlinear -> m_kind m2 = ThwaitesNonlinear -> cubic_spline_ok cs ->
  m_fit m1 = Some (fit_spline cs) -> m_fit m2 = Some (fit_spline cs) ->
  m_nu m1 = Fin nu -> m_nu m2 = Fin nu -> 0 < nu -> a <= b -> 0 <= k -> 0 < lo ->
  (forall x, a <= x <= b -> velocity_at m1 U (dU x) x /\ solves1_at m1 s1 x /\
     gradient_within m2 U (dU x) e x /\ solves1_at m2 s2 x /\ lo <= U x + 1/1000 /\
     Rabs (dU x) <= k * (U x + 1/1000)) ->
  0 < s1 a -> s2 a = s1 a -> stored1_at m1 s1 b -> stored1_at m2 s2 b ->
  let E := exp (28 * (k + e / lo) * (b - a)) in
  let Y := (s1 a + 44/100 / lo * (b - a)) * E in
  exists v1 v2, q_delta_m m1 b = Ok (Fin v1) /\ q_delta_m m2 b = Ok (Fin v2) /\
    Rabs (v2 ^ 2 - v1 ^ 2) <= nu * (28 * Y * (e / lo) * (b - a) * E).
Proof.
  intros K1 K2 OK F1 F2 N1 N2 Pn Hab Hk Hlo H Pa Ea (g1 & G1 & L1) (g2 & G2 & L2) E Y.
  destruct (default_rhs cs OK) as (S & Hs & FI & LL & F0 & BS & BH).
  assert (He : 0 <= e).
  { destruct (H b ltac:(lra)) as (_ & _ & (g & _ & _ & B) & _). eapply Rle_trans; [apply Rabs_pos|exact B]. }
  assert (Pq : 0 <= e / lo) by (apply Rmult_le_pos; [lra|left; apply Rinv_0_lt_compat, Hlo]).
  assert (Sc : forall x, a <= x <= b -> e <= e / lo * (U x + 1/1000)).
  { intros x Hx. destruct (H x Hx) as (_ & _ & _ & _ & W & _).
    apply Rle_trans with (e / lo * lo); [replace (e / lo * lo) with e by (field; lra); lra|].
    apply Rmult_le_compat_l; assumption. }
  assert (R2 : forall x, a <= x <= b -> is_derive s2 x (rhsF S Hs (s2 x * grad_of m2 x) / (U x + 1/1000))).
  { intros x Hx. destruct (H x Hx) as (_ & _ & Gw & (v & Ev & Dv) & W & _).
    destruct (grad_of_ok _ _ _ _ _ Gw) as (QU & QD & _).
    rewrite (rhs_nonlinear m2 _ S Hs x (s2 x) (U x) (grad_of m2 x) K2 F2 FI QU QD) in Ev by lra.
    injection Ev as Ev. rewrite Ev. exact Dv. }
  assert (R1 : forall x, a <= x <= b -> is_derive s1 x (rhsF S Hs (s1 x * dU x) / (U x + 1/1000))).
  { intros x Hx. destruct (H x Hx) as ((LU & _ & QD) & (v & Ev & Dv) & _ & _ & W & _).
    assert (QU := locally_singleton _ _ LU). cbv beta in QU.
    rewrite (rhs_nonlinear m1 _ S Hs x (s1 x) (U x) (dU x) K1 F1 FI QU QD) in Ev by lra.
    injection Ev as Ev. rewrite Ev. exact Dv. }
  assert (Pos : forall (s p : R -> R), 0 < s a ->
     (forall x, a <= x <= b -> is_derive s x (rhsF S Hs (s x * p x) / (U x + 1/1000))) -> 0 < s b).
  { intros s p P0 D. apply (stays_positive s a b Hab P0). intros y Hy.
    eexists. split; [apply D; lra|]. intros ->. rewrite Rmult_0_l, F0. apply Rdiv_lt_0_compat; [lra|].
    destruct (H y ltac:(lra)) as (_ & _ & _ & _ & W & _). lra. }
  assert (P1 := Pos s1 dU Pa R1). assert (P2 := Pos s2 (grad_of m2) ltac:(lra) R2).
  destruct (delta_m_of m1 nu g1 (s1 b) b ltac:(rewrite K1; discriminate) N1 Pn G1 (locally_singleton _ _ L1) ltac:(lra)) as (v1 & Q1 & D1).
  destruct (delta_m_of m2 nu g2 (s2 b) b ltac:(rewrite K2; discriminate) N2 Pn G2 (locally_singleton _ _ L2) ltac:(lra)) as (v2 & Q2 & D2).
  exists v1, v2. split; [exact Q1|]. split; [exact Q2|].
  rewrite D1, D2, <- Rmult_minus_distr_l, Rabs_mult, (Rabs_pos_eq nu) by lra. apply Rmult_le_compat_l; [lra|].
  assert (C := core_error (rhsF S Hs) LL F0 a b (k + e / lo) lo 0 (e / lo) Hab ltac:(lra) Hlo (Rle_refl 0) Pq dU (grad_of m2)
    (fun x => U x + 1/1000) (fun x => U x + 1/1000) s1 s2).
  cbv zeta in C. rewrite Ea, Rminus_eq_0, Rabs_R0, Rplus_0_l, (Rabs_pos_eq (s1 a)), Rmult_0_r, Rplus_0_l in C by lra.
  fold E in C. fold Y in C. apply C.
  - intros x Hx. destruct (H x Hx) as (_ & _ & _ & _ & A & B). assert (Q := Sc x Hx).
    split; [exact A|]. split; [lra|]. apply R1, Hx.
  - intros x Hx. destruct (H x Hx) as (_ & _ & Gw & _ & A & B). assert (Q := Sc x Hx).
    destruct (grad_of_ok _ _ _ _ _ Gw) as (_ & _ & B2).
    split; [exact A|]. split; [|apply R2, Hx].
    assert (T := Rabs_triang (dU x) (grad_of m2 x - dU x)). replace (dU x + (grad_of m2 x - dU x)) with (grad_of m2 x) in T by ring. lra.
  - intros x Hx. destruct (H x Hx) as (_ & _ & Gw & _ & A & B). assert (Q := Sc x Hx).
    destruct (grad_of_ok _ _ _ _ _ Gw) as (_ & _ & B2). split; [|lra].
    rewrite Rminus_eq_0, Rabs_R0, Rmult_0_l. lra.
Qed.

Lemma head_gradient_error_lemma nu (U dU : R -> R) a b d1 d2 h1 h2 :
  0 < nu -> a <= b -> 0 < d1 -> h2 <= 16/10 \/ 16/10 < h1 ->
  (forall x, a <= x <= b -> is_derive U x (dU x) /\ continuous dU x /\ 1/1000 <= U x) ->
  exists K, 0 < K /\ forall m1 m2 d h y z e,
  m_kind m1 = Head -> m_kind m2 = Head -> m_nu m1 = Fin nu -> m_nu m2 = Fin nu ->
  slot_kind (m_u m1) <> KInt -> slot_kind (m_u m2) <> KInt ->
  (forall x, a <= x <= b -> velocity_at m1 U (dU x) x /\ solves2_at m1 d h x /\ gradient_within m2 U (dU x) e x /\ solves2_at m2 y z x /\
     d1 <= d x <= d2 /\ h1 <= h x <= h2 /\ d1 <= y x <= d2 /\ h1 <= z x <= h2) ->
  forall x, a <= x <= b -> stored2_at m1 d h x -> stored2_at m2 y z x ->
  exists dm1 H1 dm2 H2, q_delta_m m1 x = Ok (Fin dm1) /\ q_shape_d m1 x = Ok (Fin H1) /\
    q_delta_m m2 x = Ok (Fin dm2) /\ q_shape_d m2 x = Ok (Fin H2) /\
    Rabs (dm2 - dm1) <= K * (Rabs (y a - d a) + Rabs (z a - h a) + e) /\
    Rabs (H2 - H1) <= K * (Rabs (y a - d a) + Rabs (z a - h a) + e).
Proof.
  intros Pn Hab Pd Side V.
  assert (HU : forall x, a <= x <= b -> continuous U x /\ 1/1000 <= U x).
  { intros x Hx. destruct (V x Hx) as (D & _ & L). split; [|exact L]. apply (ex_derive_continuous U). eexists. exact D. }
  assert (HdU : forall x, a <= x <= b -> continuous dU x) by (intros x Hx; apply V, Hx).
  assert (Sys : exists f1 K1, nice a b d1 d2 h1 h2 (f1 U dU) /\ 0 <= K1 /\
            (forall W dW t d h, h1 <= h <= h2 -> sys1_at nu W dW h t d h = f1 W dW t d h) /\
            forall t d h V dV e, a <= t <= b -> inbox d1 d2 h1 h2 d h -> 1/1000 <= V t ->
              Rabs (V t - U t) <= e -> Rabs (dV t - dU t) <= e ->
              Rabs (sys0 nu V dV t d h - sys0 nu U dU t d h) <= K1 * e /\ Rabs (f1 V dV t d h - f1 U dU t d h) <= K1 * e).
  { destruct Side as [L|L].
    - destruct (system_sensitive lo_a lo_b lo_c lo_d nu U dU a b d1 d2 h1 h2 ltac:(unfold lo_a; lra) ltac:(unfold lo_c; lra)
        ltac:(unfold lo_b; lra) Pn Hab Pd HU HdU) as (K1 & P1 & H1).
      exists (sys1 lo_a lo_b lo_c lo_d nu), K1. split; [|split; [exact P1|split; [|exact H1]]].
      + apply (nice_sys1 lo_a lo_b lo_c lo_d nu U dU ltac:(unfold lo_a; lra) ltac:(unfold lo_b; lra) ltac:(unfold lo_d; lra) Pn
         a b _ _ _ _ Hab Pd HU HdU).
      + intros W dW t d h Hh. unfold sys1_at. destruct (Rle_dec h (16/10)); [reflexivity|lra].
    - destruct (system_sensitive hi_a hi_b hi_c hi_d nu U dU a b d1 d2 h1 h2 ltac:(unfold hi_a; lra) ltac:(unfold hi_c; lra)
        ltac:(unfold hi_b; lra) Pn Hab Pd HU HdU) as (K1 & P1 & H1).
      exists (sys1 hi_a hi_b hi_c hi_d nu), K1. split; [|split; [exact P1|split; [|exact H1]]].
      + apply (nice_sys1 hi_a hi_b hi_c hi_d nu U dU ltac:(unfold hi_a; lra) ltac:(unfold hi_b; lra) ltac:(unfold hi_d; lra) Pn
         a b _ _ _ _ Hab Pd HU HdU).
      + intros W dW t d h Hh. unfold sys1_at. destruct (Rle_dec h (16/10)); [lra|reflexivity]. }
  destruct Sys as (f1 & K1 & Nf & P1 & E1 & HS).
  destruct (system_close a b d1 d2 h1 h2 (sys0 nu U dU) (f1 U dU) (nice_sys0 nu U dU Pn a b _ _ _ _ Hab Pd HU HdU) Nf) as (K & PK & HK).
  exists (K * (1 + K1)). split; [apply Rmult_lt_0_compat; lra|].
  intros m1 m2 d h y z e Km1 Km2 Kn1 Kn2 Sk1 Sk2 HX x Hx (g1 & Em1 & Lg1) (g2 & Em2 & Lg2).
  apply locally_singleton in Lg1. apply locally_singleton in Lg2.
  assert (He : 0 <= e).
  { destruct (HX x Hx) as (_ & _ & (g & _ & _ & Q) & _). eapply Rle_trans; [apply Rabs_pos|exact Q]. }
  exists (d x), (h x), (y x), (z x).
  split; [unfold q_delta_m, sol_at; rewrite Em1; cbn [bind]; rewrite Lg1, Km1; reflexivity|].
  split; [unfold q_shape_d, sol_at; rewrite Em1; cbn [bind]; rewrite Lg1, Km1; reflexivity|].
  split; [unfold q_delta_m, sol_at; rewrite Em2; cbn [bind]; rewrite Lg2, Km2; reflexivity|].
  split; [unfold q_shape_d, sol_at; rewrite Em2; cbn [bind]; rewrite Lg2, Km2; reflexivity|].
  set (e0 := Rabs (y a - d a) + Rabs (z a - h a)).
  assert (Pe0 : 0 <= e0) by (unfold e0; apply Rplus_le_le_0_compat; apply Rabs_pos).
  assert (Fin : Rabs (d x - y x) <= K * (e0 + K1 * e) /\ Rabs (h x - z x) <= K * (e0 + K1 * e)).
  { apply (HK x (K1 * e) e0 d h y z (fun t => sys0 nu U (grad_of m2) t (y t) (z t)) (fun t => f1 U (grad_of m2) t (y t) (z t)) Hx).
    - apply Rmult_le_pos; assumption.
    - unfold e0. rewrite <- (Rabs_Ropp (y a - d a)), <- (Rabs_Ropp (z a - h a)), !Ropp_minus_distr. lra.
    - intros t Ht. assert (Ht' : a <= t <= b) by lra.
      destruct (HX t Ht') as ((LU & _ & QD) & (v & w & Ev & D1 & D2) & Gw & (v' & w' & Ev' & D3 & D4) & B1 & B2 & B3 & B4).
      destruct (grad_of_ok _ _ _ _ _ Gw) as (QV & QG & Q2).
      destruct (V t Ht') as (_ & _ & LUt).
      rewrite (rhs_sys m1 nu U dU t (d t) (h t) Km1 Kn1 Pn Sk1 (locally_singleton _ _ LU) QD LUt ltac:(lra)) in Ev.
      rewrite (rhs_sys m2 nu U (grad_of m2) t (y t) (z t) Km2 Kn2 Pn Sk2 QV QG LUt ltac:(lra)) in Ev'.
      injection Ev as Ev1 Ev2. injection Ev' as Ev3 Ev4.
      rewrite E1 in Ev2, Ev4 by assumption. subst v w v' w'.
      split; [split; assumption|]. split; [split; assumption|].
      do 4 (split; [assumption|]).
      apply (HS t (y t) (z t) U (grad_of m2) e Ht' (conj B3 B4) LUt); [|exact Q2]. rewrite Rminus_eq_0, Rabs_R0. exact He. }
  assert (Wk : K * (e0 + K1 * e) <= K * (1 + K1) * (e0 + e)).
  { rewrite Rmult_assoc. apply Rmult_le_compat_l; [lra|].
    assert (0 <= K1 * e0) by (apply Rmult_le_pos; assumption). lra. }
  rewrite <- (Rabs_Ropp (y x - d x)), <- (Rabs_Ropp (z x - h x)), !Ropp_minus_distr. lra.
Qed.

(** Finite differences stay within the bound of C01. *)
Lemma plain_gradient_within m U K a b x : given_plainly m U -> fifth_at_most K U a b -> a <= x <= b ->
  gradient_within m U (Derive U x) (K / (18 * 10 ^ 16)) x.
Proof.
  intros (pchip & m0 & c & m' & Hc & EU & Hset & HQ) (r & Hr & HF) Hx. destruct (HQ x) as [Q1 Q2].
  destruct (fd_first_lemma pchip m0 m' c x r K Hc Hset Hr) as (g & Eg & B).
  - intros t Ht j Hj. apply Rabs_le_between in Ht. rewrite EU. apply HF; [lra|exact Hj].
  - intros t Ht. apply Rabs_le_between in Ht. rewrite EU. apply HF. lra.
  - exists g. rewrite Q1, Q2. split; [|split; [exact Eg|]].
    + cbn [set_velocity] in Hset. unfold set_velocity_callable in Hset. rewrite Hc in Hset. injection Hset as <-.
      rewrite <- EU. reflexivity.
    + rewrite EU in B. eapply Rle_trans; [exact B|]. right. field.
Qed.

Lemma plain_velocity_linear_lemma m1 m2 nu U s1 s2 a b lo K :
  m_kind m1 = ThwaitesLinear -> m_kind m2 = ThwaitesLinear -> m_nu m1 = Fin nu -> m_nu m2 = Fin nu -> 0 < nu ->
  a <= b -> 0 < lo -> given_plainly m2 U -> fifth_at_most K U a b ->
  (forall x, a <= x <= b -> velocity_at m1 U (Derive U x) x /\ solves1_at m1 s1 x /\ solves1_at m2 s2 x /\
     lo <= U x + 1/1000) ->
  0 < s1 a -> s2 a = s1 a -> stored1_at m1 s1 b -> stored1_at m2 s2 b ->
  exists v1 v2, q_delta_m m1 b = Ok (Fin v1) /\ q_delta_m m2 b = Ok (Fin v2) /\ 0 < v1 /\
    let q := K * (b - a) / (6 * 10 ^ 16 * lo) in exp (- q) * v1 <= v2 <= exp q * v1.
Proof.
  intros K1 K2 N1 N2 Pn Hab Hlo G F H Pa Ea S1 S2.
  destruct (gradient_error_linear_lemma m1 m2 nu U (Derive U) s1 s2 a b lo (K / (18 * 10 ^ 16)) K1 K2 N1 N2 Pn Hab Hlo)
    as (v1 & v2 & Q1 & Q2 & P & B); try assumption.
  - intros x Hx. destruct (H x Hx) as (A & B & C & D). repeat (split; [assumption|]).
    split; [apply (plain_gradient_within m2 U K a b x G F Hx)|]. split; assumption.
  - exists v1, v2. do 3 (split; [assumption|]). cbv zeta.
    replace (K * (b - a) / (6 * 10 ^ 16 * lo)) with (3 * (K / (18 * 10 ^ 16)) * (b - a) / lo) by (field; lra). exact B.
Qed.

Lemma plain_velocity_nonlinear_lemma m1 m2 cs nu U s1 s2 a b k lo K :
  m_kind m1 = ThwaitesNonlinear -> m_kind m2 = ThwaitesNonlinear -> cubic_spline_ok cs ->
  m_fit m1 = Some (fit_spline cs) -> m_fit m2 = Some (fit_spline cs) ->
  m_nu m1 = Fin nu -> m_nu m2 = Fin nu -> 0 < nu -> a <= b -> 0 <= k -> 0 < lo ->
  given_plainly m2 U -> fifth_at_most K U a b ->
  (forall x, a <= x <= b -> velocity_at m1 U (Derive U x) x /\ solves1_at m1 s1 x /\ solves1_at m2 s2 x /\
     lo <= U x + 1/1000 /\ Rabs (Derive U x) <= k * (U x + 1/1000)) ->
  0 < s1 a -> s2 a = s1 a -> stored1_at m1 s1 b -> stored1_at m2 s2 b ->
  let e := K / (18 * 10 ^ 16) in
  let E := exp (28 * (k + e / lo) * (b - a)) in
  let Y := (s1 a + 44/100 / lo * (b - a)) * E in
  exists v1 v2, q_delta_m m1 b = Ok (Fin v1) /\ q_delta_m m2 b = Ok (Fin v2) /\
    Rabs (v2 ^ 2 - v1 ^ 2) <= nu * (28 * Y * (e / lo) * (b - a) * E).
Proof.
  intros K1 K2 OK F1 F2 N1 N2 Pn Hab Hk Hlo G F H Pa Ea S1 S2 e.
  apply (gradient_error_nonlinear_lemma m1 m2 cs nu U (Derive U) s1 s2 a b k lo e); try assumption.
  intros x Hx. destruct (H x Hx) as (A & B & C & D & Q). repeat (split; [assumption|]).
  split; [apply (plain_gradient_within m2 U K a b x G F Hx)|]. repeat (split; try assumption).
Qed.

(** A solution of the linear equation with any continuous gradient. *)
Lemma linear_with_gradient (E D : R -> R) : (forall x, continuous E x /\ 0 < E x /\ continuous D x) ->
  exists s, s 0 = 1 /\ forall x, is_derive s x ((45/100 - 6 * (s x * D x)) / E x).
Proof.
  intros H. set (g := fun t => 6 * D t / E t).
  assert (CI : forall x, continuous (fun t => / E t) x).
  { intros x. destruct (H x) as (A & B & _). apply (continuous_comp E Rinv); [exact A|].
    apply (ex_derive_continuous Rinv). auto_derive. lra. }
  assert (Cg : forall x, continuous g x).
  { intros x. unfold g, Rdiv. apply (continuous_mult (fun t => 6 * D t)); [|apply CI].
    apply (continuous_scal_r 6 D). apply H. }
  set (A := (fun x => RInt g 0 x) : R -> R).
  assert (IA : forall x, is_derive A x (g x)).
  { intros x. unfold A. apply (is_derive_RInt g _ 0 x); [|apply Cg].
    apply filter_forall. intros y. apply (@RInt_correct R_CompleteNormedModule). apply (@ex_RInt_continuous R_CompleteNormedModule). intros z _. apply Cg. }
  set (w := fun t => 45/100 * / E t * exp (A t)).
  assert (Cw : forall x, continuous w x).
  { intros x. unfold w. apply (continuous_mult (fun t => 45/100 * / E t) (fun t => exp (A t))).
    - apply (continuous_scal_r (45/100) (fun t => / E t)). apply CI.
    - apply (ex_derive_continuous (fun t => exp (A t))). auto_derive. eexists. apply IA. }
  set (B := (fun x => RInt w 0 x) : R -> R).
  assert (IB : forall x, is_derive B x (w x)).
  { intros x. unfold B. apply (is_derive_RInt w _ 0 x); [|apply Cw].
    apply filter_forall. intros y. apply (@RInt_correct R_CompleteNormedModule). apply (@ex_RInt_continuous R_CompleteNormedModule). intros z _. apply Cw. }
  exists (fun x => exp (- A x) * (1 + B x)). split.
  - unfold A, B. rewrite !RInt_point. unfold zero. cbn. rewrite Ropp_0, exp_0. ring.
  - intros x. destruct (H x) as (_ & PE & _).
    assert (DA : is_derive (fun t => exp (- A t)) x (- g x * exp (- A x))).
    { auto_derive; [eexists; apply IA|]. change (Derive (fun x0 => A x0) x) with (Derive A x).
      rewrite (is_derive_unique A _ _ (IA x)). ring. }
    assert (DB : is_derive (fun t => 1 + B t) x (w x)).
    { auto_derive; [eexists; apply IB|]. change (Derive (fun x0 => B x0) x) with (Derive B x).
      rewrite (is_derive_unique B _ _ (IB x)). ring. }
    eapply is_derive_to; [exact (mult_derive _ _ _ _ _ DA DB)|]. unfold w, g. rewrite exp_Ropp.
    assert (P := exp_pos (A x)). field. split; lra.
Qed.

Lemma plain_velocity_case_lemma : forall f, exists m2 s1 s2,
  let m1 := w_thwaites_of ThwaitesLinear exp exp f s1 in
  m_kind m2 = ThwaitesLinear /\ m_nu m2 = Fin 1 /\ given_plainly m2 exp /\ fifth_at_most (exp 2) exp 0 1 /\
  s1 0 = 1 /\ s2 0 = 1 /\ stored1_at m1 s1 1 /\ stored1_at m2 s2 1 /\
  forall x, 0 <= x <= 1 -> velocity_at m1 exp (Derive exp x) x /\ solves1_at m1 s1 x /\ solves1_at m2 s2 x /\
     1 <= exp x + 1/1000.
Proof.
  intros f.
  assert (Dn : forall n t, is_derive_n exp n t (exp t)).
  { induction n as [|n IH]; intros t; [reflexivity|]. cbn.
    apply (is_derive_ext exp).
    - intros s. symmetry. apply is_derive_n_unique. apply IH.
    - apply is_derive_exp. }
  assert (De : forall t, Derive exp t = exp t) by (intros t; apply is_derive_unique, is_derive_exp).
  set (D := fun x => fd_1f exp x (1/10000)).
  assert (CE : forall x, continuous exp x) by (intros x; apply (ex_derive_continuous exp); exists (exp x); apply is_derive_exp).
  destruct (linear_with_gradient (fun x => exp x + 1/1000) exp) as (s1 & A1 & B1).
  { intros x. assert (P := exp_pos x). split; [|split; [lra|apply CE]].
    apply (ex_derive_continuous (fun x => exp x + 1/1000)). auto_derive. exact I. }
  destruct (linear_with_gradient (fun x => exp x + 1/1000) D) as (s2 & A2 & B2).
  { intros x. assert (P := exp_pos x). split; [|split; [lra|]].
    - apply (ex_derive_continuous (fun x => exp x + 1/1000)). auto_derive. exact I.
    - apply (ex_derive_continuous D). unfold D, fd_1f. auto_derive. exact I. }
  exists {| m_kind := ThwaitesLinear; m_nu := Fin 1; m_u := Some (VF exp KFloat);
     m_du := Some VFd1U; m_d2u := Some VFd2U;
     m_ic := InitialConditionModel.new_manual (Fin 0) PInf (Fin 0); m_fit := Some f;
     m_events := [thwaites_event f]; m_sol := Some (fun x => [Fin (s2 x)]) |}, s1, s2.
  cbv zeta. do 2 (split; [reflexivity|]). split.
  { exists (fun _ _ => Err ValueError), w_thwaites, {| c_fun := exp; c_ret := KFloat; c_deriv := None |}. eexists.
    do 2 (split; [reflexivity|]). split; [reflexivity|]. intros x. split; reflexivity. }
  split.
  { exists (1/1000). split; [lra|]. intros t Ht. split.
    - intros k _. destruct k as [|k]; [exact I|]. exists (exp t). apply (Dn (S k)).
    - rewrite (is_derive_n_unique _ _ _ _ (Dn 5%nat t)), Rabs_pos_eq by (left; apply exp_pos).
      left. apply exp_increasing. lra. }
  split; [exact A1|]. split; [exact A2|].
  do 2 (split; [eexists; split; [reflexivity|exists (mkposreal 1 Rlt_0_1); reflexivity]|]).
  intros x Hx. assert (P := exp_pos x). split; [rewrite De; apply w_velocity, is_derive_exp|]. split; [|split].
  - eexists. split; [apply (rhs_linear _ (exp x) (exp x)); try reflexivity; lra|]. rewrite (Rplus_comm (1/1000)). apply B1.
  - eexists. split; [apply (rhs_linear _ (exp x) (D x)); try reflexivity; lra|]. rewrite (Rplus_comm (1/1000)). apply B2.
  - assert (1 <= exp x); [|lra]. rewrite <- exp_0. destruct (Req_dec x 0) as [->|]; [lra|left; apply exp_increasing; lra].
Qed.
