(** How errors spread in Head's method (C123) and how an error of the edge velocity acts (C124). *)
From Coq Require Import Reals List Lra Lia.
From Coquelicot Require Import Coquelicot.
From Verif Require Import PyBase PyBaseFacts SkinFrictionModel HeadModel HeadProofs
  CoreModel OdeSpec WellPosedSpec ThwaitesOdeProofs HeadOdeProofs PositivityProofs WellPosedProofs FitLipschitzProofs
  SystemProofs HeadExistProofs.
Import ListNotations.
Open Scope R_scope.

(** ** C123 *)
Lemma head_accuracy_lemma nu (U dU : R -> R) a b d1 d2 h1 h2 : 0 < nu -> a <= b -> 0 < d1 -> h2 <= 16/10 \/ 16/10 < h1 ->
  (forall x, a <= x <= b -> is_derive U x (dU x) /\ continuous dU x /\ 1/1000 <= U x) ->
  exists K, 0 < K /\ forall m g d h y z rho,
  m_kind m = Head -> m_nu m = Fin nu -> slot_kind (m_u m) <> KInt -> 0 <= rho ->
  (forall x, a <= x <= b -> velocity_at m U (dU x) x /\ solves2_at m d h x /\ residual2_at m y z x rho /\
     d1 <= d x <= d2 /\ h1 <= h x <= h2 /\ d1 <= y x <= d2 /\ h1 <= z x <= h2) ->
  m_sol m = Some g -> forall x, a <= x <= b -> g x = [Fin (y x); Fin (z x)] ->
  exists dm H, q_delta_m m x = Ok (Fin dm) /\ q_shape_d m x = Ok (Fin H) /\
    Rabs (dm - d x) <= K * (Rabs (y a - d a) + Rabs (z a - h a) + rho) /\
    Rabs (H - h x) <= K * (Rabs (y a - d a) + Rabs (z a - h a) + rho).
Proof.
  intros Pn Hab Pd Side V.
  assert (HU : forall x, a <= x <= b -> continuous U x /\ 1/1000 <= U x).
  { intros x Hx. destruct (V x Hx) as (D & _ & L). split; [|exact L]. apply (ex_derive_continuous U). eexists. exact D. }
  assert (HdU : forall x, a <= x <= b -> continuous dU x) by (intros x Hx; apply V, Hx).
  assert (Sys : exists f1, nice a b d1 d2 h1 h2 f1 /\
            forall t d h, h1 <= h <= h2 -> sys1_at nu U dU h t d h = f1 t d h).
  { destruct Side as [L|L].
    - exists (sys1 lo_a lo_b lo_c lo_d nu U dU). split.
      + apply (nice_sys1 lo_a lo_b lo_c lo_d nu U dU ltac:(unfold lo_a; lra) ltac:(unfold lo_b; lra) ltac:(unfold lo_d; lra) Pn
         a b _ _ _ _ Hab Pd HU HdU).
      + intros t d h Hh. unfold sys1_at. destruct (Rle_dec h (16/10)); [reflexivity|lra].
    - exists (sys1 hi_a hi_b hi_c hi_d nu U dU). split.
      + apply (nice_sys1 hi_a hi_b hi_c hi_d nu U dU ltac:(unfold hi_a; lra) ltac:(unfold hi_b; lra) ltac:(unfold hi_d; lra) Pn
         a b _ _ _ _ Hab Pd HU HdU).
      + intros t d h Hh. unfold sys1_at. destruct (Rle_dec h (16/10)); [lra|reflexivity]. }
  destruct Sys as (f1 & N1 & E1).
  destruct (system_close a b d1 d2 h1 h2 (sys0 nu U dU) f1 (nice_sys0 nu U dU Pn a b _ _ _ _ Hab Pd HU HdU) N1) as (K & PK & HK).
  exists K. split; [exact PK|]. intros m g d h y z rho Km Kn Sk Hr S Em x Hx Eg.
  exists (y x), (z x).
  split; [unfold q_delta_m, sol_at; rewrite Em; cbn [bind]; rewrite Eg, Km; reflexivity|].
  split; [unfold q_shape_d, sol_at; rewrite Em; cbn [bind]; rewrite Eg, Km; reflexivity|].
  assert (RR : forall t p q, a <= t <= b -> 0 < p ->
            ode_impl m t [Fin p; Fin q] = Ok [Fin (sys0 nu U dU t p q); Fin (sys1_at nu U dU q t p q)]).
  { intros t p q Ht Pp. destruct (S t Ht) as ([LU [_ QD]] & _). destruct (V t Ht) as (_ & _ & L).
    apply (rhs_sys m nu U dU); try assumption. exact (locally_singleton _ _ LU). }
  rewrite <- (Rabs_Ropp (y x - d x)), <- (Rabs_Ropp (z x - h x)), !Ropp_minus_distr.
  apply (HK x rho _ d h y z (Derive y) (Derive z) Hx Hr).
  - rewrite <- (Rabs_Ropp (y a - d a)), <- (Rabs_Ropp (z a - h a)), !Ropp_minus_distr. lra.
  - intros t Ht. assert (Ht' : a <= t <= b) by lra.
    destruct (S t Ht') as (_ & (v & w & Ev & D1 & D2) & (v2 & w2 & v' & w' & Er & D3 & D4 & R1 & R2) & B1 & B2 & B3 & B4).
    rewrite (RR t (d t) (h t) Ht' ltac:(lra)) in Ev. injection Ev as Ev1 Ev2.
    rewrite (RR t (y t) (z t) Ht' ltac:(lra)) in Er. injection Er as Er1 Er2.
    rewrite E1 in Ev2, Er2 by assumption.
    rewrite (is_derive_unique y t _ D3), (is_derive_unique z t _ D4).
    split; [split; assumption|]. split; [split; assumption|].
    rewrite Ev1, Ev2, Er1, Er2. do 5 (split; [assumption|]). assumption.
Qed.

(** ** C124 *)
Lemma velocity_error_lemma m1 m2 nu U V dU dV s1 s2 a b lo hi :
  m_kind m1 = ThwaitesLinear -> m_kind m2 = ThwaitesLinear -> m_nu m1 = Fin nu -> m_nu m2 = Fin nu -> 0 < nu ->
  a <= b -> 0 < lo <= 1 -> 1 <= hi ->
  (forall x, a <= x <= b -> velocity_at m1 U (dU x) x /\ solves1_at m1 s1 x /\
     velocity_at m2 V (dV x) x /\ solves1_at m2 s2 x /\ 0 <= U x /\ lo * U x <= V x <= hi * U x) ->
  0 <= s1 a -> s2 a = s1 a -> stored1_at m1 s1 b -> stored1_at m2 s2 b ->
  exists v1 v2, q_delta_m m1 b = Ok (Fin v1) /\ q_delta_m m2 b = Ok (Fin v2) /\
    (lo / hi) ^ 3 * v1 <= v2 <= (hi / lo) ^ 3 * v1.
Proof.
  intros K1 K2 N1 N2 Pn Hab Hlo Hhi H Pa Ea S1 S2.
  set (w := fun x => U x + 1/1000). set (y := fun x => V x + 1/1000).
  assert (W : forall x, a <= x <= b -> 0 < w x /\ 0 < y x /\ lo * w x <= y x <= hi * w x).
  { intros x Hx. destruct (H x Hx) as (_ & _ & _ & _ & P & B). unfold w, y.
    assert (0 <= lo * U x) by (apply Rmult_le_pos; lra). lra. }
  assert (M : forall x, Rmin a b <= x <= Rmax a b -> a <= x <= b) by (intros x; rewrite Rmin_left, Rmax_right by lra; auto).
  assert (Q1 := linear_quadrature_lemma m1 U dU s1 a b K1).
  assert (Q2 := linear_quadrature_lemma m2 V dV s2 a b K2).
  assert (Q1' : s1 b * w b ^ 6 = s1 a * w a ^ 6 + 45/100 * RInt (fun x => w x ^ 5) a b).
  { apply Q1. intros x Hx. apply M in Hx. destruct (H x Hx) as (A & B & _). destruct (W x Hx) as (P & _). auto. }
  assert (Q2' : s2 b * y b ^ 6 = s2 a * y a ^ 6 + 45/100 * RInt (fun x => y x ^ 5) a b).
  { apply Q2. intros x Hx. apply M in Hx. destruct (H x Hx) as (_ & _ & A & B & _). destruct (W x Hx) as (_ & P & _). auto. }
  clear Q1 Q2.
  assert (Iw : ex_RInt (fun x => w x ^ 5) a b).
  { apply (ex_RInt_continuous (fun x => w x ^ 5)). intros x Hx. apply M in Hx. destruct (H x Hx) as ((_ & D & _) & _).
    apply (ex_derive_continuous (fun x => w x ^ 5)). unfold w. auto_derive. eexists. exact D. }
  assert (Iy : ex_RInt (fun x => y x ^ 5) a b).
  { apply (ex_RInt_continuous (fun x => y x ^ 5)). intros x Hx. apply M in Hx. destruct (H x Hx) as (_ & _ & (_ & D & _) & _).
    apply (ex_derive_continuous (fun x => y x ^ 5)). unfold y. auto_derive. eexists. exact D. }
  assert (I0 : 0 <= RInt (fun x => w x ^ 5) a b).
  { apply RInt_ge_0; [exact Hab|exact Iw|]. intros x Hx. apply pow_le. left. apply W. lra. }
  assert (Bp : forall x n, a <= x <= b -> lo ^ n * w x ^ n <= y x ^ n <= hi ^ n * w x ^ n).
  { intros x n Hx. destruct (W x Hx) as (P1 & P2 & B1 & B2). rewrite <- !Rpow_mult_distr. split.
    - apply pow_incr. split; [apply Rmult_le_pos; lra|exact B1].
    - apply pow_incr. lra. }
  assert (Bi : lo ^ 5 * RInt (fun x => w x ^ 5) a b <= RInt (fun x => y x ^ 5) a b <= hi ^ 5 * RInt (fun x => w x ^ 5) a b).
  { rewrite <- !(RInt_scal (fun x => w x ^ 5)) by exact Iw. split.
    - apply RInt_le; [exact Hab|apply (ex_RInt_scal (fun x => w x ^ 5)), Iw|exact Iy|]. intros x Hx. apply Bp. lra.
    - apply RInt_le; [exact Hab|exact Iy|apply (ex_RInt_scal (fun x => w x ^ 5)), Iw|]. intros x Hx. apply Bp. lra. }
  destruct (W b ltac:(lra)) as (Pwb & Pyb & _). destruct (W a ltac:(lra)) as (Pwa & Pya & _).
  assert (Pl : forall n, 0 < lo ^ n) by (intros n; apply pow_lt; lra).
  assert (Ph : forall n, 0 < hi ^ n) by (intros n; apply pow_lt; lra).
  assert (L65 : lo ^ 6 <= lo ^ 5). { replace (lo ^ 6) with (lo * lo ^ 5) by ring. specialize (Pl 5%nat). nra. }
  assert (H65 : hi ^ 5 <= hi ^ 6). { replace (hi ^ 6) with (hi * hi ^ 5) by ring. specialize (Ph 5%nat). nra. }
  destruct (Bp a 6%nat ltac:(lra)) as [A1 A2]. destruct (Bp b 6%nat ltac:(lra)) as [B1 B2].
  set (I1 := RInt (fun x => w x ^ 5) a b) in *. set (I2 := RInt (fun x => y x ^ 5) a b) in *.
  assert (C1 : lo ^ 6 * (s1 b * w b ^ 6) <= s2 b * y b ^ 6).
  { rewrite Q1', Q2', Ea. assert (lo ^ 6 * I1 <= I2) by (apply Rle_trans with (lo ^ 5 * I1); [apply Rmult_le_compat_r; lra|lra]).
    assert (s1 a * (lo ^ 6 * w a ^ 6) <= s1 a * y a ^ 6) by (apply Rmult_le_compat_l; lra). lra. }
  assert (C2 : s2 b * y b ^ 6 <= hi ^ 6 * (s1 b * w b ^ 6)).
  { rewrite Q1', Q2', Ea. assert (I2 <= hi ^ 6 * I1) by (apply Rle_trans with (hi ^ 5 * I1); [lra|apply Rmult_le_compat_r; lra]).
    assert (s1 a * y a ^ 6 <= s1 a * (hi ^ 6 * w a ^ 6)) by (apply Rmult_le_compat_l; lra). lra. }
  assert (P6 : 0 < w b ^ 6) by (apply pow_lt, Pwb). assert (Y6 : 0 < y b ^ 6) by (apply pow_lt, Pyb).
  assert (Pb : 0 <= s1 b).
  { apply (Rmult_le_reg_r (w b ^ 6)); [exact P6|]. rewrite Rmult_0_l, Q1'.
    assert (0 <= s1 a * w a ^ 6) by (apply Rmult_le_pos; [exact Pa|left; apply pow_lt, Pwa]). lra. }
  assert (D1 : lo ^ 6 * s1 b <= hi ^ 6 * s2 b).
  { assert (P2 : 0 <= s2 b).
    { apply (Rmult_le_reg_r (y b ^ 6)); [exact Y6|]. rewrite Rmult_0_l. eapply Rle_trans; [|exact C1].
      apply Rmult_le_pos; [left; apply Pl|]. apply Rmult_le_pos; lra. }
    apply (Rmult_le_reg_r (w b ^ 6)); [exact P6|]. apply Rle_trans with (s2 b * y b ^ 6); [lra|].
    replace (hi ^ 6 * s2 b * w b ^ 6) with (s2 b * (hi ^ 6 * w b ^ 6)) by ring. apply Rmult_le_compat_l; lra. }
  assert (D2 : lo ^ 6 * s2 b <= hi ^ 6 * s1 b).
  { apply (Rmult_le_reg_r (w b ^ 6)); [exact P6|]. apply Rle_trans with (s2 b * y b ^ 6); [|lra].
    replace (lo ^ 6 * s2 b * w b ^ 6) with (s2 b * (lo ^ 6 * w b ^ 6)) by ring. apply Rmult_le_compat_l; [|lra].
    assert (0 < hi ^ 6) by apply Ph. assert (0 < lo ^ 6) by apply Pl.
    assert (0 <= hi ^ 6 * s2 b) by (eapply Rle_trans; [|exact D1]; apply Rmult_le_pos; lra). nra. }
  assert (P2 : 0 <= s2 b).
  { assert (0 < hi ^ 6) by apply Ph. assert (0 < lo ^ 6) by apply Pl.
    assert (0 <= hi ^ 6 * s2 b) by (eapply Rle_trans; [|exact D1]; apply Rmult_le_pos; lra). nra. }
  assert (QD : forall m s, m_kind m = ThwaitesLinear -> m_nu m = Fin nu -> stored1_at m s b -> 0 <= s b ->
            q_delta_m m b = Ok (Fin (sqrt (s b * nu)))).
  { intros m s K N (f & Ef & Lf) P. pose proof (locally_singleton _ _ Lf) as Eb. cbv beta in Eb.
    unfold q_delta_m, sol_at. rewrite Ef. cbn [bind]. rewrite Eb, K, N. cbn [comp nth_error bind].
    rewrite xmul_fin, xsqrt_fin; [reflexivity|apply Rmult_le_pos; lra]. }
  exists (sqrt (s1 b * nu)), (sqrt (s2 b * nu)). split; [apply QD; assumption|]. split; [apply QD; assumption|].
  assert (Sc : forall k p q, 0 < k -> 0 <= p -> k ^ 6 * p <= q -> k ^ 3 * sqrt (p * nu) <= sqrt (q * nu)).
  { intros k p q Pk Pp L. rewrite <- (sqrt_pow2 (k ^ 3)) at 1 by (left; apply pow_lt, Pk).
    rewrite <- sqrt_mult by (try apply pow2_ge_0; apply Rmult_le_pos; lra).
    apply sqrt_le_1_alt. replace ((k ^ 3) ^ 2 * (p * nu)) with (k ^ 6 * p * nu) by ring. apply Rmult_le_compat_r; lra. }
  assert (Pk : 0 < lo / hi) by (apply Rdiv_lt_0_compat; lra).
  assert (E6 : (lo / hi) ^ 6 = lo ^ 6 / hi ^ 6) by (unfold Rdiv; rewrite Rpow_mult_distr, pow_inv; reflexivity).
  assert (h6 := Ph 6%nat).
  split.
  - apply Sc; [exact Pk|exact Pb|]. rewrite E6. apply (Rmult_le_reg_l (hi ^ 6)); [exact h6|].
    replace (hi ^ 6 * (lo ^ 6 / hi ^ 6 * s1 b)) with (lo ^ 6 * s1 b) by (field; lra). exact D1.
  - apply (Rmult_le_reg_l ((lo / hi) ^ 3)); [apply pow_lt, Pk|].
    replace ((lo / hi) ^ 3 * ((hi / lo) ^ 3 * sqrt (s1 b * nu))) with (sqrt (s1 b * nu)) by (field; lra).
    apply Sc; [exact Pk|exact P2|]. rewrite E6. apply (Rmult_le_reg_l (hi ^ 6)); [exact h6|].
    replace (hi ^ 6 * (lo ^ 6 / hi ^ 6 * s2 b)) with (lo ^ 6 * s2 b) by (field; lra). exact D2.
Qed.
