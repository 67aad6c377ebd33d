(** Comparison of the layers of two flows (C163). *)
From Coq Require Import Reals List Lra Lia.
From Coquelicot Require Import Coquelicot.
From Verif Require Import PyBase PyBaseFacts ThwaitesFitsModel CoreModel OdeSpec SplineSpec SplineProps ThwaitesOdeProofs DecelerationSpec.
Import ListNotations.
Open Scope R_scope.

Lemma slower_squares m1 m2 U V dU dV s1 s2 a b :
  m_kind m1 = ThwaitesLinear -> m_kind m2 = ThwaitesLinear -> a <= b ->
  (forall x, a <= x <= b -> velocity_at m1 U (dU x) x /\ solves1_at m1 s1 x /\
     velocity_at m2 V (dV x) x /\ solves1_at m2 s2 x /\ 0 < U x + 1/1000 /\ 0 < V x + 1/1000) ->
  falls_behind (fun x => U x + 1/1000) (fun x => V x + 1/1000) a b -> V a <= U a ->
  0 < s1 a <= s2 a -> 0 < s1 b <= s2 b /\ V b <= U b.
Proof.
  intros K1 K2 Hab H FB Va Sa.
  set (w := fun x => U x + 1/1000) in *. set (y := fun x => V x + 1/1000) in *.
  assert (W : forall x, a <= x <= b -> 0 < w x /\ 0 < y x) by (intros x Hx; unfold w, y; destruct (H x Hx) as (_ & _ & _ & _ & P & Q); auto).
  assert (M : forall x, Rmin a b <= x <= Rmax a b -> a <= x <= b) by (intros x; rewrite Rmin_left, Rmax_right by lra; auto).
  assert (Q1 : s1 b * w b ^ 6 = s1 a * w a ^ 6 + 45/100 * RInt (fun x => w x ^ 5) a b).
  { apply (linear_quadrature_lemma m1 U dU s1 a b K1). intros x Hx. apply M in Hx. destruct (H x Hx) as (A & B & _ & _ & P & _). auto. }
  assert (Q2 : s2 b * y b ^ 6 = s2 a * y a ^ 6 + 45/100 * RInt (fun x => y x ^ 5) a b).
  { apply (linear_quadrature_lemma m2 V dV s2 a b K2). intros x Hx. apply M in Hx. destruct (H x Hx) as (_ & _ & A & B & _ & P). auto. }
  assert (Iw : ex_RInt (fun x => w x ^ 5) a b).
  { apply (ex_RInt_continuous (fun x => w x ^ 5)). intros x Hx. apply M in Hx. destruct (H x Hx) as ((_ & D & _) & _).
    apply (ex_derive_continuous (fun x => w x ^ 5)). unfold w. auto_derive. eexists. exact D. }
  assert (Iy : ex_RInt (fun x => y x ^ 5) a b).
  { apply (ex_RInt_continuous (fun x => y x ^ 5)). intros x Hx. apply M in Hx. destruct (H x Hx) as (_ & _ & (_ & D & _) & _).
    apply (ex_derive_continuous (fun x => y x ^ 5)). unfold y. auto_derive. eexists. exact D. }
  assert (I0 : 0 <= RInt (fun x => w x ^ 5) a b).
  { apply RInt_ge_0; [exact Hab|exact Iw|]. intros x Hx. apply pow_le. left. apply W. lra. }
  destruct (W b ltac:(lra)) as (Pwb & Pyb). destruct (W a ltac:(lra)) as (Pwa & Pya).
  set (r := y b / w b). assert (Pr : 0 < r) by (apply Rdiv_lt_0_compat; assumption).
  assert (Eb : y b = r * w b) by (unfold r; field; lra).
  assert (B : forall x, a <= x <= b -> r * w x <= y x).
  { intros x Hx. assert (F := FB x b ltac:(lra) ltac:(lra) ltac:(lra)). cbv beta in F. unfold r.
    apply (Rmult_le_reg_r (w b)); [exact Pwb|]. replace (y b / w b * w x * w b) with (y b * w x) by (field; lra). exact F. }
  assert (R1 : r <= 1).
  { assert (Ba := B a ltac:(lra)). assert (y a <= w a) by (unfold y, w; lra).
    apply (Rmult_le_reg_r (w a)); [exact Pwa|]. lra. }
  assert (Bp : forall x n, a <= x <= b -> r ^ n * w x ^ n <= y x ^ n).
  { intros x n Hx. rewrite <- Rpow_mult_distr. apply pow_incr. split; [|apply B, Hx]. apply Rmult_le_pos; [lra|]. left. apply W, Hx. }
  assert (Bi : r ^ 5 * RInt (fun x => w x ^ 5) a b <= RInt (fun x => y x ^ 5) a b).
  { rewrite <- (RInt_scal (fun x => w x ^ 5)) by exact Iw.
    apply RInt_le; [exact Hab|apply (ex_RInt_scal (fun x => w x ^ 5)), Iw|exact Iy|]. intros x Hx. apply Bp. lra. }
  set (I1 := RInt (fun x => w x ^ 5) a b) in *. set (I2 := RInt (fun x => y x ^ 5) a b) in *.
  assert (P5 : 0 < r ^ 5) by (apply pow_lt, Pr). assert (P6 : 0 < r ^ 6) by (apply pow_lt, Pr).
  assert (L65 : r ^ 6 <= r ^ 5). { replace (r ^ 6) with (r * r ^ 5) by ring. nra. }
  assert (Wb6 : 0 < w b ^ 6) by (apply pow_lt, Pwb). assert (Yb6 : 0 < y b ^ 6) by (apply pow_lt, Pyb).
  assert (Wa6 : 0 < w a ^ 6) by (apply pow_lt, Pwa). assert (Ya6 : 0 < y a ^ 6) by (apply pow_lt, Pya).
  split; [|assert (r * w b <= 1 * w b) by (apply Rmult_le_compat_r; lra); rewrite <- Eb in *; unfold y, w in *; lra]. split.
  - apply (Rmult_lt_reg_r (w b ^ 6)); [exact Wb6|]. rewrite Rmult_0_l, Q1.
    assert (0 < s1 a * w a ^ 6) by (apply Rmult_lt_0_compat; lra). lra.
  - apply (Rmult_le_reg_r (y b ^ 6)); [exact Yb6|]. rewrite Q2. rewrite Eb at 1. rewrite Rpow_mult_distr.
    replace (s1 b * (r ^ 6 * w b ^ 6)) with (r ^ 6 * (s1 b * w b ^ 6)) by ring. rewrite Q1.
    assert (A := Bp a 6%nat ltac:(lra)).
    assert (r ^ 6 * I1 <= I2) by (apply Rle_trans with (r ^ 5 * I1); [apply Rmult_le_compat_r; lra|exact Bi]).
    assert (s1 a * (r ^ 6 * w a ^ 6) <= s1 a * y a ^ 6) by (apply Rmult_le_compat_l; lra).
    assert (s1 a * y a ^ 6 <= s2 a * y a ^ 6) by (apply Rmult_le_compat_r; lra). lra.
Qed.

(** What is reported where the stored value is [s]. *)
Lemma reported m f nu U du s x h w : m_kind m <> Head -> m_nu m = Fin nu -> 0 < nu -> m_fit m = Some f ->
  velocity_at m U du x -> stored1_at m s x -> 0 < s x ->
  shear f (Fin (s x * du)) = Fin w -> shape f (Fin (s x * du)) = Fin h ->
  q_delta_m m x = Ok (Fin (sqrt (s x * nu))) /\ 0 < sqrt (s x * nu) /\
  q_delta_d m x = Ok (Fin (sqrt (s x * nu) * h)) /\
  forall rho, q_tau_w_thwaites m x rho = Ok (Fin (rho * nu * U x * w / sqrt (s x * nu))).
Proof.
  intros Kh N Pn F (LU & _ & QD) (g & Eg & Lg) Ps Ew Eh.
  assert (QU := locally_singleton _ _ LU). assert (G := locally_singleton _ _ Lg). cbv beta in QU, G.
  assert (P : 0 < s x * nu) by (apply Rmult_lt_0_compat; assumption). assert (Pr := sqrt_lt_R0 _ P).
  assert (D : q_delta_m m x = Ok (Fin (sqrt (s x * nu)))).
  { unfold q_delta_m, sol_at. rewrite Eg. cbn [bind]. rewrite G, N. cbn [comp nth_error bind].
    rewrite xmul_fin, xsqrt_fin by lra. destruct (m_kind m); [reflexivity|reflexivity|congruence]. }
  assert (L : calc_lambda m x (Fin (s x)) = Ok (Fin (s x * du))).
  { unfold calc_lambda. rewrite QD. cbn [bind]. rewrite xmul_fin. reflexivity. }
  split; [exact D|]. split; [exact Pr|]. split.
  - unfold q_delta_d. rewrite D. cbn [bind]. unfold q_shape_d, sol_at. rewrite Eg. cbn [bind]. rewrite G. cbn [comp nth_error bind].
    rewrite L, F. cbn [bind]. rewrite Eh. destruct (m_kind m); [| |congruence]; cbn [bind]; rewrite xmul_fin; reflexivity.
  - intros rho. unfold q_tau_w_thwaites, sol_at. rewrite Eg. cbn [bind]. rewrite G. cbn [comp nth_error bind].
    rewrite L. cbn [bind]. rewrite QU. cbn [bind]. rewrite F, D. cbn [bind]. rewrite Ew, N, !xmul_fin, xdiv_fin by lra. reflexivity.
Qed.

Lemma slower_lemma m1 m2 cs nu U V dU dV s1 s2 a b :
  m_kind m1 = ThwaitesLinear -> m_kind m2 = ThwaitesLinear -> cubic_spline_ok cs ->
  m_fit m1 = Some (fit_spline cs) -> m_fit m2 = Some (fit_spline cs) ->
  m_nu m1 = Fin nu -> m_nu m2 = Fin nu -> 0 < nu -> a <= b ->
  (forall x, a <= x <= b -> velocity_at m1 U (dU x) x /\ solves1_at m1 s1 x /\
     velocity_at m2 V (dV x) x /\ solves1_at m2 s2 x /\ 0 < U x + 1/1000 /\ 0 < V x + 1/1000) ->
  stored1_at m1 s1 b -> stored1_at m2 s2 b ->
  falls_behind (fun x => U x + 1/1000) (fun x => V x + 1/1000) a b -> V a <= U a -> 0 < s1 a <= s2 a ->
  (exists d1 d2, q_delta_m m1 b = Ok (Fin d1) /\ q_delta_m m2 b = Ok (Fin d2) /\ 0 < d1 <= d2) /\
  (s2 b * dV b <= s1 b * dU b <= 1/4 ->
   (0 <= V b -> forall rho, 0 <= rho -> exists t1 t2,
      q_tau_w_thwaites m1 b rho = Ok (Fin t1) /\ q_tau_w_thwaites m2 b rho = Ok (Fin t2) /\ 0 <= t2 <= t1) /\
   (-9/100 <= s2 b * dV b -> exists e1 e2,
      q_delta_d m1 b = Ok (Fin e1) /\ q_delta_d m2 b = Ok (Fin e2) /\ 0 < e1 <= e2)).
Proof.
  intros K1 K2 OK F1 F2 N1 N2 Pn Hab H S1 S2 FB Va Sa.
  destruct (slower_squares m1 m2 U V dU dV s1 s2 a b K1 K2 Hab H FB Va Sa) as [[P1 Le] Vb].
  destruct (default_fit_well_behaved cs OK) as (Sb & Hb & Sm & Hm & _).
  destruct (H b ltac:(lra)) as (V1 & _ & V2 & _ & _).
  set (l1 := s1 b * dU b) in *. set (l2 := s2 b * dV b) in *.
  destruct (Sb l1) as (w1 & Ew1 & Bw1 & Zw1). destruct (Sb l2) as (w2 & Ew2 & Bw2 & Zw2).
  destruct (Hb l1) as (h1 & Eh1 & Bh1). destruct (Hb l2) as (h2 & Eh2 & Bh2).
  destruct (reported m1 (fit_spline cs) nu U (dU b) s1 b h1 w1 ltac:(congruence) N1 Pn F1 V1 S1 P1 Ew1 Eh1) as (D1 & Q1 & E1 & T1).
  destruct (reported m2 (fit_spline cs) nu V (dV b) s2 b h2 w2 ltac:(congruence) N2 Pn F2 V2 S2 ltac:(lra) Ew2 Eh2) as (D2 & Q2 & E2 & T2).
  assert (Ld : sqrt (s1 b * nu) <= sqrt (s2 b * nu)) by (apply sqrt_le_1_alt, Rmult_le_compat_r; lra).
  set (d1 := sqrt (s1 b * nu)) in *. set (d2 := sqrt (s2 b * nu)) in *.
  split; [exists d1, d2; repeat split; assumption|]. intros L.
  assert (W : w2 <= w1).
  { destruct (Rle_or_lt l2 (-9/100)) as [C|C]; [rewrite (proj2 Zw2 C); lra|].
    destruct (Req_dec l2 l1) as [Q|Q]; [rewrite Q in Ew2; rewrite Ew1 in Ew2; injection Ew2 as ->; lra|].
    left. apply (Sm l2 l1); try assumption; lra. }
  split.
  - intros PV rho Pr. exists (rho * nu * U b * w1 / d1), (rho * nu * V b * w2 / d2).
    split; [apply T1|]. split; [apply T2|].
    assert (R0 : 0 <= rho * nu) by (apply Rmult_le_pos; lra).
    assert (A : 0 <= rho * nu * V b * w2) by (repeat apply Rmult_le_pos; lra).
    split; [apply Rmult_le_pos; [exact A|left; apply Rinv_0_lt_compat, Q2]|].
    apply Rmult_le_compat; [exact A|left; apply Rinv_0_lt_compat, Q2| |apply Rinv_le_contravar; assumption].
    apply Rmult_le_compat; [apply Rmult_le_pos; lra|lra| |exact W]. apply Rmult_le_compat_l; lra.
  - intros L2. exists (d1 * h1), (d2 * h2). split; [exact E1|]. split; [exact E2|].
    split; [apply Rmult_lt_0_compat; lra|]. apply Rmult_le_compat; try lra.
    destruct (Req_dec l2 l1) as [Q|Q]; [rewrite Q in Eh2; rewrite Eh1 in Eh2; injection Eh2 as ->; lra|].
    left. apply (Hm l2 l1); try assumption; lra.
Qed.

Lemma slower_thicker m1 m2 nu U V dU dV s1 s2 a b :
  m_kind m1 = ThwaitesLinear -> m_kind m2 = ThwaitesLinear -> m_nu m1 = Fin nu -> m_nu m2 = Fin nu -> 0 < nu -> a <= b ->
  (forall x, a <= x <= b -> velocity_at m1 U (dU x) x /\ solves1_at m1 s1 x /\
     velocity_at m2 V (dV x) x /\ solves1_at m2 s2 x /\ 0 < U x + 1/1000 /\ 0 < V x + 1/1000) ->
  stored1_at m1 s1 b -> stored1_at m2 s2 b ->
  falls_behind (fun x => U x + 1/1000) (fun x => V x + 1/1000) a b -> V a <= U a -> 0 < s1 a <= s2 a ->
  exists d1 d2, q_delta_m m1 b = Ok (Fin d1) /\ q_delta_m m2 b = Ok (Fin d2) /\ 0 < d1 <= d2.
Proof.
  intros K1 K2 N1 N2 Pn Hab H S1 S2 FB Va Sa.
  destruct (slower_squares m1 m2 U V dU dV s1 s2 a b K1 K2 Hab H FB Va Sa) as [[P1 Le] Vb].
  assert (D : forall m s, m_kind m = ThwaitesLinear -> m_nu m = Fin nu -> stored1_at m s b -> 0 < s b -> q_delta_m m b = Ok (Fin (sqrt (s b * nu)))).
  { intros m s K N (g & Eg & Lg) P. assert (G := locally_singleton _ _ Lg). cbv beta in G. unfold q_delta_m, sol_at. rewrite Eg. cbn [bind].
    rewrite G, N, K. cbn [comp nth_error bind]. assert (0 < s b * nu) by (apply Rmult_lt_0_compat; assumption). rewrite xmul_fin, xsqrt_fin by lra. reflexivity. }
  exists (sqrt (s1 b * nu)), (sqrt (s2 b * nu)). split; [apply D; assumption|]. split; [apply D; try assumption; lra|].
  split; [apply sqrt_lt_R0, Rmult_lt_0_compat; assumption|]. apply sqrt_le_1_alt, Rmult_le_compat_r; lra.
Qed.

(** A decelerating flow against one that does not decelerate. *)
Lemma monotone_falls (U V dU dV : R -> R) a b :
  (forall x, a <= x <= b -> is_derive U x (dU x) /\ is_derive V x (dV x) /\ 0 < U x + 1/1000 /\ 0 < V x + 1/1000 /\ dV x <= 0 <= dU x) ->
  falls_behind (fun x => U x + 1/1000) (fun x => V x + 1/1000) a b.
Proof.
  intros P t1 t2 H1 H2 H3. cbv beta.
  destruct (Rle_lt_or_eq_dec t1 t2 H2) as [Lt|Eq]; [|subst; lra].
  assert (MU : U t1 <= U t2).
  { destruct (MVT_cor2 U dU t1 t2 Lt) as (c & E & Hc); [intros c Hc; apply is_derive_Reals, P; lra|].
    assert (0 <= dU c * (t2 - t1)) by (apply Rmult_le_pos; [apply P; lra|lra]). lra. }
  assert (MV : V t2 <= V t1).
  { destruct (MVT_cor2 V dV t1 t2 Lt) as (c & E & Hc); [intros c Hc; apply is_derive_Reals, P; lra|].
    assert (0 <= - dV c * (t2 - t1)) by (apply Rmult_le_pos; [|lra]; assert (dV c <= 0) by (apply P; lra); lra). lra. }
  destruct (P t1 ltac:(lra)) as (_ & _ & A & B & _). destruct (P t2 ltac:(lra)) as (_ & _ & C & D & _).
  apply Rmult_le_compat; lra.
Qed.

Lemma decelerating_lemma m1 m2 cs nu U V dU dV s1 s2 a b :
  m_kind m1 = ThwaitesLinear -> m_kind m2 = ThwaitesLinear -> cubic_spline_ok cs ->
  m_fit m1 = Some (fit_spline cs) -> m_fit m2 = Some (fit_spline cs) ->
  m_nu m1 = Fin nu -> m_nu m2 = Fin nu -> 0 < nu -> a <= b ->
  (forall x, a <= x <= b -> velocity_at m1 U (dU x) x /\ solves1_at m1 s1 x /\
     velocity_at m2 V (dV x) x /\ solves1_at m2 s2 x /\ 0 <= U x /\ 0 <= V x /\ dV x <= 0 <= dU x) ->
  stored1_at m1 s1 b -> stored1_at m2 s2 b -> V a <= U a -> 0 < s1 a <= s2 a ->
  (exists d1 d2, q_delta_m m1 b = Ok (Fin d1) /\ q_delta_m m2 b = Ok (Fin d2) /\ 0 < d1 <= d2) /\
  (s1 b * dU b <= 1/4 -> forall rho, 0 <= rho -> exists t1 t2,
      q_tau_w_thwaites m1 b rho = Ok (Fin t1) /\ q_tau_w_thwaites m2 b rho = Ok (Fin t2) /\ 0 <= t2 <= t1) /\
  (s1 b * dU b <= 1/4 -> -9/100 <= s2 b * dV b -> exists e1 e2,
      q_delta_d m1 b = Ok (Fin e1) /\ q_delta_d m2 b = Ok (Fin e2) /\ 0 < e1 <= e2).
Proof.
  intros K1 K2 OK F1 F2 N1 N2 Pn Hab H S1 S2 Va Sa.
  assert (H' : forall x, a <= x <= b -> velocity_at m1 U (dU x) x /\ solves1_at m1 s1 x /\
     velocity_at m2 V (dV x) x /\ solves1_at m2 s2 x /\ 0 < U x + 1/1000 /\ 0 < V x + 1/1000).
  { intros x Hx. destruct (H x Hx) as (A & B & C & D & E & F & _). repeat split; try apply A; try apply C; try assumption; lra. }
  assert (FB : falls_behind (fun x => U x + 1/1000) (fun x => V x + 1/1000) a b).
  { apply (monotone_falls U V dU dV). intros x Hx. destruct (H x Hx) as ((_ & A & _) & _ & (_ & B & _) & _ & E & F & G). do 2 (split; [assumption|]). lra. }
  destruct (slower_squares m1 m2 U V dU dV s1 s2 a b K1 K2 Hab H' FB Va Sa) as [[P1 Le] _].
  destruct (slower_lemma m1 m2 cs nu U V dU dV s1 s2 a b K1 K2 OK F1 F2 N1 N2 Pn Hab H' S1 S2 FB Va Sa) as (A & B).
  destruct (H b ltac:(lra)) as (_ & _ & _ & _ & _ & PV & Sg).
  assert (O : s2 b * dV b <= s1 b * dU b).
  { assert (0 <= s1 b * dU b) by (apply Rmult_le_pos; lra). assert (0 <= s2 b * - dV b) by (apply Rmult_le_pos; lra). lra. }
  split; [exact A|]. split.
  - intros L. apply B; lra.
  - intros L. apply B; lra.
Qed.
