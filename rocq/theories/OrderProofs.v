(** Continuing a solution, comparing two starts, and growth (C120 - C122). *)
From Coq Require Import Reals List Lra Lia String ZArith.
From Coq Require Ranalysis5.
From Coquelicot Require Import Coquelicot.
From Verif Require Import PyBase PyBaseFacts ThwaitesFitsModel SplineSpec InitialConditionModel HeadModel CoreModel CoreSpec OdeSpec
  ThwaitesOdeProofs PositivityProofs WellPosedProofs FitLipschitzProofs WellPosedOdeProofs AgreementProofs HeadOdeProofs HeadExistProofs
  SkinFrictionModel CoreProofs CoreHistoryProofs AccelerationProofs.
Import ListNotations.
Open Scope R_scope.

Definition builtin (cs : list R -> list R -> (xr -> xr) * (xr -> xr)) (f : fit) : Prop :=
  f = fit_spline cs \/ f = fit_white \/ f = fit_cb \/ f = fit_drela.

(** The right-hand side function of a built-in fit. *)
Lemma builtin_rhs cs f : cubic_spline_ok cs -> builtin cs f -> exists S H, fit_is f S H /\ one_sided (rhsF S H) /\ 0 < S 0 /\
  forall l, -9/100 <= l <= 1/10 -> 4375/10000 <= rhsF S H l + 6 * l <= 502/1000.
Proof.
  intros OK B.
  assert (E : forall S H S' H' l, fit_is f S H -> fit_is f S' H' -> rhsF S H l = rhsF S' H' l).
  { intros S H S' H' l A A'. destruct (A l) as [A1 A2], (A' l) as [B1 B2]. unfold rhsF.
    rewrite A1 in B1. rewrite A2 in B2. injection B1 as ->. injection B2 as ->. reflexivity. }
  destruct B as [->|[->|[->| ->]]].
  - destruct (default_rhs cs OK) as (S & H & FI & LL & F0 & _). destruct (default_agg cs OK) as (S' & H' & FI' & N).
    exists S, H. split; [exact FI|]. split; [apply lip_one_sided; intros M _; exists 28; intros p q _ _; apply LL|].
    split; [apply (F0_S0 S H); rewrite F0; lra|]. intros l Hl. rewrite (E S H S' H' l FI FI'). specialize (N l). lra.
  - eexists _, _. split; [exact white_is|]. split; [exact white_one_sided|]. split; [exact white_S0|].
    intros l Hl. assert (N := white_agg l Hl). lra.
  - destruct cb_rhs as (S & H & FI & LL & F0 & _). exists S, H. split; [exact FI|]. split; [apply lip_one_sided, LL|].
    split; [apply (F0_S0 S H); rewrite F0; lra|]. intros l Hl. rewrite (E _ _ _ _ l FI cb_is). assert (N := cb_agg l Hl). lra.
  - destruct drela_rhs as (S & H & FI & LL & F0 & _). exists S, H. split; [exact FI|]. split; [apply lip_one_sided, LL|].
    split; [apply (F0_S0 S H); rewrite F0; lra|]. intros l Hl. rewrite (E _ _ _ _ l FI drela_is). assert (N := drela_agg l Hl). lra.
Qed.

Section Thwaites.
Variables (m : meth) (cs : list R -> list R -> (xr -> xr) * (xr -> xr)) (f : fit) (U dU : R -> R).
Hypothesis (Kh : m_kind m <> Head) (OK : cubic_spline_ok cs) (Ef : m_fit m = Some f) (Bf : builtin cs f).

Definition good a b := forall x, a <= x <= b -> velocity_at m U (dU x) x /\ continuous dU x /\ 0 < U x + 1/1000.
Definition sols s a b := forall x, a <= x <= b -> solves1_at m s x.

Lemma sols_positive s a b : a <= b -> good a b -> sols s a b -> 0 < s a -> forall x, a <= x <= b -> 0 < s x.
Proof.
  intros L V Hs P x Hx. apply (thwaites_positive_lemma m U dU s a x Kh); try lra.
  - destruct (builtin_rhs cs f OK Bf) as (S & H & FI & _ & S0 & _). destruct (m_kind m); [left; reflexivity| |contradiction].
    right. destruct (FI 0) as [F1 F2]. exists f, (S 0), (H 0). repeat split; assumption.
  - intros t Ht. destruct (V t ltac:(lra)) as [V1 [_ V2]]. split; [exact V1|]. split; [apply Hs; lra|exact V2].
Qed.

Lemma sols_unique s1 s2 a b : a <= b -> good a b -> sols s1 a b -> sols s2 a b -> 0 < s1 a -> s1 a = s2 a ->
  forall x, a <= x <= b -> s1 x = s2 x.
Proof.
  intros L V H1 H2 P E x Hx. destruct (m_kind m) eqn:Km; [| |contradiction].
  - apply (linear_unique_lemma m U dU s1 s2 a x Km); [|exact E].
    intros t Ht. rewrite Rmin_left, Rmax_right in Ht by lra. destruct (V t ltac:(lra)) as [V1 [_ V2]].
    repeat split; try apply V1; try apply H1; try apply H2; lra.
  - destruct (builtin_rhs cs f OK Bf) as (S & H & FI & OS & S0 & _).
    apply (nonlinear_unique m f S H U dU s1 s2 a b Km Ef FI OS S0 L V P E H1 H2 x Hx).
Qed.

Lemma sols_continuous s a b : sols s a b -> forall x, a <= x <= b -> continuous s x.
Proof. intros Hs x Hx. destruct (Hs x Hx) as [v [_ D]]. apply (ex_derive_continuous s). eexists; exact D. Qed.

(** Two solutions keep their order. *)
Lemma sols_order s1 s2 a b : a <= b -> good a b -> sols s1 a b -> sols s2 a b -> 0 < s1 a <= s2 a -> s1 b <= s2 b.
Proof.
  intros L V H1 H2 [P Le]. destruct (Rle_or_lt (s1 b) (s2 b)) as [G|G]; [exact G|]. exfalso.
  destruct (Req_dec a b) as [Eq|Ne]; [subst; lra|].
  assert (C : forall t, a <= t <= b -> Ranalysis1.continuity_pt (fun x => s1 x - s2 x) t).
  { intros t Ht. apply continuity_pt_filterlim. apply (continuous_minus s1 s2); [apply (sols_continuous s1 a b)|apply (sols_continuous s2 a b)]; assumption. }
  assert (Z : exists c, a <= c <= b /\ s1 c = s2 c).
  { destruct (Req_dec (s1 a) (s2 a)) as [Q|Q]; [exists a; split; [lra|exact Q]|].
    destruct (Ranalysis5.IVT_interv (fun x => s1 x - s2 x) a b C ltac:(lra) ltac:(lra) ltac:(lra)) as [c [Hc Z]].
    exists c. split; [exact Hc|lra]. }
  destruct Z as [c [Hc Ec]].
  assert (Pc := sols_positive s1 a b L V H1 P c Hc).
  assert (Q := sols_unique s1 s2 c b ltac:(lra)).
  rewrite Q in G; try lra; try assumption.
  - intros x Hx. apply V. lra.
  - intros x Hx. apply H1. lra.
  - intros x Hx. apply H2. lra.
Qed.

(** Strictly, for the linear method. *)
Lemma sols_order_linear s1 s2 a b : m_kind m = ThwaitesLinear -> a <= b -> good a b -> sols s1 a b -> sols s2 a b ->
  s1 a < s2 a -> s1 b < s2 b.
Proof.
  intros Km L V H1 H2 Lt. destruct (Rle_or_lt (s2 b) (s1 b)) as [G|G]; [|exact G]. exfalso.
  destruct (Req_dec a b) as [Eq|Ne]; [subst; lra|].
  assert (C : forall t, a <= t <= b -> Ranalysis1.continuity_pt (fun x => s1 x - s2 x) t).
  { intros t Ht. apply continuity_pt_filterlim. apply (continuous_minus s1 s2); [apply (sols_continuous s1 a b)|apply (sols_continuous s2 a b)]; assumption. }
  assert (Z : exists c, a <= c <= b /\ s1 c = s2 c).
  { destruct (Req_dec (s1 b) (s2 b)) as [Q|Q]; [exists b; split; [lra|exact Q]|].
    destruct (Ranalysis5.IVT_interv (fun x => s1 x - s2 x) a b C ltac:(lra) ltac:(lra) ltac:(lra)) as [c [Hc Z]].
    exists c. split; [exact Hc|lra]. }
  destruct Z as [c [Hc Ec]].
  assert (Q := linear_unique_lemma m U dU s1 s2 c a Km).
  rewrite Q in Lt; try lra; try assumption.
  intros t Ht. rewrite Rmin_right, Rmax_left in Ht by lra. destruct (V t ltac:(lra)) as [V1 [_ V2]].
  repeat split; try apply V1; try apply H1; try apply H2; lra.
Qed.

(** Growth and thinning. *)
Lemma sols_derive s x : velocity_at m U (dU x) x -> 0 < U x + 1/1000 -> solves1_at m s x ->
  exists F, is_derive s x (F / (U x + 1/1000)) /\
    (m_kind m = ThwaitesLinear -> F = 45/100 - 6 * (s x * dU x)) /\
    (-9/100 <= s x * dU x <= 1/10 -> 4375/10000 <= F + 6 * (s x * dU x) <= 502/1000).
Proof.
  intros [LU [_ QD]] W [v [Ev D]]. assert (QU := locally_singleton _ _ LU). cbv beta in QU.
  destruct (m_kind m) eqn:Km; [| |contradiction].
  - rewrite (rhs_linear m (U x) (dU x) (s x) x Km QU QD) in Ev by lra. injection Ev as Ev.
    exists (45/100 - 6 * (s x * dU x)). rewrite (Rplus_comm (U x)), Ev. split; [exact D|]. split; [reflexivity|]. intros; lra.
  - destruct (builtin_rhs cs f OK Bf) as (S & H & FI & _ & _ & N).
    rewrite (rhs_nonlinear m f S H x (s x) (U x) (dU x) Km Ef FI QU QD) in Ev by lra. injection Ev as Ev.
    exists (rhsF S H (s x * dU x)). rewrite Ev. split; [exact D|]. split; [discriminate|]. apply N.
Qed.

Lemma increasing_on (g g' : R -> R) a b : a < b -> (forall x, a <= x <= b -> is_derive g x (g' x)) ->
  (forall x, a <= x <= b -> 0 < g' x) -> g a < g b.
Proof.
  intros L D P. destruct (MVT_cor2 g g' a b L) as [c [E Hc]].
  - intros x Hx. apply is_derive_Reals, D, Hx.
  - assert (Q := Rmult_lt_0_compat (g' c) (b - a) (P c ltac:(lra)) ltac:(lra)). lra.
Qed.

Lemma sols_grow s a b : a < b -> good a b -> sols s a b ->
  (forall x, a <= x <= b -> (m_kind m = ThwaitesLinear \/ -9/100 <= s x * dU x) /\ s x * dU x <= 7/100) -> s a < s b.
Proof.
  intros L V Hs B. apply (increasing_on s (Derive s) a b L).
  - intros x Hx. destruct (Hs x Hx) as [v [_ D]]. rewrite (is_derive_unique s x v D). exact D.
  - intros x Hx. destruct (V x Hx) as [V1 [_ W]]. destruct (sols_derive s x V1 W (Hs x Hx)) as (F & D & FL & FN).
    rewrite (is_derive_unique s x _ D). apply Rdiv_lt_0_compat; [|exact W]. destruct (B x Hx) as [[K|K] K2].
    + rewrite (FL K). lra.
    + specialize (FN ltac:(lra)). lra.
Qed.
Lemma sols_thin s a b : a < b -> good a b -> sols s a b ->
  (forall x, a <= x <= b -> 84/1000 <= s x * dU x /\ (m_kind m = ThwaitesLinear \/ s x * dU x <= 1/10)) -> s b < s a.
Proof.
  intros L V Hs B. apply Ropp_lt_cancel. apply (increasing_on (fun t => - s t) (fun t => - Derive s t) a b L).
  - intros x Hx. destruct (Hs x Hx) as [v [_ D]]. rewrite (is_derive_unique s x v D). apply @is_derive_opp. exact D.
  - intros x Hx. destruct (V x Hx) as [V1 [_ W]]. destruct (sols_derive s x V1 W (Hs x Hx)) as (F & D & FL & FN).
    rewrite (is_derive_unique s x _ D). apply Ropp_lt_cancel. rewrite Ropp_involutive, Ropp_0.
    apply Ropp_lt_cancel. rewrite Ropp_0. replace (- (F / (U x + 1/1000))) with (- F / (U x + 1/1000)) by (field; lra).
    apply Rdiv_lt_0_compat; [|exact W]. destruct (B x Hx) as [K2 [K|K]].
    + rewrite (FL K). lra.
    + specialize (FN ltac:(lra)). lra.
Qed.
End Thwaites.

(** ** The same for the reported momentum thickness *)
Lemma same_rhs m1 m2 U dU s x : m_kind m1 <> Head -> m_kind m2 = m_kind m1 -> m_fit m2 = m_fit m1 ->
  velocity_at m1 U dU x -> velocity_at m2 U dU x -> solves1_at m2 s x -> solves1_at m1 s x.
Proof.
  intros Kh K F [L1 [_ Q1]] [L2 [_ Q2]] [v [E D]]. exists v. split; [|exact D]. rewrite <- E.
  assert (U1 := locally_singleton _ _ L1). assert (U2 := locally_singleton _ _ L2). cbv beta in U1, U2.
  unfold ode_impl, calc_f, calc_lambda. rewrite K, F, U1, U2, Q1, Q2. destruct (m_kind m1); [reflexivity|reflexivity|contradiction].
Qed.

Lemma delta_m_le m1 m2 nu g1 g2 v1 v2 x : m_kind m1 <> Head -> m_kind m2 <> Head -> m_nu m1 = Fin nu -> m_nu m2 = Fin nu -> 0 < nu ->
  m_sol m1 = Some g1 -> m_sol m2 = Some g2 -> forall y, g1 x = [Fin v1] -> g2 y = [Fin v2] -> 0 <= v1 -> 0 <= v2 ->
  exists d1 d2, q_delta_m m1 x = Ok (Fin d1) /\ q_delta_m m2 y = Ok (Fin d2) /\ 0 <= d1 /\ 0 <= d2 /\
    (v1 <= v2 -> d1 <= d2) /\ (v1 < v2 -> d1 < d2).
Proof.
  intros K1 K2 N1 N2 Pn E1 E2 y G1 G2 P1 P2.
  exists (sqrt (v1 * nu)), (sqrt (v2 * nu)).
  assert (Q1 : 0 <= v1 * nu) by (apply Rmult_le_pos; lra). assert (Q2 : 0 <= v2 * nu) by (apply Rmult_le_pos; lra).
  split; [|split; [|split; [apply sqrt_pos|split; [apply sqrt_pos|split]]]].
  - unfold q_delta_m, sol_at. rewrite E1. cbn [bind]. rewrite G1. cbn [comp nth_error bind].
    rewrite N1, xmul_fin, xsqrt_fin by assumption. destruct (m_kind m1); [reflexivity|reflexivity|congruence].
  - unfold q_delta_m, sol_at. rewrite E2. cbn [bind]. rewrite G2. cbn [comp nth_error bind].
    rewrite N2, xmul_fin, xsqrt_fin by assumption. destruct (m_kind m2); [reflexivity|reflexivity|congruence].
  - intros L. apply sqrt_le_1_alt, Rmult_le_compat_r; lra.
  - intros L. apply sqrt_lt_1_alt. split; [exact Q1|]. apply Rmult_lt_compat_r; lra.
Qed.

Lemma order_lemma m1 m2 cs f nu g1 g2 U dU s1 s2 a b :
  m_kind m1 <> Head -> m_kind m2 = m_kind m1 -> cubic_spline_ok cs ->
  m_fit m1 = Some f -> m_fit m2 = Some f ->
  f = fit_spline cs \/ f = fit_white \/ f = fit_cb \/ f = fit_drela ->
  m_nu m1 = Fin nu -> m_nu m2 = Fin nu -> 0 < nu -> a <= b ->
  (forall x, a <= x <= b -> velocity_at m1 U (dU x) x /\ velocity_at m2 U (dU x) x /\ continuous dU x /\ 0 < U x + 1/1000) ->
  (forall x, a <= x <= b -> solves1_at m1 s1 x /\ solves1_at m2 s2 x) ->
  m_sol m1 = Some g1 -> m_sol m2 = Some g2 ->
  (forall x, a <= x <= b -> g1 x = [Fin (s1 x)] /\ g2 x = [Fin (s2 x)]) ->
  0 < s1 a <= s2 a ->
  forall x, a <= x <= b -> exists d1 d2,
    q_delta_m m1 x = Ok (Fin d1) /\ q_delta_m m2 x = Ok (Fin d2) /\ d1 <= d2 /\
    (m_kind m1 = ThwaitesLinear -> s1 a < s2 a -> d1 < d2).
Proof.
  intros Kh K2 OK F1 F2 Bf N1 N2 Pn L V Hs E1 E2 G St x Hx.
  assert (Vg : forall c, c <= b -> good m1 U dU a c).
  { intros c Hc t Ht. destruct (V t ltac:(lra)) as (A & _ & B & C). repeat split; try apply A; assumption. }
  assert (Q1 : forall c, c <= b -> sols m1 s1 a c) by (intros c Hc t Ht; apply Hs; lra).
  assert (Q2 : forall c, c <= b -> sols m1 s2 a c).
  { intros c Hc t Ht. destruct (V t ltac:(lra)) as (A & B & _). apply (same_rhs m1 m2 U (dU t) s2 t Kh K2); try assumption; [congruence|].
    apply Hs; lra. }
  assert (P1 := sols_positive m1 cs f U dU Kh OK F1 Bf s1 a b L (Vg b ltac:(lra)) (Q1 b ltac:(lra)) ltac:(lra) x Hx).
  assert (O := sols_order m1 cs f U dU Kh OK F1 Bf s1 s2 a x ltac:(lra) (Vg x ltac:(lra)) (Q1 x ltac:(lra)) (Q2 x ltac:(lra)) St).
  destruct (G x Hx) as [G1 G2].
  destruct (delta_m_le m1 m2 nu g1 g2 (s1 x) (s2 x) x Kh ltac:(congruence) N1 N2 Pn E1 E2 x G1 G2 ltac:(lra) ltac:(lra))
    as (d1 & d2 & D1 & D2 & _ & _ & Le & Lt).
  exists d1, d2. split; [exact D1|]. split; [exact D2|]. split; [apply Le, O|].
  intros Kl S. apply Lt.
  apply (sols_order_linear m1 U dU s1 s2 a x Kl ltac:(lra) (Vg x ltac:(lra)) (Q1 x ltac:(lra)) (Q2 x ltac:(lra)) S).
Qed.

(** Growth, in terms of the reported thickness. *)
Lemma thwaites_growth_lemma m cs f nu g U dU s a b :
  m_kind m <> Head -> cubic_spline_ok cs -> m_fit m = Some f ->
  f = fit_spline cs \/ f = fit_white \/ f = fit_cb \/ f = fit_drela ->
  m_nu m = Fin nu -> 0 < nu -> 0 < s a ->
  (forall x, a <= x <= b -> velocity_at m U (dU x) x /\ continuous dU x /\ 0 < U x + 1/1000) ->
  (forall x, a <= x <= b -> solves1_at m s x) ->
  m_sol m = Some g -> (forall x, a <= x <= b -> g x = [Fin (s x)]) ->
  forall x y, a <= x -> x < y -> y <= b -> exists d1 d2,
    q_delta_m m x = Ok (Fin d1) /\ q_delta_m m y = Ok (Fin d2) /\ 0 < d1 /\ 0 < d2 /\
    ((forall t, x <= t <= y -> -9/100 <= s t * dU t <= 7/100) -> d1 < d2) /\
    ((forall t, x <= t <= y -> 84/1000 <= s t * dU t <= 1/10) -> d2 < d1) /\
    (m_kind m = ThwaitesLinear -> (forall t, x <= t <= y -> s t * dU t <= 7/100) -> d1 < d2) /\
    (m_kind m = ThwaitesLinear -> (forall t, x <= t <= y -> 84/1000 <= s t * dU t) -> d2 < d1).
Proof.
  intros Kh OK F Bf N Pn P V Hs E G x y Hx Hxy Hy.
  assert (Vg : forall p q, a <= p -> q <= b -> good m U dU p q) by (intros p q Hp Hq t Ht; apply V; lra).
  assert (Q : forall p q, a <= p -> q <= b -> sols m s p q) by (intros p q Hp Hq t Ht; apply Hs; lra).
  assert (Pos := sols_positive m cs f U dU Kh OK F Bf s a b ltac:(lra) (Vg a b ltac:(lra) ltac:(lra)) (Q a b ltac:(lra) ltac:(lra)) P).
  assert (Px := Pos x ltac:(lra)). assert (Py := Pos y ltac:(lra)).
  destruct (delta_m_le m m nu g g (s x) (s y) x Kh Kh N N Pn E E y (G x ltac:(lra)) (G y ltac:(lra)) ltac:(lra) ltac:(lra))
    as (d1 & d2 & D1 & D2 & Z1 & Z2 & _ & Lt).
  destruct (delta_m_le m m nu g g (s y) (s x) y Kh Kh N N Pn E E x (G y ltac:(lra)) (G x ltac:(lra)) ltac:(lra) ltac:(lra))
    as (d2' & d1' & D2' & D1' & _ & _ & _ & Lt').
  rewrite D1 in D1'. injection D1' as <-. rewrite D2 in D2'. injection D2' as <-.
  assert (P1 : 0 < d1).
  { destruct (delta_m_of m nu g (s x) x Kh N Pn E (G x ltac:(lra)) ltac:(lra)) as [d [Ed D]]. rewrite D1 in Ed. injection Ed as <-.
    assert (0 < nu * s x) by (apply Rmult_lt_0_compat; lra). nra. }
  assert (P2 : 0 < d2).
  { destruct (delta_m_of m nu g (s y) y Kh N Pn E (G y ltac:(lra)) ltac:(lra)) as [d [Ed D]]. rewrite D2 in Ed. injection Ed as <-.
    assert (0 < nu * s y) by (apply Rmult_lt_0_compat; lra). nra. }
  exists d1, d2. split; [exact D1|]. split; [exact D2|]. split; [exact P1|]. split; [exact P2|].
  assert (VV := Vg x y ltac:(lra) ltac:(lra)). assert (QQ := Q x y ltac:(lra) ltac:(lra)).
  split; [|split; [|split]].
  - intros B. apply Lt, (sols_grow m cs f U dU Kh OK F Bf s x y Hxy VV QQ). intros t Ht. specialize (B t Ht). split; [right|]; lra.
  - intros B. apply Lt', (sols_thin m cs f U dU Kh OK F Bf s x y Hxy VV QQ). intros t Ht. specialize (B t Ht). split; [|right]; lra.
  - intros Kl B. apply Lt, (sols_grow m cs f U dU Kh OK F Bf s x y Hxy VV QQ). intros t Ht. split; [left; exact Kl|]. apply B, Ht.
  - intros Kl B. apply Lt', (sols_thin m cs f U dU Kh OK F Bf s x y Hxy VV QQ). intros t Ht. split; [apply B, Ht|left; exact Kl].
Qed.

Lemma head_growth_lemma m nu g U dU d h a b :
  m_kind m = Head -> m_nu m = Fin nu -> 0 < nu -> slot_kind (m_u m) <> KInt -> 0 < d a ->
  (forall x, a <= x <= b -> velocity_at m U (dU x) x /\ 1/1000 <= U x) ->
  (forall x, a <= x <= b -> solves2_at m d h x /\ 111/100 <= h x) ->
  m_sol m = Some g -> (forall x, a <= x <= b -> g x = [Fin (d x); Fin (h x)]) ->
  forall x y, a <= x -> x < y -> y <= b -> (forall t, x <= t <= y -> dU t <= 0) ->
    q_delta_m m x = Ok (Fin (d x)) /\ q_delta_m m y = Ok (Fin (d y)) /\ d x < d y.
Proof.
  intros Km N Pn Ks P V Hs E G x y Hx Hxy Hy B.
  assert (Q : forall t, a <= t <= b -> q_delta_m m t = Ok (Fin (d t))).
  { intros t Ht. unfold q_delta_m, sol_at. rewrite E. cbn [bind]. rewrite (G t Ht). cbn [comp nth_error bind]. rewrite Km. reflexivity. }
  split; [apply Q; lra|]. split; [apply Q; lra|].
  assert (Pos : forall t, a <= t <= b -> 0 < d t).
  { intros t Ht. apply (head_positive_lemma m U dU d h a t Km Ks); [exists nu; split; assumption|lra| |exact P].
    intros z Hz. split; [apply V; lra|apply Hs; lra]. }
  apply (increasing_on d (Derive d) x y Hxy).
  - intros t Ht. destruct (Hs t ltac:(lra)) as [[v [w [_ [D _]]]] _]. rewrite (is_derive_unique d t v D). exact D.
  - intros t Ht. destruct (Hs t ltac:(lra)) as [S Hh]. destruct (V t ltac:(lra)) as [V1 W].
    destruct (head_ode_lemma m nu U (dU t) d h t Km N Pn Ks V1 S W Hh (Pos t ltac:(lra))) as (cf & e & H1 & Cf & _ & _ & M & _).
    assert (Pd := Pos t ltac:(lra)).
    destruct (ludwieg_fin (U t * d t / nu) (h t)) as [cf' [Ec Pc]].
    { apply Rdiv_lt_0_compat; [apply Rmult_lt_0_compat; lra|exact Pn]. }
    rewrite Cf in Ec. injection Ec as <-.
    assert (0 <= (2 + h t) * (d t / U t) * - dU t).
    { apply Rmult_le_pos; [|specialize (B t Ht); lra]. apply Rmult_le_pos; [lra|]. apply Rdiv_le_0_compat; lra. }
    lra.
Qed.

(** ** Continuing a solution from an interior station *)

(** What [solve] leaves alone. *)
Lemma solve_keeps ivp m x0 x1 l : let m' := fst (solve ivp m x0 x1 l) in
  m_kind m' = m_kind m /\ m_nu m' = m_nu m /\ m_u m' = m_u m /\ m_du m' = m_du m /\ m_d2u m' = m_d2u m /\ m_fit m' = m_fit m /\
  ic_body_of (m_ic m') = ic_body_of (m_ic m).
Proof.
  unfold solve. unfold ic_set_nu. destruct (xleb (m_nu m) (Fin 0)); [repeat split|].
  destruct (q_du_e _ x0); [|repeat split]. destruct (ode_setup _); [|repeat split].
  destruct (ivp _ x0 x1 a0 _); repeat split.
Qed.
Lemma same_slots_u m m' : m_u m' = m_u m -> forall x, q_u_e m' x = q_u_e m x.
Proof. intros E x. unfold q_u_e. rewrite E. reflexivity. Qed.
Lemma same_slots_du m m' : m_u m' = m_u m -> m_du m' = m_du m -> forall x, q_du_e m' x = q_du_e m x.
Proof. intros E F x. unfold q_du_e, call_du. rewrite E, F. reflexivity. Qed.
Lemma same_slots_ode m m' : m_kind m' = m_kind m -> m_nu m' = m_nu m -> m_u m' = m_u m -> m_du m' = m_du m -> m_fit m' = m_fit m ->
  forall x y, ode_impl m' x y = ode_impl m x y.
Proof.
  intros K N Eu Ed F x y. unfold ode_impl, calc_f, calc_lambda.
  rewrite K, N, F, (same_slots_u m m' Eu), (same_slots_du m m' Eu Ed), Eu, Ed. reflexivity.
Qed.

Lemma restart_thwaites_lemma ivp m1 cs f nu U dU s1 s2 a c b l m2 m3 r dm g1 g3 :
  m_kind m1 <> Head -> cubic_spline_ok cs -> m_fit m1 = Some f ->
  f = fit_spline cs \/ f = fit_white \/ f = fit_cb \/ f = fit_drela ->
  m_nu m1 = Fin nu -> 0 < nu -> a <= c <= b ->
  ic_body_of (m_ic m1) <> FSStag ->
  (forall x, a <= x <= b -> velocity_at m1 U (dU x) x /\ continuous dU x /\ 0 < U x + 1/1000) ->
  m_sol m1 = Some g1 -> (forall x, a <= x <= b -> g1 x = [Fin (s1 x)] /\ solves1_at m1 s1 x) -> 0 < s1 a ->
  q_delta_m m1 c = Ok dm -> set_initial_delta_m m1 dm = (m2, Ok tt) -> solve ivp m2 c b l = (m3, Ok r) ->
  m_sol m3 = Some g3 -> (forall x, c <= x <= b -> g3 x = [Fin (s2 x)] /\ solves1_at m3 s2 x) ->
  (forall y, initial_state m2 c y -> g3 c = y) ->
  forall x, c <= x <= b -> q_delta_m m3 x = q_delta_m m1 x /\ q_shape_d m3 x = q_shape_d m1 x /\
    (forall rho, q_tau_w_thwaites m3 x rho = q_tau_w_thwaites m1 x rho).
Proof.
  intros Kh OK F Bf N Pn Hc Ei V E1 S1 P1 Qd Ed Es E3 S3 St.
  assert (Ei' : exists du0 nu0 dd0 d0 dk0, m_ic m1 = {| ic_du := du0; ic_nu := nu0; ic_body_of := Manual dd0 d0 dk0 |}).
  { destruct (m_ic m1) as [du0 nu0 [|dd0 d0 dk0]]; [cbn in Ei; contradiction|]. exists du0, nu0, dd0, d0, dk0. reflexivity. }
  clear Ei. destruct Ei' as (du0 & nu0 & dd0 & d0 & dk0 & Ei).
  assert (Vg : good m1 U dU a b) by (intros t Ht; apply V; lra).
  assert (Pc : 0 < s1 c).
  { apply (sols_positive m1 cs f U dU Kh OK F Bf s1 a b ltac:(lra) Vg); [intros t Ht; apply S1; lra|exact P1|lra]. }
  destruct (delta_m_of m1 nu g1 (s1 c) c Kh N Pn E1 (proj1 (S1 c ltac:(lra))) ltac:(lra)) as [d [Q D2]].
  rewrite Qd in Q. injection Q as ->.
  unfold set_initial_delta_m in Ed. destruct (xleb (Fin d) (Fin 0)); [discriminate|]. injection Ed as <-.
  set (m2 := set_ic m1 _) in *.
  assert (K := solve_keeps ivp m2 c b l). rewrite Es in K. cbn [fst] in K. cbv zeta in K.
  destruct K as (Kk & Kn & Ku & Kdu & Kd2 & Kf & _).
  change (m_kind m2) with (m_kind m1) in Kk. change (m_nu m2) with (m_nu m1) in Kn. change (m_u m2) with (m_u m1) in Ku.
  change (m_du m2) with (m_du m1) in Kdu. change (m_fit m2) with (m_fit m1) in Kf.
  assert (Start : s2 c = s1 c).
  { destruct (V c ltac:(lra)) as [[_ [_ QD]] _].
    assert (I : initial_state m2 c [(Fin d * Fin d / m_nu m2)%xr]).
    { apply (initial_state_thwaites m2 c (dU c) (Fin d)); [exact Kh| |].
      - rewrite <- QD. apply (same_slots_du m1 m2); reflexivity.
      - unfold m2. cbn [set_ic m_ic]. rewrite Ei. reflexivity. }
    specialize (St _ I). rewrite (proj1 (S3 c ltac:(lra))) in St. change (m_nu m2) with (m_nu m1) in St.
    rewrite N, xmul_fin, xdiv_fin in St by lra. injection St as St. rewrite St.
    replace (d * d) with (d ^ 2) by ring. rewrite D2. field. lra. }
  assert (Uq : forall x, c <= x <= b -> s1 x = s2 x).
  { apply (sols_unique m1 cs f U dU Kh OK F Bf s1 s2 c b ltac:(lra)); [| | |exact Pc|symmetry; exact Start].
    - intros t Ht. apply V. lra.
    - intros t Ht. apply S1. lra.
    - intros t Ht. destruct (S3 t Ht) as [_ [v [Ev D]]]. exists v. split; [|exact D]. rewrite <- Ev. symmetry.
      apply same_slots_ode; assumption. }
  intros x Hx. assert (So : sol_at m3 x = sol_at m1 x).
  { unfold sol_at. rewrite E3, E1. rewrite (proj1 (S3 x Hx)), (proj1 (S1 x ltac:(lra))), (Uq x Hx). reflexivity. }
  assert (DM : q_delta_m m3 x = q_delta_m m1 x) by (unfold q_delta_m; rewrite So, Kk, Kn; reflexivity).
  assert (QD := same_slots_du m1 m3 Ku Kdu x). assert (QU := same_slots_u m1 m3 Ku x).
  split; [exact DM|]. split.
  - unfold q_shape_d, calc_lambda. rewrite So, Kk, Kf, QD. reflexivity.
  - intros rho. unfold q_tau_w_thwaites, calc_lambda. rewrite So, Kf, QD, QU, Kn, DM. reflexivity.
Qed.

Lemma restart_head_lemma ivp m1 nu U dU d1 h1 d2 h2 a c b l m2 m3 m4 r dm hm g1 g4 :
  m_kind m1 = Head -> m_nu m1 = Fin nu -> 0 < nu -> slot_kind (m_u m1) <> KInt -> a <= c <= b ->
  ic_body_of (m_ic m1) <> FSStag ->
  (forall x, a <= x <= b -> velocity_at m1 U (dU x) x /\ continuous dU x /\ 1/1000 <= U x) ->
  m_sol m1 = Some g1 -> 0 < d1 a ->
  (forall x, a <= x <= b -> g1 x = [Fin (d1 x); Fin (h1 x)] /\ solves2_at m1 d1 h1 x /\ h1 x <> 16/10) ->
  q_delta_m m1 c = Ok dm -> q_shape_d m1 c = Ok hm ->
  set_initial_delta_m m1 dm = (m2, Ok tt) -> set_initial_shape_d m2 hm = (m3, Ok tt) -> solve ivp m3 c b l = (m4, Ok r) ->
  m_sol m4 = Some g4 ->
  (forall x, c <= x <= b -> g4 x = [Fin (d2 x); Fin (h2 x)] /\ solves2_at m4 d2 h2 x /\ h2 x <> 16/10) ->
  (forall y, initial_state m3 c y -> g4 c = y) ->
  forall x, c <= x <= b -> q_delta_m m4 x = q_delta_m m1 x /\ q_shape_d m4 x = q_shape_d m1 x.
Proof.
  intros Km N Pn Ks Hc Ei V E1 P1 S1 Qd Qh Ed Eh Es E4 S4 St.
  assert (Ei' : exists du0 nu0 dd0 d0 dk0, m_ic m1 = {| ic_du := du0; ic_nu := nu0; ic_body_of := Manual dd0 d0 dk0 |}).
  { destruct (m_ic m1) as [du0 nu0 [|dd0 d0 dk0]]; [cbn in Ei; contradiction|]. exists du0, nu0, dd0, d0, dk0. reflexivity. }
  clear Ei. destruct Ei' as (du0 & nu0 & dd0 & d0 & dk0 & Ei).
  assert (Pc : 0 < d1 c).
  { apply (head_positive_lemma m1 U dU d1 h1 a c Km Ks); [exists nu; split; assumption|lra| |exact P1].
    intros z Hz. split; [apply V; lra|apply S1; lra]. }
  assert (Dm : dm = Fin (d1 c)).
  { unfold q_delta_m, sol_at in Qd. rewrite E1 in Qd. cbn [bind] in Qd. rewrite (proj1 (S1 c ltac:(lra))) in Qd.
    cbn [comp nth_error bind] in Qd. rewrite Km in Qd. congruence. }
  assert (Hm : hm = Fin (h1 c)).
  { unfold q_shape_d, sol_at in Qh. rewrite E1 in Qh. cbn [bind] in Qh. rewrite (proj1 (S1 c ltac:(lra))) in Qh.
    rewrite Km in Qh. cbn [comp nth_error] in Qh. congruence. }
  subst dm hm.
  unfold set_initial_delta_m in Ed. destruct (xleb (Fin (d1 c)) (Fin 0)); [discriminate|]. injection Ed as <-.
  set (m2 := set_ic m1 _) in *.
  unfold set_initial_shape_d in Eh. destruct (xleb (Fin (h1 c)) (Fin 0)); [discriminate|].
  assert (Gm : get_initial_delta_m m2 = Ok (Fin (d1 c))).
  { unfold get_initial_delta_m, m2. cbn [set_ic m_ic]. rewrite Ei. reflexivity. }
  rewrite Gm in Eh. injection Eh as <-. set (m3 := set_ic m2 _) in *.
  assert (K := solve_keeps ivp m3 c b l). rewrite Es in K. cbn [fst] in K. cbv zeta in K.
  destruct K as (Kk & Kn & Ku & Kdu & Kd2 & Kf & _).
  change (m_kind m3) with (m_kind m1) in Kk. change (m_nu m3) with (m_nu m1) in Kn. change (m_u m3) with (m_u m1) in Ku.
  change (m_du m3) with (m_du m1) in Kdu. change (m_fit m3) with (m_fit m1) in Kf.
  assert (Start : d2 c = d1 c /\ h2 c = h1 c).
  { destruct (V c ltac:(lra)) as [[_ [_ QD]] _].
    assert (I : initial_state m3 c [Fin (d1 c); Fin (h1 c)]).
    { apply (initial_state_head m3 c (dU c)); [exact Km| | |].
      - rewrite <- QD. apply (same_slots_du m1 m3); reflexivity.
      - unfold m3, m2. cbn [set_ic m_ic]. rewrite Ei. reflexivity.
      - unfold m3, m2. cbn [set_ic m_ic]. rewrite Ei. cbn [ic_assign_del_m ic_assign_del_d ic_body_of ic_shape_d].
        rewrite py_div_fin by lra. do 2 f_equal. field. lra. }
    specialize (St _ I). rewrite (proj1 (S4 c ltac:(lra))) in St. injection St as A B. split; assumption. }
  assert (Uq : forall x, c <= x <= b -> d1 x = d2 x /\ h1 x = h2 x).
  { apply (head_unique_lemma m1 nu U dU c b d1 h1 d2 h2 Km N Pn Ks ltac:(lra)).
    - intros t Ht. apply V. lra.
    - exact Pc.
    - symmetry. apply Start.
    - symmetry. apply Start.
    - intros t Ht. apply S1. lra.
    - intros t Ht. destruct (S4 t Ht) as (_ & [v [w [Ev D]]] & H6). split; [|exact H6]. exists v, w. split; [|exact D].
      rewrite <- Ev. symmetry. apply same_slots_ode; assumption. }
  intros x Hx. assert (So : sol_at m4 x = sol_at m1 x).
  { unfold sol_at. rewrite E4, E1. destruct (Uq x Hx) as [A B].
    rewrite (proj1 (S4 x Hx)), (proj1 (S1 x ltac:(lra))), A, B. reflexivity. }
  split; [unfold q_delta_m; rewrite So, Kk, Kn; reflexivity|].
  unfold q_shape_d. rewrite So, Kk, Km. reflexivity.
Qed.

(** For the examples: a calculation with an integrator that returns a given function. *)
Lemma follow_solve_pos sol s x0 x1 y nu : m_nu s = Fin nu -> 0 < nu -> initial_state s x0 y ->
  exists c ir, solve (ivp_follow sol) s x0 x1 [] = (set_sol (set_events (set_ic s c) (m_events s ++ [])) (Some sol), Ok ir) /\
    ir_x_end ir = x1.
Proof.
  intros N Pn HI.
  assert (Nz : xleb (m_nu s) (Fin 0) = false) by (rewrite N; cbn [xleb]; apply Rleb_false; lra).
  pose proof (solve_cases (ivp_follow sol) s x0 x1 [] Nz) as C.
  destruct (solve (ivp_follow sol) s x0 x1 []) as [m' r] eqn:ES. cbn [fst snd] in C.
  inversion C as [c e Nn B E1 E2|c y0 e I0 B V E1 E2|c y0 r' I0 B V E1 E2]; subst.
  - exfalso. exact (Nn _ HI).
  - discriminate V.
  - injection V as <-. exists c. eexists. split; reflexivity.
Qed.
