(** Proofs about wedge flows (C155). *)
From Coq Require Import Reals List Lra Lia.
From Coquelicot Require Import Coquelicot.
From Verif Require Import PyBase PyBaseFacts ThwaitesFitsModel ThwaitesFitsProps SplineSpec SplineProofs SplineProps
  CoreModel OdeSpec ThwaitesOdeProofs UnitsSpec UnitsProofs LinearFlowProofs WedgeSpec.
Import ListNotations.
Open Scope R_scope.

Lemma rpower_pos x n : 0 < Rpower x n.
Proof. unfold Rpower. apply exp_pos. Qed.
Lemma speed_pos c n x : 0 < c -> 0 < wedge_speed c n x.
Proof. intros. apply Rmult_lt_0_compat; [assumption|apply rpower_pos]. Qed.
Lemma thickness_pos c n x : 0 < c -> 0 < 1 + 5*n -> 0 < x -> 0 < wedge_thickness c n x.
Proof.
  intros. apply Rdiv_lt_0_compat; [lra|]. apply Rmult_lt_0_compat; [assumption|]. apply speed_pos; assumption.
Qed.
Lemma rpower_pow x n k : Rpower x n ^ k = Rpower x (n * INR k).
Proof. rewrite <- Rpower_pow by apply rpower_pos. apply Rpower_mult. Qed.

Lemma rpower_derive p x : 0 < x -> is_derive (fun t => Rpower t p) x (p * Rpower x (p - 1)).
Proof.
  intros P. apply is_derive_Reals. apply derivable_pt_lim_power. exact P.
Qed.
Lemma speed_derive c n x : 0 < x -> is_derive (wedge_speed c n) x (wedge_slope c n x).
Proof.
  intros P. unfold wedge_speed, wedge_slope. apply (is_derive_scal (fun t => Rpower t n) x c).
  apply rpower_derive; exact P.
Qed.

(** Thwaites' quadrature in a wedge flow, from any initial thickness. *)
Lemma wedge_quadrature c n s0 a b : 0 < c -> 0 < 1 + 5*n -> 0 < a -> a <= b ->
  thwaites_quadrature (wedge_speed c n) s0 a b =
  wedge_thickness c n b * (1 + (s0 / wedge_thickness c n a - 1) * Rpower (a / b) (1 + 5*n)).
Proof.
  intros Pc Pn Pa Hab.
  assert (I : RInt (fun x => wedge_speed c n x ^ 5) a b =
              c^5 / (1 + 5*n) * (Rpower b (1 + 5*n) - Rpower a (1 + 5*n))).
  { apply is_RInt_unique.
    replace (c^5 / (1 + 5*n) * (Rpower b (1 + 5*n) - Rpower a (1 + 5*n))) with
      (minus (c^5 / (1 + 5*n) * Rpower b (1 + 5*n)) (c^5 / (1 + 5*n) * Rpower a (1 + 5*n)))
      by (unfold minus, plus, opp; cbn; ring).
    assert (D : forall x, 0 < x -> is_derive (fun t => c^5 / (1 + 5*n) * Rpower t (1 + 5*n)) x (wedge_speed c n x ^ 5)).
    { intros x Px. replace (wedge_speed c n x ^ 5) with (c^5 / (1+5*n) * ((1 + 5*n) * Rpower x (1 + 5*n - 1))).
      - apply (is_derive_scal (fun t => Rpower t (1 + 5*n)) x (c^5 / (1+5*n))). apply rpower_derive; exact Px.
      - unfold wedge_speed. rewrite Rpow_mult_distr, rpower_pow.
        replace (n * INR 5) with (1 + 5*n - 1) by (cbn; ring). field. lra. }
    apply (is_RInt_derive (fun t => c^5 / (1 + 5*n) * Rpower t (1 + 5*n))).
    - rewrite Rmin_left, Rmax_right by exact Hab. intros x Hx. apply D. lra.
    - rewrite Rmin_left, Rmax_right by exact Hab. intros x Hx.
      apply (ex_derive_continuous (fun x => wedge_speed c n x ^ 5)).
      assert (DS := speed_derive c n x ltac:(lra)).
      auto_derive. eexists. exact DS. }
  assert (E5 : forall x, 0 < x -> Rpower x (1 + 5*n) = x * Rpower x n ^ 5).
  { intros x Px. rewrite rpower_pow, Rpower_plus, Rpower_1 by exact Px.
    f_equal. f_equal. cbn; ring. }
  assert (Pb : 0 < b) by lra.
  assert (EQ : Rpower (a / b) (1 + 5*n) = Rpower a (1 + 5*n) / Rpower b (1 + 5*n)).
  { unfold Rpower. rewrite ln_div by assumption.
    unfold Rdiv. rewrite <- exp_Ropp, <- exp_plus. f_equal. ring. }
  unfold thwaites_quadrature. rewrite I, EQ, !E5 by assumption. unfold wedge_thickness, wedge_speed.
  pose proof (rpower_pos a n) as PA. pose proof (rpower_pos b n) as PB.
  set (A := Rpower a n) in *. set (B := Rpower b n) in *. clearbody A B.
  field. repeat split; lra.
Qed.

Section Wedge.
Variables (m : meth) (nu c n lo : R) (s : R -> R) (a b : R).
Hypothesis K : m_kind m = ThwaitesLinear.
Hypothesis Kn : m_nu m = Fin nu.
Hypothesis Pn : 0 < nu.
Hypothesis Pc : 0 < c.
Hypothesis P5 : 0 < 1 + 5*n.
Hypothesis Pl : 0 < lo.
Hypothesis Pa : 0 < a.
Hypothesis Hab : a <= b.
Hypothesis F : wedge_flow m c n lo s a b.
Let r := 1 + 1/(1000*lo).
Let w := wedge_thickness c n.
Let t := w b * (1 + (s a / w a - 1) * Rpower (a / b) (1 + 5*n)).

Lemma wedge_offset : 0 <= s a -> t / r^6 <= s b <= r^6 * t.
Proof.
  intros Sa. pose proof (offset_lemma m (wedge_speed c n) (wedge_slope c n) s a b lo K Pl Hab (proj1 F) Sa) as H.
  cbv zeta in H. rewrite wedge_quadrature in H by assumption. exact H.
Qed.

Lemma r_big : 1 < r.
Proof. unfold r. assert (0 < 1/(1000*lo)) by (apply Rdiv_lt_0_compat; lra). lra. Qed.

Lemma memory_le : 0 < Rpower (a / b) (1 + 5*n) <= 1.
Proof.
  split; [apply rpower_pos|]. unfold Rpower. apply Rle_trans with (exp 0); [|rewrite exp_0; lra].
  assert (L : ln (a/b) <= 0).
  { rewrite <- ln_1. destruct (Req_dec a b) as [->|N].
    - replace (b/b) with 1 by (field; lra). lra.
    - left. apply ln_increasing; [apply Rdiv_lt_0_compat; lra|]. apply Rlt_div_l; lra. }
  destruct (Req_dec ((1 + 5*n) * ln (a/b)) 0) as [->|N]; [lra|]. left. apply exp_increasing. nra.
Qed.

Lemma t_nonneg : 0 <= s a -> 0 <= t.
Proof.
  intros Sa. destruct memory_le as [M1 M2].
  pose proof (thickness_pos c n a Pc P5 Pa) as Wa. pose proof (thickness_pos c n b Pc P5 ltac:(lra)) as Wb.
  fold w in Wa, Wb. unfold t. apply Rmult_le_pos; [lra|].
  assert (0 <= s a / w a) by (apply Rle_div_r; lra). nra.
Qed.

Lemma wedge_delta : 0 <= s a ->
  let d := sqrt (nu * t) in
  exists v, q_delta_m m b = Ok (Fin v) /\ d / r^3 <= v <= r^3 * d.
Proof.
  intros Sa d. destruct (wedge_offset Sa) as [L1 L2]. pose proof (t_nonneg Sa) as Ht.
  pose proof r_big as Hr.
  assert (R3 : 0 < r^3) by (apply pow_lt; lra).
  assert (R6 : 0 < r^6) by (apply pow_lt; lra).
  assert (E6 : r^6 = r^3 * r^3) by ring.
  destruct F as [_ [g [Eg G]]]. specialize (G b ltac:(lra)).
  assert (Sb : 0 <= s b).
  { apply Rle_trans with (2 := L1). apply Rle_div_r; lra. }
  exists (sqrt (s b * nu)). unfold q_delta_m, sol_at. rewrite Eg. cbn [bind]. rewrite G, K, Kn.
  cbn [comp nth_error bind].
  assert (Sn : 0 <= s b * nu) by (apply Rmult_le_pos; lra).
  rewrite xmul_fin, xsqrt_fin by lra. split; [reflexivity|].
  split.
  - apply Rle_div_l; [lra|]. rewrite <- (sqrt_square (r^3)) by lra.
    rewrite <- sqrt_mult by (try assumption; apply Rlt_le, Rmult_lt_0_compat; lra).
    unfold d. apply sqrt_le_1_alt. rewrite <- E6.
    apply (Rle_div_l t (s b) (r^6)) in L1; [|lra].
    replace (s b * nu * r^6) with (nu * (s b * r^6)) by ring. apply Rmult_le_compat_l; lra.
  - rewrite <- (sqrt_square (r^3)) by lra. unfold d.
    rewrite <- sqrt_mult by (try (apply Rmult_le_pos; lra); apply Rlt_le, Rmult_lt_0_compat; lra).
    apply sqrt_le_1_alt. rewrite <- E6.
    replace (r^6 * (nu * t)) with (r^6 * t * nu) by ring. apply Rmult_le_compat_r; lra.
Qed.

(** Thwaites' parameter of a layer that starts self-similar. *)
Lemma slope_speed x : 0 < x -> wedge_slope c n x = n * wedge_speed c n x / x.
Proof.
  intros Px. unfold wedge_slope, wedge_speed. unfold Rminus. rewrite Rpower_plus, Rpower_Ropp, Rpower_1 by exact Px.
  field. lra.
Qed.
Lemma wedge_lambda : s a = w a ->
  exists k, / r^6 <= k <= r^6 /\ s b * wedge_slope c n b = k * wedge_parameter n /\ 0 < s b.
Proof.
  intros E. pose proof (thickness_pos c n a Pc P5 Pa) as Wa. pose proof (thickness_pos c n b Pc P5 ltac:(lra)) as Wb.
  fold w in Wa, Wb. destruct (wedge_offset ltac:(lra)) as [L1 L2].
  assert (T : t = w b). { unfold t. rewrite E. field. lra. }
  rewrite T in L1, L2. pose proof r_big as Hr. assert (R6 : 0 < r^6) by (apply pow_lt; lra).
  exists (s b / w b). split; [split|].
  - apply (Rle_div_r (/ r^6) (s b) (w b)); [lra|]. unfold Rdiv in L1. lra.
  - apply (Rle_div_l (s b) (r^6) (w b)); [lra|]. lra.
  - split.
    + rewrite slope_speed by lra. unfold w, wedge_thickness, wedge_parameter.
      pose proof (speed_pos c n b Pc). field. repeat split; lra.
    + apply Rlt_le_trans with (2 := L1). apply Rdiv_lt_0_compat; lra.
Qed.

Variables (f : fit) (rho : R).
Hypothesis Kf : m_fit m = Some f.
Hypothesis Pr : 0 < rho.

Lemma wedge_tau x : s a = w a -> shear f (Fin (s b * wedge_slope c n b)) = Fin x ->
  exists v k, q_tau_w_thwaites m b rho = Ok (Fin v) /\ 0 < k /\ v = k * x.
Proof.
  intros E W. destruct (wedge_lambda E) as (_ & _ & _ & Sb).
  destruct F as [HF [g [Eg G]]]. destruct (HF b ltac:(lra)) as ((LU & _ & QD) & _ & HL).
  pose proof (locally_singleton _ _ LU) as QU. cbv beta in QU.
  exists (rho * nu * wedge_speed c n b * x / sqrt (s b * nu)), (rho * nu * wedge_speed c n b / sqrt (s b * nu)).
  split; [exact (tau_is m f nu s b _ _ x g rho K Kn Pn Kf Eg (G b ltac:(lra)) Sb QU QD W)|].
  assert (Psn : 0 < s b * nu) by (apply Rmult_lt_0_compat; assumption).
  pose proof (sqrt_lt_R0 _ Psn) as Pq. pose proof (speed_pos c n b Pc) as PU.
  split; [|field; lra]. set (U := wedge_speed c n b) in *. clearbody U.
  apply Rdiv_lt_0_compat; [repeat apply Rmult_lt_0_compat; assumption|exact Pq].
Qed.

Lemma wedge_clamped cs : cubic_spline_ok cs -> f = fit_white \/ f = fit_spline cs -> s a = w a ->
  exists v, q_tau_w_thwaites m b rho = Ok (Fin v) /\
    (-9/100 < r^6 * wedge_parameter n -> 0 < v) /\ (wedge_parameter n <= - (9/100) * r^6 -> v = 0).
Proof.
  intros OK Hf E. destruct (wedge_lambda E) as (k & [Hk1 Hk2] & EL & Sb).
  assert (S : exists x, shear f (Fin (s b * wedge_slope c n b)) = Fin x /\ 0 <= x /\ (x = 0 <-> s b * wedge_slope c n b <= -9/100)).
  { destruct Hf as [->| ->].
    - destruct white_shear_zero_iff as (A & B & _). destruct (A (s b * wedge_slope c n b)) as (p & x & Ep & Ew & Le).
      injection Ep as <-. exists x. split; [exact Ew|]. split; [exact Le|]. rewrite <- B, Ew.
      split; [intros ->; reflexivity|intros Q; injection Q; auto].
    - destruct (proj1 (default_fit_well_behaved _ OK) (s b * wedge_slope c n b)) as (x & W & R1 & Z). exists x.
      split; [exact W|]. split; [lra|exact Z]. }
  destruct S as (x & W & P & Z). destruct (wedge_tau x E W) as (v & q & Q & Pq & ->).
  exists (q * x). split; [exact Q|]. pose proof r_big as Hr.
  assert (R6 : 1 < r^6) by (apply Rlt_pow_R1; [exact Hr|lia]).
  assert (RI : 0 < / r^6) by (apply Rinv_0_lt_compat; lra).
  rewrite EL in Z. set (p := wedge_parameter n) in *. split.
  - intros H. apply Rmult_lt_0_compat; [exact Pq|]. destruct P as [P|P]; [exact P|exfalso].
    symmetry in P. apply Z in P. assert (p < 0) by nra. nra.
  - intros H. rewrite (proj2 Z); [ring|]. assert (p < 0) by nra.
    assert (k * p <= / r^6 * p) by nra.
    assert (/ r^6 * p <= / r^6 * (- (9/100) * r^6)) by (apply Rmult_le_compat_l; lra).
    replace (/ r^6 * (- (9/100) * r^6)) with (-9/100) in * by (field; lra). lra.
Qed.

(** Cebeci and Bradshaw's fit goes below zero instead. *)
Lemma wedge_cb : f = fit_cb -> s a = w a ->
  exists v, q_tau_w_thwaites m b rho = Ok (Fin v) /\
    (-898/10000 <= r^6 * wedge_parameter n -> 0 < v) /\ (wedge_parameter n <= - (9/100) * r^6 -> v < 0).
Proof.
  intros Hf E. destruct (wedge_lambda E) as (k & [Hk1 Hk2] & EL & Sb).
  destruct cebeci_bradshaw_shear_zero as (z & Z1 & Z2 & Z3 & Z4).
  assert (S : exists x, shear f (Fin (s b * wedge_slope c n b)) = Fin x /\
     (z < s b * wedge_slope c n b -> 0 < x) /\ (s b * wedge_slope c n b < z -> x < 0)).
  { rewrite Hf. destruct (Rtotal_order (s b * wedge_slope c n b) z) as [H|[H|H]].
    - destruct (Z3 _ H) as (x & W & L). exists x. split; [exact W|]. split; intros; lra.
    - exists 0. rewrite H. split; [exact Z2|]. split; intros; lra.
    - destruct (Z4 _ H) as (x & W & L). exists x. split; [exact W|]. split; intros; lra. }
  destruct S as (x & W & P1 & P2). destruct (wedge_tau x E W) as (v & q & Q & Pq & ->).
  exists (q * x). split; [exact Q|]. pose proof r_big as Hr.
  assert (R6 : 1 < r^6) by (apply Rlt_pow_R1; [exact Hr|lia]).
  assert (RI : 0 < / r^6) by (apply Rinv_0_lt_compat; lra).
  rewrite EL in P1, P2. set (p := wedge_parameter n) in *. split.
  - intros H. apply Rmult_lt_0_compat; [exact Pq|]. apply P1. 
    destruct (Rle_or_lt 0 p); [assert (0 <= k * p) by (apply Rmult_le_pos; lra); lra|].
    assert (r^6 * p <= k * p) by nra. lra.
  - intros H. assert (p < 0) by nra.
    assert (k * p <= / r^6 * p) by nra.
    assert (/ r^6 * p <= / r^6 * (- (9/100) * r^6)) by (apply Rmult_le_compat_l; lra).
    replace (/ r^6 * (- (9/100) * r^6)) with (-9/100) in * by (field; lra).
    assert (x < 0) by (apply P2; lra). nra.
Qed.
End Wedge.

Lemma parameter_threshold n : 0 < 1 + 5*n -> (wedge_parameter n <= -9/100 <-> n <= -1/10).
Proof.
  intros P. unfold wedge_parameter. rewrite (Rle_div_l (45/100*n) (-9/100) (1 + 5*n) P). split; lra.
Qed.

(** Solutions exist in velocities given for positive x. *)
Lemma linear_exists_pos m U dU s0 a : m_kind m = ThwaitesLinear -> 0 < a ->
  (forall x, 0 < x -> velocity_at m U (dU x) x /\ 0 < U x + 1/1000) ->
  exists s, s a = s0 /\ forall x, 0 < x -> solves1_at m s x.
Proof.
  intros K Pa H.
  set (w := fun x => U x + 1/1000).
  assert (C : forall x, 0 < x -> continuous (fun x => (w x)^5) x).
  { intros x Px. destruct (H x Px) as [[_ [DU _]] _]. unfold w.
    apply (ex_derive_continuous (fun x => (U x + 1/1000)^5)).
    auto_derive. exists (dU x). exact DU. }
  exists (fun x => (s0 * (w a)^6 + 45/100 * RInt (fun x => (w x)^5) a x) / (w x)^6).
  assert (Wa : 0 < w a) by (unfold w; apply H; exact Pa).
  split.
  - rewrite RInt_point. unfold zero; cbn. field. lra.
  - intros x Px. destruct (H x Px) as [[LU [DU QD]] W].
    assert (QU := locally_singleton _ _ LU).
    eexists. split.
    + apply (rhs_linear m (U x) (dU x) _ x K QU QD). lra.
    + assert (DI : is_derive (fun x => RInt (fun x => (w x)^5) a x) x ((w x)^5)).
      { apply (is_derive_RInt (fun x => (w x)^5) (fun x => RInt (fun x => (w x)^5) a x) a x).
        - exists (mkposreal x Px). intros y Hy. apply (RInt_correct (fun x => (w x)^5)).
          apply (ex_RInt_continuous (fun x => (w x)^5)). intros z Hz. apply C.
          assert (0 < y).
          { change (Rabs (y - x) < x) in Hy. apply Rabs_def2 in Hy. lra. }
          assert (0 < Rmin a y) by (apply Rmin_glb_lt; assumption). lra.
        - apply C; exact Px. }
      assert (DN : is_derive (fun x => s0 * (w a)^6 + 45/100 * RInt (fun x => (w x)^5) a x) x
                     (45/100 * (w x)^5)).
      { apply (affine_derive (fun x => RInt (fun x => (w x)^5) a x)). exact DI. }
      assert (DW : is_derive (fun x => / (w x)^6) x (- (6 * dU x) / (w x)^7)).
      { unfold w. auto_derive.
        - split; [exists (dU x); exact DU|]. split; [|exact I].
          unfold w in *. repeat (apply Rmult_integral_contrapositive_currified; [lra|]). lra.
        - replace (Derive (fun x0 : R => U x0) x) with (dU x)
            by (symmetry; apply is_derive_unique; exact DU).
          cbn. field. lra. }
      assert (D := mult_derive _ _ _ _ _ DN DW). cbv beta in D. unfold Rdiv at 1.
      fold (w x). replace (1/1000 + U x) with (w x) by (unfold w; ring).
      unfold w in W. fold (w x) in W.
      match type of D with is_derive ?f ?p ?l => match goal with |- is_derive ?g ?q ?r =>
        replace r with l; [exact D|] end end.
      field. lra.
Qed.
