From Coq Require Import Reals List String Bool Lra Lia.
From Coquelicot Require Import Coquelicot.
From Verif Require Import PyBase PyBaseFacts XDeriv InitialConditionModel ThwaitesFitsModel
  SkinFrictionModel HeadModel HeadProofs HeadOdeProofs CoreModel CoreSpec CoreRefute OdeSpec
  ThwaitesOdeProofs PositivityProofs UnitsSpec.
Import ListNotations.
Open Scope R_scope.

(* ------------------------------------------------------------------ *)
(** * C98: the velocity offset of the linear method *)

Lemma pow5_continuous U dU x : is_derive U x dU -> continuous (fun x => (U x)^5) x.
Proof.
  intros D. apply (ex_derive_continuous (fun x => (U x)^5)). auto_derive. exists dU. exact D.
Qed.

Lemma offset_bounds u lo : 0 < lo -> lo <= u ->
  u <= u + 1/1000 <= (1 + 1/(1000*lo)) * u.
Proof.
  intros H L. split; [lra|].
  assert (1/1000 <= 1/(1000*lo) * u); [|lra].
  replace (1/1000) with (1/(1000*lo) * lo) by (field; lra).
  apply Rmult_le_compat_l; [|lra]. apply Rlt_le, Rdiv_lt_0_compat; lra.
Qed.

Lemma offset_lemma m U dU s a b lo : m_kind m = ThwaitesLinear -> 0 < lo -> a <= b ->
  (forall x, a <= x <= b -> velocity_at m U (dU x) x /\ solves1_at m s x /\ lo <= U x) ->
  0 <= s a ->
  let r := 1 + 1/(1000*lo) in
  let t := thwaites_quadrature U (s a) a b in
  t / r^6 <= s b <= r^6 * t.
Proof.
  intros K Hlo Hab H Ha r t.
  assert (Hr : 1 < r).
  { unfold r. assert (0 < 1/(1000*lo)) by (apply Rdiv_lt_0_compat; lra). lra. }
  assert (H' : forall x, Rmin a b <= x <= Rmax a b ->
     velocity_at m U (dU x) x /\ solves1_at m s x /\ 0 < U x + 1/1000).
  { rewrite Rmin_left, Rmax_right by assumption. intros x Hx.
    destruct (H x Hx) as (A & B & C). split; [exact A|]. split; [exact B|lra]. }
  pose proof (linear_quadrature_lemma m U dU s a b K H') as Q.
  assert (C1 : ex_RInt (fun x => (U x)^5) a b).
  { apply (ex_RInt_continuous (fun x => (U x)^5)). intros x Hx.
    rewrite Rmin_left, Rmax_right in Hx by assumption.
    destruct (H x Hx) as [[_ [D _]] _]. exact (pow5_continuous U (dU x) x D). }
  assert (C2 : ex_RInt (fun x => (U x + 1/1000)^5) a b).
  { apply (ex_RInt_continuous (fun x => (U x + 1/1000)^5)). intros x Hx.
    rewrite Rmin_left, Rmax_right in Hx by assumption.
    destruct (H x Hx) as [[_ [D _]] _].
    apply (ex_derive_continuous (fun x => (U x + 1/1000)^5)). auto_derive. exists (dU x). exact D. }
  set (I := RInt (fun x => (U x)^5) a b). set (J := RInt (fun x => (U x + 1/1000)^5) a b).
  fold J in Q.
  assert (B : forall x, a <= x <= b -> U x <= U x + 1/1000 <= r * U x /\ 0 < U x).
  { intros x Hx. destruct (H x Hx) as (_ & _ & L). split; [apply offset_bounds; assumption|lra]. }
  assert (I0 : 0 <= I).
  { unfold I. apply RInt_ge_0; [assumption|exact C1|]. intros x Hx. apply pow_le.
    apply Rlt_le, B. lra. }
  assert (IJ : I <= J).
  { unfold I, J. apply RInt_le; [assumption|exact C1|exact C2|]. intros x Hx. apply pow_incr.
    destruct (B x ltac:(lra)). lra. }
  assert (JI : J <= r^5 * I).
  { unfold I, J.
    apply Rle_trans with (RInt (fun x => scal (r^5) ((U x)^5)) a b);
      [|apply Req_le; apply (RInt_scal (fun x => (U x)^5) a b (r^5) C1)].
    apply RInt_le; [assumption|exact C2|apply (ex_RInt_scal (fun x => (U x)^5)); exact C1|].
    intros x Hx. change (scal (r^5) ((U x)^5)) with (r^5 * (U x)^5).
    rewrite <- Rpow_mult_distr. apply pow_incr. destruct (B x ltac:(lra)). lra. }
  destruct (B a ltac:(lra)) as [Ba Pa]. destruct (B b ltac:(lra)) as [Bb Pb].
  assert (A1 : (U a)^6 <= (U a + 1/1000)^6 <= r^6 * (U a)^6).
  { rewrite <- Rpow_mult_distr. split; apply pow_incr; lra. }
  assert (A2 : (U b)^6 <= (U b + 1/1000)^6 <= r^6 * (U b)^6).
  { rewrite <- Rpow_mult_distr. split; apply pow_incr; lra. }
  assert (P6 : 0 < (U b)^6) by (apply pow_lt; lra).
  assert (R6 : 0 < r^6) by (apply pow_lt; lra).
  assert (Et : t * (U b)^6 = s a * (U a)^6 + 45/100 * I).
  { unfold t, thwaites_quadrature. fold I. field. lra. }
  assert (A0 : 0 <= (U a)^6) by (apply pow_le; lra).
  assert (R5 : r^5 <= r^6). { apply Rle_pow; [lra|lia]. }
  set (Ua := (U a)^6) in *. set (Ub := (U b)^6) in *.
  set (Wa := (U a + 1/1000)^6) in *. set (Wb := (U b + 1/1000)^6) in *. set (R := r^6) in *.
  assert (S1 : s a * Ua <= s a * Wa) by (apply Rmult_le_compat_l; lra).
  assert (S2 : s a * Wa <= s a * (R * Ua)) by (apply Rmult_le_compat_l; lra).
  assert (J2 : J <= R * I).
  { apply Rle_trans with (1 := JI). apply Rmult_le_compat_r; [exact I0|lra]. }
  assert (T0 : 0 <= t * Ub).
  { rewrite Et. assert (0 <= s a * Ua) by (apply Rmult_le_pos; lra). lra. }
  assert (L1 : t * Ub <= s b * Wb) by lra.
  assert (L2 : s b * Wb <= R * (t * Ub)) by (rewrite Et; lra).
  assert (S0 : 0 <= s b) by (apply Rmult_le_reg_r with Wb; lra).
  split.
  - apply Rle_div_l; [lra|].
    apply Rmult_le_reg_r with Ub; [lra|].
    apply Rle_trans with (1 := L1). replace (s b * R * Ub) with (s b * (R * Ub)) by ring.
    apply Rmult_le_compat_l; lra.
  - apply Rmult_le_reg_r with Ub; [lra|].
    apply Rle_trans with (s b * Wb); [apply Rmult_le_compat_l; lra|lra].
Qed.

(** The same for the momentum thickness the object reports. *)
Lemma offset_delta_lemma m nu U dU s a b lo : m_kind m = ThwaitesLinear ->
  m_nu m = Fin nu -> 0 < nu -> 0 < lo -> a <= b ->
  (forall x, a <= x <= b -> velocity_at m U (dU x) x /\ solves1_at m s x /\ lo <= U x) ->
  0 <= s a -> stored1_at m s b ->
  let r := 1 + 1/(1000*lo) in
  let d := sqrt (nu * thwaites_quadrature U (s a) a b) in
  exists v, q_delta_m m b = Ok (Fin v) /\ d / r^3 <= v <= r^3 * d.
Proof.
  intros K Hn Pn Hlo Hab H Ha ST r d.
  destruct (offset_lemma m U dU s a b lo K Hlo Hab H Ha) as [L1 L2].
  fold r in L1, L2. set (t := thwaites_quadrature U (s a) a b) in *.
  assert (Hr : 0 < r).
  { unfold r. assert (0 < 1/(1000*lo)) by (apply Rdiv_lt_0_compat; lra). lra. }
  assert (R6 : 0 < r^6) by (apply pow_lt; lra).
  assert (R3 : 0 < r^3) by (apply pow_lt; lra).
  assert (E6 : r^6 = r^3 * r^3) by ring.
  assert (Ht : 0 <= t).
  { assert (X : t / r^6 <= r^6 * t) by lra.
    destruct (Rle_or_lt 0 t) as [Q|Q]; [exact Q|exfalso].
    assert (R1 : 1 < r^6).
    { apply Rlt_pow_R1; [|lia]. unfold r.
      assert (0 < 1/(1000*lo)) by (apply Rdiv_lt_0_compat; lra). lra. }
    set (R := r^6) in *. assert (Y : (t / R) * R = t) by (field; lra).
    set (q := t / R) in *. clearbody q R t. subst t.
    assert (q < 0) by (apply Rmult_lt_reg_r with R; lra). nra. }
  assert (Sb : 0 <= s b).
  { apply Rle_trans with (2 := L1). apply Rle_div_r; lra. }
  destruct ST as (f & Ef & Lf). pose proof (locally_singleton _ _ Lf) as Eb. cbv beta in Eb.
  exists (sqrt (s b * nu)). unfold q_delta_m, sol_at. rewrite Ef. cbn [bind]. rewrite Eb, K, Hn.
  cbn [comp nth_error bind].
  assert (Sn : 0 <= s b * nu) by (apply Rmult_le_pos; lra).
  rewrite xmul_fin, xsqrt_fin by lra. split; [reflexivity|].
  split.
  - apply Rle_div_l; [lra|]. rewrite <- (sqrt_square (r^3)) by lra.
    rewrite <- sqrt_mult by (try assumption; apply Rlt_le, Rmult_lt_0_compat; lra).
    unfold d. apply sqrt_le_1_alt. rewrite <- E6.
    apply (Rle_div_l t (s b) (r^6)) in L1; [|lra].
    replace (s b * nu * r^6) with (nu * (s b * r^6)) by ring. apply Rmult_le_compat_l; lra.
  - rewrite <- (sqrt_square (r^3)) by lra. unfold d.
    rewrite <- sqrt_mult by (try (apply Rmult_le_pos; lra); apply Rlt_le, Rmult_lt_0_compat; lra).
    apply sqrt_le_1_alt. rewrite <- E6.
    replace (r^6 * (nu * t)) with (r^6 * t * nu) by ring. apply Rmult_le_compat_r; lra.
Qed.

(* ------------------------------------------------------------------ *)
(** * C99: influence of the initial thickness *)

Lemma influence_lemma m U dU s1 s2 a b : m_kind m = ThwaitesLinear ->
  (forall x, Rmin a b <= x <= Rmax a b ->
     velocity_at m U (dU x) x /\ solves1_at m s1 x /\ solves1_at m s2 x /\ 0 < U x + 1/1000) ->
  s2 b - s1 b = (s2 a - s1 a) * ((U a + 1/1000) / (U b + 1/1000))^6.
Proof.
  intros K H.
  assert (Q1 := linear_quadrature_lemma m U dU s1 a b K
     (fun x Hx => match H x Hx with conj V (conj S1 (conj _ W)) => conj V (conj S1 W) end)).
  assert (Q2 := linear_quadrature_lemma m U dU s2 a b K
     (fun x Hx => match H x Hx with conj V (conj _ (conj S2 W)) => conj V (conj S2 W) end)).
  assert (0 < U b + 1/1000) by (apply (H b); split; [apply Rmin_r|apply Rmax_r]).
  assert (P : 0 < (U b + 1/1000)^6) by (apply pow_lt; lra).
  replace (((U a + 1/1000) / (U b + 1/1000))^6) with ((U a + 1/1000)^6 / (U b + 1/1000)^6)
    by (field; lra).
  set (Wa := (U a + 1/1000)^6) in *. set (Wb := (U b + 1/1000)^6) in *.
  apply Rmult_eq_reg_r with Wb; [|lra].
  replace ((s2 a - s1 a) * (Wa / Wb) * Wb) with ((s2 a - s1 a) * Wa) by (field; lra).
  lra.
Qed.

(* ------------------------------------------------------------------ *)
(** * C100: the same flow in other units *)

Lemma rescale_derive (f : R -> R) (c L x l : R) : L <> 0 -> is_derive f x l ->
  is_derive (fun t => c * f (t / L)) (L * x) (c * (l / L)).
Proof.
  intros HL D. assert (E : L * x / L = x) by (field; exact HL). rewrite <- E in D at 1.
  auto_derive; [exists l; exact D|].
  replace (Derive (fun t => f t) (L * x * / L)) with l; [field; exact HL|].
  symmetry. apply is_derive_unique. exact D.
Qed.

Lemma rescale_locally (P : R -> Prop) L x : 0 < L -> locally x P ->
  locally (L * x) (fun t => P (t / L)).
Proof.
  intros HL [e He]. assert (He' : 0 < e * L) by (apply Rmult_lt_0_compat; [apply cond_pos|lra]).
  exists (mkposreal _ He'). intros y Hy. apply He.
  unfold ball in *. cbn in *. unfold AbsRing_ball, abs, minus, plus, opp in *. cbn in *.
  replace (y / L + - x) with ((y + - (L * x)) / L) by (field; lra).
  unfold Rdiv. rewrite Rabs_mult, (Rabs_pos_eq (/ L)) by (apply Rlt_le, Rinv_0_lt_compat; lra).
  apply (Rmult_lt_reg_r L); [lra|].
  replace (Rabs (y + - (L * x)) * / L * L) with (Rabs (y + - (L * x))) by (field; lra). exact Hy.
Qed.

Lemma rescale_velocity L T m1 m2 U dU x : 0 < L -> 0 < T -> same_flow L T m1 m2 ->
  velocity_at m1 U dU x -> velocity_at m2 (fun t => L / T * U (t / L)) (dU / T) (L * x).
Proof.
  intros HL HT S (A & B & C). split; [|split].
  - generalize (rescale_locally _ L x HL A). apply filter_imp. intros t E.
    pose proof (sf_u _ _ _ _ S _ _ E) as Q. assert (X : forall y : R, L * (y / L) = y) by (intros; field; lra). rewrite X in Q.
    exact Q.
  - pose proof (rescale_derive U (L / T) L x dU ltac:(lra) B) as D.
    replace (dU / T) with (L / T * (dU / L)) by (field; lra). exact D.
  - exact (sf_du _ _ _ _ S _ _ C).
Qed.

(** The momentum and entrainment right-hand side in the other units. *)
Lemma rescale_head L T nu u du d h k1 k2 k1' k2' f0 f1 : 0 < L -> 0 < T -> 0 < nu ->
  1/1000 <= u -> 1/1000 <= L / T * u -> 0 < d -> k1 <> KInt -> k2 <> KInt ->
  head_rhs (Fin nu) (ret_val k1 (Fin u)) (ret_val k1' (Fin du)) (Fin d) (Fin h)
    = Ok (Fin f0, Fin f1) ->
  head_rhs (Fin (L^2 / T * nu)) (ret_val k2 (Fin (L / T * u))) (ret_val k2' (Fin (du / T)))
    (Fin (L * d)) (Fin h) = Ok (Fin f0, Fin (f1 / L)).
Proof.
  intros HL HT Hn Hu Hu2 Hd K1 K2 E.
  assert (G : forall v w d n, head_rhs n v w d (Fin h) = head_rhs n v w d (Fin (Rmax h (111/100)))).
  { intros v w d' n. unfold head_rhs. cbn [xltb].
    destruct (Rle_or_lt (111/100) h) as [Q|Q].
    - rewrite Rmax_left by lra. reflexivity.
    - rewrite Rmax_right by lra. rewrite Rltb_true by lra. rewrite Rltb_false by lra.
      reflexivity. }
  rewrite G in E |- *. set (g := Rmax h (111/100)) in *.
  assert (Hg : 111/100 <= g) by apply Rmax_r. clearbody g.
  assert (F : forall k, k <> KInt -> k = KFloat \/ k = KArray) by (intros [] N; auto; congruence).
  destruct (head_rhs_fin nu u du d g k1 Hn Hu Hg Hd (F _ K1)) as (cf & e & p & A1 & A2 & A3 & A4 & A5).
  assert (Hn2 : 0 < L^2 / T * nu).
  { apply Rmult_lt_0_compat; [|lra]. apply Rdiv_lt_0_compat; [apply pow_lt; lra|lra]. }
  destruct (head_rhs_fin (L^2 / T * nu) (L / T * u) (du / T) (L * d) g k2 Hn2 Hu2 Hg
    ltac:(apply Rmult_lt_0_compat; lra) (F _ K2)) as (cf' & e' & p' & B1 & B2 & B3 & B4 & B5).
  rewrite A5 in E. injection E as <- <-. rewrite B5.
  replace (L / T * u * (L * d) / (L^2 / T * nu)) with (u * d / nu) in B1 by (field; lra).
  rewrite A1 in B1. injection B1 as <-. rewrite A2 in B2. injection B2 as <-.
  rewrite A3 in B3. injection B3 as <-. clear A5 B5.
  f_equal. f_equal; f_equal; field; repeat split; lra.
Qed.

Lemma units_head_lemma L T m1 m2 nu U dU d h x : 0 < L -> 0 < T -> same_flow L T m1 m2 ->
  m_kind m1 = Head -> m_nu m1 = Fin nu -> 0 < nu -> float_or_array m1 -> float_or_array m2 ->
  velocity_at m1 U dU x -> 1/1000 <= U x -> 1/1000 <= L / T * U x -> 0 < d x ->
  let d2 := fun t => L * d (t / L) in
  let h2 := fun t => h (t / L) in
  (solves2_at m1 d h x -> solves2_at m2 d2 h2 (L * x)) /\
  (solves2_at m1 d h x -> stored2_at m1 d h x -> stored2_at m2 d2 h2 (L * x) ->
     exists vd vh vdd vv, q_delta_m m1 x = Ok (Fin vd) /\ q_delta_m m2 (L * x) = Ok (Fin (L * vd)) /\
       q_shape_d m1 x = Ok (Fin vh) /\ q_shape_d m2 (L * x) = Ok (Fin vh) /\
       q_delta_d m1 x = Ok (Fin vdd) /\ q_delta_d m2 (L * x) = Ok (Fin (L * vdd)) /\
       q_v_e m1 x = Ok (Fin vv) /\ q_v_e m2 (L * x) = Ok (Fin (L / T * vv))).
Proof.
  intros HL HT S K Hn Pn F1 F2 V Hu Hu2 Hd d2 h2.
  assert (EX : L * x / L = x) by (field; lra).
  assert (K2 : m_kind m2 = Head) by (rewrite (sf_kind _ _ _ _ S); exact K).
  assert (N2 := sf_nu _ _ _ _ S _ Hn).
  destruct V as (VU & VD & VQ). pose proof (locally_singleton _ _ VU) as QU. cbv beta in QU.
  pose proof (sf_u _ _ _ _ S _ _ QU) as QU2. pose proof (sf_du _ _ _ _ S _ _ VQ) as QD2.
  assert (RHS : forall v w, ode_impl m1 x [Fin (d x); Fin (h x)] = Ok [Fin v; Fin w] ->
    head_rhs (Fin nu) (ret_val (slot_kind (m_u m1)) (Fin (U x)))
      (ret_val (slot_kind (m_du m1)) (Fin dU)) (Fin (d x)) (Fin (h x)) = Ok (Fin v, Fin w) /\
    head_rhs (Fin (L^2 / T * nu)) (ret_val (slot_kind (m_u m2)) (Fin (L / T * U x)))
      (ret_val (slot_kind (m_du m2)) (Fin (dU / T))) (Fin (L * d x)) (Fin (h x))
      = Ok (Fin v, Fin (w / L))).
  { intros v w E. unfold ode_impl in E. rewrite K, QU, VQ, Hn in E. cbn [bind] in E.
    destruct (head_rhs _ _ _ _ _) as [[a b]|] eqn:E1; cbn [bind fst snd] in E; [|discriminate].
    injection E as -> ->. split; [reflexivity|].
    apply (rescale_head L T nu (U x) dU (d x) (h x) (slot_kind (m_u m1)) (slot_kind (m_u m2))
      (slot_kind (m_du m1))); assumption. }
  split.
  - intros (v & w & E & D1 & D2). destruct (RHS v w E) as [_ R2].
    exists v, (w / L). split; [|split].
    + unfold ode_impl, d2, h2. rewrite K2, QU2, QD2, N2, EX. cbn [bind]. rewrite R2. reflexivity.
    + unfold d2. pose proof (rescale_derive d L L x v ltac:(lra) D1) as Q.
      replace (L * (v / L)) with v in Q by (field; lra). exact Q.
    + unfold h2. pose proof (rescale_derive h 1 L x w ltac:(lra) D2) as Q.
      rewrite Rmult_1_l in Q. revert Q. apply is_derive_ext. intros t. exact (Rmult_1_l _).
  - intros (v & w & E & D1 & D2) (f1 & S1 & L1) (f2 & S2 & L2).
    destruct (RHS v w E) as [R1 R2].
    pose proof (locally_singleton _ _ L1) as E1. pose proof (locally_singleton _ _ L2) as E2.
    cbv beta in E1, E2. unfold d2, h2 in E2. rewrite EX in E2.
    exists (d x), (h x), (d x * h x),
      (dU * h x * d x + U x * w * d x + U x * h x * v).
    unfold q_delta_d, q_v_e, q_delta_m, q_shape_d, sol_at.
    rewrite S1, S2. cbn [bind]. rewrite E1, E2, K, K2. cbn [comp nth_error bind].
    rewrite QU, VQ, QU2, QD2. cbn [bind].
    unfold head_v_e. rewrite Hn, N2, R1, R2. cbn [bind fst snd].
    assert (VN : forall k r, vel_num (ret_val k (Fin r)) = Fin r) by (intros [] r; reflexivity).
    rewrite !VN, !xmul_fin, !xadd_fin.
    repeat split; f_equal; f_equal; field; lra.
Qed.

(** ** Thwaites' methods: the offset 1e-3 is a velocity in fixed units *)

(** An integrator that continues with the initial slope: exact for a constant right-hand side. *)
Definition ivp_slope : ivp_t := fun f a b y e =>
  Ok {| r_success := true; r_status := 0; r_message := ""; r_t := [a; b];
        r_sol := fun x => match f a y, y with
                          | Ok [Fin v], [Fin y0] => [Fin (y0 + v * (x - a))]
                          | _, _ => y
                          end;
        r_t_events := map (fun _ => []) e |}.
Lemma ivp_slope_contract : ivp_contract ivp_slope.
Proof.
  constructor; unfold ivp_slope; intros f a b y e r H; injection H as <-; cbn; try reflexivity;
    try discriminate.
  apply map_length.
Qed.

(** Flat plate with edge velocity [u], viscosity [nu] and initial thickness [d]. *)
Definition flat (u nu d : R) : meth :=
  {| m_kind := ThwaitesLinear; m_nu := Fin nu; m_u := Some (VF (fun _ => u) KFloat);
     m_du := Some (VF (fun _ => 0) KFloat); m_d2u := Some VFd1DU;
     m_ic := new_manual (Fin 0) (Fin d) (Fin 0); m_fit := Some fit_white;
     m_events := [thwaites_event fit_white]; m_sol := None |}.
Definition flat_s (u nu d x : R) : R := d * d / nu + 45/100 / (1/1000 + u) * x.

Lemma flat_reachable pchip cs ivp u nu d : 0 < nu -> 0 < d -> reachable pchip cs ivp (flat u nu d).
Proof.
  intros Hn Hd.
  exists {| m_kind := ThwaitesLinear; m_nu := Fin nu; m_u := Some (VF (fun _ => u) KFloat);
     m_du := Some (VF (fun _ => 0) KFloat); m_d2u := Some VFd1DU;
     m_ic := new_manual (Fin 0) PInf (Fin 0); m_fit := Some fit_white;
     m_events := [thwaites_event fit_white]; m_sol := None |}, [OpInitialDeltaM (Fin d)].
  split.
  - apply (created_thwaites pchip cs true (Fin nu) (PCall (const_call u)) (PCall (const_call 0))
      PNone (FName "White")).
    unfold new_thwaites, new_base, new_fs, ic_set_nu. cbn [xleb].
    rewrite Rleb_false by lra. reflexivity.
  - unfold run. cbn [fold_left step no_result fst].
    unfold set_initial_delta_m. cbn [xleb]. rewrite Rleb_false by lra. reflexivity.
Qed.

Lemma flat_rhs u nu d x s : 0 < u ->
  ode_impl (flat u nu d) x [Fin s] = Ok [Fin (45/100 / (1/1000 + u))].
Proof.
  intros Hu. unfold ode_impl, calc_f, calc_lambda.
  cbn [m_kind flat q_du_e q_u_e m_du m_u call_du call_plain bind].
  rewrite !xmul_fin, xsub_fin, xadd_fin, xdiv_fin by lra. do 3 f_equal. field. lra.
Qed.

Lemma flat_solves u nu d x : 0 < u -> solves1_at (flat u nu d) (flat_s u nu d) x.
Proof.
  intros Hu. exists (45/100 / (1/1000 + u)). split; [apply flat_rhs; exact Hu|].
  unfold flat_s. auto_derive; [exact I|ring].
Qed.

Lemma flat_start u nu d x0 : nu <> 0 ->
  initial_state (flat u nu d) x0 [Fin (flat_s u nu d 0)].
Proof.
  intros Hn. replace (Fin (flat_s u nu d 0)) with (Fin d * Fin d / m_nu (flat u nu d))%xr.
  - apply (initial_state_thwaites (flat u nu d) x0 0 (Fin d)); [discriminate|reflexivity|reflexivity].
  - cbn [m_nu flat]. rewrite xmul_fin, xdiv_fin by lra. f_equal. unfold flat_s. ring.
Qed.

Lemma flat_solve u nu d x1 : 0 < u -> 0 < nu ->
  m_sol (fst (solve ivp_slope (flat u nu d) 0 x1 [])) = Some (fun x => [Fin (flat_s u nu d x)]) /\
  m_kind (fst (solve ivp_slope (flat u nu d) 0 x1 [])) = ThwaitesLinear /\
  m_nu (fst (solve ivp_slope (flat u nu d) 0 x1 [])) = Fin nu.
Proof.
  intros Hu Hn. unfold solve. cbn [m_ic m_nu flat]. unfold ic_set_nu.
  cbn [xleb]. rewrite Rleb_false by lra.
  match goal with |- context [q_du_e ?M 0] => change (q_du_e M 0) with (@Ok R 0) end.
  cbn iota beta. cbv zeta.
  match goal with |- context [ode_setup ?M] =>
    assert (E : ode_setup M = Ok [Fin (d * d / nu)]) end.
  { unfold ode_setup. cbn [m_kind set_ic m_ic m_nu flat ic_delta_m ic_set_du ic_body_of bind new_manual].
    unfold xsq. rewrite xmul_fin. rewrite py_div_fin by lra. cbn [bind]. reflexivity. }
  rewrite E. unfold ivp_slope.
  match goal with |- context [ode_impl ?M 0 ?y] =>
    assert (E2 : ode_impl M 0 y = Ok [Fin (45/100 / (1/1000 + u))]) end.
  { exact (flat_rhs u nu d 0 (d * d / nu) Hu). }
  cbn [r_success r_sol fst snd]. rewrite E2.
  split; [|split; reflexivity].
  cbn [m_sol set_sol]. f_equal. apply FunctionalExtensionality.functional_extensionality.
  intros x. unfold flat_s. do 2 f_equal. ring.
Qed.

Lemma flat_same_flow L T u nu d1 d2 : same_flow L T (flat u nu d1) (flat (L/T*u) (L^2/T*nu) d2).
Proof.
  constructor; try reflexivity.
  - intros nu' E. cbn in E. injection E as <-. reflexivity.
  - intros x v E. cbn in E. injection E as <-. reflexivity.
  - intros x v E. cbn in E. injection E as <-. cbn. f_equal. unfold Rdiv. ring.
Qed.

Lemma units_witness pchip cs : exists ivp, ivp_contract ivp /\
  exists m1 m2 (s1 s2 : R -> R) v1 v2,
  reachable pchip cs ivp m1 /\ reachable pchip cs ivp m2 /\
  m_kind m1 = ThwaitesLinear /\ same_flow 1000 1 m1 m2 /\
  (forall x, solves1_at m1 s1 x) /\ (forall x, solves1_at m2 s2 x) /\
  initial_state m1 0 [Fin (s1 0)] /\ initial_state m2 0 [Fin (s2 0)] /\ s2 0 = s1 0 /\
  m_sol (fst (solve ivp m1 0 1 [])) = Some (fun x => [Fin (s1 x)]) /\
  m_sol (fst (solve ivp m2 0 1000 [])) = Some (fun x => [Fin (s2 x)]) /\
  q_delta_m (fst (solve ivp m1 0 1 [])) 1 = Ok (Fin v1) /\
  q_delta_m (fst (solve ivp m2 0 1000 [])) 1000 = Ok (Fin v2) /\ v2 <> 1000 * v1.
Proof.
  exists ivp_slope. split; [apply ivp_slope_contract|].
  set (u2 := 1000/1*1). set (n2 := 1000^2/1*1).
  assert (U2 : u2 = 1000) by (unfold u2; lra). assert (N2 : n2 = 1000000) by (unfold n2; lra).
  destruct (flat_solve 1 1 1 1) as (A1 & A2 & A3); try lra.
  destruct (flat_solve u2 n2 1000 1000) as (B1 & B2 & B3); try lra.
  exists (flat 1 1 1), (flat u2 n2 1000), (flat_s 1 1 1), (flat_s u2 n2 1000),
    (sqrt (flat_s 1 1 1 1)), (sqrt (flat_s u2 n2 1000 1000 * n2)).
  split; [apply flat_reachable; lra|]. split; [apply flat_reachable; lra|].
  split; [reflexivity|]. split; [apply flat_same_flow|].
  split; [intros x; apply flat_solves; lra|]. split; [intros x; apply flat_solves; lra|].
  split; [apply flat_start; lra|]. split; [apply flat_start; lra|].
  assert (P1 : flat_s 1 1 1 1 = 1 + 45/100/(1001/1000)) by (unfold flat_s; field).
  assert (P2 : flat_s u2 n2 1000 1000 = 1 + 450/(1000001/1000)).
  { unfold flat_s. rewrite U2, N2. field. }
  split. { unfold flat_s. rewrite U2, N2. field. }
  split; [exact A1|]. split; [exact B1|].
  split. { unfold q_delta_m, sol_at. rewrite A1, A2, A3. cbn [bind comp nth_error].
           rewrite xmul_fin, xsqrt_fin by (rewrite P1; lra). rewrite Rmult_1_r. reflexivity. }
  split. { unfold q_delta_m, sol_at. rewrite B1, B2, B3. cbn [bind comp nth_error].
           rewrite xmul_fin, xsqrt_fin by (rewrite P2, N2; lra). reflexivity. }
  intros E. apply (f_equal (fun v => v * v)) in E.
  rewrite sqrt_sqrt in E by (rewrite P2, N2; lra).
  replace (1000 * sqrt (flat_s 1 1 1 1) * (1000 * sqrt (flat_s 1 1 1 1)))
    with (1000000 * (sqrt (flat_s 1 1 1 1) * sqrt (flat_s 1 1 1 1))) in E by ring.
  rewrite sqrt_sqrt, P1, P2, N2 in E by (rewrite P1; lra). lra.
Qed.

(** ** What holds for the linear method: both results are close to the quadrature *)

Lemma quadrature_rescale L T U s0 a b : 0 < L -> 0 < T -> 0 < U b -> a <= b ->
  (forall x, a <= x <= b -> ex_derive U x) ->
  thwaites_quadrature (fun t => L / T * U (t / L)) (T * s0) (L * a) (L * b)
  = T * thwaites_quadrature U s0 a b.
Proof.
  intros HL HT Hb Hab D. unfold thwaites_quadrature.
  assert (EX : forall y : R, L * y / L = y) by (intros; field; lra). rewrite !EX.
  assert (I : RInt (fun t => (L / T * U (t / L))^5) (L * a) (L * b)
              = (L / T)^5 * L * RInt (fun x => (U x)^5) a b).
  { pose proof (RInt_comp_lin (fun t => (L / T * U (t / L))^5) L 0 a b) as C.
    rewrite !Rplus_0_r in C.
    assert (C1 : ex_RInt (fun x => (U x)^5) a b).
    { apply (ex_RInt_continuous (fun x => (U x)^5)). intros x Hx.
      rewrite Rmin_left, Rmax_right in Hx by assumption. destruct (D x Hx) as [l Hl].
      exact (pow5_continuous U l x Hl). }
    assert (EQ : forall x, scal L ((L / T * U ((L * x + 0) / L))^5) = scal ((L / T)^5 * L) ((U x)^5)).
    { intros x. rewrite Rplus_0_r, EX. unfold scal; cbn -[pow]. unfold mult; cbn -[pow].
      rewrite Rpow_mult_distr. ring. }
    rewrite <- C.
    - rewrite (RInt_ext _ (fun x => scal ((L / T)^5 * L) ((U x)^5))) by (intros; apply EQ).
      exact (RInt_scal (fun x => (U x)^5) a b ((L / T)^5 * L) C1).
    - assert (L * a <= L * b) by (apply Rmult_le_compat_l; lra).
      apply (ex_RInt_continuous (fun t => (L / T * U (t / L))^5)). intros z Hz.
      rewrite Rmin_left, Rmax_right in Hz by assumption.
      assert (Z : a <= z / L <= b).
      { split; [apply (Rle_div_r a z L)|apply (Rle_div_l z b L)]; lra. }
      apply (ex_derive_continuous (fun t => (L / T * U (t / L))^5)). auto_derive.
      exact (D _ Z). }
  rewrite I. rewrite !Rpow_mult_distr. unfold Rdiv at 1.
  field. repeat split; try lra.
Qed.

Lemma units_linear_lemma L T m1 m2 nu U dU s1 s2 a b lo : 0 < L -> 0 < T -> same_flow L T m1 m2 ->
  m_kind m1 = ThwaitesLinear -> m_nu m1 = Fin nu -> 0 < nu -> 0 < lo -> a <= b ->
  (forall x, a <= x <= b -> velocity_at m1 U (dU x) x /\ lo <= U x /\ lo <= L / T * U x /\
     solves1_at m1 s1 x /\ solves1_at m2 s2 (L * x)) ->
  0 < s1 a -> s2 (L * a) = T * s1 a -> stored1_at m1 s1 b -> stored1_at m2 s2 (L * b) ->
  let r := 1 + 1/(1000*lo) in
  exists v1 v2, q_delta_m m1 b = Ok (Fin v1) /\ q_delta_m m2 (L * b) = Ok (Fin v2) /\
    0 < v1 /\ L * v1 / r^6 <= v2 <= r^6 * (L * v1).
Proof.
  intros HL HT S K Hn Pn Hlo Hab H Pa E S1 S2 r.
  assert (Hr : 0 < r).
  { unfold r. assert (0 < 1/(1000*lo)) by (apply Rdiv_lt_0_compat; lra). lra. }
  assert (EX : forall y : R, L * y / L = y) by (intros; field; lra).
  assert (EY : forall y : R, L * (y / L) = y) by (intros; field; lra).
  assert (N2 := sf_nu _ _ _ _ S _ Hn).
  assert (LT : 0 < L / T) by (apply Rdiv_lt_0_compat; lra).
  destruct (offset_delta_lemma m1 nu U dU s1 a b lo K Hn Pn Hlo Hab) as (v1 & Q1 & B1); try lra;
    [intros x Hx; destruct (H x Hx) as (A & B & _ & C & _); auto|exact S1|].
  destruct (offset_delta_lemma m2 (L^2/T*nu) (fun t => L / T * U (t / L)) (fun t => dU (t / L) / T)
    s2 (L * a) (L * b) lo) as (v2 & Q2 & B2); auto.
  - rewrite (sf_kind _ _ _ _ S). exact K.
  - apply Rmult_lt_0_compat; [|lra]. apply Rdiv_lt_0_compat; [apply pow_lt; lra|lra].
  - apply Rmult_le_compat_l; lra.
  - intros x Hx.
    assert (Z : a <= x / L <= b).
    { split; [apply (Rle_div_r a x L)|apply (Rle_div_l x b L)]; lra. }
    destruct (H _ Z) as (A & B & C & _ & D). rewrite EY in D.
    pose proof (rescale_velocity L T m1 m2 U (dU (x / L)) (x / L) HL HT S A) as A2.
    rewrite EY in A2. auto.
  - rewrite E. apply Rmult_le_pos; lra.
  - fold r in B1, B2. exists v1, v2. split; [exact Q1|]. split; [exact Q2|].
    rewrite E in B2.
    rewrite quadrature_rescale in B2; try assumption.
    2:{ destruct (H b ltac:(lra)) as (_ & B & _). lra. }
    2:{ intros x Hx. destruct (H x Hx) as ((_ & D & _) & _). exists (dU x). exact D. }
    set (t := thwaites_quadrature U (s1 a) a b) in *.
    replace (L^2 / T * nu * (T * t)) with (L * L * (nu * t)) in B2 by (field; lra).
    assert (Pt : 0 < t).
    { unfold t, thwaites_quadrature. destruct (H b ltac:(lra)) as (_ & Bb & _).
      destruct (H a ltac:(lra)) as (_ & Ba & _).
      apply Rdiv_lt_0_compat; [|apply pow_lt; lra].
      assert (0 < s1 a * (U a)^6) by (apply Rmult_lt_0_compat; [lra|apply pow_lt; lra]).
      assert (0 <= RInt (fun x => (U x)^5) a b); [|lra].
      apply RInt_ge_0; [assumption| |].
      - apply (ex_RInt_continuous (fun x => (U x)^5)). intros x Hx.
        rewrite Rmin_left, Rmax_right in Hx by assumption.
        destruct (H x Hx) as ((_ & D & _) & _). exact (pow5_continuous U (dU x) x D).
      - intros x Hx. apply pow_le. destruct (H x ltac:(lra)) as (_ & B & _). lra. }
    assert (Pn2 : 0 < nu * t) by (apply Rmult_lt_0_compat; lra).
    rewrite sqrt_mult, sqrt_square in B2 by (try (apply Rmult_le_pos; lra); lra).
    set (d := sqrt (nu * t)) in *. assert (Pd : 0 < d) by (apply sqrt_lt_R0; lra).
    assert (R3 : 0 < r^3) by (apply pow_lt; lra).
    replace (r^6) with (r^3 * r^3) by ring. set (q := r^3) in *.
    assert (V1 : 0 < v1).
    { apply Rlt_le_trans with (d / q); [apply Rdiv_lt_0_compat; lra|lra]. }
    split; [exact V1|]. destruct B1 as [B1 B1']. destruct B2 as [B2 B2'].
    assert (X1 : L * v1 <= L * (q * d)) by (apply Rmult_le_compat_l; lra).
    apply (Rle_div_l d v1 q) in B1; [|lra].
    assert (X2 : L * d <= L * (v1 * q)) by (apply Rmult_le_compat_l; lra).
    apply (Rle_div_l (L * d) v2 q) in B2; [|lra].
    split.
    + apply (Rle_div_l (L * v1) v2 (q * q)); [apply Rmult_lt_0_compat; lra|].
      apply Rle_trans with (1 := X1). replace (L * (q * d)) with (q * (L * d)) by ring.
      replace (v2 * (q * q)) with (q * (v2 * q)) by ring. apply Rmult_le_compat_l; lra.
    + apply Rle_trans with (1 := B2'). replace (q * q * (L * v1)) with (q * (L * (v1 * q))) by ring.
      apply Rmult_le_compat_l; lra.
Qed.
