(** The shape factor stays in the physical range (C134, C135). *)
From Coq Require Import Reals List Lra Lia QArith Qreals.
From Coquelicot Require Import Coquelicot.
From Interval Require Import Tactic.
From Verif Require Import PyBase PyBaseFacts ThwaitesFitsModel ThwaitesFitsProofs SplineSpec SplineProofs SkinFrictionModel HeadModel HeadProofs
  CoreModel OdeSpec ThwaitesOdeProofs HeadOdeProofs PositivityProofs WellPosedProofs FitLipschitzProofs WellPosedOdeProofs PolyPos
  AgreementProofs AccelerationProofs HeadExistProofs OrderProofs.
Import ListNotations.
Open Scope R_scope.

(* ------------------------------------------------------------------ *)
(** * Thwaites' data fits *)

Definition white_in_z : list Q := [2; 414#100; -835#10; 854; -3337; 4576]%Q.
Lemma white_gt_cert : pos_on 6 (psub white_in_z (pK 1)) (-65#1000) (34#100) = true.
Proof. vm_compute. reflexivity. Qed.
Lemma white_lt_cert : pos_on 6 (psub (pK (36#10)) white_in_z) (-65#1000) (34#100) = true.
Proof. vm_compute. reflexivity. Qed.

Lemma white_in_z_R l : peval white_in_z (25/100 - l) = whiteH l.
Proof. unfold white_in_z, whiteH. cbn [peval]. unfold Q2R. cbn [Qnum Qden]. field. Qed.

Lemma white_range l : -9/100 <= l <= 315/1000 -> 1 < whiteH l < 36/10.
Proof.
  intros Hl. assert (I : Q2R (-65#1000) <= 25/100 - l <= Q2R (34#100)) by (q2r_goal; lra).
  assert (A := pos_on_correct _ _ _ _ white_gt_cert _ I). assert (B := pos_on_correct _ _ _ _ white_lt_cert _ I).
  remember white_in_z as wp eqn:Ew in A, B. peval_in A. peval_in B. subst wp. rewrite white_in_z_R in A, B.
  q2r_hyp A. q2r_hyp B. lra.
Qed.

Lemma cb_range l : 22/10 < cbH (clip (-1/10) (1/10) l) < 4.
Proof.
  assert (C := clip_in (-1/10) (1/10) l ltac:(lra)). set (c := clip _ _ _) in *. unfold cbH. destruct (Rlt_dec c 0) as [N|N].
  - unfold cbH_neg. assert (A : 0 < 731/10000 / (14/100 + c)) by (apply Rdiv_lt_0_compat; lra).
    assert (B : 731/10000 / (14/100 + c) <= 731/10000 / (4/100)) by (apply Rmult_le_compat_l; [lra|]; apply Rinv_le_contravar; lra).
    assert (D : 731/10000 / (14/100) <= 731/10000 / (14/100 + c)) by (apply Rmult_le_compat_l; [lra|]; apply Rinv_le_contravar; lra).
    lra.
  - unfold cbH_pos. nra.
Qed.

Lemma drela_range l : 17/10 < drelaH (Rmax (-9/100) l) /\ (l <= 6/10 -> drelaH (Rmax (-9/100) l) < 4).
Proof.
  assert (C := Rmax_l (-9/100) l). assert (C2 : l <= 6/10 -> Rmax (-9/100) l <= 6/10) by (intros H; apply Rmax_lub; lra).
  set (c := Rmax _ _) in *. unfold drelaH.
  assert (Pd : 0 < (c + 18/100) * (c + 18/100)) by (apply Rmult_lt_0_compat; lra).
  assert (A : 0 <= 56/100 * (c * c) / ((c + 18/100) * (c + 18/100))) by (apply Rdiv_le_0_compat; [nra|exact Pd]).
  assert (B : 56/100 * (c * c) / ((c + 18/100) * (c + 18/100)) <= 56/100).
  { apply (Rmult_le_reg_r ((c + 18/100) * (c + 18/100))); [exact Pd|].
    replace (56/100 * (c * c) / ((c + 18/100) * (c + 18/100)) * ((c + 18/100) * (c + 18/100))) with (56/100 * (c * c)) by (field; lra).
    nra. }
  set (e := 56/100 * (c * c) / _) in *. destruct (Rlt_dec c 0) as [N|N].
  - assert (-1/100 * 2 <= 14 * (c * c * c) <= 0).
    { assert (0 <= c * c <= 81/10000) by nra. assert (0 <= (c * c) * - c <= 81/10000 * (9/100)) by (split; [nra|apply Rmult_le_compat; lra]). lra. }
    split; [lra|intros _; lra].
  - split.
    + assert (0 < 14 * (c * c * c) - 41/10 * c + 91/100); [|lra].
      assert (0 <= (c - 3/10) ^ 2 * (14 * c + 84/10)) by (apply Rmult_le_pos; [apply pow2_ge_0|lra]). nra.
    + intros Hl. specialize (C2 Hl). assert (14 * (c * c) <= 504/100) by nra.
      assert (14 * (c * c * c) <= 504/100 * c) by nra. lra.
Qed.

Lemma displacement_lemma m nu f cs x d U dU : m_kind m <> Head -> m_nu m = Fin nu -> 0 < nu -> m_fit m = Some f ->
  cubic_spline_ok cs -> q_delta_m m x = Ok (Fin d) -> 0 < d -> q_u_e m x = Ok U -> q_du_e m x = Ok dU ->
  f = fit_spline cs \/ f = fit_cb \/ f = fit_drela \/ (f = fit_white /\ d ^ 2 / nu * dU <= 315/1000) ->
  exists H D, q_shape_d m x = Ok (Fin H) /\ q_delta_d m x = Ok (Fin D) /\ 1 < H /\ d < D /\
    (f <> fit_drela \/ d ^ 2 / nu * dU <= 6/10 -> H < 4).
Proof.
  intros K N P F CS Q Pd QU QD B.
  destruct (thwaites_consistent_lemma m nu f x 1 d K N P F Q Pd) as (A1 & A2 & _).
  destruct (A2 U dU QU QD) as [E _]. set (l := d ^ 2 / nu * dU) in *.
  assert (R : exists H, shape f (Fin l) = Fin H /\ 1 < H /\ (f <> fit_drela \/ l <= 6/10 -> H < 4)).
  { destruct B as [-> |[-> |[-> |[-> B]]]].
    - destruct (default_fit_lemma cs CS) as (_ & _ & _ & S & _). destruct (S l) as (v & Ev & Hv).
      exists v. split; [exact Ev|]. split; [lra|intros _; lra].
    - destruct (cb_is l) as [_ Ev]. eexists. split; [exact Ev|]. assert (C := cb_range l). split; [lra|intros _; lra].
    - destruct (drela_is l) as [_ Ev]. eexists. split; [exact Ev|]. destruct (drela_range l) as [C1 C2].
      split; [lra|]. intros [H|H]; [congruence|apply C2, H].
    - destruct (white_is l) as [_ Ev]. eexists. split; [exact Ev|].
      assert (C := white_range (Rmax (-9/100) l)). assert (M := Rmax_l (-9/100) l).
      assert (Rmax (-9/100) l <= 315/1000) by (apply Rmax_lub; lra). split; [lra|intros _; lra]. }
  destruct R as (H & EH & H1 & H4). rewrite EH in E. destruct (A1 H E) as [ED _].
  exists H, (d * H). split; [exact E|]. split; [exact ED|]. split; [exact H1|]. split; [|exact H4]. nra.
Qed.

(* ------------------------------------------------------------------ *)
(** * Head's method in uniform or decelerating flow *)

(** At the shape factor 1.11 friction outweighs entrainment. *)
Lemma head_balance_low re : 0 < re <= 10 ^ 12 -> exists cf e,
  ludwieg_tillman (Fin re) (Fin (111/100)) = Fin cf /\ entrainment_velocity (Fin (h1R (111/100))) = Fin e /\
  0 < h1R (111/100) /\ e < cf / 2 * h1R (111/100).
Proof.
  intros [Pre Hre].
  assert (EH : h1R (111/100) = branch lo_a lo_b lo_c lo_d (111/100)) by (unfold h1R; rewrite entr_lo by lra; reflexivity).
  assert (B : 300 < h1R (111/100) < 320).
  { rewrite EH. unfold branch, lo_a, lo_b, lo_c, lo_d, Rpower. split; interval. }
  unfold ludwieg_tillman. rewrite xmul_fin, !xpow_fin by lra. rewrite xmul_fin.
  assert (R1 : Rpower re (268/1000) <= 1700).
  { apply Rle_trans with (Rpower (10 ^ 12) (268/1000)); [apply Rle_Rpower_l; lra|]. unfold Rpower. interval. }
  assert (T : Rpower 10 (678/1000 * (111/100)) <= 6) by (unfold Rpower; interval).
  assert (P0 : 0 < Rpower re (268/1000)) by apply exp_pos. assert (P1 : 0 < Rpower 10 (678/1000 * (111/100))) by apply exp_pos.
  set (p := Rpower re (268/1000)) in *. set (t := Rpower 10 (678/1000 * (111/100))) in *.
  assert (PT : 0 < p * t) by (apply Rmult_lt_0_compat; assumption).
  assert (PT2 : p * t <= 1700 * 6) by (apply Rmult_le_compat; lra).
  rewrite xdiv_fin by lra. rewrite entr_vel_fin by lra.
  do 2 eexists. split; [reflexivity|]. split; [reflexivity|]. split; [lra|].
  assert (E1 : 306/10000 / Rpower (h1R (111/100) - 3) (6169/10000) <= 2/1000).
  { assert (L : Rpower 256 (1/2) <= Rpower (h1R (111/100) - 3) (6169/10000)).
    { apply Rle_trans with (Rpower 256 (6169/10000)); [apply Rle_Rpower; lra|apply Rle_Rpower_l; lra]. }
    assert (L2 : 16 <= Rpower 256 (1/2)) by (replace (1/2) with (/2) by lra; rewrite Rpower_sqrt by lra;
      replace 256 with (16 * 16) by ring; rewrite sqrt_square; lra).
    apply Rle_trans with (306/10000 / 16); [|lra]. apply Rmult_le_compat_l; [lra|]. apply Rinv_le_contravar; lra. }
  assert (C1 : 246/1000 / (1700 * 6) <= 246/1000 / (p * t)) by (apply Rmult_le_compat_l; [lra|]; apply Rinv_le_contravar; lra).
  assert (246/1000 / (1700 * 6) / 2 * 300 <= 246/1000 / (p * t) / 2 * h1R (111/100)) by (apply Rmult_le_compat; lra).
  lra.
Qed.

Lemma head_low_lemma m nu U dU d h a b : m_kind m = Head -> m_nu m = Fin nu -> 0 < nu ->
  slot_kind (m_u m) <> KInt -> a <= b -> 111/100 < h a ->
  (forall x, a <= x <= b -> velocity_at m U (dU x) x /\ solves2_at m d h x /\
     1/1000 <= U x /\ dU x <= 0 /\ 0 < U x * d x / nu <= 10 ^ 12) ->
  111/100 < h b.
Proof.
  intros Km Kn Pn Hk L Ha V.
  assert (0 < h b - 111/100); [|lra].
  apply (stays_positive (fun x => h x - 111/100) a b L); [lra|]. intros x Hx.
  destruct (V x Hx) as ([LU [_ QD]] & [v [w [ER [Dd Dh]]]] & Ux & Dx & Rx).
  assert (QU := locally_singleton _ _ LU). cbv beta in QU.
  exists w. split.
  { auto_derive; [eexists; exact Dh|].
    assert (U1 : Derive (fun t : R => h t) x = w) by exact (is_derive_unique h x _ Dh). rewrite U1. ring. }
  intros Z. assert (Hx2 : h x = 111/100) by lra.
  assert (Pd : 0 < d x).
  { apply (Rmult_lt_reg_l (U x / nu)); [apply Rdiv_lt_0_compat; lra|].
    rewrite Rmult_0_r. replace (U x / nu * d x) with (U x * d x / nu) by (field; lra). lra. }
  assert (Kk : slot_kind (m_u m) = KFloat \/ slot_kind (m_u m) = KArray).
  { destruct (slot_kind (m_u m)); auto. congruence. }
  destruct (head_rhs_fin nu (U x) (dU x) (d x) (h x) _ Pn Ux ltac:(lra) Pd Kk) as [cf [e [p [Ecf [Ee [Ep [Pp RHS]]]]]]].
  unfold ode_impl in ER. rewrite Km, QU, QD in ER. cbn [bind] in ER.
  rewrite Kn, RHS in ER. cbn [bind fst snd] in ER. injection ER as E1 E2.
  rewrite Hx2 in *.
  destruct (head_balance_low _ Rx) as (cf' & e' & Ecf' & Ee' & P1 & Bal).
  rewrite Ecf in Ecf'. injection Ecf' as <-. rewrite Ee in Ee'. injection Ee' as <-.
  set (H1 := h1R (111/100)) in *.
  assert (Num : 0 < - (U x * e - U x * (5/10 * cf - d x * (2 + 111/100) * dU x / U x) * H1 - dU x * d x * H1)).
  { replace (- (U x * e - U x * (5/10 * cf - d x * (2 + 111/100) * dU x / U x) * H1 - dU x * d x * H1))
      with (U x * (cf / 2 * H1 - e) + d x * - dU x * H1 * (1 + 111/100)) by (field; lra).
    apply Rplus_lt_le_0_compat; [apply Rmult_lt_0_compat; lra|]. repeat apply Rmult_le_pos; lra. }
  assert (Den : 0 < - p * U x * d x) by (repeat apply Rmult_lt_0_compat; lra).
  rewrite <- E2. replace (_ / (p * U x * d x)) with
    (- (U x * e - U x * (5/10 * cf - d x * (2 + 111/100) * dU x / U x) * H1 - dU x * d x * H1) / (- p * U x * d x))
    by (field; repeat split; lra).
  apply Rdiv_lt_0_compat; assumption.
Qed.

Lemma head_shape_lemma m nu g U dU d h a b : m_kind m = Head -> m_nu m = Fin nu -> 0 < nu ->
  slot_kind (m_u m) <> KInt -> a <= b -> 111/100 < h a -> 0 < d a ->
  (forall x, a <= x <= b -> velocity_at m U (dU x) x /\ solves2_at m d h x /\ 1/1000 <= U x /\ dU x <= 0) ->
  m_sol m = Some g -> (forall x, a <= x <= b -> g x = [Fin (d x); Fin (h x)]) ->
  (forall x dm, a <= x <= b -> q_delta_m m x = Ok (Fin dm) -> U x * dm / nu <= 10 ^ 12) ->
  (forall x, a <= x <= b -> q_shape_d m x = Ok (Fin (h x)) /\ q_delta_m m x = Ok (Fin (d x)) /\
     q_delta_d m x = Ok (Fin (d x * h x)) /\ 111/100 < h x /\ 0 < d x) /\
  forall x y, a <= x -> x < y -> y <= b -> d x < d y.
Proof.
  intros Km Kn Pn Hk L Ha Da V E G HR.
  assert (Q : forall t, a <= t <= b -> q_delta_m m t = Ok (Fin (d t))).
  { intros t Ht. unfold q_delta_m, sol_at. rewrite E. cbn [bind]. rewrite (G t Ht). cbn [comp nth_error bind]. rewrite Km. reflexivity. }
  assert (Q2 : forall t, a <= t <= b -> q_shape_d m t = Ok (Fin (h t))).
  { intros t Ht. unfold q_shape_d, sol_at. rewrite E. cbn [bind]. rewrite (G t Ht), Km. reflexivity. }
  assert (Pos : forall t, a <= t <= b -> 0 < d t).
  { intros t Ht. apply (head_positive_lemma m U dU d h a t Km Hk); [exists nu; split; assumption|lra| |exact Da].
    intros z Hz. split; apply V; lra. }
  assert (Low : forall t, a <= t <= b -> 111/100 < h t).
  { intros t Ht. apply (head_low_lemma m nu U dU d h a t Km Kn Pn Hk); [lra|exact Ha|].
    intros z Hz. destruct (V z ltac:(lra)) as (V1 & V2 & V3 & V4). repeat (split; [assumption|]).
    split; [|apply (HR z (d z)); [lra|apply Q; lra]].
    apply Rdiv_lt_0_compat; [|exact Pn]. apply Rmult_lt_0_compat; [lra|apply Pos; lra]. }
  split.
  - intros x Hx. split; [apply Q2, Hx|]. split; [apply Q, Hx|]. split; [|split; [apply Low, Hx|apply Pos, Hx]].
    unfold q_delta_d. rewrite (Q x Hx), (Q2 x Hx). reflexivity.
  - intros x y H1 H2 H3.
    apply (head_growth_lemma m nu g U dU d h a b Km Kn Pn Hk Da); try assumption.
    + intros t Ht. split; apply V, Ht.
    + intros t Ht. split; [apply V, Ht|left; apply Low, Ht].
    + intros t Ht. apply V. lra.
Qed.

(** Uniform flow: the shape factor stays below 2, too. *)
Lemma head_uniform_lemma m nu U dU d h a b : m_kind m = Head -> m_nu m = Fin nu -> 0 < nu ->
  slot_kind (m_u m) <> KInt -> a <= b -> 111/100 < h a < 2 ->
  (forall x, a <= x <= b -> velocity_at m U (dU x) x /\ solves2_at m d h x /\
     1/1000 <= U x /\ dU x = 0 /\ 1 <= U x * d x / nu <= 10 ^ 12) ->
  111/100 < h b < 2.
Proof.
  intros Km Kn Pn Hk L Ha V. split.
  - apply (head_low_lemma m nu U dU d h a b Km Kn Pn Hk L); [lra|].
    intros x Hx. destruct (V x Hx) as (V1 & V2 & V3 & V4 & V5). repeat (split; [first [assumption|lra]|]). lra.
  - destruct (head_accelerating_lemma m nu U dU d h a b 2 Km Kn Pn Hk ltac:(lra) L ltac:(lra)) as (v & Ev & Pv).
    + intros x Hx. destruct (V x Hx) as (V1 & V2 & V3 & V4 & V5). repeat (split; [first [assumption|lra]|]). lra.
    + unfold event_value in Ev. cbn [head_sep_event ev_src] in Ev. unfold head_event in Ev. rewrite xsub_fin in Ev.
      injection Ev as <-. lra.
Qed.
