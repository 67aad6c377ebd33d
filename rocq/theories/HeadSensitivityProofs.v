(** How Head's method reacts to the edge velocity (C124). *)
From Coq Require Import Reals List Lra Lia.
From Coquelicot Require Import Coquelicot Rcomplements.
From Verif Require Import PyBase PyBaseFacts SkinFrictionModel HeadModel HeadProofs
  CoreModel OdeSpec WellPosedSpec ThwaitesOdeProofs HeadOdeProofs PositivityProofs WellPosedProofs FitLipschitzProofs
  SystemProofs HeadExistProofs StabilityProofs.
Import ListNotations.
Open Scope R_scope.

Lemma Rpower_decr x w c : 0 < w -> w <= x -> 0 <= c -> Rpower x (- c) <= Rpower w (- c).
Proof.
  intros P L Hc. rewrite !Rpower_Ropp. apply Rinv_le_contravar; [apply exp_pos|].
  apply Rle_Rpower_l; [exact Hc|]. split; assumption.
Qed.

Lemma power_lip w c : 0 < w -> 0 <= c -> exists L, 0 <= L /\
  forall u v, w <= u -> w <= v -> Rabs (Rpower v (- c) - Rpower u (- c)) <= L * Rabs (v - u).
Proof.
  intros P Hc. exists (c * Rpower w (- (c + 1))).
  assert (PL : 0 <= Rpower w (- (c + 1))) by apply Rlt_le, exp_pos.
  split; [apply Rmult_le_pos; assumption|].
  intros u v Hu Hv.
  assert (D : forall x, 0 < x -> is_derive (fun x => Rpower x (- c)) x (- c * Rpower x (- (c + 1)))).
  { intros x Hx. unfold Rpower. auto_derive; [lra|]. replace (- (c + 1) * ln x) with (- c * ln x - ln x) by ring.
    unfold Rminus. rewrite exp_plus, exp_Ropp, exp_ln by lra. field. lra. }
  destruct (MVT_gen (fun x => Rpower x (- c)) u v (fun x => - c * Rpower x (- (c + 1)))) as (z & Hz & E).
  - intros x Hx. apply D. pose proof (Rmin_glb u v w Hu Hv). lra.
  - intros x Hx. apply continuity_pt_filterlim. apply (ex_derive_continuous (fun x => Rpower x (- c))).
    eexists. apply D. pose proof (Rmin_glb u v w Hu Hv). lra.
  - rewrite E, Rabs_mult. apply Rmult_le_compat_r; [apply Rabs_pos|].
    rewrite Rabs_mult, Rabs_Ropp, (Rabs_pos_eq c) by exact Hc.
    rewrite (Rabs_pos_eq (Rpower _ _)) by apply Rlt_le, exp_pos.
    apply Rmult_le_compat_l; [exact Hc|]. apply Rpower_decr; try lra.
    pose proof (Rmin_glb u v w Hu Hv). lra.
Qed.

Section Sens.
Context (A B C D nu : R) (U dU : R -> R) (a b d1 d2 h1 h2 : R).
Context (PA : 0 < A) (PC : 0 < C) (PB : B < 111/100) (PD : 3 < D) (Pn : 0 < nu) (Hab : a <= b) (Pd : 0 < d1).
Context (HU : forall x, a <= x <= b -> continuous U x /\ 1/1000 <= U x).
Context (HdU : forall x, a <= x <= b -> continuous dU x).

Lemma gradient_ratio g g' u u' Bg e : 1/1000 <= u -> 1/1000 <= u' -> Rabs g <= Bg -> Rabs (u' - u) <= e -> Rabs (g' - g) <= e ->
  Rabs (g' * / u' - g * / u) <= (1000 + 1000000 * Bg) * e.
Proof.
  intros Hu Hu' Hg E1 E2.
  replace (g' * / u' - g * / u) with ((g' - g) * / u' + - (g * (u' - u)) * (/ u * / u')) by (field; lra).
  assert (I : forall x, 1/1000 <= x -> 0 < / x <= 1000).
  { intros x Hx. split; [apply Rinv_0_lt_compat; lra|]. rewrite <- (Rinv_involutive 1000) by lra.
    apply Rinv_le_contravar; lra. }
  pose proof (I u Hu) as I1. pose proof (I u' Hu') as I2.
  apply Rle_trans with (1 := Rabs_triang _ _). rewrite !Rabs_mult, Rabs_Ropp, Rabs_mult.
  rewrite (Rabs_pos_eq (/ u)) by lra. rewrite (Rabs_pos_eq (/ u')) by lra.
  assert (J1 : Rabs (g' - g) * / u' <= e * 1000) by (apply Rmult_le_compat; try apply Rabs_pos; lra).
  assert (J2 : Rabs g * Rabs (u' - u) <= Bg * e) by (apply Rmult_le_compat; try apply Rabs_pos; lra).
  assert (J3 : / u * / u' <= 1000 * 1000) by (apply Rmult_le_compat; lra).
  assert (J0 : 0 <= / u * / u') by (apply Rmult_le_pos; lra).
  assert (J4 : 0 <= Rabs g * Rabs (u' - u)) by (apply Rmult_le_pos; apply Rabs_pos).
  assert (J5 : Rabs g * Rabs (u' - u) * (/ u * / u') <= (Bg * e) * (1000 * 1000)) by (apply Rmult_le_compat; assumption).
  lra.
Qed.

Lemma system_sensitive : exists K, 0 <= K /\ forall t d h V dV e, a <= t <= b -> inbox d1 d2 h1 h2 d h -> 1/1000 <= V t ->
  Rabs (V t - U t) <= e -> Rabs (dV t - dU t) <= e ->
  Rabs (sys0 nu V dV t d h - sys0 nu U dU t d h) <= K * e /\
  Rabs (sys1 A B C D nu V dV t d h - sys1 A B C D nu U dU t d h) <= K * e.
Proof.
  destruct (power_lip (1/1000) (268/1000) ltac:(lra) ltac:(lra)) as (L & PL & HL).
  destruct (nice_bounds a b d1 d2 h1 h2 (fun t _ _ => dU t)) as (Bg & PBg & HBg); [apply nice_time; assumption|].
  destruct (nice_bounds a b d1 d2 h1 h2 (fun _ _ h => up h)) as (Bu & PBu & HBu); [apply nice_up|].
  destruct (nice_bounds a b d1 d2 h1 h2 (fun _ _ h => sys_h1 A B C D h)) as (Bh & PBh & HBh); [apply nice_h1; assumption|].
  destruct (nice_bounds a b d1 d2 h1 h2 (fun _ _ h => Rpower (up h - B) (C + 1))) as (Bw & PBw & HBw); [apply nice_upB; assumption|].
  set (P := 123/1000 * Rpower (d1 / nu) (- (268/1000))).
  assert (PP : 0 <= P) by (unfold P; apply Rmult_le_pos; [lra|apply Rlt_le, exp_pos]).
  set (G := 1000 + 1000000 * Bg). assert (PG : 0 <= G) by (unfold G; lra).
  set (K0 := P * L + Rmax 0 d2 * (2 + Bu) * G).
  assert (Pm : 0 <= Rmax 0 d2) by apply Rmax_l.
  assert (PK0 : 0 <= K0).
  { unfold K0. apply Rplus_le_le_0_compat; [apply Rmult_le_pos; assumption|]. apply Rmult_le_pos; [apply Rmult_le_pos; lra|exact PG]. }
  assert (Q1 : 0 < / (A * C)) by (apply Rinv_0_lt_compat, Rmult_lt_0_compat; assumption).
  assert (Q2 : 0 < / d1) by (apply Rinv_0_lt_compat; exact Pd).
  set (W := Bw * / (A * C)). assert (PW : 0 <= W) by (apply Rmult_le_pos; lra).
  set (K1 := (K0 * Bh + G * Rmax 0 d2 * Bh) * W * / d1).
  assert (PK1 : 0 <= K1).
  { unfold K1. apply Rmult_le_pos; [|lra]. apply Rmult_le_pos; [|exact PW].
    apply Rplus_le_le_0_compat; [apply Rmult_le_pos; assumption|].
    apply Rmult_le_pos; [apply Rmult_le_pos; assumption|exact PBh]. }
  exists (K0 + K1). split; [lra|].
  intros t d h V dV e Ht I HV E1 E2.
  assert (He : 0 <= e) by (pose proof (Rabs_pos (V t - U t)); lra).
  destruct (HU t Ht) as [_ HUt]. pose proof I as [Id Ih].
  specialize (HBg t d h Ht I). specialize (HBu t d h Ht I). specialize (HBh t d h Ht I). specialize (HBw t d h Ht I).
  cbv beta in HBg, HBu, HBh, HBw.
  pose proof (gradient_ratio (dU t) (dV t) (U t) (V t) Bg e HUt HV HBg E1 E2) as EG. fold G in EG.
  assert (Hup := up_ge h). rewrite Rabs_pos_eq in HBu by lra.
  assert (Edm : d <= Rmax 0 d2) by (pose proof (Rmax_r 0 d2); lra).
  assert (S0 : Rabs (sys0 nu V dV t d h - sys0 nu U dU t d h) <= K0 * e).
  { assert (Dd : 0 < d / nu) by (apply Rdiv_lt_0_compat; lra).
    assert (Sp : forall u, 1/1000 <= u -> Rpower (u * d / nu) (- (268/1000)) = Rpower u (- (268/1000)) * Rpower (d / nu) (- (268/1000))).
    { intros u Hu. rewrite Rpower_mult_distr by lra. f_equal. unfold Rdiv. ring. }
    unfold sys0. rewrite (Sp (V t) HV), (Sp (U t) HUt).
    set (p := Rpower (d / nu) (- (268/1000))). set (q := Rpower 10 (- (678/1000) * up h)).
    assert (Bp : 0 <= p <= Rpower (d1 / nu) (- (268/1000))).
    { split; [apply Rlt_le, exp_pos|]. apply Rpower_decr; [apply Rdiv_lt_0_compat; lra| |lra].
      apply Rmult_le_compat_r; [apply Rlt_le, Rinv_0_lt_compat; exact Pn|lra]. }
    assert (Bq : 0 <= q <= 1).
    { split; [apply Rlt_le, exp_pos|]. unfold q. rewrite <- (Rpower_O 10) by lra. apply Rle_Rpower; lra. }
    replace (_ - _) with ((123/1000 * p * q) * (Rpower (V t) (- (268/1000)) - Rpower (U t) (- (268/1000)))
      + - (d * (2 + up h)) * (dV t * / V t - dU t * / U t)) by (unfold p, q; field; lra).
    apply Rle_trans with (1 := Rabs_triang _ _). rewrite !Rabs_mult, Rabs_Ropp, Rabs_mult.
    rewrite (Rabs_pos_eq p), (Rabs_pos_eq q), (Rabs_pos_eq (123/1000)), (Rabs_pos_eq d), (Rabs_pos_eq (2 + up h)) by lra.
    assert (R1 : 123/1000 * p * q <= P).
    { assert (123/1000 * p <= P) by (unfold P; lra). assert (0 <= 123/1000 * p) by lra.
      rewrite <- (Rmult_1_r P). apply Rmult_le_compat; lra. }
    assert (R0 : 0 <= 123/1000 * p * q) by (apply Rmult_le_pos; lra).
    assert (R2 : Rabs (Rpower (V t) (- (268/1000)) - Rpower (U t) (- (268/1000))) <= L * e).
    { apply Rle_trans with (1 := HL _ _ HUt HV). apply Rmult_le_compat_l; assumption. }
    assert (R3 : 123/1000 * p * q * Rabs (Rpower (V t) (- (268/1000)) - Rpower (U t) (- (268/1000))) <= P * (L * e))
      by (apply Rmult_le_compat; try assumption; apply Rabs_pos).
    assert (R4 : d * (2 + up h) <= Rmax 0 d2 * (2 + Bu)) by (apply Rmult_le_compat; lra).
    assert (R6 : 0 <= d * (2 + up h)) by (apply Rmult_le_pos; lra).
    assert (R5 : d * (2 + up h) * Rabs (dV t * / V t - dU t * / U t) <= Rmax 0 d2 * (2 + Bu) * (G * e))
      by (apply Rmult_le_compat; try assumption; apply Rabs_pos).
    unfold K0. lra. }
  split.
  { apply Rle_trans with (1 := S0). apply Rmult_le_compat_r; lra. }
  unfold sys1. set (a1 := sys0 nu V dV t d h) in *. set (a2 := sys0 nu U dU t d h) in *. clearbody a1 a2.
  set (H1 := sys_h1 A B C D h) in *. set (ee := 306/10000 * Rpower (H1 - 3) (- (6169/10000))). clearbody H1 ee.
  set (w := Rpower (up h - B) (C + 1)) in *. clearbody w.
  replace (_ - _) with (((a1 - a2) * H1 + (dV t * / V t - dU t * / U t) * d * H1) * (w * / (A * C)) * / d)
    by (field; repeat split; lra).
  rewrite !Rabs_mult. rewrite (Rabs_pos_eq (/ (A * C))) by lra.
  assert (Id' : 0 < / d <= / d1) by (split; [apply Rinv_0_lt_compat; lra|apply Rinv_le_contravar; lra]).
  rewrite (Rabs_pos_eq (/ d)) by lra.
  assert (T1 : Rabs ((a1 - a2) * H1 + (dV t * / V t - dU t * / U t) * d * H1) <= (K0 * Bh + G * Rmax 0 d2 * Bh) * e).
  { apply Rle_trans with (1 := Rabs_triang _ _). rewrite !Rabs_mult, (Rabs_pos_eq d) by lra.
    assert (T2 : Rabs (a1 - a2) * Rabs H1 <= (K0 * e) * Bh) by (apply Rmult_le_compat; try assumption; apply Rabs_pos).
    assert (T3 : Rabs (dV t * / V t - dU t * / U t) * d <= G * e * Rmax 0 d2)
      by (apply Rmult_le_compat; try assumption; try apply Rabs_pos; lra).
    assert (T4 : 0 <= Rabs (dV t * / V t - dU t * / U t) * d) by (apply Rmult_le_pos; [apply Rabs_pos|lra]).
    assert (T5 : Rabs (dV t * / V t - dU t * / U t) * d * Rabs H1 <= (G * e * Rmax 0 d2) * Bh)
      by (apply Rmult_le_compat; try assumption; apply Rabs_pos).
    lra. }
  assert (T6 : Rabs w * / (A * C) <= W) by (unfold W; apply Rmult_le_compat_r; lra).
  assert (T7 : 0 <= Rabs w * / (A * C)) by (apply Rmult_le_pos; [apply Rabs_pos|lra]).
  apply Rle_trans with (K1 * e).
  - unfold K1. replace ((K0 * Bh + G * Rmax 0 d2 * Bh) * W * / d1 * e)
      with ((K0 * Bh + G * Rmax 0 d2 * Bh) * e * W * / d1) by ring.
    apply Rmult_le_compat; try lra.
    + apply Rmult_le_pos; [apply Rabs_pos|exact T7].
    + apply Rmult_le_compat; try assumption. apply Rabs_pos.
  - apply Rmult_le_compat_r; lra.
Qed.
End Sens.

Lemma head_velocity_error_lemma nu (U dU : R -> R) a b d1 d2 h1 h2 :
  0 < nu -> a <= b -> 0 < d1 -> h2 <= 16/10 \/ 16/10 < h1 ->
  (forall x, a <= x <= b -> is_derive U x (dU x) /\ continuous dU x /\ 1/1000 <= U x) ->
  exists K, 0 < K /\ forall m1 m2 V dV d h y z e,
  m_kind m1 = Head -> m_kind m2 = Head -> m_nu m1 = Fin nu -> m_nu m2 = Fin nu ->
  slot_kind (m_u m1) <> KInt -> slot_kind (m_u m2) <> KInt ->
  (forall x, a <= x <= b -> velocity_at m1 U (dU x) x /\ solves2_at m1 d h x /\ velocity_at m2 V (dV x) x /\ solves2_at m2 y z x /\
     1/1000 <= V x /\ Rabs (V x - U x) <= e /\ Rabs (dV x - dU x) <= e /\
     d1 <= d x <= d2 /\ h1 <= h x <= h2 /\ d1 <= y x <= d2 /\ h1 <= z x <= h2) ->
  forall x, a <= x <= b -> stored2_at m1 d h x -> stored2_at m2 y z x ->
  exists dm1 H1 dm2 H2, q_delta_m m1 x = Ok (Fin dm1) /\ q_shape_d m1 x = Ok (Fin H1) /\
    q_delta_m m2 x = Ok (Fin dm2) /\ q_shape_d m2 x = Ok (Fin H2) /\
    Rabs (dm2 - dm1) <= K * (Rabs (y a - d a) + Rabs (z a - h a) + e) /\
    Rabs (H2 - H1) <= K * (Rabs (y a - d a) + Rabs (z a - h a) + e).
Proof.
  intros Pn Hab Pd Side V.
  assert (HU : forall x, a <= x <= b -> continuous U x /\ 1/1000 <= U x).
  { intros x Hx. destruct (V x Hx) as (D & _ & L). split; [|exact L]. apply (ex_derive_continuous U). eexists. exact D. }
  assert (HdU : forall x, a <= x <= b -> continuous dU x) by (intros x Hx; apply V, Hx).
  assert (Sys : exists f1 K1, nice a b d1 d2 h1 h2 (f1 U dU) /\ 0 <= K1 /\
            (forall W dW t d h, h1 <= h <= h2 -> sys1_at nu W dW h t d h = f1 W dW t d h) /\
            forall t d h V dV e, a <= t <= b -> inbox d1 d2 h1 h2 d h -> 1/1000 <= V t ->
              Rabs (V t - U t) <= e -> Rabs (dV t - dU t) <= e ->
              Rabs (sys0 nu V dV t d h - sys0 nu U dU t d h) <= K1 * e /\ Rabs (f1 V dV t d h - f1 U dU t d h) <= K1 * e).
  { destruct Side as [L|L].
    - destruct (system_sensitive lo_a lo_b lo_c lo_d nu U dU a b d1 d2 h1 h2 ltac:(unfold lo_a; lra) ltac:(unfold lo_c; lra)
        ltac:(unfold lo_b; lra) Pn Hab Pd HU HdU) as (K1 & P1 & H1).
      exists (sys1 lo_a lo_b lo_c lo_d nu), K1. split; [|split; [exact P1|split; [|exact H1]]].
      + apply (nice_sys1 lo_a lo_b lo_c lo_d nu U dU ltac:(unfold lo_a; lra) ltac:(unfold lo_b; lra) ltac:(unfold lo_d; lra) Pn
         a b _ _ _ _ Hab Pd HU HdU).
      + intros W dW t d h Hh. unfold sys1_at. destruct (Rle_dec h (16/10)); [reflexivity|lra].
    - destruct (system_sensitive hi_a hi_b hi_c hi_d nu U dU a b d1 d2 h1 h2 ltac:(unfold hi_a; lra) ltac:(unfold hi_c; lra)
        ltac:(unfold hi_b; lra) Pn Hab Pd HU HdU) as (K1 & P1 & H1).
      exists (sys1 hi_a hi_b hi_c hi_d nu), K1. split; [|split; [exact P1|split; [|exact H1]]].
      + apply (nice_sys1 hi_a hi_b hi_c hi_d nu U dU ltac:(unfold hi_a; lra) ltac:(unfold hi_b; lra) ltac:(unfold hi_d; lra) Pn
         a b _ _ _ _ Hab Pd HU HdU).
      + intros W dW t d h Hh. unfold sys1_at. destruct (Rle_dec h (16/10)); [lra|reflexivity]. }
  destruct Sys as (f1 & K1 & Nf & P1 & E1 & HS).
  destruct (system_close a b d1 d2 h1 h2 (sys0 nu U dU) (f1 U dU) (nice_sys0 nu U dU Pn a b _ _ _ _ Hab Pd HU HdU) Nf) as (K & PK & HK).
  exists (K * (1 + K1)). split; [apply Rmult_lt_0_compat; lra|].
  intros m1 m2 Ve dV d h y z e Km1 Km2 Kn1 Kn2 Sk1 Sk2 HX x Hx (g1 & Em1 & Lg1) (g2 & Em2 & Lg2).
  apply locally_singleton in Lg1. apply locally_singleton in Lg2.
  assert (He : 0 <= e).
  { destruct (HX x Hx) as (_ & _ & _ & _ & _ & Q & _). pose proof (Rabs_pos (Ve x - U x)). lra. }
  exists (d x), (h x), (y x), (z x).
  split; [unfold q_delta_m, sol_at; rewrite Em1; cbn [bind]; rewrite Lg1, Km1; reflexivity|].
  split; [unfold q_shape_d, sol_at; rewrite Em1; cbn [bind]; rewrite Lg1, Km1; reflexivity|].
  split; [unfold q_delta_m, sol_at; rewrite Em2; cbn [bind]; rewrite Lg2, Km2; reflexivity|].
  split; [unfold q_shape_d, sol_at; rewrite Em2; cbn [bind]; rewrite Lg2, Km2; reflexivity|].
  set (e0 := Rabs (y a - d a) + Rabs (z a - h a)).
  assert (Pe0 : 0 <= e0) by (unfold e0; apply Rplus_le_le_0_compat; apply Rabs_pos).
  assert (Fin : Rabs (d x - y x) <= K * (e0 + K1 * e) /\ Rabs (h x - z x) <= K * (e0 + K1 * e)).
  { apply (HK x (K1 * e) e0 d h y z (fun t => sys0 nu Ve dV t (y t) (z t)) (fun t => f1 Ve dV t (y t) (z t)) Hx).
    - apply Rmult_le_pos; assumption.
    - unfold e0. rewrite <- (Rabs_Ropp (y a - d a)), <- (Rabs_Ropp (z a - h a)), !Ropp_minus_distr. lra.
    - intros t Ht. assert (Ht' : a <= t <= b) by lra.
      destruct (HX t Ht') as ((LU & _ & QD) & (v & w & Ev & D1 & D2) & (LV & _ & QV) & (v' & w' & Ev' & D3 & D4)
        & HV & Q1 & Q2 & B1 & B2 & B3 & B4).
      destruct (V t Ht') as (_ & _ & LUt).
      rewrite (rhs_sys m1 nu U dU t (d t) (h t) Km1 Kn1 Pn Sk1 (locally_singleton _ _ LU) QD LUt ltac:(lra)) in Ev.
      rewrite (rhs_sys m2 nu Ve dV t (y t) (z t) Km2 Kn2 Pn Sk2 (locally_singleton _ _ LV) QV HV ltac:(lra)) in Ev'.
      injection Ev as Ev1 Ev2. injection Ev' as Ev3 Ev4.
      rewrite E1 in Ev2, Ev4 by assumption. subst v w v' w'.
      split; [split; assumption|]. split; [split; assumption|].
      do 4 (split; [assumption|]).
      apply (HS t (y t) (z t) Ve dV e Ht' (conj B3 B4) HV Q1 Q2). }
  assert (Wk : K * (e0 + K1 * e) <= K * (1 + K1) * (e0 + e)).
  { rewrite Rmult_assoc. apply Rmult_le_compat_l; [lra|].
    assert (0 <= K1 * e0) by (apply Rmult_le_pos; assumption). lra. }
  rewrite <- (Rabs_Ropp (y x - d x)), <- (Rabs_Ropp (z x - h x)), !Ropp_minus_distr. lra.
Qed.
