(** The shape of the velocity profiles (C145-C147). *)
From Coq Require Import Reals Ranalysis5 List Lra Lia Psatz.
From Coquelicot Require Import Coquelicot.
From Verif Require Import PyBase PyBaseFacts SimilarityModel SimilaritySpec SearchSpec SearchProofs
  SimilarityProofs SimilarityIntegralProofs SimilarityFlowProofs BlasiusSpec BlasiusProofs
  BlasiusFlowProofs ProfileSpec.
Import ListNotations.
Open Scope R_scope.

Lemma not_falling (V D : R -> R) a b : a <= b ->
  (forall t, a <= t <= b -> is_derive V t (D t)) -> (forall t, a <= t <= b -> 0 <= D t) -> V a <= V b.
Proof.
  intros H A B. enough (- V b <= - V a) by lra.
  apply (not_growing (fun t => - V t) (fun t => - D t) a b H).
  - intros t Ht. apply (is_derive_opp V), A, Ht.
  - intros t Ht. specialize (B t Ht). lra.
Qed.

Lemma rising_strictly (V D : R -> R) a b : a < b ->
  (forall t, a <= t <= b -> is_derive V t (D t)) -> (forall t, a <= t <= b -> 0 < D t) -> V a < V b.
Proof.
  intros H HD HN. destruct (MVT_gen V a b D) as [c [Hc E]].
  - intros x Hx. rewrite Rmin_left, Rmax_right in Hx by lra. apply HD. lra.
  - intros x Hx. rewrite Rmin_left, Rmax_right in Hx by lra.
    apply continuity_pt_filterlim, (ex_derive_continuous V). eexists. apply HD. lra.
  - rewrite Rmin_left, Rmax_right in Hc by lra. specialize (HN c ltac:(lra)). nra.
Qed.

(** ** Solutions of the Falkner-Skan equation *)
Section Shape.
Variables (F0 F1 F2 : R -> R) (E b : R).
Hypothesis HE : 0 < E.
Hypothesis Z0 : F0 0 = 0.
Hypothesis Z1 : F1 0 = 0.
Hypothesis D0 : forall t, 0 <= t <= E -> is_derive F0 t (F1 t).
Hypothesis D1 : forall t, 0 <= t <= E -> is_derive F1 t (F2 t).
Hypothesis ODE : forall t, 0 <= t <= E -> falkner_skan_at b F0 F1 F2 t.

(** f'' times an integrating factor. *)
Lemma factor : exists G h : R -> R, (forall t, 0 < h t) /\
  (forall t, 0 <= t <= E -> G t = F2 t * h t) /\
  (forall t, 0 <= t <= E -> is_derive G t (- (b * (1 - F1 t * F1 t)) * h t)).
Proof.
  destruct (running_integral F0 E ltac:(lra)) as (K & K0 & _ & DK).
  { intros t Ht. apply (ex_derive_continuous F0). eexists. apply D0, Ht. }
  exists (fun t => F2 t * exp (K t)), (fun t => exp (K t)).
  split; [intros; apply exp_pos|]. split; [reflexivity|].
  intros t Ht. pose proof (ODE t Ht) as DF. unfold falkner_skan_at in DF. specialize (DK t Ht).
  auto_derive; [split; [eexists; exact DF|split; [eexists; exact DK|exact Logic.I]]|].
  rewrite (is_derive_unique (fun x : R => F2 x) _ _ DF), (is_derive_unique (fun x : R => K x) _ _ DK).
  ring.
Qed.

Lemma accelerated_slope : 0 <= b -> (forall t, 0 <= t <= E -> -1 <= F1 t <= 1) -> 0 < F2 E ->
  forall t, 0 <= t <= E -> 0 < F2 t.
Proof.
  intros Hb HF He t Ht. destruct factor as (G & h & Hh & HG & DG).
  assert (A : G E <= G t).
  { apply (not_growing G (fun t => - (b * (1 - F1 t * F1 t)) * h t)); [lra| |].
    - intros s Hs. apply DG. lra.
    - intros s Hs. specialize (HF s ltac:(lra)). specialize (Hh s).
      assert (0 <= b * (1 - F1 s * F1 s)) by (apply Rmult_le_pos; nra). nra. }
  rewrite (HG t Ht), (HG E ltac:(lra)) in A. pose proof (Hh t). pose proof (Hh E).
  assert (0 < F2 E * h E) by nra. destruct (Rlt_or_le 0 (F2 t)); [assumption|nra].
Qed.

Lemma decelerated_slope : b <= 0 -> (forall t, 0 <= t <= E -> -1 <= F1 t <= 1) -> 0 < F2 0 ->
  forall t, 0 <= t <= E -> 0 < F2 t.
Proof.
  intros Hb HF He t Ht. destruct factor as (G & h & Hh & HG & DG).
  assert (A : G 0 <= G t).
  { apply (not_falling G (fun t => - (b * (1 - F1 t * F1 t)) * h t)); [lra| |].
    - intros s Hs. apply DG. lra.
    - intros s Hs. specialize (HF s ltac:(lra)). specialize (Hh s).
      assert (0 <= - b * (1 - F1 s * F1 s)) by (apply Rmult_le_pos; nra). nra. }
  rewrite (HG t Ht), (HG 0 ltac:(lra)) in A. pose proof (Hh t). pose proof (Hh 0).
  assert (0 < F2 0 * h 0) by nra. destruct (Rlt_or_le 0 (F2 t)); [assumption|nra].
Qed.

(** No maximum of f' above 1 inside the layer. *)
Lemma no_overshoot : 0 < b -> F1 E <= 1 -> forall t, 0 <= t <= E -> F1 t <= 1.
Proof.
  intros Hb He t Ht. destruct (Rle_or_lt (F1 t) 1) as [|Hgt]; [assumption|exfalso].
  destruct (continuity_ab_maj F1 0 E ltac:(lra)) as [m [Hm Hm']].
  { intros c Hc. apply continuity_pt_filterlim, (ex_derive_continuous F1). eexists. apply D1, Hc. }
  pose proof (Hm t Ht) as Hmt.
  assert (m <> 0) by (intros ->; lra). assert (m <> E) by (intros ->; lra).
  assert (Z : F2 m = 0).
  { pose proof (D1 m Hm') as D. apply is_derive_Reals in D.
    pose (pr := exist _ (F2 m) D : derivable_pt F1 m).
    change (F2 m) with (derive_pt F1 m pr).
    apply (deriv_maximum F1 0 E m pr); try lra. intros s Hs1 Hs2. apply Hm. lra. }
  pose proof (ODE m Hm') as D. unfold falkner_skan_at in D. rewrite Z in D.
  set (L := - (F0 m * 0 + b * (1 - F1 m * F1 m))) in D.
  assert (HL : 0 < L). { unfold L. assert (0 < b * (F1 m * F1 m - 1)) by (apply Rmult_lt_0_compat; nra). lra. }
  apply is_derive_Reals in D. destruct (D (L / 2) ltac:(lra)) as [d Hd].
  pose proof (cond_pos d) as Pd.
  set (k := Rmin (d / 2) (E - m)).
  assert (Hk : 0 < k) by (unfold k; apply Rmin_pos; lra).
  assert (Hk1 : k <= d / 2) by apply Rmin_l. assert (Hk2 : k <= E - m) by apply Rmin_r.
  assert (Pos : forall s, m < s <= m + k -> 0 < F2 s).
  { intros s Hs. specialize (Hd (s - m) ltac:(lra)).
    rewrite (Rabs_pos_eq (s - m)) in Hd by lra. specialize (Hd ltac:(lra)).
    replace (m + (s - m)) with s in Hd by ring. rewrite Z in Hd.
    apply Rabs_def2 in Hd. destruct Hd as [_ Hd].
    assert (0 < (F2 s - 0) / (s - m)) by lra.
    replace (F2 s) with ((F2 s - 0) / (s - m) * (s - m)) by (field; lra). apply Rmult_lt_0_compat; lra. }
  destruct (MVT_gen F1 m (m + k) F2) as [c [Hc Ec]].
  - intros s Hs. rewrite Rmin_left, Rmax_right in Hs by lra. apply D1. lra.
  - intros s Hs. rewrite Rmin_left, Rmax_right in Hs by lra.
    apply continuity_pt_filterlim, (ex_derive_continuous F1). eexists. apply D1. lra.
  - rewrite Rmin_left, Rmax_right in Hc by lra.
    destruct (Rle_lt_or_eq_dec m c ltac:(lra)) as [Hmc|Hmc].
    + specialize (Pos c ltac:(lra)). specialize (Hm (m + k) ltac:(lra)). nra.
    + (* the mean slope is that at m: then F1 (m+k) = F1 m; look at the second half *)
      rewrite <- Hmc, Z in Ec.
      assert (S : F1 (m + k / 2) < F1 (m + k)).
      { apply (rising_strictly F1 F2); [lra| |].
        - intros s Hs. apply D1. lra.
        - intros s Hs. apply Pos. lra. }
      assert (S' : F1 m <= F1 (m + k / 2)).
      { apply (not_falling F1 F2); [lra| |].
        - intros s Hs. apply D1. lra.
        - intros s Hs. destruct (Rle_lt_or_eq_dec m s ltac:(lra)) as [G|G].
          + left. apply Pos. lra.
          + rewrite <- G, Z. lra. }
      specialize (Hm (m + k) ltac:(lra)). lra.
Qed.

Lemma edge_bound : 0 <= b -> F1 E <= 1 -> (forall t, 0 <= t <= E -> -1 <= F1 t) -> 0 < F2 E ->
  forall t, 0 <= t <= E -> -1 <= F1 t <= 1.
Proof.
  intros Hb He Hl Hp t Ht. split; [apply Hl, Ht|].
  destruct (Rle_lt_or_eq_dec 0 b Hb) as [P|P]; [apply no_overshoot; assumption|].
  destruct factor as (G & h & Hh & HG & DG).
  assert (Pos : forall s, 0 <= s <= E -> 0 < F2 s).
  { intros s Hs.
    assert (A : G E <= G s).
    { apply (not_growing G (fun t => - (b * (1 - F1 t * F1 t)) * h t)); [lra| |].
      - intros r Hr. apply DG. lra.
      - intros r Hr. rewrite <- P. lra. }
    rewrite (HG s Hs), (HG E ltac:(lra)) in A. pose proof (Hh s). pose proof (Hh E).
    assert (0 < F2 E * h E) by nra. destruct (Rlt_or_le 0 (F2 s)); [assumption|nra]. }
  apply Rle_trans with (F1 E); [|exact He].
  apply (not_falling F1 F2); [lra| |].
  - intros s Hs. apply D1. lra.
  - intros s Hs. left. apply Pos. lra.
Qed.

Section Positive.
Hypothesis slope : forall t, 0 <= t <= E -> 0 < F2 t.

Lemma F1_rises s t : 0 <= s -> s < t -> t <= E -> F1 s < F1 t.
Proof.
  intros A B C. apply (rising_strictly F1 F2); [lra| |]; intros r Hr; [apply D1|apply slope]; lra.
Qed.

Lemma F1_nn t : 0 <= t <= E -> 0 <= F1 t.
Proof.
  intros Ht. rewrite <- Z1. apply (not_falling F1 F2); [lra| |];
  intros r Hr; [apply D1; lra|left; apply slope; lra].
Qed.

Lemma F0_nn t : 0 <= t <= E -> 0 <= F0 t.
Proof.
  intros Ht. rewrite <- Z0. apply (not_falling F0 F1); [lra| |];
  intros r Hr; [apply D0; lra|apply F1_nn; lra].
Qed.

Lemma F2_falls s t : (forall r, 0 <= r <= E -> 0 <= b * (1 - F1 r * F1 r)) ->
  0 <= s <= t -> t <= E -> F2 t <= F2 s.
Proof.
  intros H1 A B.
  apply (not_growing F2 (fun t => - (F0 t * F2 t + b * (1 - F1 t * F1 t)))); [lra| |].
  - intros r Hr. apply ODE. lra.
  - intros r Hr. specialize (H1 r ltac:(lra)).
    pose proof (F0_nn r ltac:(lra)). pose proof (slope r ltac:(lra)).
    assert (0 <= F0 r * F2 r) by nra. lra.
Qed.

(** t f' - f rises. *)
Lemma outflow s t : 0 <= s <= t -> t <= E -> 0 <= s * F1 s - F0 s <= t * F1 t - F0 t.
Proof.
  assert (D : forall r, 0 <= r <= E -> is_derive (fun r => r * F1 r - F0 r) r (r * F2 r)).
  { intros r Hr. pose proof (D0 r Hr) as A. pose proof (D1 r Hr) as B.
    auto_derive; [split; [eexists; exact B|split; [eexists; exact A|exact Logic.I]]|].
    rewrite (is_derive_unique (fun x : R => F0 x) _ _ A), (is_derive_unique (fun x : R => F1 x) _ _ B). ring. }
  assert (M : forall p q, 0 <= p <= q -> q <= E -> p * F1 p - F0 p <= q * F1 q - F0 q).
  { intros p q A B. apply (not_falling (fun r => r * F1 r - F0 r) (fun r => r * F2 r)); [lra| |].
    - intros r Hr. apply D. lra.
    - intros r Hr. pose proof (slope r ltac:(lra)). apply Rmult_le_pos; lra. }
  intros A B. split; [|apply M; lra].
  pose proof (M 0 s ltac:(lra) ltac:(lra)) as H. rewrite Z0 in H. lra.
Qed.

End Positive.
End Shape.

(** ** Objects *)
Section Object.
Variables (o : sim) (b U N : R) (F0 F1 F2 : R -> R) (E : R).
Hypothesis F : flow o b U N.
Hypothesis P : profile_on o F0 F1 F2 E.
Hypothesis Z0 : F0 0 = 0.
Hypothesis Z1 : F1 0 = 0.
Hypothesis ODE : forall t, 0 <= t <= E -> falkner_skan_at b F0 F1 F2 t.
Variables (x Y : R).
Hypothesis Hx : 0 < x.
Hypothesis HY : q_eta o x Y = Ok (Fin E).

Let g := GG b U N x.
Let ue := UE b U x.

Lemma g_pos : 0 < g. Proof. exact (GG_pos o b U N F x Hx). Qed.
Lemma ue_pos : 0 < ue. Proof. exact (UE_pos o b U N F x). Qed.
Lemma HE : 0 < E. Proof. apply P. Qed.
Lemma Yg : Y * g = E. Proof. exact (Y_val o b U N E F x Y Hx HY). Qed.
Lemma inside y : 0 <= y <= Y -> 0 <= y * g <= E.
Proof. intros [A B]. pose proof Yg. pose proof g_pos. split; nra. Qed.
Lemma u_at y : 0 <= y <= Y -> q_u o x y = Ok (Fin (ue * F1 (y * g))).
Proof.
  intros H. apply (u_val o b U N F F0 F1 F2); [exact Hx|]. apply (holds_on o F0 F1 F2 E P).
  apply inside, H.
Qed.
Lemma v_at y : 0 <= y <= Y -> q_v o x y = Ok (Fin (- (N * g * (F0 (y * g) + (b - 1) * (y * g) * F1 (y * g))))).
Proof.
  intros H. apply (v_val o b U N F F0 F1 F2); [exact Hx|]. apply (holds_on o F0 F1 F2 E P).
  apply inside, H.
Qed.

Lemma near_inside t : 0 < t < E -> profile_near o F0 F1 F2 t.
Proof.
  intros H. destruct P as (_ & _ & (f & Ef & Hf) & _). exists f. split; [exact Ef|].
  assert (L : locally t (fun s => 0 <= s <= E)).
  { assert (Pm : 0 < Rmin t (E - t)) by (apply Rmin_pos; lra).
    exists (mkposreal _ Pm). intros s Hs. change (Rabs (s - t) < Rmin t (E - t)) in Hs.
    pose proof (Rmin_l t (E - t)). pose proof (Rmin_r t (E - t)).
    apply Rabs_def2 in Hs. lra. }
  revert L. apply filter_imp. exact Hf.
Qed.

Lemma slope_at y d : 0 < y < Y -> rderiv (fun t => q_u o x t) y d -> d = ue * g * F2 (y * g).
Proof.
  intros Hy D. pose proof Yg. pose proof g_pos.
  apply (rderiv_unique _ _ _ _ D).
  assert (I : 0 < y * g < E) by (split; nra).
  apply (u_dy o b U N F F0 F1 F2 x y); [exact Hx|apply near_inside, I|].
  destruct P as (_ & _ & _ & _ & D1). apply D1. fold g. lra.
Qed.

Lemma Y_nn : 0 < Y.
Proof. pose proof Yg. pose proof g_pos. pose proof HE. destruct (Rlt_or_le 0 Y); [assumption|nra]. Qed.

Section Positive.
Hypothesis slope : forall t, 0 <= t <= E -> 0 < F2 t.

Lemma rising_lem : rising o x Y.
Proof.
  pose proof g_pos. pose proof ue_pos. pose proof Y_nn. destruct P as (_ & He & _ & _ & D1). split.
  - rewrite u_at by lra. rewrite Rmult_0_l, Z1. do 2 f_equal. ring.
  - intros y1 y2 A B C. exists (ue * F1 (y1 * g)), (ue * F1 (y2 * g)).
    split; [apply u_at; lra|]. split; [apply u_at; lra|].
    apply Rmult_lt_compat_l; [assumption|].
    pose proof (inside y1 ltac:(lra)). pose proof (inside y2 ltac:(lra)).
    apply (F1_rises F1 F2 E D1 slope); [lra|nra|lra].
Qed.

Lemma inside_lem : (forall t, 0 <= t <= E -> F1 t <= 1) -> inside_edge o x Y.
Proof.
  intros Hl. pose proof ue_pos. destruct P as (_ & He & _ & _ & D1). exists ue.
  split; [apply (ue_val o b U N F x Hx)|]. intros y Hy. eexists. split; [apply u_at, Hy|].
  pose proof (inside y Hy). specialize (Hl (y * g) ltac:(lra)).
  pose proof (F1_nn F1 F2 E Z1 D1 slope (y * g) ltac:(lra)). split; nra.
Qed.

Lemma shear_lem : (forall r, 0 <= r <= E -> 0 <= b * (1 - F1 r * F1 r)) -> shear_falls o N x Y.
Proof.
  intros Hb rho Hr. destruct P as (_ & He & _ & D0 & D1).
  pose proof F as (_ & _ & _ & _ & EN & _ & _ & HN & _). pose proof g_pos. pose proof ue_pos.
  assert (Fall := fun s t => F2_falls F0 F1 F2 E b Z0 Z1 D0 D1 ODE slope s t Hb).
  exists (rho * N * (ue * g * F2 0)). split; [|split].
  - unfold qs_tau_w. rewrite (ue_val o b U N F x Hx), (g_val o b U N F x Hx).
    rewrite (fw_val o F0 F1 F2 E P). cbn [bind]. rewrite EN, !xmul_fin. unfold ue, g. do 2 f_equal. ring.
  - intros y d Hy D. rewrite (slope_at y d Hy D). pose proof (inside y ltac:(lra)) as I.
    pose proof (slope (y * g) I) as S. pose proof (Fall 0 (y * g) ltac:(lra) ltac:(lra)) as L.
    split.
    { apply Rmult_lt_0_compat; [apply Rmult_lt_0_compat; assumption|].
      apply Rmult_lt_0_compat; [apply Rmult_lt_0_compat; assumption|exact S]. }
    apply Rmult_le_compat_l; [left; apply Rmult_lt_0_compat; assumption|].
    apply Rmult_le_compat_l; [left; apply Rmult_lt_0_compat; assumption|exact L].
  - intros y1 y2 d1 d2 A B Da Db. rewrite (slope_at y1 d1 ltac:(lra) Da), (slope_at y2 d2 ltac:(lra) Db).
    pose proof (inside y1 ltac:(lra)). pose proof (inside y2 ltac:(lra)).
    apply Rmult_le_compat_l; [left; apply Rmult_lt_0_compat; assumption|].
    apply Fall; [split; [lra|nra]|lra].
Qed.

Lemma outflow_lem : b = 0 -> outflow_rises o x Y.
Proof.
  intros Hb y1 y2 A B. destruct P as (_ & He & _ & D0 & D1).
  pose proof F as (_ & _ & _ & _ & _ & _ & _ & HN & _). pose proof g_pos.
  pose proof (inside y1 ltac:(lra)). pose proof (inside y2 ltac:(lra)).
  pose proof (outflow F0 F1 F2 E Z0 D0 D1 slope (y1 * g) (y2 * g) ltac:(split; [lra|nra]) ltac:(lra)) as O.
  eexists _, _. split; [apply v_at; lra|]. split; [apply v_at; lra|]. rewrite Hb.
  assert (0 < N * g) by (apply Rmult_lt_0_compat; assumption).
  set (p := y1 * g * F1 (y1 * g) - F0 (y1 * g)) in *.
  set (q := y2 * g * F1 (y2 * g) - F0 (y2 * g)) in *.
  replace (- (N * g * (F0 (y1 * g) + (0 - 1) * (y1 * g) * F1 (y1 * g)))) with (N * g * p) by (unfold p; ring).
  replace (- (N * g * (F0 (y2 * g) + (0 - 1) * (y2 * g) * F1 (y2 * g)))) with (N * g * q) by (unfold q; ring).
  split; [apply Rmult_le_pos; lra|apply Rmult_le_compat_l; lra].
Qed.
End Positive.

Lemma accelerated_lem : 0 <= b -> F1 E <= 1 -> 0 < F2 E -> (forall t, 0 <= t <= E -> -1 <= F1 t) ->
  rising o x Y /\ inside_edge o x Y /\ shear_falls o N x Y.
Proof.
  intros Hb H1 H2 Hl. destruct P as (_ & He & _ & D0 & D1).
  assert (Hf := edge_bound F0 F1 F2 E b He Z1 D0 D1 ODE Hb H1 Hl H2).
  assert (S := accelerated_slope F0 F1 F2 E b He D0 ODE Hb Hf H2).
  split; [apply rising_lem, S|]. split; [apply (inside_lem S); intros t Ht; apply Hf, Ht|].
  apply (shear_lem S). intros r Hr. specialize (Hf r Hr). apply Rmult_le_pos; [exact Hb|nra].
Qed.

Lemma decelerated_lem : b <= 0 -> 0 < F2 0 -> (forall t, 0 <= t <= E -> -1 <= F1 t <= 1) ->
  rising o x Y /\ inside_edge o x Y.
Proof.
  intros Hb H2 Hf. destruct P as (_ & He & _ & D0 & D1).
  assert (S := decelerated_slope F0 F1 F2 E b He D0 ODE Hb Hf H2).
  split; [apply rising_lem, S|]. apply (inside_lem S). intros t Ht. apply Hf, Ht.
Qed.

Lemma flat_lem : b = 0 -> 0 < F2 0 -> rising o x Y /\ shear_falls o N x Y /\ outflow_rises o x Y.
Proof.
  intros Hb H2. destruct P as (_ & He & _ & D0 & D1).
  assert (D2 : forall t, 0 <= t <= E -> is_derive F2 t (- (F0 t * F2 t))).
  { intros t Ht. pose proof (ODE t Ht) as D. unfold falkner_skan_at in D. rewrite Hb in D.
    replace (- (F0 t * F2 t)) with (- (F0 t * F2 t + 0 * (1 - F1 t * F1 t))) by ring. exact D. }
  assert (S := F2_pos F0 F1 F2 E (F2 0) He H2 eq_refl D0 D2).
  split; [apply rising_lem, S|]. split; [|apply outflow_lem; [exact S|exact Hb]].
  apply (shear_lem S). intros r Hr. rewrite Hb. lra.
Qed.

End Object.

(** ** Objects built with exact integrations *)
Section Built.
Variable ivp : (triple -> triple) -> xr -> triple -> res ivp3.
Variable quad : (xr -> res xr) -> xr -> res xr.
Variable bisect : (xr -> res xr) -> xr -> res (bool * xr).
Hypothesis EI : exact_ivp ivp.

Lemma exact_profile o b E w : 0 < E -> profile_from ivp o (Fin b) (Fin E) (Fin w) ->
  exists F0 F1 F2, profile_on o F0 F1 F2 E /\ F0 0 = 0 /\ F1 0 = 0 /\ F2 0 = w /\
    forall t, 0 <= t <= E -> falkner_skan_at b F0 F1 F2 t.
Proof.
  intros HE (rhs & r & Hr & Hi & Hs & Hq & He).
  destruct (EI _ _ _ _ _ _ Hi Hs) as (F0 & F1 & F2 & (A & B1 & C & D) & HF).
  assert (DD : forall t, 0 <= t <= E ->
     is_derive F0 t (F1 t) /\ is_derive F1 t (F2 t) /\ falkner_skan_at b F0 F1 F2 t).
  { intros t Ht. destruct (D t Ht) as (d0 & d1 & d2 & Ed & I0 & I1 & I2).
    rewrite Hr in Ed. rewrite !xmul_fin, xsub_fin, xmul_fin, xadd_fin, xneg_fin in Ed.
    injection Ed as <- <- <-. split; [exact I0|]. split; [exact I1|]. unfold falkner_skan_at.
    replace (- (F0 t * F2 t + b * (1 - F1 t * F1 t))) with (- (1 * F0 t * F2 t + b * (1 - F1 t * F1 t))) by ring.
    exact I2. }
  exists F0, F1, F2. split; [|split; [exact A|split; [exact B1|split; [exact C|intros t Ht; apply DD, Ht]]]].
  split; [exact He|]. split; [exact HE|]. split; [|split; intros t Ht; apply DD, Ht].
  destruct (s_f o) as [f|] eqn:Ef.
  + exists f. split; [reflexivity|]. intros t Ht. rewrite <- (HF t Ht).
    destruct (Hq (Fin t)) as (Q0 & Q1 & Q2). unfold q_f, q_f_p, q_f_pp in Q0, Q1, Q2. rewrite Ef in *.
    destruct (f (Fin t)) as [[a b'] c]. destruct (i_sol r (Fin t)) as [[a' b''] c'].
    unfold t0, t1, t2 in *. cbn in *. congruence.
  + destruct (Hq (Fin 0)) as (Q0 & _). unfold q_f in Q0. rewrite Ef in Q0. discriminate Q0.
Qed.

Lemma blasius_lem U N w e o x Y :
  (w = None /\ e = None \/ exists w' e', w = Some (Fin w') /\ e = Some (Fin e')) ->
  new_blasius ivp quad bisect (Fin U) (Fin N) w e = Ok o -> 0 < x ->
  q_eta o x Y = Ok (s_eta_inf o) ->
  rising o x Y /\ shear_falls o N x Y /\ outflow_rises o x Y.
Proof.
  intros Hp B Hx HY. destruct (blasius_flow ivp quad bisect U N w e o B) as [Fl _].
  destruct (given_parameters_lemma ivp quad bisect (Fin U) (Fin N) e w o) as [G _].
  destruct (G B) as (ei & fw & Pf & Hd & H1 & H2). clear G.
  assert (X : exists E w', 0 < E /\ 0 < w' /\ ei = Fin E /\ fw = Fin w').
  { destruct Hp as [[-> ->]|(w' & e' & -> & ->)].
    - destruct (Hd eq_refl eq_refl) as [-> ->]. eexists _, _.
      split; [|split; [|split; reflexivity]]; lra.
    - exists e', w'. rewrite (H1 _ eq_refl), (H2 _ eq_refl).
      unfold new_blasius in B. cbn [fst snd] in B. unfold new_sim in B.
      destruct (xleb (Fin U) (Fin 0)); [discriminate B|]. destruct (xleb (Fin N) (Fin 0)); [discriminate B|].
      unfold set_solution_parameters in B. cbn [bad_positive xleb] in B.
      destruct (Rleb e' 0) eqn:Ee; [discriminate B|]. destruct (Rleb w' 0) eqn:Ew; [discriminate B|].
      assert (T : forall r, Rleb r 0 = false -> 0 < r).
      { intros r Hr. destruct (Rlt_or_le 0 r) as [|L]; [assumption|]. rewrite Rleb_true in Hr by exact L. discriminate. }
      split; [apply T, Ee|]. split; [apply T, Ew|]. split; reflexivity. }
  destruct X as (E & w' & HE & Hw & -> & ->).
  destruct (exact_profile o 0 E w' HE Pf) as (F0 & F1 & F2 & P & Z0 & Z1 & Z2 & O).
  assert (HY' : q_eta o x Y = Ok (Fin E)) by (rewrite HY; f_equal; apply P).
  apply (flat_lem o 0 U N F0 F1 F2 E Fl P Z0 Z1 O x Y Hx HY' eq_refl). rewrite Z2. exact Hw.
Qed.

Lemma default_inside U N o x Y :
  new_blasius ivp quad bisect (Fin U) (Fin N) None None = Ok o -> 0 < x ->
  q_eta o x Y = Ok (s_eta_inf o) ->
  inside_edge o x Y /\ exists F0 F1 F2 E, profile_on o F0 F1 F2 E /\ F0 0 = 0 /\ q_eta o x Y = Ok (Fin E) /\
    (forall t, 0 <= t <= E -> falkner_skan_at 0 F0 F1 F2 t) /\
    Rabs (F2 E) <= / 10 ^ 8 /\ 1 - / 10 ^ 8 <= F1 E.
Proof.
  intros B Hx HY. destruct (blasius_flow ivp quad bisect U N _ _ o B) as [Fl _].
  destruct (default_profile ivp quad bisect EI U N o B) as (F0 & F1 & F2 & BP & P).
  destruct (edge_numbers F0 F1 F2 BP) as (_ & N1 & N2). unfold small in *.
  destruct BP as (Z0 & Z1 & Z2 & _ & _ & D2).
  assert (O : forall t, 0 <= t <= blasius_eta_inf -> falkner_skan_at 0 F0 F1 F2 t).
  { intros t Ht. unfold falkner_skan_at.
    replace (- (F0 t * F2 t + 0 * (1 - F1 t * F1 t))) with (- (F0 t * F2 t)) by ring. apply D2, Ht. }
  assert (HY' : q_eta o x Y = Ok (Fin blasius_eta_inf)) by (rewrite HY; f_equal; apply P).
  pose proof P as (_ & He & _ & D0 & D1).
  assert (W : 0 < F2 0) by (rewrite Z2; unfold blasius_fw_pp; lra).
  assert (S := F2_pos F0 F1 F2 blasius_eta_inf (F2 0) He W eq_refl D0 D2). split.
  - apply (inside_lem o 0 U N F0 F1 F2 _ Fl P Z1 x Y Hx HY' S). intros t Ht.
    apply Rle_trans with (F1 blasius_eta_inf); [|lra].
    apply (not_falling F1 F2); [lra| |]; intros r Hr; [apply D1; lra|left; apply S; lra].
  - exists F0, F1, F2, blasius_eta_inf. split; [exact P|]. split; [exact Z0|]. split; [exact HY'|].
    split; [exact O|]. split; [rewrite Rabs_pos_eq by lra; lra|lra].
Qed.
End Built.
