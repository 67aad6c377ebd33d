(** Order of the thicknesses (C146) and velocities above the edge (C147). *)
From Coq Require Import Reals Ranalysis5 List Lra Lia Psatz.
From Coquelicot Require Import Coquelicot.
From Verif Require Import PyBase PyBaseFacts SimilarityModel SimilaritySpec
  SimilarityProofs SimilarityIntegralProofs ProfileSpec ProfileProofs.
Import ListNotations.
Open Scope R_scope.

Section Order.
Variable ivp : (triple -> triple) -> xr -> triple -> res ivp3.
Variable quad : (xr -> res xr) -> xr -> res xr.
Variable bisect : (xr -> res xr) -> xr -> res (bool * xr).
Variables (o : sim) (b U N : R) (F0 F1 F2 : R -> R) (E : R).
Hypothesis S : solved ivp quad bisect o.
Hypothesis F : flow o b U N.
Hypothesis P : profile_on o F0 F1 F2 E.
Hypothesis Z0 : F0 0 = 0.
Hypothesis ODE : forall t, 0 <= t <= E -> falkner_skan_at b F0 F1 F2 t.
Hypothesis EQ : exact_quad quad.
Variables (x Y eps : R).
Hypothesis Hx : 0 < x.
Hypothesis HY : q_eta o x Y = Ok (Fin E).
Hypothesis IE : inside_edge o x Y.
Hypothesis R2 : Rabs (F2 E) <= eps.
Hypothesis R1 : 1 - eps <= F1 E.

Lemma F1_range t : 0 <= t <= E -> 0 <= F1 t <= 1.
Proof.
  intros Ht. destruct IE as (ue & Eu & H).
  rewrite (ue_val o b U N F x Hx) in Eu. injection Eu as <-.
  pose proof (GG_pos o b U N F x Hx) as Hg. pose proof (UE_pos o b U N F x) as Hu.
  pose proof (Y_val o b U N E F x Y Hx HY) as Yv.
  set (y := t / GG b U N x). assert (Hyt : y * GG b U N x = t) by (unfold y; field; lra).
  assert (Hy : 0 <= y <= Y).
  { split; apply (Rmult_le_reg_r (GG b U N x)); try assumption; lra. }
  destruct (H y Hy) as (u & E1 & E2).
  rewrite (u_val o b U N F F0 F1 F2 x y Hx) in E1 by (apply (holds_on o F0 F1 F2 E P); lra).
  injection E1 as <-. rewrite Hyt in E2. split; nra.
Qed.

Lemma cF1 t : 0 <= t <= E -> continuous F1 t.
Proof. exact (C1 o F0 F1 F2 E P t). Qed.

Lemma integrable (g : R -> R) : (forall t, 0 <= t <= E -> continuous g t) -> ex_RInt g 0 E.
Proof.
  intros H. destruct P as (_ & He & _). apply (ex_RInt_continuous (V := R_CompleteNormedModule)). intros t Ht.
  rewrite Rmin_left, Rmax_right in Ht by lra. apply H, Ht.
Qed.

Definition fm (t : R) := F1 t * (1 - F1 t).
Definition fk (t : R) := F1 t * (1 - F1 t * F1 t).
Definition fd (t : R) := 1 - F1 t.

Lemma cfd t : 0 <= t <= E -> continuous fd t.
Proof. intros H. apply (continuous_minus (fun _ : R => 1) F1); [apply continuous_const|apply cF1, H]. Qed.
Lemma cfm t : 0 <= t <= E -> continuous fm t.
Proof. intros H. apply (continuous_mult F1 fd); [apply cF1, H|apply cfd, H]. Qed.
Lemma cfk t : 0 <= t <= E -> continuous fk t.
Proof.
  intros H. apply (continuous_mult F1 (fun t => 1 - F1 t * F1 t)); [apply cF1, H|].
  apply (continuous_minus (fun _ : R => 1) (fun t => F1 t * F1 t)); [apply continuous_const|].
  apply (continuous_mult F1 F1); apply cF1, H.
Qed.

Lemma order_eta d m k : s_eta_d o = Fin d -> s_eta_m o = Fin m -> s_eta_k o = Fin k ->
  let slack := 3 * (1 + E) * eps in
  0 <= d /\ - slack <= m <= d + slack /\ m - slack <= k <= 2 * m + slack.
Proof.
  intros Hd Hm Hk slack. pose proof P as (_ & He & _ & D0 & D1).
  pose proof F as (_ & _ & _ & _ & _ & [Hb Hb2] & _). unfold beta_min in Hb.
  (* the integrals *)
  assert (Vd : d = RInt fd 0 E).
  { rewrite (eta_d_val ivp quad bisect o F0 F1 F2 E S P) in Hd. injection Hd as <-.
    symmetry. apply is_RInt_unique. exact (displacement_eta o F0 F1 F2 E P Z0). }
  assert (Vm : m = RInt fm 0 E + (F2 E + F0 E * (F1 E - 1)) / (1 + b)).
  { rewrite (eta_m_val ivp quad bisect o b U N F0 F1 F2 E S F P) in Hm. injection Hm as <-.
    assert (V := is_RInt_unique _ _ _ _ (momentum_eta o b U N F0 F1 F2 E F P Z0 ODE)).
    change (fun t => F1 t * (1 - F1 t)) with fm in V. rewrite V. ring. }
  assert (Vk : k = RInt fk 0 E - F0 E * (1 - F1 E * F1 E)).
  { rewrite (energy_eta ivp quad bisect o b F0 F1 F2 E S P Z0 ODE EQ) in Hk. injection Hk as <-. reflexivity. }
  assert (Id := integrable fd cfd). assert (Im := integrable fm cfm). assert (Ik := integrable fk cfk).
  assert (L0 : 0 <= RInt fm 0 E).
  { apply RInt_ge_0; [lra|exact Im|]. intros t Ht. pose proof (F1_range t ltac:(lra)). unfold fm. nra. }
  assert (L1 : RInt fm 0 E <= RInt fd 0 E).
  { apply RInt_le; [lra|exact Im|exact Id|]. intros t Ht. pose proof (F1_range t ltac:(lra)). unfold fm, fd. nra. }
  assert (L2 : RInt fm 0 E <= RInt fk 0 E).
  { apply RInt_le; [lra|exact Im|exact Ik|]. intros t Ht. pose proof (F1_range t ltac:(lra)) as [A B]. unfold fm, fk.
    apply Rmult_le_compat_l; [exact A|nra]. }
  assert (L3 : RInt fk 0 E <= 2 * RInt fm 0 E).
  { replace (2 * RInt fm 0 E) with (RInt (fun t => scal 2 (fm t)) 0 E).
    - apply RInt_le; [lra|exact Ik|apply (ex_RInt_scal fm), Im|]. intros t Ht.
      pose proof (F1_range t ltac:(lra)) as [A B]. unfold scal; cbn; unfold mult; cbn. unfold fm, fk.
      assert (0 <= F1 t * (1 - F1 t)) by nra. nra.
    - rewrite (RInt_scal fm) by exact Im. reflexivity. }
  (* the residuals *)
  assert (Q0 : 0 <= F0 E <= E).
  { split.
    - rewrite <- Z0. apply (not_falling F0 F1); [lra|exact D0|]. intros t Ht. apply F1_range, Ht.
    - assert (A : E - F0 E = RInt fd 0 E).
      { symmetry. apply is_RInt_unique. exact (displacement_eta o F0 F1 F2 E P Z0). }
      lra. }
  pose proof (F1_range E ltac:(lra)) as [Q1 Q2]. assert (R2b : - eps <= F2 E <= eps) by (revert R2; unfold Rabs; destruct (Rcase_abs (F2 E)); lra).
  set (r := (F2 E + F0 E * (F1 E - 1)) / (1 + b)) in *.
  assert (Hr : r * (1 + b) = F2 E + F0 E * (F1 E - 1)) by (unfold r; field; lra).
  assert (T0 : - (E * eps) <= F0 E * (F1 E - 1) <= 0) by (split; nra).
  assert (T1 : 0 <= F0 E * (1 - F1 E * F1 E) <= 2 * E * eps).
  { split; [apply Rmult_le_pos; nra|].
    apply Rle_trans with (E * (1 - F1 E * F1 E)); [apply Rmult_le_compat_r; nra|].
    replace (2 * E * eps) with (E * (2 * eps)) by ring. apply Rmult_le_compat_l; nra. }
  assert (He0 : 0 <= eps) by lra. assert (HEe : 0 <= E * eps) by (apply Rmult_le_pos; lra).
  assert (Rup : r <= 13 / 10 * eps) by nra.
  assert (Rlo : - (13 / 10 * ((1 + E) * eps)) <= r) by nra.
  assert (Es : slack = 3 * eps + 3 * (E * eps)) by (unfold slack; ring).
  replace ((1 + E) * eps) with (eps + E * eps) in Rlo by ring.
  repeat split; lra.
Qed.

Lemma order_lem : exists d m k,
  qs_delta_d o x = Ok (Fin d) /\ qs_delta_m o x = Ok (Fin m) /\ qs_delta_k o x = Ok (Fin k) /\
  let slack := 3 * (Y + Y / E) * eps in
  0 <= d /\ - slack <= m <= d + slack /\ m - slack <= k <= 2 * m + slack /\
  (0 < m -> exists hd hk, qs_shape_d o x = Ok (Fin hd) /\ qs_shape_k o x = Ok (Fin hk) /\
     1 - slack / m <= hd /\ 1 - slack / m <= hk <= 2 + slack / m).
Proof.
  pose proof (GG_pos o b U N F x Hx) as Hg. pose proof P as (_ & He & _).
  pose proof (Y_val o b U N E F x Y Hx HY) as Yv.
  destruct (s_eta_d o) as [d| | |] eqn:Hd;
    try (rewrite (eta_d_val ivp quad bisect o F0 F1 F2 E S P) in Hd; discriminate Hd).
  destruct (s_eta_m o) as [m| | |] eqn:Hm;
    try (rewrite (eta_m_val ivp quad bisect o b U N F0 F1 F2 E S F P) in Hm; discriminate Hm).
  destruct (s_eta_k o) as [k| | |] eqn:Hk;
    try (rewrite (energy_eta ivp quad bisect o b F0 F1 F2 E S P Z0 ODE EQ) in Hk; discriminate Hk).
  pose proof (order_eta d m k Hd Hm Hk) as O.
  cbv zeta in O.
  set (g := GG b U N x) in *. exists (d / g), (m / g), (k / g).
  assert (Ed : qs_delta_d o x = Ok (Fin (d / g))).
  { unfold qs_delta_d. rewrite (g_val o b U N F x Hx), Hd. cbn [bind]. fold g. rewrite xdiv_fin by lra. reflexivity. }
  assert (Em : qs_delta_m o x = Ok (Fin (m / g))).
  { unfold qs_delta_m. rewrite (g_val o b U N F x Hx), Hm. cbn [bind]. fold g. rewrite xdiv_fin by lra. reflexivity. }
  assert (Ek : qs_delta_k o x = Ok (Fin (k / g))).
  { unfold qs_delta_k. rewrite (g_val o b U N F x Hx), Hk. cbn [bind]. fold g. rewrite xdiv_fin by lra. reflexivity. }
  split; [exact Ed|]. split; [exact Em|]. split; [exact Ek|]. cbv zeta.
  replace (3 * (Y + Y / E) * eps) with (3 * (1 + E) * eps / g)
    by (assert (HYg : Y = E / g) by (rewrite <- Yv; field; lra); rewrite HYg; field; split; lra).
  set (s := 3 * (1 + E) * eps) in *. destruct O as (O1 & [O2 O3] & [O4 O5]).
  assert (Ig : 0 < / g) by (apply Rinv_0_lt_compat; lra). unfold Rdiv.
  split; [nra|]. split; [split; nra|]. split; [split; nra|].
  intros Hmp. assert (Pm : 0 < m) by nra.
  assert (Hs : s * / g * / (m * / g) = s * / m) by (field; split; lra). rewrite Hs.
  assert (Hne : m <> 0) by lra.
  destruct (shape_lem o b U N F x d m k Hx Hd Hm Hk Hne) as (H1 & H2 & _).
  exists (d / m), (k / m). split; [exact H1|]. split; [exact H2|].
  unfold Rdiv. assert (Im : 0 < / m) by (apply Rinv_0_lt_compat; lra).
  assert (Jm : m * / m = 1) by (field; lra). split; [|split].
  - assert (m * / m <= (d + s) * / m) by nra. nra.
  - assert (m * / m <= (k + s) * / m) by nra. nra.
  - assert (k * / m <= (2 * m + s) * / m) by nra. nra.
Qed.
End Order.
