(** The wall value of the Blasius boundary-value problem (C107). *)
From Coq Require Import Reals Lra.
From Coquelicot Require Import Coquelicot.
From Verif Require Import PyBase SimilarityModel BlasiusPoly BlasiusProofs BlasiusSpec BlasiusFlowProofs
  BlasiusExistProofs.
Open Scope R_scope.

Lemma solution_scaled w k F0 F1 F2 : 0 < k -> blasius_solution w F0 F1 F2 ->
  blasius_solution (k ^ 3 * w) (fun t => k * F0 (k * t)) (fun t => k ^ 2 * F1 (k * t)) (fun t => k ^ 3 * F2 (k * t)).
Proof.
  intros Hk (A & B & C & D). split; [rewrite Rmult_0_r, A; ring|]. split; [rewrite Rmult_0_r, B; ring|].
  split; [rewrite Rmult_0_r, C; ring|].
  intros t Ht. destruct (D (k * t) ltac:(nra)) as (D0 & D1 & D2).
  assert (ch : forall (c : R) (F : R -> R) (l : R), is_derive F (k * t) l ->
    is_derive (fun s => c * F (k * s)) t (c * (k * l))).
  { intros c F l H. apply (is_derive_scal (fun s => F (k * s)) t c).
    apply (is_derive_comp F (fun s => k * s) t); [exact H|]. auto_derive; [exact I|ring]. }
  split; [|split].
  - replace (k ^ 2 * F1 (k * t)) with (k * (k * F1 (k * t))) by ring. apply ch, D0.
  - replace (k ^ 3 * F2 (k * t)) with (k ^ 2 * (k * F2 (k * t))) by ring. apply ch, D1.
  - replace (- (k * F0 (k * t) * (k ^ 3 * F2 (k * t)))) with (k ^ 3 * (k * - (F0 (k * t) * F2 (k * t)))) by ring.
    apply ch, D2.
Qed.

Lemma tends_scaled k F l : 0 < k -> tends_to F l -> tends_to (fun t => k ^ 2 * F (k * t)) (k ^ 2 * l).
Proof.
  intros Hk H eps He. assert (K2 : 0 < k ^ 2) by (apply pow_lt, Hk).
  destruct (H (eps / k ^ 2)) as [T HT]; [apply Rdiv_lt_0_compat; assumption|].
  exists (T / k). intros t Ht.
  assert (X : T <= k * t).
  { apply (Rmult_le_compat_l k) in Ht; [|lra]. replace (k * (T / k)) with T in Ht by (field; lra). exact Ht. }
  specialize (HT _ X). replace (k ^ 2 * F (k * t) - k ^ 2 * l) with (k ^ 2 * (F (k * t) - l)) by ring.
  rewrite Rabs_mult, (Rabs_pos_eq (k ^ 2)) by lra.
  apply (Rmult_lt_compat_l (k ^ 2)) in HT; [|exact K2].
  replace (k ^ 2 * (eps / k ^ 2)) with eps in HT by (field; lra). exact HT.
Qed.

Lemma tends_unique F l m : tends_to F l -> tends_to F m -> l = m.
Proof.
  intros H G. destruct (Req_dec l m) as [E|N]; [exact E|exfalso].
  set (e := Rabs (l - m) / 2). assert (He : 0 < e) by (unfold e; assert (0 < Rabs (l - m)) by (apply Rabs_pos_lt; lra); lra).
  destruct (H e He) as [T1 H1]. destruct (G e He) as [T2 G1].
  specialize (H1 (Rmax T1 T2) (Rmax_l _ _)). specialize (G1 (Rmax T1 T2) (Rmax_r _ _)).
  assert (X : Rabs (l - m) <= Rabs (F (Rmax T1 T2) - l) + Rabs (F (Rmax T1 T2) - m)).
  { replace (l - m) with (- (F (Rmax T1 T2) - l) + (F (Rmax T1 T2) - m)) by ring.
    eapply Rle_trans; [apply Rabs_triang|]. rewrite Rabs_Ropp. lra. }
  unfold e in *. lra.
Qed.

(** Without a positive wall value f' never becomes positive. *)
Lemma wall_positive w F0 F1 F2 : blasius_solution w F0 F1 F2 -> tends_to F1 1 -> 0 < w.
Proof.
  intros (A & B & C & D) T. destruct (Rlt_or_le 0 w) as [H|H]; [exact H|exfalso].
  destruct (T (1 / 2) ltac:(lra)) as [b Hb].
  set (E := Rmax b 1). assert (HE : 0 < E) by (unfold E; pose proof (Rmax_r b 1); lra).
  specialize (Hb E (Rmax_l _ _)).
  destruct (running_integral F0 E ltac:(lra)) as (K & K0 & _ & KD).
  { intros t Ht. apply (ex_derive_continuous F0). exists (F1 t). apply D, Ht. }
  assert (neg : forall t, 0 <= t <= E -> F2 t <= 0).
  { intros t Ht. set (V := fun s => F2 s * exp (K s)).
    assert (DV : forall s, 0 <= s <= t -> is_derive V s 0).
    { intros s Hs. unfold V. destruct (D s (proj1 Hs)) as (_ & _ & D2). assert (DK := KD s ltac:(lra)).
      auto_derive; [split; [eexists; exact D2|split; [eexists; exact DK|exact I]]|].
      replace (Derive (fun x => F2 x) s) with (- (F0 s * F2 s)) by (symmetry; apply is_derive_unique, D2).
      replace (Derive (fun x => K x) s) with (F0 s) by (symmetry; apply is_derive_unique, DK). ring. }
    assert (L : V t <= V 0) by (apply (not_growing V (fun _ => 0) 0 t ltac:(lra) DV); intros; lra).
    unfold V in L. rewrite C, K0, exp_0 in L. pose proof (exp_pos (K t)). nra. }
  assert (L : F1 E <= F1 0).
  { apply (not_growing F1 F2 0 E ltac:(lra)); [intros t Ht; apply D, Ht|exact neg]. }
  rewrite B in L. apply Rabs_lt_between in Hb. lra.
Qed.

Lemma solution_unique w F0 F1 F2 G0 G1 G2 : 0 < w <= 1 ->
  blasius_solution w F0 F1 F2 -> blasius_solution w G0 G1 G2 -> forall t, 0 <= t -> F1 t = G1 t.
Proof.
  intros Hw (A0 & A1 & A2 & A) (B0 & B1 & B2 & B) t Ht.
  destruct (Req_dec t 0) as [->|N]; [congruence|].
  assert (Hp : 0 < t) by lra.
  assert (X := piece_error F0 F1 F2 t w Hp (proj1 Hw) A0 A1 A2
    (fun s Hs => proj1 (A s (proj1 Hs))) (fun s Hs => proj1 (proj2 (A s (proj1 Hs))))
    (fun s Hs => proj2 (proj2 (A s (proj1 Hs))))
    G0 G1 G2 (fun s => - (G0 s * G2 s)) 0 t 0 ltac:(lra)
    (fun s Hs => proj1 (B s (proj1 Hs))) (fun s Hs => proj1 (proj2 (B s (proj1 Hs))))
    (fun s Hs => proj2 (proj2 (B s (proj1 Hs))))).
  assert (Y : sq_err F0 F1 F2 G0 G1 G2 t * exp (-3 * t) <= 0).
  { eapply Rle_trans; [apply X|].
    - intros s Hs. replace (- (G0 s * G2 s) + G0 s * G2 s) with 0 by ring. rewrite Rabs_R0. lra.
    - intros s Hs.
      assert (P : 0 < G2 s).
      { apply (F2_pos G0 G1 G2 t w Hp (proj1 Hw) B2); [| |exact Hs]; intros r Hr; apply B, Hr. }
      assert (Q : G2 s <= w).
      { rewrite <- B2. apply (not_growing G2 (fun r => - (G0 r * G2 r)) 0 s ltac:(lra)).
        - intros r Hr. apply B, Hr.
        - intros r Hr. assert (Pr : 0 < G2 r).
          { apply (F2_pos G0 G1 G2 t w Hp (proj1 Hw) B2); [| |lra]; intros q Hq; apply B, Hq. }
          assert (Pf : 0 <= G0 r).
          { apply (F0_nonneg G0 G1 G2 t w Hp (proj1 Hw) B0 B1 B2); [| | |lra]; intros q Hq; apply B, Hq. }
          nra. }
      rewrite Rabs_pos_eq; lra.
    - unfold sq_err. rewrite A0, A1, A2, B0, B1, B2. right. ring. }
  assert (E := exp_pos (-3 * t)).
  unfold sq_err in Y.
  assert (Z0 := pow2_ge_0 (F0 t - G0 t)). assert (Z1 := pow2_ge_0 (F1 t - G1 t)).
  assert (Z2 := pow2_ge_0 (F2 t - G2 t)).
  assert (Z : (F1 t - G1 t) ^ 2 <= 0) by nra. nra.
Qed.

(** f' has a limit, close to 1 with the default wall value. *)
Lemma default_limit F0 F1 F2 : blasius_solution blasius_fw_pp F0 F1 F2 ->
  exists l, tends_to F1 l /\ 1 - 6 / 10 ^ 10 <= l <= 1 + 8 / 10 ^ 10.
Proof.
  intros (A0 & A1 & A2 & A). set (E := blasius_eta_inf) in *.
  assert (HE : 0 < E) by (unfold E, blasius_eta_inf; lra).
  assert (Hw : 0 < blasius_fw_pp) by (unfold blasius_fw_pp; lra).
  destruct (edge_numbers F0 F1 F2) as (N0 & N1 & N2).
  { refine (conj A0 (conj A1 (conj A2 (conj _ (conj _ _))))); intros t Ht; apply A, Ht. }
  fold E in N0, N1, N2.
  assert (P2 : forall t, 0 <= t -> 0 < F2 t).
  { intros t Ht. apply (F2_pos F0 F1 F2 (t + 1) blasius_fw_pp ltac:(lra) Hw A2); [| |lra]; intros r Hr; apply A, Hr. }
  assert (up : forall a b, 0 <= a <= b -> F1 a <= F1 b).
  { intros a b Hab. apply (F1_increasing F0 F1 F2 (b + 1) blasius_fw_pp ltac:(lra) Hw A2); [| | |lra|lra];
      intros r Hr; apply A, Hr. }
  assert (P1 : forall t, 0 <= t -> 0 <= F1 t) by (intros t Ht; rewrite <- A1; apply up; lra).
  assert (up0 : forall a b, 0 <= a <= b -> F0 a <= F0 b).
  { intros a b Hab. enough (- F0 b <= - F0 a) by lra.
    apply (not_growing (fun s => - F0 s) (fun s => - F1 s) a b ltac:(lra)).
    - intros s Hs. apply (is_derive_opp F0). apply A. lra.
    - intros s Hs. specialize (P1 s ltac:(lra)). lra. }
  set (M := F1 E + F2 E / F0 E).
  assert (F0E : 59 / 10 <= F0 E) by (unfold small in N0; lra).
  assert (MB : M <= 1 + 8 / 10 ^ 10).
  { unfold M. assert (X : F2 E / F0 E <= 13047 / 10 ^ 13).
    { apply (Rmult_le_reg_r (F0 E)); [lra|]. unfold Rdiv at 1. rewrite Rmult_assoc, Rinv_l, Rmult_1_r by lra.
      unfold small in *. nra. }
    unfold small in *. lra. }
  assert (bnd : forall t, E <= t -> F1 t <= M).
  { intros t Ht. set (V := fun s => F1 s + F2 s / F0 E).
    assert (L : V t <= V E).
    { apply (not_growing V (fun s => F2 s + - (F0 s * F2 s) / F0 E) E t Ht).
      - intros s Hs. unfold V. apply (is_derive_plus F1 (fun s => F2 s / F0 E)).
        + apply A. lra.
        + unfold Rdiv. apply (is_derive_ext (fun s => / F0 E * F2 s)); [intros r; apply Rmult_comm|].
          rewrite Rmult_comm. apply (is_derive_scal F2). apply A. lra.
      - intros s Hs. specialize (P2 s ltac:(lra)). specialize (up0 E s ltac:(lra)).
        replace (F2 s + - (F0 s * F2 s) / F0 E) with (- (F2 s * (F0 s - F0 E) / F0 E)) by (field; lra).
        assert (0 <= F2 s * (F0 s - F0 E) / F0 E); [|lra].
        apply Rmult_le_pos; [nra|]. left. apply Rinv_0_lt_compat. lra. }
    unfold V in L. fold M in L. specialize (P2 t ltac:(lra)).
    assert (0 <= F2 t / F0 E); [|lra]. apply Rmult_le_pos; [lra|]. left. apply Rinv_0_lt_compat. lra. }
  destruct (completeness (fun y => exists t, E <= t /\ y = F1 t)) as (l & Hu & Hl).
  - exists M. intros y (t & Ht & ->). apply bnd, Ht.
  - exists (F1 E), E. split; [lra|reflexivity].
  - exists l. split.
    + intros eps He.
      destruct (Classical_Prop.classic (exists T, E <= T /\ l - eps < F1 T)) as [(T & HT & HL)|N].
      * exists T. intros t Ht. assert (F1 t <= l) by (apply Hu; exists t; split; [lra|reflexivity]).
        specialize (up T t ltac:(lra)). apply Rabs_lt_between. lra.
      * exfalso. assert (l <= l - eps); [|lra]. apply Hl. intros y (t & Ht & ->).
        apply Rnot_lt_le. intros G. apply N. exists t. split; assumption.
    + split.
      * assert (F1 E <= l) by (apply Hu; exists E; split; [lra|reflexivity]). unfold small in *. lra.
      * apply Rle_trans with M; [|exact MB]. apply Hl. intros y (t & Ht & ->). apply bnd, Ht.
Qed.

Lemma wall_lemma : exists w, blasius_wall w /\ (forall v, blasius_wall v -> v = w) /\
  Rabs (blasius_fw_pp - w) < / 10 ^ 9.
Proof.
  set (d := blasius_fw_pp). assert (Hd : 0 < d <= 47 / 100) by (unfold d, blasius_fw_pp; lra).
  destruct (profile_exists d ltac:(lra)) as (F0 & F1 & F2 & SF).
  change (blasius_solution d F0 F1 F2) in SF.
  destruct (default_limit F0 F1 F2 SF) as (l & TL & HL).
  set (k := / sqrt l).
  assert (Hs : 0 < sqrt l) by (apply sqrt_lt_R0; lra).
  assert (Hk : 0 < k) by (apply Rinv_0_lt_compat, Hs).
  assert (Hk2 : k ^ 2 * l = 1).
  { unfold k. rewrite <- (sqrt_sqrt l) at 2 by lra. field. lra. }
  exists (k ^ 3 * d). split; [|split].
  - exists (fun t => k * F0 (k * t)), (fun t => k ^ 2 * F1 (k * t)), (fun t => k ^ 3 * F2 (k * t)).
    split; [apply solution_scaled; assumption|]. rewrite <- Hk2. apply tends_scaled; assumption.
  - intros v (G0 & G1 & G2 & SG & TG). assert (Hv := wall_positive _ _ _ _ SG TG).
    set (c := Rpower (d / v) (1 / 3)).
    assert (Hc : 0 < c) by apply exp_pos.
    assert (Hc3 : c ^ 3 * v = d).
    { unfold c. rewrite <- Rpower_pow by apply exp_pos. rewrite Rpower_mult.
      replace (1 / 3 * INR 3) with 1 by (simpl; field). rewrite Rpower_1 by (apply Rdiv_lt_0_compat; lra). field. lra. }
    assert (SH := solution_scaled v c G0 G1 G2 Hc SG). rewrite Hc3 in SH.
    assert (TH := tends_scaled c G1 1 Hc TG).
    assert (E : c ^ 2 * 1 = l).
    { apply (tends_unique F1); [|exact TL]. intros eps He. destruct (TH eps He) as [T HT].
      exists (Rmax T 0). intros t Ht. pose proof (Rmax_l T 0). pose proof (Rmax_r T 0).
      rewrite (solution_unique d F0 F1 F2 _ _ _ ltac:(lra) SF SH t ltac:(lra)). apply HT. lra. }
    assert (Ec : k = / c).
    { unfold k. f_equal. apply sqrt_lem_1; lra. }
    rewrite Ec, <- Hc3. field. lra.
  - (* k is within 4e-10 of 1 *)
    assert (K1 : 1 - 5 / 10 ^ 10 <= k <= 1 + 5 / 10 ^ 10).
    { split; apply Rnot_lt_le; intros G.
      - assert (k ^ 2 * l < 1); [|lra]. assert (k ^ 2 <= (1 - 5 / 10 ^ 10) ^ 2) by nra. nra.
      - assert (1 < k ^ 2 * l); [|lra]. assert ((1 + 5 / 10 ^ 10) ^ 2 <= k ^ 2) by nra. nra. }
    set (e := k - 1). assert (He : - (5 / 10 ^ 10) <= e <= 5 / 10 ^ 10) by (unfold e; lra).
    replace (d - k ^ 3 * d) with (- (d * (3 * e + 3 * e ^ 2 + e ^ 3))) by (unfold e; ring).
    clearbody e. rewrite Rabs_Ropp. apply Rabs_lt_between.
    assert (Q2 : 0 <= e ^ 2 <= / 10 ^ 15) by (split; [apply pow2_ge_0|nra]).
    assert (Q3 : - / 10 ^ 15 <= e ^ 3 <= / 10 ^ 15) by (replace (e ^ 3) with (e * e ^ 2) by ring; nra).
    split; nra.
Qed.
