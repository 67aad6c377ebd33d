(** Rounding errors relative to a scale, and of powers (C158). *)
From Coq Require Import Reals ZArith List Lra Lia Psatz.
From Flocq Require Import Core IEEE754.BinarySingleNaN.
From Interval Require Import Tactic.
From Verif Require Import PyBase FloatModel FloatSpec FloatFacts FloatProofs
  FloatThwaitesModel FloatThwaitesSpec FloatThwaitesProofs FloatFitsProofs FloatStanfordModel FloatStanfordSpec FloatStanfordProofs FloatHeadSpec.
Open Scope R_scope.

(** [x] differs from [z] by at most [k] units of 2^-53 relative to [s], which is at least as large as [z]. *)
Definition su (x : b64) (z s k : R) : Prop := is_number x /\ Rabs z <= s /\ Rabs (real_of x - z) <= k * uu * s.

Lemma su_units x z k : units x z k -> su x z (Rabs z) k.
Proof. intros [A B]. split; [exact A|]. split; [lra|]. exact B. Qed.
Lemma units_su x z k : 0 < z -> su x z z k -> units x z k.
Proof. intros P (A & _ & B). split; [exact A|]. rewrite (Rabs_pos_eq z) by lra. exact B. Qed.
Lemma su_pos x z k : 0 < z -> units x z k -> su x z z k.
Proof. intros P H. apply su_units in H. rewrite (Rabs_pos_eq z) in H by lra. exact H. Qed.
Lemma su_weaken x z s k k' : k <= k' -> su x z s k -> su x z s k'.
Proof.
  intros Hk (A & B & C). split; [exact A|]. split; [exact B|]. apply (Rle_trans _ _ _ C). destruct uu_small as [U _].
  assert (0 <= s) by (eapply Rle_trans; [apply Rabs_pos|exact B]). apply Rmult_le_compat_r; [lra|]. apply Rmult_le_compat_r; lra.
Qed.
Lemma su_within x z s k : su x z s k -> within x z (k / 2 ^ 53 * s).
Proof. intros (A & _ & C). split; [exact A|]. exact C. Qed.

Lemma su_round x p z s k : near x p -> lo9 <= s -> 0 <= k <= 3000 -> Rabs z <= s -> Rabs (p - z) <= k * uu * s -> su x z s (k + 101/100).
Proof.
  intros [A B] Hz Hk Zs P. split; [exact A|]. split; [exact Zs|]. destruct uu_small as [U0 U1].
  assert (Kp : 0 <= k * uu <= / 10 ^ 11) by nra.
  assert (Z0 := Rabs_pos z). assert (T := tiny_lo _ Hz).
  assert (P2 : Rabs p <= s + k * uu * s).
  { apply Rle_trans with (Rabs (p - z) + Rabs z); [|lra]. replace p with ((p - z) + z) at 1 by ring. apply Rabs_triang. }
  assert (M : uu * Rabs p <= uu * (s + k * uu * s)) by (apply Rmult_le_compat_l; lra).
  assert (S0 : 0 <= s) by lra.
  assert (M2 : uu * (s + k * uu * s) <= 1002 / 1000 * (uu * s)).
  { replace (uu * (s + k * uu * s)) with ((1 + k * uu) * (uu * s)) by ring. apply Rmult_le_compat_r; [nra|]. lra. }
  apply Rle_trans with (Rabs (real_of x - p) + Rabs (p - z)).
  { replace (real_of x - z) with ((real_of x - p) + (p - z)) by ring. apply Rabs_triang. }
  assert (0 <= uu * s) by nra.
  replace ((k + 101/100) * uu * s) with (k * uu * s + 101/100 * (uu * s)) by ring. lra.
Qed.

Lemma room_p p z s k : Rabs (p - z) <= k * uu * s -> 0 <= k <= 3000 -> Rabs z <= s -> s <= hi9 -> Rabs p <= huge.
Proof.
  intros P K Z H. destruct uu_small as [U0 U1]. apply Rle_trans with (2 * s); [|apply hi_huge, H].
  assert (S0 : 0 <= s) by (eapply Rle_trans; [apply Rabs_pos|exact Z]).
  apply Rle_trans with (Rabs (p - z) + Rabs z).
  - replace p with ((p - z) + z) at 1 by ring. apply Rabs_triang.
  - assert (k * uu <= 1) by nra. nra.
Qed.

Lemma su_mul x y a b s t j k n : su x a s j -> su y b t k -> 0 <= j <= 1000 -> 0 <= k <= 1000 -> btw n (s * t) -> (n <= 900)%nat ->
  su (x * y)%b64 (a * b) (s * t) (j + k + 102/100).
Proof.
  intros (A1 & A3 & A2) (B1 & B3 & B2) Hj Hk Z Hn. destruct uu_small as [U0 U1].
  assert (J : 0 <= j * uu <= / 10 ^ 11) by nra. assert (K : 0 <= k * uu <= / 10 ^ 11) by nra.
  apply (btw_room _ _) in Z; [|exact Hn]. destruct Z as [L H].
  assert (JK : 0 <= (j * uu) * (k * uu) <= 1/1000 * uu).
  { split; [apply Rmult_le_pos; lra|]. apply Rle_trans with ((j * uu) * / 10 ^ 11); [apply Rmult_le_compat_l; lra|]. nra. }
  assert (S0 : 0 <= s) by (eapply Rle_trans; [apply Rabs_pos|exact A3]).
  assert (T0 : 0 <= t) by (eapply Rle_trans; [apply Rabs_pos|exact B3]).
  assert (ST : 0 <= s * t) by nra.
  assert (AB : Rabs (a * b) <= s * t). { rewrite Rabs_mult. apply Rmult_le_compat; try apply Rabs_pos; assumption. }
  set (p := real_of x * real_of y).
  assert (P : Rabs (p - a * b) <= (j + k + 1/100) * uu * (s * t)).
  { replace (p - a * b) with ((real_of x - a) * (real_of y - b) + (a * (real_of y - b) + (real_of x - a) * b)) by (unfold p; ring).
    apply Rle_trans with (Rabs (real_of x - a) * Rabs (real_of y - b) + (Rabs a * Rabs (real_of y - b) + Rabs (real_of x - a) * Rabs b)).
    - rewrite <- !Rabs_mult. eapply Rle_trans; [apply Rabs_triang|]. apply Rplus_le_compat_l, Rabs_triang.
    - assert (PA := Rabs_pos a). assert (PB := Rabs_pos b). assert (PX := Rabs_pos (real_of x - a)). assert (PY := Rabs_pos (real_of y - b)).
      assert (X1 : Rabs (real_of x - a) * Rabs (real_of y - b) <= (j * uu * s) * (k * uu * t)) by (apply Rmult_le_compat; assumption).
      assert (X2 : Rabs a * Rabs (real_of y - b) <= s * (k * uu * t)) by (apply Rmult_le_compat; assumption).
      assert (X3 : Rabs (real_of x - a) * Rabs b <= j * uu * s * t) by (apply Rmult_le_compat; assumption).
      replace ((j + k + 1/100) * uu * (s * t)) with (1/100 * uu * (s * t) + (k * uu * (s * t) + j * uu * (s * t))) by ring.
      assert (X4 : (j * uu * s) * (k * uu * t) <= 1/100 * uu * (s * t)).
      { replace ((j * uu * s) * (k * uu * t)) with ((j * uu) * (k * uu) * (s * t)) by ring. apply Rmult_le_compat_r; lra. }
      lra. }
  assert (N : near (x * y)%b64 p).
  { apply mul_near; [exact A1|exact B1|]. fold p. apply (room_p _ _ _ _ P); [lra|exact AB|exact H]. }
  replace (j + k + 102/100) with ((j + k + 1/100) + 101/100) by lra.
  apply (su_round _ p); [exact N|exact L|lra|exact AB|exact P].
Qed.

Lemma su_div x y a b s j k n : su x a s j -> units y b k -> b <> 0 -> 0 <= j <= 1000 -> 0 <= k <= 1000 -> btw n (s / Rabs b) -> (n <= 900)%nat ->
  su (x / y)%b64 (a / b) (s / Rabs b) (j + k + 102/100).
Proof.
  intros (A1 & A3 & A2) [B1 B2] Nb Hj Hk Z Hn. destruct uu_small as [U0 U1]. change (/ 2 ^ 53) with uu in *. unfold Rdiv in B2. fold uu in B2.
  assert (J : 0 <= j * uu <= / 10 ^ 11) by nra. assert (K : 0 <= k * uu <= / 10 ^ 11) by nra.
  assert (Pb : 0 < Rabs b) by (apply Rabs_pos_lt; exact Nb).
  assert (Ylo : (1 - k * uu) * Rabs b <= Rabs (real_of y)).
  { pose proof (Rabs_triang_inv b (b - real_of y)) as T. replace (b - (b - real_of y)) with (real_of y) in T by ring.
    rewrite Rabs_minus_sym in B2. lra. }
  assert (Yp : 0 < Rabs (real_of y)) by nra.
  assert (Yn : real_of y <> 0) by (intros E; rewrite E, Rabs_R0 in Yp; lra).
  apply (btw_room _ _) in Z; [|exact Hn]. destruct Z as [L H].
  assert (S0 : 0 <= s) by (eapply Rle_trans; [apply Rabs_pos|exact A3]).
  set (w := s / Rabs b) in *. assert (Es : s = w * Rabs b) by (unfold w; field; lra).
  assert (W0 : 0 <= w). { unfold w. apply Rmult_le_pos; [exact S0|]. left. apply Rinv_0_lt_compat, Pb. }
  set (q := a / b) in *. assert (Ea : a = q * b) by (unfold q; field; exact Nb).
  assert (Q : Rabs q <= w).
  { unfold q, w, Rdiv. rewrite Rabs_mult, Rabs_inv. apply Rmult_le_compat_r; [|exact A3]. left. apply Rinv_0_lt_compat, Pb. }
  set (p := real_of x / real_of y).
  assert (P : Rabs (p - q) <= (j + k + 1/100) * uu * w).
  { apply Rmult_le_reg_r with (Rabs (real_of y)); [exact Yp|]. rewrite <- Rabs_mult.
    replace ((p - q) * real_of y) with ((real_of x - a) - q * (real_of y - b)) by (unfold p; rewrite Ea; field; exact Yn).
    apply Rle_trans with (Rabs (real_of x - a) + Rabs q * Rabs (real_of y - b)).
    { unfold Rminus at 1. eapply Rle_trans; [apply Rabs_triang|]. rewrite Rabs_Ropp, Rabs_mult. lra. }
    assert (X : Rabs q * Rabs (real_of y - b) <= w * (k * uu * Rabs b)) by (apply Rmult_le_compat; try apply Rabs_pos; assumption).
    rewrite Es in A2. apply Rle_trans with ((j + k) * uu * (w * Rabs b)); [lra|].
    apply Rle_trans with ((j + k + 1/100) * uu * w * ((1 - k * uu) * Rabs b)).
    - replace ((j + k + 1/100) * uu * w * ((1 - k * uu) * Rabs b)) with (((j + k + 1/100) * (1 - k * uu)) * uu * (w * Rabs b)) by ring.
      apply Rmult_le_compat_r; [nra|]. apply Rmult_le_compat_r; [lra|]. nra.
    - apply Rmult_le_compat_l; [|exact Ylo]. apply Rmult_le_pos; [|exact W0]. nra. }
  assert (N : near (x / y)%b64 p).
  { apply div_near; [exact A1|exact B1|exact Yn|]. fold p. apply (room_p _ _ _ _ P); [lra|exact Q|exact H]. }
  replace (j + k + 102/100) with ((j + k + 1/100) + 101/100) by lra.
  apply (su_round _ p); [exact N|exact L|lra|exact Q|exact P].
Qed.

Lemma su_sub x y a b s t k n : su x a s k -> su y b t k -> 0 <= k <= 1000 -> btw n (s + t) -> (n <= 900)%nat ->
  su (x - y)%b64 (a - b) (s + t) (k + 101/100).
Proof.
  intros (A1 & A3 & A2) (B1 & B3 & B2) Hk Z Hn. apply (btw_room _ _) in Z; [|exact Hn]. destruct Z as [L H].
  assert (AB : Rabs (a - b) <= s + t). { eapply Rle_trans; [apply Rabs_triang|]. rewrite Rabs_Ropp. lra. }
  assert (P : Rabs ((real_of x - real_of y) - (a - b)) <= k * uu * (s + t)).
  { replace (real_of x - real_of y - (a - b)) with ((real_of x - a) + - (real_of y - b)) by ring.
    eapply Rle_trans; [apply Rabs_triang|]. rewrite Rabs_Ropp. lra. }
  apply (su_round _ (real_of x - real_of y)); [|exact L|lra|exact AB|exact P].
  apply sub_near; [exact A1|exact B1|]. apply (room_p _ _ _ _ P); [lra|exact AB|exact H].
Qed.

(** Sums and differences without much cancellation. *)
Lemma un_sub x y a b j k m n : units x a j -> units y b k -> 0 <= m <= 1000 ->
  j * Rabs a + k * Rabs b <= m * Rabs (a - b) -> btw n (Rabs (a - b)) -> (n <= 900)%nat -> units (x - y)%b64 (a - b) (m + 101/100).
Proof.
  intros [A1 A2] [B1 B2] Hm Hs Z Hn. apply (btw_room _ _) in Z; [|exact Hn]. destruct Z as [L H]. destruct uu_small as [U0 _].
  change (/ 2 ^ 53) with uu in *. unfold Rdiv in A2, B2. fold uu in A2, B2.
  assert (P : Rabs ((real_of x - real_of y) - (a - b)) <= m * uu * Rabs (a - b)).
  { replace (real_of x - real_of y - (a - b)) with ((real_of x - a) + - (real_of y - b)) by ring.
    eapply Rle_trans; [apply Rabs_triang|]. rewrite Rabs_Ropp.
    apply Rle_trans with (uu * (j * Rabs a + k * Rabs b)); [lra|].
    replace (m * uu * Rabs (a - b)) with (uu * (m * Rabs (a - b))) by ring. apply Rmult_le_compat_l; lra. }
  apply (un_round _ (real_of x - real_of y)); [|exact L|lra|exact P].
  apply sub_near; [exact A1|exact B1|]. apply (room_p _ _ _ _ P); [lra|lra|exact H].
Qed.
Lemma un_add x y a b j k m n : units x a j -> units y b k -> 0 <= m <= 1000 ->
  j * Rabs a + k * Rabs b <= m * Rabs (a + b) -> btw n (Rabs (a + b)) -> (n <= 900)%nat -> units (x + y)%b64 (a + b) (m + 101/100).
Proof.
  intros [A1 A2] [B1 B2] Hm Hs Z Hn. apply (btw_room _ _) in Z; [|exact Hn]. destruct Z as [L H]. destruct uu_small as [U0 _].
  change (/ 2 ^ 53) with uu in *. unfold Rdiv in A2, B2. fold uu in A2, B2.
  assert (P : Rabs ((real_of x + real_of y) - (a + b)) <= m * uu * Rabs (a + b)).
  { replace (real_of x + real_of y - (a + b)) with ((real_of x - a) + (real_of y - b)) by ring.
    eapply Rle_trans; [apply Rabs_triang|].
    apply Rle_trans with (uu * (j * Rabs a + k * Rabs b)); [lra|].
    replace (m * uu * Rabs (a + b)) with (uu * (m * Rabs (a + b))) by ring. apply Rmult_le_compat_l; lra. }
  apply (un_round _ (real_of x + real_of y)); [|exact L|lra|exact P].
  apply add_near; [exact A1|exact B1|]. apply (room_p _ _ _ _ P); [lra|lra|exact H].
Qed.

(* ------------------------------------------------------------------ *)
(** * Powers *)

Lemma ln_near e : Rabs e <= / 10 ^ 10 -> Rabs (ln (1 + e)) <= 1001/1000 * Rabs e.
Proof.
  intros H. assert (B := Rabs_le_inv _ _ H). assert (P := Rabs_pos e). assert (E1 := Rle_abs e). assert (E2 := Rle_abs (- e)). rewrite Rabs_Ropp in E2.
  apply Rabs_le. split.
  - assert (T : ln (/ (1 + e)) <= / (1 + e) - 1).
    { assert (0 < / (1 + e)) by (apply Rinv_0_lt_compat; lra). rewrite <- (ln_exp (/ (1 + e) - 1)). apply Rcomplements.ln_le; [assumption|].
      pose proof (exp_ineq1_le (/ (1 + e) - 1)). lra. }
    rewrite ln_Rinv in T by lra. assert (/ (1 + e) - 1 <= 1001/1000 * Rabs e); [|lra].
    apply Rmult_le_reg_r with (1 + e); [lra|]. rewrite Rmult_minus_distr_r, Rinv_l by lra. nra.
  - apply Rle_trans with e; [|lra]. rewrite <- (ln_exp e) at 2. apply Rcomplements.ln_le; [lra|]. apply exp_ineq1_le.
Qed.
Lemma exp_near t : Rabs t <= / 10 ^ 10 -> Rabs (exp t - 1) <= 1001/1000 * Rabs t.
Proof.
  intros H. assert (B := Rabs_le_inv _ _ H). assert (P := Rabs_pos t). assert (E1 := Rle_abs t). assert (E2 := Rle_abs (- t)). rewrite Rabs_Ropp in E2.
  pose proof (exp_ineq1_le t). pose proof (exp_ineq1_le (- t)) as G. rewrite exp_Ropp in G. pose proof (exp_pos t).
  assert (exp t * (1 - t) <= 1). { apply Rmult_le_reg_l with (/ exp t); [apply Rinv_0_lt_compat; assumption|]. rewrite <- Rmult_assoc, Rinv_l by lra. lra. }
  apply Rabs_le. split; [lra|]. nra.
Qed.
Lemma ln_btw n a : btw n a -> Rabs (ln a) <= INR n.
Proof.
  intros H. pose proof (btw_pos _ _ H) as P. destruct H as [A B].
  assert (L2 : ln (2 ^ n) <= INR n).
  { rewrite <- Rpower_pow by lra. unfold Rpower. rewrite ln_exp. rewrite <- (Rmult_1_r (INR n)) at 2. apply Rmult_le_compat_l; [apply pos_INR|].
    rewrite <- (ln_exp 1). apply Rcomplements.ln_le; [lra|]. pose proof (exp_ineq1_le 1). lra. }
  assert (Q : 0 < 2 ^ n) by (apply pow_lt; lra). apply Rabs_le. split.
  - apply Ropp_le_cancel. rewrite Ropp_involutive. apply Rle_trans with (ln (2 ^ n)); [|exact L2].
    rewrite <- ln_Rinv by exact P. apply Rcomplements.ln_le; [apply Rinv_0_lt_compat, P|]. rewrite <- (Rinv_inv (2 ^ n)). apply Rinv_le_contravar; [apply Rinv_0_lt_compat, Q|exact A].
  - apply Rle_trans with (ln (2 ^ n)); [|exact L2]. apply Rcomplements.ln_le; assumption.
Qed.

Lemma pow_units pw x y a c j k n M : powers pw -> units x a j -> units y c k -> btw n a -> 0 < c <= 10 -> 0 <= j <= 1000 -> 0 <= k <= 1000 ->
  c * (k * INR n + 101/100 * j) <= M -> M <= 1000 -> c * INR n <= 100 -> units (pw x y) (Rpower a c) (101/100 * M + 202/100).
Proof.
  intros S X Y Bn Hc Hj Hk HM M1 HL. pose proof (btw_pos _ _ Bn) as Pa. assert (La := ln_btw n a Bn). destruct uu_small as [U0 U1].
  destruct X as [X1 X2]. destruct Y as [Y1 Y2]. change (/ 2 ^ 53) with uu in *. unfold Rdiv in X2, Y2. fold uu in X2, Y2.
  rewrite (Rabs_pos_eq a) in X2 by lra. rewrite (Rabs_pos_eq c) in Y2 by lra.
  assert (J : 0 <= j * uu <= / 10 ^ 11) by nra. assert (K : 0 <= k * uu <= / 10 ^ 11) by nra.
  set (e := real_of x / a - 1). assert (Ex : real_of x = a * (1 + e)) by (unfold e; field; lra).
  set (d := real_of y / c - 1). assert (Ey : real_of y = c * (1 + d)) by (unfold d; field; lra).
  assert (He : Rabs e <= j * uu).
  { apply Rmult_le_reg_r with a; [exact Pa|]. rewrite <- (Rabs_pos_eq a) at 1 by lra. rewrite <- Rabs_mult.
    replace (e * a) with (real_of x - a) by (rewrite Ex; ring). exact X2. }
  assert (Hd : Rabs d <= k * uu).
  { apply Rmult_le_reg_r with c; [lra|]. rewrite <- (Rabs_pos_eq c) at 1 by lra. rewrite <- Rabs_mult.
    replace (d * c) with (real_of y - c) by (rewrite Ey; ring). exact Y2. }
  assert (Be := Rabs_le_inv _ _ He). assert (Bd := Rabs_le_inv _ _ Hd).
  assert (Px : 0 < real_of x). { rewrite Ex. apply Rmult_lt_0_compat; lra. }
  assert (LX : ln (real_of x) = ln a + ln (1 + e)) by (rewrite Ex; apply ln_mult; lra).
  assert (Le : Rabs (ln (1 + e)) <= 1001/1000 * (j * uu)). { eapply Rle_trans; [apply ln_near; lra|]. lra. }
  set (t := real_of y * ln (real_of x) - c * ln a).
  assert (Ht : Rabs t <= M * uu).
  { unfold t. rewrite LX, Ey. replace (c * (1 + d) * (ln a + ln (1 + e)) - c * ln a) with (c * (d * ln a + (1 + d) * ln (1 + e))) by ring.
    rewrite Rabs_mult, (Rabs_pos_eq c) by lra. apply Rle_trans with (uu * (c * (k * INR n + 101/100 * j))); [|rewrite Rmult_comm; apply Rmult_le_compat_r; lra].
    replace (uu * (c * (k * INR n + 101/100 * j))) with (c * (k * uu * INR n + 101/100 * (j * uu))) by ring. apply Rmult_le_compat_l; [lra|].
    eapply Rle_trans; [apply Rabs_triang|]. rewrite !Rabs_mult. apply Rplus_le_compat.
    - apply Rmult_le_compat; try apply Rabs_pos; assumption.
    - rewrite (Rabs_pos_eq (1 + d)) by lra. apply Rle_trans with (1001/1000 * (1001/1000 * (j * uu))); [|lra].
      apply Rmult_le_compat; [lra|apply Rabs_pos|lra|exact Le]. }
  assert (M0 : 0 <= M). { pose proof (pos_INR n). eapply Rle_trans; [|exact HM]. apply Rmult_le_pos; [lra|]. assert (0 <= k * INR n) by (apply Rmult_le_pos; lra). lra. }
  assert (MU : 0 <= M * uu <= / 10 ^ 11) by nra.
  destruct (S x y X1 Y1 Px) as [R1 R2].
  { replace (real_of y * ln (real_of x)) with (c * ln a + t) by (unfold t; ring). eapply Rle_trans; [apply Rabs_triang|].
    rewrite Rabs_mult, (Rabs_pos_eq c) by lra. assert (c * Rabs (ln a) <= c * INR n) by (apply Rmult_le_compat_l; lra). lra. }
  assert (EP : Rpower (real_of x) (real_of y) = Rpower a c * exp t).
  { unfold Rpower. rewrite <- exp_plus. f_equal. unfold t. ring. }
  assert (Et : Rabs (exp t - 1) <= 1001/1000 * (M * uu)). { eapply Rle_trans; [apply exp_near; lra|]. lra. }
  rewrite EP in R2. set (E := Rpower a c) in *. assert (PE : 0 < E) by apply exp_pos. set (T := exp t) in *.
  assert (PT : 0 < T) by apply exp_pos. assert (BT := Rabs_le_inv _ _ Et).
  split; [exact R1|]. rewrite (Rabs_pos_eq E) by lra. unfold Rdiv. fold uu. unfold Rdiv in R2. fold uu in R2.
  rewrite (Rabs_pos_eq (E * T)) in R2 by nra.
  apply Rle_trans with (Rabs (real_of (pw x y) - E * T) + Rabs (E * (T - 1))).
  { replace (real_of (pw x y) - E) with ((real_of (pw x y) - E * T) + E * (T - 1)) by ring. apply Rabs_triang. }
  rewrite Rabs_mult, (Rabs_pos_eq E) by lra.
  assert (E * Rabs (T - 1) <= E * (1001/1000 * (M * uu))) by (apply Rmult_le_compat_l; lra).
  assert (2 * uu * (E * T) <= 2 * uu * (E * (1001/1000))). { apply Rmult_le_compat_l; [lra|]. apply Rmult_le_compat_l; lra. }
  assert (0 <= M * uu * E) by nra. assert (0 <= uu * E) by nra. lra.
Qed.

(** * A float nearest to a real number *)
Definition float_of (z : R) : b64 := @binary_normalize 53 1024 Hprec Hmax mode_NE
  (ZnearestE (scaled_mantissa radix2 (SpecFloat.fexp 53 1024) z)) (cexp radix2 (SpecFloat.fexp 53 1024) z) false.
Lemma float_of_near z : Rabs z <= huge -> near (float_of z) z.
Proof.
  intros H. pose proof (binary_normalize_correct 53 1024 Hprec Hmax mode_NE (ZnearestE (scaled_mantissa radix2 (SpecFloat.fexp 53 1024) z))
    (cexp radix2 (SpecFloat.fexp 53 1024) z) false) as C. fold (float_of z) in C. simpl round_mode in C.
  change (F2R {| Fnum := ZnearestE (scaled_mantissa radix2 (SpecFloat.fexp 53 1024) z); Fexp := cexp radix2 (SpecFloat.fexp 53 1024) z |}) with (rnd z) in C.
  assert (V : Valid_exp (SpecFloat.fexp 53 1024)) by (apply (fexp_correct 53 1024); exact Hprec).
  cbv zeta in C.
  assert (G : round radix2 (SpecFloat.fexp 53 1024) ZnearestE (rnd z) = rnd z).
  { apply round_generic; [typeclasses eauto|]. unfold rnd. apply generic_format_round; [exact V|typeclasses eauto]. }
  rewrite G in C.
  rewrite Rlt_bool_true in C by (apply rnd_fits, H). destruct C as (E & F & _).
  split; [exact F|]. unfold real_of. rewrite E. apply rnd_error.
Qed.
Lemma powers_example : powers (fun x y => float_of (Rpower (real_of x) (real_of y))).
Proof.
  intros x y _ _ _ H. set (z := Rpower (real_of x) (real_of y)).
  assert (B : btw 300 z).
  { unfold z, Rpower. apply Rabs_le_inv in H.
    set (w := real_of y * ln (real_of x)) in *. change (/ 2 ^ 300 <= exp w <= 2 ^ 300).
    assert (E : exp 200 <= 2 ^ 300) by interval. split.
    - apply Rle_trans with (exp (Ropp 200)); [|apply Raux.exp_le; lra]. rewrite exp_Ropp. apply Rinv_le_contravar; [apply exp_pos|exact E].
    - apply Rle_trans with (exp 200); [apply Raux.exp_le; lra|exact E]. }
  destruct (btw_room _ _ B ltac:(lia)) as [L U]. pose proof (btw_pos _ _ B) as P.
  assert (Az : Rabs z = z) by (apply Rabs_pos_eq; lra).
  assert (N : near (float_of z) z). { apply float_of_near. rewrite Az. pose proof (hi_huge z U). lra. }
  apply (un_weaken _ _ (0 + 101/100)); [lra|]. apply (un_round _ z); [exact N|rewrite Az; exact L|lra|].
  rewrite Rminus_eq_0, Rabs_R0. rewrite Rmult_0_l, Rmult_0_l. lra.
Qed.
