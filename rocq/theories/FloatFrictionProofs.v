(** Felsch's and White's skin friction in binary64 (C172). *)
From Coq Require Import Reals ZArith List Lra Lia Psatz.
From Flocq Require Import Core IEEE754.BinarySingleNaN.
From Interval Require Import Tactic.
From Verif Require Import PyBase PyBaseFacts SkinFrictionModel SkinFrictionProofs FloatModel FloatSpec FloatFacts FloatProofs FloatXFoilModel FloatXFoilProofs
  FloatThwaitesModel FloatThwaitesSpec FloatThwaitesProofs FloatFitsProofs FloatStanfordModel FloatStanfordSpec FloatStanfordProofs
  FloatHeadModel FloatHeadSpec FloatScaleProofs FloatHeadProofs FloatFrictionModel FloatFrictionSpec.
Open Scope R_scope.

Lemma w_sep : units b_sep (29986313485/10000000000) 1. Proof. ulit b_sep 6752317511863044%positive (-51)%Z. Qed.
Lemma w_1_95 : units b_1_95 (195/100) 1. Proof. ulit b_1_95 8782019273372467%positive (-52)%Z. Qed.
Lemma w_0_058 : units b_0_058 (58/1000) 1. Proof. ulit b_0_058 8358680908399641%positive (-57)%Z. Qed.
Lemma w_0_93 : units b_0_93 (93/100) 1. Proof. ulit b_0_93 8376695306909123%positive (-53)%Z. Qed.
Lemma w_1_705 : units b_1_705 (1705/1000) 1. Proof. ulit b_1_705 7678637364666696%positive (-52)%Z. Qed.
Lemma w_0_3 : units b_0_3 (3/10) 1. Proof. ulit b_0_3 5404319552844595%positive (-54)%Z. Qed.
Lemma w_1_74 : units b_1_74 (174/100) 1. Proof. ulit b_1_74 7836263351624663%positive (-52)%Z. Qed.
Lemma w_0_31 : units b_0_31 (31/100) 1. Proof. ulit b_0_31 5584463537939415%positive (-54)%Z. Qed.
Definition b_1_33 : b64 := @B754_finite 53 1024 false 5989787504402760 (-52) eq_refl.
Lemma w_1_33 : units b_1_33 (133/100) 1. Proof. ulit b_1_33 5989787504402760%positive (-52)%Z. Qed.
Lemma w_m1_33 : units b_m1_33 (- (133/100)) 1.
Proof. change b_m1_33 with (- b_1_33)%b64. apply opp_units, w_1_33. Qed.

(* ------------------------------------------------------------------ *)
(** * Felsch *)
Definition sepR : R := 29986313485/10000000000.
Definition clipR (h : R) : R := Rmin (Rmax h 1) sepR.
Lemma clipR_range h : 1 <= clipR h <= sepR.
Proof. unfold clipR, sepR. split; [apply Rmin_glb; [apply Rmax_r|lra]|apply Rmin_r]. Qed.

Lemma clip_close h : is_number h -> is_number (clip64 h b_1 b_sep) /\ 1 <= real_of (clip64 h b_1 b_sep) <= 3 /\
  Rabs (real_of (clip64 h b_1 b_sep) - clipR (real_of h)) <= 3 * uu.
Proof.
  intros N. destruct (literal 4503599627370496 (-52) eq_refl) as [A1 A2]. fold b_1 in A1, A2.
  assert (E1 : real_of b_1 = 1) by (rewrite A2; simpl; lra). destruct w_sep as [S1 S2].
  fold sepR in S2. change (1 / 2 ^ 53) with (1 * uu) in S2. destruct uu_small as [U0 U1].
  assert (Ps : 299/100 <= sepR <= 2999/1000) by (unfold sepR; lra). rewrite (Rabs_pos_eq sepR) in S2 by lra.
  assert (B := Rabs_le_inv _ _ S2). unfold clip64, clipR. rewrite !flt_number, E1 by assumption.
  destruct (Rlt_or_le (real_of h) 1) as [H|H].
  - rewrite Rlt_bool_true by lra. rewrite E1, Rmax_right, Rmin_left, Rminus_eq_0, Rabs_R0 by lra. split; [exact A1|lra].
  - rewrite Rlt_bool_false by lra. rewrite Rmax_left by lra. destruct (Rlt_or_le (real_of b_sep) (real_of h)) as [K|K].
    + rewrite Rlt_bool_true by lra. split; [exact S1|]. split; [nra|].
      destruct (Rle_or_lt (real_of h) sepR) as [L|L].
      * rewrite Rmin_left by lra. apply Rabs_le. nra.
      * rewrite Rmin_right by lra. apply Rabs_le. nra.
    + rewrite Rlt_bool_false by lra. split; [exact N|]. split; [nra|].
      destruct (Rle_or_lt (real_of h) sepR) as [L|L].
      * rewrite Rmin_left, Rminus_eq_0, Rabs_R0 by lra. lra.
      * rewrite Rmin_right by lra. apply Rabs_le. nra.
Qed.

Lemma ln_lip a b : 1 <= a -> 1 <= b -> Rabs (ln a - ln b) <= Rabs (a - b).
Proof.
  assert (G : forall a b, 1 <= a -> a <= b -> ln b - ln a <= b - a).
  { intros x y Hx Hy. assert (Q : 0 < y / x) by (apply Rdiv_lt_0_compat; lra).
    replace (ln y) with (ln (x * (y / x))) by (f_equal; field; lra). rewrite ln_mult by lra.
    replace (ln x + ln (y / x) - ln x) with (ln (y / x)) by ring.
    apply Rle_trans with (y / x - 1).
    - apply Rle_trans with (ln (exp (y / x - 1))); [|rewrite ln_exp; lra].
      destruct (exp_ineq1_le (y / x - 1)) as [K|K]; [left; apply ln_increasing; lra|rewrite <- K; right; f_equal; ring].
    - replace (y / x - 1) with ((y - x) / x) by (field; lra). apply Rmult_le_reg_r with x; [lra|].
      unfold Rdiv. rewrite Rmult_assoc, Rinv_l, Rmult_1_r by lra. nra. }
  intros Ha Hb. assert (M : forall x y, 1 <= x -> x <= y -> ln x <= ln y).
  { intros x y Hx [Hy|Hy]; [left; apply ln_increasing; lra|rewrite Hy; lra]. }
  destruct (Rle_or_lt a b) as [H|H].
  - rewrite Rabs_minus_sym, (Rabs_minus_sym a b), !Rabs_pos_eq; [apply G; assumption|lra|pose proof (M a b Ha H); lra].
  - rewrite !Rabs_pos_eq; [apply G; lra|lra|pose proof (M b a Hb ltac:(lra)); lra].
Qed.
Lemma ln10_big : 23/10 <= ln 10. Proof. interval. Qed.

Lemma felsch_log lg h : logarithms lg -> is_number h -> let c := clip64 h b_1 b_sep in
  is_number (lg c) /\ Rabs (real_of (lg c) - ln (clipR (real_of h)) / ln 10) <= 23/10 * uu.
Proof.
  intros S N c. destruct (clip_close h N) as (C1 & C2 & C3). fold c in C1, C2, C3. destruct uu_small as [U0 U1].
  destruct (S c C1 ltac:(lra)) as [L1 L2]. change (2 / 2 ^ 53) with (2 * uu) in L2. split; [exact L1|].
  pose proof ln10_big as T. destruct (clipR_range (real_of h)) as [R1 R2]. set (z := clipR (real_of h)) in *.
  assert (D : Rabs (ln (real_of c) / ln 10 - ln z / ln 10) <= 131/100 * uu).
  { replace (ln (real_of c) / ln 10 - ln z / ln 10) with ((ln (real_of c) - ln z) / ln 10) by (field; lra).
    rewrite abs_quot by lra. apply quot_le; [lra|]. apply Rle_trans with (3 * uu); [|nra].
    eapply Rle_trans; [apply ln_lip; lra|exact C3]. }
  assert (Q : Rabs (ln (real_of c) / ln 10) <= 48/100).
  { assert (L3 : ln 3 / ln 10 <= 48/100) by interval. assert (0 <= ln (real_of c)) by (rewrite <- ln_1; destruct (proj1 C2) as [K|K]; [left; apply ln_increasing; lra|rewrite <- K; lra]).
    assert (ln (real_of c) <= ln 3) by (destruct (proj2 C2) as [K|K]; [left; apply ln_increasing; lra|rewrite K; lra]).
    rewrite abs_quot, Rabs_pos_eq by lra. apply Rle_trans with (ln 3 / ln 10); [|exact L3].
    apply Rmult_le_compat_r; [left; apply Rinv_0_lt_compat; lra|lra]. }
  assert (X : 2 * uu * Rabs (ln (real_of c) / ln 10) <= 2 * uu * (48/100)) by (apply Rmult_le_compat_l; lra).
  apply Rle_trans with (Rabs (real_of (lg c) - ln (real_of c) / ln 10) + Rabs (ln (real_of c) / ln 10 - ln z / ln 10)).
  { eapply Rle_trans; [|apply Rabs_triang]. right. f_equal. ring. }
  lra.
Qed.

Lemma felsch_log_range h : 0 <= ln (clipR h) / ln 10 <= 4769231/10000000.
Proof.
  destruct (clipR_range h) as [A B]. pose proof ln10_big as T. split.
  - apply Rmult_le_pos; [|left; apply Rinv_0_lt_compat; lra]. rewrite <- ln_1. destruct A as [A|A]; [left; apply ln_increasing; lra|rewrite <- A; lra].
  - apply Rle_trans with (ln sepR / ln 10).
    + apply Rmult_le_compat_r; [left; apply Rinv_0_lt_compat; lra|]. destruct B as [B|B]; [left; apply ln_increasing; lra|rewrite B; lra].
    + unfold sepR. interval.
Qed.

Lemma felsch_base_close lg h : logarithms lg -> is_number h ->
  within (felsch_base64 lg h) (felsch_number (real_of h)) (10 / 2 ^ 53).
Proof.
  intros S N. destruct (felsch_log lg h S N) as [A B]. cbv zeta in A, B. unfold felsch_base64.
  set (c := lg (clip64 h b_1 b_sep)) in *. unfold felsch_number. fold sepR. fold (clipR (real_of h)).
  pose proof (felsch_log_range (real_of h)) as Z. set (z := ln (clipR (real_of h)) / ln 10) in *.
  destruct uu_small as [U0 U1]. change (10 / 2 ^ 53) with (10 * uu). pose proof tiny_uu as TU.
  destruct w_1_95 as [D1 D2]. destruct w_0_93 as [F1 F2]. change (1 / 2 ^ 53) with (1 * uu) in D2, F2.
  rewrite (Rabs_pos_eq (195/100)) in D2 by lra. rewrite (Rabs_pos_eq (93/100)) in F2 by lra.
  set (q := real_of b_1_95) in *. set (v := real_of c) in *.
  assert (P : Rabs (q * v - 195/100 * z) <= 552/100 * uu).
  { replace (q * v - 195/100 * z) with ((q - 195/100) * z + q * (v - z)) by ring. eapply Rle_trans; [apply Rabs_triang|]. rewrite !Rabs_mult.
    rewrite (Rabs_pos_eq z) by lra. assert (Qb := Rabs_le_inv _ _ D2). rewrite (Rabs_pos_eq q) by nra.
    assert (X1 : Rabs (q - 195/100) * z <= (1 * uu * (195/100)) * (48/100)) by (apply Rmult_le_compat; try apply Rabs_pos; lra).
    assert (X2 : q * Rabs (v - z) <= (1951/1000) * (23/10 * uu)) by (apply Rmult_le_compat; try apply Rabs_pos; nra).
    lra. }
  assert (Bp := Rabs_le_inv _ _ P).
  assert (Hp : Rabs (q * v) <= 94/100) by (apply Rabs_le; nra).
  assert (Hh : 10 <= huge) by (unfold huge; apply Rle_trans with (2 ^ 4); [simpl; lra|apply Rle_pow; [lra|lia]]).
  destruct (mul_near b_1_95 c D1 A) as [M1 M2]; [fold q v; lra|]. fold q v in M2.
  set (p := real_of (b_1_95 * c)%b64) in *. assert (Bm := Rabs_le_inv _ _ M2).
  assert (uu * Rabs (q * v) <= uu * (94/100)) by (apply Rmult_le_compat_l; lra).
  assert (P2 : - (65/10 * uu) <= p - 195/100 * z <= 65/10 * uu) by lra.
  set (g := real_of b_0_93) in *. assert (Bg := Rabs_le_inv _ _ F2).
  destruct (sub_near b_0_93 (b_1_95 * c)%b64 F1 M1) as [G1 G2].
  { fold g p. apply Rabs_le. nra. }
  fold g p in G2. assert (Rabs (g - p) <= 94/100) by (apply Rabs_le; nra).
  assert (uu * Rabs (g - p) <= uu * (94/100)) by (apply Rmult_le_compat_l; lra). assert (Bs := Rabs_le_inv _ _ G2).
  split; [exact G1|]. apply Rabs_le. lra.
Qed.

Lemma felsch_number_range h : 2/10^11 <= felsch_number h <= 93/100.
Proof.
  unfold felsch_number. fold sepR. fold (clipR h). pose proof (felsch_log_range h) as [A _].
  split; [|lra]. destruct (clipR_range h) as [P B]. pose proof ln10_big as T.
  apply Rle_trans with (93/100 - 195/100 * (ln sepR / ln 10)); [unfold sepR; interval with (i_prec 80)|].
  apply Rplus_le_compat_l, Ropp_le_contravar, Rmult_le_compat_l; [lra|].
  apply Rmult_le_compat_r; [left; apply Rinv_0_lt_compat; lra|]. destruct B as [B|B]; [left; apply ln_increasing; lra|rewrite B; lra].
Qed.

Lemma felsch_from pw re x b j : powers pw -> is_number re -> btw 40 (real_of re) -> units x b j -> 0 <= j <= 400 -> btw 37 b ->
  units (b_0_058 * pw x b_1_705 / pw re b_0_268)%b64 (felsch_friction (real_of re) b) (175/100 * j + 95).
Proof.
  intros S N Br X Hj Bb. set (a := real_of re) in *. unfold felsch_friction.
  assert (B1 : btw (64 + 64) (Rpower b (1705/1000))) by (apply (rpow_btw 37); [exact Bb|lra|simpl; lra]).
  assert (B2 : btw (11 + 11) (Rpower a (268/1000))) by (apply (rpow_btw 40); [exact Br|lra|simpl; lra]).
  assert (Xr : units re a 0) by (apply exact; [exact N|reflexivity]).
  assert (P1 := pow_units pw x b_1_705 b (1705/1000) j 1 37 (1705/1000 * (1 * INR 37 + 101/100 * j)) S X w_1_705 Bb ltac:(lra) ltac:(lra) ltac:(lra) ltac:(lra) ltac:(simpl; lra) ltac:(simpl; lra)).
  assert (P2 := pow_units pw re b_0_268 a (268/1000) 0 1 40 11 S Xr v_268 Br ltac:(lra) ltac:(lra) ltac:(lra) ltac:(simpl; lra) ltac:(lra) ltac:(simpl; lra)).
  assert (BM : btw (5 + (64 + 64)) (58/1000 * Rpower b (1705/1000))) by (apply btw_mul; [bt|exact B1]).
  assert (M := un_mul _ _ _ _ _ _ _ w_0_058 P1 ltac:(lra) ltac:(simpl; lra) (zb_btw _ _ BM) ltac:(lia)).
  assert (BD := btw_div _ _ _ _ BM B2).
  assert (D := un_div _ _ _ _ _ _ _ M P2 (btw_pos _ _ B2) ltac:(simpl; lra) ltac:(lra) (zb_btw _ _ BD) ltac:(lia)).
  apply (un_weaken _ _ _ _ ) with (2 := D). simpl. lra.
Qed.

Lemma felsch64_ok pw lg re h : powers pw -> logarithms lg -> is_number re -> is_number h -> / 2 ^ 40 <= real_of re <= 2 ^ 40 ->
  exists b, Rabs (b - felsch_number (real_of h)) <= 10 / 2 ^ 53 /\ 1 / 10 ^ 11 <= b <= 1 /\
    units (felsch64 pw lg re h) (felsch_friction (real_of re) b) 95.
Proof.
  intros S L N1 N2 Br. destruct (felsch_base_close lg h L N2) as [A B]. pose proof (felsch_number_range (real_of h)) as G.
  exists (real_of (felsch_base64 lg h)). split; [exact B|]. set (b := real_of (felsch_base64 lg h)) in *.
  assert (Bb := Rabs_le_inv _ _ B).
  assert (Hb : 1 / 10 ^ 11 <= b <= 1). { change (10 / 2 ^ 53) with (10 * uu) in Bb. destruct uu_small as [U0 U1]. assert (U2 : 10 * uu <= 1 / 10 ^ 11) by (apply Rle_trans with (10 * / 10 ^ 15); [lra|simpl; lra]).
    assert (2 / 10 ^ 11 = 1 / 10 ^ 11 + 1 / 10 ^ 11) by (simpl; lra). assert (1 / 10 ^ 11 <= 1 / 100) by (simpl; lra). lra. }
  split; [exact Hb|]. apply (un_weaken _ _ (175/100 * 0 + 95)); [lra|]. unfold felsch64.
  apply felsch_from; [exact S|exact N1|exact Br|apply exact; [exact A|reflexivity]|lra|].
  unfold btw. split; [|apply Rle_trans with 1; [lra|apply two_ge_1]]. apply Rle_trans with (1 / 10 ^ 11); [simpl; lra|lra].
Qed.

Lemma felsch64_away pw lg re h : powers pw -> logarithms lg -> is_number re -> is_number h -> / 2 ^ 40 <= real_of re <= 2 ^ 40 ->
  real_of h <= 29/10 -> units (felsch64 pw lg re h) (felsch_friction (real_of re) (felsch_number (real_of h))) 750.
Proof.
  intros S L N1 N2 Br Hh. destruct (felsch_base_close lg h L N2) as [A B]. pose proof (felsch_number_range (real_of h)) as [_ G].
  assert (Lo : 282/10000 <= felsch_number (real_of h)).
  { unfold felsch_number. fold sepR. fold (clipR (real_of h)). pose proof ln10_big as T.
    assert (C : clipR (real_of h) <= 29/10). { unfold clipR. eapply Rle_trans; [apply Rmin_l|]. apply Rmax_lub; lra. }
    destruct (clipR_range (real_of h)) as [P _].
    apply Rle_trans with (93/100 - 195/100 * (ln (29/10) / ln 10)); [interval|].
    apply Rplus_le_compat_l, Ropp_le_contravar, Rmult_le_compat_l; [lra|].
    apply Rmult_le_compat_r; [left; apply Rinv_0_lt_compat; lra|]. destruct C as [C|C]; [left; apply ln_increasing; lra|rewrite C; lra]. }
  set (b := felsch_number (real_of h)) in *.
  apply (un_weaken _ _ (175/100 * 360 + 95)); [lra|]. unfold felsch64.
  apply felsch_from; [exact S|exact N1|exact Br| |lra|unfold btw; simpl; lra].
  split; [exact A|]. rewrite (Rabs_pos_eq b) by lra. eapply Rle_trans; [exact B|]. unfold Rdiv. fold uu. destruct uu_small. nra.
Qed.

(* ------------------------------------------------------------------ *)
(** * White *)
Lemma exp_units ex x b k B : exponentials ex -> units x b k -> Rabs b <= B -> B <= 100 -> 0 <= k <= 10 ->
  units (ex x) (exp b) (101/100 * (k * B) + 202/100).
Proof.
  intros S [X1 X2] Hb HB Hk. destruct uu_small as [U0 U1]. unfold Rdiv in X2. fold uu in X2.
  set (t := real_of x - b) in *. assert (Pb := Rabs_pos b).
  assert (Ht : Rabs t <= k * B * uu).
  { eapply Rle_trans; [exact X2|]. replace (k * B * uu) with (k * uu * B) by ring. apply Rmult_le_compat_l; [nra|exact Hb]. }
  assert (KB : 0 <= k * B <= 1000) by nra. assert (MU : 0 <= k * B * uu <= / 10 ^ 11) by nra.
  assert (Ex : real_of x = b + t) by (unfold t; ring).
  destruct (S x X1) as [R1 R2]. { rewrite Ex. eapply Rle_trans; [apply Rabs_triang|]. lra. }
  rewrite Ex, exp_plus in R2. unfold Rdiv in R2. fold uu in R2. split; [exact R1|]. unfold Rdiv. fold uu.
  assert (Et : Rabs (exp t - 1) <= 1001/1000 * (k * B * uu)). { eapply Rle_trans; [apply exp_near; lra|]. lra. }
  set (E := exp b) in *. assert (PE : 0 < E) by apply exp_pos. set (T := exp t) in *. assert (PT : 0 < T) by apply exp_pos.
  assert (BT := Rabs_le_inv _ _ Et). rewrite (Rabs_pos_eq (E * T)) in R2 by nra. rewrite (Rabs_pos_eq E) by lra.
  apply Rle_trans with (Rabs (real_of (ex x) - E * T) + Rabs (E * (T - 1))).
  { replace (real_of (ex x) - E) with ((real_of (ex x) - E * T) + E * (T - 1)) by ring. apply Rabs_triang. }
  rewrite Rabs_mult, (Rabs_pos_eq E) by lra.
  assert (E * Rabs (T - 1) <= E * (1001/1000 * (k * B * uu))) by (apply Rmult_le_compat_l; lra).
  assert (2 * uu * (E * T) <= 2 * uu * (E * (1001/1000))). { apply Rmult_le_compat_l; [lra|]. apply Rmult_le_compat_l; lra. }
  assert (0 <= k * B * uu * E) by nra. assert (0 <= uu * E) by nra. lra.
Qed.

Lemma white64_ok pw lg ex re h : powers pw -> logarithms lg -> exponentials ex -> is_number re -> is_number h ->
  2 <= real_of re <= 2 ^ 40 -> 1 <= real_of h <= 4 -> units (white64 pw lg ex re h) (white_friction (real_of re) (real_of h)) 110.
Proof.
  intros S L X N1 N2 Hr Hh. set (a := real_of re) in *. set (z := real_of h) in *. unfold white64, white_friction.
  assert (Xh : units h z 0) by (apply exact; [exact N2|reflexivity]).
  assert (Lg : units (lg re) (ln a / ln 10) 2) by (apply L; [exact N1|]; fold a; split; [lra|]; apply Rle_trans with (2 ^ 40); [lra|apply Rle_pow; [lra|lia]]).
  pose proof ln10_big as T.
  assert (Bl : btw 4 (ln a / ln 10)).
  { assert (G1 : / 16 <= ln 2 / ln 10) by interval. assert (G2 : ln (2 ^ 40) / ln 10 <= 16) by interval.
    assert (ln 2 <= ln a) by (destruct (proj1 Hr) as [K|K]; [left; apply ln_increasing; lra|rewrite <- K; lra]).
    assert (ln a <= ln (2 ^ 40)) by (destruct (proj2 Hr) as [K|K]; [left; apply ln_increasing; lra|rewrite K; lra]).
    assert (I : 0 <= / ln 10) by (left; apply Rinv_0_lt_compat; lra). unfold btw. replace (2 ^ 4) with 16 by (simpl; lra). split.
    - eapply Rle_trans; [exact G1|]. apply Rmult_le_compat_r; assumption.
    - eapply Rle_trans; [|exact G2]. apply Rmult_le_compat_r; assumption. }
  assert (M1 : units (b_m1_33 * h)%b64 (- (133/100) * z) (1 + 0 + 102/100)).
  { apply (un_mul _ _ _ _ _ _ 3); [exact w_m1_33|exact Xh|lra|lra|apply zb_neg; bt|lia]. }
  assert (E1 := exp_units ex _ _ _ 6 X M1 ltac:(apply Rabs_le; lra) ltac:(lra) ltac:(lra)).
  assert (BE : btw (6 + 6) (exp (- (133/100) * z))) by (apply exp_btw; apply Rabs_le; simpl; lra).
  assert (BN : btw (2 + (6 + 6)) (3/10 * exp (- (133/100) * z))) by (apply btw_mul; [bt|exact BE]).
  assert (Nm := un_mul _ _ _ _ _ _ _ w_0_3 E1 ltac:(lra) ltac:(lra) (zb_btw _ _ BN) ltac:(lia)).
  assert (M2 : units (b_0_31 * h)%b64 (31/100 * z) (1 + 0 + 102/100)).
  { apply (un_mul _ _ _ _ _ _ 2); [exact w_0_31|exact Xh|lra|lra|apply zb_btw; bt|lia]. }
  assert (A1 : units (b_1_74 + b_0_31 * h)%b64 (174/100 + 31/100 * z) (203/100 + 101/100)).
  { apply (un_add _ _ _ _ _ _ _ 2) with (1 := w_1_74) (2 := M2); [lra| |rewrite Rabs_pos_eq by lra; bt|lia].
    rewrite !Rabs_pos_eq by lra. lra. }
  assert (P := pow_units pw (lg re) (b_1_74 + b_0_31 * h)%b64 (ln a / ln 10) (174/100 + 31/100 * z) 2 _ 4 43 S Lg A1 Bl ltac:(lra) ltac:(lra) ltac:(lra) ltac:(simpl; nra) ltac:(lra) ltac:(simpl; lra)).
  assert (BP : btw (12 + 12) (Rpower (ln a / ln 10) (174/100 + 31/100 * z))) by (apply (rpow_btw 4); [exact Bl|lra|simpl; lra]).
  assert (BD := btw_div _ _ _ _ BN BP).
  assert (D := un_div _ _ _ _ _ _ _ Nm P (btw_pos _ _ BP) ltac:(lra) ltac:(lra) (zb_btw _ _ BD) ltac:(lia)).
  apply (un_weaken _ _ _ _) with (2 := D). lra.
Qed.

(* ------------------------------------------------------------------ *)
(** * The exact model, and functions as assumed *)
Lemma felsch_exact re h : 0 < re -> felsch (Fin re) (Fin h) = Fin (felsch_friction re (felsch_number h)).
Proof. intros H. rewrite felsch_eval by exact H. reflexivity. Qed.
Lemma white_exact re h : 1 < re -> white (Fin re) (Fin h) = Fin (white_friction re h).
Proof. intros H. rewrite white_eval by exact H. reflexivity. Qed.

Lemma felsch64_positive pw lg re h : powers pw -> logarithms lg -> is_number re -> is_number h -> / 2 ^ 40 <= real_of re <= 2 ^ 40 ->
  is_number (felsch64 pw lg re h) /\ 0 < real_of (felsch64 pw lg re h).
Proof.
  intros S L A B C. destruct (felsch64_ok pw lg re h S L A B C) as (b & _ & _ & N & E). split; [exact N|].
  assert (P : 0 < felsch_friction (real_of re) b).
  { unfold felsch_friction. apply Rdiv_lt_0_compat; [|apply exp_pos]. apply Rmult_lt_0_compat; [lra|apply exp_pos]. }
  rewrite (Rabs_pos_eq (felsch_friction _ _)) in E by lra. change (95 / 2 ^ 53) with (95 * uu) in E. destruct uu_small as [U0 U1].
  assert (Eb := Rabs_le_inv _ _ E). assert (95 * uu <= 1/2). { simpl in U1. lra. } nra.
Qed.

Lemma above_one x : is_number x -> 1 < real_of x -> 1 + / 2 ^ 52 <= real_of x.
Proof.
  intros N L. destruct (Rle_or_lt 2 (real_of x)) as [G2|G2].
  { apply Rle_trans with 2; [|exact G2]. simpl. lra. }
  assert (G : generic_format radix2 (SpecFloat.fexp 53 1024) (real_of x)) by (apply generic_format_B2R).
  unfold generic_format, F2R in G. cbn [Fnum Fexp] in G.
  assert (Mg : mag radix2 (real_of x) = 1%Z :> Z).
  { apply mag_unique. rewrite Rabs_pos_eq by lra. simpl. split; lra. }
  unfold cexp in G. rewrite Mg in G. change (SpecFloat.fexp 53 1024 1) with (-52)%Z in G.
  set (k := Ztrunc _) in G. change (bpow radix2 (-52)) with (/ 4503599627370496) in G.
  assert (A : 4503599627370496 < IZR k) by lra. apply lt_IZR in A.
  assert (B : IZR 4503599627370497 <= IZR k) by (apply IZR_le; lia). simpl. lra.
Qed.
Lemma float_of_units z n : btw n (Rabs z) -> (n <= 900)%nat -> units (float_of z) z 2.
Proof.
  intros B Hn. destruct (btw_room _ _ B Hn) as [L U].
  assert (N : near (float_of z) z). { apply float_of_near. pose proof (hi_huge _ U). pose proof (Rabs_pos z). lra. }
  apply (un_weaken _ _ (0 + 101/100)); [lra|]. apply (un_round _ z); [exact N|exact L|lra|].
  rewrite Rminus_eq_0, Rabs_R0. rewrite Rmult_0_l, Rmult_0_l. lra.
Qed.
Lemma exponentials_example : exponentials (fun x => float_of (exp (real_of x))).
Proof.
  intros x _ H. apply (float_of_units _ 400); [|lia]. rewrite Rabs_pos_eq by (left; apply exp_pos).
  apply (exp_btw 200). replace (INR 200) with 200 by (simpl; lra). exact H.
Qed.
Lemma logarithms_example : logarithms (fun x => if Req_EM_T (real_of x) 1 then b_0 else float_of (ln (real_of x) / ln 10)).
Proof.
  intros x N [L U]. pose proof ln10_big as T. destruct (Req_EM_T (real_of x) 1) as [E|E].
  - rewrite E, ln_1. unfold Rdiv at 1. rewrite Rmult_0_l. apply (un_weaken _ _ 0); [lra|]. destruct zero_val as [A B]. apply exact; assumption.
  - apply (float_of_units _ 100); [|lia]. assert (G := above_one x N ltac:(lra)).
    assert (Lo : / 2 ^ 90 <= ln (real_of x) / ln 10).
    { apply Rle_trans with (ln (1 + / 2 ^ 52) / ln 10); [interval with (i_prec 100)|].
      apply Rmult_le_compat_r; [left; apply Rinv_0_lt_compat; lra|]. destruct G as [G|G]; [left; apply ln_increasing; [simpl; lra|exact G]|rewrite <- G; lra]. }
    assert (Hi : ln (real_of x) / ln 10 <= 2 ^ 100).
    { apply Rle_trans with (ln (2 ^ 100) / ln 10); [|interval].
      apply Rmult_le_compat_r; [left; apply Rinv_0_lt_compat; lra|]. destruct U as [U|U]; [left; apply ln_increasing; lra|rewrite <- U; lra]. }
    assert (Pz : 0 < / 2 ^ 90) by apply two_inv. rewrite Rabs_pos_eq by lra. unfold btw. split; [|exact Hi].
    apply Rle_trans with (2 := Lo). apply Rinv_le_contravar; [apply two_pow|]. apply Rle_pow; [lra|lia].
Qed.
