(** The Thwaites fits in binary64 (C142). *)
From Coq Require Import Reals ZArith Lra Lia Psatz Bool.
From Flocq Require Import Core IEEE754.BinarySingleNaN.
From Verif Require Import PyBase ThwaitesFitsModel FloatModel FloatSpec FloatFacts FloatProofs FloatXFoilModel FloatXFoilProofs
  FloatThwaitesModel FloatThwaitesSpec FloatThwaitesProofs.
Open Scope R_scope.

(* ------------------------------------------------------------------ *)
(** * Absolute errors *)

Definition ab (x : b64) (z e : R) : Prop := is_number x /\ - e <= real_of x - z <= e.
Lemma ab_within x z e : ab x z e -> within x z e.
Proof. intros [A B]. split; [exact A|]. apply Rabs_le, B. Qed.
Lemma tiny_30 : 0 < tiny <= / 10 ^ 20.
Proof. split; [apply tiny_pos|]. pose proof tiny_uu. destruct uu_small. lra. Qed.
Lemma huge_40 z : z <= 10 ^ 12 -> z <= huge.
Proof.
  intros H. apply Rle_trans with (2 ^ 50); [eapply Rle_trans; [exact H|simpl; lra]|]. unfold huge. apply Rle_pow; [lra|lia].
Qed.
Lemma uu_112 : 0 < uu <= 112 / 10 ^ 18.
Proof. unfold uu. lra. Qed.

Lemma near_ab x p z B e g : near x p -> - e <= p - z <= e -> - B <= p <= B -> e + 112 / 10 ^ 18 * B + / 10 ^ 20 <= g -> ab x z g.
Proof.
  intros N P Q G. destruct (near_bound x p B N) as [A E]; [apply Rabs_le, Q|]. pose proof tiny_30. split; [exact A|]. lra.
Qed.

Lemma ab_add x y a b e f B g : ab x a e -> ab y b f -> - B <= a + b <= B -> B + e + f <= 10 ^ 12 ->
  e + f + 112 / 10 ^ 18 * (B + e + f) + / 10 ^ 20 <= g -> ab (x + y)%b64 (a + b) g.
Proof.
  intros [A1 A2] [B1 B2] HB HH G.
  apply (near_ab _ (real_of x + real_of y) _ (B + e + f) (e + f)); [|lra|lra|lra].
  apply add_near; [exact A1|exact B1|]. apply huge_40, Rabs_le. lra.
Qed.
Lemma ab_sub x y a b e f B g : ab x a e -> ab y b f -> - B <= a - b <= B -> B + e + f <= 10 ^ 12 ->
  e + f + 112 / 10 ^ 18 * (B + e + f) + / 10 ^ 20 <= g -> ab (x - y)%b64 (a - b) g.
Proof.
  intros [A1 A2] [B1 B2] HB HH G.
  apply (near_ab _ (real_of x - real_of y) _ (B + e + f) (e + f)); [|lra|lra|lra].
  apply sub_near; [exact A1|exact B1|]. apply huge_40, Rabs_le. lra.
Qed.
Lemma prod_err x y a b e f A B : 0 <= A -> 0 <= B -> - A <= a <= A -> - B <= b <= B -> 0 <= e -> 0 <= f ->
  - e <= x - a <= e -> - f <= y - b <= f -> - (A * f + B * e + e * f) <= x * y - a * b <= A * f + B * e + e * f.
Proof.
  intros HA HB Ha Hb He Hf Hx Hy.
  replace (x * y - a * b) with (a * (y - b) + (x - a) * b + (x - a) * (y - b)) by ring.
  assert (P1 : Rabs (a * (y - b)) <= A * f) by (rewrite Rabs_mult; apply Rmult_le_compat; try apply Rabs_pos; apply Rabs_le; lra).
  assert (P2 : Rabs ((x - a) * b) <= e * B) by (rewrite Rabs_mult; apply Rmult_le_compat; try apply Rabs_pos; apply Rabs_le; lra).
  assert (P3 : Rabs ((x - a) * (y - b)) <= e * f) by (rewrite Rabs_mult; apply Rmult_le_compat; try apply Rabs_pos; apply Rabs_le; lra).
  apply Rabs_le_inv in P1, P2, P3. lra.
Qed.
Lemma ab_mul x y a b e f A B g : ab x a e -> ab y b f -> - A <= a <= A -> - B <= b <= B -> 0 <= e -> 0 <= f ->
  (A + e) * (B + f) <= 10 ^ 12 ->
  A * f + B * e + e * f + 112 / 10 ^ 18 * ((A + e) * (B + f)) + / 10 ^ 20 <= g -> ab (x * y)%b64 (a * b) g.
Proof.
  intros [A1 A2] [B1 B2] HA HB He Hf HH G.
  assert (P := prod_err _ _ _ _ e f A B ltac:(lra) ltac:(lra) HA HB He Hf A2 B2).
  assert (Q : - ((A + e) * (B + f)) <= real_of x * real_of y <= (A + e) * (B + f)).
  { apply Rabs_le_inv. rewrite Rabs_mult. apply Rmult_le_compat; try apply Rabs_pos; apply Rabs_le; lra. }
  apply (near_ab _ (real_of x * real_of y) _ ((A + e) * (B + f)) (A * f + B * e + e * f)); [|exact P|exact Q|lra].
  apply mul_near; [exact A1|exact B1|]. apply huge_40, Rabs_le. lra.
Qed.
(** The denominator is at least [b0], the quotient at most [Q]. *)
Lemma ab_div x y a b e f b0 Q g : ab x a e -> ab y b f -> b0 <= b -> 0 < b0 - f -> - Q <= a / b <= Q -> 0 <= e -> 0 <= f ->
  Q + (e + Q * f) / (b0 - f) <= 10 ^ 12 ->
  (e + Q * f) / (b0 - f) + 112 / 10 ^ 18 * (Q + (e + Q * f) / (b0 - f)) + / 10 ^ 20 <= g -> ab (x / y)%b64 (a / b) g.
Proof.
  intros [A1 A2] [B1 B2] Hb Hf0 HQ He Hf HH G. set (q := a / b) in *.
  assert (Y : b0 - f <= real_of y) by lra. assert (Y0 : 0 < real_of y) by lra.
  assert (Ea : a = q * b) by (unfold q; field; lra).
  assert (N : Rabs (real_of x - q * real_of y) <= e + Q * f).
  { replace (real_of x - q * real_of y) with ((real_of x - a) - q * (real_of y - b)) by (rewrite Ea; ring).
    assert (P : Rabs (q * (real_of y - b)) <= Q * f) by (rewrite Rabs_mult; apply Rmult_le_compat; try apply Rabs_pos; apply Rabs_le; lra).
    apply Rabs_le_inv in P. apply Rabs_le. lra. }
  assert (P : Rabs (real_of x / real_of y - q) <= (e + Q * f) / (b0 - f)).
  { replace (real_of x / real_of y - q) with ((real_of x - q * real_of y) / real_of y) by (field; lra).
    rewrite abs_quot by lra. pose proof (Rabs_pos (real_of x - q * real_of y)). unfold Rdiv. apply Rmult_le_compat; [apply Rabs_pos|apply Rlt_le, Rinv_0_lt_compat, Y0|exact N|].
    apply Rinv_le_contravar; lra. }
  apply Rabs_le_inv in P.
  apply (near_ab _ (real_of x / real_of y) _ (Q + (e + Q * f) / (b0 - f)) ((e + Q * f) / (b0 - f))); [|exact P|lra|lra].
  apply div_near; [exact A1|exact B1|lra|]. apply huge_40, Rabs_le. lra.
Qed.
Lemma ab_opp x a e : ab x a e -> ab (- x)%b64 (- a) e.
Proof. intros [A B]. destruct (opp_near x A) as [C D]. split; [exact C|]. rewrite D. lra. Qed.
Lemma ab_exact x : is_number x -> ab x (real_of x) 0.
Proof. intros H. split; [exact H|]. lra. Qed.

Ltac alit d m e := destruct (literal m e eq_refl) as [LA LB]; split; [exact LA|];
  change d with (@B754_finite 53 1024 false m e eq_refl); rewrite LB; simpl; lra.
Lemma neg_literal m e H : is_number (@B754_finite 53 1024 true m e H) /\
  real_of (@B754_finite 53 1024 true m e H) = IZR (Zneg m) * bpow radix2 e.
Proof. split; reflexivity. Qed.
Ltac nlit d m e := destruct (neg_literal m e eq_refl) as [LA LB]; split; [exact LA|];
  change d with (@B754_finite 53 1024 true m e eq_refl); rewrite LB; simpl; lra.
Lemma v_0_25 : ab b_0_25 (25/100) 0.
Proof. alit b_0_25 4503599627370496%positive (-54)%Z. Qed.
Lemma v_4_14 : ab b_4_14 (414/100) (4/10^16).
Proof. alit b_4_14 4661225614328463%positive (-50)%Z. Qed.
Lemma v_m83_5 : ab b_m83_5 (-835/10) 0.
Proof. nlit b_m83_5 5875790138834944%positive (-46)%Z. Qed.
Lemma v_854 : ab b_854 854 0.
Proof. alit b_854 7511863440965632%positive (-43)%Z. Qed.
Lemma v_m3337 : ab b_m3337 (-3337) 0.
Proof. nlit b_m3337 7338140603777024%positive (-41)%Z. Qed.
Lemma v_4576 : ab b_4576 4576 0.
Proof. alit b_4576 5031365208702976%positive (-40)%Z. Qed.
Lemma v_m167 : ab b_m167 (-2*(835/10)) 0.
Proof. nlit b_m167 5875790138834944%positive (-45)%Z. Qed.
Lemma v_2562 : ab b_2562 (3*854) 0.
Proof. alit b_2562 5633897580724224%positive (-41)%Z. Qed.
Lemma v_m13348 : ab b_m13348 (-4*3337) 0.
Proof. nlit b_m13348 7338140603777024%positive (-39)%Z. Qed.
Lemma v_5 : ab b_5 5 0.
Proof. alit b_5 5629499534213120%positive (-50)%Z. Qed.
Lemma v_m0_09 : ab b_m0_09 (-9/100) (4/10^18).
Proof. nlit b_m0_09 6485183463413514%positive (-56)%Z. Qed.
Lemma v_0_09 : ab b_0_09 (9/100) (4/10^18).
Proof. alit b_0_09 6485183463413514%positive (-56)%Z. Qed.
Lemma v_0_22 : ab b_0_22 (22/100) (2/10^18).
Proof. alit b_0_22 7926335344172073%positive (-55)%Z. Qed.
Lemma v_1_402 : ab b_1_402 (1402/1000) (9/10^17).
Proof. alit b_1_402 6314046677573435%positive (-52)%Z. Qed.
Lemma v_0_018 : ab b_0_018 (18/1000) (2/10^18).
Proof. alit b_0_018 5188146770730811%positive (-58)%Z. Qed.
Lemma v_0_107 : ab b_0_107 (107/1000) (3/10^18).
Proof. alit b_0_107 7710162562058289%positive (-56)%Z. Qed.
Lemma v_1_57 : ab b_1_57 (157/100) (7/10^17).
Proof. alit b_1_57 7070651414971679%positive (-52)%Z. Qed.
Lemma v_1_8 : ab b_1_8 (18/10) (5/10^17).
Proof. alit b_1_8 8106479329266893%positive (-52)%Z. Qed.
Lemma v_2_088 : ab b_2_088 (2088/1000) (8/10^17).
Proof. alit b_2_088 4701758010974798%positive (-51)%Z. Qed.
Lemma v_0_0731 : ab b_0_0731 (731/10000) (2/10^18).
Proof. alit b_0_0731 5267410124172532%positive (-56)%Z. Qed.
Lemma v_0_14 : ab b_0_14 (14/100) (2/10^17).
Proof. alit b_0_14 5044031582654956%positive (-55)%Z. Qed.
Lemma v_2_61 : ab b_2_61 (261/100) (2/10^16).
Proof. alit b_2_61 5877197513718497%positive (-51)%Z. Qed.
Lemma v_3_75 : ab b_3_75 (375/100) 0.
Proof. alit b_3_75 8444249301319680%positive (-51)%Z. Qed.
Lemma v_5_24 : ab b_5_24 (524/100) (3/10^16).
Proof. alit b_5_24 5899715511855350%positive (-50)%Z. Qed.
Lemma v_m0_1 : ab b_m0_1 (-1/10) (6/10^18).
Proof. nlit b_m0_1 7205759403792794%positive (-56)%Z. Qed.
Lemma v_0_1 : ab b_0_1 (1/10) (6/10^18).
Proof. alit b_0_1 7205759403792794%positive (-56)%Z. Qed.

(* ------------------------------------------------------------------ *)
(** * The range check *)
Lemma clamp_lo lo64 lo e lam : ab lo64 lo e -> is_number lam ->
  exists c, check_range (Fin lo) PInf (Fin (real_of lam)) = Fin c /\ lo <= c /\ (c <= lo \/ c = real_of lam) /\
    ab (clamp64 lo64 None lam) c e.
Proof.
  intros [A1 A2] N. unfold check_range, clamp64, xltb, Rltb. rewrite (flt_number lam lo64 N A1).
  destruct (Rlt_dec (real_of lam) lo) as [L|L].
  - exists lo. split; [reflexivity|]. split; [lra|]. split; [left; lra|].
    destruct (Rlt_bool_spec (real_of lam) (real_of lo64)) as [H|H]; [split; assumption|]. split; [exact N|lra].
  - exists (real_of lam). split; [reflexivity|]. split; [lra|]. split; [right; reflexivity|].
    destruct (Rlt_bool_spec (real_of lam) (real_of lo64)) as [H|H]; [split; [exact A1|lra]|]. split; [exact N|lra].
Qed.

Lemma clamp_both lo64 hi64 lo hi e lam : ab lo64 lo e -> ab hi64 hi e -> lo + e < 0 -> 0 < hi - e -> is_number lam ->
  exists c, check_range (Fin lo) (Fin hi) (Fin (real_of lam)) = Fin c /\ lo <= c <= hi /\
    ab (clamp64 lo64 (Some hi64) lam) c e /\ (0 <= c <-> 0 <= real_of (clamp64 lo64 (Some hi64) lam)).
Proof.
  intros [A1 A2] [B1 B2] H1 H2 N. unfold check_range, clamp64, xltb, Rltb. rewrite (flt_number lam lo64 N A1), (flt_number hi64 lam B1 N).
  destruct (Rlt_dec (real_of lam) lo) as [L|L].
  - exists lo. split; [reflexivity|]. split; [lra|].
    destruct (Rlt_bool_spec (real_of lam) (real_of lo64)) as [H|H]; [split; [split; assumption|lra]|].
    destruct (Rlt_bool_spec (real_of hi64) (real_of lam)) as [K|K]; [lra|]. split; [split; [exact N|lra]|lra].
  - destruct (Rlt_dec hi (real_of lam)) as [M|M].
    + exists hi. split; [reflexivity|]. split; [lra|].
      destruct (Rlt_bool_spec (real_of lam) (real_of lo64)) as [H|H]; [lra|].
      destruct (Rlt_bool_spec (real_of hi64) (real_of lam)) as [K|K]; (split; [split; [assumption|lra]|lra]).
    + exists (real_of lam). split; [reflexivity|]. split; [lra|].
      destruct (Rlt_bool_spec (real_of lam) (real_of lo64)) as [H|H]; [split; [split; [exact A1|lra]|lra]|].
      destruct (Rlt_bool_spec (real_of hi64) (real_of lam)) as [K|K]; (split; [split; [assumption|lra]|lra]).
Qed.

Lemma ab_weaken x z e g : ab x z e -> e <= g -> ab x z g.
Proof. intros [A B] H. split; [exact A|lra]. Qed.

(* ------------------------------------------------------------------ *)
(** * White's fit *)
Lemma white_horner l c : ab l c (4/10^18) -> - 9/100 <= c <= 25/100 ->
  ab (white_shape64 l)
     (2 + (25/100 - c) * (414/100 + (25/100 - c) * (-835/10 + (25/100 - c) * (854 + (25/100 - c) * (-3337 + (25/100 - c) * 4576)))))
     (1/10^13).
Proof.
  intros H C. unfold white_shape64.
  assert (Z : ab (b_0_25 - l)%b64 (25/100 - c) (5/10^17)).
  { apply (ab_sub _ _ _ _ _ _ (34/100) _ v_0_25 H); lra. }
  set (z := 25/100 - c) in *. set (zf := (b_0_25 - l)%b64) in *. assert (Hz : 0 <= z <= 34/100) by (unfold z; lra). clearbody z zf. clear H C.
  assert (ZA : - (34/100) <= z <= 34/100) by lra.
  assert (Q0 : 0 <= z * 4576 <= 1556) by nra.
  assert (P0 : ab (zf * b_4576)%b64 (z * 4576) (41/10^14)) by (apply (ab_mul _ _ _ _ _ _ (34/100) 4576 _ Z v_4576); lra).
  set (q0 := z * 4576) in *. clearbody q0.
  assert (P1 : ab (b_m3337 + zf * b_4576)%b64 (-3337 + q0) (79/10^14)) by (apply (ab_add _ _ _ _ _ _ 3337 _ v_m3337 P0); lra).
  set (q1 := -3337 + q0) in *. assert (Q1 : - 3337 <= q1 <= - 1781) by (unfold q1; lra). clearbody q1.
  assert (Q2 : - 1135 <= z * q1 <= 0) by nra.
  assert (P2 := ab_mul _ _ _ _ _ _ (34/100) 3337 (57/10^14) Z P1 ZA ltac:(lra) ltac:(lra) ltac:(lra) ltac:(lra) ltac:(lra)).
  set (q2 := z * q1) in *. clearbody q2.
  assert (P3 := ab_add _ _ _ _ _ _ 854 (68/10^14) v_854 P2 ltac:(lra) ltac:(lra) ltac:(lra)).
  set (q3 := 854 + q2) in *. assert (Q3 : - 281 <= q3 <= 854) by (unfold q3; lra). clearbody q3.
  assert (Q4 : - 96 <= z * q3 <= 291) by nra.
  assert (P4 := ab_mul _ _ _ _ _ _ (34/100) 854 (31/10^14) Z P3 ZA ltac:(lra) ltac:(lra) ltac:(lra) ltac:(lra) ltac:(lra)).
  set (q4 := z * q3) in *. clearbody q4.
  assert (P5 := ab_add _ _ _ _ _ _ 208 (34/10^14) v_m83_5 P4 ltac:(lra) ltac:(lra) ltac:(lra)).
  set (q5 := -835/10 + q4) in *. assert (Q5 : - 180 <= q5 <= 208) by (unfold q5; lra). clearbody q5.
  assert (Q6 : - 62 <= z * q5 <= 71) by nra.
  assert (P6 := ab_mul _ _ _ _ _ _ (34/100) 208 (14/10^14) Z P5 ZA ltac:(lra) ltac:(lra) ltac:(lra) ltac:(lra) ltac:(lra)).
  set (q6 := z * q5) in *. clearbody q6.
  assert (P7 := ab_add _ _ _ _ _ _ 76 (16/10^14) v_4_14 P6 ltac:(lra) ltac:(lra) ltac:(lra)).
  set (q7 := 414/100 + q6) in *. assert (Q7 : - 58 <= q7 <= 76) by (unfold q7; lra). clearbody q7.
  assert (Q8 : - 20 <= z * q7 <= 26) by nra.
  assert (P8 := ab_mul _ _ _ _ _ _ (34/100) 76 (7/10^14) Z P7 ZA ltac:(lra) ltac:(lra) ltac:(lra) ltac:(lra) ltac:(lra)).
  set (q8 := z * q7) in *. clearbody q8.
  assert (V2 : ab b_2 2 0) by (destruct two_val as [A B]; split; [exact A|lra]).
  apply (ab_add _ _ _ _ _ _ 28 _ V2 P8); lra.
Qed.

Lemma shape_white64_ok lam : is_number lam -> real_of lam <= 25/100 ->
  exists h, shape fit_white (Fin (real_of lam)) = Fin h /\ within (shape_white64 lam) h (/ 10 ^ 13).
Proof.
  intros N H. destruct (clamp_lo b_m0_09 (-9/100) _ lam v_m0_09 N) as (c & E & C1 & C2 & P).
  eexists. split.
  - unfold shape, fit_white, fit_lo, fit_hi, fit_shape. rewrite E. unfold white_shape, xsub, xneg, xadd, xmul. reflexivity.
  - apply ab_within. eapply ab_weaken; [apply (white_horner _ c P); lra|]. lra.
Qed.

(** The base of the power in the shear fit is never negative. *)
Lemma white_base64_ok lam : is_number lam -> real_of lam <= 1 ->
  is_number (white_base64 (clamp64 b_m0_09 None lam)) /\ 0 <= real_of (white_base64 (clamp64 b_m0_09 None lam)) /\
  (real_of lam <= real_of b_m0_09 -> real_of (white_base64 (clamp64 b_m0_09 None lam)) = 0).
Proof.
  intros N H. destruct v_m0_09 as [A1 A2]. destruct v_0_09 as [B1 B2].
  assert (OP : real_of b_0_09 = - real_of b_m0_09).
  { destruct (literal 6485183463413514 (-56) eq_refl) as [_ E1]. destruct (neg_literal 6485183463413514 (-56) eq_refl) as [_ E2].
    unfold b_0_09, b_m0_09. rewrite E1, E2. simpl. lra. }
  unfold white_base64, clamp64. rewrite (flt_number lam b_m0_09 N A1).
  assert (K : forall x, is_number x -> real_of b_m0_09 <= real_of x <= 1 ->
    is_number (x + b_0_09)%b64 /\ real_of (x + b_0_09)%b64 = rnd (real_of x + real_of b_0_09)).
  { intros x Nx Hx. apply add_rnd; [exact Nx|exact B1|]. apply huge_40, Rabs_le. lra. }
  destruct (Rlt_bool_spec (real_of lam) (real_of b_m0_09)) as [L|L].
  - destruct (K b_m0_09 A1) as [K1 K2]; [lra|]. rewrite K2. replace (real_of b_m0_09 + real_of b_0_09) with 0 by lra. rewrite rnd_0.
    split; [exact K1|]. split; [lra|reflexivity].
  - destruct (K lam N) as [K1 K2]; [lra|]. rewrite K2. split; [exact K1|]. split; [apply rnd_ge_0; lra|].
    intros M. replace (real_of lam + real_of b_0_09) with 0 by lra. apply rnd_0.
Qed.

(* ------------------------------------------------------------------ *)
(** * Cebeci and Bradshaw's fit *)
Lemma flt_zero x : is_number x -> flt x b_0 = Rlt_bool (real_of x) 0.
Proof. intros N. destruct zero_val as [A B]. rewrite (flt_number x b_0 N A), B. reflexivity. Qed.

Lemma cb_shape64_ok l c : ab l c (6/10^18) -> -1/10 <= c <= 1/10 -> (0 <= c <-> 0 <= real_of l) ->
  exists h, cb_shape (Fin c) = Fin h /\ 0 <= h <= 4 /\ ab (cb_shape64 l) h (/ 10 ^ 14).
Proof.
  intros H C S. pose proof (proj1 H) as N. unfold cb_shape64. rewrite (flt_zero l N).
  unfold cb_shape, piecewise0, xleb, xltb, Rleb, Rltb.
  destruct (Rlt_bool_spec (real_of l) 0) as [L|L].
  - destruct (Rle_dec 0 c) as [G|G]; [apply S in G; lra|]. destruct (Rlt_dec c 0) as [_|G']; [|lra].
    assert (D : ab (b_0_14 + l)%b64 (14/100 + c) (5/10^17)) by (apply (ab_add _ _ _ _ _ _ (14/100) _ v_0_14 H); lra).
    assert (Q : 0 <= 731/10000 / (14/100 + c) <= 183/100).
    { split; [apply quot_ge; lra|apply quot_le; lra]. }
    unfold xadd, xdiv. destruct (Req_EM_T (14/100 + c) 0) as [E|_]; [lra|].
    eexists. split; [reflexivity|]. split; [lra|].
    assert (P := ab_div _ _ _ _ _ _ (4/100) (183/100) (3/10^15) v_0_0731 D ltac:(lra) ltac:(lra) ltac:(lra) ltac:(lra) ltac:(lra) ltac:(lra) ltac:(lra)).
    apply (ab_add _ _ _ _ _ _ 4 _ v_2_088 P); lra.
  - destruct (Rle_dec 0 c) as [G|G]; [|exfalso; apply G, S, L].
    unfold xsq, xadd, xsub, xneg, xmul.
    assert (Q1 : 0 <= c * c <= 1/100) by nra.
    assert (P1 := ab_mul _ _ _ _ _ _ (375/100) (1/10) (1/10^16) v_3_75 H ltac:(lra) ltac:(lra) ltac:(lra) ltac:(lra) ltac:(lra) ltac:(lra)).
    assert (P2 := ab_sub _ _ _ _ _ _ 3 (1/10^15) v_2_61 P1 ltac:(lra) ltac:(lra) ltac:(lra)).
    assert (P3 := ab_mul _ _ _ _ _ _ (1/10) (1/10) (3/10^18) H H ltac:(lra) ltac:(lra) ltac:(lra) ltac:(lra) ltac:(lra) ltac:(lra)).
    assert (P4 := ab_mul _ _ _ _ _ _ (524/100) (1/100) (1/10^16) v_5_24 P3 ltac:(lra) ltac:(lra) ltac:(lra) ltac:(lra) ltac:(lra) ltac:(lra)).
    eexists. split; [reflexivity|]. split; [nra|].
    apply (ab_add _ _ _ _ _ _ 4 _ P2 P4); lra.
Qed.

Lemma cb_shear64_ok l c : ab l c (6/10^18) -> -1/10 <= c <= 1/10 -> (0 <= c <-> 0 <= real_of l) ->
  exists h, cb_shear (Fin c) = Fin h /\ -1 <= h <= 1 /\ ab (cb_shear64 l) h (/ 10 ^ 14).
Proof.
  intros H C S. pose proof (proj1 H) as N. unfold cb_shear64. rewrite (flt_zero l N).
  unfold cb_shear, piecewise0, xleb, xltb, Rleb, Rltb.
  destruct (Rlt_bool_spec (real_of l) 0) as [L|L].
  - destruct (Rle_dec 0 c) as [G|G]; [apply S in G; lra|]. destruct (Rlt_dec c 0) as [_|G']; [|lra].
    assert (P1 := ab_mul _ _ _ _ _ _ (1402/1000) (1/10) (4/10^17) v_1_402 H ltac:(lra) ltac:(lra) ltac:(lra) ltac:(lra) ltac:(lra) ltac:(lra)).
    assert (P2 := ab_add _ _ _ _ _ _ (1/4) (8/10^17) v_0_22 P1 ltac:(lra) ltac:(lra) ltac:(lra)).
    assert (P3 := ab_mul _ _ _ _ _ _ (18/1000) (1/10) (1/10^18) v_0_018 H ltac:(lra) ltac:(lra) ltac:(lra) ltac:(lra) ltac:(lra) ltac:(lra)).
    assert (D : ab (b_0_107 + l)%b64 (107/1000 + c) (3/10^17)) by (apply (ab_add _ _ _ _ _ _ (107/1000) _ v_0_107 H); lra).
    assert (Q : - (26/100) <= 18/1000 * c / (107/1000 + c) <= 26/100).
    { split; [apply quot_ge; lra|apply quot_le; lra]. }
    unfold xadd, xmul, xdiv. destruct (Req_EM_T (107/1000 + c) 0) as [E|_]; [lra|].
    assert (P4 := ab_div _ _ _ _ _ _ (7/1000) (26/100) (2/10^15) P3 D ltac:(lra) ltac:(lra) ltac:(lra) ltac:(lra) ltac:(lra) ltac:(lra) ltac:(lra)).
    eexists. split; [reflexivity|]. split; [lra|].
    apply (ab_add _ _ _ _ _ _ 1 _ P2 P4); lra.
  - destruct (Rle_dec 0 c) as [G|G]; [|exfalso; apply G, S, L].
    unfold xsq, xadd, xsub, xneg, xmul.
    assert (Q1 : 0 <= c * c <= 1/100) by nra.
    assert (P1 := ab_mul _ _ _ _ _ _ (157/100) (1/10) (1/10^16) v_1_57 H ltac:(lra) ltac:(lra) ltac:(lra) ltac:(lra) ltac:(lra) ltac:(lra)).
    assert (P2 := ab_add _ _ _ _ _ _ (1/2) (2/10^16) v_0_22 P1 ltac:(lra) ltac:(lra) ltac:(lra)).
    assert (P3 := ab_mul _ _ _ _ _ _ (1/10) (1/10) (3/10^18) H H ltac:(lra) ltac:(lra) ltac:(lra) ltac:(lra) ltac:(lra) ltac:(lra)).
    assert (P4 := ab_mul _ _ _ _ _ _ (18/10) (1/100) (1/10^16) v_1_8 P3 ltac:(lra) ltac:(lra) ltac:(lra) ltac:(lra) ltac:(lra) ltac:(lra)).
    eexists. split; [reflexivity|]. split; [nra|].
    apply (ab_sub _ _ _ _ _ _ 1 _ P2 P4); lra.
Qed.

Lemma cb_clamp lam : is_number lam ->
  exists c, check_range (Fin (-1/10)) (Fin (1/10)) (Fin (real_of lam)) = Fin c /\ -1/10 <= c <= 1/10 /\
    ab (clamp64 b_m0_1 (Some b_0_1) lam) c (6/10^18) /\ (0 <= c <-> 0 <= real_of (clamp64 b_m0_1 (Some b_0_1) lam)).
Proof. intros N. apply clamp_both; [exact v_m0_1|exact v_0_1|lra|lra|exact N]. Qed.

Lemma fit_cb64_ab lam : is_number lam ->
  exists h t, shape fit_cb (Fin (real_of lam)) = Fin h /\ shear fit_cb (Fin (real_of lam)) = Fin t /\
    0 <= h <= 4 /\ -1 <= t <= 1 /\ ab (shape_cb64 lam) h (/ 10 ^ 14) /\ ab (shear_cb64 lam) t (/ 10 ^ 14).
Proof.
  intros N. destruct (cb_clamp lam N) as (c & E & C & P & S).
  destruct (cb_shape64_ok _ c P C S) as (h & Eh & Bh & Ph). destruct (cb_shear64_ok _ c P C S) as (t & Et & Bt & Pt).
  exists h, t. unfold shape, shear, fit_cb, fit_lo, fit_hi, fit_shape, fit_shear. rewrite E. repeat (split; [assumption|]). assumption.
Qed.

Lemma fit_cb64_ok lam : is_number lam ->
  exists h t, shape fit_cb (Fin (real_of lam)) = Fin h /\ shear fit_cb (Fin (real_of lam)) = Fin t /\
    within (shape_cb64 lam) h (/ 10 ^ 14) /\ within (shear_cb64 lam) t (/ 10 ^ 14).
Proof.
  intros N. destruct (fit_cb64_ab lam N) as (h & t & Eh & Et & _ & _ & Ph & Pt). exists h, t.
  split; [exact Eh|]. split; [exact Et|]. split; apply ab_within; assumption.
Qed.

Lemma f_cb64_ok lam : is_number lam -> Rabs (real_of lam) <= 10 ^ 6 ->
  exists f, fit_f fit_cb (Fin (real_of lam)) = Fin f /\ within (f_cb64 lam) f (/ 10 ^ 13 * (1 + Rabs (real_of lam))).
Proof.
  intros N HL. destruct (fit_cb64_ab lam N) as (h & t & Eh & Et & Bh & Bt & Ph & Pt).
  eexists. split; [unfold fit_f; rewrite Eh, Et; unfold xadd, xsub, xneg, xmul; reflexivity|].
  apply ab_within. unfold f_cb64. set (l := real_of lam) in *. set (A := Rabs l) in *. assert (A0 : 0 <= A) by apply Rabs_pos.
  assert (AL : - A <= l <= A) by (apply Rabs_le_inv, Rle_refl).
  assert (V2 : ab b_2 2 0) by (destruct two_val as [Y1 Y2]; split; [exact Y1|lra]).
  assert (P1 := ab_add _ _ _ _ _ _ 6 (11/10^15) Ph V2 ltac:(lra) ltac:(lra) ltac:(lra)).
  assert (P2 := ab_mul _ _ _ _ _ _ A 6 (12/10^15 * A + 2/10^20) (ab_exact lam N) P1 AL ltac:(lra) ltac:(lra) ltac:(lra) ltac:(lra) ltac:(lra)).
  fold l in P2.
  assert (BL : - (6 * A) <= l * (h + 2) <= 6 * A) by nra.
  assert (P3 := ab_sub _ _ _ _ _ _ (1 + 6 * A) (12/10^15 + 14/10^15 * A) Pt P2 ltac:(lra) ltac:(lra) ltac:(lra)).
  apply (ab_mul _ _ _ _ _ _ 2 (1 + 6 * A) _ V2 P3); lra.
Qed.

(** White's derivative of the shape factor. *)
Lemma white_horner_p l c : ab l c (4/10^18) -> - 9/100 <= c <= 25/100 ->
  ab (white_shape_p64 l)
     (- (414/100 + (25/100 - c) * (-2*(835/10) + (25/100 - c) * (3*854 + (25/100 - c) * (-4*3337 + (25/100 - c) * 5 * 4576)))))
     (1/10^12).
Proof.
  intros H C. unfold white_shape_p64.
  assert (Z : ab (b_0_25 - l)%b64 (25/100 - c) (5/10^17)).
  { apply (ab_sub _ _ _ _ _ _ (34/100) _ v_0_25 H); lra. }
  set (z := 25/100 - c) in *. set (zf := (b_0_25 - l)%b64) in *. assert (Hz : 0 <= z <= 34/100) by (unfold z; lra). clearbody z zf. clear H C.
  assert (ZA : - (34/100) <= z <= 34/100) by lra.
  assert (P := ab_mul _ _ _ _ _ _ (34/100) 5 (5/10^16) Z v_5 ZA ltac:(lra) ltac:(lra) ltac:(lra) ltac:(lra) ltac:(lra)).
  assert (Q : 0 <= z * 5 <= 17/10) by lra. set (q := z * 5) in *. clearbody q.
  assert (P0 := ab_mul _ _ _ _ _ _ (17/10) 4576 (4/10^12) P v_4576 ltac:(lra) ltac:(lra) ltac:(lra) ltac:(lra) ltac:(lra) ltac:(lra)).
  assert (Q0 : 0 <= q * 4576 <= 7780) by lra. set (q0 := q * 4576) in *. clearbody q0.
  assert (P1 := ab_add _ _ _ _ _ _ 13348 (6/10^12) v_m13348 P0 ltac:(lra) ltac:(lra) ltac:(lra)).
  set (q1 := -4*3337 + q0) in *. assert (Q1 : - 13348 <= q1 <= - 5568) by (unfold q1; lra). clearbody q1.
  assert (Q2 : - 4539 <= z * q1 <= 0) by nra.
  assert (P2 := ab_mul _ _ _ _ _ _ (34/100) 13348 (4/10^12) Z P1 ZA ltac:(lra) ltac:(lra) ltac:(lra) ltac:(lra) ltac:(lra)).
  set (q2 := z * q1) in *. clearbody q2.
  assert (P3 := ab_add _ _ _ _ _ _ 2562 (5/10^12) v_2562 P2 ltac:(lra) ltac:(lra) ltac:(lra)).
  set (q3 := 3*854 + q2) in *. assert (Q3 : - 1977 <= q3 <= 2562) by (unfold q3; lra). clearbody q3.
  assert (Q4 : - 673 <= z * q3 <= 872) by nra.
  assert (P4 := ab_mul _ _ _ _ _ _ (34/100) 2562 (2/10^12) Z P3 ZA ltac:(lra) ltac:(lra) ltac:(lra) ltac:(lra) ltac:(lra)).
  set (q4 := z * q3) in *. clearbody q4.
  assert (P5 := ab_add _ _ _ _ _ _ 840 (22/10^13) v_m167 P4 ltac:(lra) ltac:(lra) ltac:(lra)).
  set (q5 := -2*(835/10) + q4) in *. assert (Q5 : - 840 <= q5 <= 705) by (unfold q5; lra). clearbody q5.
  assert (Q6 : - 286 <= z * q5 <= 240) by nra.
  assert (P6 := ab_mul _ _ _ _ _ _ (34/100) 840 (9/10^13) Z P5 ZA ltac:(lra) ltac:(lra) ltac:(lra) ltac:(lra) ltac:(lra)).
  set (q6 := z * q5) in *. clearbody q6.
  apply ab_opp. apply (ab_add _ _ _ _ _ _ 290 _ v_4_14 P6); lra.
Qed.

Lemma shape_p_white64_ok lam : is_number lam -> real_of lam <= 25/100 ->
  exists h, shape_p fit_white (Fin (real_of lam)) = Fin h /\ within (white_shape_p64 (clamp64 b_m0_09 None lam)) h (/ 10 ^ 12).
Proof.
  intros N H. destruct (clamp_lo b_m0_09 (-9/100) _ lam v_m0_09 N) as (c & E & C1 & C2 & P).
  eexists. split.
  - unfold shape_p, fit_white, fit_lo, fit_hi, fit_shape_p. rewrite E. unfold white_shape_p, xsub, xneg, xadd, xmul. reflexivity.
  - apply ab_within. eapply ab_weaken; [apply (white_horner_p _ c P); lra|]. lra.
Qed.

Lemma squares_example : squares (fun x => x * x)%b64.
Proof.
  intros x N B. change (btw 400 (real_of x)) in B. assert (B2 := btw_mul _ _ _ _ B B).
  assert (P := btw_pos _ _ B). assert (P2 := btw_pos _ _ B2). replace (real_of x ^ 2) with (real_of x * real_of x) by ring.
  apply ru_units; [exact P2|]. eapply ru_weaken; [exact P2| |apply (ru_mul _ _ _ _ 0 0 (ru_exact x N) (ru_exact x N) P P ltac:(lra) ltac:(lra) (btw_room _ _ B2 ltac:(lia)))]. lra.
Qed.
Lemma moderate_example : moderate b_1e_3.
Proof.
  destruct lit_1e_3 as [A B]. destruct uu_small as [U0 U1]. split; [exact A|]. assert (btw 20 (real_of b_1e_3)).
  { unfold btw. generalize dependent (real_of b_1e_3). intros r B. simpl. lra. }
  apply (btw_weaken 20 200); [lia|assumption].
Qed.
