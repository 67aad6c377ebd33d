(** The Stanford tables in binary64 (C157). *)
From Coq Require Import Reals ZArith List Lra Lia Psatz.
From Flocq Require Import Core IEEE754.BinarySingleNaN.
From Verif Require Import PyBase StanfordSpec FloatModel FloatSpec FloatFacts FloatProofs FloatXFoilModel FloatXFoilProofs
  FloatThwaitesModel FloatThwaitesSpec FloatThwaitesProofs FloatFitsProofs FloatStanfordModel FloatStanfordSpec.
Import ListNotations.
Open Scope R_scope.

(* ------------------------------------------------------------------ *)
(** * Relative errors of either sign *)

Definition zb (n : nat) (z : R) : Prop := z = 0 \/ btw n (Rabs z).

Lemma mul_zero x y : is_number x -> is_number y -> real_of x * real_of y = 0 -> is_number (x * y)%b64 /\ real_of (x * y)%b64 = 0.
Proof.
  unfold is_number, real_of, fmul. intros Fx Fy Z.
  pose proof (Bmult_correct prec emax Hprec Hmax mode_NE x y) as C. simpl round_mode in C.
  change (round radix2 (SpecFloat.fexp prec emax) ZnearestE (B2R x * B2R y)) with (rnd (B2R x * B2R y)) in C.
  rewrite Z, rnd_0 in C. rewrite Rabs_R0, Rlt_bool_true in C by (apply bpow_gt_0). destruct C as (E & F & _).
  rewrite Fx, Fy in F. split; [exact F|exact E].
Qed.
Lemma div_zero x y : is_number x -> is_number y -> real_of y <> 0 -> real_of x = 0 -> is_number (x / y)%b64 /\ real_of (x / y)%b64 = 0.
Proof.
  unfold is_number, real_of, fdiv. intros Fx Fy N Z.
  pose proof (Bdiv_correct prec emax Hprec Hmax mode_NE x y N) as C. simpl round_mode in C.
  change (round radix2 (SpecFloat.fexp prec emax) ZnearestE (B2R x / B2R y)) with (rnd (B2R x / B2R y)) in C.
  rewrite Z in C. replace (0 / B2R y) with 0 in C by (unfold Rdiv; ring). rewrite rnd_0 in C.
  rewrite Rabs_R0, Rlt_bool_true in C by (apply bpow_gt_0). destruct C as (E & F & _).
  rewrite Fx in F. split; [exact F|exact E].
Qed.

Lemma un_zero x k : units x 0 k -> real_of x = 0.
Proof. intros [_ A]. rewrite Rabs_R0, Rmult_0_r, Rminus_0_r in A. destruct (Req_dec (real_of x) 0) as [E|E]; [exact E|]. apply Rabs_pos_lt in E. lra. Qed.
Lemma un_weaken x z k k' : k <= k' -> units x z k -> units x z k'.
Proof.
  intros Hk [A B]. split; [exact A|]. apply (Rle_trans _ _ _ B). apply Rmult_le_compat_r; [apply Rabs_pos|].
  unfold Rdiv. apply Rmult_le_compat_r; [|exact Hk]. left. apply Rinv_0_lt_compat, pow_lt. lra.
Qed.

(** A rounded value of [p], which is near [z]. *)
Lemma un_round x p z k : near x p -> lo9 <= Rabs z -> 0 <= k <= 3000 -> Rabs (p - z) <= k * uu * Rabs z -> units x z (k + 101/100).
Proof.
  intros [A B] Hz Hk P. split; [exact A|]. destruct uu_small as [U0 U1]. change (/ 2 ^ 53) with uu in *. unfold Rdiv at 1. fold uu.
  assert (Kp : 0 <= k * uu <= / 10 ^ 11) by nra.
  assert (Z0 := Rabs_pos z). assert (T := tiny_lo _ Hz).
  assert (P2 : Rabs p <= Rabs z + k * uu * Rabs z).
  { apply Rle_trans with (Rabs (p - z) + Rabs z); [|lra]. replace p with ((p - z) + z) at 1 by ring. apply Rabs_triang. }
  assert (M : uu * Rabs p <= uu * (Rabs z + k * uu * Rabs z)) by (apply Rmult_le_compat_l; lra).
  assert (M2 : uu * (Rabs z + k * uu * Rabs z) <= 1002 / 1000 * (uu * Rabs z)).
  { replace (uu * (Rabs z + k * uu * Rabs z)) with ((1 + k * uu) * (uu * Rabs z)) by ring. apply Rmult_le_compat_r; [nra|]. lra. }
  apply Rle_trans with (Rabs (real_of x - p) + Rabs (p - z)).
  { replace (real_of x - z) with ((real_of x - p) + (p - z)) by ring. apply Rabs_triang. }
  assert (0 <= uu * Rabs z) by nra.
  replace ((k + 101/100) * uu * Rabs z) with (k * uu * Rabs z + 101/100 * (uu * Rabs z)) by ring. lra.
Qed.

Lemma un_mul x y a b j k n : units x a j -> units y b k -> 0 <= j <= 1000 -> 0 <= k <= 1000 -> zb n (a * b) -> (n <= 900)%nat ->
  units (x * y)%b64 (a * b) (j + k + 102/100).
Proof.
  intros [A1 A2] [B1 B2] Hj Hk Z Hn. destruct uu_small as [U0 U1]. change (/ 2 ^ 53) with uu in *. unfold Rdiv in A2, B2. fold uu in A2, B2.
  assert (J : 0 <= j * uu <= / 10 ^ 11) by nra. assert (K : 0 <= k * uu <= / 10 ^ 11) by nra.
  destruct (Req_dec (a * b) 0) as [E|E].
  - rewrite E. assert (E0 : real_of x * real_of y = 0).
    { apply Rmult_integral in E. destruct E as [E|E].
      - rewrite (un_zero x j); [ring|]. split; [exact A1|]. rewrite E in A2. exact A2.
      - rewrite (un_zero y k); [ring|]. split; [exact B1|]. rewrite E in B2. exact B2. }
    destruct (mul_zero _ _ A1 B1 E0) as [N V]. split; [exact N|]. rewrite V, Rabs_R0, Rmult_0_r, Rminus_0_r, Rabs_R0. lra.
  - destruct Z as [Z|Z]; [contradiction|]. apply (btw_room _ _) in Z; [|exact Hn]. destruct Z as [L H].
    assert (JK : 0 <= (j * uu) * (k * uu) <= 1/1000 * uu).
    { split; [apply Rmult_le_pos; lra|]. apply Rle_trans with ((j * uu) * / 10 ^ 11); [apply Rmult_le_compat_l; lra|]. nra. }
    set (p := real_of x * real_of y).
    assert (P : Rabs (p - a * b) <= (j + k + 1/100) * uu * Rabs (a * b)).
    { replace (p - a * b) with ((real_of x - a) * (real_of y - b) + (a * (real_of y - b) + (real_of x - a) * b)) by (unfold p; ring).
      apply Rle_trans with (Rabs (real_of x - a) * Rabs (real_of y - b) + (Rabs a * Rabs (real_of y - b) + Rabs (real_of x - a) * Rabs b)).
      - rewrite <- !Rabs_mult. eapply Rle_trans; [apply Rabs_triang|]. apply Rplus_le_compat_l, Rabs_triang.
      - rewrite Rabs_mult. assert (PA := Rabs_pos a). assert (PB := Rabs_pos b). assert (PX := Rabs_pos (real_of x - a)). assert (PY := Rabs_pos (real_of y - b)).
        assert (X1 : Rabs (real_of x - a) * Rabs (real_of y - b) <= (j * uu * Rabs a) * (k * uu * Rabs b)) by (apply Rmult_le_compat; assumption).
        assert (X2 : Rabs a * Rabs (real_of y - b) <= Rabs a * (k * uu * Rabs b)) by (apply Rmult_le_compat_l; assumption).
        assert (X3 : Rabs (real_of x - a) * Rabs b <= j * uu * Rabs a * Rabs b) by (apply Rmult_le_compat_r; assumption).
        assert (AB : 0 <= Rabs a * Rabs b) by nra.
        replace ((j + k + 1/100) * uu * (Rabs a * Rabs b)) with (1/100 * uu * (Rabs a * Rabs b) + (k * uu * (Rabs a * Rabs b) + j * uu * (Rabs a * Rabs b))) by ring.
        assert (X4 : (j * uu * Rabs a) * (k * uu * Rabs b) <= 1/100 * uu * (Rabs a * Rabs b)).
        { replace ((j * uu * Rabs a) * (k * uu * Rabs b)) with ((j * uu) * (k * uu) * (Rabs a * Rabs b)) by ring. apply Rmult_le_compat_r; lra. }
        lra. }
    assert (N : near (x * y)%b64 p).
    { apply mul_near; [exact A1|exact B1|]. fold p. apply Rle_trans with (2 * Rabs (a * b)); [|apply hi_huge, H].
      apply Rle_trans with (Rabs (p - a * b) + Rabs (a * b)).
      - replace p with ((p - a * b) + a * b) at 1 by ring. apply Rabs_triang.
      - assert (PZ := Rabs_pos (a * b)). assert ((j + k + 1/100) * uu <= 1) by nra. nra. }
    replace (j + k + 102/100) with ((j + k + 1/100) + 101/100) by lra.
    apply (un_round _ p); [exact N|exact L|lra|exact P].
Qed.

Lemma un_div x y a b j k n : units x a j -> units y b k -> 0 < b -> 0 <= j <= 1000 -> 0 <= k <= 1000 -> zb n (a / b) -> (n <= 900)%nat ->
  units (x / y)%b64 (a / b) (j + k + 102/100).
Proof.
  intros [A1 A2] [B1 B2] Hb Hj Hk Z Hn. destruct uu_small as [U0 U1]. change (/ 2 ^ 53) with uu in *. unfold Rdiv in A2, B2. fold uu in A2, B2.
  rewrite (Rabs_pos_eq b) in B2 by lra. apply Rabs_le_inv in B2.
  assert (J : 0 <= j * uu <= / 10 ^ 11) by nra. assert (K : 0 <= k * uu <= / 10 ^ 11) by nra.
  assert (Yp : 0 < real_of y) by nra.
  destruct (Req_dec a 0) as [E|E].
  - subst a. replace (0 / b) with 0 by (unfold Rdiv; ring).
    destruct (div_zero x y A1 B1 ltac:(lra)) as [N V]. { apply (un_zero x j). split; [exact A1|exact A2]. }
    split; [exact N|]. rewrite V, Rabs_R0, Rmult_0_r, Rminus_0_r, Rabs_R0. lra.
  - destruct Z as [Z|Z]. { exfalso. apply E. replace a with (a / b * b) by (field; lra). rewrite Z. ring. }
    apply (btw_room _ _) in Z; [|exact Hn]. destruct Z as [L H].
    set (p := real_of x / real_of y). set (q := a / b) in *. assert (Ea : a = q * b) by (unfold q; field; lra).
    assert (P : Rabs (p - q) <= (j + k + 1/100) * uu * Rabs q).
    { apply Rmult_le_reg_r with (real_of y); [exact Yp|].
      rewrite <- (Rabs_pos_eq (real_of y)) at 1 by lra. rewrite <- Rabs_mult.
      replace ((p - q) * real_of y) with ((real_of x - a) - q * (real_of y - b)) by (unfold p; rewrite Ea; field; lra).
      apply Rle_trans with (Rabs (real_of x - a) + Rabs q * Rabs (real_of y - b)).
      { unfold Rminus at 1. eapply Rle_trans; [apply Rabs_triang|]. rewrite Rabs_Ropp, Rabs_mult. lra. }
      assert (B3 : Rabs (real_of y - b) <= k * uu * b) by (apply Rabs_le; lra).
      rewrite Ea in A2 at 2. rewrite Rabs_mult, (Rabs_pos_eq b) in A2 by lra. assert (PQ := Rabs_pos q).
      assert (X : Rabs q * Rabs (real_of y - b) <= Rabs q * (k * uu * b)) by (apply Rmult_le_compat_l; assumption).
      apply Rle_trans with ((j + k) * uu * (Rabs q * b)); [lra|].
      apply Rle_trans with ((j + k + 1/100) * uu * Rabs q * ((1 - k * uu) * b)).
      - replace ((j + k + 1/100) * uu * Rabs q * ((1 - k * uu) * b)) with (((j + k + 1/100) * (1 - k * uu)) * uu * (Rabs q * b)) by ring.
        apply Rmult_le_compat_r; [nra|]. apply Rmult_le_compat_r; [lra|]. nra.
      - apply Rmult_le_compat_l; [|lra]. apply Rmult_le_pos; [|exact PQ]. nra. }
    assert (N : near (x / y)%b64 p).
    { apply div_near; [exact A1|exact B1|lra|]. fold p. apply Rle_trans with (2 * Rabs q); [|apply hi_huge, H].
      apply Rle_trans with (Rabs (p - q) + Rabs q).
      - replace p with ((p - q) + q) at 1 by ring. apply Rabs_triang.
      - assert (PZ := Rabs_pos q). assert ((j + k + 1/100) * uu <= 1) by nra. nra. }
    replace (j + k + 102/100) with ((j + k + 1/100) + 101/100) by lra.
    apply (un_round _ p); [exact N|exact L|lra|exact P].
Qed.

Lemma un_sqrt x z k n : units x z k -> btw (n + n) z -> (n <= 400)%nat -> 0 <= k <= 80 -> units (fsqrt x) (sqrt z) (k / 2 + 102/100).
Proof.
  intros H B Hn Hk. pose proof (btw_pos _ _ B) as P. apply units_ru in H; [|exact P].
  assert (B2 := btw_sqrt n _ B). apply ru_units; [apply (btw_pos _ _ B2)|].
  apply ru_sqrt; [exact H|exact P|exact Hk|]. apply (btw_room n); [exact B2|lia].
Qed.

(* ------------------------------------------------------------------ *)
(** * Sizes *)

Lemma zb_btw n z : btw n z -> zb n z.
Proof. intros B. right. rewrite Rabs_pos_eq; [exact B|]. left. apply (btw_pos n z B). Qed.
Lemma zb_signed z : signed z -> zb 50 z.
Proof.
  intros [H|[H|H]]; [left; exact H|apply zb_btw, H|]. right. rewrite <- Rabs_Ropp. destruct (zb_btw 50 (- z) H) as [E|B]; [|exact B].
  exfalso. pose proof (btw_pos 50 (- z) H). lra.
Qed.
Lemma zb_mul n m a b : zb n a -> zb m b -> zb (n + m) (a * b).
Proof.
  intros [A|A] [B|B]; [left; rewrite A; ring|left; rewrite A; ring|left; rewrite B; ring|]. right. rewrite Rabs_mult. apply btw_mul; assumption.
Qed.
Lemma zb_div n m a b : zb n a -> btw m b -> zb (n + m) (a / b).
Proof.
  intros [A|A] B; [left; rewrite A; unfold Rdiv; ring|]. right. pose proof (btw_pos m b B). unfold Rdiv. rewrite Rabs_mult.
  apply btw_mul; [exact A|]. rewrite Rabs_pos_eq by (left; apply Rinv_0_lt_compat; assumption). apply btw_inv, B.
Qed.

(* ------------------------------------------------------------------ *)
(** * The constants *)

Ltac ulit d m e := apply ru_units; [lra|]; lit d m e.
Lemma foot_val : units foot64 (3048/10000) 1.
Proof. unfold foot64. ulit b_0_3048 5490788665690109%positive (-54)%Z. Qed.
Lemma cm_val : units b_1e_2 (1/100) 1.
Proof. ulit b_1e_2 5764607523034235%positive (-59)%Z. Qed.
Lemma cm2_val : units b_1e_4 (1/10000) 1.
Proof. ulit b_1e_4 7378697629483821%positive (-66)%Z. Qed.
Lemma half_val : is_number b_0_5 /\ real_of b_0_5 = 1/2.
Proof. destruct (literal 4503599627370496 (-53) eq_refl) as [A B]. split; [exact A|]. unfold b_0_5. rewrite B. simpl. lra. Qed.
Lemma t2e_3 : units b_2e_3 (2/1000) 1.
Proof. ulit b_2e_3 4611686018427388%positive (-61)%Z. Qed.
Lemma t6e_2 : units b_6e_2 (6/100) 1.
Proof. ulit b_6e_2 8646911284551352%positive (-57)%Z. Qed.
Lemma t5e_3 : units b_5e_3 (5/1000) 1.
Proof. ulit b_5e_3 5764607523034235%positive (-60)%Z. Qed.
Lemma t5 : units b_5 5 1.
Proof. ulit b_5 5629499534213120%positive (-50)%Z. Qed.

(** 1/(12*(1/0.3048)) rounds to the float after the one nearest to 0.0254. *)
Lemma inch_bits : inch64 = @B754_finite 53 1024 false 7321051554253479 (-58) eq_refl.
Proof. apply B2SF_inj. vm_compute. reflexivity. Qed.
Lemma inch_val : units inch64 (254/10000) 1.
Proof. rewrite inch_bits. apply ru_units; [lra|]. destruct (literal 7321051554253479 (-58) eq_refl) as [A B]. split; [exact A|]. rewrite B. unfold uu. simpl. lra. Qed.

Lemma const_zb z : / 2 ^ 50 <= z <= 2 ^ 50 -> btw 50 z. Proof. intros H; exact H. Qed.
Ltac sz := apply const_zb; split; [apply Rle_trans with (/ 10 ^ 10); [apply Rinv_le_contravar; lra|lra]|lra].

(** * The conversions *)
Lemma length_ok u v c z : units v c 1 -> c = z / length_unit u -> zb 50 z -> units (length64 (is_si u) v) z 4.
Proof.
  intros H E Z. destruct u; simpl in *.
  - apply (un_weaken _ _ 1); [lra|]. replace z with c by (rewrite E; field). exact H.
  - replace z with (c * (3048/10000)) in * by (rewrite E; field). eapply un_weaken; [|apply (un_mul _ _ _ _ 1 1 50 H foot_val); try lra; [exact Z|lia]]. lra.
Qed.
Lemma thick_ok u v c z : units v c 1 -> c = z / thickness_unit u -> zb 50 z -> units (thick64 (is_si u) v) z 4.
Proof.
  intros H E Z. destruct u; simpl in *.
  - replace z with (c * (1/100)) in * by (rewrite E; field). eapply un_weaken; [|apply (un_mul _ _ _ _ 1 1 50 H cm_val); try lra; [exact Z|lia]]. lra.
  - replace z with (c * (254/10000)) in * by (rewrite E; field). eapply un_weaken; [|apply (un_mul _ _ _ _ 1 1 50 H inch_val); try lra; [exact Z|lia]]. lra.
Qed.
Lemma foot_sq sq : squares sq -> units (sq foot64) (9290304 / 100000000) 5.
Proof.
  intros S. destruct foot_val as [A B]. assert (B0 : btw 50 (3048/10000)) by sz.
  assert (F0 : ru foot64 (3048/10000) 1) by (apply units_ru; [lra|exact foot_val]).
  assert (R1 := ru_sq sq foot64 (3048/10000) 1 S F0 (btw_weaken 50 300 (3048/10000) ltac:(lia) B0) (conj Rle_0_1 (IZR_le 1 20 ltac:(lia)))).
  replace (3048 / 10000 * (3048 / 10000)) with (9290304 / 100000000) in R1 by lra.
  apply (un_weaken _ _ (2 * 1 + 202/100)); [lra|]. apply ru_units; [lra|exact R1].
Qed.
Lemma visc_ok sq u v c z : squares sq -> units v c 1 -> c = z / viscosity_unit u -> zb 50 z -> units (visc64 sq (is_si u) v) z 8.
Proof.
  intros S H E Z. destruct u; simpl in *.
  - replace z with (c * (1/10000)) in * by (rewrite E; field). eapply un_weaken; [|apply (un_mul _ _ _ _ 1 1 50 H cm2_val); try lra; [exact Z|lia]]. lra.
  - replace z with (c * (9290304 / 100000000)) in * by (rewrite E; field). eapply un_weaken; [|apply (un_mul _ _ _ _ 1 5 50 H (foot_sq sq S)); try lra; [exact Z|lia]]. lra.
Qed.

(** * The setters and the checks *)
Lemma un_pos x z k : units x z k -> 0 < z -> 0 <= k <= 100 -> 0 < real_of x.
Proof. intros H Z K. apply units_ru in H; [|exact Z]. destruct H as [_ [H _]]. destruct uu_small as [U0 U1]. assert (k * uu <= / 10 ^ 13) by nra. nra. Qed.
Lemma fle_number x y : is_number x -> is_number y -> fle x y = Rle_bool (real_of x) (real_of y).
Proof. apply Bleb_correct. Qed.
Lemma positive_ok x z k : units x z k -> 0 < z -> 0 <= k <= 100 -> positive64 x = Ok x.
Proof.
  intros H Z K. pose proof (un_pos _ _ _ H Z K) as P. unfold positive64. rewrite fle_number by (try apply H; apply zero_val).
  rewrite (proj2 zero_val), Rle_bool_false by exact P. reflexivity.
Qed.
Lemma fabs_val x : is_number x -> is_number (fabs x) /\ real_of (fabs x) = Rabs (real_of x).
Proof. unfold is_number, real_of, fabs. intros H. rewrite is_finite_Babs, B2R_Babs. auto. Qed.
Lemma py_div_ok x y z k : units y z k -> 0 < z -> 0 <= k <= 100 -> py_div64 x y = Ok (x / y)%b64.
Proof.
  intros H Z K. pose proof (un_pos _ _ _ H Z K) as P. unfold py_div64. rewrite feq_number by (try apply H; apply zero_val).
  rewrite (proj2 zero_val), Req_bool_false by lra. reflexivity.
Qed.

Definition off1 : R := / 10 ^ 5.
(** The computed absolute difference. *)
Lemma gap_near A B a b d : within A a d -> within B b d -> 0 <= d <= 1 -> Rabs a <= 10 ^ 6 -> Rabs b <= 10 ^ 6 ->
  is_number (fabs (A - B)) /\ Rabs (real_of (fabs (A - B)) - Rabs (a - b)) <= 2 * d + / 10 ^ 8.
Proof.
  intros [NA HA] [NB HB] Hd Ha Hb. destruct uu_small as [U0 U1]. assert (T := tiny_uu).
  assert (D : Rabs (real_of A - real_of B) <= 4 * 10 ^ 6).
  { apply Rabs_le_inv in HA, HB, Ha, Hb. apply Rabs_le. lra. }
  assert (Hh : 4 * 10 ^ 6 <= huge). { apply Rle_trans with hi9; [|pose proof (hi_huge hi9 (Rle_refl _)); assert (0 < hi9) by (apply pow_lt; lra); lra].
    unfold hi9. apply Rle_trans with (2 ^ 30); [lra|]. apply Rle_pow; [lra|lia]. }
  destruct (sub_near A B NA NB ltac:(lra)) as [N E]. destruct (fabs_val _ N) as [N2 E2]. split; [exact N2|]. rewrite E2.
  apply Rle_trans with (Rabs (real_of (A - B)%b64 - (a - b))).
  - apply Rabs_triang_inv2.
  - replace (real_of (A - B)%b64 - (a - b)) with ((real_of (A - B)%b64 - (real_of A - real_of B)) + ((real_of A - a) - (real_of B - b))) by ring.
    eapply Rle_trans; [apply Rabs_triang|].
    assert (Rabs (real_of A - a - (real_of B - b)) <= 2 * d) by (apply Rabs_le_inv in HA, HB; apply Rabs_le; lra).
    assert (uu * Rabs (real_of A - real_of B) <= / 10 ^ 15 * (4 * 10 ^ 6)) by (apply Rmult_le_compat; [lra|apply Rabs_pos|exact U1|exact D]).
    lra.
Qed.

Lemma thr_val T t : units T t 1 -> 2/1000 <= t <= 5 -> is_number T /\ Rabs (real_of T - t) <= / 10 ^ 9 * t.
Proof.
  intros [N H] Ht. split; [exact N|]. rewrite (Rabs_pos_eq t) in H by lra. apply (Rle_trans _ _ _ H). apply Rmult_le_compat_r; lra.
Qed.

Lemma agree_yes T t A B a b d : units T t 1 -> 2/1000 <= t <= 5 -> within A a d -> within B b d -> 0 <= d <= 1 -> 2 * d + / 10 ^ 8 <= 9/10 * off1 * t -> Rabs a <= 10 ^ 6 -> Rabs b <= 10 ^ 6 ->
  Rabs (a - b) < (1 - off1) * t -> agree64 T A B = Ok tt /\ not_beyond64 T A B = Ok tt.
Proof.
  intros HT Ht HA HB Hd Hd2 Ha Hb H. destruct (gap_near A B a b d HA HB ltac:(lra) Ha Hb) as [N E]. destruct (thr_val T t HT Ht) as [NT ET].
  apply Rabs_le_inv in E, ET. unfold off1 in H, Hd2.
  assert (real_of (fabs (A - B)) < real_of T) by lra.
  unfold agree64, not_beyond64. rewrite fle_number, flt_number by assumption. rewrite Rle_bool_false, Rlt_bool_false by lra. auto.
Qed.
Lemma agree_no T t A B a b d : units T t 1 -> 2/1000 <= t <= 5 -> within A a d -> within B b d -> 0 <= d <= 1 -> 2 * d + / 10 ^ 8 <= 9/10 * off1 * t -> Rabs a <= 10 ^ 6 -> Rabs b <= 10 ^ 6 ->
  agree64 T A B = Ok tt \/ not_beyond64 T A B = Ok tt -> Rabs (a - b) < (1 + off1) * t.
Proof.
  intros HT Ht HA HB Hd Hd2 Ha Hb H. destruct (gap_near A B a b d HA HB ltac:(lra) Ha Hb) as [N E]. destruct (thr_val T t HT Ht) as [NT ET].
  apply Rabs_le_inv in E, ET. unfold off1 in *.
  assert (real_of (fabs (A - B)) <= real_of T).
  { unfold agree64, not_beyond64 in H. rewrite fle_number, flt_number in H by assumption. destruct H as [H|H].
    - destruct (Rle_bool_spec (real_of T) (real_of (fabs (A - B)))) as [L|L]; [discriminate H|lra].
    - destruct (Rlt_bool_spec (real_of T) (real_of (fabs (A - B)))) as [L|L]; [discriminate H|lra]. }
  lra.
Qed.

Lemma un_within x z k : units x z k -> 0 <= k <= 30 -> Rabs z <= 10 ^ 6 -> within x z (/ 10 ^ 8 / 3).
Proof.
  intros [N H] Hk Hz. split; [exact N|]. apply (Rle_trans _ _ _ H). change (k / 2 ^ 53) with (k * uu).
  destruct uu_small as [U0 U1]. assert (PZ := Rabs_pos z).
  apply Rle_trans with (30 * / 2 ^ 53 * 10 ^ 6); [apply Rmult_le_compat; [nra|lra| |lra]; unfold uu; apply Rmult_le_compat_r; lra|lra].
Qed.

(** * The rows *)
Lemma sized_btw z : sized z -> btw 50 z. Proof. intros H. exact H. Qed.
Lemma sized_pos z : sized z -> 0 < z. Proof. apply (btw_pos 50). Qed.
Lemma self_div z : z = z / 1. Proof. field. Qed.

Lemma product_ok x y a b : units x a 4 -> units y b 1 -> sized a -> sized b -> units (y * x)%b64 (b * a) 7.
Proof.
  intros H1 H2 S1 S2. eapply un_weaken; [|apply (un_mul _ _ _ _ 1 4 100 H2 H1); try lra; [apply zb_btw, (btw_mul 50 50); assumption|lia]]. lra.
Qed.
Lemma friction_velocity_ok ue cf u c : units ue u 4 -> units cf c 1 -> sized u -> sized c ->
  units (ue * fsqrt (b_0_5 * cf))%b64 (u * sqrt (c / 2)) 8.
Proof.
  intros H1 H2 S1 S2. destruct half_val as [HN HV].
  assert (H0 : units b_0_5 (1/2) 0). { split; [exact HN|]. rewrite HV, Rminus_diag_eq, Rabs_R0 by reflexivity. lra. }
  assert (B0 : btw 50 (1/2)) by sz. assert (B1 := btw_mul _ _ _ _ B0 (sized_btw _ S2)).
  assert (U1 := un_mul _ _ _ _ 0 1 100 H0 H2 ltac:(lra) ltac:(lra) (zb_btw _ _ B1) ltac:(lia)).
  replace (c / 2) with (1/2 * c) by lra.
  assert (U2 := un_sqrt _ _ _ 50 U1 B1 ltac:(lia) ltac:(lra)).
  eapply un_weaken; [|apply (un_mul _ _ _ _ 4 _ 100 H1 U2); try lra; [apply zb_btw, (btw_mul 50 50); [exact S1|apply (btw_sqrt 50), B1]|lia]]. lra.
Qed.

Ltac okp H := rewrite (positive_ok _ _ _ H) by (first [lra|assumption|apply sized_pos; assumption]).

(** What the first pass leaves. *)
Definition first_pass (s : station64) (f : flow) : Prop :=
  shows_common64 s f /\
  units (t_x s) (f_x f) 4 /\ units (t_u_e s) (f_u_e f) 4 /\ units (t_delta_m s) (f_theta f) 4 /\
  units (t_shape_d s) (f_h f) 1 /\ units (t_shape_k s) (f_hs f) 1 /\ units (t_shape_eq s) (f_g f) 1 /\
  units (t_delta_d s) (f_h f * f_theta f) 7 /\ units (t_delta_k s) (f_hs f * f_theta f) 7 /\
  units (t_u_star s) (f_u_e f * sqrt (f_cf f / 2)) 8.

Lemma summary_ok u f row : reads row (summary_columns u f) -> sized_flow f -> exists s, summary64 (is_si u) row = Ok s /\ first_pass s f.
Proof.
  intros HR (S1 & S2 & S3 & S4 & S5 & S6 & S7). unfold reads, summary_columns in HR.
  inversion HR as [|x ? r1 ? X1 Y1]; subst. inversion Y1 as [|ui ? r2 ? X2 Y2]; subst. inversion Y2 as [|dui ? r3 ? X3 Y3]; subst.
  inversion Y3 as [|theta ? r4 ? X4 Y4]; subst. inversion Y4 as [|h ? r5 ? X5 Y5]; subst. inversion Y5 as [|hs ? r6 ? X6 Y6]; subst.
  inversion Y6 as [|g ? r7 ? X7 Y7]; subst. inversion Y7 as [|cf ? r8 ? X8 Y8]; subst. inversion Y8 as [|cflt ? r9 ? X9 Y9]; subst.
  inversion Y9 as [|cfe ? r10 ? X10 Y10]; subst. inversion Y10 as [|beta ? r11 ? X11 Y11]; subst. inversion Y11; subst.
  clear HR Y1 Y2 Y3 Y4 Y5 Y6 Y7 Y8 Y9 Y10 Y11.
  assert (A1 := length_ok u x _ (f_x f) X1 eq_refl (zb_signed _ S1)).
  assert (A2 := length_ok u ui _ (f_u_e f) X2 eq_refl (zb_btw _ _ S2)).
  assert (A3 := thick_ok u theta _ (f_theta f) X4 eq_refl (zb_btw _ _ S3)).
  assert (A4 := product_ok _ _ _ _ A3 X5 S3 S4). assert (A5 := product_ok _ _ _ _ A3 X6 S3 S5).
  assert (A6 := friction_velocity_ok _ _ _ _ A2 X8 S2 S7).
  assert (P4 : 0 < f_h f * f_theta f) by (apply Rmult_lt_0_compat; apply sized_pos; assumption).
  assert (P5 : 0 < f_hs f * f_theta f) by (apply Rmult_lt_0_compat; apply sized_pos; assumption).
  assert (P6 : 0 < f_u_e f * sqrt (f_cf f / 2)).
  { apply Rmult_lt_0_compat; [apply sized_pos; assumption|]. apply sqrt_lt_R0. apply sized_pos in S7. lra. }
  unfold summary64. okp A2. cbn [bind]. okp A3. cbn [bind]. okp X5. cbn [bind]. okp X6. cbn [bind]. okp X7. cbn [bind].
  okp A4. cbn [bind]. okp A5. cbn [bind]. okp A6. cbn [bind].
  eexists. split; [reflexivity|]. unfold first_pass, shows_common64. cbn [t_x t_u_e t_du_e t_delta_m t_shape_d t_shape_k t_shape_eq t_c_f t_c_f_lt t_c_f_exp t_beta_eq t_u_star t_nu t_delta_d t_delta_k].
  repeat split; try apply X3; try apply X8; try apply X9; try apply X10; try apply X11; try apply A1; try apply A2; try apply A3; try apply X5; try apply X6;
    try apply X7; try apply A4; try apply A5; try apply A6.
Qed.

Lemma flow_row64 u f row : reads row (summary_columns u f) -> sized_flow f ->
  exists s, summary64 (is_si u) row = Ok s /\ shows_flow64 8 s f.
Proof.
  intros HR HS. destruct (summary_ok u f row HR HS) as (s & E & C & H1 & H2 & H3 & H4 & H5 & H6 & H7 & H8 & H9).
  exists s. split; [exact E|]. split; [exact C|].
  repeat match goal with |- _ /\ _ => split end; (eapply un_weaken; [|eassumption]; lra).
Qed.

(** ** The station line *)
Lemma reynolds_ok ue d v a b c : units ue a 4 -> units d b 4 -> units v c 8 -> sized a -> sized b -> sized c ->
  units (ue * d / v)%b64 (a * b / c) 19.
Proof.
  intros H1 H2 H3 S1 S2 S3. assert (B1 := btw_mul _ _ _ _ (sized_btw _ S1) (sized_btw _ S2)).
  assert (U1 := un_mul _ _ _ _ 4 4 100 H1 H2 ltac:(lra) ltac:(lra) (zb_btw _ _ B1) ltac:(lia)).
  eapply un_weaken; [|apply (un_div _ _ _ _ _ 8 150 U1 H3 (sized_pos _ S3)); try lra; [apply zb_btw, (btw_div 100 50); assumption|lia]]. lra.
Qed.

Definition allowed : R := / 10 ^ 8 / 3.
Lemma allowed_ok t : 2/1000 <= t -> 2 * allowed + / 10 ^ 8 <= 9/10 * off1 * t.
Proof. unfold allowed, off1. lra. Qed.

Lemma detail_ok sq u f d row row2 : squares sq -> reads row (summary_columns u f) -> sized_flow f ->
  reads row2 (detail_columns u d) -> sized_detail d -> tame (compared f d) ->
  (agree_by (1 - off1) (compared f d) -> exists s, station_of64 sq (is_si u) row row2 = Ok s /\ shows_detail64 8 s f d) /\
  (forall s, station_of64 sq (is_si u) row row2 = Ok s -> agree_by (1 + off1) (compared f d) /\ shows_detail64 8 s f d).
Proof.
  intros SQ HR HS HR2 (S1 & S2 & S3 & S4 & S5 & S6 & S7 & S8 & S9 & S10 & S11 & S12 & S13) HT.
  destruct (summary_ok u f row HR HS) as (s0 & E0 & C & H1 & H2 & H3 & H4 & H5 & H6 & H7 & H8 & H9).
  destruct HS as (F1 & F2 & F3 & F4 & F5 & F6 & F7).
  unfold station_of64. rewrite E0. cbn [bind]. clear HR E0.
  unfold reads, detail_columns in HR2.
  inversion HR2 as [|x ? r1 ? X1 Y1]; subst. inversion Y1 as [|us ? r2 ? X2 Y2]; subst. inversion Y2 as [|ui ? r3 ? X3 Y3]; subst.
  inversion Y3 as [|v ? r4 ? X4 Y4]; subst. inversion Y4 as [|theta ? r5 ? X5 Y5]; subst. inversion Y5 as [|dels ? r6 ? X6 Y6]; subst.
  inversion Y6 as [|enth ? r7 ? X7 Y7]; subst. inversion Y7 as [|clth ? r8 ? X8 Y8]; subst. inversion Y8 as [|h ? r9 ? X9 Y9]; subst.
  inversion Y9 as [|g ? r10 ? X10 Y10]; subst. inversion Y10 as [|hs ? r11 ? X11 Y11]; subst. inversion Y11 as [|rt ? r12 ? X12 Y12]; subst.
  inversion Y12 as [|rd ? r13 ? X13 Y13]; subst. inversion Y13; subst.
  clear HR2 Y1 Y2 Y3 Y4 Y5 Y6 Y7 Y8 Y9 Y10 Y11 Y12 Y13.
  assert (A1 := length_ok u x _ (d_x d) X1 eq_refl (zb_signed _ S1)).
  assert (A2 := length_ok u us _ (d_us d) X2 eq_refl (zb_btw _ _ S2)).
  assert (A3 := length_ok u ui _ (d_u_e d) X3 eq_refl (zb_btw _ _ S3)).
  assert (A4 := visc_ok sq u v _ (d_nu d) SQ X4 eq_refl (zb_btw _ _ S4)).
  assert (A5 := thick_ok u theta _ (d_theta d) X5 eq_refl (zb_btw _ _ S5)).
  assert (A6 := thick_ok u dels _ (d_dels d) X6 eq_refl (zb_btw _ _ S6)).
  assert (A7 := thick_ok u enth _ (d_enth d) X7 eq_refl (zb_btw _ _ S7)).
  assert (A8 := thick_ok u clth _ (d_clth d) X8 eq_refl (zb_btw _ _ S8)).
  assert (B1 := product_ok _ _ _ _ H3 H4 F3 F4). assert (B2 := product_ok _ _ _ _ H3 H5 F3 F5).
  assert (B3 := reynolds_ok _ _ _ _ _ _ H2 A6 A4 F2 S6 S4). assert (B4 := reynolds_ok _ _ _ _ _ _ H2 A5 A4 F2 S5 S4).
  assert (B5 := friction_velocity_ok _ _ _ _ H2 (proj1 (proj2 C)) F2 F7).
  unfold detail64. set (x' := length64 (is_si u) x) in *. set (us' := length64 (is_si u) us) in *. set (ui' := length64 (is_si u) ui) in *.
  set (v' := visc64 sq (is_si u) v) in *. set (th' := thick64 (is_si u) theta) in *. set (de' := thick64 (is_si u) dels) in *.
  set (en' := thick64 (is_si u) enth) in *. set (cl' := thick64 (is_si u) clth) in *.
  clearbody x' us' ui' v' th' de' en' cl'. cbv zeta.
  rewrite !(py_div_ok _ v' _ _ A4) by (first [lra|apply sized_pos; assumption]). cbn [bind].
  unfold tame, compared in HT. unfold agree_by, compared.
  repeat match goal with H : List.Forall _ (_ :: _) |- _ => inversion H as [|? ? ? ?]; clear H; subst end.
  repeat match goal with H : Rabs _ <= _ /\ Rabs _ <= _ |- _ => destruct H end.
  assert (W : forall z k x, units x z k -> 0 <= k <= 30 -> Rabs z <= 10 ^ 6 -> within x z allowed) by (intros; eapply un_within; eassumption).
  assert (AL : 0 <= allowed <= 1) by (unfold allowed; lra).
  assert (SD : forall us1 ui1 v1 th1 de1 en1 cl1 h1 g1 hs1 rt1 rd1, us1 = us' -> ui1 = ui' -> v1 = v' -> th1 = th' -> de1 = de' -> en1 = en' ->
    cl1 = cl' -> h1 = h -> g1 = g -> hs1 = hs -> rt1 = rt -> rd1 = rd ->
    shows_detail64 8 {| t_x := x'; t_u_e := ui1; t_du_e := t_du_e s0; t_delta_m := th1; t_shape_d := h1; t_shape_k := hs1;
            t_shape_eq := g1; t_c_f := t_c_f s0; t_c_f_lt := t_c_f_lt s0; t_c_f_exp := t_c_f_exp s0;
            t_beta_eq := t_beta_eq s0; t_u_star := us1; t_nu := v1; t_delta_d := de1; t_delta_k := en1;
            t_delta_c := cl1; t_re_delta_m := rt1; t_re_delta_d := rd1 |} f d).
  { intros. subst. split; [exact C|]. cbn [t_x t_u_e t_du_e t_delta_m t_shape_d t_shape_k t_shape_eq t_c_f t_c_f_lt t_c_f_exp t_beta_eq t_u_star t_nu t_delta_d t_delta_k t_delta_c t_re_delta_m t_re_delta_d].
    repeat match goal with |- _ /\ _ => split end; (eapply un_weaken; [|eassumption]; lra). }
  assert (POS : forall (A : Type) (k : b64 -> res A) x z j, units x z j -> 0 < z -> 0 <= j <= 20 -> bind (positive64 x) k = k x).
  { intros A k y z j Hu Hz Hj. rewrite (positive_ok y z j Hu Hz) by lra. reflexivity. }
  split.
  - intros HA. repeat match goal with H : List.Forall _ (_ :: _) |- _ => inversion H as [|? ? ? ?]; clear H; subst end.
    assert (YES : forall T t A B a b j k, units T t 1 -> 2/1000 <= t <= 5 -> units A a j -> units B b k -> 0 <= j <= 30 -> 0 <= k <= 30 ->
      Rabs a <= 10 ^ 6 -> Rabs b <= 10 ^ 6 -> Rabs (a - b) < (1 - off1) * t -> agree64 T A B = Ok tt).
    { intros T t A B a b j k E1 E2 E3 E4 E5 E6 E7 E8 E9.
      apply (agree_yes T t A B a b allowed E1 E2 (W _ _ _ E3 E5 E7) (W _ _ _ E4 E6 E8) AL (allowed_ok t (proj1 E2)) E7 E8 E9). }
    rewrite (YES _ _ _ _ _ _ _ _ t2e_3 ltac:(lra) A1 H1 ltac:(lra) ltac:(lra)) by assumption. cbn [bind].
    rewrite (YES _ _ _ _ _ _ _ _ t6e_2 ltac:(lra) A3 H2 ltac:(lra) ltac:(lra)) by assumption. cbn [bind].
    rewrite (YES _ _ _ _ _ _ _ _ t2e_3 ltac:(lra) A5 H3 ltac:(lra) ltac:(lra)) by assumption. cbn [bind].
    rewrite (YES _ _ _ _ _ _ _ _ t2e_3 ltac:(lra) X9 H4 ltac:(lra) ltac:(lra)) by assumption. cbn [bind].
    rewrite (YES _ _ _ _ _ _ _ _ t2e_3 ltac:(lra) X11 H5 ltac:(lra) ltac:(lra)) by assumption. cbn [bind].
    rewrite (YES _ _ _ _ _ _ _ _ t2e_3 ltac:(lra) X10 H6 ltac:(lra) ltac:(lra)) by assumption. cbn [bind].
    rewrite (YES _ _ _ _ _ _ _ _ t5e_3 ltac:(lra) A6 B1 ltac:(lra) ltac:(lra)) by assumption. cbn [bind].
    rewrite (YES _ _ _ _ _ _ _ _ t5e_3 ltac:(lra) A7 B2 ltac:(lra) ltac:(lra)) by assumption. cbn [bind].
    rewrite (YES _ _ _ _ _ _ _ _ t5 ltac:(lra) X13 B3 ltac:(lra) ltac:(lra)) by assumption. cbn [bind].
    rewrite (YES _ _ _ _ _ _ _ _ t5 ltac:(lra) X12 B4 ltac:(lra) ltac:(lra)) by assumption. cbn [bind].
    rewrite (YES _ _ _ _ _ _ _ _ t5e_3 ltac:(lra) A2 B5 ltac:(lra) ltac:(lra)) by assumption. cbn [bind].
    rewrite (POS _ _ _ _ _ A2) by (first [lra|apply sized_pos; assumption]). rewrite (POS _ _ _ _ _ A3) by (first [lra|apply sized_pos; assumption]).
    rewrite (POS _ _ _ _ _ A4) by (first [lra|apply sized_pos; assumption]). rewrite (POS _ _ _ _ _ A5) by (first [lra|apply sized_pos; assumption]).
    rewrite (POS _ _ _ _ _ A6) by (first [lra|apply sized_pos; assumption]). rewrite (POS _ _ _ _ _ A7) by (first [lra|apply sized_pos; assumption]).
    rewrite (POS _ _ _ _ _ A8) by (first [lra|apply sized_pos; assumption]). rewrite (POS _ _ _ _ _ X9) by (first [lra|apply sized_pos; assumption]).
    rewrite (POS _ _ _ _ _ X10) by (first [lra|apply sized_pos; assumption]). rewrite (POS _ _ _ _ _ X11) by (first [lra|apply sized_pos; assumption]).
    rewrite (POS _ _ _ _ _ X12) by (first [lra|apply sized_pos; assumption]). rewrite (POS _ _ _ _ _ X13) by (first [lra|apply sized_pos; assumption]).
    eexists. split; [reflexivity|]. apply SD; reflexivity.
  - intros s HE.
    assert (BS : forall (A : Type) (m : res unit) (k : unit -> res A) r, bind m k = Ok r -> m = Ok tt /\ k tt = Ok r).
    { intros A m k r Hb. destruct m as [[]|e]; [split; [reflexivity|exact Hb]|discriminate Hb]. }
    assert (NO : forall T t A B a b j k, units T t 1 -> 2/1000 <= t <= 5 -> units A a j -> units B b k -> 0 <= j <= 30 -> 0 <= k <= 30 ->
      Rabs a <= 10 ^ 6 -> Rabs b <= 10 ^ 6 -> agree64 T A B = Ok tt -> Rabs (a - b) < (1 + off1) * t).
    { intros T t A B a b j k E1 E2 E3 E4 E5 E6 E7 E8 E9.
      apply (agree_no T t A B a b allowed E1 E2 (W _ _ _ E3 E5 E7) (W _ _ _ E4 E6 E8) AL (allowed_ok t (proj1 E2)) E7 E8 (or_introl E9)). }
    apply BS in HE. destruct HE as [Q1 HE]. apply BS in HE. destruct HE as [Q2 HE]. apply BS in HE. destruct HE as [Q3 HE].
    apply BS in HE. destruct HE as [Q4 HE]. apply BS in HE. destruct HE as [Q5 HE]. apply BS in HE. destruct HE as [Q6 HE].
    apply BS in HE. destruct HE as [Q7 HE]. apply BS in HE. destruct HE as [Q8 HE]. apply BS in HE. destruct HE as [Q9 HE].
    apply BS in HE. destruct HE as [Q10 HE]. apply BS in HE. destruct HE as [Q11 HE].
    rewrite (POS _ _ _ _ _ A2) in HE by (first [lra|apply sized_pos; assumption]). rewrite (POS _ _ _ _ _ A3) in HE by (first [lra|apply sized_pos; assumption]).
    rewrite (POS _ _ _ _ _ A4) in HE by (first [lra|apply sized_pos; assumption]). rewrite (POS _ _ _ _ _ A5) in HE by (first [lra|apply sized_pos; assumption]).
    rewrite (POS _ _ _ _ _ A6) in HE by (first [lra|apply sized_pos; assumption]). rewrite (POS _ _ _ _ _ A7) in HE by (first [lra|apply sized_pos; assumption]).
    rewrite (POS _ _ _ _ _ A8) in HE by (first [lra|apply sized_pos; assumption]). rewrite (POS _ _ _ _ _ X9) in HE by (first [lra|apply sized_pos; assumption]).
    rewrite (POS _ _ _ _ _ X10) in HE by (first [lra|apply sized_pos; assumption]). rewrite (POS _ _ _ _ _ X11) in HE by (first [lra|apply sized_pos; assumption]).
    rewrite (POS _ _ _ _ _ X12) in HE by (first [lra|apply sized_pos; assumption]). rewrite (POS _ _ _ _ _ X13) in HE by (first [lra|apply sized_pos; assumption]).
    injection HE as <-. split; [|apply SD; reflexivity].
    repeat apply List.Forall_cons; try apply List.Forall_nil.
    + apply (NO _ _ _ _ _ _ _ _ t2e_3 ltac:(lra) A1 H1 ltac:(lra) ltac:(lra)); assumption.
    + apply (NO _ _ _ _ _ _ _ _ t6e_2 ltac:(lra) A3 H2 ltac:(lra) ltac:(lra)); assumption.
    + apply (NO _ _ _ _ _ _ _ _ t2e_3 ltac:(lra) A5 H3 ltac:(lra) ltac:(lra)); assumption.
    + apply (NO _ _ _ _ _ _ _ _ t2e_3 ltac:(lra) X9 H4 ltac:(lra) ltac:(lra)); assumption.
    + apply (NO _ _ _ _ _ _ _ _ t2e_3 ltac:(lra) X11 H5 ltac:(lra) ltac:(lra)); assumption.
    + apply (NO _ _ _ _ _ _ _ _ t2e_3 ltac:(lra) X10 H6 ltac:(lra) ltac:(lra)); assumption.
    + apply (NO _ _ _ _ _ _ _ _ t5e_3 ltac:(lra) A6 B1 ltac:(lra) ltac:(lra)); assumption.
    + apply (NO _ _ _ _ _ _ _ _ t5e_3 ltac:(lra) A7 B2 ltac:(lra) ltac:(lra)); assumption.
    + apply (NO _ _ _ _ _ _ _ _ t5 ltac:(lra) X13 B3 ltac:(lra) ltac:(lra)); assumption.
    + apply (NO _ _ _ _ _ _ _ _ t5 ltac:(lra) X12 B4 ltac:(lra) ltac:(lra)); assumption.
    + apply (NO _ _ _ _ _ _ _ _ t5e_3 ltac:(lra) A2 B5 ltac:(lra) ltac:(lra)); assumption.
Qed.

(** ** The profile samples *)
Lemma defect_ok A B C a b c : units A a 8 -> units B b 11 -> units C c 8 -> sized a -> zb 100 b -> sized c ->
  Rabs (b / c) <= 10 ^ 6 -> Rabs ((a - b) / c) <= 10 ^ 6 -> within ((A - B) / C)%b64 ((a - b) / c) (/ 10 ^ 6).
Proof.
  intros [NA HA] [NB HB] HC Sa Sb Sc Hb Hq. pose proof (un_pos _ _ _ HC (sized_pos _ Sc) ltac:(lra)) as PC.
  pose proof (sized_pos _ Sc) as Pc. pose proof (sized_pos _ Sa) as Pa. destruct HC as [NC HC].
  destruct uu_small as [U0 U1]. assert (T := tiny_uu). change (8 / 2 ^ 53) with (8 * uu) in *. change (11 / 2 ^ 53) with (11 * uu) in *.
  rewrite (Rabs_pos_eq a) in HA by lra. rewrite (Rabs_pos_eq c) in HC by lra.
  set (q := (a - b) / c) in *.
  assert (Eb : b = b / c * c) by (field; lra). assert (Hb' : Rabs b <= 10 ^ 6 * c).
  { rewrite Eb, Rabs_mult, (Rabs_pos_eq c) by lra. apply Rmult_le_compat_r; lra. }
  assert (Ea : a - b = q * c) by (unfold q; field; lra). assert (Hd : Rabs (a - b) <= 10 ^ 6 * c).
  { rewrite Ea, Rabs_mult, (Rabs_pos_eq c) by lra. apply Rmult_le_compat_r; lra. }
  assert (Ha' : a <= 2 * 10 ^ 6 * c). { apply Rabs_le_inv in Hb', Hd. lra. }
  assert (HA2 : Rabs (real_of A - a) <= / 10 ^ 7 * c).
  { apply (Rle_trans _ _ _ HA). apply Rle_trans with (8 * / 10 ^ 15 * (2 * 10 ^ 6 * c)); [|lra].
    apply Rmult_le_compat; lra. }
  assert (HB2 : Rabs (real_of B - b) <= / 10 ^ 7 * c).
  { apply (Rle_trans _ _ _ HB). apply Rle_trans with (11 * / 10 ^ 15 * (10 ^ 6 * c)); [|lra].
    assert (PB := Rabs_pos b). apply Rmult_le_compat; lra. }
  assert (HC2 : Rabs (real_of C - c) <= / 10 ^ 14 * c).
  { apply (Rle_trans _ _ _ HC). apply Rmult_le_compat_r; lra. }
  set (D := real_of A - real_of B).
  assert (HD : Rabs (D - (a - b)) <= 2 * / 10 ^ 7 * c).
  { unfold D. apply Rabs_le_inv in HA2, HB2. apply Rabs_le. lra. }
  assert (HD2 : Rabs D <= 2 * 10 ^ 6 * c) by (apply Rabs_le_inv in HD, Hd; apply Rabs_le; lra).
  assert (Hc : c <= 2 ^ 50) by apply Sc. assert (Lc : lo9 <= c) by (apply (btw_room 50); [exact Sc|lia]).
  assert (Hh : 10 ^ 30 <= huge). { apply Rle_trans with hi9; [|pose proof (hi_huge hi9 (Rle_refl _)); assert (0 < hi9) by (apply pow_lt; lra); lra].
    unfold hi9. apply Rle_trans with (2 ^ 100); [lra|]. apply Rle_pow; [lra|lia]. }
  assert (T2 := tiny_lo c Lc).
  destruct (sub_near A B NA NB) as [NW HW]. { fold D. apply Rle_trans with (2 * 10 ^ 6 * 2 ^ 50); [|lra]. apply (Rle_trans _ _ _ HD2). apply Rmult_le_compat_l; lra. }
  fold D in HW. set (W := real_of (A - B)%b64) in *.
  assert (HW2 : Rabs (W - q * c) <= 3 * / 10 ^ 7 * c).
  { assert (uu * Rabs D <= / 10 ^ 15 * (2 * 10 ^ 6 * c)) by (apply Rmult_le_compat; [lra|apply Rabs_pos|exact U1|exact HD2]).
    assert (uu / 1000 * c <= / 10 ^ 15 / 1000 * c) by (apply Rmult_le_compat_r; lra).
    rewrite <- Ea. apply Rabs_le_inv in HW, HD. apply Rabs_le. lra. }
  set (r := real_of C) in *. assert (Hr : 99/100 * c <= r) by (apply Rabs_le_inv in HC2; lra).
  assert (HP : Rabs (W / r - q) <= 4 * / 10 ^ 7).
  { apply Rmult_le_reg_r with r; [exact PC|]. rewrite <- (Rabs_pos_eq r) at 2 by lra. rewrite <- Rabs_mult.
    replace ((W / r - q) * r) with ((W - q * c) - q * (r - c)) by (field; lra).
    apply Rle_trans with (Rabs (W - q * c) + Rabs q * Rabs (r - c)).
    { unfold Rminus at 1. eapply Rle_trans; [apply Rabs_triang|]. rewrite Rabs_Ropp, Rabs_mult. lra. }
    assert (Rabs q * Rabs (r - c) <= 10 ^ 6 * (/ 10 ^ 14 * c)) by (apply Rmult_le_compat; [apply Rabs_pos|apply Rabs_pos|exact Hq|exact HC2]).
    apply Rle_trans with (4 * / 10 ^ 7 * (99/100 * c)); [lra|]. apply Rmult_le_compat_l; [lra|exact Hr]. }
  assert (HP2 : Rabs (W / r) <= 2 * 10 ^ 6) by (apply Rabs_le_inv in HP, Hq; apply Rabs_le; lra).
  destruct (div_near (A - B)%b64 C NW NC ltac:(fold r; lra) ltac:(fold W r; lra)) as [NR HQ]. fold W r in HQ.
  split; [exact NR|]. assert (uu * Rabs (W / r) <= / 10 ^ 15 * (2 * 10 ^ 6)) by (apply Rmult_le_compat; [lra|apply Rabs_pos|exact U1|exact HP2]).
  apply Rabs_le_inv in HP, HQ. apply Rabs_le. lra.
Qed.

Lemma sample_ok u f d p s row : shows_detail64 8 s f d -> sized_detail d -> reads row (profile_columns u p) -> sized_profile p ->
  tame (compared_sample d p) ->
  (agree_by (1 - off1) (compared_sample d p) -> exists a, sample_of64 (is_si u) row s = Ok a /\ shows_sample64 11 a d p) /\
  (forall a, sample_of64 (is_si u) row s = Ok a -> agree_by (1 + off1) (compared_sample d p) /\ shows_sample64 11 a d p).
Proof.
  intros (C & H1 & H2 & H3 & H4 & H5 & H6 & H7 & H8 & H9 & H10 & H11 & H12 & H13) (S1 & S2 & S3 & S4 & S5 & S6 & S7 & S8 & S9 & S10 & S11 & S12 & S13)
    HR (P1 & P2 & P3 & P4 & P5 & P6) HT.
  unfold reads, profile_columns in HR.
  inversion HR as [|yp ? r1 ? X1 Y1]; subst. inversion Y1 as [|up ? r2 ? X2 Y2]; subst. inversion Y2 as [|y ? r3 ? X3 Y3]; subst.
  inversion Y3 as [|uo ? r4 ? X4 Y4]; subst. inversion Y4 as [|yc ? r5 ? X5 Y5]; subst. inversion Y5 as [|ud ? r6 ? X6 Y6]; subst. inversion Y6; subst.
  clear HR Y1 Y2 Y3 Y4 Y5 Y6.
  assert (A3 := thick_ok u y _ (p_y p) X3 eq_refl (zb_signed _ P3)).
  assert (Zu := zb_mul 50 50 _ _ (zb_btw _ _ S3) (zb_signed _ P4)).
  assert (A4 : units (t_u_e s * uo)%b64 (d_u_e d * p_ratio p) 11).
  { eapply un_weaken; [|apply (un_mul _ _ _ _ 8 1 100 H2 X4); try lra; [exact Zu|lia]]. lra. }
  unfold sample_of64. set (y' := thick64 (is_si u) y) in *. set (u' := (t_u_e s * uo)%b64) in *. clearbody y' u'. cbv zeta.
  assert (Zy := zb_mul 50 50 _ _ (zb_signed _ P3) (zb_btw _ _ S2)).
  assert (B1 : units (y' * t_u_star s / t_nu s)%b64 (p_y p * d_us d / d_nu d) 24).
  { assert (U1 := un_mul _ _ _ _ 4 8 100 A3 H9 ltac:(lra) ltac:(lra) Zy ltac:(lia)).
    eapply un_weaken; [|apply (un_div _ _ _ _ _ 8 150 U1 H10 (sized_pos _ S4)); try lra; [apply (zb_div 100 50); assumption|lia]]. lra. }
  assert (B2 : units (y' / t_delta_c s)%b64 (p_y p / d_clth d) 24).
  { eapply un_weaken; [|apply (un_div _ _ _ _ 4 8 100 A3 H11 (sized_pos _ S8)); try lra; [apply (zb_div 50 50); [apply zb_signed|]; assumption|lia]]. lra. }
  assert (B3 : units (u' / t_u_star s)%b64 (d_u_e d * p_ratio p / d_us d) 24).
  { eapply un_weaken; [|apply (un_div _ _ _ _ 11 8 150 A4 H9 (sized_pos _ S2)); try lra; [apply (zb_div 100 50); assumption|lia]]. lra. }
  unfold tame, compared_sample in HT. unfold agree_by, compared_sample.
  repeat match goal with H : List.Forall _ (_ :: _) |- _ => inversion H as [|? ? ? ?]; clear H; subst end.
  repeat match goal with H : Rabs _ <= _ /\ Rabs _ <= _ |- _ => destruct H end.
  assert (B4 : within ((t_u_e s - u') / t_u_star s)%b64 ((d_u_e d - d_u_e d * p_ratio p) / d_us d) (/ 10 ^ 6)).
  { apply defect_ok; assumption. }
  assert (W : forall z k x, units x z k -> 0 <= k <= 30 -> Rabs z <= 10 ^ 6 -> within x z (/ 10 ^ 6)).
  { intros z k x Hu Hk Hz. destruct (un_within x z k Hu Hk Hz) as [N1 N2]. split; [exact N1|lra]. }
  assert (ONE : units b_1 1 1). { split; [apply one_val|]. rewrite (proj2 one_val), Rminus_diag_eq, Rabs_R0, Rabs_R1 by reflexivity. lra. }
  assert (HALF : units b_0_5 (1/2) 1). { split; [apply half_val|]. rewrite (proj2 half_val), Rminus_diag_eq, Rabs_R0 by reflexivity. pose proof (Rabs_pos (1/2)). lra. }
  assert (G1 : 2 * / 10 ^ 6 + / 10 ^ 8 <= 9/10 * off1 * 1) by (unfold off1; lra).
  assert (G2 : 2 * / 10 ^ 6 + / 10 ^ 8 <= 9/10 * off1 * (1/2)) by (unfold off1; lra).
  assert (SD : shows_sample64 11 {| a_yplus := yp; a_uplus := up; a_y := y'; a_u := u'; a_yc := yc; a_defect := ud |} d p).
  { unfold shows_sample64. cbn [a_yplus a_uplus a_y a_u a_yc a_defect].
    repeat match goal with |- _ /\ _ => split end; (eapply un_weaken; [|eassumption]; lra). }
  split.
  - intros HA. repeat match goal with H : List.Forall _ (_ :: _) |- _ => inversion H as [|? ? ? ?]; clear H; subst end.
    rewrite (proj2 (agree_yes b_1 1 _ _ _ _ _ ONE ltac:(lra) (W _ 1 _ X1 ltac:(lra) ltac:(assumption)) (W _ 24 _ B1 ltac:(lra) ltac:(assumption)) ltac:(lra) G1 ltac:(assumption) ltac:(assumption) ltac:(assumption))).
    cbn [bind].
    rewrite (proj2 (agree_yes b_0_5 (1/2) _ _ _ _ _ HALF ltac:(lra) (W _ 1 _ X5 ltac:(lra) ltac:(assumption)) (W _ 24 _ B2 ltac:(lra) ltac:(assumption)) ltac:(lra) G2 ltac:(assumption) ltac:(assumption) ltac:(assumption))).
    cbn [bind].
    rewrite (proj2 (agree_yes b_0_5 (1/2) _ _ _ _ _ HALF ltac:(lra) (W _ 1 _ X2 ltac:(lra) ltac:(assumption)) (W _ 24 _ B3 ltac:(lra) ltac:(assumption)) ltac:(lra) G2 ltac:(assumption) ltac:(assumption) ltac:(assumption))).
    cbn [bind].
    rewrite (proj2 (agree_yes b_0_5 (1/2) _ _ _ _ _ HALF ltac:(lra) (W _ 1 _ X6 ltac:(lra) ltac:(assumption)) B4 ltac:(lra) G2 ltac:(assumption) ltac:(assumption) ltac:(assumption))).
    cbn [bind]. eexists. split; [reflexivity|exact SD].
  - intros a HE.
    assert (BS : forall (A : Type) (m : res unit) (k : unit -> res A) r, bind m k = Ok r -> m = Ok tt /\ k tt = Ok r).
    { intros A m k r Hb. destruct m as [[]|e]; [split; [reflexivity|exact Hb]|discriminate Hb]. }
    apply BS in HE. destruct HE as [Q1 HE]. apply BS in HE. destruct HE as [Q2 HE]. apply BS in HE. destruct HE as [Q3 HE]. apply BS in HE. destruct HE as [Q4 HE].
    injection HE as <-. split; [|exact SD].
    repeat apply List.Forall_cons; try apply List.Forall_nil.
    + apply (agree_no b_1 1 _ _ _ _ _ ONE ltac:(lra) (W _ 1 _ X1 ltac:(lra) ltac:(assumption)) (W _ 24 _ B1 ltac:(lra) ltac:(assumption)) ltac:(lra) G1); auto.
    + apply (agree_no b_0_5 (1/2) _ _ _ _ _ HALF ltac:(lra) (W _ 1 _ X5 ltac:(lra) ltac:(assumption)) (W _ 24 _ B2 ltac:(lra) ltac:(assumption)) ltac:(lra) G2); auto.
    + apply (agree_no b_0_5 (1/2) _ _ _ _ _ HALF ltac:(lra) (W _ 1 _ X2 ltac:(lra) ltac:(assumption)) (W _ 24 _ B3 ltac:(lra) ltac:(assumption)) ltac:(lra) G2); auto.
    + apply (agree_no b_0_5 (1/2) _ _ _ _ _ HALF ltac:(lra) (W _ 1 _ X6 ltac:(lra) ltac:(assumption)) B4 ltac:(lra) G2); auto.
Qed.

(** * The tolerances of the exact reader *)
Lemma agree_by_1 f d : agree_by 1 (compared f d) <-> agree f d.
Proof.
  unfold agree_by, compared, agree. rewrite !Forall_cons_iff, !Rmult_1_l. intuition.
Qed.
