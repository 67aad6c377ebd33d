(** Rounding errors of the primitive float operations. *)
From Coq Require Import Reals ZArith Lra Lia.
From Flocq Require Import Core IEEE754.BinarySingleNaN Relative.
From Verif Require Import FloatModel FloatSpec.
Open Scope R_scope.

Notation prec := 53%Z.
Notation emax := 1024%Z.
Definition uu : R := / 2 ^ 53.
Definition tiny : R := / 2 ^ 1000.
Definition huge : R := 2 ^ 1000.
Definition rnd (z : R) : R := round radix2 (SpecFloat.fexp prec emax) ZnearestE z.

Lemma uu_bpow : uu = / 2 * bpow radix2 (- prec + 1).
Proof. unfold uu. simpl. lra. Qed.

Lemma rnd_error z : Rabs (rnd z - z) <= uu * Rabs z + tiny.
Proof.
  destruct (error_N_FLT radix2 (SpecFloat.emin prec emax) prec eq_refl (fun x => negb (Z.even x)) z)
    as (e & t & He & Ht & _ & E).
  unfold rnd. change (SpecFloat.fexp prec emax) with (FLT_exp (SpecFloat.emin prec emax) prec).
  change ZnearestE with (Znearest (fun x => negb (Z.even x))).
  rewrite E. rewrite <- uu_bpow in He.
  replace (z * (1 + e) + t - z) with (z * e + t) by ring.
  eapply Rle_trans; [apply Rabs_triang|]. apply Rplus_le_compat.
  - rewrite Rabs_mult, Rmult_comm. apply Rmult_le_compat_r; [apply Rabs_pos|exact He].
  - eapply Rle_trans; [exact Ht|]. unfold tiny.
    replace (/ 2 ^ 1000) with (bpow radix2 (- 1000)).
    + apply Rle_trans with (1 * bpow radix2 (SpecFloat.emin prec emax)).
      * apply Rmult_le_compat_r; [apply bpow_ge_0|lra].
      * rewrite Rmult_1_l. apply bpow_le. unfold SpecFloat.emin. lia.
    + change (-1000)%Z with (- (1000))%Z. rewrite bpow_opp, bpow_powerRZ. reflexivity.
Qed.

Lemma huge_bpow : huge = bpow radix2 1000.
Proof.
  unfold huge. rewrite bpow_powerRZ. change 1000%Z with (Z.of_nat 1000). rewrite <- pow_powerRZ. reflexivity.
Qed.

Lemma rnd_fits z : Rabs z <= huge -> Rabs (rnd z) < bpow radix2 emax.
Proof.
  intros H. apply Rle_lt_trans with huge.
  - rewrite huge_bpow in *. unfold rnd. apply abs_round_le_generic; [apply FLT_exp_valid; reflexivity|typeclasses eauto| |exact H].
    apply generic_format_bpow. unfold SpecFloat.fexp, SpecFloat.emin. lia.
  - rewrite huge_bpow. apply bpow_lt. reflexivity.
Qed.

Definition near (x : b64) (z : R) : Prop :=
  is_number x /\ Rabs (real_of x - z) <= uu * Rabs z + tiny.

Lemma add_near x y : is_number x -> is_number y -> Rabs (real_of x + real_of y) <= huge ->
  near (x + y)%b64 (real_of x + real_of y).
Proof.
  unfold is_number, real_of, near, fadd. intros Fx Fy H. unfold is_number, real_of.
  pose proof (Bplus_correct prec emax Hprec Hmax mode_NE _ _ Fx Fy) as C. simpl round_mode in C.
  change (round radix2 (SpecFloat.fexp prec emax) ZnearestE (B2R x + B2R y))
    with (rnd (B2R x + B2R y)) in C.
  rewrite Rlt_bool_true in C by (apply rnd_fits, H). destruct C as (E & F & _).
  split; [exact F|]. rewrite E. apply rnd_error.
Qed.

Lemma sub_near x y : is_number x -> is_number y -> Rabs (real_of x - real_of y) <= huge ->
  near (x - y)%b64 (real_of x - real_of y).
Proof.
  unfold is_number, real_of, near, fsub. intros Fx Fy H. unfold is_number, real_of.
  pose proof (Bminus_correct prec emax Hprec Hmax mode_NE _ _ Fx Fy) as C. simpl round_mode in C.
  change (round radix2 (SpecFloat.fexp prec emax) ZnearestE (B2R x - B2R y))
    with (rnd (B2R x - B2R y)) in C.
  rewrite Rlt_bool_true in C by (apply rnd_fits, H). destruct C as (E & F & _).
  split; [exact F|]. rewrite E. apply rnd_error.
Qed.

Lemma mul_near x y : is_number x -> is_number y -> Rabs (real_of x * real_of y) <= huge ->
  near (x * y)%b64 (real_of x * real_of y).
Proof.
  unfold is_number, real_of, near, fmul. intros Fx Fy H. unfold is_number, real_of.
  pose proof (Bmult_correct prec emax Hprec Hmax mode_NE x y) as C. simpl round_mode in C.
  change (round radix2 (SpecFloat.fexp prec emax) ZnearestE (B2R x * B2R y))
    with (rnd (B2R x * B2R y)) in C.
  rewrite Rlt_bool_true in C by (apply rnd_fits, H). destruct C as (E & F & _).
  rewrite Fx, Fy in F. split; [exact F|]. rewrite E. apply rnd_error.
Qed.

Lemma div_near x y : is_number x -> is_number y -> real_of y <> 0 -> Rabs (real_of x / real_of y) <= huge ->
  near (x / y)%b64 (real_of x / real_of y).
Proof.
  unfold is_number, real_of, near, fdiv. intros Fx Fy N H. unfold is_number, real_of.
  pose proof (Bdiv_correct prec emax Hprec Hmax mode_NE x y N) as C. simpl round_mode in C.
  change (round radix2 (SpecFloat.fexp prec emax) ZnearestE (B2R x / B2R y))
    with (rnd (B2R x / B2R y)) in C.
  rewrite Rlt_bool_true in C by (apply rnd_fits, H). destruct C as (E & F & _).
  rewrite Fx in F. split; [exact F|]. rewrite E. apply rnd_error.
Qed.

Lemma opp_near x : is_number x -> is_number (- x)%b64 /\ real_of (- x)%b64 = - real_of x.
Proof.
  unfold is_number, real_of. intros F. unfold fopp. rewrite is_finite_Bopp, B2R_Bopp. split; [exact F|reflexivity].
Qed.

(** ** Constants *)
Lemma literal m e H : is_number (@B754_finite 53 1024 false m e H) /\
  real_of (@B754_finite 53 1024 false m e H) = IZR (Zpos m) * bpow radix2 e.
Proof. split; reflexivity. Qed.

Lemma two_val : is_number b_2 /\ real_of b_2 = 2.
Proof. destruct (literal 4503599627370496 (-51) eq_refl) as [A B]. split; [exact A|]. unfold b_2. rewrite B. simpl. lra. Qed.
Lemma three_val : is_number b_3 /\ real_of b_3 = 3.
Proof. destruct (literal 6755399441055744 (-51) eq_refl) as [A B]. split; [exact A|]. unfold b_3. rewrite B. simpl. lra. Qed.
Lemma four_val : is_number b_4 /\ real_of b_4 = 4.
Proof. destruct (literal 4503599627370496 (-50) eq_refl) as [A B]. split; [exact A|]. unfold b_4. rewrite B. simpl. lra. Qed.
Lemma twelve_val : is_number b_12 /\ real_of b_12 = 12.
Proof. destruct (literal 6755399441055744 (-49) eq_refl) as [A B]. split; [exact A|]. unfold b_12. rewrite B. simpl. lra. Qed.
Lemma half5_val : is_number b_2_5 /\ real_of b_2_5 = 5 / 2.
Proof. destruct (literal 5629499534213120 (-51) eq_refl) as [A B]. split; [exact A|]. unfold b_2_5. rewrite B. simpl. lra. Qed.
Lemma step_val : is_number b_1e_4 /\ real_of b_1e_4 = 7378697629483821 / 2 ^ 66.
Proof. destruct (literal 7378697629483821 (-66) eq_refl) as [A B]. split; [exact A|]. unfold b_1e_4. rewrite B. simpl. lra. Qed.
Lemma small_step_val : is_number b_1e_5 /\ real_of b_1e_5 = 5902958103587057 / 2 ^ 69.
Proof. destruct (literal 5902958103587057 (-69) eq_refl) as [A B]. split; [exact A|]. unfold b_1e_5. rewrite B. simpl. lra. Qed.

Lemma tiny_pos : 0 < tiny.
Proof. unfold tiny. apply Rinv_0_lt_compat, pow_lt. lra. Qed.

Lemma huge_room : 2 ^ 100 * 2 ^ 900 = huge.
Proof. unfold huge. rewrite <- pow_add. reflexivity. Qed.

Lemma tiny_room : tiny * 2 ^ 100 = / 2 ^ 900.
Proof.
  unfold tiny. replace (2 ^ 1000) with (2 ^ 100 * 2 ^ 900) by (rewrite <- pow_add; reflexivity).
  field.
Qed.
