(** Thwaites' method in binary64 (C140-C142). *)
From Coq Require Import Reals ZArith List Lra Lia Psatz.
From Flocq Require Import Core IEEE754.BinarySingleNaN.
From Verif Require Import PyBase ThwaitesFitsModel InitialConditionModel CoreModel FloatModel FloatSpec FloatFacts FloatProofs FloatXFoilModel FloatXFoilProofs
  FloatThwaitesModel FloatThwaitesSpec.
Open Scope R_scope.

(* ------------------------------------------------------------------ *)
(** * Relative errors *)

Definition lo9 : R := / 2 ^ 900.
Definition hi9 : R := 2 ^ 900.
Lemma uu_small : 0 < uu <= / 10 ^ 15.
Proof. unfold uu. split; [apply Rinv_0_lt_compat, pow_lt; lra|]. apply Rinv_le_contravar; lra. Qed.
Lemma tiny_lo z : lo9 <= z -> tiny <= uu / 1000 * z.
Proof.
  intros H. assert (T : tiny * 2 ^ 100 = lo9) by exact tiny_room. assert (P := tiny_pos).
  assert (Z : tiny * 2 ^ 100 <= z) by lra. unfold uu.
  assert (Q : tiny * 2 ^ 100 * (/ 2 ^ 53 / 1000) <= z * (/ 2 ^ 53 / 1000)) by (apply Rmult_le_compat_r; [lra|exact Z]).
  assert (C : 1 <= 2 ^ 100 * (/ 2 ^ 53 / 1000)) by lra.
  assert (tiny <= tiny * (2 ^ 100 * (/ 2 ^ 53 / 1000))) by nra. lra.
Qed.
Lemma hi_huge z : z <= hi9 -> 2 * z <= huge.
Proof. intros H. assert (T : 2 ^ 100 * hi9 = huge) by exact huge_room. assert (0 < hi9) by (apply pow_lt; lra). nra. Qed.

Definition ru (x : b64) (z k : R) : Prop :=
  is_number x /\ (1 - k * uu) * z <= real_of x <= (1 + k * uu) * z.

Lemma ru_units x z k : 0 < z -> ru x z k -> units x z k.
Proof.
  intros Hz [A [B C]]. split; [exact A|]. rewrite (Rabs_pos_eq z) by lra. change (k / 2 ^ 53) with (k * uu).
  apply Rabs_le. lra.
Qed.
Lemma units_ru x z k : 0 < z -> units x z k -> ru x z k.
Proof.
  intros Hz [A B]. split; [exact A|]. rewrite (Rabs_pos_eq z) in B by lra. change (k / 2 ^ 53) with (k * uu) in B.
  apply Rabs_le_inv in B. lra.
Qed.
Lemma ru_exact x : is_number x -> ru x (real_of x) 0.
Proof. intros H. split; [exact H|]. lra. Qed.
Lemma ru_weaken x z k k' : 0 < z -> k <= k' -> ru x z k -> ru x z k'.
Proof.
  intros Hz Hk [A [B C]]. split; [exact A|]. destruct uu_small as [U _].
  assert (k * uu * z <= k' * uu * z). { apply Rmult_le_compat_r; [lra|]. apply Rmult_le_compat_r; lra. } lra.
Qed.

(** A rounded value of [p], which is near [z]. *)
Lemma ru_round x p z k : near x p -> lo9 <= z -> 0 <= k <= 100 ->
  (1 - k * uu) * z <= p <= (1 + k * uu) * z -> ru x z (k + 101/100).
Proof.
  intros [A B] Hz Hk [P1 P2]. split; [exact A|]. destruct uu_small as [U0 U1].
  assert (Hz0 : 0 < z) by (unfold lo9 in Hz; assert (0 < / 2 ^ 900) by (apply Rinv_0_lt_compat, pow_lt; lra); lra).
  assert (K : 0 <= k * uu <= / 10 ^ 13) by nra.
  assert (Pp : 0 <= p) by nra. rewrite (Rabs_pos_eq p) in B by exact Pp. apply Rabs_le_inv in B.
  assert (T := tiny_lo z Hz).
  assert (M : uu * p <= uu * ((1 + k * uu) * z)) by (apply Rmult_le_compat_l; lra).
  assert (M2 : uu * ((1 + k * uu) * z) <= 1002 / 1000 * uu * z).
  { replace (uu * ((1 + k * uu) * z)) with ((1 + k * uu) * (uu * z)) by ring. replace (1002/1000 * uu * z) with (1002/1000 * (uu * z)) by ring.
    apply Rmult_le_compat_r; [nra|]. lra. }
  assert (S : 0 <= uu * z) by nra.
  split.
  - replace ((1 - (k + 101/100) * uu) * z) with ((1 - k * uu) * z - 101/100 * (uu * z)) by ring. lra.
  - replace ((1 + (k + 101/100) * uu) * z) with ((1 + k * uu) * z + 101/100 * (uu * z)) by ring. lra.
Qed.

Lemma ru_mul x y a b j k : ru x a j -> ru y b k -> 0 < a -> 0 < b -> 0 <= j <= 40 -> 0 <= k <= 40 ->
  lo9 <= a * b <= hi9 -> ru (x * y)%b64 (a * b) (j + k + 102/100).
Proof.
  intros [A1 [A2 A3]] [B1 [B2 B3]] Ha Hb Hj Hk [L H]. destruct uu_small as [U0 U1].
  assert (J : 0 <= j * uu <= / 10 ^ 13) by nra. assert (K : 0 <= k * uu <= / 10 ^ 13) by nra.
  assert (JK : 0 <= (j * uu) * (k * uu) <= 1/1000 * uu).
  { split; [apply Rmult_le_pos; lra|]. apply Rle_trans with ((j * uu) * / 10 ^ 13); [apply Rmult_le_compat_l; lra|]. nra. }
  set (p := real_of x * real_of y).
  assert (P1 : (1 - (j + k + 1/100) * uu) * (a * b) <= p).
  { apply Rle_trans with (((1 - j * uu) * a) * ((1 - k * uu) * b)).
    - replace (((1 - j * uu) * a) * ((1 - k * uu) * b)) with ((1 - (j + k) * uu + (j * uu) * (k * uu)) * (a * b)) by ring.
      apply Rmult_le_compat_r; [nra|]. lra.
    - unfold p. apply Rmult_le_compat; [nra|nra|exact A2|exact B2]. }
  assert (P2 : p <= (1 + (j + k + 1/100) * uu) * (a * b)).
  { apply Rle_trans with (((1 + j * uu) * a) * ((1 + k * uu) * b)).
    - unfold p. apply Rmult_le_compat; [nra|nra|exact A3|exact B3].
    - replace (((1 + j * uu) * a) * ((1 + k * uu) * b)) with ((1 + (j + k) * uu + (j * uu) * (k * uu)) * (a * b)) by ring.
      apply Rmult_le_compat_r; [nra|]. lra. }
  assert (N : near (x * y)%b64 p).
  { apply mul_near; [exact A1|exact B1|]. fold p. rewrite Rabs_pos_eq by nra.
    apply Rle_trans with (2 * (a * b)); [nra|]. apply hi_huge, H. }
  replace (j + k + 102/100) with ((j + k + 1/100) + 101/100) by lra.
  apply (ru_round _ p); [exact N|exact L|lra|]. lra.
Qed.

Lemma quot_ge x y c : 0 < y -> c * y <= x -> c <= x / y.
Proof. intros Y H. apply Rmult_le_reg_r with y; [exact Y|]. replace (x / y * y) with x by (field; lra). exact H. Qed.
Lemma quot_le x y c : 0 < y -> x <= c * y -> x / y <= c.
Proof. intros Y H. apply Rmult_le_reg_r with y; [exact Y|]. replace (x / y * y) with x by (field; lra). exact H. Qed.

Lemma ru_div x y a b j k : ru x a j -> ru y b k -> 0 < a -> 0 < b -> 0 <= j <= 40 -> 0 <= k <= 40 ->
  lo9 <= a / b <= hi9 -> ru (x / y)%b64 (a / b) (j + k + 102/100).
Proof.
  intros [A1 [A2 A3]] [B1 [B2 B3]] Ha Hb Hj Hk [L H]. destruct uu_small as [U0 U1].
  assert (J : 0 <= j * uu <= / 10 ^ 13) by nra. assert (K : 0 <= k * uu <= / 10 ^ 13) by nra.
  assert (JK : 0 <= (j * uu) * (k * uu) <= 1/1000 * uu).
  { split; [apply Rmult_le_pos; lra|]. apply Rle_trans with ((j * uu) * / 10 ^ 13); [apply Rmult_le_compat_l; lra|]. nra. }
  assert (KK : 0 <= (k * uu) * (k * uu) <= 1/1000 * uu).
  { split; [apply Rmult_le_pos; lra|]. apply Rle_trans with ((k * uu) * / 10 ^ 13); [apply Rmult_le_compat_l; lra|]. nra. }
  assert (Yp : 0 < real_of y) by nra.
  set (p := real_of x / real_of y). set (q := a / b) in *.
  assert (Q : 0 < q) by (apply Rdiv_lt_0_compat; assumption).
  assert (Ea : a = q * b) by (unfold q; field; lra).
  assert (P1 : (1 - (j + k + 1/100) * uu) * q <= p).
  { unfold p. apply quot_ge; [exact Yp|].
    apply Rle_trans with ((1 - j * uu) * a); [|exact A2]. rewrite Ea.
    apply Rle_trans with ((1 - (j + k + 1/100) * uu) * q * ((1 + k * uu) * b)).
    - apply Rmult_le_compat_l; [apply Rmult_le_pos; nra|exact B3].
    - replace ((1 - (j + k + 1/100) * uu) * q * ((1 + k * uu) * b)) with ((1 - (j + k + 1/100) * uu) * (1 + k * uu) * (q * b)) by ring.
      apply Rmult_le_compat_r; [nra|]. nra. }
  assert (P2 : p <= (1 + (j + k + 1/100) * uu) * q).
  { unfold p. apply quot_le; [exact Yp|].
    apply Rle_trans with ((1 + j * uu) * a); [exact A3|]. rewrite Ea.
    apply Rle_trans with ((1 + (j + k + 1/100) * uu) * q * ((1 - k * uu) * b)).
    - replace ((1 + (j + k + 1/100) * uu) * q * ((1 - k * uu) * b)) with ((1 + (j + k + 1/100) * uu) * (1 - k * uu) * (q * b)) by ring.
      apply Rmult_le_compat_r; [nra|]. nra.
    - apply Rmult_le_compat_l; [apply Rmult_le_pos; nra|exact B2]. }
  assert (N : near (x / y)%b64 p).
  { apply div_near; [exact A1|exact B1|lra|]. fold p. rewrite Rabs_pos_eq by nra.
    apply Rle_trans with (2 * q); [nra|]. apply hi_huge, H. }
  replace (j + k + 102/100) with ((j + k + 1/100) + 101/100) by lra.
  apply (ru_round _ p); [exact N|exact L|lra|]. lra.
Qed.

Lemma ru_add x y a b k : ru x a k -> ru y b k -> 0 < a -> 0 < b -> 0 <= k <= 40 ->
  lo9 <= a + b <= hi9 -> ru (x + y)%b64 (a + b) (k + 101/100).
Proof.
  intros [A1 [A2 A3]] [B1 [B2 B3]] Ha Hb Hk [L H]. destruct uu_small as [U0 U1].
  assert (K : 0 <= k * uu <= / 10 ^ 13) by nra.
  apply (ru_round _ (real_of x + real_of y)); [|exact L|lra|lra].
  apply add_near; [exact A1|exact B1|]. rewrite Rabs_pos_eq by nra.
  apply Rle_trans with (2 * (a + b)); [nra|]. apply hi_huge, H.
Qed.

Lemma sqrt_near x : is_number x -> 0 <= real_of x -> near (fsqrt x) (sqrt (real_of x)).
Proof.
  intros F H. destruct (Bsqrt_correct prec emax Hprec Hmax mode_NE x) as (E & Fi & _).
  unfold near, is_number, real_of, fsqrt in *. split.
  - rewrite Fi. destruct x as [s|s| |s m e b]; try discriminate F; [reflexivity|].
    destruct s; [|reflexivity]. exfalso. simpl B2R in H.
    assert (F2R (Float radix2 (cond_Zopp true (Zpos m)) e) < 0) by (apply F2R_lt_0; reflexivity).
    apply (Rlt_not_le _ _ H0 H).
  - rewrite E. simpl round_mode. apply rnd_error.
Qed.

Lemma ru_sqrt x z k : ru x z k -> 0 < z -> 0 <= k <= 80 -> lo9 <= sqrt z -> ru (fsqrt x) (sqrt z) (k / 2 + 102/100).
Proof.
  intros [A1 [A2 A3]] Hz Hk L. destruct uu_small as [U0 U1].
  assert (K : 0 <= k * uu <= / 10 ^ 12) by nra.
  assert (KK : 0 <= (k * uu) * (k * uu) <= 1/1000 * uu).
  { split; [apply Rmult_le_pos; lra|]. apply Rle_trans with ((k * uu) * / 10 ^ 12); [apply Rmult_le_compat_l; lra|]. nra. }
  assert (Xp : 0 <= real_of x) by nra. set (r := sqrt z).
  assert (Hr : 0 < r) by (apply sqrt_lt_R0; exact Hz). assert (Er : z = r * r) by (unfold r; rewrite sqrt_sqrt; lra).
  replace (k / 2 + 102/100) with ((k / 2 + 1/100) + 101/100) by lra.
  apply (ru_round _ (sqrt (real_of x))); [apply sqrt_near; assumption|exact L|lra|]. split.
  - rewrite <- (sqrt_Rsqr ((1 - (k / 2 + 1/100) * uu) * r)) by (apply Rmult_le_pos; nra).
    apply sqrt_le_1_alt. unfold Rsqr. apply Rle_trans with ((1 - k * uu) * z); [|exact A2]. rewrite Er.
    replace ((1 - (k/2+1/100)*uu) * r * ((1 - (k/2+1/100)*uu) * r)) with ((1 - (k/2+1/100)*uu) * (1 - (k/2+1/100)*uu) * (r * r)) by ring.
    apply Rmult_le_compat_r; [nra|]. nra.
  - rewrite <- (sqrt_Rsqr ((1 + (k / 2 + 1/100) * uu) * r)) by (apply Rmult_le_pos; nra).
    apply sqrt_le_1_alt. unfold Rsqr. apply Rle_trans with ((1 + k * uu) * z); [exact A3|]. rewrite Er.
    replace ((1 + (k/2+1/100)*uu) * r * ((1 + (k/2+1/100)*uu) * r)) with ((1 + (k/2+1/100)*uu) * (1 + (k/2+1/100)*uu) * (r * r)) by ring.
    apply Rmult_le_compat_r; [nra|]. nra.
Qed.

(* ------------------------------------------------------------------ *)
(** * Orders of magnitude *)

Definition btw (n : nat) (z : R) : Prop := / 2 ^ n <= z <= 2 ^ n.
Lemma two_pow n : 0 < 2 ^ n. Proof. apply pow_lt. lra. Qed.
Lemma two_inv n : 0 < / 2 ^ n. Proof. apply Rinv_0_lt_compat, two_pow. Qed.
Lemma btw_pos n z : btw n z -> 0 < z.
Proof. intros [A _]. pose proof (two_inv n). lra. Qed.
Lemma two_ge_1 n : 1 <= 2 ^ n. Proof. apply pow_R1_Rle. lra. Qed.
Lemma btw_weaken n m z : (n <= m)%nat -> btw n z -> btw m z.
Proof.
  intros L [A B]. assert (P : 2 ^ n <= 2 ^ m) by (apply Rle_pow; [lra|exact L]).
  pose proof (Rinv_le_contravar _ _ (two_pow n) P). split; lra.
Qed.
Lemma btw_mul n m a b : btw n a -> btw m b -> btw (n + m) (a * b).
Proof.
  intros [A1 A2] [B1 B2]. pose proof (two_inv n). pose proof (two_inv m). unfold btw. rewrite pow_add. split.
  - rewrite Rinv_mult. apply Rmult_le_compat; lra.
  - apply Rmult_le_compat; lra.
Qed.
Lemma btw_inv n a : btw n a -> btw n (/ a).
Proof.
  intros H. pose proof (btw_pos _ _ H). destruct H as [A1 A2]. split.
  - apply Rinv_le_contravar; assumption.
  - rewrite <- (Rinv_inv (2 ^ n)). apply Rinv_le_contravar; [apply two_inv|exact A1].
Qed.
Lemma btw_div n m a b : btw n a -> btw m b -> btw (n + m) (a / b).
Proof. intros A B. apply btw_mul; [exact A|]. apply btw_inv, B. Qed.
Lemma btw_add n a b : btw n a -> btw n b -> btw (S n) (a + b).
Proof.
  intros [A1 A2] [B1 B2]. pose proof (two_inv n). pose proof (two_pow n). unfold btw. simpl (2 ^ S n). split; [|lra].
  rewrite Rinv_mult. lra.
Qed.
Lemma btw_sqrt n a : btw (n + n) a -> btw n (sqrt a).
Proof.
  intros [A1 A2]. pose proof (two_inv n). pose proof (two_pow n). rewrite pow_add in A1, A2. rewrite Rinv_mult in A1.
  split.
  - rewrite <- (sqrt_Rsqr (/ 2 ^ n)) by lra. apply sqrt_le_1_alt. exact A1.
  - rewrite <- (sqrt_Rsqr (2 ^ n)) by lra. apply sqrt_le_1_alt. exact A2.
Qed.
Lemma btw_room n z : btw n z -> (n <= 900)%nat -> lo9 <= z <= hi9.
Proof. intros H L. apply (btw_weaken n 900 z L) in H. exact H. Qed.
Lemma moderate_btw x : moderate x -> is_number x /\ btw 200 (real_of x).
Proof. intros [A B]. split; [exact A|exact B]. Qed.

Ltac lit d m e := destruct (literal m e eq_refl) as [LA LB]; split; [exact LA|];
  change d with (@B754_finite 53 1024 false m e eq_refl); rewrite LB; unfold uu; simpl; lra.
Lemma eta_m_val : ru b_eta_m (29235/100000) 1.
Proof. lit b_eta_m 5266509404247058%positive (-54)%Z. Qed.
Lemma fpp0_val : ru b_fpp0 (123259/100000) 1.
Proof. lit b_fpp0 5551091864700600%positive (-52)%Z. Qed.
Lemma fs_shape_d_val : ru b_fs_shape_d (22162/10000) 1.
Proof. lit b_fs_shape_d 4990438747089247%positive (-51)%Z. Qed.
Lemma two_ru : ru b_2 2 1.
Proof. destruct two_val as [A B]. split; [exact A|]. rewrite B. unfold uu. lra. Qed.

(* ------------------------------------------------------------------ *)
(** * The start of the solution and the thickness it reports (C140) *)

Definition fs_exact (nu du : R) : R := sqrt (nu * (29235/100000) * (123259/100000) / ((22162/10000 + 2) * du)).

Lemma ic_delta_m_exact nu du : 0 < nu -> 0 < du ->
  ic_delta_m {| ic_du := Fin du; ic_nu := Fin nu; ic_body_of := FSStag |} = Ok (Fin (fs_exact nu du)).
Proof.
  intros Hn Hd. unfold ic_delta_m, ic_body_of, InitialConditionModel.ic_nu, InitialConditionModel.ic_du, py_div, xeqb, Reqb, xmul, xadd.
  destruct (Req_EM_T ((fs_shape_d + 2) * du) 0) as [E|E]; [exfalso; unfold fs_shape_d in E; nra|].
  unfold bind, xdiv. destruct (Req_EM_T ((fs_shape_d + 2) * du) 0) as [E'|_]; [contradiction|].
  unfold xsqrt. cbv beta iota. match goal with |- context [Rlt_dec ?a 0] => destruct (Rlt_dec a 0) as [L|L] end; [|reflexivity].
  exfalso. apply (Rlt_not_le _ _ L). unfold fs_eta_m, fs_fpp0, fs_shape_d. apply Rlt_le, Rdiv_lt_0_compat; nra.
Qed.

Lemma const_btw z : / 4 <= z <= 4 -> btw 2 z.
Proof. unfold btw. simpl. lra. Qed.

Lemma fs_ru nu du : moderate nu -> moderate du ->
  btw 204 (fs_exact (real_of nu) (real_of du)) /\
  ru (fs_delta_m64 nu du) (fs_exact (real_of nu) (real_of du)) (507/100).
Proof.
  intros Hn Hd. apply moderate_btw in Hn, Hd. destruct Hn as [Nn Bn], Hd as [Nd Bd].
  set (n := real_of nu) in *. set (d := real_of du) in *.
  assert (B1 : btw 202 (n * (29235/100000))) by (apply (btw_mul 200 2); [exact Bn|apply const_btw; lra]).
  assert (B2 : btw 204 (n * (29235/100000) * (123259/100000))) by (apply (btw_mul 202 2); [exact B1|apply const_btw; lra]).
  assert (B3 : btw 4 (22162/10000 + 2)) by (unfold btw; simpl; lra).
  assert (B4 : btw 204 ((22162/10000 + 2) * d)) by (apply (btw_mul 4 200); assumption).
  assert (B5 := btw_div _ _ _ _ B2 B4). 
  assert (R1 : ru (nu * b_eta_m)%b64 (n * (29235/100000)) (0 + 1 + 102/100)).
  { apply ru_mul; [apply ru_exact, Nn|exact eta_m_val|apply (btw_pos _ _ Bn)|lra|lra|lra|]. apply (btw_room 202); [exact B1|lia]. }
  assert (R2 := ru_mul _ _ _ _ _ _ R1 fpp0_val (btw_pos _ _ B1) ltac:(lra) ltac:(lra) ltac:(lra) (btw_room 204 _ B2 ltac:(lia))).
  assert (R3 := ru_add _ _ _ _ _ fs_shape_d_val two_ru ltac:(lra) ltac:(lra) ltac:(lra) (btw_room 4 _ B3 ltac:(lia))).
  assert (R4 := ru_mul _ _ _ _ _ _ R3 (ru_exact du Nd) (btw_pos _ _ B3) (btw_pos _ _ Bd) ltac:(lra) ltac:(lra) (btw_room 204 _ B4 ltac:(lia))).
  assert (R5 := ru_div _ _ _ _ _ _ R2 R4 (btw_pos _ _ B2) (btw_pos _ _ B4) ltac:(lra) ltac:(lra) (btw_room _ _ B5 ltac:(lia))).
  assert (B6 := btw_sqrt 204 _ B5).
  assert (R6 := ru_sqrt _ _ _ R5 (btw_pos _ _ B5) ltac:(lra) (proj1 (btw_room _ _ B6 ltac:(lia)))).
  split; [exact B6|]. unfold fs_exact. fold n d in R6 |- *. eapply ru_weaken; [|..|exact R6]; [apply (btw_pos _ _ B6)|lra].
Qed.

(** Squares computed by the C library. *)
Lemma ru_sq sq x z k : squares sq -> ru x z k -> btw 300 z -> 0 <= k <= 20 -> ru (sq x) (z * z) (2 * k + 202/100).
Proof.
  intros S [A1 [A2 A3]] Bz Hk. destruct uu_small as [U0 U1]. pose proof (btw_pos _ _ Bz) as Hz.
  assert (K : 0 <= k * uu <= / 10 ^ 13) by nra.
  assert (KK : 0 <= (k * uu) * (k * uu) <= 1/1000 * uu).
  { split; [apply Rmult_le_pos; lra|]. apply Rle_trans with ((k * uu) * / 10 ^ 13); [apply Rmult_le_compat_l; lra|]. nra. }
  assert (Bx : btw 400 (real_of x)).
  { apply (btw_weaken 301 400); [lia|]. destruct Bz as [Z1 Z2]. unfold btw. change (2 ^ 301) with (2 * 2 ^ 300).
    rewrite Rinv_mult. generalize dependent (2 ^ 300). intros Y Z1 Z2. generalize dependent (/ Y). intros y Z1. split; nra. }
  destruct (S x A1 Bx) as [N E]. set (r := real_of x) in *. replace (r ^ 2) with (r * r) in E by ring.
  assert (Hr : 0 < r) by exact (btw_pos _ _ Bx). rewrite (Rabs_pos_eq (r * r)) in E by (apply Rmult_le_pos; lra). change (2 / 2 ^ 53) with (2 * uu) in E.
  apply Rabs_le_inv in E. split; [exact N|].
  assert (L : (1 - (2 * k + 1/100) * uu) * (z * z) <= r * r).
  { apply Rle_trans with (((1 - k * uu) * z) * ((1 - k * uu) * z)).
    - replace (((1 - k * uu) * z) * ((1 - k * uu) * z)) with ((1 - 2 * k * uu + (k * uu) * (k * uu)) * (z * z)) by ring.
      apply Rmult_le_compat_r; [nra|]. lra.
    - apply Rmult_le_compat; nra. }
  assert (H : r * r <= (1 + (2 * k + 1/100) * uu) * (z * z)).
  { apply Rle_trans with (((1 + k * uu) * z) * ((1 + k * uu) * z)).
    - apply Rmult_le_compat; nra.
    - replace (((1 + k * uu) * z) * ((1 + k * uu) * z)) with ((1 + 2 * k * uu + (k * uu) * (k * uu)) * (z * z)) by ring.
      apply Rmult_le_compat_r; [nra|]. lra. }
  assert (P : 0 < z * z) by nra.
  assert (Q : r * r <= (1 + 1/1000) * (z * z)). { eapply Rle_trans; [exact H|]. apply Rmult_le_compat_r; lra. }
  assert (QU : 2 * uu * (r * r) <= (2 + 1/200) * (uu * (z * z))).
  { apply Rle_trans with (2 * uu * ((1 + 1/1000) * (z * z))); [apply Rmult_le_compat_l; lra|].
    replace (2 * uu * ((1 + 1/1000) * (z * z))) with (2 * (1 + 1/1000) * (uu * (z * z))) by ring. apply Rmult_le_compat_r; [apply Rmult_le_pos; lra|]. lra. }
  assert (UZ : 0 <= uu * (z * z)) by (apply Rmult_le_pos; lra).
  split.
  - replace ((1 - (2 * k + 202/100) * uu) * (z * z)) with ((1 - (2 * k + 1/100) * uu) * (z * z) - 201/100 * (uu * (z * z))) by field. lra.
  - replace ((1 + (2 * k + 202/100) * uu) * (z * z)) with ((1 + (2 * k + 1/100) * uu) * (z * z) + 201/100 * (uu * (z * z))) by field. lra.
Qed.

Lemma fs_delta_m64_ok nu du : moderate nu -> moderate du ->
  exists d, ic_delta_m {| ic_du := Fin (real_of du); ic_nu := Fin (real_of nu); ic_body_of := FSStag |} = Ok (Fin d) /\
            units (fs_delta_m64 nu du) d 6.
Proof.
  intros Hn Hd. destruct (fs_ru nu du Hn Hd) as [B H]. apply moderate_btw in Hn, Hd.
  exists (fs_exact (real_of nu) (real_of du)). split.
  - apply ic_delta_m_exact; [apply (btw_pos _ _ (proj2 Hn))|apply (btw_pos _ _ (proj2 Hd))].
  - apply ru_units; [apply (btw_pos _ _ B)|]. eapply ru_weaken; [apply (btw_pos _ _ B)| |exact H]. lra.
Qed.

Lemma fs_start64_ok sq nu du : squares sq -> moderate nu -> moderate du ->
  exists d, ic_delta_m {| ic_du := Fin (real_of du); ic_nu := Fin (real_of nu); ic_body_of := FSStag |} = Ok (Fin d) /\
            units (start64 sq (fs_delta_m64 nu du) nu) (d ^ 2 / real_of nu) 14.
Proof.
  intros S Hn Hd. destruct (fs_ru nu du Hn Hd) as [B H]. apply moderate_btw in Hn, Hd. destruct Hn as [Nn Bn].
  exists (fs_exact (real_of nu) (real_of du)). split.
  - apply ic_delta_m_exact; [apply (btw_pos _ _ Bn)|apply (btw_pos _ _ (proj2 Hd))].
  - set (d := fs_exact (real_of nu) (real_of du)) in *. clearbody d.
    assert (R1 := ru_sq _ _ _ _ S H ltac:(apply (btw_weaken 204); [lia|exact B]) ltac:(lra)).
    assert (B1 := btw_mul _ _ _ _ B B). assert (B2 := btw_div _ _ _ _ B1 Bn).
    assert (R2 := ru_div _ _ _ _ _ _ R1 (ru_exact nu Nn) (btw_pos _ _ B1) (btw_pos _ _ Bn) ltac:(lra) ltac:(lra) (btw_room _ _ B2 ltac:(lia))).
    replace (d ^ 2) with (d * d) by ring. unfold start64.
    apply ru_units; [apply (btw_pos _ _ B2)|]. eapply ru_weaken; [apply (btw_pos _ _ B2)| |exact R2]. lra.
Qed.

Lemma delta_m64_ok s nu : moderate s -> moderate nu -> units (delta_m64 s nu) (sqrt (real_of s * real_of nu)) 2.
Proof.
  intros Hs Hn. apply moderate_btw in Hs, Hn. destruct Hs as [Ns Bs], Hn as [Nn Bn].
  assert (B1 := btw_mul _ _ _ _ Bs Bn).
  assert (R1 := ru_mul _ _ _ _ _ _ (ru_exact s Ns) (ru_exact nu Nn) (btw_pos _ _ Bs) (btw_pos _ _ Bn) ltac:(lra) ltac:(lra) (btw_room _ _ B1 ltac:(lia))).
  assert (B2 := btw_sqrt 200 _ B1).
  assert (R2 := ru_sqrt _ _ _ R1 (btw_pos _ _ B1) ltac:(lra) (proj1 (btw_room _ _ B2 ltac:(lia)))).
  apply ru_units; [apply (btw_pos _ _ B2)|]. eapply ru_weaken; [apply (btw_pos _ _ B2)| |exact R2]. lra.
Qed.

Lemma round_trip64 sq d nu : squares sq -> moderate d -> moderate nu ->
  units (delta_m64 (start64 sq d nu) nu) (real_of d) 4.
Proof.
  intros S Hd Hn. apply moderate_btw in Hd, Hn. destruct Hd as [Nd Bd], Hn as [Nn Bn]. pose proof (btw_pos _ _ Bn) as Pn. pose proof (btw_pos _ _ Bd) as Pd.
  set (z := real_of d) in *. set (n := real_of nu) in *.
  assert (R1 := ru_sq _ _ _ _ S (ru_exact d Nd) ltac:(apply (btw_weaken 200); [lia|exact Bd]) ltac:(lra)). fold z in R1.
  assert (B1 := btw_mul _ _ _ _ Bd Bd). assert (B2 := btw_div _ _ _ _ B1 Bn).
  assert (R2 := ru_div _ _ _ _ _ _ R1 (ru_exact nu Nn) (btw_pos _ _ B1) Pn ltac:(lra) ltac:(lra) (btw_room _ _ B2 ltac:(lia))). fold n in R2.
  assert (B3 : btw 400 (z * z / n * n)) by (replace (z * z / n * n) with (z * z) by (field; lra); exact B1).
  assert (R3 := ru_mul _ _ _ _ _ _ R2 (ru_exact nu Nn) (btw_pos _ _ B2) Pn ltac:(lra) ltac:(lra) (btw_room _ _ B3 ltac:(lia))). fold n in R3.
  assert (Es : sqrt (z * z / n * n) = z). { replace (z * z / n * n) with (Rsqr z) by (unfold Rsqr; field; lra). apply sqrt_Rsqr. lra. }
  assert (R4 := ru_sqrt _ _ _ R3 (btw_pos _ _ B3) ltac:(lra) ltac:(rewrite Es; apply (proj1 (btw_room _ _ Bd ltac:(lia))))).
  rewrite Es in R4. apply ru_units; [exact Pd|]. eapply ru_weaken; [exact Pd| |exact R4]. lra.
Qed.

Lemma tau_w64_ok rho nu u s d : moderate rho -> moderate nu -> moderate u -> moderate s ->
  is_number d -> / 2 ^ 50 <= real_of d <= 2 ^ 50 ->
  units (tau_w64 rho nu u s d) (real_of rho * real_of nu * real_of u * real_of s / real_of d) 5.
Proof.
  intros H1 H2 H3 H4 N5 B5. apply moderate_btw in H1, H2, H3, H4. destruct H1 as [N1 B1], H2 as [N2 B2], H3 as [N3 B3], H4 as [N4 B4].
  change (btw 50 (real_of d)) in B5.
  assert (C1 := btw_mul _ _ _ _ B1 B2). assert (C2 := btw_mul _ _ _ _ C1 B3). assert (C3 := btw_mul _ _ _ _ C2 B4). assert (C4 := btw_div _ _ _ _ C3 B5).
  assert (R1 := ru_mul _ _ _ _ _ _ (ru_exact _ N1) (ru_exact _ N2) (btw_pos _ _ B1) (btw_pos _ _ B2) ltac:(lra) ltac:(lra) (btw_room _ _ C1 ltac:(lia))).
  assert (R2 := ru_mul _ _ _ _ _ _ R1 (ru_exact _ N3) (btw_pos _ _ C1) (btw_pos _ _ B3) ltac:(lra) ltac:(lra) (btw_room _ _ C2 ltac:(lia))).
  assert (R3 := ru_mul _ _ _ _ _ _ R2 (ru_exact _ N4) (btw_pos _ _ C2) (btw_pos _ _ B4) ltac:(lra) ltac:(lra) (btw_room _ _ C3 ltac:(lia))).
  assert (R4 := ru_div _ _ _ _ _ _ R3 (ru_exact _ N5) (btw_pos _ _ C3) (btw_pos _ _ B5) ltac:(lra) ltac:(lra) (btw_room _ _ C4 ltac:(lia))).
  apply ru_units; [apply (btw_pos _ _ C4)|]. eapply ru_weaken; [apply (btw_pos _ _ C4)| |exact R4]. lra.
Qed.

(* ------------------------------------------------------------------ *)
(** * The right-hand side of the linear method (C141) *)

Lemma lit_0_45 : ru b_0_45 (45/100) 1.
Proof. lit b_0_45 8106479329266893%positive (-54)%Z. Qed.
Lemma lit_1e_3 : ru b_1e_3 (1/1000) 1.
Proof. lit b_1e_3 4611686018427388%positive (-62)%Z. Qed.
Lemma lit_6 : is_number b_6 /\ real_of b_6 = 6.
Proof. destruct (literal 6755399441055744 (-50) eq_refl) as [A B]. split; [exact A|]. unfold b_6. rewrite B. simpl. lra. Qed.

Lemma near_abs x z : near x z -> is_number x /\ - (uu * Rabs z + tiny) <= real_of x - z <= uu * Rabs z + tiny.
Proof. intros [A B]. split; [exact A|]. apply Rabs_le_inv, B. Qed.

Lemma huge_pow z : z <= hi9 * 1000 -> z <= huge.
Proof. intros H. assert (T : 2 ^ 100 * hi9 = huge) by exact huge_room. assert (0 < hi9) by (apply pow_lt; lra). nra. Qed.
Lemma tiny_uu : tiny <= uu / 10 ^ 6.
Proof.
  assert (H := tiny_lo (/ 2 ^ 900) (Rle_refl _)). destruct uu_small as [U _].
  assert (/ 2 ^ 900 <= / 2 ^ 10) by (apply Rinv_le_contravar; [apply two_pow|apply Rle_pow; [lra|lia]]).
  assert (uu / 1000 * (/ 2 ^ 900) <= uu / 1000 * / 2 ^ 10) by (apply Rmult_le_compat_l; lra). simpl (2 ^ 10) in *. lra.
Qed.

Lemma abs_quot x y : 0 < y -> Rabs (x / y) = Rabs x / y.
Proof. intros H. unfold Rdiv. rewrite Rabs_mult, (Rabs_pos_eq (/ y)); [reflexivity|]. apply Rlt_le, Rinv_0_lt_compat, H. Qed.
Lemma linear_quot F D f E S : 0 < E -> 0 < S -> Rabs f <= S -> Rabs (F - f) <= 301/100 * uu * S -> Rabs (D - E) <= 202/100 * uu * E ->
  Rabs (F / D - f / E) <= 505/100 * uu * (S / E).
Proof.
  intros HE HS Hf HF HD. destruct uu_small as [U0 U1]. apply Rabs_le_inv in Hf, HF, HD.
  assert (Dp : 9/10 * E <= D) by nra. assert (D0 : 0 < D) by nra.
  replace (F / D - f / E) with (((F - f) * E - f * (D - E)) / (D * E)) by (field; lra).
  rewrite abs_quot by nra. apply quot_le; [nra|].
  apply Rle_trans with ((301/100 + 202/100) * uu * S * E).
  - apply Rabs_le.
    assert (P1 : - (301/100 * uu * S * E) <= (F - f) * E <= 301/100 * uu * S * E) by nra.
    assert (P2 : Rabs (f * (D - E)) <= S * (202/100 * uu * E)).
    { rewrite Rabs_mult. apply Rmult_le_compat; [apply Rabs_pos|apply Rabs_pos|apply Rabs_le; lra|apply Rabs_le; lra]. }
    apply Rabs_le_inv in P2. lra.
  - replace (505/100 * uu * (S / E) * (D * E)) with (505/100 * uu * S * D) by (field; lra).
    assert (0 <= uu * S) by nra.
    assert (503/100 * E <= 505/100 * D) by nra.
    replace ((301/100 + 202/100) * uu * S * E) with ((uu * S) * (503/100 * E)) by field.
    replace (505/100 * uu * S * D) with ((uu * S) * (505/100 * D)) by field.
    apply Rmult_le_compat_l; assumption.
Qed.

Lemma sizes A v : A <= 2 ^ 400 -> v <= 2 ^ 200 -> exists h, A <= h /\ v <= h /\ 1000 * h <= hi9 /\ lo9 * (1/1000 + v) <= 45/100.
Proof.
  intros HA Hv. exists (2 ^ 400). split; [exact HA|]. split; [|split].
  - eapply Rle_trans; [exact Hv|]. apply Rle_pow; [lra|lia].
  - unfold hi9. replace (2 ^ 900) with (2 ^ 500 * 2 ^ 400) by (rewrite <- pow_add; reflexivity). apply Rmult_le_compat_r; [apply Rlt_le, two_pow|].
    apply Rle_trans with (2 ^ 10); [simpl; lra|apply Rle_pow; [lra|lia]].
  - assert (H1 := two_ge_1 200). apply Rle_trans with (lo9 * (2 * 2 ^ 200)).
    + apply Rmult_le_compat_l; [apply Rlt_le, two_inv|]. generalize dependent (2 ^ 200). intros; lra.
    + unfold lo9. replace (2 ^ 900) with (2 ^ 700 * 2 ^ 200) by (rewrite <- pow_add; reflexivity).
      assert (L : / 2 ^ 700 <= / 2 ^ 10) by (apply Rinv_le_contravar; [apply two_pow|apply Rle_pow; [lra|lia]]). clear Hv H1 HA. simpl (2 ^ 10) in L.
      assert (P1 := two_pow 700). assert (P2 := two_pow 200). generalize dependent (2 ^ 700). generalize dependent (2 ^ 200). intros a Ha b L Hb.
      rewrite Rinv_mult. replace (/ b * / a * (2 * a)) with (2 * / b) by (field; lra). lra.
Qed.

Lemma linear_rhs64_bound s u du : is_number s -> is_number u -> is_number du ->
  Rabs (real_of s) <= 2 ^ 200 -> Rabs (real_of du) <= 2 ^ 200 -> 0 <= real_of u <= 2 ^ 200 ->
  is_number (linear_rhs64 s u du) /\
  Rabs (real_of (linear_rhs64 s u du) - (45/100 - 6 * (real_of s * real_of du)) / (1/1000 + real_of u))
    <= 7 / 2 ^ 53 * ((45/100 + 6 * Rabs (real_of s * real_of du)) / (1/1000 + real_of u)).
Proof.
  intros Ns Nu Nd Hs Hd Hu. destruct uu_small as [U0 U1]. pose proof tiny_pos as T0. pose proof tiny_uu as T1.
  unfold linear_rhs64, linear_f64, lambda64. set (z := real_of s * real_of du). set (v := real_of u) in *.
  set (A := Rabs z). assert (A0 : 0 <= A) by apply Rabs_pos.
  assert (AZ : - A <= z <= A) by (apply Rabs_le_inv; apply Rle_refl).
  destruct (sizes A v) as (h & AH & VH & K & KV).
  { unfold A, z. rewrite Rabs_mult. replace (2 ^ 400) with (2 ^ 200 * 2 ^ 200) by (rewrite <- pow_add; reflexivity). apply Rmult_le_compat; try apply Rabs_pos; assumption. }
  { exact (proj2 Hu). }
  apply proj1 in Hu. clear Hs Hd.
  assert (K2 : 1000 <= hi9) by (apply Rle_trans with (2 ^ 10); [simpl; lra|apply Rle_pow; [lra|lia]]).
  (* s * du *)
  assert (P1 : near (s * du)%b64 z). { apply mul_near; [exact Ns|exact Nd|]. fold z. fold A. apply huge_pow. lra. }
  apply near_abs in P1. destruct P1 as [N1 E1]. fold A in E1. set (L := (s * du)%b64) in *. clearbody L. set (l := real_of L) in *.
  assert (UA : 0 <= uu * A) by nra. assert (UA1 : uu * A <= / 10 ^ 15 * A) by nra.
  assert (Bl : Rabs l <= A + uu * A + tiny) by (apply Rabs_le; lra).
  (* 6 * lam *)
  destruct lit_6 as [N6 V6].
  assert (P2 : near (b_6 * L)%b64 (6 * l)). { rewrite <- V6. apply mul_near; [exact N6|exact N1|]. rewrite V6. apply huge_pow. apply Rabs_le_inv in Bl. apply Rabs_le. fold l. lra. }
  apply near_abs in P2. destruct P2 as [N2 E2]. set (M := (b_6 * L)%b64) in *. clearbody M. set (m := real_of M) in *.
  assert (Bm : uu * Rabs (6 * l) <= 6 * (uu * A) + / 10 ^ 10 * (uu * A) + uu / 10 ^ 3).
  { rewrite Rabs_mult, (Rabs_pos_eq 6) by lra.
    apply Rle_trans with (uu * (6 * (A + uu * A + tiny))); [apply Rmult_le_compat_l; [lra|apply Rmult_le_compat_l; [lra|exact Bl]]|].
    assert (uu * (uu * A) <= / 10 ^ 15 * (uu * A)) by (apply Rmult_le_compat_r; lra).
    assert (uu * tiny <= uu / 10 ^ 6) by nra. lra. }
  (* 0.45 - 6 lam *)
  destruct lit_0_45 as [Nc Ec]. set (c := real_of b_0_45) in *.
  assert (Cm : Rabs (c - m) <= 45/100 + 6 * A + / 10 ^ 10 * A + / 10 ^ 3) by (apply Rabs_le; lra).
  assert (P3 : near (b_0_45 - M)%b64 (c - m)). { apply sub_near; [exact Nc|exact N2|]. fold c m. apply huge_pow. lra. }
  apply near_abs in P3. destruct P3 as [N3 E3]. set (Fh := (b_0_45 - M)%b64) in *. clearbody Fh. set (F := real_of Fh) in *.
  assert (B3 : uu * Rabs (c - m) <= uu * (45/100 + / 10 ^ 3) + (6 + / 10 ^ 10) * (uu * A)) by nra.
  set (f := 45/100 - 6 * z). set (S := 45/100 + 6 * A).
  assert (SP : 45/100 <= S) by (unfold S; lra).
  assert (Ff : Rabs (F - f) <= 301/100 * uu * S). { apply Rabs_le. unfold f, S. lra. }
  assert (fS : Rabs f <= S) by (apply Rabs_le; unfold f, S; lra).
  (* the denominator *)
  destruct lit_1e_3 as [Nk Ek]. set (k := real_of b_1e_3) in *. set (E := 1/1000 + v).
  assert (P4 : near (b_1e_3 + u)%b64 (k + v)). { apply add_near; [exact Nk|exact Nu|]. fold k v. apply huge_pow, Rabs_le. lra. }
  apply near_abs in P4. destruct P4 as [N4 E4]. set (Dh := (b_1e_3 + u)%b64) in *. clearbody Dh. set (D := real_of Dh) in *.
  assert (EP : 1/1000 <= E) by (unfold E; lra).
  assert (DE : Rabs (D - E) <= 202/100 * uu * E).
  { rewrite (Rabs_pos_eq (k + v)) in E4 by lra. apply Rabs_le. unfold E.
    assert (uu * k <= uu * (1/1000 + / 10 ^ 10)) by nra. assert (0 <= uu * v) by nra. lra. }
  (* the quotient *)
  assert (Q := linear_quot F D f E S ltac:(lra) ltac:(lra) fS Ff DE).
  assert (D0 : D <> 0).
  { apply Rabs_le_inv in DE. assert (uu * E <= / 10 ^ 15 * E) by (apply Rmult_le_compat_r; lra).
    replace (202/100 * uu * E) with (202/100 * (uu * E)) in DE by ring. lra. }
  assert (SE : 0 < S / E) by (apply Rdiv_lt_0_compat; lra).
  assert (fE : Rabs (f / E) <= S / E). { unfold Rdiv. rewrite Rabs_mult, (Rabs_pos_eq (/ E)) by (apply Rlt_le, Rinv_0_lt_compat; lra). apply Rmult_le_compat_r; [apply Rlt_le, Rinv_0_lt_compat; lra|exact fS]. }
  assert (SEhi : S / E <= hi9 * 100). { apply quot_le; [lra|]. apply Rle_trans with (hi9 * 100 * (1/1000)); [unfold S; lra|apply Rmult_le_compat_l; lra]. }
  assert (SElo : lo9 <= S / E).
  { apply quot_ge; [lra|]. eapply Rle_trans; [|exact SP]. exact KV. }
  assert (T2 := tiny_lo _ SElo).
  assert (UW : 0 <= uu * (S / E)) by (apply Rmult_le_pos; lra).
  apply Rabs_le_inv in Q, fE. replace (505/100 * uu * (S / E)) with (505/100 * (uu * (S / E))) in Q by ring.
  assert (UW1 : uu * (S / E) <= / 10 ^ 15 * (S / E)) by (apply Rmult_le_compat_r; lra).
  assert (FD : Rabs (F / D) <= 1001/1000 * (S / E)) by (apply Rabs_le; lra).
  assert (P5 : near (Fh / Dh)%b64 (F / D)). { apply div_near; [exact N3|exact N4|exact D0|]. fold F D. apply huge_pow. lra. }
  apply near_abs in P5. destruct P5 as [N5 E5]. split; [exact N5|].
  assert (uu * Rabs (F / D) <= 1001/1000 * (uu * (S / E))).
  { replace (1001/1000 * (uu * (S / E))) with (uu * (1001/1000 * (S / E))) by ring. apply Rmult_le_compat_l; lra. }
  change (7 / 2 ^ 53) with (7 * uu). replace (7 * uu * (S / E)) with (7 * (uu * (S / E))) by ring.
  apply Rabs_le. lra.
Qed.

Lemma linear_rhs64_ok m x s u du : m_kind m = ThwaitesLinear ->
  q_u_e m x = Ok (real_of u) -> q_du_e m x = Ok (real_of du) ->
  is_number s -> is_number u -> is_number du ->
  Rabs (real_of s) <= 2 ^ 200 -> Rabs (real_of du) <= 2 ^ 200 -> 0 <= real_of u <= 2 ^ 200 ->
  exists r, ode_impl m x (cons (Fin (real_of s)) nil) = Ok (cons (Fin r) nil) /\
    within (linear_rhs64 s u du) r (7 / 2 ^ 53 * ((45/100 + 6 * Rabs (real_of s * real_of du)) / (1/1000 + real_of u))).
Proof.
  intros K Eu Ed Ns Nu Nd Hs Hd Hu.
  exists ((45/100 - 6 * (real_of s * real_of du)) / (1/1000 + real_of u)). split.
  - unfold ode_impl. rewrite K. unfold calc_f, calc_lambda. rewrite Ed, Eu, K. unfold bind, xmul, xsub, xneg, xadd, xdiv.
    destruct (Req_EM_T (1/1000 + real_of u) 0) as [E|_]; [lra|]. reflexivity.
  - destruct (linear_rhs64_bound s u du Ns Nu Nd Hs Hd Hu) as [A B]. split; assumption.
Qed.
