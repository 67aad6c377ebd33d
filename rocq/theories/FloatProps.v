(** C108-C110: the finite differences and the shape-factor setter in binary64 arithmetic. *)
From Coq Require Import Reals Lra Lia.
From Coquelicot Require Import Coquelicot.
From Flocq Require Import Core IEEE754.BinarySingleNaN.
From Verif Require Import FiniteDiffProofs FloatModel FloatSpec FloatFacts FloatProofs.
Open Scope R_scope.

(** C108: [g] is the callable the user passes, [f] the function it computes up to [eta].  With
    |f| <= V, |f'| <= L and |f^(5)| <= K near the point, the first derivative the code returns is a
    number within the stated distance of f'. *)
Theorem float_first_derivative g f x r eta K L V :
  let X := real_of x in
  is_number x -> Rabs X <= 2 ^ 900 -> / 1000 + Rabs X / 2 ^ 50 <= r -> smooth_near f 5 X r ->
  (forall t, Rabs (t - X) <= r ->
     Rabs (f t) <= V /\ Rabs (Derive f t) <= L /\ Rabs (Derive_n f 5 t) <= K) ->
  V + eta <= 2 ^ 900 -> computes g f X r eta ->
  is_number (du_e_b64 g x) /\
  Rabs (real_of (du_e_b64 g x) - Derive f X)
    <= K * (1 / 10000) ^ 4 / 17 + 15001 * (eta + L * ((Rabs X + 1) / 2 ^ 53)) + / 2 ^ 900.
Proof. exact (b64_first g f x r eta K L V). Qed.
Print Assumptions float_first_derivative.

(** C108: the second derivative from the velocity; [sq] is the C library's [1e-4**2], assumed within
    two units of roundoff of the square of the step. *)
Theorem float_second_derivative sq g f x r eta K L V :
  let X := real_of x in
  let h := real_of b_1e_4 in
  is_number x -> Rabs X <= 2 ^ 900 -> / 1000 + Rabs X / 2 ^ 50 <= r -> smooth_near f 6 X r ->
  (forall t, Rabs (t - X) <= r ->
     Rabs (f t) <= V /\ Rabs (Derive f t) <= L /\ Rabs (Derive_n f 6 t) <= K) ->
  V + eta <= 2 ^ 900 -> computes g f X r eta ->
  is_number sq -> Rabs (real_of sq - h ^ 2) <= h ^ 2 / 2 ^ 52 ->
  is_number (d2u_e_b64 sq g x) /\
  Rabs (real_of (d2u_e_b64 sq g x) - Derive_n f 2 X)
    <= K * (1 / 10000) ^ 4 / 53
       + 10 ^ 8 * (6 * (eta + L * ((Rabs X + 1) / 2 ^ 53)) + 40 * V / 2 ^ 53) + / 2 ^ 900.
Proof. intros X h. unfold h. rewrite (proj2 step_val). exact (b64_second sq g f x r eta K L V). Qed.
Print Assumptions float_second_derivative.

(** C108: the second derivative when [g] computes a given first derivative [f]; also the slope of a
    user's shape function in Thwaites' method. *)
Theorem float_derivative_of_given g f x r eta K L V :
  let X := real_of x in
  is_number x -> Rabs X <= 2 ^ 900 -> / 1000 + Rabs X / 2 ^ 50 <= r -> smooth_near f 5 X r ->
  (forall t, Rabs (t - X) <= r ->
     Rabs (f t) <= V /\ Rabs (Derive f t) <= L /\ Rabs (Derive_n f 5 t) <= K) ->
  V + eta <= 2 ^ 900 -> computes g f X r eta ->
  is_number (d2u_e_from_b64 g x) /\
  Rabs (real_of (d2u_e_from_b64 g x) - Derive f X)
    <= K * (1 / 100000) ^ 4 / 17 + 150010 * (eta + L * ((Rabs X + 1) / 2 ^ 53)) + / 2 ^ 900.
Proof. exact (b64_given g f x r eta K L V). Qed.
Print Assumptions float_derivative_of_given.

(** The hypotheses hold for u(x) = x*x at x = 1, and the derivatives come out within 3e-11 and
    3e-6 of 2; [sq_1e_4] is the float 1e-8. *)
Example float_derivative_case :
  let g := fun x => (x * x)%b64 in
  let f := fun t => t ^ 2 in
  let one := @B754_finite 53 1024 false 4503599627370496 (-52) eq_refl in
  (is_number one /\ real_of one = 1 /\ computes g f 1 (/ 100) (5 / 10 ^ 16) /\
   smooth_near f 6 1 (/ 100) /\
   (forall t, Rabs (t - 1) <= / 100 -> Rabs (f t) <= 2 /\ Rabs (Derive f t) <= 3 /\
      Rabs (Derive_n f 5 t) <= 0 /\ Rabs (Derive_n f 6 t) <= 0) /\
   is_number sq_1e_4 /\
   Rabs (real_of sq_1e_4 - real_of b_1e_4 ^ 2) <= real_of b_1e_4 ^ 2 / 2 ^ 52) /\
  Rabs (real_of (du_e_b64 g one) - 2) <= 3 / 10 ^ 11 /\
  Rabs (real_of (d2u_e_b64 sq_1e_4 g one) - 2) <= 3 / 10 ^ 6 /\
  B2SF (du_e_b64 g one) = SpecFloat.S754_finite false 9007199254736667 (-52).
Proof.
  intros g f one.
  destruct (literal 4503599627370496 (-52) eq_refl) as [O1 O2]. fold one in O1, O2.
  assert (O3 : real_of one = 1) by (rewrite O2; simpl; lra). clear O2.
  assert (C : computes g f 1 (/ 100) (5 / 10 ^ 16)).
  { intros t N B. apply square_computes; [exact N|]. apply Rabs_le_between in B. apply Rabs_le_between. lra. }
  assert (D : forall t n, Derive_n f n t = match n with O => t ^ 2 | S O => 2 * t | S (S O) => 2 | _ => 0 end).
  { intros t n. unfold f. rewrite Derive_n_pow. destruct (Compare_dec.le_dec n 2) as [H|H].
    - destruct n as [|[|[|n]]]; simpl; try lra; lia.
    - destruct n as [|[|[|n]]]; try lia. reflexivity. }
  assert (D1 : forall t, Derive f t = 2 * t) by (intros t; exact (D t 1%nat)).
  assert (B : forall t, Rabs (t - 1) <= / 100 -> Rabs (f t) <= 2 /\ Rabs (Derive f t) <= 3 /\
      Rabs (Derive_n f 5 t) <= 0 /\ Rabs (Derive_n f 6 t) <= 0).
  { intros t Ht. rewrite D1, !D. apply Rabs_le_between in Ht. rewrite Rabs_R0. unfold f.
    repeat split; try lra; apply Rabs_le_between; nra. }
  assert (S : smooth_near f 6 1 (/ 100)) by apply smooth_square.
  assert (Q1 : is_number sq_1e_4) by reflexivity.
  assert (Q : Rabs (real_of sq_1e_4 - real_of b_1e_4 ^ 2) <= real_of b_1e_4 ^ 2 / 2 ^ 52).
  { destruct (literal 6044629098073146 (-79) eq_refl) as [_ Q2]. unfold sq_1e_4.
    rewrite Q2, (proj2 step_val). apply Rabs_le_between. simpl. lra. }
  assert (V0 : 2 + 5 / 10 ^ 16 <= 2 ^ 900).
  { replace 900%nat with (2 + 898)%nat by reflexivity. rewrite pow_add.
    assert (1 <= 2 ^ 898) by (rewrite <- (pow1 898); apply pow_incr; lra). lra. }
  assert (V1 : / 2 ^ 900 <= / 2 ^ 100).
  { apply Rinv_le_contravar; [lra|]. apply Rle_pow; [lra|]. apply PeanoNat.Nat.leb_le. reflexivity. }
  split; [exact (conj O1 (conj O3 (conj C (conj S (conj B (conj Q1 Q))))))|].
  split; [|split; [|vm_compute; reflexivity]].
  - destruct (float_first_derivative g f one (/ 100) (5 / 10 ^ 16) 0 3 2) as [_ E].
    all: rewrite ?O3, ?Rabs_R1 in *; try assumption; try lra.
    + intros t Ht n Hn. apply S; [exact Ht|lia].
    + intros t Ht. destruct (B t Ht) as (b1 & b2 & b3 & _). auto.
    + rewrite D1, Rmult_1_r in E. clear - E V1. lra.
  - destruct (float_second_derivative sq_1e_4 g f one (/ 100) (5 / 10 ^ 16) 0 3 2) as [_ E].
    all: rewrite ?O3, ?Rabs_R1 in *; try assumption; try lra.
    + intros t Ht. destruct (B t Ht) as (b1 & b2 & _ & b4). auto.
    + rewrite D in E. clear - E V1. lra.
Qed.

(** C109: the first derivative of a constant velocity is exactly zero. *)
Theorem constant_velocity_first_partial c x : is_number c ->
  du_e_b64 (fun _ => c) x = B754_zero false /\ d2u_e_from_b64 (fun _ => c) x = B754_zero false.
Proof. exact (constant_first c x). Qed.
Print Assumptions constant_velocity_first_partial.

(** C109: the second derivative is not: for the constant 0.3 it is below -1e-8, at every x. *)
Theorem constant_velocity_second_refuted :
  exists c, is_number c /\ forall x,
    is_number (d2u_e_b64 sq_1e_4 (fun _ => c) x) /\
    real_of (d2u_e_b64 sq_1e_4 (fun _ => c) x) < - / 10 ^ 8.
Proof. exact constant_second. Qed.
Print Assumptions constant_velocity_second_refuted.

(** C109: it stays below 5e-7 times the constant. *)
Theorem constant_velocity_second_partial sq c x :
  let h := real_of b_1e_4 in
  is_number c -> Rabs (real_of c) <= 2 ^ 899 ->
  is_number sq -> Rabs (real_of sq - h ^ 2) <= h ^ 2 / 2 ^ 52 ->
  is_number (d2u_e_b64 sq (fun _ => c) x) /\
  Rabs (real_of (d2u_e_b64 sq (fun _ => c) x)) <= 5 / 10 ^ 7 * Rabs (real_of c) + / 2 ^ 900.
Proof. intros h. unfold h. rewrite (proj2 step_val). exact (constant_second_bound sq c x). Qed.
Print Assumptions constant_velocity_second_partial.

(** C110: a displacement shape factor that was set is not always read back unchanged. *)
Theorem float_shape_round_trip_refuted :
  exists s m, is_number s /\ is_number m /\ 0 < real_of s /\ 0 < real_of m /\
    real_of (read_shape_d (stored_del_d s m) m) <> real_of s.
Proof. exact shape_not_back. Qed.
Print Assumptions float_shape_round_trip_refuted.

(** C110: it is read back to within one part in 2^52. *)
Theorem float_shape_round_trip_partial s m :
  is_number s -> is_number m -> / 2 ^ 400 <= real_of s <= 2 ^ 400 -> / 2 ^ 400 <= real_of m <= 2 ^ 400 ->
  is_number (read_shape_d (stored_del_d s m) m) /\
  Rabs (real_of (read_shape_d (stored_del_d s m) m) - real_of s) <= (/ 2 ^ 52 + / 2 ^ 100) * real_of s.
Proof. exact (shape_round_trip s m). Qed.
Print Assumptions float_shape_round_trip_partial.

(** The case of the counterexample: 1.5 and 0.003 meet the hypotheses, and 1.5 is read back as
    1.5000000000000002. *)
Example float_shape_case :
  let s := @B754_finite 53 1024 false 6755399441055744 (-52) eq_refl in
  let m := @B754_finite 53 1024 false 6917529027641082 (-61) eq_refl in
  is_number s /\ is_number m /\ real_of s = 3 / 2 /\
  / 2 ^ 400 <= real_of s <= 2 ^ 400 /\ / 2 ^ 400 <= real_of m <= 2 ^ 400 /\
  B2SF (read_shape_d (stored_del_d s m) m) = SpecFloat.S754_finite false 6755399441055745 (-52).
Proof.
  intros s m.
  destruct (literal 6755399441055744 (-52) eq_refl) as [A1 A2]. fold s in A1, A2.
  destruct (literal 6917529027641082 (-61) eq_refl) as [B1 B2]. fold m in B1, B2.
  assert (P : 2 <= 2 ^ 400).
  { replace 400%nat with (1 + 399)%nat by reflexivity. rewrite pow_add.
    assert (1 <= 2 ^ 399) by (rewrite <- (pow1 399); apply pow_incr; lra). lra. }
  assert (Q : / 2 ^ 400 <= / 2 ^ 20).
  { apply Rinv_le_contravar; [lra|]. apply Rle_pow; [lra|]. apply PeanoNat.Nat.leb_le. reflexivity. }
  split; [exact A1|]. split; [exact B1|].
  rewrite A2, B2. set (b := 2 ^ 400) in *. clearbody b. simpl bpow.
  split; [lra|]. split; [lra|]. split; [lra|]. vm_compute; reflexivity.
Qed.
