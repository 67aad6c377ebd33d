(** C158: Head's method with the rounding of binary64 arithmetic. *)
From Coq Require Import Reals List Lra.
From Flocq Require Import Core IEEE754.BinarySingleNaN.
From Verif Require Import PyBase HeadModel FloatModel FloatSpec FloatFacts FloatXFoilModel FloatThwaitesSpec FloatThwaitesProofs
  FloatStanfordModel FloatStanfordSpec FloatStanfordProofs FloatHeadModel FloatHeadSpec FloatScaleProofs FloatHeadProofs.
Open Scope R_scope.

(** C158: the skin friction. *)
Theorem float_skin_friction : forall pw re h, powers pw -> is_number re -> is_number h ->
  / 2 ^ 40 <= real_of re <= 2 ^ 40 -> 1 <= real_of h <= 4 -> units (lt64 pw re h) (friction (real_of re) (real_of h)) 60.
Proof.
  intros pw re h S A B C D. apply friction_ok; [exact S| | |exact C|exact D].
  - apply (un_weaken _ _ 0); [lra|]. apply exact; [exact A|reflexivity].
  - apply (un_weaken _ _ 0); [lra|]. apply exact; [exact B|reflexivity].
Qed.
Print Assumptions float_skin_friction.

(** C158: the two rates of change, relative to the magnitudes of the terms they are sums of. *)
Theorem float_head_rates : forall pw scalar nu u du d h, powers pw ->
  is_number nu -> is_number u -> is_number du -> is_number d -> is_number h ->
  sized (real_of nu) -> scalar = true \/ 0 <= real_of u -> real_of u <= 2 ^ 50 -> signed (real_of du) -> sized (real_of d) ->
  real_of h <= 4 -> real_of h <> real_of b_1_6 ->
  / 2 ^ 40 <= speed_used (real_of u) * real_of d / real_of nu <= 2 ^ 40 ->
  let exactly f := f (real_of nu) (speed_used (real_of u)) (real_of du) (real_of d) (shape_used (real_of h)) in
  within (fst (head_rhs64 pw scalar nu u du d h)) (exactly momentum_rate) (64 / 2 ^ 53 * exactly momentum_size) /\
  within (snd (head_rhs64 pw scalar nu u du d h)) (exactly shape_rate) (1100 / 2 ^ 53 * exactly shape_size).
Proof.
  intros pw scalar nu u du d h S A1 A2 A3 A4 A5 B1 B2 B3 B4 B5 B6 B7 B8.
  destruct (rhs_ok pw scalar nu u du d h S A1 A2 A3 A4 A5 B1 B2 B3 (zb_signed _ B4) B5 B6 B7 B8) as [E F].
  split; apply su_within; assumption.
Qed.
Print Assumptions float_head_rates.

(** C158: those rates are what the exact right-hand side (C35) gives. *)
Theorem float_head_exact : forall nu u du d h, 0 < nu -> 0 < d ->
  head_rhs (Fin nu) (VFloat (Fin u)) (VFloat (Fin du)) (Fin d) (Fin h) =
  Ok (Fin (momentum_rate nu (speed_used u) du d (shape_used h)), Fin (shape_rate nu (speed_used u) du d (shape_used h))).
Proof. exact exact_rates. Qed.
Print Assumptions float_head_exact.

(** C158: the entrainment relations. *)
Theorem float_entrainment : forall pw h, powers pw -> is_number h -> 111/100 <= real_of h <= 4 -> real_of h <> real_of b_1_6 ->
  units (entr64 pw h) (entrainment (real_of h)) 309 /\ units (entr_p64 pw h) (entrainment_slope (real_of h)) 560 /\
  units (entr_vel64 pw (entr64 pw h)) (entrainment_rate (entrainment (real_of h))) 503.
Proof. exact entr_facts. Qed.
Print Assumptions float_entrainment.

(** A power function as assumed, and a state: Reynolds number 8192, shape factor 1.5, du/dx = 1. *)
Definition ex_nu : b64 := @B754_finite 53 1024 false 4503599627370496 (-72) eq_refl.
Definition ex_d : b64 := @B754_finite 53 1024 false 4503599627370496 (-59) eq_refl.
Definition ex_h : b64 := @B754_finite 53 1024 false 6755399441055744 (-52) eq_refl.
Example head_case : exists pw, powers pw /\ is_number ex_nu /\ is_number b_1 /\ is_number ex_d /\ is_number ex_h /\
  sized (real_of ex_nu) /\ 0 <= real_of b_1 <= 2 ^ 50 /\ signed (real_of b_1) /\ sized (real_of ex_d) /\
  real_of ex_h = 3/2 /\ real_of ex_h <> real_of b_1_6 /\ / 2 ^ 40 <= speed_used (real_of b_1) * real_of ex_d / real_of ex_nu <= 2 ^ 40.
Proof.
  exists (fun x y => float_of (Rpower (real_of x) (real_of y))). split; [exact powers_example|].
  destruct (literal 4503599627370496 (-72) eq_refl) as [A1 A2]. fold ex_nu in A1, A2.
  destruct (literal 4503599627370496 (-59) eq_refl) as [B1 B2]. fold ex_d in B1, B2.
  destruct (literal 6755399441055744 (-52) eq_refl) as [C1 C2]. fold ex_h in C1, C2.
  destruct (literal 4503599627370496 (-52) eq_refl) as [D1 D2]. fold b_1 in D1, D2.
  assert (A : real_of ex_nu = / 1048576) by (rewrite A2; simpl; lra).
  assert (B : real_of ex_d = / 128) by (rewrite B2; simpl; lra).
  assert (C : real_of ex_h = 3/2) by (rewrite C2; simpl; lra).
  assert (D : real_of b_1 = 1) by (rewrite D2; simpl; lra).
  rewrite A, B, C, D, (proj2 x_1_6). unfold sized, signed, speed_used. rewrite Rmax_right by lra.
  split; [exact A1|]. split; [exact D1|]. split; [exact B1|]. split; [exact C1|].
  split; [simpl; lra|]. split; [simpl; lra|]. split; [right; left; unfold sized; simpl; lra|]. split; [simpl; lra|]. split; [reflexivity|].
  split; [simpl; lra|]. replace (1 * / 128 / / 1048576) with 8192 by field. simpl; lra.
Qed.
