From Coq Require Import Reals Lra Lia.
From Coquelicot Require Import Coquelicot.
From Verif Require Import FiniteDiffModel.
Open Scope R_scope.

(** Taylor expansion on either side of a point, up to the given order. *)
Definition smooth_near (f : R -> R) (n : nat) (x r : R) : Prop :=
  forall t, Rabs (t - x) <= r -> forall k, (k <= n)%nat -> ex_derive_n f k t.

Lemma taylor_right f n x h r :
  0 < h -> h <= r -> smooth_near f (S n) x r ->
  exists z, Rabs (z - x) <= r /\
    f (x + h) = sum_f_R0 (fun m => h^m / INR (fact m) * Derive_n f m x) n
                + h^(S n) / INR (fact (S n)) * Derive_n f (S n) z.
Proof.
  intros Hh Hr Hs.
  destruct (Taylor_Lagrange f n x (x + h)) as [z [Hz E]].
  - lra.
  - intros t Ht k Hk. apply Hs; [|exact Hk]. apply Rabs_le; lra.
  - exists z. split; [apply Rabs_le; lra|].
    replace (x + h - x) with h in E by ring. exact E.
Qed.

Lemma taylor_left f n x h r :
  0 < h -> h < r -> smooth_near f (S n) x r ->
  exists z, Rabs (z - x) <= r /\
    f (x - h) = sum_f_R0 (fun m => (-h)^m / INR (fact m) * Derive_n f m x) n
                + (-h)^(S n) / INR (fact (S n)) * Derive_n f (S n) z.
Proof.
  intros Hh Hr Hs.
  pose (g := fun y => f (- y)).
  assert (Hg : forall t k, Rabs (- t - x) < r -> (k <= S n)%nat ->
     ex_derive_n g k t /\ Derive_n g k t = (-1)^k * Derive_n f k (- t)).
  { intros t k Ht Hk.
    assert (L : locally (- t) (fun y => forall k0, (k0 <= k)%nat -> ex_derive_n f k0 y)).
    { exists (mkposreal (r - Rabs (- t - x)) ltac:(lra)). intros y Hy k0 Hk0.
      apply Hs; [|lia]. unfold ball in Hy; simpl in Hy; unfold AbsRing_ball, abs, minus, plus, opp in Hy; simpl in Hy.
      replace (y - x) with ((y + - - t) + (- t - x)) by ring.
      eapply Rle_trans; [apply Rabs_triang|]. lra. }
    split.
    - apply ex_derive_n_comp_opp. exact L.
    - apply Derive_n_comp_opp. exact L. }
  destruct (Taylor_Lagrange g n (- x) (- x + h)) as [z [Hz E]].
  - lra.
  - intros t Ht k Hk. apply Hg; [|exact Hk]. apply Rabs_def1; lra.
  - exists (- z). split; [apply Rabs_le; lra|].
    unfold g at 1 in E. replace (- (- x + h)) with (x - h) in E by ring. rewrite E.
    replace (- x + h - - x) with h by ring. f_equal.
    + apply sum_eq. intros i Hi.
      destruct (Hg (- x) i) as [_ ->]; [|lia|].
      * replace (- - x - x) with 0 by ring. rewrite Rabs_R0. lra.
      * rewrite Ropp_involutive. replace (- h) with (-1 * h) by ring.
        rewrite Rpow_mult_distr. unfold Rdiv. ring.
    + destruct (Hg z (S n)) as [_ ->]; [|lia|].
      * apply Rabs_def1; lra.
      * replace (- h) with (-1 * h) by ring. rewrite Rpow_mult_distr. unfold Rdiv. ring.
Qed.

Lemma pow_bound K d a : Rabs d <= K -> 0 <= a -> Rabs (a * d) <= a * K.
Proof.
  intros H Ha. rewrite Rabs_mult, (Rabs_pos_eq a) by exact Ha.
  apply Rmult_le_compat_l; assumption.
Qed.

Lemma fd_1f_error f x h r K :
  0 < h -> 2 * h < r -> smooth_near f 5 x r ->
  (forall t, Rabs (t - x) <= r -> Rabs (Derive_n f 5 t) <= K) ->
  Rabs (fd_1f f x h - Derive f x) <= K * h^4 / 18.
Proof.
  intros Hh Hr Hs HK.
  destruct (taylor_right f 4 x h r) as [z1 [Hz1 E1]]; [lra|lra|exact Hs|].
  destruct (taylor_right f 4 x (2*h) r) as [z2 [Hz2 E2]]; [lra|lra|exact Hs|].
  destruct (taylor_left f 4 x h r) as [z3 [Hz3 E3]]; [lra|lra|exact Hs|].
  destruct (taylor_left f 4 x (2*h) r) as [z4 [Hz4 E4]]; [lra|lra|exact Hs|].
  apply HK in Hz1, Hz2, Hz3, Hz4.
  unfold fd_1f. rewrite E1, E2, E3, E4.
  set (d1 := Derive_n f 5 z1) in *. set (d2 := Derive_n f 5 z2) in *.
  set (d3 := Derive_n f 5 z3) in *. set (d4 := Derive_n f 5 z4) in *.
  cbn [sum_f_R0 fact Nat.mul Nat.add INR].
  change (Derive f x) with (Derive_n f 1 x).
  generalize (Derive_n f 0 x) (Derive_n f 1 x) (Derive_n f 2 x) (Derive_n f 3 x)
    (Derive_n f 4 x). intros a0 a1 a2 a3 a4.
  match goal with |- Rabs ?e <= _ =>
    replace e with (h^4 * ((d1 + d3) / 180 - (d2 + d4) / 45)) by (field; lra) end.
  apply Rabs_le_between in Hz1, Hz2, Hz3, Hz4.
  pose proof (pow_lt h 4 Hh) as H4.
  apply Rabs_le. split; nra.
Qed.

Lemma fd_2f_error f x h r K :
  0 < h -> 2 * h < r -> smooth_near f 6 x r ->
  (forall t, Rabs (t - x) <= r -> Rabs (Derive_n f 6 t) <= K) ->
  Rabs (fd_2f f x h - Derive_n f 2 x) <= K * h^4 / 54.
Proof.
  intros Hh Hr Hs HK.
  destruct (taylor_right f 5 x h r) as [z1 [Hz1 E1]]; [lra|lra|exact Hs|].
  destruct (taylor_right f 5 x (2*h) r) as [z2 [Hz2 E2]]; [lra|lra|exact Hs|].
  destruct (taylor_left f 5 x h r) as [z3 [Hz3 E3]]; [lra|lra|exact Hs|].
  destruct (taylor_left f 5 x (2*h) r) as [z4 [Hz4 E4]]; [lra|lra|exact Hs|].
  apply HK in Hz1, Hz2, Hz3, Hz4.
  unfold fd_2f. rewrite E1, E2, E3, E4.
  set (d1 := Derive_n f 6 z1) in *. set (d2 := Derive_n f 6 z2) in *.
  set (d3 := Derive_n f 6 z3) in *. set (d4 := Derive_n f 6 z4) in *.
  cbn [sum_f_R0 fact Nat.mul Nat.add INR].
  change (f x) with (Derive_n f 0 x).
  generalize (Derive_n f 0 x) (Derive_n f 1 x) (Derive_n f 2 x) (Derive_n f 3 x)
    (Derive_n f 4 x) (Derive_n f 5 x). intros a0 a1 a2 a3 a4 a5.
  match goal with |- Rabs ?e <= _ =>
    replace e with (h^4 * ((d1 + d3) / 540 - (d2 + d4) / 135)) by (field; lra) end.
  apply Rabs_le_between in Hz1, Hz2, Hz3, Hz4.
  pose proof (pow_lt h 4 Hh) as H4.
  apply Rabs_le. split; nra.
Qed.

(** Exactness on polynomials, without any smoothness argument. *)
Lemma fd_1f_poly a0 a1 a2 a3 a4 x h : h <> 0 ->
  fd_1f (fun t => a0 + a1*t + a2*t^2 + a3*t^3 + a4*t^4) x h
  = a1 + 2*a2*x + 3*a3*x^2 + 4*a4*x^3.
Proof. intros Hh. unfold fd_1f. field. exact Hh. Qed.

Lemma fd_2f_poly a0 a1 a2 a3 a4 a5 x h : h <> 0 ->
  fd_2f (fun t => a0 + a1*t + a2*t^2 + a3*t^3 + a4*t^4 + a5*t^5) x h
  = 2*a2 + 6*a3*x + 12*a4*x^2 + 20*a5*x^3.
Proof. intros Hh. unfold fd_2f. field. exact Hh. Qed.
