(** Existence and uniqueness of solutions of y' = f(t, y) for a right-hand side that is
    Lipschitz in y (the theorem of Picard and Lindeloef), for use with the equations the
    methods integrate. *)
From Coq Require Import Reals Lra Lia.
From Coquelicot Require Import Coquelicot.
Open Scope R_scope.

Section Picard.
Context {V : CompleteNormedModule R_AbsRing}.
Variable f : R -> V -> V.
Variables L K : R.
Variable y0 : V.
Hypothesis L_pos : 0 < L.
Hypothesis lip : forall t u v, norm (minus (f t u) (f t v)) <= L * norm (minus u v).
Hypothesis cont : forall t v, continuous (fun p : R * V => f (fst p) (snd p)) (t, v).
Hypothesis bound0 : forall t, norm (f t y0) <= K.

Lemma norm_sum (a b : V) : norm (plus a b) <= norm a + norm b.
Proof. exact (@norm_triangle R_AbsRing V a b). Qed.

Lemma norm_nothing : norm (zero : V) = 0.
Proof. exact (@norm_zero R_AbsRing V). Qed.

Lemma norm_swap (a b : V) : norm (minus a b) = norm (minus b a).
Proof.
  rewrite <- (@norm_opp R_AbsRing V (minus a b)). f_equal. exact (opp_minus a b).
Qed.

Lemma along_continuous (y : R -> V) t : continuous y t -> continuous (fun s => f s (y s)) t.
Proof.
  intros H. apply (continuous_comp_2 (fun s => s) y f); [apply continuous_id|exact H|apply cont].
Qed.

Lemma along_integrable (y : R -> V) a b : (forall t, continuous y t) ->
  ex_RInt (fun s => f s (y s)) a b.
Proof. intros H. apply ex_RInt_continuous. intros z _. apply along_continuous, H. Qed.

Lemma integral_derive (y : R -> V) t : (forall t, continuous y t) ->
  is_derive (fun t => plus y0 (RInt (fun s => f s (y s)) 0 t)) t (f t (y t)).
Proof.
  intros H.
  replace (f t (y t)) with (plus zero (f t (y t))) by apply plus_zero_l.
  apply (is_derive_plus (fun _ : R_AbsRing => y0)); [apply (@is_derive_const R_AbsRing V y0 t)|].
  apply (is_derive_RInt (fun s => f s (y s)) _ 0 t).
  - apply filter_forall. intros b. apply RInt_correct, along_integrable, H.
  - apply along_continuous, H.
Qed.

(** Integrals of functions bounded by a growing exponential. *)
Lemma exp_integral a b c : c <> 0 ->
  is_RInt (fun s => c * exp (c * s)) a b (exp (c * b) - exp (c * a)).
Proof.
  intros Hc. apply (is_RInt_derive (fun s => exp (c * s))).
  - intros x _. auto_derive; [exact I|ring].
  - intros x _. apply (ex_derive_continuous (fun s => c * exp (c * s))). auto_derive. exact I.
Qed.

Lemma integral_bound (g : R -> V) C t : 0 <= C ->
  (forall s, continuous g s) ->
  (forall s, Rmin 0 t <= s <= Rmax 0 t -> norm (g s) <= L * (C * exp (2 * L * Rabs s))) ->
  norm (RInt g 0 t) <= C / 2 * exp (2 * L * Rabs t).
Proof.
  intros HC Hg Hb.
  assert (G : forall a b, is_RInt g a b (RInt g a b)).
  { intros a b. apply RInt_correct, ex_RInt_continuous. intros; apply Hg. }
  destruct (Rle_dec 0 t) as [Ht|Ht].
  - rewrite Rmin_left, Rmax_right in Hb by lra. rewrite (Rabs_pos_eq t Ht).
    apply Rle_trans with (C / 2 * (exp (2 * L * t) - exp (2 * L * 0))).
    + apply (norm_RInt_le g (fun s => C / 2 * (2 * L * exp (2 * L * s))) 0 t); [exact Ht| |apply G|].
      * intros s Hs. specialize (Hb s Hs). rewrite (Rabs_pos_eq s) in Hb by lra.
        eapply Rle_trans; [exact Hb|]. apply Req_le. field.
      * apply (is_RInt_scal (fun s => 2 * L * exp (2 * L * s)) 0 t (C / 2)).
        apply exp_integral. lra.
    + apply Rmult_le_compat_l; [lra|]. pose proof (exp_pos (2 * L * 0)). lra.
  - rewrite Rmin_right, Rmax_left in Hb by lra. rewrite (Rabs_left t) by lra.
    replace (norm (RInt g 0 t)) with (norm (RInt g t 0)).
    2:{ rewrite <- (opp_RInt_swap g); [apply (norm_opp (RInt g 0 t))|].
        exists (RInt g 0 t). apply G. }
    apply Rle_trans with (C / 2 * (exp (2 * L * - t) - exp (2 * L * 0))).
    + apply (norm_RInt_le g (fun s => - (C / 2) * (- (2 * L) * exp (- (2 * L) * s))) t 0 _ _ ltac:(lra));
        [|apply G|].
      * intros s Hs. specialize (Hb s Hs). rewrite (Rabs_left1 s) in Hb by lra.
        eapply Rle_trans; [exact Hb|]. apply Req_le.
        replace (2 * L * - s) with (- (2 * L) * s) by ring. field.
      * replace (C / 2 * (exp (2 * L * - t) - exp (2 * L * 0)))
          with (- (C / 2) * (exp (- (2 * L) * 0) - exp (- (2 * L) * t))).
        2:{ replace (- (2 * L) * 0) with (2 * L * 0) by ring.
            replace (- (2 * L) * t) with (2 * L * - t) by ring. ring. }
        apply (is_RInt_scal (fun s => - (2 * L) * exp (- (2 * L) * s)) t 0 (- (C / 2))).
        apply exp_integral. lra.
    + apply Rmult_le_compat_l; [lra|]. pose proof (exp_pos (2 * L * 0)). lra.
Qed.

(** The iterates. *)
Fixpoint iter (n : nat) : R -> V :=
  match n with
  | O => fun _ => y0
  | S m => fun t => plus y0 (RInt (fun s => f s (iter m s)) 0 t)
  end.

Lemma iter_continuous n t : continuous (iter n) t.
Proof.
  revert t. induction n as [|n IH]; intros t; [apply continuous_const|].
  apply (ex_derive_continuous (iter (S n))). eexists. apply (integral_derive (iter n) t IH).
Qed.

Lemma minus_plus_cancel (a b c : V) : minus (plus a b) (plus a c) = minus b c.
Proof.
  unfold minus. rewrite opp_plus, (plus_comm a b), <- plus_assoc, (plus_assoc a), plus_opp_r, plus_zero_l.
  reflexivity.
Qed.

Lemma difference_shrinks (u v : R -> V) C t : 0 <= C ->
  (forall s, continuous u s) -> (forall s, continuous v s) ->
  (forall s, Rmin 0 t <= s <= Rmax 0 t ->
     norm (minus (u s) (v s)) <= C * exp (2 * L * Rabs s)) ->
  norm (minus (plus y0 (RInt (fun s => f s (u s)) 0 t)) (plus y0 (RInt (fun s => f s (v s)) 0 t)))
    <= C / 2 * exp (2 * L * Rabs t).
Proof.
  intros HC Hu Hv Hb.
  replace (minus (plus y0 (RInt (fun s => f s (u s)) 0 t)) (plus y0 (RInt (fun s => f s (v s)) 0 t)))
    with (RInt (fun s => minus (f s (u s)) (f s (v s))) 0 t).
  - apply integral_bound; [exact HC| |].
    + intros s. apply (continuous_minus (fun s => f s (u s)) (fun s => f s (v s)));
        apply along_continuous; auto.
    + intros s Hs. eapply Rle_trans; [apply lip|].
      apply Rmult_le_compat_l; [lra|]. apply Hb, Hs.
  - rewrite (RInt_minus (fun s => f s (u s)) (fun s => f s (v s))) by (apply along_integrable; auto).
    symmetry. apply minus_plus_cancel.
Qed.

Definition start_gap : R := K / L.

Lemma K_nonneg : 0 <= K.
Proof. eapply Rle_trans; [apply (norm_ge_0 (f 0 y0))|apply (bound0 0)]. Qed.

Lemma start_gap_nonneg : 0 <= start_gap.
Proof. apply Rdiv_le_0_compat; [apply K_nonneg|exact L_pos]. Qed.

Lemma iter_gap n t :
  norm (minus (iter (S n) t) (iter n t)) <= start_gap * (/ 2) ^ n * exp (2 * L * Rabs t).
Proof.
  revert t. induction n as [|n IH]; intros t.
  - assert (Hs := start_gap_nonneg). assert (HK := K_nonneg).
    replace (minus (iter 1 t) (iter 0 t)) with (RInt (fun s => f s y0) 0 t).
    + eapply Rle_trans.
      * apply (integral_bound (fun s => f s y0) start_gap t Hs).
        -- intros s. apply (along_continuous (fun _ => y0)), continuous_const.
        -- intros s _. eapply Rle_trans; [apply bound0|].
           replace (L * (start_gap * exp (2 * L * Rabs s))) with (K * exp (2 * L * Rabs s))
             by (unfold start_gap; field; lra).
           rewrite <- (Rmult_1_r K) at 1. apply Rmult_le_compat_l; [exact HK|].
           rewrite <- exp_0. destruct (Rle_lt_or_eq_dec 0 (2 * L * Rabs s)) as [H|H].
           ++ apply Rmult_le_pos; [lra|apply Rabs_pos].
           ++ left. apply exp_increasing, H.
           ++ rewrite <- H. right. reflexivity.
      * simpl. apply Rmult_le_compat_r; [left; apply exp_pos|lra].
    + cbn [iter]. unfold minus. rewrite (plus_comm y0), <- plus_assoc, plus_opp_r, plus_zero_r.
      reflexivity.
  - replace (start_gap * (/ 2) ^ S n) with (start_gap * (/ 2) ^ n / 2) by (simpl; field).
    apply (difference_shrinks (iter (S n)) (iter n)).
    + apply Rmult_le_pos; [apply start_gap_nonneg|]. apply pow_le. lra.
    + apply iter_continuous.
    + apply iter_continuous.
    + intros s _. apply IH.
Qed.

Lemma minus_split (a b c : V) : minus a c = plus (minus a b) (minus b c).
Proof.
  unfold minus. rewrite <- plus_assoc, (plus_assoc (opp b)), plus_opp_l, plus_zero_l. reflexivity.
Qed.

Lemma iter_tail n k t :
  norm (minus (iter (n + k) t) (iter n t))
    <= 2 * start_gap * (/ 2) ^ n * (1 - (/ 2) ^ k) * exp (2 * L * Rabs t).
Proof.
  induction k as [|k IH].
  - rewrite Nat.add_0_r, minus_eq_zero, norm_nothing. simpl.
    right. ring.
  - rewrite Nat.add_succ_r, (minus_split _ (iter (n + k) t)).
    eapply Rle_trans; [apply norm_sum|].
    eapply Rle_trans; [apply Rplus_le_compat; [apply iter_gap|apply IH]|].
    right. rewrite pow_add. simpl. field.
Qed.

Definition tail (n : nat) (t : R) : R := 2 * start_gap * (/ 2) ^ n * exp (2 * L * Rabs t).

Lemma iter_tail' n m t : (n <= m)%nat -> norm (minus (iter m t) (iter n t)) <= tail n t.
Proof.
  intros H. replace m with (n + (m - n))%nat by lia.
  eapply Rle_trans; [apply iter_tail|]. unfold tail.
  apply Rmult_le_compat_r; [left; apply exp_pos|].
  rewrite <- (Rmult_1_r (2 * start_gap * (/ 2) ^ n)) at 2.
  assert (0 <= (/ 2) ^ n) by (apply pow_le; lra).
  assert (0 <= (/ 2) ^ (m - n)) by (apply pow_le; lra).
  apply Rmult_le_compat_l; [|lra].
  apply Rmult_le_pos; [|assumption]. pose proof start_gap_nonneg. lra.
Qed.

Lemma tail_mono n t T : Rabs t <= T -> tail n t <= 2 * start_gap * (/ 2) ^ n * exp (2 * L * T).
Proof.
  intros H. unfold tail. apply Rmult_le_compat_l.
  - apply Rmult_le_pos; [|apply pow_le; lra]. pose proof start_gap_nonneg. lra.
  - destruct (Req_dec (Rabs t) T) as [->|Hn]; [right; reflexivity|].
    left. apply exp_increasing. apply Rmult_lt_compat_l; lra.
Qed.

Lemma shrinks_below C eps : 0 < eps -> exists N, forall n, (N <= n)%nat -> C * (/ 2) ^ n < eps.
Proof.
  intros He.
  destruct (Rle_dec C 0) as [HC|HC].
  - exists O. intros n _. assert (0 < (/ 2) ^ n) by (apply pow_lt; lra). nra.
  - assert (Hx : 0 < eps / C) by (apply Rdiv_lt_0_compat; lra).
    destruct (pow_lt_1_zero (/ 2) ltac:(rewrite Rabs_pos_eq; lra) (eps / C) Hx) as [N HN].
    exists N. intros n Hn. specialize (HN n Hn).
    rewrite Rabs_pos_eq in HN by (apply pow_le; lra).
    apply (Rmult_lt_compat_l C) in HN; [|lra].
    replace (C * (eps / C)) with eps in HN by (field; lra). exact HN.
Qed.

Definition sol (t : R) : V := lim (filtermap (fun n => iter n t) eventually).

Lemma sol_near t (eps : posreal) : eventually (fun n => ball (sol t) eps (iter n t)).
Proof.
  apply (complete_cauchy (filtermap (fun n => iter n t) eventually)).
  - apply filtermap_proper_filter. apply eventually_filter.
  - intros e.
    destruct (shrinks_below (2 * start_gap * exp (2 * L * Rabs t)) e (cond_pos e)) as [N HN].
    exists (iter N t). exists N. intros n Hn.
    apply (@norm_compat1 R_AbsRing V).
    eapply Rle_lt_trans; [apply (iter_tail' N n t Hn)|].
    specialize (HN N (le_n N)). unfold tail. lra.
Qed.

Lemma sol_tail n t : norm (minus (sol t) (iter n t)) <= tail n t.
Proof.
  apply le_epsilon. intros e He.
  assert (Hf : 0 < @norm_factor R_AbsRing V) by apply norm_factor_gt_0.
  assert (Hp : 0 < e / @norm_factor R_AbsRing V) by (apply Rdiv_lt_0_compat; assumption).
  destruct (sol_near t (mkposreal _ Hp)) as [N HN].
  set (m := Nat.max N n).
  assert (H1 := HN m (Nat.le_max_l N n)).
  apply (@norm_compat2 R_AbsRing V) in H1. simpl in H1.
  rewrite (minus_split _ (iter m t)).
  eapply Rle_trans; [apply norm_sum|].
  assert (H2 := iter_tail' n m t (Nat.le_max_r N n)).
  rewrite norm_swap in H1.
  assert (H3 : norm (minus (sol t) (iter m t)) <= e).
  { left. eapply Rlt_le_trans; [exact H1|]. right. field. lra. }
  lra.
Qed.

Lemma sol_continuous t : continuous sol t.
Proof.
  refine (proj2 (@filterlim_locally R V (locally t) _ sol (sol t)) _). intros eps.
  assert (He : 0 < eps / 3) by (pose proof (cond_pos eps); lra).
  destruct (shrinks_below (2 * start_gap * exp (2 * L * (Rabs t + 1))) (eps / 3) He) as [N HN].
  specialize (HN N (le_n N)).
  assert (HT : forall s, Rabs s <= Rabs t + 1 -> norm (minus (sol s) (iter N s)) < eps / 3).
  { intros s Hs. eapply Rle_lt_trans; [apply sol_tail|].
    eapply Rle_lt_trans; [apply (tail_mono N s (Rabs t + 1) Hs)|]. lra. }
  assert (Hf : 0 < @norm_factor R_AbsRing V) by apply norm_factor_gt_0.
  assert (Hp : 0 < eps / 3 / @norm_factor R_AbsRing V) by (apply Rdiv_lt_0_compat; assumption).
  assert (HC := proj1 (@filterlim_locally R V (locally t) _ (iter N) (iter N t)) (iter_continuous N t)
                  (mkposreal _ Hp)).
  generalize (filter_and _ _ HC (locally_ball t (mkposreal 1 Rlt_0_1))).
  apply filter_imp. intros s [H1 H2].
    apply (@norm_compat1 R_AbsRing V).
    apply (@norm_compat2 R_AbsRing V) in H1. simpl in H1.
    rewrite (minus_split _ (iter N s)). eapply Rle_lt_trans; [apply norm_sum|].
    rewrite (minus_split (iter N s) (iter N t)).
    assert (G1 := HT t ltac:(lra)).
    assert (G2 : norm (minus (sol s) (iter N s)) < eps / 3).
    { apply HT. assert (H3 : Rabs (s - t) < 1) by exact H2.
      replace s with (s - t + t) by ring. eapply Rle_trans; [apply Rabs_triang|]. lra. }
    assert (G3 : norm (minus (iter N s) (iter N t)) < eps / 3).
    { eapply Rlt_le_trans; [exact H1|]. right. field. lra. }
    rewrite norm_swap in G1.
    assert (G4 := norm_sum (minus (iter N s) (iter N t)) (minus (iter N t) (sol t))). lra.
Qed.

Lemma norm_zero_eq (a : V) : norm a <= 0 -> a = zero.
Proof.
  intros H. apply (@norm_eq_zero R_AbsRing V). apply Rle_antisym; [exact H|].
  apply (@norm_ge_0 R_AbsRing V).
Qed.

Lemma minus_zero_eq (a b : V) : minus a b = zero -> a = b.
Proof.
  intros H. rewrite <- (plus_zero_l b), <- H. unfold minus.
  rewrite <- plus_assoc, plus_opp_l, plus_zero_r. reflexivity.
Qed.

Lemma sol_integral t : sol t = plus y0 (RInt (fun s => f s (sol s)) 0 t).
Proof.
  apply minus_zero_eq, norm_zero_eq. apply le_epsilon. intros e He. rewrite Rplus_0_l.
  destruct (shrinks_below (2 * start_gap * exp (2 * L * Rabs t)) e He) as [N HN].
  specialize (HN N (le_n N)).
  rewrite (minus_split _ (iter (S N) t)). eapply Rle_trans; [apply norm_sum|].
  assert (H1 := sol_tail (S N) t).
  assert (H2 : norm (minus (iter (S N) t) (plus y0 (RInt (fun s => f s (sol s)) 0 t)))
    <= 2 * start_gap * (/ 2) ^ N / 2 * exp (2 * L * Rabs t)).
  { apply (difference_shrinks (iter N) sol).
    - apply Rmult_le_pos; [|apply pow_le; lra]. pose proof start_gap_nonneg. lra.
    - apply iter_continuous.
    - apply sol_continuous.
    - intros s _. rewrite norm_swap. apply sol_tail. }
  unfold tail in H1. simpl in H1.
  eapply Rle_trans; [apply (Rplus_le_compat _ _ _ _ H1 H2)|].
  left. eapply Rle_lt_trans; [|exact HN]. right. field.
Qed.

(** There is a solution through [y0] at time 0, for all times. *)
Theorem picard_exists : exists y : R -> V, y 0 = y0 /\ forall t, is_derive y t (f t (y t)).
Proof.
  exists sol. split.
  - rewrite sol_integral, RInt_point. apply plus_zero_r.
  - intros t. apply (is_derive_ext (fun t => plus y0 (RInt (fun s => f s (sol s)) 0 t))).
    + intros s. symmetry. apply sol_integral.
    + apply integral_derive, sol_continuous.
Qed.

(** Two solutions that agree at the start of an interval agree on all of it. *)
Lemma gap_step (y z : R -> V) (a b C : R) : 0 <= C ->
  (forall t, a <= t <= b -> is_derive y t (f t (y t))) ->
  (forall t, a <= t <= b -> is_derive z t (f t (z t))) ->
  y a = z a ->
  (forall t, a <= t <= b -> norm (minus (y t) (z t)) <= C * exp (2 * L * t)) ->
  forall t, a <= t <= b -> norm (minus (y t) (z t)) <= C / 2 * exp (2 * L * t).
Proof.
  intros HC Hy Hz H0 HB t Ht.
  assert (I : forall y : R -> V, (forall t, a <= t <= b -> is_derive y t (f t (y t))) ->
              is_RInt (fun s => f s (y s)) a t (minus (y t) (y a))).
  { intros u Hu. apply (is_RInt_derive u (fun s => f s (u s))).
    - intros s Hs. rewrite Rmin_left, Rmax_right in Hs by lra. apply Hu. lra.
    - intros s Hs. rewrite Rmin_left, Rmax_right in Hs by lra. apply along_continuous.
      apply (ex_derive_continuous u). eexists. apply Hu. lra. }
  assert (D := is_RInt_minus _ _ _ _ _ _ (I y Hy) (I z Hz)).
  rewrite H0 in D.
  assert (Eq : minus (minus (y t) (z a)) (minus (z t) (z a)) = minus (y t) (z t)).
  { rewrite (minus_split (y t) (z a) (z t)), <- (opp_minus (z t) (z a)). reflexivity. }
  rewrite <- Eq.
  apply Rle_trans with (C / 2 * (exp (2 * L * t) - exp (2 * L * a))).
  - refine (norm_RInt_le _ (fun s => C / 2 * (2 * L * exp (2 * L * s))) a t _ _ ltac:(lra) _ D _).
    2:{ apply (is_RInt_scal (fun s => 2 * L * exp (2 * L * s)) a t (C / 2)).
        apply exp_integral. lra. }
    intros s Hs. eapply Rle_trans; [apply lip|].
      apply Rle_trans with (L * (C * exp (2 * L * s))); [|right; field].
      apply Rmult_le_compat_l; [lra|]. apply HB. lra.
  - apply Rmult_le_compat_l; [lra|]. pose proof (exp_pos (2 * L * a)). lra.
Qed.

Theorem picard_unique (y z : R -> V) (a b : R) :
  (forall t, a <= t <= b -> is_derive y t (f t (y t))) ->
  (forall t, a <= t <= b -> is_derive z t (f t (z t))) ->
  y a = z a -> forall t, a <= t <= b -> y t = z t.
Proof.
  intros Hy Hz H0 t Ht.
  assert (HN : forall s, a <= s <= b -> continuity_pt (fun s => norm (minus (y s) (z s))) s).
  { intros s Hs. apply continuity_pt_filterlim.
    apply (continuous_comp (fun s => minus (y s) (z s)) norm).
    - apply (continuous_minus y z); apply ex_derive_continuous; eexists; [apply Hy|apply Hz]; exact Hs.
    - apply (@filterlim_norm R_AbsRing V). }
  destruct (continuity_ab_maj _ a b ltac:(lra) HN) as [m [Hm _]].
  set (B := norm (minus (y m) (z m))) in *.
  assert (HB : 0 <= B) by apply (@norm_ge_0 R_AbsRing V).
  set (C := B * exp (- (2 * L * a))).
  assert (HC : 0 <= C) by (apply Rmult_le_pos; [exact HB|left; apply exp_pos]).
  assert (G : forall n t, a <= t <= b -> norm (minus (y t) (z t)) <= C * (/ 2) ^ n * exp (2 * L * t)).
  { induction n as [|n IH].
    - intros s Hs. eapply Rle_trans; [apply (Hm s Hs)|]. simpl. unfold C.
      rewrite Rmult_1_r, Rmult_assoc, <- exp_plus.
      rewrite <- (Rmult_1_r B) at 1. apply Rmult_le_compat_l; [exact HB|].
      eapply Rle_trans; [|apply exp_ineq1_le].
      assert (0 <= 2 * L * (s - a)) by (apply Rmult_le_pos; lra). lra.
    - intros s Hs. replace (C * (/ 2) ^ S n) with (C * (/ 2) ^ n / 2) by (simpl; field).
      apply (gap_step y z a b); auto. apply Rmult_le_pos; [exact HC|]. apply pow_le. lra. }
  apply minus_zero_eq, norm_zero_eq. apply le_epsilon. intros e He. rewrite Rplus_0_l.
  destruct (shrinks_below (C * exp (2 * L * t)) e He) as [N HNN].
  eapply Rle_trans; [apply (G N t Ht)|]. left.
  eapply Rle_lt_trans; [|apply (HNN N (le_n N))]. right. ring.
Qed.
End Picard.
