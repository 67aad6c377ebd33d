(** Existence for s' = F(s dU)/W when F is only a uniform limit of locally Lipschitz functions and
    one-sided Lipschitz, as with White's fit (C112). *)
From Coq Require Import Reals Lra Lia.
From Coquelicot Require Import Coquelicot.
From Verif Require Import PositivityProofs WellPosedProofs FitLipschitzProofs WellPosedOdeProofs.
Open Scope R_scope.

Section Limit.
Context (F : R -> R) (Fn : nat -> R -> R) (e : nat -> R) (dU W : R -> R) (a b A B s0 : R).
Context (Hab : a <= b) (HA : 0 <= A) (HB : 0 <= B) (Hs0 : 0 < s0).
Context (HdU : forall x, a <= x <= b -> continuous dU x) (HW : forall x, a <= x <= b -> continuous W x /\ 0 < W x).
Context (FC : forall p, continuous F p) (FO : one_sided F).
Context (NL : forall n, locally_lip (Fn n)) (N0 : forall n, 0 < Fn n 0)
  (Nup : forall n p, Fn n p <= A + B * Rabs p) (Ne : forall n p, Rabs (Fn n p - F p) <= e n)
  (Edec : forall n m, (n <= m)%nat -> e m <= e n) (E0 : forall d, 0 < d -> exists n, e n <= d).

Let sol n (s : R -> R) : Prop := s a = s0 /\
  forall x, a <= x <= b -> is_derive s x (Fn n (s x * dU x) / W x) /\ 0 < s x.

Lemma sol_ex n : exists s, sol n s.
Proof. apply (solution_exists (Fn n) dU W a b A B s0 Hab (NL n) (N0 n) HA HB (Nup n) HdU HW Hs0). Qed.

Lemma e_pos n : 0 <= e n.
Proof. eapply Rle_trans; [apply Rabs_pos|apply (Ne n 0)]. Qed.

Lemma sol_bound : exists T, 0 < T /\ forall n s, sol n s -> forall x, a <= x <= b -> s x <= T.
Proof.
  destruct (bound_above a b Hab dU HdU) as [D [HD HD']]. destruct (bound_below W a b Hab HW) as [w [Hw Hw']].
  set (k := B * D / w). set (c := A / w).
  assert (Hk : 0 <= k) by (apply Rdiv_le_0_compat; [apply Rmult_le_pos; lra|exact Hw]).
  assert (Hc : 0 <= c) by (apply Rdiv_le_0_compat; assumption).
  exists ((s0 + c * (b - a)) * exp (k * (b - a))). split.
  { apply Rmult_lt_0_compat; [|apply exp_pos]. pose proof (Rmult_le_pos c (b - a) Hc ltac:(lra)). lra. }
  intros n s [S0 S] x Hx.
  apply Rle_trans with ((s a + c * (x - a)) * exp (k * (x - a))).
  - apply (growth_bound s (fun x => Fn n (s x * dU x) / W x)); [lra|exact Hk|exact Hc|].
    intros t Ht. destruct (S t ltac:(lra)) as [D1 P]. split; [exact D1|].
    assert (Wt := Hw' t ltac:(lra)). assert (Dt := HD' t ltac:(lra)).
    assert (N : Fn n (s t * dU t) <= A + B * (s t * D)).
    { eapply Rle_trans; [apply Nup|]. apply Rplus_le_compat_l, Rmult_le_compat_l; [exact HB|].
      rewrite Rabs_mult, (Rabs_right (s t)) by lra. apply Rmult_le_compat_l; lra. }
    replace (k * s t + c) with ((A + B * (s t * D)) / w) by (unfold k, c; field; lra).
    assert (Z : 0 <= A + B * (s t * D)).
    { assert (0 <= B * (s t * D)) by (apply Rmult_le_pos; [exact HB|apply Rmult_le_pos; lra]). lra. }
    unfold Rdiv. apply Rle_trans with ((A + B * (s t * D)) * / W t).
    + apply Rmult_le_compat_r; [left; apply Rinv_0_lt_compat; lra|exact N].
    + apply Rmult_le_compat_l; [exact Z|]. apply Rinv_le_contravar; lra.
  - rewrite S0. apply Rmult_le_compat.
    + pose proof (Rmult_le_pos c (x - a) Hc ltac:(lra)). lra.
    + left; apply exp_pos.
    + apply Rplus_le_compat_l, Rmult_le_compat_l; lra.
    + destruct (Req_dec (k * (x - a)) (k * (b - a))) as [->|Ne']; [lra|]. left. apply exp_increasing.
      assert (k * (x - a) <= k * (b - a)) by (apply Rmult_le_compat_l; lra). lra.
Qed.

(** The approximate solutions are close to each other. *)
Lemma sol_cauchy : exists C, 0 <= C /\ forall n m s s', (n <= m)%nat -> sol n s -> sol m s' ->
  forall x, a <= x <= b -> Rabs (s x - s' x) <= C * e n.
Proof.
  destruct sol_bound as [T [HT HT']].
  destruct (bound_above a b Hab dU HdU) as [D [HD HD']]. destruct (bound_below W a b Hab HW) as [w [Hw Hw']].
  destruct (FO (T * D)) as [L HL]; [apply Rmult_lt_0_compat; assumption|].
  set (K := Rabs L * D / w).
  assert (HK : 0 <= K) by (apply Rdiv_le_0_compat; [apply Rmult_le_pos; [apply Rabs_pos|lra]|exact Hw]).
  exists (2 / w * (b - a) * exp (K * (b - a))). split.
  { apply Rmult_le_pos; [apply Rmult_le_pos|left; apply exp_pos]; [|lra].
    apply Rdiv_le_0_compat; lra. }
  intros n m s s' Hnm [S0 S] [S0' S'] x Hx. assert (En := e_pos n).
  assert (R0 : 0 <= 2 * e n / w) by (apply Rdiv_le_0_compat; lra).
  apply Rle_trans with ((Rabs (s a - s' a) + 2 * e n / w * (x - a)) * exp (K * (x - a))).
  - apply (osl_error s s' (fun x => Fn n (s x * dU x) / W x) (fun x => Fn m (s' x * dU x) / W x)); [lra|exact HK|exact R0|].
    intros t Ht. destruct (S t ltac:(lra)) as [D1 P1]. destruct (S' t ltac:(lra)) as [D2 P2].
    split; [exact D1|]. split; [exact D2|].
    assert (Wt := Hw' t ltac:(lra)). assert (Dt := HD' t ltac:(lra)).
    assert (T1 := HT' n s (conj S0 S) t ltac:(lra)). assert (T2 := HT' m s' (conj S0' S') t ltac:(lra)).
    assert (B1 : forall u, 0 < u <= T -> Rabs (u * dU t) <= T * D).
    { intros u Hu. rewrite Rabs_mult, (Rabs_right u) by lra. apply Rmult_le_compat; [lra|apply Rabs_pos|lra|lra]. }
    assert (Q := HL (s t) (s' t) (dU t) ltac:(lra) ltac:(lra) (B1 (s t) (conj P1 T1)) (B1 (s' t) (conj P2 T2))).
    assert (En1 := Ne n (s t * dU t)). assert (Em := Ne m (s' t * dU t)). assert (Ed := Edec n m Hnm).
    set (f1 := Fn n (s t * dU t)) in *. set (f2 := Fn m (s' t * dU t)) in *.
    set (g1 := F (s t * dU t)) in *. set (g2 := F (s' t * dU t)) in *. set (z := s t - s' t) in *.
    assert (X : (f1 - f2) * z <= Rabs L * D * z ^ 2 + 2 * e n * Rabs z).
    { replace ((f1 - f2) * z) with ((g1 - g2) * z + ((f1 - g1) - (f2 - g2)) * z) by ring.
      apply Rplus_le_compat.
      - eapply Rle_trans; [exact Q|]. apply Rmult_le_compat_r; [apply pow2_ge_0|].
        apply Rle_trans with (Rabs L * Rabs (dU t)).
        + apply Rmult_le_compat_r; [apply Rabs_pos|apply Rle_abs].
        + apply Rmult_le_compat_l; [apply Rabs_pos|exact Dt].
      - eapply Rle_trans; [apply Rle_abs|]. rewrite Rabs_mult. apply Rmult_le_compat_r; [apply Rabs_pos|].
        eapply Rle_trans; [apply Rabs_triang|]. rewrite Rabs_Ropp. lra. }
    assert (Y0 : 0 <= Rabs L * D * z ^ 2 + 2 * e n * Rabs z).
    { apply Rplus_le_le_0_compat; [apply Rmult_le_pos; [apply Rmult_le_pos; [apply Rabs_pos|lra]|apply pow2_ge_0]|].
      apply Rmult_le_pos; [lra|apply Rabs_pos]. }
    replace ((f1 / W t - f2 / W t) * z) with ((f1 - f2) * z / W t) by (field; lra).
    replace (K * z ^ 2 + 2 * e n / w * Rabs z) with ((Rabs L * D * z ^ 2 + 2 * e n * Rabs z) / w) by (unfold K; field; lra).
    unfold Rdiv. apply Rle_trans with ((Rabs L * D * z ^ 2 + 2 * e n * Rabs z) * / W t).
    + apply Rmult_le_compat_r; [left; apply Rinv_0_lt_compat; lra|exact X].
    + apply Rmult_le_compat_l; [exact Y0|]. apply Rinv_le_contravar; lra.
  - rewrite S0, S0', Rminus_eq_0, Rabs_R0, Rplus_0_l.
    replace (2 / w * (b - a) * exp (K * (b - a)) * e n) with (2 * e n / w * (b - a) * exp (K * (b - a))) by (field; lra).
    apply Rmult_le_compat.
    + apply Rmult_le_pos; lra.
    + left; apply exp_pos.
    + apply Rmult_le_compat_l; lra.
    + destruct (Req_dec (K * (x - a)) (K * (b - a))) as [->|Ne']; [lra|]. left. apply exp_increasing.
      assert (K * (x - a) <= K * (b - a)) by (apply Rmult_le_compat_l; lra). lra.
Qed.

(** Their limit, as a least upper bound. *)
Let sig (x : R) : R := real (Lub_Rbar (fun y => exists N, forall n s, (N <= n)%nat -> sol n s -> y <= s x)).
Lemma sig_close : exists C, 0 <= C /\ forall n s, sol n s -> forall x, a <= x <= b -> Rabs (s x - sig x) <= C * e n.
Proof.
  destruct sol_cauchy as [C [HC K]]. exists C. split; [exact HC|]. intros n s Hs x Hx.
  set (E := fun y => exists N, forall n s, (N <= n)%nat -> sol n s -> y <= s x).
  assert (Lo : E (s x - C * e n)).
  { exists n. intros m s' Hm Hs'. assert (Q := K n m s s' Hm Hs Hs' x Hx). apply Rabs_le_between in Q. lra. }
  assert (Up : forall y, E y -> y <= s x + C * e n).
  { intros y [N HN]. destruct (sol_ex (Nat.max n N)) as [s' Hs'].
    assert (Q := K n (Nat.max n N) s s' (Nat.le_max_l _ _) Hs Hs' x Hx). apply Rabs_le_between in Q.
    specialize (HN _ s' (Nat.le_max_r _ _) Hs'). lra. }
  assert (LB := Lub_Rbar_correct E). unfold sig. fold E. destruct LB as [L1 L2].
  specialize (L1 _ Lo). assert (L2' := L2 (Finite (s x + C * e n)) Up).
  destruct (Lub_Rbar E) as [r| |]; cbn in *; try contradiction. apply Rabs_le_between. lra.
Qed.

Lemma e_small d : 0 < d -> exists n, e n <= d.
Proof. apply E0. Qed.

Lemma sig_bound : exists T, 0 < T /\ forall x, a <= x <= b -> 0 <= sig x <= T.
Proof.
  destruct sol_bound as [T [HT HT']]. destruct sig_close as [C [HC K]]. exists T. split; [exact HT|]. intros x Hx.
  assert (G : forall d, 0 < d -> - d <= sig x <= T + d).
  { intros d Hd. destruct (E0 (d / (C + 1))) as [n Hn]; [apply Rdiv_lt_0_compat; lra|].
    destruct (sol_ex n) as [s Hs]. assert (Q := K n s Hs x Hx). apply Rabs_le_between in Q.
    assert (B1 := HT' n s Hs x Hx). assert (P := proj2 (proj2 Hs x Hx)).
    assert (C * e n <= d).
    { apply Rle_trans with (C * (d / (C + 1))); [apply Rmult_le_compat_l; assumption|].
      replace (C * (d / (C + 1))) with (d - d / (C + 1)) by (field; lra).
      assert (0 < d / (C + 1)) by (apply Rdiv_lt_0_compat; lra). lra. }
    lra. }
  split; apply le_epsilon; intros d Hd; specialize (G d Hd); lra.
Qed.

Lemma sig_continuous x : a <= x <= b -> continuous (fun t => sig (clip a b t)) x.
Proof.
  intros Hx. destruct sig_close as [C [HC K]].
  apply continuity_pt_filterlim. intros d Hd.
  destruct (E0 (d / (4 * (C + 1)))) as [n Hn]; [apply Rdiv_lt_0_compat; lra|].
  destruct (sol_ex n) as [s Hs].
  assert (Cs : continuous (fun t => s (clip a b t)) x).
  { apply (continuous_comp (clip a b) s); [apply clip_continuous, Hab|].
    rewrite clip_id by exact Hx. apply (ex_derive_continuous s). eexists. apply (proj2 Hs x Hx). }
  assert (Cq : continuity_pt (fun t => s (clip a b t)) x) by (apply continuity_pt_filterlim, Cs).
  destruct (Cq (d / 2)) as [r [Hr H]]; [lra|].
  exists r. split; [exact Hr|]. intros y Hy. specialize (H y Hy). simpl in *. unfold R_dist in *.
  assert (Q1 := K n s Hs (clip a b y) (clip_in a b y Hab)). assert (Q2 := K n s Hs (clip a b x) (clip_in a b x Hab)).
  assert (C * e n <= d / 4 - d / (4 * (C + 1))).
  { apply Rle_trans with (C * (d / (4 * (C + 1)))); [apply Rmult_le_compat_l; assumption|]. right. field. lra. }
  assert (0 < d / (4 * (C + 1))) by (apply Rdiv_lt_0_compat; lra).
  apply Rabs_le_between in Q1, Q2. apply Rabs_lt_between in H. apply Rabs_lt_between. lra.
Qed.

Let G (t : R) : R := F (sig (clip a b t) * dU (clip a b t)) / W (clip a b t).
Lemma G_continuous t : continuous G t.
Proof.
  assert (CC : forall f : R -> R, (forall x, a <= x <= b -> continuous f x) -> continuous (fun t => f (clip a b t)) t).
  { intros f Hf. apply (continuous_comp (clip a b) f); [apply clip_continuous, Hab|]. apply Hf, clip_in, Hab. }
  assert (Cw : W (clip a b t) <> 0) by (assert (Q := HW (clip a b t) (clip_in a b t Hab)); lra).
  assert (Cs : continuous (fun t => sig (clip a b t)) t).
  { apply (continuous_ext (fun t => sig (clip a b (clip a b t)))); [intros u; rewrite (clip_id a b (clip a b u)); [reflexivity|apply clip_in, Hab]|].
    apply (CC (fun t => sig (clip a b t))). apply sig_continuous. }
  unfold G, Rdiv. apply (continuous_mult (fun t => F (sig (clip a b t) * dU (clip a b t))) (fun t => / W (clip a b t))).
  - apply (continuous_comp (fun t => sig (clip a b t) * dU (clip a b t)) F); [|apply FC].
    apply (continuous_mult (fun t => sig (clip a b t)) (fun t => dU (clip a b t))); [exact Cs|]. apply (CC dU HdU).
  - apply (continuous_comp (fun t => W (clip a b t)) Rinv).
    + apply (CC W). intros x Hx. apply HW, Hx.
    + apply continuity_pt_filterlim. apply (continuity_pt_inv id); [apply derivable_continuous, derivable_id|exact Cw].
Qed.

Theorem limit_exists : exists s : R -> R, s a = s0 /\
  forall x, a <= x <= b -> is_derive s x (F (s x * dU x) / W x) /\ 0 <= s x.
Proof.
  set (s := fun x => s0 + RInt G a x).
  assert (Sa : s a = s0) by (unfold s; rewrite RInt_point; unfold zero; simpl; ring).
  assert (Sd : forall x, is_derive s x (G x)).
  { intros x. unfold s. apply (is_derive_ext (fun x => plus s0 (RInt G a x))); [reflexivity|].
    rewrite <- (plus_zero_l (G x)). apply (is_derive_plus (fun _ => s0)); [apply (@is_derive_const R_AbsRing)|].
    apply (is_derive_RInt G (fun x => RInt G a x) a).
    - exists (mkposreal 1 Rlt_0_1). intros y _. apply (@RInt_correct R_CompleteNormedModule), ex_RInt_continuous. intros; apply G_continuous.
    - apply G_continuous. }
  assert (Eq : forall x, a <= x <= b -> s x = sig x).
  { destruct sig_close as [C [HC K]]. destruct sig_bound as [T [HT HT']]. destruct sol_bound as [T2 [HT2 HT2']].
    destruct (bound_above a b Hab dU HdU) as [D [HD HD']]. destruct (bound_below W a b Hab HW) as [w [Hw Hw']].
    set (M := (T + T2) * D). assert (HM : 0 < M) by (apply Rmult_lt_0_compat; lra).
    assert (Sm : forall d, 0 < d -> forall x, a <= x <= b -> Rabs (s x - sig x) <= d + (d + d) / w * (b - a)).
    { intros d Hd.
      assert (HC' : forall t, - M <= t <= M -> continuity_pt F t) by (intros t _; apply continuity_pt_filterlim, FC).
      destruct (Heine_cor2 HC' (mkposreal d Hd)) as [r Hr].
      assert (Pr := cond_pos r).
      set (q := Rmin d (r / (2 * D))). assert (Pq : 0 < q) by (apply Rmin_glb_lt; [exact Hd|apply Rdiv_lt_0_compat; lra]).
      destruct (E0 (Rmin d (q / (C + 1)))) as [n Hn]; [apply Rmin_glb_lt; [exact Hd|apply Rdiv_lt_0_compat; lra]|].
      assert (Hn1 := Rle_trans _ _ _ Hn (Rmin_l _ _)). assert (Hn2 := Rle_trans _ _ _ Hn (Rmin_r _ _)).
      assert (Ce : C * e n <= q).
      { apply Rle_trans with (C * (q / (C + 1))); [apply Rmult_le_compat_l; assumption|].
        replace (C * (q / (C + 1))) with (q - q / (C + 1)) by (field; lra).
        assert (0 < q / (C + 1)) by (apply Rdiv_lt_0_compat; lra). lra. }
      destruct (sol_ex n) as [sn Hsn]. intros x Hx.
      assert (Q := K n sn Hsn x Hx).
      assert (Z : Rabs (s x - sn x) <= (d + d) / w * (b - a)).
      { apply Rle_trans with ((Rabs (s a - sn a) + (d + d) / w * (x - a)) * exp (0 * (x - a))).
        - apply (osl_error s sn G (fun x => Fn n (sn x * dU x) / W x)); [lra|lra|apply Rdiv_le_0_compat; lra|].
          intros t Ht. split; [apply Sd|]. split; [apply (proj2 Hsn t); lra|].
          assert (Wt := Hw' t ltac:(lra)). assert (Dt := HD' t ltac:(lra)).
          unfold G. rewrite !clip_id by lra.
          assert (B1 : forall u, 0 <= u <= T + T2 -> - M <= u * dU t <= M).
          { intros u Hu. apply Rabs_le_between. rewrite Rabs_mult, (Rabs_right u) by lra.
            unfold M. apply Rmult_le_compat; [lra|apply Rabs_pos|lra|lra]. }
          assert (Qt := K n sn Hsn t ltac:(lra)). assert (Bt := HT' t ltac:(lra)).
          assert (Bn := HT2' n sn Hsn t ltac:(lra)). assert (Pn := proj2 (proj2 Hsn t ltac:(lra))).
          assert (Fc : Rabs (F (sig t * dU t) - F (sn t * dU t)) <= d).
          { left. apply (Hr (sig t * dU t) (sn t * dU t)).
            - apply B1. lra.
            - apply B1. lra.
            - replace (sig t * dU t - sn t * dU t) with (- ((sn t - sig t) * dU t)) by ring.
              rewrite Rabs_Ropp, Rabs_mult.
              apply Rle_lt_trans with (q * D).
              + apply Rmult_le_compat; [apply Rabs_pos|apply Rabs_pos|lra|exact Dt].
              + apply Rle_lt_trans with (r / (2 * D) * D).
                * apply Rmult_le_compat_r; [lra|apply Rmin_r].
                * replace (r / (2 * D) * D) with (r / 2) by (field; lra). lra. }
          assert (En := Ne n (sn t * dU t)).
          set (f1 := F (sig t * dU t)) in *. set (f2 := F (sn t * dU t)) in *. set (f3 := Fn n (sn t * dU t)) in *.
          set (z := s t - sn t). rewrite Rmult_0_l, Rplus_0_l.
          replace ((f1 / W t - f3 / W t) * z) with (((f1 - f2) - (f3 - f2)) / W t * z) by (field; lra).
          eapply Rle_trans; [apply Rle_abs|]. rewrite Rabs_mult. apply Rmult_le_compat_r; [apply Rabs_pos|].
          unfold Rdiv. rewrite Rabs_mult. apply Rmult_le_compat; [apply Rabs_pos|apply Rabs_pos| |].
          + eapply Rle_trans; [apply Rabs_triang|]. rewrite Rabs_Ropp. lra.
          + rewrite Rabs_right by (apply Rle_ge; left; apply Rinv_0_lt_compat; lra). apply Rinv_le_contravar; lra.
        - rewrite Sa, (proj1 Hsn), Rminus_eq_0, Rabs_R0, Rmult_0_l, exp_0, Rplus_0_l, Rmult_1_r.
          apply Rmult_le_compat_l; [apply Rdiv_le_0_compat; lra|lra]. }
      assert (q <= d) by apply Rmin_l.
      apply Rabs_le_between in Q, Z. apply Rabs_le_between. lra. }
    intros x Hx. apply Rminus_diag_uniq. apply Rabs_eq_0. apply Rle_antisym; [|apply Rabs_pos].
    apply le_epsilon. intros d Hd. rewrite Rplus_0_l.
    assert (Pk : 0 < 1 + 2 / w * (b - a)).
    { assert (0 <= 2 / w * (b - a)) by (apply Rmult_le_pos; [apply Rdiv_le_0_compat; lra|lra]). lra. }
    eapply Rle_trans; [apply (Sm (d / (1 + 2 / w * (b - a)))); [apply Rdiv_lt_0_compat; assumption|exact Hx]|].
    right. field. split; lra. }
  destruct sig_bound as [T [HT HT']].
  exists s. split; [exact Sa|]. intros x Hx. split; [|rewrite Eq by exact Hx; apply HT', Hx].
  rewrite Eq by exact Hx. replace (F (sig x * dU x) / W x) with (G x); [apply Sd|].
  unfold G. rewrite clip_id by exact Hx. reflexivity.
Qed.
End Limit.
