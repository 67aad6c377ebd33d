(** Local existence and uniqueness for systems d' = f0(t, d, h), h' = f1(t, d, h), the form of
    Head's equations (C116). *)
From Coq Require Import Reals Lra Lia.
From Coquelicot Require Import Coquelicot.
From Verif Require Import UntilProofs PicardProofs ProductProofs PositivityProofs WellPosedProofs FitLipschitzProofs.
Open Scope R_scope.

Section Box.
Context (a b d1 d2 h1 h2 : R).

Definition inbox (d h : R) : Prop := d1 <= d <= d2 /\ h1 <= h <= h2.

(** Bounded and Lipschitz on the box, continuous in time. *)
Definition nice (g : R -> R -> R -> R) : Prop :=
  (exists B L, 0 <= B /\ 0 <= L /\ forall t d h d' h', a <= t <= b -> inbox d h -> inbox d' h' ->
     Rabs (g t d h) <= B /\ Rabs (g t d h - g t d' h') <= L * (Rabs (d - d') + Rabs (h - h'))) /\
  (forall t d h, a <= t <= b -> inbox d h -> continuous (fun s => g s d h) t).

Lemma nice_time (g : R -> R) : a <= b -> (forall t, a <= t <= b -> continuous g t) -> nice (fun t _ _ => g t).
Proof.
  intros Hab H. split; [|intros; apply H; assumption].
  destruct (bound_above a b Hab g H) as [D [HD HB]].
  exists D, 0. split; [lra|]. split; [lra|]. intros t d h d' h' Ht _ _. split; [apply HB, Ht|].
  rewrite Rminus_eq_0, Rabs_R0. lra.
Qed.
Lemma nice_const c : nice (fun _ _ _ => c).
Proof.
  split; [|intros; apply continuous_const].
  exists (Rabs c), 0. split; [apply Rabs_pos|]. split; [lra|]. intros. split; [lra|]. rewrite Rminus_eq_0, Rabs_R0. lra.
Qed.
Lemma between_abs x lo hi : lo <= x <= hi -> Rabs x <= Rabs lo + Rabs hi.
Proof. intros H. unfold Rabs. repeat destruct (Rcase_abs _); lra. Qed.
Lemma nice_d : nice (fun _ d _ => d).
Proof.
  split; [|intros; apply continuous_const].
  exists (Rabs d1 + Rabs d2), 1. assert (P := Rabs_pos d1). assert (Q := Rabs_pos d2).
  split; [lra|]. split; [lra|]. intros t d h d' h' _ [Hd _] _. split; [apply between_abs, Hd|].
  pose proof (Rabs_pos (h - h')). lra.
Qed.
Lemma nice_h : nice (fun _ _ h => h).
Proof.
  split; [|intros; apply continuous_const].
  exists (Rabs h1 + Rabs h2), 1. assert (P := Rabs_pos h1). assert (Q := Rabs_pos h2).
  split; [lra|]. split; [lra|]. intros t d h d' h' _ [_ Hd] _. split; [apply between_abs, Hd|].
  pose proof (Rabs_pos (d - d')). lra.
Qed.
Lemma nice_plus f g : nice f -> nice g -> nice (fun t d h => f t d h + g t d h).
Proof.
  intros [(B & L & HB & HL & F) C] [(B' & L' & HB' & HL' & G) C'].
  split; [|intros t d h Ht Hd; apply (continuous_plus (fun s => f s d h) (fun s => g s d h)); auto].
  exists (B + B'), (L + L'). split; [lra|]. split; [lra|]. intros t d h d' h' Ht D D'.
  destruct (F t d h d' h' Ht D D') as [F1 F2]. destruct (G t d h d' h' Ht D D') as [G1 G2]. split.
  - eapply Rle_trans; [apply Rabs_triang|]. lra.
  - replace (_ + _ - _) with ((f t d h - f t d' h') + (g t d h - g t d' h')) by ring.
    eapply Rle_trans; [apply Rabs_triang|]. lra.
Qed.
Lemma nice_mult f g : nice f -> nice g -> nice (fun t d h => f t d h * g t d h).
Proof.
  intros [(B & L & HB & HL & F) C] [(B' & L' & HB' & HL' & G) C'].
  split; [|intros t d h Ht Hd; apply (continuous_mult (fun s => f s d h) (fun s => g s d h)); auto].
  exists (B * B'), (L * B' + B * L'). split; [apply Rmult_le_pos; lra|].
  split; [apply Rplus_le_le_0_compat; apply Rmult_le_pos; lra|]. intros t d h d' h' Ht D D'.
  destruct (F t d h d' h' Ht D D') as [F1 F2]. destruct (G t d h d' h' Ht D D') as [G1 G2].
  destruct (F t d' h' d h Ht D' D) as [F1' _]. split.
  - rewrite Rabs_mult. apply Rmult_le_compat; try apply Rabs_pos; assumption.
  - replace (f t d h * g t d h - f t d' h' * g t d' h')
      with ((f t d h - f t d' h') * g t d h + f t d' h' * (g t d h - g t d' h')) by ring.
    eapply Rle_trans; [apply Rabs_triang|]. rewrite !Rabs_mult.
    set (X := Rabs (d - d') + Rabs (h - h')) in *.
    apply Rle_trans with (L * X * B' + B * (L' * X)); [|lra].
    apply Rplus_le_compat; apply Rmult_le_compat; try apply Rabs_pos; assumption.
Qed.
Lemma nice_comp q (phi : R -> R) lo hi L : nice q ->
  (forall t d h, a <= t <= b -> inbox d h -> lo <= q t d h <= hi) ->
  lip_on phi lo hi L -> (forall x, lo <= x <= hi -> continuous phi x) -> nice (fun t d h => phi (q t d h)).
Proof.
  intros [(B & L0 & HB & HL & F) C] R HP HC. split.
  - exists (Rabs (phi lo) + Rabs L * (Rabs lo + Rabs hi + Rabs lo)), (Rabs L * L0).
    assert (P1 := Rabs_pos (phi lo)). assert (P2 := Rabs_pos lo). assert (P3 := Rabs_pos hi). assert (P4 := Rabs_pos L).
    split; [apply Rplus_le_le_0_compat; [lra|apply Rmult_le_pos; lra]|]. split; [apply Rmult_le_pos; lra|].
    assert (G : forall x y, lo <= x <= hi -> lo <= y <= hi -> Rabs (phi x - phi y) <= Rabs L * Rabs (x - y)).
    { intros x y Hx Hy. eapply Rle_trans; [apply HP; assumption|].
      apply Rmult_le_compat_r; [apply Rabs_pos|apply Rle_abs]. }
    intros t d h d' h' Ht D D'. destruct (F t d h d' h' Ht D D') as [F1 F2].
    assert (R1 := R t d h Ht D). assert (R2 := R t d' h' Ht D'). split.
    + replace (phi (q t d h)) with (phi lo + (phi (q t d h) - phi lo)) by ring.
      eapply Rle_trans; [apply Rabs_triang|]. apply Rplus_le_compat_l.
      eapply Rle_trans; [apply G; lra|]. apply Rmult_le_compat_l; [exact P4|].
      unfold Rminus. eapply Rle_trans; [apply Rabs_triang|]. rewrite Rabs_Ropp.
      assert (Q := between_abs _ _ _ R1). lra.
    + eapply Rle_trans; [apply G; assumption|]. rewrite Rmult_assoc. apply Rmult_le_compat_l; assumption.
  - intros t d h Ht D. apply (continuous_comp (fun s => q s d h) phi); [apply C; assumption|].
    apply HC, R; assumption.
Qed.
Lemma nice_smooth q (phi phi' : R -> R) lo hi : nice q ->
  (forall t d h, a <= t <= b -> inbox d h -> lo <= q t d h <= hi) ->
  (forall x, lo <= x <= hi -> is_derive phi x (phi' x) /\ ex_derive phi' x) -> nice (fun t d h => phi (q t d h)).
Proof.
  intros Q R D. destruct (lip_smooth phi phi' lo hi D) as [L HL].
  apply (nice_comp q phi lo hi L Q R HL). intros x Hx. apply (ex_derive_continuous phi). eexists. apply D, Hx.
Qed.
Lemma nice_bounds g : nice g -> exists B, 0 <= B /\ forall t d h, a <= t <= b -> inbox d h -> Rabs (g t d h) <= B.
Proof.
  intros [(B & L & HB & _ & F) _]. exists B. split; [exact HB|]. intros t d h Ht D. apply (F t d h d h Ht D D).
Qed.
Lemma nice_inv g w : nice g -> 0 < w -> (forall t d h, a <= t <= b -> inbox d h -> w <= g t d h) ->
  nice (fun t d h => / g t d h).
Proof.
  intros N W R. destruct (nice_bounds g N) as [B [_ HB]].
  apply (nice_smooth g Rinv (fun x => - / x ^ 2) w B N).
  - intros t d h Ht D. split; [apply R; assumption|]. eapply Rle_trans; [apply Rle_abs|apply HB; assumption].
  - intros x Hx. split; [auto_derive; [lra|field; lra]|]. auto_derive. assert (0 < x ^ 2) by (apply pow_lt; lra). cbn [pow] in *. lra.
Qed.
Lemma nice_opp g : nice g -> nice (fun t d h => - g t d h).
Proof.
  intros [(B & L & HB & HL & F) C].
  split; [|intros t d h Ht Hd; apply (continuous_opp (fun s => g s d h)); auto].
  exists B, L. split; [exact HB|]. split; [exact HL|]. intros t d h d' h' Ht D D'.
  destruct (F t d h d' h' Ht D D') as [F1 F2]. split; [rewrite Rabs_Ropp; exact F1|].
  replace (- g t d h - - g t d' h') with (- (g t d h - g t d' h')) by ring. rewrite Rabs_Ropp. exact F2.
Qed.
Lemma nice_minus f g : nice f -> nice g -> nice (fun t d h => f t d h - g t d h).
Proof. intros F G. apply (nice_plus f (fun t d h => - g t d h) F), nice_opp, G. Qed.
Lemma nice_div f g w : nice f -> nice g -> 0 < w -> (forall t d h, a <= t <= b -> inbox d h -> w <= g t d h) ->
  nice (fun t d h => f t d h / g t d h).
Proof. intros F G W R. apply (nice_mult f (fun t d h => / g t d h) F), (nice_inv g w); assumption. Qed.

Context (f0 f1 : R -> R -> R -> R) (N0 : nice f0) (N1 : nice f1).

(** Two solutions in the box that start together stay together. *)
Lemma system_unique c d h d' h' : a <= c <= b -> d a = d' a -> h a = h' a ->
  (forall x, a <= x <= c -> inbox (d x) (h x) /\ inbox (d' x) (h' x) /\
     is_derive d x (f0 x (d x) (h x)) /\ is_derive h x (f1 x (d x) (h x)) /\
     is_derive d' x (f0 x (d' x) (h' x)) /\ is_derive h' x (f1 x (d' x) (h' x))) ->
  d c = d' c /\ h c = h' c.
Proof.
  intros Hc Ed Eh H.
  destruct N0 as [(B & L & _ & HL & F) _]. destruct N1 as [(B' & L' & _ & HL' & G) _].
  set (E := fun x => (d x - d' x) ^ 2 + (h x - h' x) ^ 2).
  assert (Q : E c <= (E a + 0 * (c - a)) * exp (4 * (L + L') * (c - a))).
  { apply (growth_bound E (fun x => 2 * (d x - d' x) * (f0 x (d x) (h x) - f0 x (d' x) (h' x)) +
                                   2 * (h x - h' x) * (f1 x (d x) (h x) - f1 x (d' x) (h' x)))); try lra.
    intros x Hx. destruct (H x Hx) as (I1 & I2 & A1 & A2 & A3 & A4). split.
    - unfold E. auto_derive.
      + repeat split; eexists; eassumption.
      + rewrite (is_derive_unique (fun t : R => d t) x _ A1), (is_derive_unique (fun t : R => d' t) x _ A3),
          (is_derive_unique (fun t : R => h t) x _ A2), (is_derive_unique (fun t : R => h' t) x _ A4). ring.
    - destruct (F x (d x) (h x) (d' x) (h' x) ltac:(lra) I1 I2) as [_ F2].
      destruct (G x (d x) (h x) (d' x) (h' x) ltac:(lra) I1 I2) as [_ G2].
      unfold E. set (p := d x - d' x) in *. set (q := h x - h' x) in *.
      set (u := f0 x (d x) (h x) - f0 x (d' x) (h' x)) in *. set (v := f1 x (d x) (h x) - f1 x (d' x) (h' x)) in *.
      assert (P1 : p * u <= Rabs p * (L * (Rabs p + Rabs q))).
      { eapply Rle_trans; [apply Rle_abs|]. rewrite Rabs_mult. apply Rmult_le_compat_l; [apply Rabs_pos|exact F2]. }
      assert (P2 : q * v <= Rabs q * (L' * (Rabs p + Rabs q))).
      { eapply Rle_trans; [apply Rle_abs|]. rewrite Rabs_mult. apply Rmult_le_compat_l; [apply Rabs_pos|exact G2]. }
      rewrite <- (pow2_abs p), <- (pow2_abs q).
      assert (Ap := Rabs_pos p). assert (Aq := Rabs_pos q). set (x1 := Rabs p) in *. set (x2 := Rabs q) in *.
      assert (S1 : x1 * (x1 + x2) <= 2 * (x1 ^ 2 + x2 ^ 2)) by nra.
      assert (S2 : x2 * (x1 + x2) <= 2 * (x1 ^ 2 + x2 ^ 2)) by nra.
      assert (T1 : x1 * (L * (x1 + x2)) <= L * (2 * (x1 ^ 2 + x2 ^ 2))).
      { replace (x1 * (L * (x1 + x2))) with (L * (x1 * (x1 + x2))) by ring. apply Rmult_le_compat_l; assumption. }
      assert (T2 : x2 * (L' * (x1 + x2)) <= L' * (2 * (x1 ^ 2 + x2 ^ 2))).
      { replace (x2 * (L' * (x1 + x2))) with (L' * (x2 * (x1 + x2))) by ring. apply Rmult_le_compat_l; assumption. }
      lra. }
  assert (Z : E a = 0) by (unfold E; rewrite Ed, Eh; ring). rewrite Z in Q.
  assert (Q0 : E c <= 0) by lra. unfold E in Q0.
  assert (R1 := pow2_ge_0 (d c - d' c)). assert (R2 := pow2_ge_0 (h c - h' c)). split; nra.
Qed.

(** A solution and a function that satisfies the equations up to an error stay close. *)
Lemma system_close : exists K, 0 < K /\ forall (c e e0 : R) (d h d' h' p0 p1 : R -> R), a <= c <= b -> 0 <= e ->
  Rabs (d a - d' a) + Rabs (h a - h' a) <= e0 ->
  (forall x, a <= x <= c -> inbox (d x) (h x) /\ inbox (d' x) (h' x) /\
     is_derive d x (f0 x (d x) (h x)) /\ is_derive h x (f1 x (d x) (h x)) /\
     is_derive d' x (p0 x) /\ is_derive h' x (p1 x) /\
     Rabs (p0 x - f0 x (d' x) (h' x)) <= e /\ Rabs (p1 x - f1 x (d' x) (h' x)) <= e) ->
  Rabs (d c - d' c) <= K * (e0 + e) /\ Rabs (h c - h' c) <= K * (e0 + e).
Proof.
  destruct N0 as [(B & L & _ & HL & F) _]. destruct N1 as [(B' & L' & _ & HL' & G) _].
  set (k := 4 * (L + L') + 1). set (X := exp (k * Rabs (b - a))). assert (PX : 0 < X) by apply exp_pos.
  set (M := (1 + 2 * Rabs (b - a)) * X).
  assert (Pba := Rabs_pos (b - a)). assert (PM : 0 < M) by (unfold M; apply Rmult_lt_0_compat; lra).
  exists (sqrt M). split; [apply sqrt_lt_R0, PM|].
  intros c e e0 d h d' h' p0 p1 Hc He H0 H.
  assert (He0 : 0 <= e0) by (pose proof (Rabs_pos (d a - d' a)); pose proof (Rabs_pos (h a - h' a)); lra).
  set (E := fun x => (d x - d' x) ^ 2 + (h x - h' x) ^ 2).
  assert (Q : E c <= (E a + 2 * e ^ 2 * (c - a)) * exp (k * (c - a))).
  { apply (growth_bound E (fun x => 2 * (d x - d' x) * (f0 x (d x) (h x) - p0 x) +
                                   2 * (h x - h' x) * (f1 x (d x) (h x) - p1 x))); try lra.
    { unfold k. lra. }
    { pose proof (pow2_ge_0 e). lra. }
    intros x Hx. destruct (H x Hx) as (I1 & I2 & A1 & A2 & A3 & A4 & R0 & R1). split.
    - unfold E. auto_derive.
      + repeat split; eexists; eassumption.
      + rewrite (is_derive_unique (fun t : R => d t) x _ A1), (is_derive_unique (fun t : R => d' t) x _ A3),
          (is_derive_unique (fun t : R => h t) x _ A2), (is_derive_unique (fun t : R => h' t) x _ A4). ring.
    - destruct (F x (d x) (h x) (d' x) (h' x) ltac:(lra) I1 I2) as [_ F2].
      destruct (G x (d x) (h x) (d' x) (h' x) ltac:(lra) I1 I2) as [_ G2].
      unfold E. set (p := d x - d' x) in *. set (q := h x - h' x) in *.
      assert (F3 : Rabs (f0 x (d x) (h x) - p0 x) <= L * (Rabs p + Rabs q) + e).
      { replace (f0 x (d x) (h x) - p0 x) with ((f0 x (d x) (h x) - f0 x (d' x) (h' x)) + - (p0 x - f0 x (d' x) (h' x))) by ring.
        eapply Rle_trans; [apply Rabs_triang|]. rewrite Rabs_Ropp. lra. }
      assert (G3 : Rabs (f1 x (d x) (h x) - p1 x) <= L' * (Rabs p + Rabs q) + e).
      { replace (f1 x (d x) (h x) - p1 x) with ((f1 x (d x) (h x) - f1 x (d' x) (h' x)) + - (p1 x - f1 x (d' x) (h' x))) by ring.
        eapply Rle_trans; [apply Rabs_triang|]. rewrite Rabs_Ropp. lra. }
      set (u := f0 x (d x) (h x) - p0 x) in *. set (v := f1 x (d x) (h x) - p1 x) in *.
      assert (P1 : p * u <= Rabs p * (L * (Rabs p + Rabs q) + e)).
      { eapply Rle_trans; [apply Rle_abs|]. rewrite Rabs_mult. apply Rmult_le_compat_l; [apply Rabs_pos|exact F3]. }
      assert (P2 : q * v <= Rabs q * (L' * (Rabs p + Rabs q) + e)).
      { eapply Rle_trans; [apply Rle_abs|]. rewrite Rabs_mult. apply Rmult_le_compat_l; [apply Rabs_pos|exact G3]. }
      rewrite <- (pow2_abs p), <- (pow2_abs q).
      assert (Ap := Rabs_pos p). assert (Aq := Rabs_pos q). set (x1 := Rabs p) in *. set (x2 := Rabs q) in *.
      assert (S1 : x1 * (x1 + x2) <= 2 * (x1 ^ 2 + x2 ^ 2)) by nra.
      assert (S2 : x2 * (x1 + x2) <= 2 * (x1 ^ 2 + x2 ^ 2)) by nra.
      assert (T1 : x1 * (L * (x1 + x2)) <= L * (2 * (x1 ^ 2 + x2 ^ 2))).
      { replace (x1 * (L * (x1 + x2))) with (L * (x1 * (x1 + x2))) by ring. apply Rmult_le_compat_l; assumption. }
      assert (T2 : x2 * (L' * (x1 + x2)) <= L' * (2 * (x1 ^ 2 + x2 ^ 2))).
      { replace (x2 * (L' * (x1 + x2))) with (L' * (x2 * (x1 + x2))) by ring. apply Rmult_le_compat_l; assumption. }
      assert (T3 : 2 * (x1 * e) <= x1 ^ 2 + e ^ 2) by (pose proof (pow2_ge_0 (x1 - e)); nra).
      assert (T4 : 2 * (x2 * e) <= x2 ^ 2 + e ^ 2) by (pose proof (pow2_ge_0 (x2 - e)); nra).
      unfold k. lra. }
  assert (Ea : E a <= e0 ^ 2).
  { unfold E. rewrite <- (pow2_abs (d a - d' a)), <- (pow2_abs (h a - h' a)).
    pose proof (Rabs_pos (d a - d' a)). pose proof (Rabs_pos (h a - h' a)). nra. }
  assert (Hl : c - a <= Rabs (b - a)) by (rewrite Rabs_pos_eq; lra).
  assert (Xc : exp (k * (c - a)) <= X).
  { unfold X. destruct (Req_dec (c - a) (Rabs (b - a))) as [->|N]; [lra|]. left. apply exp_increasing, Rmult_lt_compat_l; [unfold k|]; lra. }
  assert (Pc := exp_pos (k * (c - a))).
  assert (Q1 : E c <= M * (e0 + e) ^ 2).
  { eapply Rle_trans; [exact Q|]. unfold M.
    replace ((1 + 2 * Rabs (b - a)) * X * (e0 + e) ^ 2) with ((1 + 2 * Rabs (b - a)) * (e0 + e) ^ 2 * X) by ring.
    assert (PEa : 0 <= E a) by (unfold E; pose proof (pow2_ge_0 (d a - d' a)); pose proof (pow2_ge_0 (h a - h' a)); lra).
    apply Rmult_le_compat.
    - pose proof (pow2_ge_0 e). assert (0 <= e ^ 2 * (c - a)) by (apply Rmult_le_pos; lra). lra.
    - lra.
    - assert (e0 ^ 2 <= (e0 + e) ^ 2) by nra. assert (e ^ 2 <= (e0 + e) ^ 2) by nra.
      assert (e ^ 2 * (c - a) <= (e0 + e) ^ 2 * Rabs (b - a)) by (apply Rmult_le_compat; [apply pow2_ge_0|lra|assumption|exact Hl]).
      lra.
    - exact Xc. }
  assert (Root : forall z, z ^ 2 <= M * (e0 + e) ^ 2 -> Rabs z <= sqrt M * (e0 + e)).
  { intros z Hz. rewrite <- (sqrt_Rsqr_abs z). apply Rle_trans with (sqrt (M * (e0 + e) ^ 2)).
    - apply sqrt_le_1_alt. rewrite Rsqr_pow2. exact Hz.
    - rewrite sqrt_mult by (try apply pow2_ge_0; lra). right. f_equal. rewrite <- Rsqr_pow2. apply sqrt_Rsqr. lra. }
  assert (Y1 := pow2_ge_0 (d c - d' c)). assert (Y2 := pow2_ge_0 (h c - h' c)). unfold E in Q1. split; apply Root; lra.
Qed.

(** A start inside the box has a solution for some time. *)
Definition R2 : CompleteNormedModule R_AbsRing := @prod_complete R_CompleteNormedModule R_CompleteNormedModule.
Lemma norm2 (x y : R) : @norm R_AbsRing R2 (x, y) = sqrt (x ^ 2 + y ^ 2).
Proof.
  change (@norm R_AbsRing R2 (x, y)) with (sqrt (Rabs x ^ 2 + Rabs y ^ 2)).
  rewrite <- !Rsqr_pow2, <- !Rsqr_abs. reflexivity.
Qed.
Lemma norm2_le x y B : Rabs x + Rabs y <= B -> sqrt (x ^ 2 + y ^ 2) <= B.
Proof.
  intros H. assert (P := Rabs_pos x). assert (Q := Rabs_pos y).
  rewrite <- (sqrt_Rsqr B) by lra. apply sqrt_le_1_alt. rewrite <- (pow2_abs x), <- (pow2_abs y). unfold Rsqr. nra.
Qed.
Lemma norm2_ge x y : Rabs x + Rabs y <= 2 * sqrt (x ^ 2 + y ^ 2).
Proof.
  assert (A : Rabs x <= sqrt (x ^ 2 + y ^ 2)).
  { rewrite <- sqrt_Rsqr_abs. apply sqrt_le_1_alt. unfold Rsqr. pose proof (pow2_ge_0 y). lra. }
  assert (B : Rabs y <= sqrt (x ^ 2 + y ^ 2)).
  { rewrite <- sqrt_Rsqr_abs. apply sqrt_le_1_alt. unfold Rsqr. pose proof (pow2_ge_0 x). lra. }
  lra.
Qed.

Lemma nice_joint g t v : nice g -> a <= b -> d1 <= d2 -> h1 <= h2 ->
  @continuous (prod_UniformSpace R_UniformSpace R2) R_UniformSpace
    (fun p => g (clip a b (a + fst p)) (clip d1 d2 (fst (snd p))) (clip h1 h2 (snd (snd p)))) (t, v).
Proof.
  intros [(B & L & HB & HL & F) C] Hab Hd Hh. destruct v as [p q].
  set (tc := fun t => clip a b (a + t)).
  assert (Ht : forall t, a <= tc t <= b) by (intros s; apply clip_in, Hab).
  assert (Hb : forall p q, inbox (clip d1 d2 p) (clip h1 h2 q)) by (intros; split; apply clip_in; assumption).
  assert (C0 : continuous (fun s => g (tc s) (clip d1 d2 p) (clip h1 h2 q)) t).
  { apply (continuous_comp tc (fun s => g s (clip d1 d2 p) (clip h1 h2 q))).
    - unfold tc. apply (continuous_comp (fun t => a + t) (clip a b)).
      + apply (continuous_plus (fun _ => a) (fun t => t)); [apply continuous_const|apply continuous_id].
      + apply clip_continuous, Hab.
    - apply C; [apply Ht|apply Hb]. }
  apply filterlim_locally. intros eps.
  assert (E2 : 0 < eps / 2) by (pose proof (cond_pos eps); lra).
  assert (L1 : 0 < L + 1) by lra.
  assert (E4 : 0 < eps / (4 * (L + 1))) by (apply Rdiv_lt_0_compat; [apply cond_pos|lra]).
  destruct (proj1 (filterlim_locally _ _) C0 (mkposreal _ E2)) as [del1 H1].
  assert (Pm : 0 < Rmin del1 (eps / (4 * (L + 1)))) by (apply Rmin_pos; [apply cond_pos|exact E4]).
  exists (mkposreal _ Pm). intros [t' [p' q']] [Bt [Bp Bq]]. cbn [fst snd] in *.
  assert (M1 := Rmin_l del1 (eps / (4 * (L + 1)))). assert (M2 := Rmin_r del1 (eps / (4 * (L + 1)))).
  assert (K1 : Rabs (g (tc t') (clip d1 d2 p) (clip h1 h2 q) - g (tc t) (clip d1 d2 p) (clip h1 h2 q)) < eps / 2).
  { apply (H1 t'). eapply ball_le; [|exact Bt]. simpl. exact M1. }
  assert (K2 : Rabs (p' - p) < eps / (4 * (L + 1))) by (eapply Rlt_le_trans; [exact Bp|exact M2]).
  assert (K3 : Rabs (q' - q) < eps / (4 * (L + 1))) by (eapply Rlt_le_trans; [exact Bq|exact M2]).
  destruct (F (tc t') (clip d1 d2 p') (clip h1 h2 q') (clip d1 d2 p) (clip h1 h2 q) (Ht _) (Hb _ _) (Hb _ _)) as [_ F2].
  assert (D1 := clip_lip d1 d2 p' p Hd). assert (D2 := clip_lip h1 h2 q' q Hh).
  change (Rabs (g (tc t') (clip d1 d2 p') (clip h1 h2 q') - g (tc t) (clip d1 d2 p) (clip h1 h2 q)) < eps).
  replace (g (tc t') (clip d1 d2 p') (clip h1 h2 q') - g (tc t) (clip d1 d2 p) (clip h1 h2 q))
    with ((g (tc t') (clip d1 d2 p') (clip h1 h2 q') - g (tc t') (clip d1 d2 p) (clip h1 h2 q)) +
          (g (tc t') (clip d1 d2 p) (clip h1 h2 q) - g (tc t) (clip d1 d2 p) (clip h1 h2 q))) by ring.
  eapply Rle_lt_trans; [apply Rabs_triang|].
  assert (K4 : L * (Rabs (clip d1 d2 p' - clip d1 d2 p) + Rabs (clip h1 h2 q' - clip h1 h2 q)) <= eps / 2).
  { apply Rle_trans with ((L + 1) * (2 * (eps / (4 * (L + 1))))).
    - pose proof (Rabs_pos (clip d1 d2 p' - clip d1 d2 p)). pose proof (Rabs_pos (clip h1 h2 q' - clip h1 h2 q)).
      apply Rmult_le_compat; lra.
    - right. field. lra. }
  lra.
Qed.

(** With the arguments of the right-hand side moved into the box there is a solution for all times. *)
Lemma system_clipped d0 h0 : a <= b -> d1 <= d2 -> h1 <= h2 ->
  exists d h, d a = d0 /\ h a = h0 /\ forall x, a <= x <= b ->
    is_derive d x (f0 x (clip d1 d2 (d x)) (clip h1 h2 (h x))) /\ is_derive h x (f1 x (clip d1 d2 (d x)) (clip h1 h2 (h x))).
Proof.
  intros Hab Hd0 Hh0.
  set (tc := fun t => clip a b (a + t)).
  assert (Ht : forall t, a <= tc t <= b) by (intros s; apply clip_in; lra).
  assert (Hb : forall p q, inbox (clip d1 d2 p) (clip h1 h2 q)) by (intros; split; apply clip_in; lra).
  assert (M0 := N0). assert (M1 := N1). destruct M0 as [(B & L & HB & HL & F) C0]. destruct M1 as [(B' & L' & HB' & HL' & G) C1].
  set (f := fun (t : R) (v : R2) => ((f0 (tc t) (clip d1 d2 (fst v)) (clip h1 h2 (snd v)),
                              f1 (tc t) (clip d1 d2 (fst v)) (clip h1 h2 (snd v))) : R2)).
  destruct (@picard_exists R2 f (2 * (L + L') + 1) (B + B') ((d0, h0) : R2)) as [y [Y0 YD]].
  - lra.
  - intros t [p q] [p' q']. unfold f. cbn [fst snd].
    change (@norm R_AbsRing R2 (f0 (tc t) (clip d1 d2 p) (clip h1 h2 q) - f0 (tc t) (clip d1 d2 p') (clip h1 h2 q'),
                                f1 (tc t) (clip d1 d2 p) (clip h1 h2 q) - f1 (tc t) (clip d1 d2 p') (clip h1 h2 q'))
            <= (2 * (L + L') + 1) * @norm R_AbsRing R2 (p - p', q - q')).
    rewrite !norm2. apply norm2_le.
    destruct (F (tc t) _ _ _ _ (Ht t) (Hb p q) (Hb p' q')) as [_ F2].
    destruct (G (tc t) _ _ _ _ (Ht t) (Hb p q) (Hb p' q')) as [_ G2].
    assert (D1 := clip_lip d1 d2 p p' ltac:(lra)). assert (D2 := clip_lip h1 h2 q q' ltac:(lra)).
    assert (S := norm2_ge (p - p') (q - q')). assert (S0 := sqrt_pos ((p - p') ^ 2 + (q - q') ^ 2)).
    set (X := Rabs (clip d1 d2 p - clip d1 d2 p') + Rabs (clip h1 h2 q - clip h1 h2 q')) in *.
    set (Z := sqrt ((p - p') ^ 2 + (q - q') ^ 2)) in *.
    assert (XZ : X <= 2 * Z) by (unfold X; lra).
    assert (L * X <= L * (2 * Z)) by (apply Rmult_le_compat_l; assumption).
    assert (L' * X <= L' * (2 * Z)) by (apply Rmult_le_compat_l; assumption). lra.
  - intros t v.
    exact (@continuous_both (prod_UniformSpace R_UniformSpace R2) R_UniformSpace R_UniformSpace _ _ (t, v)
      (nice_joint f0 t v N0 ltac:(lra) ltac:(lra) ltac:(lra)) (nice_joint f1 t v N1 ltac:(lra) ltac:(lra) ltac:(lra))).
  - intros t. unfold f. cbn [fst snd]. rewrite norm2. apply norm2_le.
    destruct (F (tc t) _ _ _ _ (Ht t) (Hb d0 h0) (Hb d0 h0)) as [F1 _].
    destruct (G (tc t) _ _ _ _ (Ht t) (Hb d0 h0) (Hb d0 h0)) as [G1 _]. lra.
  - assert (Dd : forall t, is_derive (fun s => fst (y s)) t (fst (f t (y t)))).
    { intros t. exact (@derive_fst R_CompleteNormedModule R_CompleteNormedModule y t _ (YD t)). }
    assert (Dh : forall t, is_derive (fun s => snd (y s)) t (snd (f t (y t)))).
    { intros t. exact (@derive_snd R_CompleteNormedModule R_CompleteNormedModule y t _ (YD t)). }
    exists (fun x => fst (y (x - a))), (fun x => snd (y (x - a))).
    rewrite Rminus_eq_0, Y0. split; [reflexivity|]. split; [reflexivity|]. intros x Hx.
    assert (T : tc (x - a) = x). { unfold tc. replace (a + (x - a)) with x by ring. apply clip_id. lra. }
    split.
    + assert (E : fst (f (x - a) (y (x - a))) = f0 x (clip d1 d2 (fst (y (x - a)))) (clip h1 h2 (snd (y (x - a))))).
      { unfold f. cbn [fst]. rewrite T. reflexivity. }
      rewrite <- E. assert (Q := Dd (x - a)).
      replace (fst (f (x - a) (y (x - a)))) with (1 * fst (f (x - a) (y (x - a)))) by ring.
      apply (is_derive_comp (fun s => fst (y s)) (fun x => x - a)); [exact Q|]. auto_derive; [exact I|ring].
    + assert (E : snd (f (x - a) (y (x - a))) = f1 x (clip d1 d2 (fst (y (x - a)))) (clip h1 h2 (snd (y (x - a))))).
      { unfold f. cbn [snd]. rewrite T. reflexivity. }
      rewrite <- E. assert (Q := Dh (x - a)).
      replace (snd (f (x - a) (y (x - a)))) with (1 * snd (f (x - a) (y (x - a)))) by ring.
      apply (is_derive_comp (fun s => snd (y s)) (fun x => x - a)); [exact Q|]. auto_derive; [exact I|ring].
Qed.

(** The solution goes on until it meets the boundary of the box. *)
Lemma system_until d0 h0 : a < b -> d1 < d0 < d2 -> h1 < h0 < h2 ->
  exists c d h, a < c <= b /\ d a = d0 /\ h a = h0 /\
  (forall x, a <= x <= c -> inbox (d x) (h x) /\
    is_derive d x (f0 x (d x) (h x)) /\ is_derive h x (f1 x (d x) (h x))) /\
  (c = b \/ d c = d1 \/ d c = d2 \/ h c = h1 \/ h c = h2).
Proof.
  intros Hab Hd0 Hh0.
  destruct (system_clipped d0 h0) as (d & h & D0 & H0 & S); try lra.
  set (p := fun x => Rmax (Rmax (d1 - d x) (d x - d2)) (Rmax (h1 - h x) (h x - h2))).
  assert (Cd : forall x, a <= x <= b -> continuous d x).
  { intros x Hx. apply (ex_derive_continuous d). eexists. apply S, Hx. }
  assert (Ch : forall x, a <= x <= b -> continuous h x).
  { intros x Hx. apply (ex_derive_continuous h). eexists. apply S, Hx. }
  destruct (until p a b 0) as (c & Hc & Pc & In & Out).
  - lra.
  - intros x Hx. unfold p. apply max_continuous; apply max_continuous.
    + apply (continuous_minus (fun _ => d1) d); [apply continuous_const|apply Cd, Hx].
    + apply (continuous_minus d (fun _ => d2)); [apply Cd, Hx|apply continuous_const].
    + apply (continuous_minus (fun _ => h1) h); [apply continuous_const|apply Ch, Hx].
    + apply (continuous_minus h (fun _ => h2)); [apply Ch, Hx|apply continuous_const].
  - unfold p. rewrite D0, H0. apply Rmax_lub_lt; apply Rmax_lub_lt; lra.
  - assert (B : forall x, a <= x <= c -> inbox (d x) (h x)).
    { intros x Hx. specialize (In x Hx). unfold p in In.
      assert (M1 := Rmax_l (Rmax (d1 - d x) (d x - d2)) (Rmax (h1 - h x) (h x - h2))).
      assert (M2 := Rmax_r (Rmax (d1 - d x) (d x - d2)) (Rmax (h1 - h x) (h x - h2))).
      assert (M3 := Rmax_l (d1 - d x) (d x - d2)). assert (M4 := Rmax_r (d1 - d x) (d x - d2)).
      assert (M5 := Rmax_l (h1 - h x) (h x - h2)). assert (M6 := Rmax_r (h1 - h x) (h x - h2)).
      unfold inbox. lra. }
    exists c, d, h. split; [split; [apply Pc, Hab|apply Hc]|]. split; [exact D0|]. split; [exact H0|]. split.
    + intros x Hx. assert (Bx := B x Hx). split; [exact Bx|]. destruct Bx as [B1 B2].
      destruct (S x ltac:(lra)) as [S1 S2]. rewrite !clip_id in S1, S2 by assumption. auto.
    + destruct Out as [O|O]; [left; exact O|right]. unfold p, Rmax in O.
      destruct (Rle_dec (d1 - d c) (d c - d2)), (Rle_dec (h1 - h c) (h c - h2));
        destruct (Rle_dec _ _) in O; lra.
Qed.

Lemma system_exists d0 h0 : a < b -> d1 < d0 < d2 -> h1 < h0 < h2 ->
  exists c d h, a < c <= b /\ d a = d0 /\ h a = h0 /\
  forall x, a <= x <= c -> d1 < d x < d2 /\ h1 < h x < h2 /\
    is_derive d x (f0 x (d x) (h x)) /\ is_derive h x (f1 x (d x) (h x)).
Proof.
  intros Hab Hd0 Hh0.
  destruct (system_until d0 h0 Hab Hd0 Hh0) as (c & d & h & Hc & D0 & H0 & S & _).
  assert (Cd : continuous d a).
  { apply (ex_derive_continuous d). eexists. apply S. lra. }
  assert (Ch : continuous h a).
  { apply (ex_derive_continuous h). eexists. apply S. lra. }
  assert (Nd : locally a (fun t => (d1 < d t /\ d t < d2) /\ (h1 < h t /\ h t < h2))).
  { repeat apply filter_and; [apply (Cd (fun u => d1 < u)), open_gt|apply (Cd (fun u => u < d2)), open_lt|
      apply (Ch (fun u => h1 < u)), open_gt|apply (Ch (fun u => u < h2)), open_lt]; lra. }
  destruct Nd as [e He]. assert (Pe := cond_pos e).
  exists (Rmin c (a + e / 2)), d, h.
  assert (Q1 := Rmin_l c (a + e / 2)). assert (Q2 := Rmin_r c (a + e / 2)).
  split; [split; [apply Rmin_glb_lt; lra|lra]|]. split; [exact D0|]. split; [exact H0|].
  intros x Hx. destruct (He x) as [K1 K2].
  { unfold ball. simpl. unfold AbsRing_ball, abs, minus, plus, opp. simpl. rewrite Rabs_pos_eq; lra. }
  split; [exact K1|]. split; [exact K2|]. apply S. lra.
Qed.
End Box.
