(** How far the solution of Head's equations goes (C116). *)
From Coq Require Import Reals List Lra Lia.
From Coquelicot Require Import Coquelicot.
From Verif Require Import PyBase PyBaseFacts SkinFrictionModel HeadModel HeadProofs
  CoreModel OdeSpec HeadOdeProofs PositivityProofs WellPosedProofs FitLipschitzProofs SystemProofs HeadExistProofs.
Import ListNotations.
Open Scope R_scope.

Lemma up_mono h h' : h <= h' -> up h <= up h'.
Proof. intros L. unfold up. apply Rle_max_compat_l, L. Qed.
Lemma up_up h : up (up h) = up h.
Proof. apply Rmax_right, up_ge. Qed.

(** The friction term. *)
Definition fric nu (U : R -> R) (t d h : R) : R := 123/1000 * (Rpower (U t * d / nu) (- (268/1000)) * Rpower 10 (- (678/1000) * up h)).
Lemma fric_pos nu U t d h : 0 <= fric nu U t d h.
Proof. unfold fric. apply Rmult_le_pos; [lra|]. apply Rmult_le_pos; left; apply Rpower_pos. Qed.
Lemma fric_le nu U t d h d1 : 0 < nu -> 0 < d1 <= d -> 1/1000 <= U t ->
  fric nu U t d h <= 123/1000 * Rpower (1/1000 * d1 / nu) (- (268/1000)).
Proof.
  intros Pn Hd HU. unfold fric. apply Rmult_le_compat_l; [lra|].
  assert (P0 : 0 < 1/1000 * d1 / nu) by (apply Rdiv_lt_0_compat; [apply Rmult_lt_0_compat; lra|exact Pn]).
  assert (P1 : 1/1000 * d1 / nu <= U t * d / nu).
  { apply Rmult_le_compat_r; [left; apply Rinv_0_lt_compat, Pn|]. apply Rmult_le_compat; lra. }
  rewrite <- (Rmult_1_r (Rpower (1/1000 * d1 / nu) _)). apply Rmult_le_compat; try (left; apply Rpower_pos).
  - rewrite !Rpower_Ropp. apply Rinv_le_contravar; [apply Rpower_pos|]. apply Rle_Rpower_l; lra.
  - rewrite <- (Rpower_O 10) at 1 by lra. apply Rle_Rpower; [lra|]. pose proof (up_ge h). lra.
Qed.

Section Thickness.
Context (nu : R) (U dU : R -> R) (a b : R) (Pn : 0 < nu) (Hab : a <= b).
Context (HU : forall x, a <= x <= b -> continuous U x /\ 1/1000 <= U x).
Context (HdU : forall x, a <= x <= b -> continuous dU x).

(** Below a bound on the shape factor, the momentum thickness stays strictly between two bounds. *)
Lemma thickness_stays d0 hi : 0 < d0 -> exists d1 d2, 0 < d1 < d0 /\ d0 < d2 /\
  forall c d h, a <= c <= b -> d a = d0 ->
  (forall x, a <= x <= c -> is_derive d x (sys0 nu U dU x (d x) (h x)) /\ d1 <= d x <= d2 /\ h x <= hi) ->
  d1 < d c < d2.
Proof.
  intros P0. destruct (bound_above a b Hab dU HdU) as [M [PM HM]].
  set (K := (2 + up hi) * M * 1000). assert (Hup := up_ge hi).
  assert (PK : 0 < K) by (unfold K; apply Rmult_lt_0_compat; [apply Rmult_lt_0_compat; lra|lra]).
  set (E := exp (K * (b - a))). assert (PE : 0 < E) by apply exp_pos.
  assert (E1 : 1 <= E).
  { unfold E. rewrite <- exp_0. destruct (Req_dec (b - a) 0) as [->|N]; [rewrite Rmult_0_r; lra|].
    left. apply exp_increasing. apply Rmult_lt_0_compat; lra. }
  set (d1 := d0 / E / 2). assert (PdE : 0 < d0 / E) by (apply Rdiv_lt_0_compat; assumption).
  assert (Pd1 : 0 < d1) by (unfold d1; lra).
  assert (L1 : d0 / E <= d0).
  { apply (Rmult_le_reg_r E); [exact PE|]. unfold Rdiv. rewrite Rmult_assoc, Rinv_l, Rmult_1_r by lra.
    rewrite <- (Rmult_1_r d0) at 1. apply Rmult_le_compat_l; lra. }
  set (Cf := 123/1000 * Rpower (1/1000 * d1 / nu) (- (268/1000))).
  assert (PC : 0 < Cf) by (unfold Cf; apply Rmult_lt_0_compat; [lra|apply Rpower_pos]).
  assert (Pl : 0 <= Cf * (b - a)) by (apply Rmult_le_pos; lra).
  set (d2 := (d0 + Cf * (b - a)) * E + 1).
  assert (L2 : d0 < d2).
  { unfold d2. assert (d0 <= (d0 + Cf * (b - a)) * E); [|lra].
    rewrite <- (Rmult_1_r d0) at 1. apply Rmult_le_compat; lra. }
  exists d1, d2. split; [unfold d1 in *; lra|]. split; [exact L2|].
  intros c d h Hc Da S.
  assert (Kb : forall x, a <= x <= c -> Rabs ((2 + up (h x)) * dU x * / U x) <= K).
  { intros x Hx. destruct (S x Hx) as (_ & _ & Hh). destruct (HU x ltac:(lra)) as [_ Ux]. assert (Mx := HM x ltac:(lra)).
    assert (U1 := up_ge (h x)). assert (U2 := up_mono _ _ Hh).
    rewrite !Rabs_mult, (Rabs_pos_eq (2 + up (h x))) by lra. rewrite (Rabs_pos_eq (/ U x)) by (left; apply Rinv_0_lt_compat; lra).
    unfold K. apply Rmult_le_compat.
    - apply Rmult_le_pos; [lra|apply Rabs_pos].
    - left. apply Rinv_0_lt_compat. lra.
    - apply Rmult_le_compat; [lra|apply Rabs_pos|lra|exact Mx].
    - replace 1000 with (/ (1/1000)) by field. apply Rinv_le_contravar; lra. }
  assert (Bd : forall x, a <= x <= c -> - K * d x <= sys0 nu U dU x (d x) (h x) <= Cf + K * d x).
  { intros x Hx. destruct (S x Hx) as (_ & Hd & _). destruct (HU x ltac:(lra)) as [_ Ux].
    assert (F1 := fric_pos nu U x (d x) (h x)). assert (F2 := fric_le nu U x (d x) (h x) d1 Pn ltac:(lra) Ux).
    assert (Q := Kb x Hx). apply Rabs_le_between in Q.
    change (sys0 nu U dU x (d x) (h x)) with (fric nu U x (d x) (h x) - d x * (2 + up (h x)) * dU x * / U x).
    replace (d x * (2 + up (h x)) * dU x * / U x) with (d x * ((2 + up (h x)) * dU x * / U x)) by ring.
    fold Cf in F2. assert (Pdx : 0 <= d x) by lra. split; nra. }
  assert (Ec : forall x, a <= x <= b -> exp (K * (x - a)) <= E).
  { intros x Hx. unfold E. destruct (Req_dec x b) as [->|N]; [lra|]. left. apply exp_increasing.
    apply Rmult_lt_compat_l; lra. }
  split.
  - assert (Q : - (d c * exp (K * (c - a))) <= - (d a * exp (K * (a - a)))).
    { apply (decreasing_on (fun x => - (d x * exp (K * (x - a))))
        (fun x => - (sys0 nu U dU x (d x) (h x) + K * d x) * exp (K * (x - a))) a c); [lra|].
      intros x Hx. destruct (S x Hx) as (D1 & _). split.
      - assert (Ed := is_derive_unique d x _ D1). change (Derive d x) with (Derive (fun t => d t) x) in Ed. auto_derive; [eexists; exact D1|]. rewrite Ed. unfold Rminus. ring.
      - destruct (Bd x Hx) as [B1 _]. assert (Pe := exp_pos (K * (x - a))). nra. }
    rewrite Rminus_eq_0, Rmult_0_r, exp_0, Da, Rmult_1_r in Q.
    assert (Q2 := Ec c Hc). destruct (S c ltac:(lra)) as (_ & Hd & _).
    assert (Q3 : d0 <= d c * E). { apply Rle_trans with (d c * exp (K * (c - a))); [lra|]. apply Rmult_le_compat_l; lra. }
    assert (Q4 : d0 / E <= d c).
    { apply (Rmult_le_reg_r E); [exact PE|]. unfold Rdiv. rewrite Rmult_assoc, Rinv_l, Rmult_1_r by lra. exact Q3. }
    unfold d1 in *. lra.
  - assert (Q : d c * exp (- (K * (c - a))) - Cf * (c - a) <= d a * exp (- (K * (a - a))) - Cf * (a - a)).
    { apply (decreasing_on (fun x => d x * exp (- (K * (x - a))) - Cf * (x - a))
        (fun x => (sys0 nu U dU x (d x) (h x) - K * d x) * exp (- (K * (x - a))) - Cf) a c); [lra|].
      intros x Hx. destruct (S x Hx) as (D1 & _). split.
      - assert (Ed := is_derive_unique d x _ D1). change (Derive d x) with (Derive (fun t => d t) x) in Ed. auto_derive; [eexists; exact D1|]. rewrite Ed. unfold Rminus. ring.
      - destruct (Bd x Hx) as [_ B1]. assert (Pe := exp_pos (- (K * (x - a)))).
        assert (Pe1 : exp (- (K * (x - a))) <= 1).
        { rewrite <- exp_0. destruct (Req_dec x a) as [->|N]; [rewrite Rminus_eq_0, Rmult_0_r, Ropp_0; lra|].
          left. apply exp_increasing. assert (0 < K * (x - a)) by (apply Rmult_lt_0_compat; lra). lra. }
        nra. }
    rewrite Rminus_eq_0, !Rmult_0_r, Ropp_0, exp_0, Da, Rmult_1_r, Rminus_0_r in Q.
    assert (Q1 : d c <= (d0 + Cf * (c - a)) * exp (K * (c - a))).
    { apply (Rmult_le_reg_r (exp (- (K * (c - a))))); [apply exp_pos|].
      rewrite Rmult_assoc, <- exp_plus, Rplus_opp_r, exp_0. lra. }
    assert (Q2 := Ec c Hc). assert (Q3 := exp_pos (K * (c - a))).
    assert (Q4 : 0 <= Cf * (c - a) <= Cf * (b - a)) by (split; [apply Rmult_le_pos; lra|apply Rmult_le_compat_l; lra]).
    assert (Q5 : (d0 + Cf * (c - a)) * exp (K * (c - a)) <= (d0 + Cf * (b - a)) * E) by (apply Rmult_le_compat; lra).
    unfold d2. lra.
Qed.

(** One branch, between two bounds on the shape factor. *)
Lemma branch_until A B C D d0 h0 lo hi : 0 < A -> B < 111/100 -> 3 < D -> a < b -> 0 < d0 -> lo < h0 < hi ->
  exists c d h, a < c <= b /\ d a = d0 /\ h a = h0 /\
  (forall x, a <= x <= c -> 0 < d x /\ lo <= h x <= hi /\
    is_derive d x (sys0 nu U dU x (d x) (h x)) /\ is_derive h x (sys1 A B C D nu U dU x (d x) (h x))) /\
  (c = b \/ h c = lo \/ h c = hi).
Proof.
  intros PA PB PD L Pd Hh. destruct (thickness_stays d0 hi Pd) as (d1 & d2 & Hd1 & Hd2 & T).
  destruct (system_until a b d1 d2 lo hi (sys0 nu U dU) (sys1 A B C D nu U dU)
    (nice_sys0 nu U dU Pn a b _ _ _ _ Hab (proj1 Hd1) HU HdU)
    (nice_sys1 A B C D nu U dU PA PB PD Pn a b _ _ _ _ Hab (proj1 Hd1) HU HdU) d0 h0 L ltac:(lra) Hh)
    as (c & d & h & Hc & Da & Ha & S & O).
  exists c, d, h. split; [exact Hc|]. split; [exact Da|]. split; [exact Ha|]. split.
  - intros x Hx. destruct (S x Hx) as ([I1 I2] & D1 & D2). split; [lra|]. auto.
  - assert (Q : d1 < d c < d2).
    { apply (T c d h ltac:(lra) Da). intros x Hx. destruct (S x Hx) as ([I1 I2] & D1 & D2). split; [exact D1|]. lra. }
    lra.
Qed.

(** Below the clamp 1.11 nothing depends on the shape factor, so it cannot run away downwards. *)
Lemma branch_below A B C D d0 h0 hi : 0 < A -> B < 111/100 -> 3 < D -> a < b -> 0 < d0 -> h0 < hi ->
  exists c d h, a < c <= b /\ d a = d0 /\ h a = h0 /\
  (forall x, a <= x <= c -> 0 < d x /\ h x <= hi /\
    is_derive d x (sys0 nu U dU x (d x) (h x)) /\ is_derive h x (sys1 A B C D nu U dU x (d x) (h x))) /\
  (c = b \/ h c = hi).
Proof.
  intros PA PB PD L Pd Hh. destruct (thickness_stays d0 hi Pd) as (d1 & d2 & Hd1 & Hd2 & T).
  destruct (nice_bounds a b d1 d2 (111/100) (up hi) _
    (nice_sys1 A B C D nu U dU PA PB PD Pn a b d1 d2 (111/100) (up hi) Hab (proj1 Hd1) HU HdU)) as [Bh [PBh HBh]].
  set (lo := h0 - Bh * (b - a) - 1).
  assert (Plo : 0 <= Bh * (b - a)) by (apply Rmult_le_pos; lra).
  destruct (system_until a b d1 d2 lo hi (sys0 nu U dU) (sys1 A B C D nu U dU)
    (nice_sys0 nu U dU Pn a b _ _ _ _ Hab (proj1 Hd1) HU HdU)
    (nice_sys1 A B C D nu U dU PA PB PD Pn a b _ _ _ _ Hab (proj1 Hd1) HU HdU) d0 h0 L ltac:(lra) ltac:(unfold lo; lra))
    as (c & d & h & Hc & Da & Ha & S & O).
  exists c, d, h. split; [exact Hc|]. split; [exact Da|]. split; [exact Ha|]. split.
  - intros x Hx. destruct (S x Hx) as ([I1 I2] & D1 & D2). split; [lra|]. split; [lra|]. auto.
  - assert (Q : d1 < d c < d2).
    { apply (T c d h ltac:(lra) Da). intros x Hx. destruct (S x Hx) as ([I1 I2] & D1 & D2). split; [exact D1|]. lra. }
    assert (Q1 : lo < h c).
    { assert (Q2 : - h c - Bh * (c - a) <= - h a - Bh * (a - a)).
      { apply (decreasing_on (fun x => - h x - Bh * (x - a)) (fun x => - sys1 A B C D nu U dU x (d x) (h x) - Bh) a c); [lra|].
        intros x Hx. destruct (S x Hx) as ([I1 I2] & D1 & D2). split.
        - assert (Ed := is_derive_unique h x _ D2). change (Derive h x) with (Derive (fun t => h t) x) in Ed. auto_derive; [eexists; exact D2|]. rewrite Ed. unfold Rminus. ring.
        - assert (V : sys1 A B C D nu U dU x (d x) (h x) = sys1 A B C D nu U dU x (d x) (up (h x))).
          { unfold sys1, sys_h1, sys0. rewrite up_up. reflexivity. }
          rewrite V. assert (W := HBh x (d x) (up (h x)) ltac:(lra)
            (conj I1 (conj (up_ge _) (up_mono _ _ (proj2 I2))))). apply Rabs_le_between in W. lra. }
      rewrite Ha, Rminus_eq_0, Rmult_0_r in Q2. assert (Bh * (c - a) <= Bh * (b - a)) by (apply Rmult_le_compat_l; lra).
      unfold lo. lra. }
    lra.
Qed.
End Thickness.

Section Object.
Context (m : meth) (nu : R) (U dU : R -> R) (a b d0 h0 : R).
Context (Km : m_kind m = Head) (Kn : m_nu m = Fin nu) (Pn : 0 < nu) (Sk : slot_kind (m_u m) <> KInt) (Hab : a < b).
Context (V : forall x, a <= x <= b -> velocity_at m U (dU x) x /\ continuous dU x /\ 1/1000 <= U x).
Context (Pd : 0 < d0).

Lemma HUc x : a <= x <= b -> continuous U x /\ 1/1000 <= U x.
Proof. revert x. apply (velocity_continuous m U dU). intros x Hx. split; apply V, Hx. Qed.
Lemma HdUc x : a <= x <= b -> continuous dU x.
Proof. intros Hx. apply V, Hx. Qed.
Lemma to_solves d h x : a <= x <= b -> 0 < d x -> is_derive d x (sys0 nu U dU x (d x) (h x)) ->
  is_derive h x (sys1_at nu U dU (h x) x (d x) (h x)) -> solves2_at m d h x.
Proof.
  intros Hx P D1 D2. destruct (V x Hx) as [[LU [_ QD]] [_ L]].
  do 2 eexists. split; [apply (rhs_sys m nu U dU); try assumption; exact (locally_singleton _ _ LU)|]. auto.
Qed.

Lemma head_below_lemma : h0 < 16/10 -> exists c d h, a < c <= b /\ d a = d0 /\ h a = h0 /\
  (forall x, a <= x <= c -> solves2_at m d h x /\ 0 < d x /\ h x <= 16/10) /\ (c = b \/ h c = 16/10).
Proof.
  intros H. destruct (branch_below nu U dU a b Pn ltac:(lra) HUc HdUc lo_a lo_b lo_c lo_d d0 h0 (16/10)
    ltac:(unfold lo_a; lra) ltac:(unfold lo_b; lra) ltac:(unfold lo_d; lra) Hab Pd H) as (c & d & h & Hc & Da & Ha & S & O).
  exists c, d, h. split; [exact Hc|]. split; [exact Da|]. split; [exact Ha|]. split; [|exact O].
  intros x Hx. destruct (S x Hx) as (P & I & D1 & D2). split; [|split; assumption].
  apply to_solves; try assumption; [lra|]. unfold sys1_at. destruct (Rle_dec (h x) (16/10)); [exact D2|lra].
Qed.

Lemma head_above_lemma lo hi : 16/10 < lo -> lo < h0 < hi -> exists c d h, a < c <= b /\ d a = d0 /\ h a = h0 /\
  (forall x, a <= x <= c -> solves2_at m d h x /\ 0 < d x /\ lo <= h x <= hi) /\ (c = b \/ h c = lo \/ h c = hi).
Proof.
  intros Hl H. destruct (branch_until nu U dU a b Pn ltac:(lra) HUc HdUc hi_a hi_b hi_c hi_d d0 h0 lo hi
    ltac:(unfold hi_a; lra) ltac:(unfold hi_b; lra) ltac:(unfold hi_d; lra) Hab Pd H) as (c & d & h & Hc & Da & Ha & S & O).
  exists c, d, h. split; [exact Hc|]. split; [exact Da|]. split; [exact Ha|]. split; [|exact O].
  intros x Hx. destruct (S x Hx) as (P & I & D1 & D2). split; [|split; assumption].
  apply to_solves; try assumption; [lra|]. unfold sys1_at. destruct (Rle_dec (h x) (16/10)); [lra|exact D2].
Qed.
End Object.
