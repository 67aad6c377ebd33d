(** Head's initial value problem: local existence, uniqueness, and the shape factor 1.6 (C116). *)
From Coq Require Import Reals List Lra Lia.
From Coq Require Ranalysis5.
From Coquelicot Require Import Coquelicot.
From Interval Require Import Tactic.
From Verif Require Import PyBase PyBaseFacts XDeriv SkinFrictionModel HeadModel HeadProofs
  CoreModel OdeSpec HeadOdeProofs PositivityProofs WellPosedProofs FitLipschitzProofs SystemProofs.
Import ListNotations.
Open Scope R_scope.

Section Side.
Context (A B C D nu : R) (U dU : R -> R).
Context (PA : 0 < A) (PC : 0 < C) (PB : B < 111/100) (PD : 3 < D) (Pn : 0 < nu).

Definition up (h : R) : R := Rmax (111/100) h.
Definition sys_h1 (h : R) : R := D + A * Rpower (up h - B) (- C).
Definition sys0 (t d h : R) : R :=
  123/1000 * (Rpower (U t * d / nu) (- (268/1000)) * Rpower 10 (- (678/1000) * up h)) - d * (2 + up h) * dU t * / U t.
Definition sys1 (t d h : R) : R :=
  - (U t * (306/10000 * Rpower (sys_h1 h - 3) (- (6169/10000))) - U t * sys0 t d h * sys_h1 h - dU t * d * sys_h1 h)
  * (Rpower (up h - B) (C + 1) * / (A * C)) * / U t * / d.

Lemma up_ge h : 111/100 <= up h.
Proof. apply Rmax_l. Qed.
Lemma sys_h1_gt h : D < sys_h1 h.
Proof.
  unfold sys_h1. assert (0 < A * Rpower (up h - B) (- C)); [|lra].
  apply Rmult_lt_0_compat; [exact PA|apply Rpower_pos].
Qed.

Context (a b d1 d2 h1 h2 : R) (Hab : a <= b) (Pd : 0 < d1).
Context (HU : forall x, a <= x <= b -> continuous U x /\ 1/1000 <= U x).
Context (HdU : forall x, a <= x <= b -> continuous dU x).
Notation nice := (nice a b d1 d2 h1 h2).

Lemma nice_power q w c : nice q -> 0 < w ->
  (forall t d h, a <= t <= b -> inbox d1 d2 h1 h2 d h -> w <= q t d h) -> nice (fun t d h => Rpower (q t d h) c).
Proof.
  intros N W R. destruct (nice_bounds _ _ _ _ _ _ q N) as [M [_ HM]].
  apply (nice_smooth _ _ _ _ _ _ q (fun x => Rpower x c) (fun x => c * Rpower x (c - 1)) w M N).
  - intros t d h Ht I. split; [apply R; assumption|]. eapply Rle_trans; [apply Rle_abs|apply HM; assumption].
  - intros x Hx. split.
    + unfold Rpower. auto_derive; [lra|]. replace ((c - 1) * ln x) with (c * ln x - ln x) by ring.
      unfold Rminus. rewrite exp_plus, exp_Ropp, exp_ln by lra. field. lra.
    + unfold Rpower. auto_derive. lra.
Qed.
Lemma nice_up : nice (fun _ _ h => up h).
Proof.
  apply (nice_comp _ _ _ _ _ _ (fun _ _ h => h) up h1 h2 1).
  - apply nice_h.
  - intros t d h _ [_ H]. exact H.
  - intros x y _ _. unfold up, Rmax, Rabs. repeat destruct (Rle_dec _ _); repeat destruct (Rcase_abs _); lra.
  - intros x _. apply (lip_continuous _ 1). intros y z. unfold up, Rmax, Rabs.
    repeat destruct (Rle_dec _ _); repeat destruct (Rcase_abs _); lra.
Qed.
Lemma nice_U : nice (fun t _ _ => U t).
Proof. apply nice_time; [exact Hab|]. intros t Ht. apply HU, Ht. Qed.
Lemma nice_dU : nice (fun t _ _ => dU t).
Proof. apply nice_time; [exact Hab|exact HdU]. Qed.
Lemma nice_invU : nice (fun t _ _ => / U t).
Proof. apply (nice_inv _ _ _ _ _ _ (fun t _ _ => U t) (1/1000)); [apply nice_U|lra|]. intros t d h Ht _. apply HU, Ht. Qed.
Lemma nice_invd : nice (fun _ d _ => / d).
Proof. apply (nice_inv _ _ _ _ _ _ (fun _ d _ => d) d1); [apply nice_d|exact Pd|]. intros t d h _ [H _]. apply H. Qed.
Lemma nice_upB c : nice (fun _ _ h => Rpower (up h - B) c).
Proof.
  apply (nice_power (fun _ _ h => up h - B) (111/100 - B)); [|lra|intros t d h _ _; pose proof (up_ge h); lra].
  apply (nice_minus _ _ _ _ _ _ (fun _ _ h => up h) (fun _ _ _ => B)); [apply nice_up|apply nice_const].
Qed.
Lemma nice_h1 : nice (fun _ _ h => sys_h1 h).
Proof.
  apply (nice_plus _ _ _ _ _ _ (fun _ _ _ => D) (fun _ _ h => A * Rpower (up h - B) (- C))); [apply nice_const|].
  apply (nice_mult _ _ _ _ _ _ (fun _ _ _ => A) (fun _ _ h => Rpower (up h - B) (- C))); [apply nice_const|apply nice_upB].
Qed.
Lemma nice_sys0 : nice sys0.
Proof.
  apply (nice_minus _ _ _ _ _ _
    (fun t d h => 123/1000 * (Rpower (U t * d / nu) (- (268/1000)) * Rpower 10 (- (678/1000) * up h)))
    (fun t d h => d * (2 + up h) * dU t * / U t)).
  - apply (nice_mult _ _ _ _ _ _ (fun _ _ _ => 123/1000)
      (fun t d h => Rpower (U t * d / nu) (- (268/1000)) * Rpower 10 (- (678/1000) * up h))); [apply nice_const|].
    apply (nice_mult _ _ _ _ _ _ (fun t d _ => Rpower (U t * d / nu) (- (268/1000)))
      (fun _ _ h => Rpower 10 (- (678/1000) * up h))).
    + apply (nice_power (fun t d _ => U t * d / nu) (1/1000 * d1 / nu)).
      * apply (nice_mult _ _ _ _ _ _ (fun t d _ => U t * d) (fun _ _ _ => / nu)); [|apply nice_const].
        apply (nice_mult _ _ _ _ _ _ (fun t _ _ => U t) (fun _ d _ => d)); [apply nice_U|apply nice_d].
      * apply Rdiv_lt_0_compat; [apply Rmult_lt_0_compat; lra|exact Pn].
      * intros t d h Ht [I _]. apply Rmult_le_compat_r; [left; apply Rinv_0_lt_compat, Pn|].
        apply Rmult_le_compat; try lra. apply HU, Ht.
    + apply (nice_smooth _ _ _ _ _ _ (fun _ _ h => up h) (fun x => Rpower 10 (- (678/1000) * x))
        (fun x => - (678/1000) * ln 10 * Rpower 10 (- (678/1000) * x)) (111/100) (up (Rmax h1 h2))).
      * apply nice_up.
      * intros t d h _ [_ H]. split; [apply up_ge|]. unfold up. apply Rle_max_compat_l.
        eapply Rle_trans; [apply H|apply Rmax_r].
      * intros x _. unfold Rpower. split; auto_derive; try exact I. field.
  - apply (nice_mult _ _ _ _ _ _ (fun t d h => d * (2 + up h) * dU t) (fun t _ _ => / U t)); [|apply nice_invU].
    apply (nice_mult _ _ _ _ _ _ (fun t d h => d * (2 + up h)) (fun t _ _ => dU t)); [|apply nice_dU].
    apply (nice_mult _ _ _ _ _ _ (fun t d h => d) (fun t _ h => 2 + up h)); [apply nice_d|].
    apply (nice_plus _ _ _ _ _ _ (fun _ _ _ => 2) (fun t _ h => up h)); [apply nice_const|apply nice_up].
Qed.
Lemma nice_sys1 : nice sys1.
Proof.
  apply (nice_mult _ _ _ _ _ _ (fun t d h =>
    - (U t * (306/10000 * Rpower (sys_h1 h - 3) (- (6169/10000))) - U t * sys0 t d h * sys_h1 h - dU t * d * sys_h1 h)
    * (Rpower (up h - B) (C + 1) * / (A * C)) * / U t) (fun t d h => / d)); [|apply nice_invd].
  apply (nice_mult _ _ _ _ _ _ (fun t d h =>
    - (U t * (306/10000 * Rpower (sys_h1 h - 3) (- (6169/10000))) - U t * sys0 t d h * sys_h1 h - dU t * d * sys_h1 h)
    * (Rpower (up h - B) (C + 1) * / (A * C))) (fun t d h => / U t)); [|apply nice_invU].
  apply (nice_mult _ _ _ _ _ _ (fun t d h =>
    - (U t * (306/10000 * Rpower (sys_h1 h - 3) (- (6169/10000))) - U t * sys0 t d h * sys_h1 h - dU t * d * sys_h1 h))
    (fun t d h => Rpower (up h - B) (C + 1) * / (A * C))).
  2:{ apply (nice_mult _ _ _ _ _ _ (fun _ _ h => Rpower (up h - B) (C + 1)) (fun _ _ _ => / (A * C))); [apply nice_upB|apply nice_const]. }
  apply nice_opp. apply (nice_minus _ _ _ _ _ _ (fun t d h =>
     U t * (306/10000 * Rpower (sys_h1 h - 3) (- (6169/10000))) - U t * sys0 t d h * sys_h1 h) (fun t d h => dU t * d * sys_h1 h)).
  2:{ apply (nice_mult _ _ _ _ _ _ (fun t d h => dU t * d) (fun _ _ h => sys_h1 h)); [|apply nice_h1].
      apply (nice_mult _ _ _ _ _ _ (fun t _ _ => dU t) (fun _ d _ => d)); [apply nice_dU|apply nice_d]. }
  apply (nice_minus _ _ _ _ _ _ (fun t d h => U t * (306/10000 * Rpower (sys_h1 h - 3) (- (6169/10000))))
     (fun t d h => U t * sys0 t d h * sys_h1 h)).
  2:{ apply (nice_mult _ _ _ _ _ _ (fun t d h => U t * sys0 t d h) (fun _ _ h => sys_h1 h)); [|apply nice_h1].
      apply (nice_mult _ _ _ _ _ _ (fun t _ _ => U t) sys0); [apply nice_U|apply nice_sys0]. }
  apply (nice_mult _ _ _ _ _ _ (fun t _ _ => U t) (fun t d h => 306/10000 * Rpower (sys_h1 h - 3) (- (6169/10000)))); [apply nice_U|].
  apply (nice_mult _ _ _ _ _ _ (fun t _ _ => 306/10000) (fun t d h => Rpower (sys_h1 h - 3) (- (6169/10000)))); [apply nice_const|].
  apply (nice_power (fun _ _ h => sys_h1 h - 3) (D - 3)); [|lra|].
  - apply (nice_minus _ _ _ _ _ _ (fun _ _ h => sys_h1 h) (fun _ _ _ => 3)); [apply nice_h1|apply nice_const].
  - intros t d h _ _. pose proof (sys_h1_gt h). lra.
Qed.
End Side.

(** ** The right-hand side the object hands to the integrator *)
Lemma head_rhs_clamp nu u du d h : head_rhs nu u du d (Fin h) = head_rhs nu u du d (Fin (up h)).
Proof.
  unfold head_rhs. cbn [xltb].
  assert (E : (if Rltb h (111/100) then Fin (111/100) else Fin h) =
              (if Rltb (up h) (111/100) then Fin (111/100) else Fin (up h))).
  { unfold up, Rmax. destruct (Rle_dec (111/100) h) as [L|L].
    - reflexivity.
    - rewrite (Rltb_true h) by lra. rewrite Rltb_false by lra. reflexivity. }
  rewrite E. reflexivity.
Qed.

(** The branch in force at the shape factor [h]. *)
Definition sys1_at nu U dU (h : R) : R -> R -> R -> R :=
  if Rle_dec h (16/10) then sys1 lo_a lo_b lo_c lo_d nu U dU else sys1 hi_a hi_b hi_c hi_d nu U dU.

Lemma rhs_sys m nu U dU x d h : m_kind m = Head -> m_nu m = Fin nu -> 0 < nu -> slot_kind (m_u m) <> KInt ->
  q_u_e m x = Ok (U x) -> q_du_e m x = Ok (dU x) -> 1/1000 <= U x -> 0 < d ->
  ode_impl m x [Fin d; Fin h] = Ok [Fin (sys0 nu U dU x d h); Fin (sys1_at nu U dU h x d h)].
Proof.
  intros Km Kn Pn Sk QU QD Ux Pd.
  assert (Kk : slot_kind (m_u m) = KFloat \/ slot_kind (m_u m) = KArray).
  { destruct (slot_kind (m_u m)); auto. congruence. }
  assert (Hu := up_ge h).
  destruct (head_rhs_fin nu (U x) (dU x) d (up h) _ Pn Ux Hu Pd Kk) as [cf [e [p [Ecf [Ee [Ep [Pp RHS]]]]]]].
  unfold ode_impl. rewrite Km, QU, QD. cbn [bind]. rewrite Kn, head_rhs_clamp, RHS. cbn [bind fst snd].
  assert (Pr : 0 < U x * d / nu) by (apply Rdiv_lt_0_compat; [apply Rmult_lt_0_compat; lra|exact Pn]).
  assert (Vcf : cf = 246/1000 * (Rpower (U x * d / nu) (- (268/1000)) * Rpower 10 (- (678/1000) * up h))).
  { unfold ludwieg_tillman in Ecf. rewrite xmul_fin, !xpow_fin in Ecf by lra. rewrite xmul_fin, xdiv_fin in Ecf.
    2:{ apply Rgt_not_eq, Rmult_lt_0_compat; apply Rpower_pos. }
    injection Ecf as <-. replace (- (678/1000) * up h) with (- (678/1000 * up h)) by ring.
    rewrite !Rpower_Ropp. field. split; apply Rpower_nz. }
  assert (V0 : 5/10 * cf - d * (2 + up h) * dU x / U x = sys0 nu U dU x d h).
  { unfold sys0. rewrite Vcf. field. lra. }
  rewrite V0.
  assert (Main : forall A B C D, 0 < A -> 0 < C -> B < 111/100 -> 3 < D ->
     h1R (up h) = branch A B C D (up h) -> p = branch_p A B C (up h) ->
     (U x * e - U x * sys0 nu U dU x d h * h1R (up h) - dU x * d * h1R (up h)) / (p * U x * d) =
     sys1 A B C D nu U dU x d h).
  { intros A B C D PA PC PB PD E1 E2.
    assert (V1 : h1R (up h) = sys_h1 A B C D h).
    { rewrite E1. unfold branch, sys_h1. rewrite Rpower_Ropp. reflexivity. }
    assert (G := sys_h1_gt A B C D PA h).
    assert (Ve : e = 306/10000 * Rpower (sys_h1 A B C D h - 3) (- (6169/10000))).
    { rewrite V1, entr_vel_fin in Ee by lra. injection Ee as <-. rewrite Rpower_Ropp. reflexivity. }
    rewrite V1, E2. unfold sys1. rewrite <- Ve. unfold branch_p.
    assert (NZ := Rpower_nz (up h - B) (C + 1)). field. repeat split; lra. }
  unfold sys1_at. destruct (Rle_dec h (16/10)) as [L|L].
  - rewrite (Main lo_a lo_b lo_c lo_d); [reflexivity|unfold lo_a; lra|unfold lo_c; lra|unfold lo_b; lra|unfold lo_d; lra| |].
    + unfold h1R. rewrite entr_lo; [reflexivity| ]. unfold up, Rmax in *. destruct (Rle_dec (111/100) h); lra.
    + rewrite entr_p_lo in Ep; [injection Ep; auto| ]. unfold up, Rmax in *. destruct (Rle_dec (111/100) h); lra.
  - rewrite (Main hi_a hi_b hi_c hi_d); [reflexivity|unfold hi_a; lra|unfold hi_c; lra|unfold hi_b; lra|unfold hi_d; lra| |].
    + unfold h1R. rewrite entr_hi; [reflexivity| ]. unfold up, Rmax in *. destruct (Rle_dec (111/100) h); lra.
    + rewrite entr_p_hi in Ep; [injection Ep; auto| ]. unfold up, Rmax in *. destruct (Rle_dec (111/100) h); lra.
Qed.

Lemma velocity_continuous m U dU a b : (forall x, a <= x <= b -> velocity_at m U (dU x) x /\ 1/1000 <= U x) ->
  forall x, a <= x <= b -> continuous U x /\ 1/1000 <= U x.
Proof.
  intros V x Hx. destruct (V x Hx) as [[_ [D _]] L]. split; [|exact L].
  apply (ex_derive_continuous U). eexists. exact D.
Qed.

(** ** Local existence *)
Lemma head_exists_lemma m nu U dU a b d0 h0 : m_kind m = Head -> m_nu m = Fin nu -> 0 < nu ->
  slot_kind (m_u m) <> KInt -> a < b ->
  (forall x, a <= x <= b -> velocity_at m U (dU x) x /\ continuous dU x /\ 1/1000 <= U x) ->
  0 < d0 -> h0 <> 16/10 ->
  exists c d h, a < c <= b /\ d a = d0 /\ h a = h0 /\
    forall x, a <= x <= c -> solves2_at m d h x /\ d0 / 2 < d x /\ h x <> 16/10.
Proof.
  intros Km Kn Pn Sk Hab V Pd Nh.
  assert (HU : forall x, a <= x <= b -> continuous U x /\ 1/1000 <= U x).
  { apply (velocity_continuous m U dU). intros x Hx. split; apply V, Hx. }
  assert (HdU : forall x, a <= x <= b -> continuous dU x) by (intros x Hx; apply V, Hx).
  assert (L1 : a <= b) by lra. assert (Pd2 : 0 < d0 / 2) by lra.
  assert (RR : forall x, a <= x <= b -> q_u_e m x = Ok (U x) /\ q_du_e m x = Ok (dU x) /\ 1/1000 <= U x).
  { intros x Hx. destruct (V x Hx) as [[LU [_ QD]] [_ L]]. split; [exact (locally_singleton _ _ LU)|]. auto. }
  destruct (Rlt_dec h0 (16/10)) as [L|L].
  - destruct (system_exists a b (d0 / 2) (2 * d0) (h0 - 1) (16/10) (sys0 nu U dU) (sys1 lo_a lo_b lo_c lo_d nu U dU)
      (nice_sys0 nu U dU Pn a b _ _ _ _ L1 Pd2 HU HdU)
      (nice_sys1 lo_a lo_b lo_c lo_d nu U dU ltac:(unfold lo_a; lra) ltac:(unfold lo_b; lra) ltac:(unfold lo_d; lra) Pn
         a b _ _ _ _ L1 Pd2 HU HdU) d0 h0 Hab ltac:(lra) ltac:(lra)) as (c & d & h & Hc & Da & Ha & S).
    exists c, d, h. split; [exact Hc|]. split; [exact Da|]. split; [exact Ha|]. intros x Hx.
    destruct (S x Hx) as (I1 & I2 & D1 & D2). split; [|split; lra].
    destruct (RR x ltac:(lra)) as (QU & QD & Ux).
    do 2 eexists. split; [apply (rhs_sys m nu U dU); try assumption; lra|].
    unfold sys1_at. destruct (Rle_dec (h x) (16/10)) as [_|N]; [|lra]. split; assumption.
  - destruct (system_exists a b (d0 / 2) (2 * d0) (16/10) (h0 + 1) (sys0 nu U dU) (sys1 hi_a hi_b hi_c hi_d nu U dU)
      (nice_sys0 nu U dU Pn a b _ _ _ _ L1 Pd2 HU HdU)
      (nice_sys1 hi_a hi_b hi_c hi_d nu U dU ltac:(unfold hi_a; lra) ltac:(unfold hi_b; lra) ltac:(unfold hi_d; lra) Pn
         a b _ _ _ _ L1 Pd2 HU HdU) d0 h0 Hab ltac:(lra) ltac:(lra)) as (c & d & h & Hc & Da & Ha & S).
    exists c, d, h. split; [exact Hc|]. split; [exact Da|]. split; [exact Ha|]. intros x Hx.
    destruct (S x Hx) as (I1 & I2 & D1 & D2). split; [|split; lra].
    destruct (RR x ltac:(lra)) as (QU & QD & Ux).
    do 2 eexists. split; [apply (rhs_sys m nu U dU); try assumption; lra|].
    unfold sys1_at. destruct (Rle_dec (h x) (16/10)) as [N|_]; [lra|]. split; assumption.
Qed.

(** ** Uniqueness *)
Lemma range_on (g : R -> R) a b : a <= b -> (forall x, a <= x <= b -> continuous g x) ->
  exists lo hi, (forall x, a <= x <= b -> lo <= g x <= hi) /\ exists x, a <= x <= b /\ g x = lo.
Proof.
  intros L H.
  assert (P : forall x, a <= x <= b -> continuity_pt g x) by (intros x Hx; apply continuity_pt_filterlim, H, Hx).
  destruct (continuity_ab_min g a b L P) as [p [Hp Hp']]. destruct (continuity_ab_maj g a b L P) as [q [Hq _]].
  exists (g p), (g q). split; [intros x Hx; split; auto|]. exists p. auto.
Qed.
Lemma one_side (g : R -> R) a b c : a <= b -> (forall x, a <= x <= b -> continuous g x /\ g x <> c) ->
  (forall x, a <= x <= b -> g x < c) \/ (forall x, a <= x <= b -> c < g x).
Proof.
  intros L H.
  assert (K : forall x, a <= x <= b -> (g a < c -> g x < c) /\ (c < g a -> c < g x)).
  { assert (Cp : forall k x t, a <= x <= b -> a <= t <= x -> continuity_pt (fun s => k * (g s - c)) t).
    { intros k x t Hx Ht. apply continuity_pt_filterlim.
      apply (continuous_scal_r k (fun s => g s - c)), (continuous_minus g (fun _ => c)); [apply H; lra|apply continuous_const]. }
    intros x Hx. destruct (H a ltac:(lra)) as [_ Na]. destruct (H x Hx) as [_ Nx].
    destruct (Req_dec a x) as [<-|Nax]; [tauto|]. split; intros Q; apply Rnot_le_lt; intros N.
    - destruct (Ranalysis5.IVT_interv (fun s => 1 * (g s - c)) a x) as [z [Hz Ez]]; [intros t Ht; apply (Cp _ x t Hx Ht)|lra|lra|lra|].
      apply (proj2 (H z ltac:(lra))). lra.
    - destruct (Ranalysis5.IVT_interv (fun s => (-1) * (g s - c)) a x) as [z [Hz Ez]]; [intros t Ht; apply (Cp _ x t Hx Ht)|lra|lra|lra|].
      apply (proj2 (H z ltac:(lra))). lra. }
  destruct (H a ltac:(lra)) as [_ Na]. destruct (Rtotal_order (g a) c) as [Q|[Q|Q]]; [left|contradiction|right];
    intros x Hx; apply (K x Hx), Q.
Qed.

Lemma head_unique_lemma m nu U dU a b d h d' h' : m_kind m = Head -> m_nu m = Fin nu -> 0 < nu ->
  slot_kind (m_u m) <> KInt -> a <= b ->
  (forall x, a <= x <= b -> velocity_at m U (dU x) x /\ continuous dU x /\ 1/1000 <= U x) ->
  0 < d a -> d a = d' a -> h a = h' a ->
  (forall x, a <= x <= b -> solves2_at m d h x /\ h x <> 16/10) ->
  (forall x, a <= x <= b -> solves2_at m d' h' x /\ h' x <> 16/10) ->
  forall x, a <= x <= b -> d x = d' x /\ h x = h' x.
Proof.
  intros Km Kn Pn Sk Hab V Pa Ed Eh S S'.
  assert (HU : forall x, a <= x <= b -> continuous U x /\ 1/1000 <= U x).
  { apply (velocity_continuous m U dU). intros x Hx. split; apply V, Hx. }
  assert (HdU : forall x, a <= x <= b -> continuous dU x) by (intros x Hx; apply V, Hx).
  assert (RR : forall x, a <= x <= b -> q_u_e m x = Ok (U x) /\ q_du_e m x = Ok (dU x) /\ 1/1000 <= U x).
  { intros x Hx. destruct (V x Hx) as [[LU [_ QD]] [_ L]]. split; [exact (locally_singleton _ _ LU)|]. auto. }
  assert (Pos : forall d h, 0 < d a -> (forall x, a <= x <= b -> solves2_at m d h x /\ h x <> 16/10) ->
            forall x, a <= x <= b -> 0 < d x).
  { intros d9 h9 P9 S9 x Hx. apply (head_positive_lemma m U dU d9 h9 a x Km Sk); [exists nu; auto|lra| |exact P9].
    intros t Ht. split; [apply V; lra|apply S9; lra]. }
  assert (P1 := Pos d h Pa S). assert (P2 := Pos d' h' ltac:(lra) S').
  assert (Der : forall d h, (forall x, a <= x <= b -> 0 < d x) ->
            (forall x, a <= x <= b -> solves2_at m d h x /\ h x <> 16/10) -> forall x, a <= x <= b ->
            is_derive d x (sys0 nu U dU x (d x) (h x)) /\ is_derive h x (sys1_at nu U dU (h x) x (d x) (h x))).
  { intros d9 h9 P9 S9 x Hx. destruct (S9 x Hx) as [[v [w [E [D1 D2]]]] _]. destruct (RR x Hx) as (QU & QD & Ux).
    rewrite (rhs_sys m nu U dU x _ _ Km Kn Pn Sk QU QD Ux (P9 x Hx)) in E. injection E as <- <-. auto. }
  assert (E1 := Der d h P1 S). assert (E2 := Der d' h' P2 S').
  assert (Cd : forall g l : R -> R, (forall x, a <= x <= b -> is_derive g x (l x)) -> forall x, a <= x <= b -> continuous g x).
  { intros g l H x Hx. apply (ex_derive_continuous g). eexists. apply H, Hx. }
  assert (C1 := Cd d _ (fun x Hx => proj1 (E1 x Hx))). assert (C2 := Cd h _ (fun x Hx => proj2 (E1 x Hx))).
  assert (C3 := Cd d' _ (fun x Hx => proj1 (E2 x Hx))). assert (C4 := Cd h' _ (fun x Hx => proj2 (E2 x Hx))).
  destruct (range_on d a b Hab C1) as (d1 & d2 & Rd & xd & Hxd & Exd).
  destruct (range_on d' a b Hab C3) as (d1' & d2' & Rd' & xd' & Hxd' & Exd').
  destruct (range_on h a b Hab C2) as (h1 & h2 & Rh & _).
  destruct (range_on h' a b Hab C4) as (h1' & h2' & Rh' & _).
  set (D1 := Rmin d1 d1'). set (D2 := Rmax d2 d2').
  assert (PD1 : 0 < D1) by (apply Rmin_pos; [rewrite <- Exd; apply P1, Hxd|rewrite <- Exd'; apply P2, Hxd']).
  set (H1 := Rmin h1 h1'). set (H2 := Rmax h2 h2').
  assert (Box : forall x, a <= x <= b -> inbox D1 D2 H1 H2 (d x) (h x) /\ inbox D1 D2 H1 H2 (d' x) (h' x)).
  { intros x Hx. specialize (Rd x Hx). specialize (Rd' x Hx). specialize (Rh x Hx). specialize (Rh' x Hx).
    unfold inbox, D1, D2, H1, H2, Rmin, Rmax.
    destruct (Rle_dec d1 d1'), (Rle_dec d2 d2'), (Rle_dec h1 h1'), (Rle_dec h2 h2'); lra. }
  destruct (one_side h a b (16/10) Hab (fun x Hx => conj (C2 x Hx) (proj2 (S x Hx)))) as [O1|O1];
  destruct (one_side h' a b (16/10) Hab (fun x Hx => conj (C4 x Hx) (proj2 (S' x Hx)))) as [O2|O2].
  2:{ specialize (O1 a ltac:(lra)). specialize (O2 a ltac:(lra)). lra. }
  2:{ specialize (O1 a ltac:(lra)). specialize (O2 a ltac:(lra)). lra. }
  - intros x Hx. apply (system_unique a b D1 D2 H1 H2 (sys0 nu U dU) (sys1 lo_a lo_b lo_c lo_d nu U dU)
      (nice_sys0 nu U dU Pn a b _ _ _ _ Hab PD1 HU HdU)
      (nice_sys1 lo_a lo_b lo_c lo_d nu U dU ltac:(unfold lo_a; lra) ltac:(unfold lo_b; lra) ltac:(unfold lo_d; lra) Pn
         a b _ _ _ _ Hab PD1 HU HdU) x d h d' h' Hx Ed Eh).
    intros t Ht. destruct (Box t ltac:(lra)) as [B1 B2]. split; [exact B1|]. split; [exact B2|].
    destruct (E1 t ltac:(lra)) as [F1 F2]. destruct (E2 t ltac:(lra)) as [F3 F4].
    specialize (O1 t ltac:(lra)). specialize (O2 t ltac:(lra)). unfold sys1_at in F2, F4.
    destruct (Rle_dec (h t) (16/10)) in F2; [|lra]. destruct (Rle_dec (h' t) (16/10)) in F4; [|lra]. auto.
  - intros x Hx. apply (system_unique a b D1 D2 H1 H2 (sys0 nu U dU) (sys1 hi_a hi_b hi_c hi_d nu U dU)
      (nice_sys0 nu U dU Pn a b _ _ _ _ Hab PD1 HU HdU)
      (nice_sys1 hi_a hi_b hi_c hi_d nu U dU ltac:(unfold hi_a; lra) ltac:(unfold hi_b; lra) ltac:(unfold hi_d; lra) Pn
         a b _ _ _ _ Hab PD1 HU HdU) x d h d' h' Hx Ed Eh).
    intros t Ht. destruct (Box t ltac:(lra)) as [B1 B2]. split; [exact B1|]. split; [exact B2|].
    destruct (E1 t ltac:(lra)) as [F1 F2]. destruct (E2 t ltac:(lra)) as [F3 F4].
    specialize (O1 t ltac:(lra)). specialize (O2 t ltac:(lra)). unfold sys1_at in F2, F4.
    destruct (Rle_dec (h t) (16/10)) in F2; [lra|]. destruct (Rle_dec (h' t) (16/10)) in F4; [lra|]. auto.
Qed.

(** ** At the shape factor 1.6 *)
Notation one := (fun _ : R => 1).
Notation nil0 := (fun _ : R => 0).
Lemma up_id h : 111/100 <= h -> up h = h.
Proof. intros H. apply Rmax_right, H. Qed.
Lemma kink : sys1 hi_a hi_b hi_c hi_d 1 one nil0 0 1 (16/10) < 6/1000 < sys1 lo_a lo_b lo_c lo_d 1 one nil0 0 1 (16/10).
Proof.
  unfold sys1, sys_h1, sys0. rewrite !up_id by lra.
  unfold hi_a, hi_b, hi_c, hi_d, lo_a, lo_b, lo_c, lo_d, Rpower. split; interval.
Qed.

Lemma no_start_lemma m d h b : m_kind m = Head -> m_nu m = Fin 1 -> slot_kind (m_u m) <> KInt -> 0 < b ->
  (forall x, 0 <= x <= b -> q_u_e m x = Ok 1 /\ q_du_e m x = Ok 0) ->
  d 0 = 1 -> h 0 = 16/10 -> (forall x, 0 <= x <= b -> solves2_at m d h x) -> False.
Proof.
  intros Km Kn Sk Pb Q D0 H0 S. destruct kink as [K1 K2].
  set (lo := sys1 lo_a lo_b lo_c lo_d 1 one nil0) in *. set (hi := sys1 hi_a hi_b hi_c hi_d 1 one nil0) in *.
  assert (S0 := S 0 ltac:(lra)). destruct S0 as [v [w [E [Dd Dh]]]]. rewrite D0, H0 in E.
  destruct (Q 0 ltac:(lra)) as [QU QD].
  rewrite (rhs_sys m 1 one nil0 0 1 (16/10) Km Kn ltac:(lra) Sk QU QD ltac:(lra) ltac:(lra)) in E.
  injection E as Ev Ew. unfold sys1_at in Ew. destruct (Rle_dec (16/10) (16/10)) as [_|N] in Ew; [|lra]. fold lo in Ew.
  rewrite <- Ew in Dh. clear w Ew.
  (* near the start h lies above 1.6 + 0.006 x *)
  assert (Cd : continuous d 0) by (apply (ex_derive_continuous d); eexists; exact Dd).
  assert (Ch : continuous h 0) by (apply (ex_derive_continuous h); eexists; exact Dh).
  assert (Up : exists del : posreal, forall x, 0 < x < del -> 16/10 + 6/1000 * x < h x).
  { apply is_derive_Reals in Dh. destruct (Dh (lo 0 1 (16/10) - 6/1000) ltac:(lra)) as [del Hd].
    exists del. intros x Hx. specialize (Hd x ltac:(lra)). rewrite Rabs_pos_eq in Hd by lra. specialize (Hd ltac:(lra)).
    rewrite Rplus_0_l, H0 in Hd. apply Rabs_lt_between in Hd. destruct Hd as [Hd _].
    assert (T : 6/1000 < (h x - 16/10) / x) by lra.
    apply (Rmult_lt_compat_r x) in T; [|lra]. replace ((h x - 16/10) / x * x) with (h x - 16/10) in T by (field; lra). lra. }
  destruct Up as [del1 Up].
  (* and its slope is below 0.006 *)
  assert (Nh : nice 0 b (1/2) 2 (15/10) (17/10) hi).
  { apply nice_sys1; unfold hi_a, hi_b, hi_c, hi_d; try lra.
    - intros x _. split; [apply continuous_const|lra].
    - intros x _. apply continuous_const. }
  destruct Nh as [(B & L & _ & HL & F) _].
  assert (Pe : 0 < (6/1000 - hi 0 1 (16/10)) / (2 * (L + 1))) by (apply Rdiv_lt_0_compat; lra).
  set (e := (6/1000 - hi 0 1 (16/10)) / (2 * (L + 1))) in *.
  assert (Pm : 0 < Rmin e (1/10)) by (apply Rmin_pos; lra).
  assert (Nd : locally 0 (fun x => Rabs (d x - 1) < Rmin e (1/10))).
  { assert (T := proj1 (filterlim_locally d (d 0)) Cd (mkposreal _ Pm)). rewrite D0 in T. exact T. }
  assert (Ne : locally 0 (fun x => Rabs (h x - 16/10) < Rmin e (1/10))).
  { assert (T := proj1 (filterlim_locally h (h 0)) Ch (mkposreal _ Pm)). rewrite H0 in T. exact T. }
  destruct (filter_and _ _ Nd Ne) as [del2 Near]. clear Nd Ne.
  assert (M1 := Rmin_l e (1/10)). assert (M2 := Rmin_r e (1/10)).
  set (x := Rmin b (Rmin del1 del2) / 2).
  assert (Px : 0 < Rmin b (Rmin del1 del2)) by (repeat apply Rmin_pos; try apply cond_pos; exact Pb).
  assert (Lx1 := Rmin_l b (Rmin del1 del2)). assert (Lx2 := Rmin_r b (Rmin del1 del2)).
  assert (Lx3 := Rmin_l del1 del2). assert (Lx4 := Rmin_r del1 del2).
  assert (Hx : 0 < x /\ x < b /\ x < del1 /\ x < del2) by (unfold x; lra). clearbody x.
  assert (Slope : forall c, 0 < c <= x -> exists w, is_derive h c w /\ w < 6/1000).
  { intros c Hc. assert (Uc := Up c ltac:(lra)).
    assert (Nc : Rabs (d c - 1) < Rmin e (1/10) /\ Rabs (h c - 16/10) < Rmin e (1/10)).
    { apply Near. unfold ball. simpl. unfold AbsRing_ball, abs, minus, plus, opp. simpl. rewrite Rabs_pos_eq; lra. }
    destruct Nc as [Nd Nh]. assert (Rd := Nd). assert (Rh := Nh).
    apply Rabs_lt_between in Rd. apply Rabs_lt_between in Rh.
    destruct (S c ltac:(lra)) as [p [q [E [_ Dc]]]]. destruct (Q c ltac:(lra)) as [QUc QDc].
    rewrite (rhs_sys m 1 one nil0 c (d c) (h c) Km Kn ltac:(lra) Sk QUc QDc ltac:(lra) ltac:(lra)) in E.
    injection E as _ Eq. exists q. split; [exact Dc|]. rewrite <- Eq. unfold sys1_at.
    destruct (Rle_dec (h c) (16/10)) as [N|_]; [lra|]. fold hi. change (hi c (d c) (h c)) with (hi 0 (d c) (h c)).
    destruct (F 0 (d c) (h c) 1 (16/10) ltac:(lra) ltac:(split; lra) ltac:(split; lra)) as [_ G].
    apply Rabs_le_between in G.
    assert (T : L * (Rabs (d c - 1) + Rabs (h c - 16/10)) <= L * (2 * e)) by (apply Rmult_le_compat_l; lra).
    assert (T2 : L * (2 * e) < 6/1000 - hi 0 1 (16/10)).
    { replace (6/1000 - hi 0 1 (16/10)) with ((L + 1) * (2 * e)) by (unfold e; field; lra). lra. }
    lra. }
  destruct (MVT_cor2 h (Derive h) 0 x ltac:(lra)) as [c [Ec Hc]].
  { intros c Hc. apply is_derive_Reals, Derive_correct. destruct (S c ltac:(lra)) as [p [q [_ [_ Dc]]]]. eexists. exact Dc. }
  destruct (Slope c ltac:(lra)) as [w [Dw Lw]]. rewrite (is_derive_unique h c w Dw), H0 in Ec.
  assert (Ux := Up x ltac:(lra)). assert (w * (x - 0) < 6/1000 * x) by (rewrite Rminus_0_r; apply Rmult_lt_compat_r; lra). lra.
Qed.
