(** The nonlinear method against the linear one (C117). *)
From Coq Require Import Reals List Lra Lia QArith Qreals Sorted.
From Coquelicot Require Import Coquelicot.
From Verif Require Import PyBase PyBaseFacts XDeriv PPolyModel PPolyProofs ThwaitesFitsModel
  ThwaitesFitsProofs SplineSpec SplineProofs CoreModel OdeSpec ThwaitesOdeProofs WellPosedProofs FitLipschitzProofs
  WellPosedOdeProofs PolyPos.
Import ListNotations.
Open Scope R_scope.

(* ------------------------------------------------------------------ *)
(** * Comparison of the two equations *)
Section compare.
Variables (m1 m2 : meth) (f : fit) (S H : R -> R) (U dU s1 s2 : R -> R) (a b : R).
Hypothesis K1 : m_kind m1 = ThwaitesLinear.
Hypothesis K2 : m_kind m2 = ThwaitesNonlinear.
Hypothesis Kf : m_fit m2 = Some f.
Hypothesis FI : fit_is f S H.
Hypothesis V : forall x, a <= x <= b ->
  velocity_at m1 U (dU x) x /\ velocity_at m2 U (dU x) x /\ 0 < U x + 1/1000.
Hypothesis H1 : forall x, a <= x <= b -> solves1_at m1 s1 x.
Hypothesis H2 : forall x, a <= x <= b -> solves1_at m2 s2 x.
Hypothesis L : a <= b.
Hypothesis E0 : s1 a = s2 a.
Hypothesis P0 : 0 <= s1 a.

Let W (x : R) := U x + 1/1000.
Let F (x : R) := rhsF S H (s2 x * dU x) + 6 * (s2 x * dU x).

Lemma nonlinear_product_derive x : a <= x <= b -> is_derive (fun t => s2 t * W t ^ 6) x (F x * W x ^ 5).
Proof.
  intros Hx. destruct (V x Hx) as [_ [[LU [DU QD]] Pw]]. destruct (H2 x Hx) as [v [E Ds]].
  assert (QU := locally_singleton _ _ LU).
  rewrite (rhs_nonlinear m2 f S H x (s2 x) (U x) (dU x) K2 Kf FI QU QD) in E by lra. injection E as E.
  assert (Dw : is_derive (fun t => W t ^ 6) x (6 * dU x * W x ^ 5)).
  { unfold W. auto_derive; [exists (dU x); exact DU|].
    replace (Derive (fun x0 : R => U x0) x) with (dU x) by (symmetry; apply is_derive_unique; exact DU).
    cbn. ring. }
  assert (D := mult_derive _ _ _ _ _ Ds Dw).
  replace (F x * W x ^ 5) with (v * W x ^ 6 + s2 x * (6 * dU x * W x ^ 5)); [exact D|].
  rewrite <- E. unfold F, W. field. lra.
Qed.

Lemma compare_start r sg x : a <= x <= b -> 0 <= sg * (r - 1) ->
  (forall t, a <= t <= b -> sg * (F t - r * (45/100)) <= 0) ->
  sg * (s2 x - r * s1 x) <= 0.
Proof.
  intros Hx Pr B.
  assert (M : sg * (s2 x * W x ^ 6) + - (sg * r) * (s1 x * W x ^ 6)
              <= sg * (s2 a * W a ^ 6) + - (sg * r) * (s1 a * W a ^ 6)).
  { apply (decreasing_on (fun t => sg * (s2 t * W t ^ 6) + - (sg * r) * (s1 t * W t ^ 6))
             (fun t => sg * (F t * W t ^ 5) + - (sg * r) * (45/100 * W t ^ 5)) a x); [lra|].
    intros t Ht. assert (Ht' : a <= t <= b) by lra. destruct (V t Ht') as [V1 [_ Pw]]. split.
    - apply @is_derive_plus; apply @is_derive_scal.
      + apply nonlinear_product_derive, Ht'.
      + exact (linear_product_derive m1 U (dU t) s1 t K1 V1 (H1 t Ht') Pw).
    - replace (_ + _) with ((sg * (F t - r * (45/100))) * W t ^ 5) by ring.
      assert (0 <= W t ^ 5) by (apply pow_le; unfold W; lra). specialize (B t Ht'). nra. }
  rewrite <- E0 in M.
  assert (N : sg * (s1 a * W a ^ 6) + - (sg * r) * (s1 a * W a ^ 6) <= 0).
  { replace (_ + _) with (- ((sg * (r - 1)) * (s1 a * W a ^ 6))) by ring.
    assert (0 <= sg * (r - 1) * (s1 a * W a ^ 6)); [|lra].
    apply Rmult_le_pos; [exact Pr|]. apply Rmult_le_pos; [exact P0|].
    apply pow_le. destruct (V a ltac:(lra)) as [_ [_ P]]. unfold W. lra. }
  assert (Px : 0 < W x ^ 6) by (apply pow_lt; apply V, Hx).
  apply (Rmult_le_reg_r (W x ^ 6)); [exact Px|]. rewrite Rmult_0_l.
  replace (sg * (s2 x - r * s1 x) * W x ^ 6)
    with (sg * (s2 x * W x ^ 6) + - (sg * r) * (s1 x * W x ^ 6)) by ring. lra.
Qed.

Lemma linear_nonneg x : a <= x <= b -> 0 <= s1 x.
Proof.
  intros Hx.
  assert (M : - (s1 x * W x ^ 6) <= - (s1 a * W a ^ 6)).
  { apply (decreasing_on (fun t => - (s1 t * W t ^ 6)) (fun t => - (45/100 * W t ^ 5)) a x); [lra|].
    intros t Ht. assert (Ht' : a <= t <= b) by lra. destruct (V t Ht') as [V1 [_ Pw]]. split.
    - apply @is_derive_opp. exact (linear_product_derive m1 U (dU t) s1 t K1 V1 (H1 t Ht') Pw).
    - assert (0 <= W t ^ 5) by (apply pow_le; unfold W; lra). lra. }
  assert (0 <= s1 a * W a ^ 6).
  { apply Rmult_le_pos; [exact P0|]. apply pow_le. destruct (V a ltac:(lra)) as [_ [_ P]]. unfold W. lra. }
  assert (Px : 0 < W x ^ 6) by (apply pow_lt; apply V, Hx).
  apply (Rmult_le_reg_r (W x ^ 6)); [exact Px|]. lra.
Qed.

Lemma compare_lemma lo hi nu g1 g2 x : 0 <= lo <= 45/100 -> 0 <= hi ->
  (forall t, a <= t <= b -> 45/100 - lo <= F t <= 45/100 + hi) ->
  m_nu m1 = Fin nu -> m_nu m2 = Fin nu -> 0 < nu -> m_sol m1 = Some g1 -> m_sol m2 = Some g2 ->
  a <= x <= b -> g1 x = [Fin (s1 x)] -> g2 x = [Fin (s2 x)] ->
  exists d1 d2, q_delta_m m1 x = Ok (Fin d1) /\ q_delta_m m2 x = Ok (Fin d2) /\
    0 <= d1 /\ sqrt (1 - lo / (45/100)) * d1 <= d2 <= sqrt (1 + hi / (45/100)) * d1.
Proof.
  intros Hlo Hhi B N1 N2 Pn G1 G2 Hx X1 X2.
  assert (P1 := linear_nonneg x Hx).
  assert (Up : s2 x <= (1 + hi / (45/100)) * s1 x).
  { assert (Q := compare_start (1 + hi / (45/100)) 1 x Hx). assert (1 * (s2 x - (1 + hi / (45/100)) * s1 x) <= 0); [|lra].
    apply Q; [lra|]. intros t Ht. specialize (B t Ht). lra. }
  assert (Dn : (1 - lo / (45/100)) * s1 x <= s2 x).
  { assert (Q := compare_start (1 - lo / (45/100)) (-1) x Hx). assert (-1 * (s2 x - (1 - lo / (45/100)) * s1 x) <= 0); [|lra].
    apply Q; [lra|]. intros t Ht. specialize (B t Ht). lra. }
  assert (R1 : 0 <= 1 - lo / (45/100)) by lra. assert (R2 : 0 <= 1 + hi / (45/100)) by lra.
  assert (P2 : 0 <= s2 x) by (eapply Rle_trans; [|exact Dn]; apply Rmult_le_pos; lra).
  assert (PN1 : 0 <= s1 x * nu) by (apply Rmult_le_pos; lra).
  assert (PN2 : 0 <= s2 x * nu) by (apply Rmult_le_pos; lra).
  exists (sqrt (s1 x * nu)), (sqrt (s2 x * nu)).
  split; [|split; [|split; [apply sqrt_pos|]]].
  - unfold q_delta_m, sol_at. rewrite K1, G1. cbn [bind]. rewrite X1. cbn [comp nth_error bind].
    rewrite N1, xmul_fin, xsqrt_fin by assumption. reflexivity.
  - unfold q_delta_m, sol_at. rewrite K2, G2. cbn [bind]. rewrite X2. cbn [comp nth_error bind].
    rewrite N2, xmul_fin, xsqrt_fin by assumption. reflexivity.
  - split.
    + rewrite <- sqrt_mult by assumption. apply sqrt_le_1_alt.
      rewrite <- Rmult_assoc. apply Rmult_le_compat_r; lra.
    + rewrite <- sqrt_mult by assumption. apply sqrt_le_1_alt.
      rewrite <- Rmult_assoc. apply Rmult_le_compat_r; lra.
Qed.
End compare.

(* ------------------------------------------------------------------ *)
(** * The default fit: 2(S - l(H + 2)) + 6l on the pieces of the two splines *)
Fixpoint aggQ (M sg : Q) (xs ys ss zs rs : list Q) : bool :=
  match xs, ys, ss, zs, rs with
  | x0 :: xs', y0 :: ys', s0 :: ss', z0 :: zs', r0 :: rs' =>
      match xs', ys', ss', zs', rs' with
      | x1 :: _, y1 :: _, s1 :: _, z1 :: _, r1 :: _ =>
          let h := (x1 - x0)%Q in
          let A1 := (3 * y0 + s0 * h)%Q in let A2 := (3 * y1 - s1 * h)%Q in
          let B0 := (1 - z0)%Q in let B1 := (3 - 3 * z0 - r0 * h)%Q in
          let B2 := (3 - 3 * z1 + r1 * h)%Q in let B3 := (1 - z1)%Q in
          Qpos (M + sg * (2 * (y0 + x0 * B0))) &&
          Qpos (4 * M + sg * (2 * (y0 + A1 + x1 * B0 + x0 * B1))) &&
          Qpos (6 * M + sg * (2 * (A1 + A2 + x1 * B1 + x0 * B2))) &&
          Qpos (4 * M + sg * (2 * (A2 + y1 + x1 * B2 + x0 * B3))) &&
          Qpos (M + sg * (2 * (y1 + x1 * B3))) && aggQ M sg xs' ys' ss' zs' rs'
      | _, _, _, _, _ => true
      end
  | _, _, _, _, _ => true
  end.

Lemma piece_agg M sg x0 h y0 y1 s0 s1 z0 z1 r0 r1 t : 0 < h -> 0 <= t <= h ->
  let A1 := 3 * y0 + s0 * h in let A2 := 3 * y1 - s1 * h in
  let B0 := 1 - z0 in let B1 := 3 - 3 * z0 - r0 * h in
  let B2 := 3 - 3 * z1 + r1 * h in let B3 := 1 - z1 in
  0 < M + sg * (2 * (y0 + x0 * B0)) ->
  0 < 4 * M + sg * (2 * (y0 + A1 + (x0 + h) * B0 + x0 * B1)) ->
  0 < 6 * M + sg * (2 * (A1 + A2 + (x0 + h) * B1 + x0 * B2)) ->
  0 < 4 * M + sg * (2 * (A2 + y1 + (x0 + h) * B2 + x0 * B3)) ->
  0 < M + sg * (2 * (y1 + (x0 + h) * B3)) ->
  0 < M + sg * (2 * horner [(s0 + s1 - 2 * ((y1 - y0) / h)) / (h * h);
                       (3 * ((y1 - y0) / h) - 2 * s0 - s1) / h; s0; y0] t
      + 2 * (x0 + t) * (1 - horner [(r0 + r1 - 2 * ((z1 - z0) / h)) / (h * h);
                       (3 * ((z1 - z0) / h) - 2 * r0 - r1) / h; r0; z0] t)).
Proof.
  intros Hh Ht A1 A2 B0 B1 B2 B3 C0 C1 C2 C3 C4. rewrite !horner4.
  set (u := t / h). assert (Hu : 0 <= u <= 1).
  { unfold u. split; [apply Rdiv_le_0_compat; lra|]. apply (Rmult_le_reg_r h); [lra|].
    unfold Rdiv. rewrite Rmult_assoc, Rinv_l by lra. lra. }
  replace t with (u * h) by (unfold u; field; lra).
  set (c0 := M + sg * (2 * (y0 + x0 * B0))) in *.
  set (c1 := 4 * M + sg * (2 * (y0 + A1 + (x0 + h) * B0 + x0 * B1))) in *.
  set (c2 := 6 * M + sg * (2 * (A1 + A2 + (x0 + h) * B1 + x0 * B2))) in *.
  set (c3 := 4 * M + sg * (2 * (A2 + y1 + (x0 + h) * B2 + x0 * B3))) in *.
  set (c4 := M + sg * (2 * (y1 + (x0 + h) * B3))) in *.
  match goal with |- 0 < ?e => replace e with
    (c0 * (1 - u) ^ 4 + c1 * (u * (1 - u) ^ 3) + c2 * (u ^ 2 * (1 - u) ^ 2) + c3 * (u ^ 3 * (1 - u)) + c4 * u ^ 4)
    by (unfold c0, c1, c2, c3, c4, A1, A2, B0, B1, B2, B3; field; lra) end.
  clearbody c0 c1 c2 c3 c4.
  assert (Q1 : 0 <= c1 * (u * (1 - u) ^ 3)).
  { apply Rmult_le_pos; [lra|]. apply Rmult_le_pos; [lra|]. apply pow_le. lra. }
  assert (Q2 : 0 <= c2 * (u ^ 2 * (1 - u) ^ 2)).
  { apply Rmult_le_pos; [lra|]. apply Rmult_le_pos; apply pow_le; lra. }
  assert (Q3 : 0 <= c3 * (u ^ 3 * (1 - u))).
  { apply Rmult_le_pos; [lra|]. apply Rmult_le_pos; [apply pow_le; lra|lra]. }
  destruct (Rle_lt_dec u (1/2)).
  - assert (0 < c0 * (1 - u) ^ 4) by (apply Rmult_lt_0_compat; [lra|apply pow_lt; lra]).
    assert (0 <= c4 * u ^ 4) by (apply Rmult_le_pos; [lra|apply pow_le; lra]). lra.
  - assert (0 <= c0 * (1 - u) ^ 4) by (apply Rmult_le_pos; [lra|apply pow_le; lra]).
    assert (0 < c4 * u ^ 4) by (apply Rmult_lt_0_compat; [lra|apply pow_lt; lra]). lra.
Qed.

Lemma Q2R_4' : Q2R 4 = 4. Proof. unfold Q2R. cbn. lra. Qed.
Lemma Q2R_6' : Q2R 6 = 6. Proof. unfold Q2R. cbn. lra. Qed.
Ltac q2r H := repeat (rewrite Q2R_plus in H || rewrite Q2R_minus in H || rewrite Q2R_mult in H);
  rewrite ?Q2R_2, ?Q2R_3, ?Q2R_1', ?Q2R_4', ?Q2R_6' in H.
Lemma herm_agg M sg cs : forall ds xq yq sq zq rq,
  herm (map Q2R xq) (map Q2R yq) (map Q2R sq) cs -> herm (map Q2R xq) (map Q2R zq) (map Q2R rq) ds ->
  aggQ M sg xq yq sq zq rq = true -> cs <> [] -> ds <> [] ->
  forall x, hd 0 (map Q2R xq) <= x <= last (map Q2R xq) 0 ->
  0 < Q2R M + Q2R sg * (2 * pp_eval_aux (map Q2R xq) cs x + 2 * x * (1 - pp_eval_aux (map Q2R xq) ds x)).
Proof.
  induction cs as [|c cs IH]; intros ds xq yq sq zq rq Hc Hd N Nc Nd x Hx; [congruence|].
  destruct ds as [|d ds]; [congruence|].
  destruct xq as [|x0 [|x1 xt]]; try contradiction.
  destruct yq as [|y0 [|y1 yt]]; try contradiction.
  destruct sq as [|s0 [|s1 st]]; try contradiction.
  destruct zq as [|z0 [|z1 zt]]; try contradiction.
  destruct rq as [|r0 [|r1 rt]]; try contradiction.
  cbn [map herm] in Hc, Hd. destruct Hc as [Hh [Ec Hc]]. destruct Hd as [_ [Ed Hd]].
  cbn [aggQ] in N. cbv zeta in N.
  apply andb_prop in N. destruct N as [N N']. apply andb_prop in N. destruct N as [N N4].
  apply andb_prop in N. destruct N as [N N3]. apply andb_prop in N. destruct N as [N N2].
  apply andb_prop in N. destruct N as [N0 N1].
  apply Qpos_R in N0, N1, N2, N3, N4.
  q2r N0. q2r N1. q2r N2. q2r N3. q2r N4.
  assert (Hpiece : Q2R x0 <= x <= Q2R x1 ->
    0 < Q2R M + Q2R sg * (2 * horner c (x - Q2R x0) + 2 * x * (1 - horner d (x - Q2R x0)))).
  { intros Hx'. subst c d. set (h := Q2R x1 - Q2R x0) in *.
    replace (2 * x) with (2 * (Q2R x0 + (x - Q2R x0))) by ring.
    assert (Eh : Q2R x0 + h = Q2R x1) by (unfold h; ring).
    apply piece_agg; rewrite ?Eh; unfold h in *; lra. }
  cbn [map hd] in Hx. destruct cs as [|c' cs]; destruct ds as [|d' ds].
  - destruct xt; [|destruct yt; destruct st; contradiction]. cbn [map last] in Hx.
    cbn [map pp_eval_aux]. apply Hpiece. exact Hx.
  - exfalso. destruct xt; [|destruct yt; destruct st; contradiction]. destruct zt, rt; cbn in Hd; contradiction.
  - exfalso. destruct xt; [|destruct zt; destruct rt; contradiction]. destruct yt, st; cbn in Hc; contradiction.
  - cbn [map pp_eval_aux]. destruct (Rlt_dec x (Q2R x1)).
    + apply Hpiece. lra.
    + apply (IH (d' :: ds) (x1 :: xt) (y1 :: yt) (s1 :: st) (z1 :: zt) (r1 :: rt) Hc Hd N'); [discriminate|discriminate|].
      cbn [map hd]. destruct xt as [|x2 xt].
      * destruct yt, st; cbn in Hc; contradiction.
      * cbn [map last] in Hx. cbn [map last]. lra.
Qed.

Lemma table_agg_up : aggQ (502/1000) (-1) lamQ shearQ (slopesQ lamQ shearQ) shapeQ (slopesQ lamQ shapeQ) = true.
Proof. vm_compute. reflexivity. Qed.
Lemma table_agg_lo : aggQ (- (438/1000)) 1 lamQ shearQ (slopesQ lamQ shearQ) shapeQ (slopesQ lamQ shapeQ) = true.
Proof. vm_compute. reflexivity. Qed.

Lemma default_agg cs : cubic_spline_ok cs -> exists S H, fit_is (fit_spline cs) S H /\
  forall l, -9/100 <= l <= 25/100 -> 45/100 - 12/1000 <= rhsF S H l + 6 * l <= 45/100 + 52/1000.
Proof.
  intros OK. destruct OK as [[p [Np [Ep _]]] [q [Nq [Eq Eq']]]].
  exists (fun l => pp_eval p (clip (-9/100) (25/100) l)), (fun l => pp_eval q (clip (-9/100) (25/100) l)).
  split.
  { intros l. assert (R0 : check_range (Fin (-90/1000)) (Fin (250/1000)) (Fin l)
                         = Fin (clip (-9/100) (25/100) l)).
    { unfold clip. destruct (Rle_lt_dec l (-9/100)).
      - rewrite check_range_low by (try (cbn [xltb]; apply Rltb_false); lra). f_equal.
        rewrite Rmax_left, Rmin_right by lra. lra.
      - destruct (Rle_lt_dec (25/100) l).
        + rewrite check_range_high by lra. f_equal. rewrite Rmax_right, Rmin_left by lra. lra.
        + rewrite check_range_inside by lra. f_equal. rewrite Rmax_right, Rmin_right by lra. lra. }
    unfold shear, shape. cbn [fit_shear fit_shape fit_spline fit_lo fit_hi]. rewrite R0. split; [apply Ep|apply Eq]. }
  intros l Hl. unfold rhsF. rewrite clip_id by exact Hl.
  assert (HS : StronglySorted Rlt (map Q2R lamQ)) by (rewrite lamQ_eq; exact tab_lambda_sorted).
  rewrite <- lamQ_eq, <- shearQ_eq in Np. rewrite <- lamQ_eq, <- shapeQ_eq in Nq.
  destruct (notaknot_slopes lamQ shearQ p HS ltac:(cbn; lia) eq_refl Np shear_pivots) as [HH1 [_ W1]].
  destruct (notaknot_slopes lamQ shapeQ q HS ltac:(cbn; lia) eq_refl Nq shape_pivots) as [HH2 [_ W2]].
  unfold pp_wf in W1, W2. rewrite (nk_x _ _ _ Np) in W1. rewrite (nk_x _ _ _ Nq) in W2.
  assert (Nc : pp_c p <> []) by (intros E; rewrite E in W1; destruct (map Q2R lamQ); contradiction).
  assert (Nd : pp_c q <> []) by (intros E; rewrite E in W2; destruct (map Q2R lamQ); contradiction).
  assert (A := herm_agg (502/1000) (-1) _ _ _ _ _ _ _ HH1 HH2 table_agg_up Nc Nd l).
  assert (B := herm_agg (- (438/1000)) 1 _ _ _ _ _ _ _ HH1 HH2 table_agg_lo Nc Nd l).
  rewrite lamQ_eq, tab_first, tab_last in A, B. specialize (A Hl). specialize (B Hl).
  unfold pp_eval. rewrite (nk_x _ _ _ Np), (nk_x _ _ _ Nq), lamQ_eq.
  replace (Q2R (502/1000)) with (502/1000) in A by (unfold Q2R; cbn; lra).
  replace (Q2R (-1)) with (-1) in A by (unfold Q2R; cbn; lra).
  replace (Q2R (- (438/1000))) with (- (438/1000)) in B by (unfold Q2R; cbn; lra).
  replace (Q2R 1) with 1 in B by (unfold Q2R; cbn; lra).
  split; lra.
Qed.

(* ------------------------------------------------------------------ *)
(** * The other three fits, for l in [-0.09, 0.1] *)
Ltac pcompute P := cbn [peval] in P; unfold Q2R in P; cbn [Qnum Qden] in P.
Definition cX : list Q := [0; 1]%Q.
Definition pK (q : Q) : list Q := [q].
Lemma peval_X x : peval cX x = x.
Proof. cbn [peval cX]. rewrite Q2R_0', Q2R_1'. ring. Qed.
Lemma peval_K q x : peval (pK q) x = Q2R q.
Proof. cbn [peval pK]. ring. Qed.
Definition psub (p q : list Q) : list Q := padd p (pscale (-1) q).
Lemma peval_sub p q x : peval (psub p q) x = peval p x - peval q x.
Proof. unfold psub. rewrite peval_add, peval_scale. replace (Q2R (-1)) with (-1) by (unfold Q2R; cbn; lra). ring. Qed.
Ltac peval_in P := repeat (rewrite peval_sub in P || rewrite peval_add in P || rewrite peval_mul in P
  || rewrite peval_scale in P || rewrite peval_pow in P); rewrite ?peval_X, ?peval_K in P.
Lemma Q2R_frac n d : Q2R (n # d) = IZR n / IZR (Zpos d).
Proof. reflexivity. Qed.


(** Cebeci and Bradshaw: multiply by (0.107 + l)(0.14 + l) for l < 0. *)
Definition cb_neg_num : list Q :=
  let p107 := padd (pK (107#1000)) cX in let p14 := padd (pK (14#100)) cX in
  let S := padd (pmul (padd (pK (22#100)) (pscale (1402#1000) cX)) p107) (pscale (18#1000) cX) in
  let H := padd (pscale (2088#1000) p14) (pK (731#10000)) in
  padd (pscale 2 (pmul S p14)) (pscale 2 (pmul cX (pmul p107 (psub p14 H)))).
Definition cb_den : list Q := pmul (padd (pK (107#1000)) cX) (padd (pK (14#100)) cX).
Definition cb_pos_poly : list Q :=
  let S := padd (pK (22#100)) (psub (pscale (157#100) cX) (pscale (18#10) (pmul cX cX))) in
  let H := padd (psub (pK (261#100)) (pscale (375#100) cX)) (pscale (524#100) (pmul cX cX)) in
  padd (pscale 2 S) (pscale 2 (pmul cX (psub (pK 1) H))).
Definition loP : list Q := pK (4375#10000).
Definition hiP : list Q := pK (486#1000).

Lemma cb_neg_lo : pos_on 6 (psub cb_neg_num (pmul loP cb_den)) (-9#100) 0 = true.
Proof. vm_compute. reflexivity. Qed.
Lemma cb_neg_hi : pos_on 6 (psub (pmul hiP cb_den) cb_neg_num) (-9#100) 0 = true.
Proof. vm_compute. reflexivity. Qed.
Lemma cb_pos_lo : pos_on 6 (psub cb_pos_poly loP) 0 (1#10) = true.
Proof. vm_compute. reflexivity. Qed.
Lemma cb_pos_hi : pos_on 6 (psub hiP cb_pos_poly) 0 (1#10) = true.
Proof. vm_compute. reflexivity. Qed.

Definition drela_num : list Q :=
  let d := ppow (padd (pK (18#100)) cX) 2 in let x2 := pmul cX cX in let x3 := pmul x2 cX in
  let S := psub (pmul (psub (padd (pK (220#1000)) (pscale (152#100) cX)) (pscale 5 x3)) d) (pscale (72#1000) x2) in
  let H := padd (pmul (padd (psub (pK (261#100)) (pscale (41#10) cX)) (pscale 14 x3)) d) (pscale (56#100) x2) in
  padd (pscale 2 S) (pscale 2 (pmul cX (psub d H))).
Definition drela_den : list Q := ppow (padd (pK (18#100)) cX) 2.
Lemma drela_lo : pos_on 6 (psub drela_num (pmul loP drela_den)) (-9#100) (1#10) = true.
Proof. vm_compute. reflexivity. Qed.
Lemma drela_hi : pos_on 6 (psub (pmul hiP drela_den) drela_num) (-9#100) (1#10) = true.
Proof. vm_compute. reflexivity. Qed.

(** White, in z = l + 0.09: 2 l (1 - H) with the power added below. *)
Definition white_poly : list Q :=
  let l := psub cX (pK (9#100)) in let w := psub (pK (34#100)) cX in
  let H := padd (pK 2) (pmul w (padd (pK (414#100)) (pmul w (padd (pK (-835#10)) (pmul w (padd (pK 854)
            (pmul w (padd (pK (-3337)) (pscale 4576 w))))))))) in
  pscale 2 (pmul l (psub (pK 1) H)).
Definition white_pieces : list (Q * Q * Q * Q * Q) :=
  [(0, 9#1000, 585#100000, 4128#100000, 4127#100000);
   (9#1000, 33#1000, 1380#100000, 7027#100000, 7026#100000);
   (33#1000, 113#1000, 7700#100000, 20400#100000, 20399#100000);
   (113#1000, 190#1000, 11878#100000, 26690#100000, 26689#100000)]%Q.
Fixpoint Qpown (q : Q) (n : nat) : Q := match n with O => 1%Q | S k => (q * Qpown q k)%Q end.
Definition white_piece_ok (p : Q * Q * Q * Q * Q) : bool :=
  match p with (z0, z1, zm, qu, ql) =>
    Qpos zm && Qpos ql && Qpos qu && Qpos (Qpown qu 50 - Qpown zm 31) && Qpos (Qpown zm 31 - Qpown ql 50) &&
    (let t := pscale (/ zm) cX in
     pos_on 6 (psub (psub hiP white_poly) (pscale (2 * qu) (padd (pK (38#100)) (pscale (62#100) t)))) z0 z1 &&
     pos_on 6 (padd (pmul (psub white_poly loP) (padd (pK (62#100)) (pscale (38#100) t))) (pscale (2 * ql) t)) z0 z1)
  end.
Lemma white_pieces_ok : forallb white_piece_ok white_pieces = true.
Proof. vm_compute. reflexivity. Qed.

Definition near (F : R -> R) : Prop :=
  forall l, -9/100 <= l <= 1/10 -> 45/100 - 125/10000 <= F l + 6 * l <= 45/100 + 36/1000.

Ltac q2r_goal := rewrite ?Q2R_plus, ?Q2R_minus, ?Q2R_mult, ?Q2R_opp; unfold Q2R; cbn [Qnum Qden].
Ltac q2r_hyp H := unfold Q2R in H; cbn [Qnum Qden] in H.

Lemma cb_agg : near (rhsF (fun l => cbS (clip (-1/10) (1/10) l)) (fun l => cbH (clip (-1/10) (1/10) l))).
Proof.
  intros l Hl. unfold rhsF. rewrite clip_id by lra. unfold cbS, cbH. destruct (Rlt_dec l 0) as [N|N].
  - assert (A := pos_on_correct _ _ _ _ cb_neg_lo l). assert (B := pos_on_correct _ _ _ _ cb_neg_hi l).
    assert (I : Q2R (-9#100) <= l <= Q2R 0) by (q2r_goal; lra). specialize (A I). specialize (B I).
    unfold cb_neg_num, loP, hiP, cb_den in A, B. cbv zeta in A, B. peval_in A. peval_in B. q2r_hyp A. q2r_hyp B.
    unfold cbS_neg, cbH_neg. set (d := (107/1000 + l) * (14/100 + l)).
    assert (Pd : 0 < d) by (unfold d; apply Rmult_lt_0_compat; lra).
    split; (apply (Rmult_le_reg_r d); [exact Pd|]).
    + match goal with |- _ <= ?e => replace e with
        (2 * ((22/100 + 1402/1000*l) * (107/1000 + l) + 18/1000*l) * (14/100 + l)
         + 2 * l * (107/1000 + l) * ((14/100 + l) - (2088/1000*(14/100 + l) + 731/10000)))
        by (unfold d; field; split; lra) end. unfold d. lra.
    + match goal with |- ?e <= _ => replace e with
        (2 * ((22/100 + 1402/1000*l) * (107/1000 + l) + 18/1000*l) * (14/100 + l)
         + 2 * l * (107/1000 + l) * ((14/100 + l) - (2088/1000*(14/100 + l) + 731/10000)))
        by (unfold d; field; split; lra) end. unfold d. lra.
  - assert (A := pos_on_correct _ _ _ _ cb_pos_lo l). assert (B := pos_on_correct _ _ _ _ cb_pos_hi l).
    assert (I : Q2R 0 <= l <= Q2R (1#10)) by (q2r_goal; lra). specialize (A I). specialize (B I).
    unfold cb_pos_poly, loP, hiP in A, B. cbv zeta in A, B. peval_in A. peval_in B. q2r_hyp A. q2r_hyp B.
    unfold cbS_pos, cbH_pos. split; lra.
Qed.

Lemma drela_agg : near (rhsF (fun l => drelaS (Rmax (-9/100) l)) (fun l => drelaH (Rmax (-9/100) l))).
Proof.
  intros l Hl. unfold rhsF. rewrite Rmax_right by lra.
  assert (A := pos_on_correct _ _ _ _ drela_lo l). assert (B := pos_on_correct _ _ _ _ drela_hi l).
  assert (I : Q2R (-9#100) <= l <= Q2R (1#10)) by (q2r_goal; lra). specialize (A I). specialize (B I).
  unfold drela_num, loP, hiP, drela_den in A, B. cbv zeta in A, B. peval_in A. peval_in B. q2r_hyp A. q2r_hyp B.
  unfold drelaS, drelaH. set (d := (l + 18/100) * (l + 18/100)).
  assert (Pd : 0 < d) by (unfold d; apply Rmult_lt_0_compat; lra).
  assert (E : (2 * (220 / 1000 + 152 / 100 * l - 5 * (l * l * l) - 72 / 1000 * (l * l) / d
      - l * (261 / 100 - 41 / 10 * l + 14 * (l * l * l) + 56 / 100 * (l * l) / d + 2)) + 6 * l) * d
    = 2 * ((220/1000 + 152/100*l - 5*(l*l*l)) * d - 72/1000*(l*l))
      + 2 * l * (d - ((261/100 - 41/10*l + 14*(l*l*l)) * d + 56/100*(l*l)))) by (field; lra).
  split; (apply (Rmult_le_reg_r d); [exact Pd|]); rewrite E; clear E; unfold d; lra.
Qed.

(** ** White *)
Lemma exp_above x : 1 + x <= exp x.
Proof. destruct (Req_dec x 0) as [->|N]; [rewrite exp_0; lra|left; apply exp_ineq1; exact N]. Qed.
Lemma power_above e t : 0 <= e <= 1 -> 0 < t -> Rpower t e <= 1 - e + e * t.
Proof.
  intros He Ht. unfold Rpower. set (u := ln t). replace t with (exp u) by (apply exp_ln; exact Ht).
  assert (A := exp_above (u - e * u)). assert (B := exp_above (- (e * u))).
  assert (P := exp_pos (e * u)).
  assert (A' : exp (e * u) * (1 + (u - e * u)) <= exp u).
  { replace (exp u) with (exp (e * u) * exp (u - e * u)) by (rewrite <- exp_plus; f_equal; ring).
    apply Rmult_le_compat_l; lra. }
  assert (B' : exp (e * u) * (1 + - (e * u)) <= 1).
  { replace 1 with (exp (e * u) * exp (- (e * u))) at 2 by (rewrite <- exp_plus, Rplus_opp_r; apply exp_0).
    apply Rmult_le_compat_l; lra. }
  assert (e * (exp (e * u) * (1 + (u - e * u))) <= e * exp u) by (apply Rmult_le_compat_l; lra).
  assert ((1 - e) * (exp (e * u) * (1 + - (e * u))) <= (1 - e) * 1) by (apply Rmult_le_compat_l; lra).
  lra.
Qed.
Lemma power_below t : 0 < t -> t <= Rpower t (62/100) * (62/100 + 38/100 * t).
Proof.
  intros Ht. assert (A := power_above (38/100) t ltac:(lra) Ht).
  replace t with (Rpower t (62/100) * Rpower t (38/100)) at 1.
  - apply Rmult_le_compat_l; [left; apply exp_pos|]. lra.
  - rewrite <- Rpower_plus. replace (62/100 + 38/100) with 1 by lra. apply Rpower_1. exact Ht.
Qed.

Lemma pow_reg x y n : 0 <= x -> 0 <= y -> x ^ S n <= y ^ S n -> x <= y.
Proof.
  intros Hx Hy H. apply Rnot_lt_le. intros C. apply (Rle_not_lt _ _ H). clear H.
  induction n as [|n IH]; [cbn; lra|].
  change (y * y ^ S n < x * x ^ S n).
  assert (0 <= y ^ S n) by (apply pow_le; lra). assert (0 <= x ^ S n) by (apply pow_le; lra). nra.
Qed.
Lemma Qpown_R q n : Q2R (Qpown q n) = Q2R q ^ n.
Proof. induction n; cbn [Qpown pow]; [apply Q2R_1'|]. rewrite Q2R_mult, IHn. reflexivity. Qed.
Lemma power_62 z : 0 < z -> Rpower z (62/100) ^ 50 = z ^ 31.
Proof.
  intros Hz. rewrite <- Rpower_pow by apply exp_pos. rewrite Rpower_mult, <- Rpower_pow by exact Hz.
  f_equal. cbn [INR]. lra.
Qed.

Lemma white_piece z0 z1 zm qu ql : white_piece_ok (z0, z1, zm, qu, ql) = true ->
  forall z, Q2R z0 <= z <= Q2R z1 -> 0 < z -> 
  45/100 - 125/10000 <= 2 * Rpower z (62/100) + peval white_poly z <= 45/100 + 36/1000.
Proof.
  intros H z Hz Pz. unfold white_piece_ok in H. cbv zeta in H.
  apply andb_prop in H. destruct H as [H K]. apply andb_prop in K. destruct K as [Ku Kl].
  apply andb_prop in H. destruct H as [H Hl]. apply andb_prop in H. destruct H as [H Hu].
  apply andb_prop in H. destruct H as [H Hw]. apply andb_prop in H. destruct H as [Hm Hq].
  apply Qpos_R in Hm, Hq, Hw, Hu, Hl. rewrite Q2R_minus, !Qpown_R in Hu, Hl.
  assert (Ku' := pos_on_correct _ _ _ _ Ku z Hz). assert (Kl' := pos_on_correct _ _ _ _ Kl z Hz).
  clear Ku Kl. remember white_poly as wp eqn:Ew in Ku', Kl' |- *. clear Ew. unfold loP, hiP in Ku', Kl'. peval_in Ku'. peval_in Kl'.
  rewrite Q2R_inv in Ku', Kl' by (apply Q2R_pos_ne; exact Hm).
  rewrite Q2R_mult, Q2R_2 in Ku', Kl'. rewrite !Q2R_frac in Ku', Kl'.
  set (m := Q2R zm) in *. set (u := Q2R qu) in *. set (v := Q2R ql) in *. set (G := peval wp z) in *.
  set (P := Rpower m (62/100)) in *. assert (PP : 0 < P) by apply exp_pos.
  assert (Up : P <= u) by (apply (pow_reg P u 49); [lra|lra|]; unfold P; rewrite power_62 by exact Hm; lra).
  assert (Dn : v <= P) by (apply (pow_reg v P 49); [lra|lra|]; unfold P; rewrite power_62 by exact Hm; lra).
  assert (Ez : Rpower z (62/100) = P * Rpower (z * / m) (62/100)).
  { unfold P. rewrite Rpower_mult_distr; [|exact Hm|apply Rmult_lt_0_compat; [exact Pz|apply Rinv_0_lt_compat; exact Hm]].
    f_equal. field. lra. }
  rewrite (Rmult_comm (/ m) z) in Ku', Kl'.
  set (t := z * / m) in *. assert (Pt : 0 < t) by (apply Rmult_lt_0_compat; [exact Pz|apply Rinv_0_lt_compat; exact Hm]).
  assert (A := power_above (62/100) t ltac:(lra) Pt). assert (B := power_below t Pt).
  rewrite Ez. set (T := Rpower t (62/100)) in *. assert (PT : 0 < T) by apply exp_pos.
  clearbody T t P G m u v. clear Ez.
  assert (P * T <= u * (1 - 62/100 + 62/100 * t)).
  { apply Rmult_le_compat; lra. }
  split; [|lra].
  assert (v * t <= P * T * (62/100 + 38/100 * t)).
  { rewrite Rmult_assoc. apply Rmult_le_compat; lra. }
  apply Rnot_lt_le. intros C.
  assert ((2 * (P * T) + G - 4375/10000) * (62/100 + 38/100 * t) < 0); [|lra].
  apply Ropp_lt_cancel. rewrite Ropp_0, Ropp_mult_distr_l. apply Rmult_lt_0_compat; lra.
Qed.

Lemma white_zero : 45/100 - 125/10000 <= peval white_poly 0 <= 45/100 + 36/1000.
Proof.
  assert (A : pos_here (psub white_poly loP) 0 0 && pos_here (psub hiP white_poly) 0 0 = true) by (vm_compute; reflexivity).
  apply andb_prop in A. destruct A as [A B]. unfold pos_here in A, B.
  apply andb_prop in A, B. destruct A as [_ A], B as [_ B]. apply Qpos_R in A, B. rewrite pevalQ_R in A, B.
  rewrite Q2R_0' in A, B. rewrite peval_sub in A, B. unfold loP, hiP in A, B. rewrite peval_K in A, B.
  rewrite Q2R_frac in A, B. lra.
Qed.

Lemma white_agg : near (rhsF whiteS (fun l => whiteH (Rmax (-9/100) l))).
Proof.
  intros l Hl. unfold rhsF. rewrite Rmax_right by lra.
  assert (E : forall z, l = z - 9/100 -> 2 * (whiteS l - l * (whiteH l + 2)) + 6 * l = 2 * whiteS l + peval white_poly z).
  { intros z ->. unfold white_poly. cbv zeta.
    repeat (rewrite peval_sub || rewrite peval_add || rewrite peval_mul || rewrite peval_scale || rewrite peval_K || rewrite peval_X).
    unfold Q2R. cbn [Qnum Qden]. unfold whiteH. field. }
  rewrite (E (l + 9/100)) by ring. unfold whiteS. destruct (Rle_dec l (-9/100)) as [N|N].
  - replace (l + 9/100) with 0 by lra. rewrite Rmult_0_r, Rplus_0_l. exact white_zero.
  - set (z := l + 9/100). assert (Hz : 0 < z <= 19/100) by (unfold z; lra). clearbody z.
    assert (K := proj1 (forallb_forall white_piece_ok white_pieces) white_pieces_ok).
    destruct (Rle_lt_dec z (9/1000)); [|destruct (Rle_lt_dec z (33/1000)); [|destruct (Rle_lt_dec z (113/1000))]].
    + eapply white_piece; [apply K; left; reflexivity| |]; [q2r_goal; lra|lra].
    + eapply white_piece; [apply K; right; left; reflexivity| |]; [q2r_goal; lra|lra].
    + eapply white_piece; [apply K; right; right; left; reflexivity| |]; [q2r_goal; lra|lra].
    + eapply white_piece; [apply K; right; right; right; left; reflexivity| |]; [q2r_goal; lra|lra].
Qed.

(* ------------------------------------------------------------------ *)
(** * C117 *)
Lemma sqrt_above r q : 0 <= q -> q ^ 2 <= r -> q <= sqrt r.
Proof. intros Hq H. rewrite <- (sqrt_pow2 q Hq). apply sqrt_le_1_alt. exact H. Qed.
Lemma sqrt_below r q : 0 <= q -> r <= q ^ 2 -> sqrt r <= q.
Proof. intros Hq H. rewrite <- (sqrt_pow2 q Hq). apply sqrt_le_1_alt. exact H. Qed.

Lemma agree_default_lemma m1 m2 cs nu g1 g2 U dU s1 s2 a b :
  m_kind m1 = ThwaitesLinear -> m_kind m2 = ThwaitesNonlinear ->
  cubic_spline_ok cs -> m_fit m2 = Some (fit_spline cs) ->
  m_nu m1 = Fin nu -> m_nu m2 = Fin nu -> 0 < nu -> a <= b ->
  (forall x, a <= x <= b ->
     velocity_at m1 U (dU x) x /\ velocity_at m2 U (dU x) x /\ 0 < U x + 1/1000) ->
  (forall x, a <= x <= b -> solves1_at m1 s1 x /\ solves1_at m2 s2 x) ->
  s1 a = s2 a -> 0 <= s1 a ->
  (forall x, a <= x <= b -> -9/100 <= s2 x * dU x <= 25/100) ->
  m_sol m1 = Some g1 -> m_sol m2 = Some g2 ->
  (forall x, a <= x <= b -> g1 x = [Fin (s1 x)] /\ g2 x = [Fin (s2 x)]) ->
  forall x, a <= x <= b -> exists d1 d2,
    q_delta_m m1 x = Ok (Fin d1) /\ q_delta_m m2 x = Ok (Fin d2) /\
    986/1000 * d1 <= d2 <= 1057/1000 * d1.
Proof.
  intros K1 K2 OK Kf N1 N2 Pn L V Hs E0 P0 Hl G1 G2 G x Hx.
  destruct (default_agg cs OK) as (S & H & FI & B).
  destruct (compare_lemma m1 m2 (fit_spline cs) S H U dU s1 s2 a b K1 K2 Kf FI V
    (fun x Hx => proj1 (Hs x Hx)) (fun x Hx => proj2 (Hs x Hx)) L E0 P0 (12/1000) (52/1000) nu g1 g2 x)
    as (d1 & d2 & D1 & D2 & Pd & I1 & I2); try assumption; try lra.
  - intros t Ht. apply B, Hl, Ht.
  - apply G, Hx.
  - apply G, Hx.
  - exists d1, d2. split; [exact D1|]. split; [exact D2|]. split.
    + eapply Rle_trans; [|exact I1]. apply Rmult_le_compat_r; [exact Pd|]. apply sqrt_above; lra.
    + eapply Rle_trans; [exact I2|]. apply Rmult_le_compat_r; [exact Pd|]. apply sqrt_below; lra.
Qed.

Lemma agree_others_lemma m1 m2 f nu g1 g2 U dU s1 s2 a b :
  m_kind m1 = ThwaitesLinear -> m_kind m2 = ThwaitesNonlinear ->
  m_fit m2 = Some f -> f = fit_white \/ f = fit_cb \/ f = fit_drela ->
  m_nu m1 = Fin nu -> m_nu m2 = Fin nu -> 0 < nu -> a <= b ->
  (forall x, a <= x <= b ->
     velocity_at m1 U (dU x) x /\ velocity_at m2 U (dU x) x /\ 0 < U x + 1/1000) ->
  (forall x, a <= x <= b -> solves1_at m1 s1 x /\ solves1_at m2 s2 x) ->
  s1 a = s2 a -> 0 <= s1 a ->
  (forall x, a <= x <= b -> -9/100 <= s2 x * dU x <= 1/10) ->
  m_sol m1 = Some g1 -> m_sol m2 = Some g2 ->
  (forall x, a <= x <= b -> g1 x = [Fin (s1 x)] /\ g2 x = [Fin (s2 x)]) ->
  forall x, a <= x <= b -> exists d1 d2,
    q_delta_m m1 x = Ok (Fin d1) /\ q_delta_m m2 x = Ok (Fin d2) /\
    986/1000 * d1 <= d2 <= 104/100 * d1.
Proof.
  intros K1 K2 Kf Ef N1 N2 Pn L V Hs E0 P0 Hl G1 G2 G x Hx.
  assert (Q : exists S H, fit_is f S H /\ near (rhsF S H)).
  { destruct Ef as [->|[->| ->]]; eexists _, _.
    - split; [exact white_is|exact white_agg].
    - split; [exact cb_is|exact cb_agg].
    - split; [exact drela_is|exact drela_agg]. }
  destruct Q as (S & H & FI & B).
  destruct (compare_lemma m1 m2 f S H U dU s1 s2 a b K1 K2 Kf FI V
    (fun x Hx => proj1 (Hs x Hx)) (fun x Hx => proj2 (Hs x Hx)) L E0 P0 (125/10000) (36/1000) nu g1 g2 x)
    as (d1 & d2 & D1 & D2 & Pd & I1 & I2); try assumption; try lra.
  - intros t Ht. apply B, Hl, Ht.
  - apply G, Hx.
  - apply G, Hx.
  - exists d1, d2. split; [exact D1|]. split; [exact D2|]. split.
    + eapply Rle_trans; [|exact I1]. apply Rmult_le_compat_r; [exact Pd|]. apply sqrt_above; lra.
    + eapply Rle_trans; [exact I2|]. apply Rmult_le_compat_r; [exact Pd|]. apply sqrt_below; lra.
Qed.
