(** The right-hand side 2(S - l(H + 2)) of Thwaites' equation for the built-in fits: real
    functions, Lipschitz bounds and growth (C111 - C113). *)
From Coq Require Import Reals List Lra Lia QArith Qreals Sorted.
From Coquelicot Require Import Coquelicot.
From Verif Require Import PyBase PyBaseFacts XDeriv PPolyModel PPolyProofs ThwaitesFitsModel
  ThwaitesFitsProofs SplineSpec SplineProofs PositivityProofs WellPosedProofs.
Import ListNotations.
Open Scope R_scope.

(* ------------------------------------------------------------------ *)
(** * Bounds on the slope of an interpolating spline *)
Fixpoint slopeQ (M sg : Q) (xs ys ss : list Q) : bool :=
  match xs, ys, ss with
  | x0 :: xs', y0 :: ys', s0 :: ss' =>
      match xs', ys', ss' with
      | x1 :: _, y1 :: _, s1 :: _ =>
          Qpos (M + sg * s0) && Qpos (M + sg * s1) &&
          Qpos (M * (x1 - x0) + sg * (3 * (y1 - y0) - (s0 + s1) * (x1 - x0))) && slopeQ M sg xs' ys' ss'
      | _, _, _ => true
      end
  | _, _, _ => true
  end.

Lemma piece_slope M sg s0 s1 h dy t : 0 < h -> 0 <= t <= h ->
  0 < M + sg * s0 -> 0 < M + sg * s1 -> 0 < M * h + sg * (3 * dy - (s0 + s1) * h) ->
  0 < M + sg * horner (col_deriv [(s0 + s1 - 2 * (dy / h)) / (h * h);
                              (3 * (dy / h) - 2 * s0 - s1) / h; s0; 0]) t.
Proof.
  intros Hh Ht P0 P1 P2. rewrite col_deriv4, horner3.
  set (u := t / h). assert (Hu : 0 <= u <= 1).
  { unfold u. split; [apply Rdiv_le_0_compat; lra|]. apply (Rmult_le_reg_r h); [lra|].
    unfold Rdiv. rewrite Rmult_assoc, Rinv_l by lra. lra. }
  replace t with (u * h) by (unfold u; field; lra).
  replace (M + sg * _) with
    ((M + sg * s0) * ((1 - u) * (1 - u)) + (M + sg * s1) * (u * u)
     + (M * h + sg * (3 * dy - (s0 + s1) * h)) * (2 * u * (1 - u) / h)) by (field; lra).
  assert (0 <= 2 * u * (1 - u) / h).
  { apply Rdiv_le_0_compat; [|lra]. apply Rmult_le_pos; [lra|lra]. }
  assert (0 <= (M * h + sg * (3 * dy - (s0 + s1) * h)) * (2 * u * (1 - u) / h))
    by (apply Rmult_le_pos; lra).
  assert (0 < (M + sg * s0) * ((1 - u) * (1 - u)) + (M + sg * s1) * (u * u)); [|lra].
  destruct (Rle_lt_dec u (1/2)).
  - apply Rplus_lt_le_0_compat; [|apply Rmult_le_pos; [lra|apply Rle_0_sqr]].
    apply Rmult_lt_0_compat; [lra|apply Rmult_lt_0_compat; lra].
  - apply Rplus_le_lt_0_compat; [apply Rmult_le_pos; [lra|apply Rle_0_sqr]|].
    apply Rmult_lt_0_compat; [lra|apply Rmult_lt_0_compat; lra].
Qed.

Lemma herm_slope M sg cs : forall xq yq sq,
  herm (map Q2R xq) (map Q2R yq) (map Q2R sq) cs -> slopeQ M sg xq yq sq = true -> cs <> [] ->
  forall x, hd 0 (map Q2R xq) <= x <= last (map Q2R xq) 0 ->
  0 < Q2R M + Q2R sg * pp_eval_aux (map Q2R xq) (map col_deriv cs) x.
Proof.
  induction cs as [|c cs IH]; intros xq yq sq H N Hne x Hx; [congruence|].
  destruct xq as [|x0 [|x1 xt]]; try contradiction.
  destruct yq as [|y0 [|y1 yt]]; try contradiction.
  destruct sq as [|s0 [|s1 st]]; try contradiction.
  cbn [map herm] in H. destruct H as [Hh [Ec H]].
  cbn [slopeQ] in N. apply andb_prop in N. destruct N as [N N'].
  apply andb_prop in N. destruct N as [N N2]. apply andb_prop in N. destruct N as [N0 N1].
  apply Qpos_R in N0, N1, N2. rewrite Q2R_plus, Q2R_mult in N0, N1.
  rewrite Q2R_plus, !Q2R_mult, !Q2R_minus, !Q2R_mult, !Q2R_minus, Q2R_plus, Q2R_3 in N2.
  assert (Hpiece : Q2R x0 <= x <= Q2R x1 -> 0 < Q2R M + Q2R sg * horner (col_deriv c) (x - Q2R x0)).
  { intros Hx'. subst c. rewrite (col_deriv_const _ _ _ _ 0). apply piece_slope; try assumption; lra. }
  cbn [map hd] in Hx. destruct cs as [|d cs].
  - destruct xt; [|destruct yt; destruct st; contradiction]. cbn [map last] in Hx.
    cbn [map pp_eval_aux]. apply Hpiece. exact Hx.
  - cbn [map pp_eval_aux]. destruct (Rlt_dec x (Q2R x1)).
    + apply Hpiece. lra.
    + apply (IH (x1 :: xt) (y1 :: yt) (s1 :: st) H N'); [discriminate|].
      cbn [map hd]. destruct xt as [|x2 xt].
      * destruct yt, st; cbn in H; contradiction.
      * cbn [map last] in Hx. cbn [map last]. lra.
Qed.

Lemma notaknot_slope_bound M sg xq yq p :
  StronglySorted Rlt (map Q2R xq) -> (3 <= length xq)%nat -> length yq = length xq ->
  notaknot (map Q2R xq) (map Q2R yq) p ->
  pivots 0 (rows xq yq) = true -> slopeQ M sg xq yq (slopesQ xq yq) = true ->
  forall x, hd 0 (map Q2R xq) <= x <= last (map Q2R xq) 0 ->
     0 < Q2R M + Q2R sg * pp_eval (pp_derivative p) x.
Proof.
  intros HS H3 HY N HP HM x Hx.
  destruct (notaknot_slopes xq yq p HS H3 HY N HP) as [HH [J W]].
  unfold pp_wf in W. rewrite (nk_x _ _ _ N) in W.
  unfold pp_eval. cbn [pp_derivative pp_x pp_c]. rewrite (nk_x _ _ _ N).
  apply (herm_slope M sg _ xq yq (slopesQ xq yq)); try assumption.
  intros E. rewrite E in W. destruct (map Q2R xq); contradiction.
Qed.

Lemma shear_slope : slopeQ 9 (-1) lamQ shearQ (slopesQ lamQ shearQ) = true.
Proof. vm_compute. reflexivity. Qed.
Lemma shape_slope : slopeQ 35 1 lamQ shapeQ (slopesQ lamQ shapeQ) = true.
Proof. vm_compute. reflexivity. Qed.

(** The default fit's functions, with bounds on the slopes. *)
Lemma spline_slopes cs : cubic_spline_ok cs -> exists S S' H H' : R -> R,
  (forall x, shear (fit_spline cs) (Fin x) = Fin (S (clip (-9/100) (25/100) x))) /\
  (forall x, shape (fit_spline cs) (Fin x) = Fin (H (clip (-9/100) (25/100) x))) /\
  (forall x, is_derive S x (S' x)) /\ (forall x, is_derive H x (H' x)) /\
  (forall x, -9/100 <= x <= 25/100 -> 0 < S' x < 9) /\
  (forall x, -9/100 <= x <= 25/100 -> -35 < H' x < 0) /\
  (forall i x y, nth_error tab_lambda i = Some x -> nth_error tab_shear i = Some y -> S x = y) /\
  (forall i x y, nth_error tab_lambda i = Some x -> nth_error tab_shape i = Some y -> H x = y).
Proof.
  intros [[p [Np [Ep _]]] [q [Nq [Eq Eq']]]].
  destruct (shear_spline p Np) as [Dp Pp]. destruct (shape_spline q Nq) as [Dq Pq].
  exists (pp_eval p), (pp_eval (pp_derivative p)), (pp_eval q), (pp_eval (pp_derivative q)).
  assert (HS : StronglySorted Rlt (map Q2R lamQ)) by (rewrite lamQ_eq; exact tab_lambda_sorted).
  assert (Bp : forall x, -9/100 <= x <= 25/100 -> pp_eval (pp_derivative p) x < 9).
  { intros x Hx. rewrite <- lamQ_eq, <- shearQ_eq in Np.
    pose proof (notaknot_slope_bound 9 (-1) lamQ shearQ p HS ltac:(cbn; lia) eq_refl Np shear_pivots shear_slope x) as P.
    rewrite lamQ_eq, tab_first, tab_last in P. specialize (P Hx).
    replace (Q2R (-1)) with (-1) in P by (unfold Q2R; cbn; lra).
    replace (Q2R 9) with 9 in P by (unfold Q2R; cbn; lra). lra. }
  assert (Bq : forall x, -9/100 <= x <= 25/100 -> -35 < pp_eval (pp_derivative q) x).
  { intros x Hx. rewrite <- lamQ_eq, <- shapeQ_eq in Nq.
    pose proof (notaknot_slope_bound 35 1 lamQ shapeQ q HS ltac:(cbn; lia) eq_refl Nq shape_pivots shape_slope x) as P.
    rewrite lamQ_eq, tab_first, tab_last in P. specialize (P Hx).
    replace (Q2R 1) with 1 in P by (unfold Q2R; cbn; lra).
    replace (Q2R 35) with 35 in P by (unfold Q2R; cbn; lra). lra. }
  assert (R0 : forall x, check_range (Fin (-90/1000)) (Fin (250/1000)) (Fin x)
                         = Fin (clip (-9/100) (25/100) x)).
  { intros x. unfold clip. destruct (Rle_lt_dec x (-9/100)).
    - rewrite check_range_low by (try (cbn [xltb]; apply Rltb_false); lra). f_equal.
      rewrite Rmax_left, Rmin_right by lra. lra.
    - destruct (Rle_lt_dec (25/100) x).
      + rewrite check_range_high by lra. f_equal. rewrite Rmax_right, Rmin_left by lra. lra.
      + rewrite check_range_inside by lra. f_equal. rewrite Rmax_right, Rmin_right by lra. lra. }
  unfold shear, shape. cbn [fit_shear fit_shape fit_spline fit_lo fit_hi].
  split; [intros x; rewrite R0; apply Ep|].
  split; [intros x; rewrite R0; apply Eq|].
  split; [exact Dp|]. split; [exact Dq|].
  split; [intros x Hx; split; [apply Pp, Hx|apply Bp, Hx]|].
  split; [intros x Hx; split; [apply Bq, Hx|apply Pq, Hx]|].
  split; [exact (nk_values _ _ _ Np)|exact (nk_values _ _ _ Nq)].
Qed.

(* ------------------------------------------------------------------ *)
(** * Lipschitz functions on intervals *)
Definition lip_on (F : R -> R) (a b L : R) : Prop :=
  forall p q, a <= p <= b -> a <= q <= b -> Rabs (F p - F q) <= L * Rabs (p - q).

Lemma lip_le F a b L L' : L <= L' -> lip_on F a b L -> lip_on F a b L'.
Proof.
  intros H K p q Hp Hq. eapply Rle_trans; [apply K; assumption|].
  apply Rmult_le_compat_r; [apply Rabs_pos|exact H].
Qed.
Lemma lip_ext F G a b L : (forall x, a <= x <= b -> F x = G x) -> lip_on G a b L -> lip_on F a b L.
Proof. intros E H p q Hp Hq. rewrite !E by assumption. apply H; assumption. Qed.

Lemma lip_glue F a c b L : lip_on F a c L -> lip_on F c b L -> lip_on F a b L.
Proof.
  intros H1 H2.
  assert (Mixed : forall p q, a <= p <= c -> c <= q <= b -> Rabs (F p - F q) <= L * Rabs (p - q)).
  { intros p q Hp Hq. replace (F p - F q) with ((F p - F c) + (F c - F q)) by ring.
    eapply Rle_trans; [apply Rabs_triang|].
    assert (A := H1 p c ltac:(lra) ltac:(lra)). assert (B := H2 c q ltac:(lra) ltac:(lra)).
    rewrite (Rabs_left1 (p - c)) in A by lra. rewrite (Rabs_left1 (c - q)) in B by lra.
    rewrite (Rabs_left1 (p - q)) by lra. lra. }
  intros p q Hp Hq. destruct (Rle_lt_dec p c), (Rle_lt_dec q c).
  - apply H1; lra.
  - apply Mixed; lra.
  - rewrite Rabs_minus_sym, (Rabs_minus_sym p q). apply Mixed; lra.
  - apply H2; lra.
Qed.

Lemma lip_affine u v a b : lip_on (fun x => u + v * x) a b (Rabs v).
Proof.
  intros p q _ _. replace (u + v * p - (u + v * q)) with (v * (p - q)) by ring.
  rewrite Rabs_mult. lra.
Qed.

Lemma lip_derive (g g' : R -> R) a b L :
  (forall x, a <= x <= b -> is_derive g x (g' x) /\ Rabs (g' x) <= L) -> lip_on g a b L.
Proof.
  intros H p q Hp Hq. destruct (MVT_gen g q p g') as [c [Hc E]].
  - intros x Hx. apply H. unfold Rmin, Rmax in Hx. destruct (Rle_dec q p); lra.
  - intros x Hx. apply (derive_cont_pt g x (g' x)), H. unfold Rmin, Rmax in Hx. destruct (Rle_dec q p); lra.
  - rewrite E, Rabs_mult. apply Rmult_le_compat_r; [apply Rabs_pos|]. apply H.
    unfold Rmin, Rmax in Hc. destruct (Rle_dec q p); lra.
Qed.

Lemma lip_smooth (g g' : R -> R) a b :
  (forall x, a <= x <= b -> is_derive g x (g' x) /\ ex_derive g' x) -> exists L, lip_on g a b L.
Proof.
  intros H. destruct (Rle_lt_dec a b) as [L|L].
  - destruct (bound_above a b L g') as [D [_ HD]].
    + intros x Hx. apply (ex_derive_continuous g'). apply H, Hx.
    + exists D. apply (lip_derive g g'). intros x Hx. split; [apply H, Hx|apply HD, Hx].
  - exists 0. intros p q Hp _. lra.
Qed.

Lemma lip_glue_ex F a c b : (exists L, lip_on F a c L) -> (exists L, lip_on F c b L) ->
  exists L, lip_on F a b L.
Proof.
  intros [L1 H1] [L2 H2]. exists (Rmax L1 L2).
  apply (lip_glue F a c b); eapply lip_le; try eassumption; [apply Rmax_l|apply Rmax_r].
Qed.

(* ------------------------------------------------------------------ *)
(** * The right-hand side of the four fits *)
Definition fit_is (f : fit) (S H : R -> R) : Prop :=
  forall l, shear f (Fin l) = Fin (S l) /\ shape f (Fin l) = Fin (H l).
Definition rhsF (S H : R -> R) (l : R) : R := 2 * (S l - l * (H l + 2)).

Definition locally_lip (F : R -> R) : Prop :=
  forall M, 0 < M -> exists L, forall p q, Rabs p <= M -> Rabs q <= M -> Rabs (F p - F q) <= L * Rabs (p - q).
Lemma locally_lip_intro F : (forall M, 0 < M -> exists N L, M <= N /\ lip_on F (- N) N L) -> locally_lip F.
Proof.
  intros H M HM. destruct (H M HM) as [N [L [Le K]]]. exists L. intros p q Hp Hq.
  apply Rabs_le_between in Hp, Hq. apply K; lra.
Qed.

(** ** The default fit *)
Lemma default_rhs cs : cubic_spline_ok cs -> exists S H, fit_is (fit_spline cs) S H /\
  (forall p q, Rabs (rhsF S H p - rhsF S H q) <= 28 * Rabs (p - q)) /\ rhsF S H 0 = 44/100 /\
  (forall l, 0 <= S l <= 1/2) /\ (forall l, 2 <= H l <= 355/100).
Proof.
  intros OK. destruct (spline_slopes cs OK) as (S & S' & H & H' & ES & EH & DS & DH & BS & BH & TS & TH).
  exists (fun l => S (clip (-9/100) (25/100) l)), (fun l => H (clip (-9/100) (25/100) l)).
  assert (S0 : S (-9/100) = 0).
  { apply (TS 0%nat); cbn [nth_error tab_lambda tab_shear map]; f_equal; lra. }
  assert (S1 : S (25/100) = 1/2).
  { apply (TS 26%nat); cbn [nth_error tab_lambda tab_shear map]; f_equal; lra. }
  assert (H0 : H (-9/100) = 355/100).
  { apply (TH 0%nat); cbn [nth_error tab_lambda tab_shape map]; f_equal; lra. }
  assert (H1 : H (25/100) = 2).
  { apply (TH 26%nat); cbn [nth_error tab_lambda tab_shape map]; f_equal; lra. }
  assert (Sm : S 0 = 22/100).
  { apply (TS 16%nat); cbn [nth_error tab_lambda tab_shear map]; f_equal; lra. }
  assert (MS : forall x y, -9/100 <= x -> x < y -> y <= 25/100 -> S x < S y).
  { apply (derive_increasing S S' (-9/100) (25/100) DS). intros x Hx. apply BS, Hx. }
  assert (MH : forall x y, -9/100 <= x -> x < y -> y <= 25/100 -> H y < H x).
  { intros x y A B C. assert (- H x < - H y); [|lra].
    apply (derive_increasing (fun x => - H x) (fun x => - H' x) (-9/100) (25/100)); try assumption.
    - intros z. apply @is_derive_opp. apply DH.
    - intros z Hz. destruct (BH z Hz). lra. }
  assert (RS : forall x, -9/100 <= x <= 25/100 -> 0 <= S x <= 1/2).
  { intros x Hx. destruct (Req_dec x (-9/100)) as [->|N1]; [lra|].
    destruct (Req_dec x (25/100)) as [->|N2]; [lra|].
    assert (A := MS (-9/100) x ltac:(lra) ltac:(lra) ltac:(lra)).
    assert (B := MS x (25/100) ltac:(lra) ltac:(lra) ltac:(lra)). lra. }
  assert (RH : forall x, -9/100 <= x <= 25/100 -> 2 <= H x <= 355/100).
  { intros x Hx. destruct (Req_dec x (-9/100)) as [->|N1]; [lra|].
    destruct (Req_dec x (25/100)) as [->|N2]; [lra|].
    assert (A := MH (-9/100) x ltac:(lra) ltac:(lra) ltac:(lra)).
    assert (B := MH x (25/100) ltac:(lra) ltac:(lra) ltac:(lra)). lra. }
  split; [intros l; split; [apply ES|apply EH]|].
  split; [|split; [|split; [intros l; apply RS, clip_in; lra|intros l; apply RH, clip_in; lra]]].
  2:{ unfold rhsF. rewrite clip_id by lra. rewrite Sm. lra. }
  set (F := rhsF _ _).
  assert (Mid : lip_on F (-9/100) (25/100) 28).
  { apply (lip_ext _ (fun l => 2 * (S l - l * (H l + 2)))).
    { intros x Hx. unfold F, rhsF. rewrite clip_id by exact Hx. reflexivity. }
    apply (lip_derive _ (fun l => 2 * (S' l - (H l + 2) - l * H' l))).
    intros x Hx. split.
    - auto_derive; [split; [eexists; apply DS|split; [eexists; apply DH|exact I]]|].
      assert (U1 : Derive (fun t : R => S t) x = S' x) by exact (is_derive_unique S x _ (DS x)).
      assert (U2 : Derive (fun t : R => H t) x = H' x) by exact (is_derive_unique H x _ (DH x)).
      rewrite U1, U2. ring.
    - specialize (BS x Hx). specialize (BH x Hx). specialize (RH x Hx).
      assert (-315/100 <= x * - H' x <= 875/100) by (split; nra).
      apply Rabs_le_between. split; lra. }
  intros p q. set (N := Rmax (Rabs p) (Rabs q) + 1).
  assert (Bp : - N <= p <= N).
  { assert (Rabs p <= N) by (unfold N; pose proof (Rmax_l (Rabs p) (Rabs q)); lra).
    apply Rabs_le_between. assumption. }
  assert (Bq : - N <= q <= N).
  { assert (Rabs q <= N) by (unfold N; pose proof (Rmax_r (Rabs p) (Rabs q)); lra).
    apply Rabs_le_between. assumption. }
  assert (G : lip_on F (- N) N 28); [|apply G; assumption].
  apply (lip_glue F (- N) (-9/100) N); [|apply (lip_glue F (-9/100) (25/100) N); [exact Mid|]].
  - apply (lip_ext _ (fun x => 0 + - (111/10) * x)).
    + intros x Hx. unfold F, rhsF, clip. rewrite Rmax_left, Rmin_right by lra. rewrite S0, H0. lra.
    + eapply lip_le; [|apply lip_affine]. rewrite Rabs_Ropp, Rabs_pos_eq; lra.
  - apply (lip_ext _ (fun x => 1 + (-8) * x)).
    + intros x Hx. unfold F, rhsF, clip. rewrite Rmax_right, Rmin_left by lra. rewrite S1, H1. lra.
    + eapply lip_le; [|apply lip_affine]. rewrite Rabs_left1; lra.
Qed.

(** ** Cebeci and Bradshaw *)
Definition cbS (l : R) : R := if Rlt_dec l 0 then cbS_neg l else cbS_pos l.
Definition cbH (l : R) : R := if Rlt_dec l 0 then cbH_neg l else cbH_pos l.

Lemma cb_is : fit_is fit_cb (fun l => cbS (clip (-1/10) (1/10) l)) (fun l => cbH (clip (-1/10) (1/10) l)).
Proof.
  intros l.
  assert (R0 : check_range (Fin (-1/10)) (Fin (1/10)) (Fin l) = Fin (clip (-1/10) (1/10) l)).
  { unfold clip. destruct (Rle_lt_dec l (-1/10)).
    - rewrite check_range_low by (try (cbn [xltb]; apply Rltb_false); lra). f_equal.
      rewrite Rmax_left, Rmin_right by lra. lra.
    - destruct (Rle_lt_dec (1/10) l).
      + rewrite check_range_high by lra. f_equal. rewrite Rmax_right, Rmin_left by lra. lra.
      + rewrite check_range_inside by lra. f_equal. rewrite Rmax_right, Rmin_right by lra. lra. }
  assert (B := clip_in (-1/10) (1/10) l ltac:(lra)).
  unfold shear, shape. cbn [fit_cb fit_shear fit_shape fit_lo fit_hi]. rewrite R0. unfold cbS, cbH.
  destruct (Rlt_dec (clip (-1/10) (1/10) l) 0).
  - split; [apply cb_shear_neg|apply cb_shape_neg]; lra.
  - split; [apply cb_shear_pos|apply cb_shape_pos]; lra.
Qed.

Lemma cb_rhs : exists S H, fit_is fit_cb S H /\ locally_lip (rhsF S H) /\ rhsF S H 0 = 44/100 /\
  exists A B, 0 <= A /\ 0 <= B /\ forall p, rhsF S H p <= A + B * Rabs p.
Proof.
  eexists _, _. split; [exact cb_is|]. set (F := rhsF _ _).
  assert (F0 : F 0 = 44/100).
  { unfold F, rhsF. rewrite clip_id by lra. unfold cbS. destruct (Rlt_dec 0 0); [lra|]. unfold cbS_pos. lra. }
  set (uL := 2 * cbS (-1/10)). set (vL := - (2 * (cbH (-1/10) + 2))).
  set (uR := 2 * cbS (1/10)). set (vR := - (2 * (cbH (1/10) + 2))).
  assert (FL : forall x, x <= -1/10 -> F x = uL + vL * x).
  { intros x Hx. unfold F, rhsF, clip, uL, vL. rewrite Rmax_left, Rmin_right by lra. lra. }
  assert (FR : forall x, 1/10 <= x -> F x = uR + vR * x).
  { intros x Hx. unfold F, rhsF, clip, uR, vR. rewrite Rmax_right, Rmin_left by lra. lra. }
  assert (Mn : exists L, lip_on F (-1/10) 0 L).
  { destruct (lip_smooth (fun l => 2 * (cbS_neg l - l * (cbH_neg l + 2)))
      (fun l => 2 * (1402/1000 + 18/1000 * (107/1000) / ((107/1000 + l) * (107/1000 + l))
                     - (cbH_neg l + 2) + l * (731/10000) / ((14/100 + l) * (14/100 + l)))) (-1/10) 0) as [L HL].
    - intros x Hx. unfold cbS_neg, cbH_neg. split.
      + auto_derive; [repeat split; lra|]. field. split; lra.
      + auto_derive. repeat split; nra.
    - exists L. eapply lip_ext; [|exact HL]. intros x Hx. unfold F, rhsF. rewrite clip_id by lra.
      unfold cbS, cbH. destruct (Rlt_dec x 0); [reflexivity|]. replace x with 0 by lra.
      unfold cbS_pos, cbS_neg. field. }
  assert (Mp : exists L, lip_on F 0 (1/10) L).
  { destruct (lip_smooth (fun l => 2 * (cbS_pos l - l * (cbH_pos l + 2)))
      (fun l => 2 * (157/100 - 36/10 * l - (cbH_pos l + 2) - l * cbHp_pos l)) 0 (1/10)) as [L HL].
    - intros x Hx. unfold cbS_pos, cbH_pos, cbHp_pos. split.
      + auto_derive; [exact I|]. field.
      + auto_derive. exact I.
    - exists L. eapply lip_ext; [|exact HL]. intros x Hx. unfold F, rhsF. rewrite clip_id by lra.
      unfold cbS, cbH. destruct (Rlt_dec x 0); [lra|reflexivity]. }
  assert (Gl : exists L, forall N, lip_on F (- N) N L).
  { destruct (lip_glue_ex F (-1/10) 0 (1/10) Mn Mp) as [L1 M1].
    exists (Rmax (Rabs vL) (Rmax L1 (Rabs vR))). intros N.
    apply (lip_glue F (- N) (-1/10) N); [|apply (lip_glue F (-1/10) (1/10) N)].
    - apply (lip_ext _ (fun x => uL + vL * x)); [intros x Hx; apply FL; lra|].
      eapply lip_le; [|apply lip_affine]. apply Rmax_l.
    - eapply lip_le; [|exact M1]. eapply Rle_trans; [apply Rmax_l|apply Rmax_r].
    - apply (lip_ext _ (fun x => uR + vR * x)); [intros x Hx; apply FR; lra|].
      eapply lip_le; [|apply lip_affine]. eapply Rle_trans; [apply Rmax_r|apply Rmax_r]. }
  destruct Gl as [L Gl]. split; [|split; [exact F0|]].
  - apply locally_lip_intro. intros M HM. exists M, L. split; [lra|apply Gl].
  - exists (44/100), (Rabs L). split; [lra|]. split; [apply Rabs_pos|]. intros p.
    assert (K := Gl (Rabs p) p 0).
    assert (Hp : - Rabs p <= p <= Rabs p) by (apply Rabs_le_between; lra).
    specialize (K Hp ltac:(pose proof (Rabs_pos p); lra)). rewrite Rminus_0_r in K.
    assert (A := Rle_abs (F p - F 0)). rewrite F0 in A, K.
    assert (L * Rabs p <= Rabs L * Rabs p) by (apply Rmult_le_compat_r; [apply Rabs_pos|apply Rle_abs]). lra.
Qed.

(** ** Drela *)
Lemma check_range_max lo l : check_range (Fin lo) PInf (Fin l) = Fin (Rmax lo l).
Proof.
  unfold check_range. cbn [xltb]. destruct (Rlt_or_le l lo).
  - rewrite Rltb_true by assumption. rewrite Rmax_left by lra. reflexivity.
  - rewrite Rltb_false by assumption. rewrite Rmax_right by lra. reflexivity.
Qed.
Lemma drela_is : fit_is fit_drela (fun l => drelaS (Rmax (-9/100) l)) (fun l => drelaH (Rmax (-9/100) l)).
Proof.
  intros l. assert (B := Rmax_l (-9/100) l).
  unfold shear, shape. cbn [fit_drela fit_shear fit_shape fit_lo fit_hi]. rewrite check_range_max.
  split; [apply drela_shear_eval|apply drela_shape_eval]; lra.
Qed.
Lemma drela_rhs : exists S H, fit_is fit_drela S H /\ locally_lip (rhsF S H) /\ rhsF S H 0 = 44/100 /\
  exists A B, 0 <= A /\ 0 <= B /\ forall p, rhsF S H p <= A + B * Rabs p.
Proof.
  eexists _, _. split; [exact drela_is|]. set (F := rhsF _ _).
  assert (F0 : F 0 = 44/100).
  { unfold F, rhsF. rewrite Rmax_right by lra. unfold drelaS. field. }
  set (uL := 2 * drelaS (-9/100)). set (vL := - (2 * (drelaH (-9/100) + 2))).
  assert (FL : forall x, x <= -9/100 -> F x = uL + vL * x).
  { intros x Hx. unfold F, rhsF, uL, vL. rewrite Rmax_left by lra. lra. }
  assert (Mr : forall N, exists L, lip_on F (-9/100) N L).
  { intros N. destruct (lip_smooth (fun l => 2 * (drelaS l - l * (drelaH l + 2)))
      (fun l => 2 * (152/100 - 15 * (l * l) - 144/1000 * l / ((l + 18/100) * (l + 18/100))
           + 144/1000 * (l * l) / ((l + 18/100) * (l + 18/100) * (l + 18/100))
           - (drelaH l + 2) - l * drelaHp l)) (-9/100) N) as [L HL].
    - intros x Hx. unfold drelaS, drelaH, drelaHp. split.
      + auto_derive; [repeat split; nra|]. field. lra.
      + auto_derive. assert (0 < x + 18/100) by lra. repeat split; try apply Rgt_not_eq; repeat apply Rmult_lt_0_compat; assumption.
    - exists L. eapply lip_ext; [|exact HL]. intros x Hx. unfold F, rhsF. rewrite Rmax_right by lra. reflexivity. }
  assert (Gl : forall M N, exists L, lip_on F (- M) N L).
  { intros M N. apply (lip_glue_ex F (- M) (-9/100) N); [|apply Mr].
    exists (Rabs vL). apply (lip_ext _ (fun x => uL + vL * x)); [intros x Hx; apply FL; lra|apply lip_affine]. }
  split; [|split; [exact F0|]].
  - apply locally_lip_intro. intros M HM. destruct (Gl M M) as [L HL]. exists M, L. split; [lra|exact HL].
  - assert (G0 : exists L, forall M, lip_on F (- M) 0 L).
    { destruct (Mr 0) as [L1 H1]. exists (Rmax (Rabs vL) L1). intros M.
      apply (lip_glue F (- M) (-9/100) 0).
      - apply (lip_ext _ (fun x => uL + vL * x)); [intros x Hx; apply FL; lra|].
        eapply lip_le; [apply Rmax_l|apply lip_affine].
      - eapply lip_le; [apply Rmax_r|exact H1]. }
    destruct G0 as [L G0]. exists 2, (Rabs L + 4). pose proof (Rabs_pos L). split; [lra|]. split; [lra|].
    intros p. destruct (Rle_lt_dec p 0) as [Np|Pp].
    + assert (K := G0 (Rabs p) p 0). rewrite (Rabs_left1 p) in K by lra.
      specialize (K ltac:(lra) ltac:(lra)). rewrite Rminus_0_r, (Rabs_left1 p) in K by lra.
      rewrite (Rabs_left1 p) by lra.
      assert (A := Rle_abs (F p - F 0)). rewrite F0 in A, K.
      assert (L * - p <= Rabs L * - p) by (apply Rmult_le_compat_r; [lra|apply Rle_abs]). lra.
    + rewrite (Rabs_pos_eq p) by lra. unfold F, rhsF. rewrite Rmax_right by lra.
      unfold drelaS, drelaH.
      set (q := p * p / ((p + 18/100) * (p + 18/100))).
      assert (Q : 0 <= q).
      { apply Rdiv_le_0_compat; [nra|]. apply Rmult_lt_0_compat; lra. }
      replace (72/1000 * (p * p) / ((p + 18/100) * (p + 18/100))) with (72/1000 * q) by (unfold q; field; lra).
      replace (56/100 * (p * p) / ((p + 18/100) * (p + 18/100))) with (56/100 * q) by (unfold q; field; lra).
      clearbody q.
      assert (0 <= p * q) by (apply Rmult_le_pos; lra). assert (0 <= Rabs L * p) by (apply Rmult_le_pos; lra).
      assert (0 <= p * p * p) by (apply Rmult_le_pos; [apply Rle_0_sqr|lra]).
      assert (0 <= (14 * (p * p) - 41/20) * (14 * (p * p) - 41/20)) by apply Rle_0_sqr.
      nra.
Qed.
