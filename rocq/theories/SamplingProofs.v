From Coq Require Import Reals List Bool Lra Lia Psatz.
From Coquelicot Require Import Coquelicot Rcomplements.
From Verif Require Import PyBase PyBaseFacts FiniteDiffModel PPolyModel PPolyProofs
  InitialConditionModel ThwaitesFitsModel HeadModel CoreModel CoreSpec CoreProofs PchipModel PchipProofs
  WorkflowModel WorkflowSpec SamplingSpec WellPosedProofs.
Import ListNotations.
Open Scope R_scope.

(* ------------------------------------------------------------------ *)
(** * Slopes near the secants *)

Lemma edge_near h0 h1 m0 m1 : 0 < h0 -> 0 < h1 -> Rabs (pchip_edge h0 h1 m0 m1 - m0) <= Rabs (m0 - m1).
Proof.
  intros H0 H1. unfold pchip_edge.
  set (d := ((2 * h0 + h1) * m0 - h0 * m1) / (h0 + h1)).
  assert (E : d - m0 = h0 / (h0 + h1) * (m0 - m1)) by (unfold d; field; lra).
  assert (B : Rabs (d - m0) <= Rabs (m0 - m1)).
  { rewrite E, Rabs_mult. rewrite <- (Rmult_1_l (Rabs (m0 - m1))) at 2.
    apply Rmult_le_compat_r; [apply Rabs_pos|].
    rewrite Rabs_pos_eq by (apply Rlt_le, Rdiv_lt_0_compat; lra).
    apply Rmult_le_reg_r with (h0 + h1); [lra|]. unfold Rdiv. rewrite Rmult_assoc, Rinv_l; lra. }
  clearbody d. apply Rle_trans with (2 := B).
  destruct (negb (Reqb (np_sign d) (np_sign m0))) eqn:S.
  - assert (N : np_sign d <> np_sign m0) by (intros Q; rewrite Reqb_true in S by exact Q; discriminate).
    destruct (sign_inv d) as [[A1 A2]|[[A1 A2]|[A1 A2]]];
    destruct (sign_inv m0) as [[C1 C2]|[[C1 C2]|[C1 C2]]]; try congruence;
    unfold Rabs; repeat destruct Rcase_abs; lra.
  - destruct (andb _ _) eqn:Q; [|lra].
    apply andb_true_iff in Q. destruct Q as [_ Q]. apply Rltb_iff in Q.
    apply negb_false_iff, Reqb_iff in S.
    destruct (sign_inv d) as [[A1 A2]|[[A1 A2]|[A1 A2]]];
    destruct (sign_inv m0) as [[C1 C2]|[[C1 C2]|[C1 C2]]]; try lra;
    revert Q; unfold Rabs; repeat destruct Rcase_abs; lra.
Qed.

Lemma harmonic_between a b w1 w2 : 0 < a -> 0 < b -> 0 < w1 -> 0 < w2 ->
  Rmin a b <= 1 / ((w1 / a + w2 / b) / (w1 + w2)) <= Rmax a b.
Proof.
  intros Ha Hb H1 H2. set (d := 1 / _).
  assert (P : 0 < w1 * b + w2 * a) by (apply Rplus_lt_0_compat; apply Rmult_lt_0_compat; assumption).
  assert (Ed : d * (w1 * b + w2 * a) = (w1 + w2) * (a * b)) by (unfold d; field; repeat split; lra).
  clearbody d.
  destruct (Rle_dec a b) as [L|L].
  - rewrite Rmin_left, Rmax_right by lra.
    assert (0 <= w2 * (b - a)) by (apply Rmult_le_pos; lra).
    assert (0 <= w1 * (b - a)) by (apply Rmult_le_pos; lra).
    split; apply Rmult_le_reg_r with (w1 * b + w2 * a); try lra; rewrite Ed; nra.
  - rewrite Rmin_right, Rmax_left by lra.
    assert (0 <= w2 * (a - b)) by (apply Rmult_le_pos; lra).
    assert (0 <= w1 * (a - b)) by (apply Rmult_le_pos; lra).
    split; apply Rmult_le_reg_r with (w1 * b + w2 * a); try lra; rewrite Ed; nra.
Qed.

Lemma inner_between p0 p1 p2 : fst p0 < fst p1 -> fst p1 < fst p2 ->
  Rmin (secant p0 p1) (secant p1 p2) <= pchip_inner p0 p1 p2 <= Rmax (secant p0 p1) (secant p1 p2).
Proof.
  intros H0 H1. unfold pchip_inner.
  set (h0 := fst p1 - fst p0). set (h1 := fst p2 - fst p1).
  assert (P0 : 0 < h0) by (unfold h0; lra). assert (P1 : 0 < h1) by (unfold h1; lra).
  set (m0 := secant p0 p1). set (m1 := secant p1 p2). clearbody h0 h1 m0 m1.
  destruct (negb (Reqb (np_sign m1) (np_sign m0)) || (Reqb m1 0 || Reqb m0 0)) eqn:E.
  - assert (Z : (m0 <= 0 /\ 0 <= m1) \/ (m1 <= 0 /\ 0 <= m0)).
    { destruct (sign_inv m0) as [[S0 Q0]|[[S0 Q0]|[S0 Q0]]];
      destruct (sign_inv m1) as [[S1 Q1]|[[S1 Q1]|[S1 Q1]]]; try (left; lra); try (right; lra).
      - rewrite (Reqb_true (np_sign m1) (np_sign m0)) in E by congruence.
        apply orb_true_iff in E. destruct E as [E|E]; [discriminate|].
        apply orb_true_iff in E. destruct E as [E|E]; apply Reqb_iff in E; lra.
      - rewrite (Reqb_true (np_sign m1) (np_sign m0)) in E by congruence.
        apply orb_true_iff in E. destruct E as [E|E]; [discriminate|].
        apply orb_true_iff in E. destruct E as [E|E]; apply Reqb_iff in E; lra. }
    unfold Rmin, Rmax. destruct (Rle_dec m0 m1); lra.
  - apply orb_false_elim in E. destruct E as [E1 E2]. apply orb_false_elim in E2.
    destruct E2 as [E2 E3]. apply negb_false_iff, Reqb_iff in E1.
    assert (N1 : m1 <> 0) by (intros ->; rewrite Reqb_true in E2 by reflexivity; discriminate).
    assert (N0 : m0 <> 0) by (intros ->; rewrite Reqb_true in E3 by reflexivity; discriminate).
    destruct (sign_inv m0) as [[S0 Q0]|[[S0 Q0]|[S0 Q0]]]; [| |lra];
    destruct (sign_inv m1) as [[S1 Q1]|[[S1 Q1]|[S1 Q1]]]; try lra.
    + apply harmonic_between; lra.
    + pose proof (harmonic_between (- m0) (- m1) (2 * h1 + h0) (h1 + 2 * h0)) as B.
      assert (E : 1 / (((2 * h1 + h0) / - m0 + (h1 + 2 * h0) / - m1) / (2 * h1 + h0 + (h1 + 2 * h0)))
                = - (1 / (((2 * h1 + h0) / m0 + (h1 + 2 * h0) / m1) / (2 * h1 + h0 + (h1 + 2 * h0))))).
      { assert ((2 * h1 + h0) * m1 + (h1 + 2 * h0) * m0 <> 0) by nra. field. repeat split; try lra; nra. }
      rewrite E in B. set (d := 1 / _) in *. clearbody d.
      specialize (B ltac:(lra) ltac:(lra) ltac:(lra) ltac:(lra)).
      revert B. unfold Rmin, Rmax. destruct (Rle_dec (- m0) (- m1)); destruct (Rle_dec m0 m1); lra.
Qed.

(** Points whose secants are within [e] of [g] at both ends. *)
Section Near.
Variable g : R -> R.
Variable e : R.
Fixpoint secants_near (l : list (R * R)) : Prop :=
  match l with
  | p :: ((q :: _) as r) =>
      fst p < fst q /\ Rabs (secant p q - g (fst p)) <= e /\ Rabs (secant p q - g (fst q)) <= e /\ secants_near r
  | _ => True
  end.
Definition slopes_near (l : list (R * R)) (ds : list R) : Prop :=
  forall i p d, nth_error l i = Some p -> nth_error ds i = Some d -> Rabs (d - g (fst p)) <= 3 * e.

Lemma inner_slope p0 p1 p2 : fst p0 < fst p1 -> fst p1 < fst p2 ->
  Rabs (secant p0 p1 - g (fst p1)) <= e -> Rabs (secant p1 p2 - g (fst p1)) <= e ->
  Rabs (pchip_inner p0 p1 p2 - g (fst p1)) <= 3 * e.
Proof.
  intros H0 H1 A B. pose proof (inner_between p0 p1 p2 H0 H1) as C. revert C.
  set (m0 := secant p0 p1) in *. set (m1 := secant p1 p2) in *. clearbody m0 m1.
  set (d := pchip_inner p0 p1 p2). clearbody d.
  apply Rabs_le_between in A. apply Rabs_le_between in B. intros C.
  apply Rabs_le. revert C. unfold Rmin, Rmax. destruct (Rle_dec m0 m1); lra.
Qed.
Lemma edge_slope h0 h1 m0 m1 x0 x1 : 0 < h0 -> 0 < h1 ->
  Rabs (m0 - g x0) <= e -> Rabs (m0 - g x1) <= e -> Rabs (m1 - g x1) <= e ->
  Rabs (pchip_edge h0 h1 m0 m1 - g x0) <= 3 * e.
Proof.
  intros H0 H1 A B C. pose proof (edge_near h0 h1 m0 m1 H0 H1) as D.
  set (d := pchip_edge h0 h1 m0 m1) in *. clearbody d.
  apply Rabs_le_between in A. apply Rabs_le_between in B. apply Rabs_le_between in C.
  assert (Rabs (m0 - m1) <= 2 * e) by (apply Rabs_le; lra).
  assert (Q : Rabs (d - m0) <= 2 * e) by lra. apply Rabs_le_between in Q. apply Rabs_le. lra.
Qed.

Lemma rest_near l : forall p0 p1 p2, secants_near (p0 :: p1 :: p2 :: l) ->
  slopes_near (p1 :: p2 :: l) (pchip_rest p0 p1 (p2 :: l)).
Proof.
  induction l as [|p3 l IH]; intros p0 p1 p2 (I1 & A1 & B1 & I2 & A2 & B2 & T).
  - cbn [pchip_rest]. intros [|[|i]] p d Hp Hd; cbn in Hp, Hd.
    + injection Hp as <-. injection Hd as <-. apply inner_slope; assumption.
    + injection Hp as <-. injection Hd as <-. apply (edge_slope _ _ _ _ _ (fst p1)); try assumption; lra.
    + destruct i; discriminate.
  - change (pchip_rest p0 p1 (p2 :: p3 :: l))
      with (pchip_inner p0 p1 p2 :: pchip_rest p1 p2 (p3 :: l)).
    specialize (IH p1 p2 p3 (conj I2 (conj A2 (conj B2 T)))).
    intros [|i] p d Hp Hd.
    + injection Hp as <-. injection Hd as <-. apply inner_slope; assumption.
    + exact (IH i p d Hp Hd).
Qed.
Lemma slopes_are_near l : 0 <= e -> secants_near l -> slopes_near l (pchip_slopes l).
Proof.
  intros He HS. destruct l as [|p0 [|p1 [|p2 l]]].
  - intros [|i] p d Hp; discriminate.
  - intros [|i] p d Hp Hd; discriminate.
  - destruct HS as (I1 & A & B & _). cbn [pchip_slopes].
    intros [|[|i]] p d Hp Hd; cbn in Hp, Hd; [| |destruct i; discriminate];
      injection Hp as <-; injection Hd as <-; lra.
  - cbn [pchip_slopes]. pose proof (rest_near l p0 p1 p2 HS) as Q.
    destruct HS as (I1 & A1 & B1 & I2 & A2 & B2 & T).
    intros [|i] p d Hp Hd.
    + injection Hp as <-. injection Hd as <-. apply (edge_slope _ _ _ _ _ (fst p1)); try assumption; lra.
    + exact (Q i p d Hp Hd).
Qed.
End Near.

(** The slope of a piece whose end slopes are within [c] of the secant. *)
Lemma piece_slope_near p q d0 d1 t c : fst p < fst q -> 0 <= t <= fst q - fst p ->
  Rabs (d0 - secant p q) <= c -> Rabs (d1 - secant p q) <= c ->
  Rabs (horner (col_deriv (hermite_col p q d0 d1)) t - secant p q) <= c.
Proof.
  intros L Ht A B. set (h := fst q - fst p) in *.
  assert (Hh : 0 < h) by (unfold h; lra).
  set (s := t / h). assert (Es : t = s * h) by (unfold s; field; lra).
  assert (Hs : 0 <= s <= 1).
  { unfold s. split; [apply Rmult_le_reg_r with h|apply Rmult_le_reg_r with h]; try lra;
      unfold Rdiv; rewrite Rmult_assoc, Rinv_l; lra. }
  rewrite Es. unfold h. rewrite (piece_slope p q d0 d1 L). set (m := secant p q) in *.
  clearbody s m. clear Es Ht.
  replace (_ - m) with ((d0 - m) * ((1 - s) * (1 - 3 * s)) + (d1 - m) * (s * (3 * s - 2))) by ring.
  apply Rabs_le_between in A. apply Rabs_le_between in B.
  set (a := d0 - m) in *. set (b := d1 - m) in *. clearbody a b.
  assert (Hc : 0 <= c) by lra.
  assert (K : Rabs ((1 - s) * (1 - 3 * s)) + Rabs (s * (3 * s - 2)) <= 1).
  { unfold Rabs. repeat destruct Rcase_abs; nra. }
  apply Rle_trans with (1 := Rabs_triang _ _). rewrite (Rabs_mult a), (Rabs_mult b).
  assert (Rabs a <= c) by (apply Rabs_le; lra). assert (Rabs b <= c) by (apply Rabs_le; lra).
  set (u := Rabs ((1 - s) * (1 - 3 * s))) in *. set (v := Rabs (s * (3 * s - 2))) in *.
  assert (0 <= u) by apply Rabs_pos. assert (0 <= v) by apply Rabs_pos.
  assert (Rabs a * u <= c * u) by (apply Rmult_le_compat_r; assumption).
  assert (Rabs b * v <= c * v) by (apply Rmult_le_compat_r; assumption).
  assert (c * (u + v) <= c * 1) by (apply Rmult_le_compat_l; assumption).
  lra.
Qed.

(* ------------------------------------------------------------------ *)
(** * The interpolant of samples *)

Section Sampled.
Variables xs ys : list R.
Variable p : ppoly.
Hypothesis Hp : pchip_fit xs ys = Ok p.
Variable U : R -> R.
Variable h : R.
Hypothesis HS : samples_of U xs ys h.

Lemma increasing_range : forall i x, nth_error xs i = Some x -> sampled_range xs x.
Proof.
  destruct (fit_inv _ _ _ Hp) as (_ & HL & HI & _).
  clear - HI. unfold sampled_range. induction xs as [|a [|b r] IH].
  - intros [|i] x; discriminate.
  - intros [|[|i]] x H; try discriminate. injection H as <-. cbn. lra.
  - cbn [strictly_increasing] in HI. apply andb_true_iff in HI. destruct HI as [H1 H2].
    apply Rltb_iff in H1. specialize (IH H2). change (last (a :: b :: r) 0) with (last (b :: r) 0).
    pose proof (IH 0%nat b eq_refl) as B.
    intros [|i] x H; [injection H as <-; cbn [hd] in *; lra|].
    specialize (IH i x H). cbn [hd] in *. lra.
Qed.

Lemma sample_interval t : sampled_range xs t -> exists i x0 x1,
  nth_error xs i = Some x0 /\ nth_error xs (S i) = Some x1 /\ nth_error ys i = Some (U x0) /\ nth_error ys (S i) = Some (U x1) /\
  x0 <= t <= x1 /\ x1 - x0 <= h /\ sampled_range xs x0 /\ sampled_range xs x1.
Proof.
  intros Ht. destruct (find_interval xs ys p Hp t Ht) as (i & x0 & x1 & X0 & X1 & Hi).
  destruct (fit_inv _ _ _ Hp) as (E & _). destruct HS as [S1 S2].
  destruct (nth_error ys i) as [y0|] eqn:Y0;
    [|apply nth_error_None in Y0; rewrite <- E in Y0; apply nth_error_None in Y0; congruence].
  destruct (nth_error ys (S i)) as [y1|] eqn:Y1;
    [|apply nth_error_None in Y1; rewrite <- E in Y1; apply nth_error_None in Y1; congruence].
  exists i, x0, x1. rewrite (S1 _ _ _ X0 Y0) in Y0. rewrite (S1 _ _ _ X1 Y1) in Y1.
  repeat split; try assumption; try lra; try (apply (S2 i); assumption);
    first [apply (increasing_range _ _ X0)|apply (increasing_range _ _ X1)].
Qed.

Lemma sampled_value L t : 0 <= L -> slope_at_most L U xs -> sampled_range xs t ->
  Rabs (pp_eval p t - U t) <= L * h.
Proof.
  intros HL HU Ht. destruct (sample_interval t Ht) as (i & x0 & x1 & X0 & X1 & Y0 & Y1 & Hi & Hh & R0 & R1).
  pose proof (fit_bounds xs ys p Hp i x0 x1 _ _ t X0 X1 Y0 Y1 Hi) as B.
  pose proof (HU t x0 Ht R0) as A0. pose proof (HU t x1 Ht R1) as A1.
  assert (C0 : Rabs (U x0 - U t) <= L * h).
  { apply Rle_trans with (1 := A0). apply Rmult_le_compat_l; [exact HL|]. rewrite Rabs_left1 by lra. lra. }
  assert (C1 : Rabs (U x1 - U t) <= L * h).
  { apply Rle_trans with (1 := A1). apply Rmult_le_compat_l; [exact HL|]. rewrite Rabs_pos_eq by lra. lra. }
  apply Rabs_le_between in C0. apply Rabs_le_between in C1. apply Rabs_le.
  revert B. unfold Rmin, Rmax. destruct (Rle_dec (U x0) (U x1)); lra.
Qed.

Lemma step_nonneg : 0 <= h.
Proof.
  destruct (fit_inv _ _ _ Hp) as (_ & HL & HI & _). destruct HS as [_ S2].
  pose proof (proj1 (strictly_increasing_iff xs) HI 0%nat) as Q. specialize (S2 0%nat).
  destruct xs as [|a [|b r]]; cbn in HL; try lia.
  specialize (Q a b eq_refl eq_refl). specialize (S2 a b eq_refl eq_refl). lra.
Qed.

Variable dU : R -> R.
Variable M : R.
Hypothesis HM : 0 <= M.
Hypothesis HD : forall x, sampled_range xs x -> is_derive U x (dU x).
Hypothesis HdU : slope_at_most M dU xs.

Lemma mean_value a b : a < b -> sampled_range xs a -> sampled_range xs b ->
  exists c, a <= c <= b /\ sampled_range xs c /\ U b - U a = dU c * (b - a).
Proof.
  intros L A B. destruct (MVT_gen U a b dU) as (c & Hc & E).
  - rewrite Rmin_left, Rmax_right by lra. intros x Hx. apply HD. unfold sampled_range in *. lra.
  - rewrite Rmin_left, Rmax_right by lra. intros x Hx. apply continuity_pt_filterlim.
    apply (ex_derive_continuous U). exists (dU x). apply HD. unfold sampled_range in *. lra.
  - rewrite Rmin_left, Rmax_right in Hc by lra. exists c. split; [exact Hc|].
    split; [unfold sampled_range in *; lra|exact E].
Qed.

Lemma secant_near x0 x1 t : x0 < x1 -> x1 - x0 <= h -> sampled_range xs x0 -> sampled_range xs x1 -> x0 <= t <= x1 ->
  Rabs (secant (x0, U x0) (x1, U x1) - dU t) <= M * h.
Proof.
  intros L Hh R0 R1 Ht. destruct (mean_value x0 x1 L R0 R1) as (c & Hc & Rc & E).
  unfold secant. cbn [fst snd]. rewrite E. replace (dU c * (x1 - x0) / (x1 - x0)) with (dU c) by (field; lra).
  assert (Rt : sampled_range xs t) by (unfold sampled_range in *; lra).
  apply Rle_trans with (1 := HdU t c Rt Rc). apply Rmult_le_compat_l; [exact HM|].
  apply Rabs_le. lra.
Qed.

Lemma samples_secants : secants_near dU (M * h) (combine xs ys).
Proof.
  assert (G : forall l k, (forall i q, nth_error l i = Some q -> nth_error (combine xs ys) (k + i)%nat = Some q) ->
    secants_near dU (M * h) l).
  { induction l as [|q0 [|q1 l] IH]; intros k Hk; [exact I|exact I|].
    assert (N0 := Hk 0%nat q0 eq_refl). assert (N1 := Hk 1%nat q1 eq_refl).
    destruct (fit_inv _ _ _ Hp) as (E & _ & HI & _). destruct HS as [S1 S2].
    assert (F : forall i q, nth_error (combine xs ys) i = Some q ->
       nth_error xs i = Some (fst q) /\ nth_error ys i = Some (snd q)).
    { clear. revert ys. induction xs as [|x l IH]; intros [|y r] [|i] q H; try discriminate.
      - injection H as <-. split; reflexivity.
      - exact (IH r i q H). }
    destruct (F _ _ N0) as [X0 Y0]. destruct (F _ _ N1) as [X1 Y1].
    replace (k + 1)%nat with (S (k + 0)) in X1, Y1 by lia.
    pose proof (proj1 (strictly_increasing_iff xs) HI _ _ _ X0 X1) as Q.
    pose proof (S2 _ _ _ X0 X1) as Q2. pose proof (S1 _ _ _ X0 Y0) as V0. pose proof (S1 _ _ _ X1 Y1) as V1.
    pose proof (increasing_range _ _ X0) as R0. pose proof (increasing_range _ _ X1) as R1.
    destruct q0 as [x0 y0], q1 as [x1 y1]. cbn [fst snd] in *. subst y0 y1.
    split; [exact Q|]. split; [apply secant_near; try assumption; cbn; lra|].
    split; [apply secant_near; try assumption; cbn; lra|].
    apply (IH (S k)). intros i q Hi. replace (S k + i)%nat with (k + S i)%nat by lia. apply Hk. exact Hi. }
  apply (G (combine xs ys) 0%nat). intros i q H. exact H.
Qed.

Lemma sampled_slope t : sampled_range xs t -> Rabs (pp_eval (pp_derivative p) t - dU t) <= 5 * (M * h).
Proof.
  intros Ht. destruct (sample_interval t Ht) as (i & x0 & x1 & X0 & X1 & Y0 & Y1 & Hi & Hh & R0 & R1).
  destruct (fit_facts xs ys p Hp) as (E1 & E2 & Mf & G & Ex & Ec).
  pose proof (nth_combine _ _ _ _ _ X0 Y0) as P0. pose proof (nth_combine _ _ _ _ _ X1 Y1) as P1.
  destruct (eval_between_nth _ _ i _ _ t G P0 P1 Hi) as (d0 & d1 & N0 & N1 & L & _ & _ & _ & D).
  unfold pp_eval. cbn [pp_derivative pp_x pp_c]. rewrite Ex, Ec, D. cbn [fst] in L |- *.
  assert (He : 0 <= M * h) by (apply Rmult_le_pos; [exact HM|apply step_nonneg]).
  pose proof (slopes_are_near dU (M * h) _ He samples_secants) as SN.
  pose proof (SN _ _ _ P0 N0) as B0. pose proof (SN _ _ _ P1 N1) as B1. cbn [fst] in B0, B1.
  pose proof (secant_near x0 x1 x0 L Hh R0 R1 ltac:(lra)) as C0.
  pose proof (secant_near x0 x1 x1 L Hh R0 R1 ltac:(lra)) as C1.
  pose proof (secant_near x0 x1 t L Hh R0 R1 Hi) as Ct.
  set (sc := secant (x0, U x0) (x1, U x1)) in *.
  apply Rabs_le_between in B0. apply Rabs_le_between in B1.
  apply Rabs_le_between in C0. apply Rabs_le_between in C1. apply Rabs_le_between in Ct.
  pose proof (piece_slope_near (x0, U x0) (x1, U x1) d0 d1 (t - x0) (4 * (M * h)) L) as Q.
  fold sc in Q. cbn [fst] in Q. specialize (Q ltac:(lra) ltac:(apply Rabs_le; lra) ltac:(apply Rabs_le; lra)).
  apply Rabs_le_between in Q. apply Rabs_le. lra.
Qed.

Lemma sampled_value2 t : sampled_range xs t -> Rabs (pp_eval p t - U t) <= 5 * (M * h) * h.
Proof.
  intros Ht. destruct (sample_interval t Ht) as (i & x0 & x1 & X0 & X1 & Y0 & Y1 & Hi & Hh & R0 & R1).
  pose proof (fit_point xs ys p Hp i x0 _ X0 Y0) as V0.
  assert (He : 0 <= 5 * (M * h)) by (pose proof (Rmult_le_pos M h HM step_nonneg); lra).
  destruct (Req_dec t x0) as [->|N].
  { rewrite V0. replace (U x0 - U x0) with 0 by ring. rewrite Rabs_R0. apply Rmult_le_pos; [exact He|apply step_nonneg]. }
  destruct (MVT_gen (fun t => pp_eval p t - U t) x0 t (fun t => pp_eval (pp_derivative p) t - dU t)) as (c & Hc & E).
  - rewrite Rmin_left, Rmax_right by lra. intros x Hx. apply (is_derive_minus (pp_eval p) U).
    + apply (fit_derive xs ys p Hp).
    + apply HD. unfold sampled_range in *. lra.
  - rewrite Rmin_left, Rmax_right by lra. intros x Hx. apply continuity_pt_filterlim.
    apply (ex_derive_continuous (fun t => pp_eval p t - U t)). exists (pp_eval (pp_derivative p) x - dU x).
    apply (is_derive_minus (pp_eval p) U).
    + apply (fit_derive xs ys p Hp).
    + apply HD. unfold sampled_range in *. lra.
  - rewrite Rmin_left, Rmax_right in Hc by lra. rewrite V0 in E.
    replace (pp_eval p t - U t) with ((pp_eval (pp_derivative p) c - dU c) * (t - x0)) by lra.
    rewrite Rabs_mult. apply Rmult_le_compat; try apply Rabs_pos.
    + apply sampled_slope. unfold sampled_range in *. lra.
    + rewrite Rabs_pos_eq; lra.
Qed.
End Sampled.

(* ------------------------------------------------------------------ *)
(** * The reported gradient is continuous *)

Lemma glue_continuous (g k : R -> R) c : (forall t, continuous g t) -> (forall t, continuous k t) -> g c = k c ->
  forall t, continuous (fun t => if Rlt_dec t c then g t else k t) t.
Proof.
  intros Hg Hk E t.
  apply (continuous_ext (fun t => g (Rmin t c) + k (Rmax t c) - k c)).
  { intros s. destruct (Rlt_dec s c) as [L|L].
    - rewrite Rmin_left, Rmax_right by lra. lra.
    - rewrite Rmin_right, Rmax_left by lra. lra. }
  assert (M1 : forall t, continuous (fun t => Rmin t c) t).
  { intros s. apply (lip_continuous _ 1). intros y z. unfold Rmin, Rabs.
    repeat destruct (Rle_dec _ _); repeat destruct (Rcase_abs _); lra. }
  assert (M2 : forall t, continuous (fun t => Rmax t c) t).
  { intros s. apply (lip_continuous _ 1). intros y z. unfold Rmax, Rabs.
    repeat destruct (Rle_dec _ _); repeat destruct (Rcase_abs _); lra. }
  apply (continuous_minus (fun t => g (Rmin t c) + k (Rmax t c)) (fun _ => k c)); [|apply continuous_const].
  apply (continuous_plus (fun t => g (Rmin t c)) (fun t => k (Rmax t c))).
  - apply (continuous_comp (fun t => Rmin t c) g); [apply M1|apply Hg].
  - apply (continuous_comp (fun t => Rmax t c) k); [apply M2|apply Hk].
Qed.

Lemma pp_aux_continuous cs : forall xs, pp_wf_aux xs cs -> pp_cont_aux xs cs -> forall t, continuous (pp_eval_aux xs cs) t.
Proof.
  induction cs as [|c cs IH]; intros xs W C t; [destruct xs; contradiction|].
  destruct xs as [|x0 [|x1 xs]]; try contradiction.
  assert (P : forall t, continuous (fun t => horner c (t - x0)) t).
  { intros s. apply (continuous_comp (fun t => t - x0) (horner c)).
    - apply (continuous_minus (fun t => t) (fun _ => x0)); [apply continuous_id|apply continuous_const].
    - apply (ex_derive_continuous (horner c)). eexists. apply horner_is_derive. }
  destruct cs as [|c' cs].
  - apply (continuous_ext (fun t => horner c (t - x0))); [reflexivity|]. apply P.
  - destruct W as [L W]. destruct C as [E C].
    apply (continuous_ext (fun t => if Rlt_dec t x1 then horner c (t - x0) else pp_eval_aux (x1 :: xs) (c' :: cs) t));
      [reflexivity|].
    apply (glue_continuous (fun t => horner c (t - x0)) (pp_eval_aux (x1 :: xs) (c' :: cs)) x1).
    + apply P.
    + apply IH; assumption.
    + rewrite E. symmetry. apply eval_first. exact W.
Qed.

Lemma fit_slope_continuous xs ys p : pchip_fit xs ys = Ok p -> forall t, continuous (pp_eval (pp_derivative p)) t.
Proof.
  intros Hp t. destruct (fit_regular xs ys p Hp) as (W & _ & C).
  apply (pp_aux_continuous (pp_c (pp_derivative p)) (pp_x (pp_derivative p))); [|exact C].
  exact (wf_map col_deriv _ _ W).
Qed.
