(** How the nonlinear Thwaites method with the default fit reacts to the velocity (C124) and to the
    units (C100). *)
From Coq Require Import Reals List Lra.
From Coquelicot Require Import Coquelicot.
From Verif Require Import PyBase PyBaseFacts ThwaitesFitsModel SplineSpec SplineProofs CoreModel OdeSpec UnitsSpec
  ThwaitesOdeProofs UnitsProofs PositivityProofs WellPosedProofs FitLipschitzProofs WellPosedOdeProofs.
Import ListNotations.
Open Scope R_scope.

Section Core.
Context (F : R -> R) (LL : forall p q, Rabs (F p - F q) <= 28 * Rabs (p - q)) (F0 : F 0 = 44/100).
Context (a b k lo e e' : R) (Hab : a <= b) (Hk : 0 <= k) (Hlo : 0 < lo) (He : 0 <= e) (He' : 0 <= e').
Context (p q W1 W2 s y : R -> R).
Context (H1 : forall x, a <= x <= b -> lo <= W1 x /\ Rabs (p x) <= k * W1 x /\ is_derive s x (F (s x * p x) / W1 x)).
Context (H2 : forall x, a <= x <= b -> lo <= W2 x /\ Rabs (q x) <= k * W2 x /\ is_derive y x (F (y x * q x) / W2 x)).
Context (H3 : forall x, a <= x <= b -> Rabs (W2 x - W1 x) <= e * W1 x /\ Rabs (q x - p x) <= e' * W1 x).

Lemma F_bound v : Rabs (F v) <= 44/100 + 28 * Rabs v.
Proof.
  replace (F v) with (F 0 + (F v - F 0)) by ring. eapply Rle_trans; [apply Rabs_triang|].
  specialize (LL v 0). rewrite Rminus_0_r in LL. rewrite F0 at 1. rewrite Rabs_pos_eq by lra. lra.
Qed.

(** A solution is bounded by its initial value. *)
Lemma rate_bound x : a <= x <= b -> Rabs (F (y x * q x) / W2 x) <= 44/100 / lo + 28 * k * Rabs (y x).
Proof.
  intros Hx. destruct (H2 x Hx) as (A & B & _).
  unfold Rdiv. rewrite Rabs_mult, (Rabs_pos_eq (/ W2 x)) by (left; apply Rinv_0_lt_compat; lra).
  apply (Rmult_le_reg_r (W2 x)); [lra|]. rewrite Rmult_assoc, Rinv_l, Rmult_1_r by lra.
  eapply Rle_trans; [apply F_bound|]. rewrite Rabs_mult.
  assert (Q : Rabs (y x) * Rabs (q x) <= Rabs (y x) * (k * W2 x)) by (apply Rmult_le_compat_l; [apply Rabs_pos|exact B]).
  assert (Q2 : 1 <= / lo * W2 x).
  { apply (Rmult_le_reg_l lo); [lra|]. rewrite <- Rmult_assoc, Rinv_r by lra. lra. }
  rewrite Rmult_plus_distr_r. apply Rplus_le_compat; [lra|]. lra.
Qed.
Let E := exp (28 * k * (b - a)).
Let Y := (Rabs (y a) + 44/100 / lo * (b - a)) * E.
Lemma lo_rate : 0 <= 44/100 / lo.
Proof. apply Rlt_le, Rdiv_lt_0_compat; lra. Qed.
Lemma solution_bound x : a <= x <= b -> Rabs (y x) <= Y.
Proof.
  intros Hx. assert (PL := lo_rate).
  assert (B := osl_error y (fun _ => 0) (fun x => F (y x * q x) / W2 x) (fun _ => 0) a x (28 * k) (44/100 / lo) ltac:(lra) ltac:(lra) PL).
  cbv beta in B. rewrite !Rminus_0_r in B. eapply Rle_trans.
  - apply B. intros t Ht. destruct (H2 t ltac:(lra)) as (_ & _ & D).
    split; [exact D|]. split; [apply (@is_derive_const R_AbsRing)|]. rewrite !Rminus_0_r.
    eapply Rle_trans; [apply Rle_abs|]. rewrite Rabs_mult. assert (R := rate_bound t ltac:(lra)).
    assert (Q := Rmult_le_compat_r _ _ _ (Rabs_pos (y t)) R). rewrite <- (pow2_abs (y t)).
    replace (28 * k * Rabs (y t) ^ 2) with (28 * k * Rabs (y t) * Rabs (y t)) by ring. lra.
  - unfold Y, E. assert (0 <= Rabs (y a)) by apply Rabs_pos.
    assert (44/100 / lo * (x - a) <= 44/100 / lo * (b - a)) by (apply Rmult_le_compat_l; lra).
    assert (0 <= 44/100 / lo * (x - a)) by (apply Rmult_le_pos; lra).
    apply Rmult_le_compat; [lra|left; apply exp_pos|lra|].
    assert (X : 28 * k * (x - a) <= 28 * k * (b - a)) by (apply Rmult_le_compat_l; lra).
    destruct X as [X|X]; [left; apply exp_increasing, X|right; rewrite X; reflexivity].
Qed.

Lemma core_error : Rabs (y b - s b) <=
  (Rabs (y a - s a) + ((44/100 / lo + 28 * k * Y) * e + 28 * Y * e') * (b - a)) * E.
Proof.
  assert (PL := lo_rate). assert (PY : 0 <= Y) by (eapply Rle_trans; [apply Rabs_pos|apply (solution_bound a); lra]).
  assert (P1 : 0 <= 28 * k * Y) by (apply Rmult_le_pos; [lra|exact PY]).
  assert (P2 : 0 <= 28 * Y * e') by (apply Rmult_le_pos; [lra|exact He']).
  assert (P3 : 0 <= (44/100 / lo + 28 * k * Y) * e) by (apply Rmult_le_pos; lra).
  apply (osl_error y s (fun x => F (y x * q x) / W2 x) (fun x => F (s x * p x) / W1 x) a b (28 * k)
          ((44/100 / lo + 28 * k * Y) * e + 28 * Y * e') Hab ltac:(lra) ltac:(lra)).
  intros x Hx. destruct (H1 x Hx) as (A1 & B1 & D1). destruct (H2 x Hx) as (A2 & B2 & D2). destruct (H3 x Hx) as (C1 & C2).
  split; [exact D2|]. split; [exact D1|].
  assert (By := solution_bound x Hx). assert (Br := rate_bound x Hx).
  assert (I1 : 0 < / W1 x) by (apply Rinv_0_lt_compat; lra).
  replace (F (y x * q x) / W2 x - F (s x * p x) / W1 x) with
    (F (y x * q x) / W2 x * - ((W2 x - W1 x) / W1 x) + (F (y x * q x) - F (y x * p x)) / W1 x
     + (F (y x * p x) - F (s x * p x)) / W1 x) by (field; lra).
  rewrite 2!Rmult_plus_distr_r. set (z := y x - s x).
  assert (T1 : F (y x * q x) / W2 x * - ((W2 x - W1 x) / W1 x) * z <= (44/100 / lo + 28 * k * Y) * e * Rabs z).
  { eapply Rle_trans; [apply Rle_abs|]. rewrite Rabs_mult. apply Rmult_le_compat_r; [apply Rabs_pos|].
    rewrite Rabs_mult, Rabs_Ropp. apply Rmult_le_compat; try apply Rabs_pos.
    - eapply Rle_trans; [exact Br|]. apply Rplus_le_compat_l. apply Rmult_le_compat_l; lra.
    - unfold Rdiv. rewrite Rabs_mult, (Rabs_pos_eq (/ W1 x)) by lra.
      apply (Rmult_le_reg_r (W1 x)); [lra|]. rewrite Rmult_assoc, Rinv_l, Rmult_1_r by lra. exact C1. }
  assert (T2 : (F (y x * q x) - F (y x * p x)) / W1 x * z <= 28 * Y * e' * Rabs z).
  { eapply Rle_trans; [apply Rle_abs|]. rewrite Rabs_mult. apply Rmult_le_compat_r; [apply Rabs_pos|].
    unfold Rdiv. rewrite Rabs_mult, (Rabs_pos_eq (/ W1 x)) by lra.
    apply (Rmult_le_reg_r (W1 x)); [lra|]. rewrite Rmult_assoc, Rinv_l, Rmult_1_r by lra.
    eapply Rle_trans; [apply LL|]. rewrite <- Rmult_minus_distr_l, Rabs_mult.
    replace (28 * Y * e' * W1 x) with (28 * (Y * (e' * W1 x))) by ring.
    apply Rmult_le_compat_l; [lra|]. apply Rmult_le_compat; try apply Rabs_pos; assumption. }
  assert (T3 : (F (y x * p x) - F (s x * p x)) / W1 x * z <= 28 * k * z ^ 2).
  { eapply Rle_trans; [apply Rle_abs|]. rewrite <- (pow2_abs z).
    replace (28 * k * Rabs z ^ 2) with (28 * k * Rabs z * Rabs z) by ring.
    rewrite Rabs_mult. apply Rmult_le_compat_r; [apply Rabs_pos|].
    unfold Rdiv. rewrite Rabs_mult, (Rabs_pos_eq (/ W1 x)) by lra.
    apply (Rmult_le_reg_r (W1 x)); [lra|]. rewrite Rmult_assoc, Rinv_l, Rmult_1_r by lra.
    eapply Rle_trans; [apply LL|]. rewrite <- Rmult_minus_distr_r, Rabs_mult. fold z.
    replace (28 * k * Rabs z * W1 x) with (28 * (Rabs z * (k * W1 x))) by ring.
    apply Rmult_le_compat_l; [lra|]. apply Rmult_le_compat_l; [apply Rabs_pos|exact B1]. }
  lra.
Qed.
End Core.

Lemma velocity_error_nonlinear_lemma m1 m2 cs nu U V dU dV s1 s2 a b k lo e e' :
  m_kind m1 = ThwaitesNonlinear -> m_kind m2 = ThwaitesNonlinear -> cubic_spline_ok cs ->
  m_fit m1 = Some (fit_spline cs) -> m_fit m2 = Some (fit_spline cs) ->
  m_nu m1 = Fin nu -> m_nu m2 = Fin nu -> 0 < nu -> a <= b -> 0 <= k -> 0 < lo -> 0 <= e -> 0 <= e' ->
  (forall x, a <= x <= b -> velocity_at m1 U (dU x) x /\ solves1_at m1 s1 x /\
     velocity_at m2 V (dV x) x /\ solves1_at m2 s2 x /\ lo <= U x + 1/1000 /\ lo <= V x + 1/1000 /\
     Rabs (dU x) <= k * (U x + 1/1000) /\ Rabs (dV x) <= k * (V x + 1/1000) /\
     Rabs (V x - U x) <= e * (U x + 1/1000) /\ Rabs (dV x - dU x) <= e' * (U x + 1/1000)) ->
  0 < s1 a -> s2 a = s1 a -> stored1_at m1 s1 b -> stored1_at m2 s2 b ->
  let E := exp (28 * k * (b - a)) in
  let Y := (s1 a + 44/100 / lo * (b - a)) * E in
  exists v1 v2, q_delta_m m1 b = Ok (Fin v1) /\ q_delta_m m2 b = Ok (Fin v2) /\
    Rabs (v2 ^ 2 - v1 ^ 2) <= nu * (((44/100 / lo + 28 * k * Y) * e + 28 * Y * e') * (b - a) * E).
Proof.
  intros K1 K2 OK F1 F2 N1 N2 Pn Hab Hk Hlo He He' H Pa Ea (g1 & G1 & L1) (g2 & G2 & L2) E Y.
  destruct (default_rhs cs OK) as (S & Hs & FI & LL & F0 & BS & BH).
  assert (Pos : exists f S H, Some (fit_spline cs) = Some f /\ shear f (Fin 0) = Fin S /\ 0 < S /\ shape f (Fin 0) = Fin H).
  { exists (fit_spline cs), (S 0), (Hs 0). destruct (FI 0) as [A B]. unfold rhsF in F0. repeat split; try assumption. lra. }
  assert (P1 : 0 < s1 b).
  { apply (thwaites_positive_lemma m1 U dU s1 a b); [rewrite K1; discriminate|exact Hab|right; rewrite F1; exact Pos| |exact Pa].
    intros x Hx. destruct (H x Hx) as (A & B & _ & _ & C & _). repeat (split; [assumption|]). lra. }
  assert (P2 : 0 < s2 b).
  { apply (thwaites_positive_lemma m2 V dV s2 a b); [rewrite K2; discriminate|exact Hab|right; rewrite F2; exact Pos| |lra].
    intros x Hx. destruct (H x Hx) as (_ & _ & A & B & _ & C & _). repeat (split; [assumption|]). lra. }
  destruct (delta_m_of m1 nu g1 (s1 b) b ltac:(rewrite K1; discriminate) N1 Pn G1 (locally_singleton _ _ L1) ltac:(lra)) as (v1 & Q1 & D1).
  destruct (delta_m_of m2 nu g2 (s2 b) b ltac:(rewrite K2; discriminate) N2 Pn G2 (locally_singleton _ _ L2) ltac:(lra)) as (v2 & Q2 & D2).
  exists v1, v2. split; [exact Q1|]. split; [exact Q2|].
  rewrite D1, D2, <- Rmult_minus_distr_l, Rabs_mult, (Rabs_pos_eq nu) by lra. apply Rmult_le_compat_l; [lra|].
  assert (C := core_error (rhsF S Hs) LL F0 a b k lo e e' Hab Hk Hlo He He' dU dV (fun x => U x + 1/1000) (fun x => V x + 1/1000) s1 s2).
  cbv zeta in C. rewrite Ea, Rminus_eq_0, Rabs_R0, Rplus_0_l, (Rabs_pos_eq (s1 a)) in C by lra. fold E in C. fold Y in C. apply C.
  - intros x Hx. destruct (H x Hx) as ((LU & _ & QD) & (v & Ev & Dv) & _ & _ & A & _ & B & _).
    split; [exact A|]. split; [exact B|]. assert (QU := locally_singleton _ _ LU). cbv beta in QU.
    rewrite (rhs_nonlinear m1 _ S Hs x (s1 x) (U x) (dU x) K1 F1 FI QU QD) in Ev by lra. injection Ev as Ev. rewrite Ev. exact Dv.
  - intros x Hx. destruct (H x Hx) as (_ & _ & (LU & _ & QD) & (v & Ev & Dv) & _ & A & _ & B & _).
    split; [exact A|]. split; [exact B|]. assert (QU := locally_singleton _ _ LU). cbv beta in QU.
    rewrite (rhs_nonlinear m2 _ S Hs x (s2 x) (V x) (dV x) K2 F2 FI QU QD) in Ev by lra. injection Ev as Ev. rewrite Ev. exact Dv.
  - intros x Hx. destruct (H x Hx) as (_ & _ & _ & _ & _ & _ & _ & _ & A & B). split; [|exact B].
    replace (V x + 1/1000 - (U x + 1/1000)) with (V x - U x) by ring. exact A.
Qed.

(** ** C100 *)
Lemma units_nonlinear_lemma L T m1 m2 cs nu U dU s1 s2 a b k lo :
  0 < L -> 0 < T -> same_flow L T m1 m2 ->
  m_kind m1 = ThwaitesNonlinear -> cubic_spline_ok cs -> m_fit m1 = Some (fit_spline cs) ->
  m_nu m1 = Fin nu -> 0 < nu -> 0 <= k -> 0 < lo -> a <= b ->
  (forall x, a <= x <= b -> velocity_at m1 U (dU x) x /\ lo <= U x /\ Rabs (dU x) <= k * U x /\
     solves1_at m1 s1 x /\ solves1_at m2 s2 (L * x)) ->
  0 < s1 a -> s2 (L * a) = T * s1 a -> stored1_at m1 s1 b -> stored1_at m2 s2 (L * b) ->
  let E := exp (28 * k * (b - a)) in
  let Y := (s1 a + 44/100 / lo * (b - a)) * E in
  exists v1 v2, q_delta_m m1 b = Ok (Fin v1) /\ q_delta_m m2 (L * b) = Ok (Fin v2) /\
    Rabs (v2 ^ 2 - (L * v1) ^ 2) <= L ^ 2 * nu * ((44/100 / lo + 28 * k * Y) * (Rabs (T / L - 1) / (1000 * lo)) * (b - a) * E).
Proof.
  intros HL HT SF K1 OK F1 N1 Pn Hk Hlo Hab H Pa Ea (g1 & G1 & L1) (g2 & G2 & L2) E Y.
  assert (K2 : m_kind m2 = ThwaitesNonlinear) by (rewrite (sf_kind _ _ _ _ SF); exact K1).
  assert (F2 : m_fit m2 = Some (fit_spline cs)) by (rewrite (sf_fit _ _ _ _ SF); exact F1).
  assert (N2 := sf_nu _ _ _ _ SF _ N1).
  destruct (default_rhs cs OK) as (S & Hs & FI & LL & F0 & BS & BH).
  assert (Pos : exists f S H, Some (fit_spline cs) = Some f /\ shear f (Fin 0) = Fin S /\ 0 < S /\ shape f (Fin 0) = Fin H).
  { exists (fit_spline cs), (S 0), (Hs 0). destruct (FI 0) as [A B]. unfold rhsF in F0. repeat split; try assumption. lra. }
  assert (LT : 0 < L / T) by (apply Rdiv_lt_0_compat; lra). assert (TL : 0 < T / L) by (apply Rdiv_lt_0_compat; lra).
  assert (EY : forall y : R, L * (y / L) = y) by (intros; field; lra).
  assert (EX : forall y : R, L * y / L = y) by (intros; field; lra).
  assert (LU2 : forall x, a <= x <= b -> 0 < L / T * U x).
  { intros x Hx. apply Rmult_lt_0_compat; [exact LT|]. destruct (H x Hx) as (_ & A & _). lra. }
  assert (P1 : 0 < s1 b).
  { apply (thwaites_positive_lemma m1 U dU s1 a b); [rewrite K1; discriminate|exact Hab|right; rewrite F1; exact Pos| |exact Pa].
    intros x Hx. destruct (H x Hx) as (A & B & _ & C & _). repeat (split; [assumption|]). lra. }
  assert (P2 : 0 < s2 (L * b)).
  { apply (thwaites_positive_lemma m2 (fun t => L / T * U (t / L)) (fun t => dU (t / L) / T) s2 (L * a) (L * b));
      [rewrite K2; discriminate|apply Rmult_le_compat_l; lra|right; rewrite F2; exact Pos| |rewrite Ea; apply Rmult_lt_0_compat; lra].
    intros x Hx. assert (Z : a <= x / L <= b) by (split; [apply (Rle_div_r a x L)|apply (Rle_div_l x b L)]; lra).
    destruct (H _ Z) as (A & B & _ & _ & D). rewrite EY in D.
    pose proof (rescale_velocity L T m1 m2 U (dU (x / L)) (x / L) HL HT SF A) as A2. rewrite EY in A2.
    split; [exact A2|]. split; [exact D|]. specialize (LU2 _ Z). lra. }
  assert (Pn2 : 0 < L ^ 2 / T * nu) by (apply Rmult_lt_0_compat; [apply Rdiv_lt_0_compat; [apply pow_lt|]; lra|lra]).
  destruct (delta_m_of m1 nu g1 (s1 b) b ltac:(rewrite K1; discriminate) N1 Pn G1 (locally_singleton _ _ L1) ltac:(lra)) as (v1 & Q1 & D1).
  destruct (delta_m_of m2 _ g2 (s2 (L * b)) (L * b) ltac:(rewrite K2; discriminate) N2 Pn2 G2 (locally_singleton _ _ L2) ltac:(lra)) as (v2 & Q2 & D2).
  exists v1, v2. split; [exact Q1|]. split; [exact Q2|].
  rewrite Rpow_mult_distr, D1, D2. set (y := fun x => s2 (L * x) / T).
  replace (L ^ 2 / T * nu * s2 (L * b) - L ^ 2 * (nu * s1 b)) with (L ^ 2 * nu * (y b - s1 b)) by (unfold y; field; lra).
  assert (PL2 : 0 < L ^ 2 * nu) by (apply Rmult_lt_0_compat; [apply pow_lt|]; lra).
  rewrite Rabs_mult, (Rabs_pos_eq (L ^ 2 * nu)) by lra. apply Rmult_le_compat_l; [lra|].
  set (e := Rabs (T / L - 1) / (1000 * lo)).
  assert (Pe : 0 <= e) by (unfold e; apply Rmult_le_pos; [apply Rabs_pos|left; apply Rinv_0_lt_compat; lra]).
  assert (C := core_error (rhsF S Hs) LL F0 a b k lo e 0 Hab Hk Hlo Pe (Rle_refl 0) dU dU (fun x => U x + 1/1000)
    (fun x => U x + T / L * (1/1000)) s1 y).
  assert (Ya : y a = s1 a) by (unfold y; rewrite Ea; field; lra).
  cbv zeta in C. rewrite Ya, Rminus_eq_0, Rabs_R0, Rplus_0_l, (Rabs_pos_eq (s1 a)), Rmult_0_r, Rplus_0_r in C by lra.
  fold E in C. fold Y in C. apply C.
  - intros x Hx. destruct (H x Hx) as ((LU & _ & QD) & A & B & (v & Ev & Dv) & _).
    assert (k * U x <= k * (U x + 1/1000)) by (apply Rmult_le_compat_l; lra).
    split; [lra|]. split; [lra|]. assert (QU := locally_singleton _ _ LU). cbv beta in QU.
    rewrite (rhs_nonlinear m1 _ S Hs x (s1 x) (U x) (dU x) K1 F1 FI QU QD) in Ev by lra. injection Ev as Ev. rewrite Ev. exact Dv.
  - intros x Hx. destruct (H x Hx) as (V1 & A & B & _ & (v & Ev & Dv)).
    assert (P0 : 0 < T / L * (1/1000)) by lra.
    assert (k * U x <= k * (U x + T / L * (1/1000))) by (apply Rmult_le_compat_l; lra).
    split; [lra|]. split; [lra|].
    destruct (rescale_velocity L T m1 m2 U (dU x) x HL HT SF V1) as (LU & _ & QD).
    assert (QU := locally_singleton _ _ LU). cbv beta in QU. rewrite EX in QU.
    assert (PU := LU2 x Hx).
    rewrite (rhs_nonlinear m2 _ S Hs (L * x) (s2 (L * x)) (L / T * U x) (dU x / T) K2 F2 FI QU QD) in Ev by lra. injection Ev as Ev.
    replace (y x * dU x) with (s2 (L * x) * (dU x / T)) by (unfold y; field; lra).
    replace (rhsF S Hs (s2 (L * x) * (dU x / T)) / (U x + T / L * (1/1000))) with (L * v / T).
    + unfold y. assert (Dl : is_derive (fun x => s2 (L * x)) x (L * v)).
      { apply (is_derive_comp s2 (fun x => L * x) x v L); [exact Dv|]. auto_derive; [exact I|ring]. }
      apply (is_derive_ext (fun x => / T * s2 (L * x))); [intros t; unfold Rdiv; apply Rmult_comm|].
      replace (L * v / T) with (/ T * (L * v)) by (unfold Rdiv; ring). apply (is_derive_scal (fun x => s2 (L * x))), Dl.
    + rewrite <- Ev. set (D := U x + T / L * (1/1000)). assert (PD : 0 < D) by (unfold D; lra).
      replace (L / T * U x + 1/1000) with (L / T * D) by (unfold D; field; lra). field. repeat split; lra.
  - intros x Hx. destruct (H x Hx) as (_ & A & _). split; [|rewrite Rminus_eq_0, Rabs_R0; lra].
    replace (U x + T / L * (1/1000) - (U x + 1/1000)) with ((T / L - 1) * (1/1000)) by ring.
    rewrite Rabs_mult, (Rabs_pos_eq (1/1000)) by lra. unfold e.
    apply Rle_trans with (Rabs (T / L - 1) / (1000 * lo) * lo); [right; field; lra|].
    apply Rmult_le_compat_l; [exact Pe|lra].
Qed.
