From Coq Require Import Reals List Bool Lra Lia Psatz.
From Coquelicot Require Import Coquelicot.
From Verif Require Import PyBase PyBaseFacts FiniteDiffModel PPolyModel PPolyProofs
  InitialConditionModel ThwaitesFitsModel HeadModel CoreModel CoreSpec CoreProofs PchipModel.
Import ListNotations.
Open Scope R_scope.

(* ------------------------------------------------------------------ *)
(** * Slopes that keep a cubic monotone *)

Definition fc (m d : R) : Prop :=
  (0 < m -> 0 <= d <= 3 * m) /\ (m < 0 -> 3 * m <= d <= 0) /\ (m = 0 -> d = 0).

Lemma sign_pos r : 0 < r -> np_sign r = 1.
Proof. intros H. unfold np_sign. destruct (Rlt_dec 0 r); [reflexivity|lra]. Qed.
Lemma sign_neg r : r < 0 -> np_sign r = -1.
Proof. intros H. unfold np_sign. destruct (Rlt_dec 0 r); [lra|]. destruct (Rlt_dec r 0); [reflexivity|lra]. Qed.
Lemma sign_zero : np_sign 0 = 0.
Proof. unfold np_sign. destruct (Rlt_dec 0 0); [lra|]. destruct (Rlt_dec 0 0); [lra|reflexivity]. Qed.
Lemma sign_inv r : (np_sign r = 1 /\ 0 < r) \/ (np_sign r = -1 /\ r < 0) \/ (np_sign r = 0 /\ r = 0).
Proof.
  destruct (Rtotal_order r 0) as [H|[->|H]].
  - right; left. split; [apply sign_neg|]; exact H.
  - right; right. split; [apply sign_zero|reflexivity].
  - left. split; [apply sign_pos|]; exact H.
Qed.

Lemma edge_fc h0 h1 m0 m1 : 0 < h0 -> 0 < h1 -> fc m0 (pchip_edge h0 h1 m0 m1).
Proof.
  intros H0 H1. unfold pchip_edge.
  set (d := ((2 * h0 + h1) * m0 - h0 * m1) / (h0 + h1)).
  assert (Ed : d * (h0 + h1) = (2 * h0 + h1) * m0 - h0 * m1) by (unfold d; field; lra).
  clearbody d.
  assert (Z : fc m0 0) by (unfold fc; repeat split; lra).
  destruct (Reqb (np_sign d) (np_sign m0)) eqn:E; cbn [negb]; [|exact Z].
  apply Reqb_iff in E.
  destruct (sign_inv m0) as [[S0 P0]|[[S0 P0]|[S0 P0]]]; rewrite S0 in *;
  destruct (sign_inv d) as [[Sd Pd]|[[Sd Pd]|[Sd Pd]]]; rewrite Sd in E; try lra.
  - (* positive *)
    destruct (sign_inv m1) as [[S1 P1]|[[S1 P1]|[S1 P1]]]; rewrite S1.
    + rewrite Reqb_true by lra. cbn [negb andb]. unfold fc. repeat split; try lra.
      apply Rmult_le_reg_r with (h0 + h1); [lra|]. rewrite Ed. nra.
    + rewrite Reqb_false by lra. cbn [negb andb].
      destruct (Rltb (3 * Rabs m0) (Rabs d)) eqn:L.
      * unfold fc. repeat split; lra.
      * assert (N : ~ 3 * Rabs m0 < Rabs d) by (intros Q; rewrite Rltb_true in L by exact Q; discriminate).
        rewrite !Rabs_pos_eq in N by lra. unfold fc. repeat split; lra.
    + rewrite Reqb_false by lra. cbn [negb andb].
      destruct (Rltb (3 * Rabs m0) (Rabs d)) eqn:L.
      * unfold fc. repeat split; lra.
      * assert (N : ~ 3 * Rabs m0 < Rabs d) by (intros Q; rewrite Rltb_true in L by exact Q; discriminate).
        rewrite !Rabs_pos_eq in N by lra. unfold fc. repeat split; lra.
  - (* negative *)
    destruct (sign_inv m1) as [[S1 P1]|[[S1 P1]|[S1 P1]]]; rewrite S1.
    + rewrite Reqb_false by lra. cbn [negb andb].
      destruct (Rltb (3 * Rabs m0) (Rabs d)) eqn:L.
      * unfold fc. repeat split; lra.
      * assert (N : ~ 3 * Rabs m0 < Rabs d) by (intros Q; rewrite Rltb_true in L by exact Q; discriminate).
        rewrite !Rabs_left in N by lra. unfold fc. repeat split; lra.
    + rewrite Reqb_true by lra. cbn [negb andb]. unfold fc. repeat split; try lra.
      apply Rmult_le_reg_r with (h0 + h1); [lra|]. rewrite Ed. nra.
    + rewrite Reqb_false by lra. cbn [negb andb].
      destruct (Rltb (3 * Rabs m0) (Rabs d)) eqn:L.
      * unfold fc. repeat split; lra.
      * assert (N : ~ 3 * Rabs m0 < Rabs d) by (intros Q; rewrite Rltb_true in L by exact Q; discriminate).
        rewrite !Rabs_left in N by lra. unfold fc. repeat split; lra.
  - (* zero *)
    assert (D : d = 0) by exact Pd. subst d m0.
    destruct (negb (Reqb 0 (np_sign m1)) && Rltb (3 * Rabs 0) (Rabs 0)); unfold fc; repeat split; lra.
Qed.

Lemma harmonic a b w1 w2 : 0 < a -> 0 < b -> 0 < w1 -> 0 < w2 ->
  let d := 1 / ((w1 / a + w2 / b) / (w1 + w2)) in
  0 < d /\ d * w1 <= (w1 + w2) * a /\ d * w2 <= (w1 + w2) * b.
Proof.
  intros Ha Hb H1 H2 d.
  assert (E : d = (w1 + w2) * (a * b) / (w1 * b + w2 * a)).
  { unfold d. field. repeat split; nra. }
  assert (P : 0 < w1 * b + w2 * a) by nra.
  assert (Q : 0 < a * b) by nra.
  split; [rewrite E; apply Rdiv_lt_0_compat; nra|].
  assert (Ed : d * (w1 * b + w2 * a) = (w1 + w2) * (a * b)) by (rewrite E; field; lra).
  assert (Pd : 0 < d) by (rewrite E; apply Rdiv_lt_0_compat; nra).
  clearbody d. split.
  - apply Rmult_le_reg_r with b; [exact Hb|].
    assert (0 <= d * (w2 * a)) by (apply Rmult_le_pos; nra). nra.
  - apply Rmult_le_reg_r with a; [exact Ha|].
    assert (0 <= d * (w1 * b)) by (apply Rmult_le_pos; nra). nra.
Qed.

Lemma inner_fc p0 p1 p2 : fst p0 < fst p1 -> fst p1 < fst p2 ->
  fc (secant p0 p1) (pchip_inner p0 p1 p2) /\ fc (secant p1 p2) (pchip_inner p0 p1 p2).
Proof.
  intros H0 H1. unfold pchip_inner.
  set (h0 := fst p1 - fst p0). set (h1 := fst p2 - fst p1).
  assert (P0 : 0 < h0) by (unfold h0; lra). assert (P1 : 0 < h1) by (unfold h1; lra).
  set (m0 := secant p0 p1). set (m1 := secant p1 p2). clearbody h0 h1 m0 m1.
  assert (Z : forall m, fc m 0) by (intros; unfold fc; repeat split; lra).
  destruct (negb (Reqb (np_sign m1) (np_sign m0)) || (Reqb m1 0 || Reqb m0 0)) eqn:E;
    [split; apply Z|].
  apply orb_false_elim in E. destruct E as [E1 E2]. apply orb_false_elim in E2.
  destruct E2 as [E2 E3]. apply negb_false_iff, Reqb_iff in E1.
  assert (N1 : m1 <> 0) by (intros ->; rewrite Reqb_true in E2 by reflexivity; discriminate).
  assert (N0 : m0 <> 0) by (intros ->; rewrite Reqb_true in E3 by reflexivity; discriminate).
  destruct (sign_inv m0) as [[S0 Q0]|[[S0 Q0]|[S0 Q0]]]; [| |lra];
  destruct (sign_inv m1) as [[S1 Q1]|[[S1 Q1]|[S1 Q1]]]; try lra.
  - destruct (harmonic m0 m1 (2 * h1 + h0) (h1 + 2 * h0)) as (D1 & D2 & D3); try lra.
    set (d := 1 / _) in *. clearbody d. unfold fc. repeat split; try lra.
    + apply Rmult_le_reg_r with (2 * h1 + h0); [lra|]. nra.
    + apply Rmult_le_reg_r with (h1 + 2 * h0); [lra|]. nra.
  - destruct (harmonic (- m0) (- m1) (2 * h1 + h0) (h1 + 2 * h0)) as (D1 & D2 & D3); try lra.
    assert (E : 1 / (((2 * h1 + h0) / - m0 + (h1 + 2 * h0) / - m1) / (2 * h1 + h0 + (h1 + 2 * h0)))
              = - (1 / (((2 * h1 + h0) / m0 + (h1 + 2 * h0) / m1) / (2 * h1 + h0 + (h1 + 2 * h0))))).
    { assert ((2 * h1 + h0) * m1 + (h1 + 2 * h0) * m0 <> 0) by nra. field. repeat split; try lra; nra. }
    rewrite E in D1, D2, D3.
    set (d := 1 / _) in *. clearbody d. unfold fc. repeat split; try lra.
    + apply Rmult_le_reg_r with (2 * h1 + h0); [lra|]. nra.
    + apply Rmult_le_reg_r with (h1 + 2 * h0); [lra|]. nra.
Qed.

(** Points with slopes such that every piece is monotone. *)
Fixpoint good (l : list (R * R)) (ds : list R) : Prop :=
  match l, ds with
  | p :: l', d0 :: ds' =>
      match l', ds' with
      | q :: _, d1 :: _ =>
          fst p < fst q /\ fc (secant p q) d0 /\ fc (secant p q) d1 /\ good l' ds'
      | [], [] => True
      | _, _ => False
      end
  | _, _ => False
  end.

Fixpoint incr (l : list (R * R)) : Prop :=
  match l with p :: ((q :: _) as r) => fst p < fst q /\ incr r | _ => True end.

Lemma rest_good l : forall p0 p1 p2 d0, incr (p0 :: p1 :: p2 :: l) -> fc (secant p0 p1) d0 ->
  good (p0 :: p1 :: p2 :: l) (d0 :: pchip_rest p0 p1 (p2 :: l)).
Proof.
  induction l as [|p3 l IH]; intros p0 p1 p2 d0 (I1 & I2 & I3) F.
  - cbn [pchip_rest good]. destruct (inner_fc p0 p1 p2 I1 I2) as [A B].
    refine (conj I1 (conj F (conj A (conj I2 (conj B (conj _ I)))))).
    apply edge_fc; lra.
  - change (pchip_rest p0 p1 (p2 :: p3 :: l))
      with (pchip_inner p0 p1 p2 :: pchip_rest p1 p2 (p3 :: l)).
    destruct (inner_fc p0 p1 p2 I1 I2) as [A B].
    specialize (IH p1 p2 p3 (pchip_inner p0 p1 p2) (conj I2 I3) B).
    exact (conj I1 (conj F (conj A IH))).
Qed.

Lemma slopes_good l : (2 <= length l)%nat -> incr l -> good l (pchip_slopes l).
Proof.
  intros HL HI. destruct l as [|p0 [|p1 [|p2 l]]]; cbn in HL; try lia.
  - destruct HI as [I1 _].
    assert (F : forall m, fc m m) by (intros m; unfold fc; repeat split; lra).
    exact (conj I1 (conj (F _) (conj (F _) I))).
  - cbn [pchip_slopes]. apply rest_good; [exact HI|]. destruct HI as (I1 & I2 & _).
    apply edge_fc; lra.
Qed.

(* ------------------------------------------------------------------ *)
(** * One cubic piece *)

Lemma horner4 a b c d t : horner [a; b; c; d] t = ((a * t + b) * t + c) * t + d.
Proof. unfold horner. cbn. ring. Qed.
Lemma dcol4 a b c d t : horner (col_deriv [a; b; c; d]) t = (3 * a * t + 2 * b) * t + c.
Proof. unfold horner. cbn. ring. Qed.

Section Piece.
Variables p q : R * R.
Variables d0 d1 : R.
Hypothesis Hpq : fst p < fst q.
Let h := fst q - fst p.
Let m := secant p q.

Lemma piece_start : horner (hermite_col p q d0 d1) 0 = snd p.
Proof. unfold hermite_col. rewrite horner4. ring. Qed.
Lemma piece_end : horner (hermite_col p q d0 d1) h = snd q.
Proof. unfold hermite_col, secant. rewrite horner4. fold h. field. unfold h. lra. Qed.
Lemma piece_dstart : horner (col_deriv (hermite_col p q d0 d1)) 0 = d0.
Proof. unfold hermite_col. rewrite dcol4. ring. Qed.
Lemma piece_dend : horner (col_deriv (hermite_col p q d0 d1)) h = d1.
Proof. unfold hermite_col. rewrite dcol4. fold h m. field. unfold h. lra. Qed.

Lemma piece_slope s :
  horner (col_deriv (hermite_col p q d0 d1)) (s * h) =
  d0 * ((1 - s) * (1 - 3 * s)) + d1 * (s * (3 * s - 2)) + m * (6 * s * (1 - s)).
Proof. unfold hermite_col. rewrite dcol4. fold h m. field. unfold h. lra. Qed.

(** m d' >= 0 on the piece. *)
Lemma piece_monotone t : fc m d0 -> fc m d1 -> 0 <= t <= h ->
  let v := horner (col_deriv (hermite_col p q d0 d1)) t in
  (0 < m -> 0 <= v) /\ (m < 0 -> v <= 0) /\ (m = 0 -> v = 0).
Proof.
  intros (A1 & A2 & A3) (B1 & B2 & B3) Ht v.
  assert (Hh : 0 < h) by (unfold h; lra).
  set (s := t / h). assert (Es : t = s * h) by (unfold s; field; lra).
  assert (Hs : 0 <= s <= 1).
  { unfold s. split; [apply Rmult_le_reg_r with h|apply Rmult_le_reg_r with h]; try lra;
      unfold Rdiv; rewrite Rmult_assoc, Rinv_l; lra. }
  unfold v. rewrite Es, piece_slope. clearbody s. clear v.
  (* convex combination of the four corners *)
  assert (K : forall a b mm, 0 <= a <= 3 * mm -> 0 <= b <= 3 * mm -> 0 < mm ->
    0 <= a * ((1 - s) * (1 - 3 * s)) + b * (s * (3 * s - 2)) + mm * (6 * s * (1 - s))).
  { intros a b mm Ha Hb Hm.
    set (A := 3 * mm - a). set (B := 3 * mm - b).
    assert (0 <= A) by (unfold A; lra). assert (0 <= B) by (unfold B; lra).
    apply Rmult_le_reg_l with (9 * mm); [lra|]. rewrite Rmult_0_r.
    replace (9 * mm * (a * ((1 - s) * (1 - 3 * s)) + b * (s * (3 * s - 2)) + mm * (6 * s * (1 - s))))
      with ( (A * B) * (6 * (s * (1 - s))) + (a * B) * (3 * ((1 - s) * (1 - s)))
           + (A * b) * (3 * (s * s)) + (a * b) * (3 * ((1 - 2 * s) * (1 - 2 * s))))
      by (unfold A, B; ring).
    assert (0 <= A * B) by nra. assert (0 <= a * B) by nra. assert (0 <= A * b) by nra.
    assert (0 <= a * b) by nra. assert (0 <= s * (1 - s)) by nra.
    assert (0 <= (1 - s) * (1 - s)) by nra. assert (0 <= s * s) by nra.
    assert (0 <= (1 - 2 * s) * (1 - 2 * s)) by apply Rle_0_sqr.
    clearbody A B.
    repeat apply Rplus_le_le_0_compat; apply Rmult_le_pos; try assumption;
      (apply Rmult_le_pos; [lra|assumption]). }
  repeat split; intros Hm.
  - apply K; [apply A1; exact Hm|apply B1; exact Hm|exact Hm].
  - pose proof (K (- d0) (- d1) (- m)) as Q.
    specialize (A2 Hm). specialize (B2 Hm). lra.
  - rewrite A3, B3, Hm by exact Hm. ring.
Qed.

End Piece.

(* ------------------------------------------------------------------ *)
(** * The whole interpolant *)

Lemma good_wf l : forall ds, (2 <= length l)%nat -> good l ds ->
  pp_wf_aux (map fst l) (hermite_cols l ds).
Proof.
  induction l as [|p l IH]; intros ds HL G; [cbn in HL; lia|].
  destruct ds as [|d0 [|d1 ds]]; destruct l as [|q l]; try contradiction; try (cbn in HL; lia).
  destruct G as (G1 & G2 & G3 & G4).
  cbn [map hermite_cols pp_wf_aux]. split; [exact G1|].
  destruct l as [|r l].
  - destruct ds; [reflexivity|]. destruct G4.
  - destruct ds as [|d2 ds]; [destruct G4|].
    specialize (IH (d1 :: d2 :: ds) ltac:(cbn; lia) G4). exact IH.
Qed.

Lemma good_cont l : forall ds, good l ds ->
  pp_cont_aux (map fst l) (hermite_cols l ds) /\
  pp_cont_aux (map fst l) (map col_deriv (hermite_cols l ds)).
Proof.
  induction l as [|p l IH]; intros ds G; [split; exact I|].
  destruct ds as [|d0 [|d1 ds]]; destruct l as [|q l]; try contradiction; try (split; exact I).
  destruct G as (G1 & G2 & G3 & G4).
  specialize (IH (d1 :: ds) G4).
  destruct l as [|r l]; destruct ds as [|d2 ds]; try (destruct G4; fail).
  - split; exact I.
  - cbn [map hermite_cols pp_cont_aux]. destruct IH as [IH1 IH2]. split; (split; [|assumption]).
    + rewrite piece_end, piece_start by exact G1. reflexivity.
    + rewrite piece_dend, piece_dstart by exact G1. reflexivity.
Qed.

(** Value and slope between two neighbouring points. *)
Lemma eval_between_nth l : forall ds i p q t, good l ds ->
  nth_error l i = Some p -> nth_error l (S i) = Some q -> fst p <= t <= fst q ->
  exists d0 d1, nth_error ds i = Some d0 /\ nth_error ds (S i) = Some d1 /\ fst p < fst q /\ fc (secant p q) d0 /\ fc (secant p q) d1 /\
    pp_eval_aux (map fst l) (hermite_cols l ds) t = horner (hermite_col p q d0 d1) (t - fst p) /\
    pp_eval_aux (map fst l) (map col_deriv (hermite_cols l ds)) t
      = horner (col_deriv (hermite_col p q d0 d1)) (t - fst p).
Proof.
  induction l as [|a l IH]; intros ds i p q t G Hp Hq Ht; [destruct i; discriminate|].
  destruct ds as [|d0 [|d1 ds]]; destruct l as [|b l]; try contradiction;
    try (destruct i as [|i]; cbn in Hq; [discriminate|destruct i; discriminate]).
  pose proof G as (G1 & G2 & G3 & G4).
  destruct i as [|i].
  - cbn in Hp, Hq. injection Hp as <-. injection Hq as <-.
    exists d0, d1. split; [reflexivity|]. split; [reflexivity|]. split; [exact G1|]. split; [exact G2|]. split; [exact G3|].
    destruct l as [|c l]; destruct ds as [|d2 ds]; try (destruct G4; fail).
    + split; reflexivity.
    + destruct (good_cont _ _ G) as [C1 C2].
      pose proof (good_wf (b :: c :: l) (d1 :: d2 :: ds) ltac:(cbn; lia) G4) as W.
      cbn [map hermite_cols pp_eval_aux pp_cont_aux] in *.
      destruct C1 as [C1 _]. destruct C2 as [C2 _].
      destruct (Rlt_dec t (fst b)) as [L|L]; [split; reflexivity|].
      assert (t = fst b) as -> by lra.
      split.
      * rewrite C1. apply (eval_first _ _ _ _ W).
      * rewrite C2. apply (eval_first _ (map fst (c :: l)) _ (map col_deriv (hermite_cols (c :: l) (d2 :: ds)))).
        exact (wf_map col_deriv _ _ W).
  - assert (Hb : fst b <= t).
    { clear - G4 Hp Hq Ht. revert ds d1 b i G4 Hp Hq. 
      induction l as [|c l IH]; intros ds d1 b i G4 Hp Hq; [destruct i; cbn in Hq; try discriminate; destruct i; discriminate|].
      destruct ds as [|d2 ds]; [destruct G4|]. destruct G4 as (L & _ & _ & G4).
      destruct i as [|i]; [cbn in Hp; injection Hp as <-; lra|].
      cbn in Hp, Hq. specialize (IH ds d2 c i G4 Hp Hq). lra. }
    destruct (IH (d1 :: ds) i p q t G4 Hp Hq Ht) as (e0 & e1 & N0 & N1 & E1 & E2 & E3 & E4 & E5).
    exists e0, e1. split; [exact N0|]. split; [exact N1|]. split; [exact E1|]. split; [exact E2|]. split; [exact E3|].
    destruct l as [|c l]; [destruct i; cbn in Hq; try discriminate; destruct i; discriminate|].
    destruct ds as [|d2 ds]; [destruct G4|].
    cbn [map hermite_cols pp_eval_aux] in *.
    destruct (Rlt_dec t (fst b)) as [L|L]; [lra|]. split; assumption.
Qed.

Lemma eval_between l : forall ds i p q t, good l ds ->
  nth_error l i = Some p -> nth_error l (S i) = Some q -> fst p <= t <= fst q ->
  exists d0 d1, fst p < fst q /\ fc (secant p q) d0 /\ fc (secant p q) d1 /\
    pp_eval_aux (map fst l) (hermite_cols l ds) t = horner (hermite_col p q d0 d1) (t - fst p) /\
    pp_eval_aux (map fst l) (map col_deriv (hermite_cols l ds)) t
      = horner (col_deriv (hermite_col p q d0 d1)) (t - fst p).
Proof.
  intros ds i p q t G Hp Hq Ht.
  destruct (eval_between_nth l ds i p q t G Hp Hq Ht) as (d0 & d1 & _ & _ & A). exists d0, d1. exact A.
Qed.

(* ------------------------------------------------------------------ *)
(** * Facts about pchip_fit *)

Lemma incr_combine xs : forall ys, length xs = length ys -> strictly_increasing xs = true ->
  incr (combine xs ys).
Proof.
  induction xs as [|a [|b xs] IH]; intros [|c [|d ys]] HL HI; cbn in HL; try lia; try exact I.
  cbn [strictly_increasing] in HI. apply andb_true_iff in HI. destruct HI as [H1 H2].
  cbn [combine incr fst]. split; [apply Rltb_iff; exact H1|].
  apply (IH (d :: ys)); [cbn; lia|exact H2].
Qed.
Lemma map_fst_combine {A B} (xs : list A) : forall (ys : list B), length xs = length ys ->
  map fst (combine xs ys) = xs.
Proof.
  induction xs as [|a xs IH]; intros [|b ys] H; cbn in *; try lia; [reflexivity|].
  rewrite IH by lia. reflexivity.
Qed.
Lemma nth_combine {A B} (xs : list A) : forall (ys : list B) i a b,
  nth_error xs i = Some a -> nth_error ys i = Some b -> nth_error (combine xs ys) i = Some (a, b).
Proof.
  induction xs as [|x xs IH]; intros [|y ys] [|i] a b Ha Hb; cbn in *; try discriminate; try congruence.
  apply IH; assumption.
Qed.

Lemma fit_inv xs ys p : pchip_fit xs ys = Ok p ->
  length xs = length ys /\ (2 <= length xs)%nat /\ strictly_increasing xs = true /\
  pp_x p = xs /\ pp_c p = hermite_cols (combine xs ys) (pchip_slopes (combine xs ys)).
Proof.
  unfold pchip_fit. intros H.
  destruct (Nat.eqb (length xs) (length ys)) eqn:E1; [|discriminate].
  destruct (Nat.leb 2 (length xs)) eqn:E2; [|discriminate].
  destruct (strictly_increasing xs) eqn:E3; [|discriminate].
  cbn [andb] in H. injection H as <-. apply PeanoNat.Nat.eqb_eq in E1. apply PeanoNat.Nat.leb_le in E2.
  repeat split; assumption.
Qed.

Section Fit.
Variables xs ys : list R.
Variable p : ppoly.
Hypothesis Hp : pchip_fit xs ys = Ok p.

Let l := combine xs ys.
Let ds := pchip_slopes l.

Lemma fit_facts : length xs = length ys /\ (2 <= length xs)%nat /\ map fst l = xs /\ good l ds /\
  pp_x p = map fst l /\ pp_c p = hermite_cols l ds.
Proof.
  destruct (fit_inv _ _ _ Hp) as (E1 & E2 & E3 & E4 & E5).
  assert (M : map fst l = xs) by (apply map_fst_combine; exact E1).
  split; [exact E1|]. split; [exact E2|]. split; [exact M|]. split.
  - apply slopes_good; [unfold l; rewrite combine_length; lia|apply incr_combine; assumption].
  - split; [congruence|exact E5].
Qed.

Lemma fit_regular : pp_wf p /\ pp_continuous p /\ pp_continuous (pp_derivative p).
Proof.
  destruct fit_facts as (E1 & E2 & M & G & Ex & Ec).
  unfold pp_wf, pp_continuous. cbn [pp_derivative pp_x pp_c]. rewrite Ex, Ec.
  split; [apply good_wf; [unfold l; rewrite combine_length; lia|exact G]|]. apply good_cont. exact G.
Qed.

Lemma fit_derive t : is_derive (pp_eval p) t (pp_eval (pp_derivative p) t).
Proof. destruct fit_regular as (A & B & C). apply pp_derivative_correct; assumption. Qed.

Lemma fit_between i x0 x1 y0 y1 t :
  nth_error xs i = Some x0 -> nth_error xs (S i) = Some x1 ->
  nth_error ys i = Some y0 -> nth_error ys (S i) = Some y1 -> x0 <= t <= x1 ->
  let m := secant (x0, y0) (x1, y1) in
  x0 < x1 /\ pp_eval p x0 = y0 /\ pp_eval p x1 = y1 /\
  (0 < m -> 0 <= pp_eval (pp_derivative p) t) /\
  (m < 0 -> pp_eval (pp_derivative p) t <= 0) /\
  (m = 0 -> pp_eval (pp_derivative p) t = 0).
Proof.
  intros X0 X1 Y0 Y1 Ht m. destruct fit_facts as (E1 & E2 & M & G & Ex & Ec).
  unfold pp_eval. cbn [pp_derivative pp_x pp_c]. rewrite Ex, Ec.
  pose proof (nth_combine _ _ _ _ _ X0 Y0) as P0. pose proof (nth_combine _ _ _ _ _ X1 Y1) as P1.
  fold l in P0, P1.
  destruct (eval_between l ds i _ _ t G P0 P1 Ht) as (d0 & d1 & L & F0 & F1 & V & D).
  cbn [fst] in L.
  destruct (eval_between l ds i _ _ x0 G P0 P1) as (e0 & e1 & _ & _ & _ & V0 & _); [cbn; lra|].
  destruct (eval_between l ds i _ _ x1 G P0 P1) as (f0 & f1 & _ & _ & _ & V1 & _); [cbn; lra|].
  cbn [fst] in *.
  split; [exact L|]. split; [|split].
  - rewrite V0. replace (x0 - x0) with 0 by ring. apply piece_start.
  - rewrite V1. apply (piece_end (x0, y0) (x1, y1) f0 f1 L).
  - rewrite D. apply (piece_monotone (x0, y0) (x1, y1) d0 d1 L); [exact F0|exact F1|cbn; lra].
Qed.

(** Monotone between neighbours, in the direction of the data. *)
Lemma fit_monotone i x0 x1 y0 y1 s t :
  nth_error xs i = Some x0 -> nth_error xs (S i) = Some x1 ->
  nth_error ys i = Some y0 -> nth_error ys (S i) = Some y1 -> x0 <= s -> s <= t -> t <= x1 ->
  (y0 <= y1 -> pp_eval p s <= pp_eval p t) /\ (y1 <= y0 -> pp_eval p t <= pp_eval p s).
Proof.
  intros X0 X1 Y0 Y1 H1 H2 H3.
  destruct (Req_dec s t) as [->|Nst]; [split; lra|].
  destruct (MVT_gen (pp_eval p) s t (pp_eval (pp_derivative p))) as (c & Hc & E).
  - intros x _. apply fit_derive.
  - intros x _. apply continuity_pt_filterlim.
    apply (ex_derive_continuous (pp_eval p)). exists (pp_eval (pp_derivative p) x). apply fit_derive.
  - rewrite Rmin_left, Rmax_right in Hc by lra.
    destruct (fit_between i x0 x1 y0 y1 c X0 X1 Y0 Y1) as (L & _ & _ & P1 & P2 & P3); [lra|].
    unfold secant in *. cbn [fst snd] in *.
    split; intros Hy.
    + destruct (Req_dec y0 y1) as [->|N].
      * rewrite P3 in E by (unfold Rdiv; ring). lra.
      * assert (0 <= pp_eval (pp_derivative p) c) by (apply P1, Rdiv_lt_0_compat; lra).
        assert (0 <= pp_eval (pp_derivative p) c * (t - s)) by (apply Rmult_le_pos; lra). lra.
    + destruct (Req_dec y0 y1) as [->|N].
      * rewrite P3 in E by (unfold Rdiv; ring). lra.
      * assert (pp_eval (pp_derivative p) c <= 0).
        { apply P2. replace ((y1 - y0) / (x1 - x0)) with (- ((y0 - y1) / (x1 - x0))) by (field; lra).
          assert (0 < (y0 - y1) / (x1 - x0)) by (apply Rdiv_lt_0_compat; lra). lra. }
        assert (0 <= - pp_eval (pp_derivative p) c * (t - s)) by (apply Rmult_le_pos; lra). lra.
Qed.

Lemma fit_bounds i x0 x1 y0 y1 t :
  nth_error xs i = Some x0 -> nth_error xs (S i) = Some x1 ->
  nth_error ys i = Some y0 -> nth_error ys (S i) = Some y1 -> x0 <= t <= x1 ->
  Rmin y0 y1 <= pp_eval p t <= Rmax y0 y1.
Proof.
  intros X0 X1 Y0 Y1 Ht.
  destruct (fit_between i x0 x1 y0 y1 t X0 X1 Y0 Y1 Ht) as (L & V0 & V1 & _).
  destruct (fit_monotone i x0 x1 y0 y1 x0 t X0 X1 Y0 Y1) as [A B]; try lra.
  destruct (fit_monotone i x0 x1 y0 y1 t x1 X0 X1 Y0 Y1) as [C D]; try lra.
  rewrite V0 in A, B. rewrite V1 in C, D.
  destruct (Rle_dec y0 y1) as [H|H].
  - rewrite Rmin_left, Rmax_right by lra. split; [apply A|apply C]; lra.
  - rewrite Rmin_right, Rmax_left by lra. split; [apply D|apply B]; lra.
Qed.

(** Every point between the first and the last lies between two neighbours. *)
Lemma find_interval t : hd 0 xs <= t <= last xs 0 ->
  exists i x0 x1, nth_error xs i = Some x0 /\ nth_error xs (S i) = Some x1 /\ x0 <= t <= x1.
Proof.
  destruct (fit_inv _ _ _ Hp) as (_ & HL & _). clear - HL.
  revert HL. induction xs as [|a [|b r] IH]; cbn [length]; intros HL Ht; try lia.
  destruct (Rle_dec t b) as [H|H].
  - exists 0%nat, a, b. cbn in *. repeat split; try reflexivity; lra.
  - destruct r as [|c r].
    + cbn in Ht. lra.
    + destruct IH as (i & x0 & x1 & A & B & C); [cbn; lia|cbn in Ht |- *; lra|].
      exists (S i), x0, x1. repeat split; try assumption; lra.
Qed.

Lemma fit_point i x y : nth_error xs i = Some x -> nth_error ys i = Some y -> pp_eval p x = y.
Proof.
  intros X Y. destruct (fit_inv _ _ _ Hp) as (E & HL & _).
  destruct (nth_error xs (S i)) as [x1|] eqn:X1.
  - assert (S i < length ys)%nat by (rewrite <- E; apply nth_error_Some; congruence).
    destruct (nth_error ys (S i)) as [y1|] eqn:Y1; [|apply nth_error_None in Y1; lia].
    assert (L : x <= x \/ x < x) by (left; lra).
    destruct fit_facts as (_ & _ & _ & G & _).
    pose proof (nth_combine _ _ _ _ _ X Y) as P0. pose proof (nth_combine _ _ _ _ _ X1 Y1) as P1.
    destruct (Rle_dec x x1) as [H1|H1].
    + apply (fit_between i x x1 y y1 x X X1 Y Y1). lra.
    + exfalso. clear - G P0 P1 H1. fold l in P0, P1. revert i P0 P1. revert G. generalize ds.
      induction l as [|a r IH]; intros es G i P0 P1; [destruct i; discriminate|].
      destruct es as [|e0 [|e1 es]]; destruct r as [|b r]; try contradiction;
        try (destruct i as [|i]; cbn in P1; [discriminate|destruct i; discriminate]).
      destruct G as (L & _ & _ & G). destruct i as [|i].
      * cbn in P0, P1. injection P0 as ->. injection P1 as ->. cbn in L. lra.
      * apply (IH (e1 :: es) G i P0 P1).
  - destruct i as [|i].
    + exfalso. apply nth_error_None in X1. lia.
    + assert (S i < length xs)%nat by (apply nth_error_Some; congruence).
      destruct (nth_error xs i) as [x0|] eqn:X0; [|apply nth_error_None in X0; lia].
      destruct (nth_error ys i) as [y0|] eqn:Y0; [|apply nth_error_None in Y0; lia].
      destruct fit_facts as (_ & _ & _ & G & _).
      pose proof (nth_combine _ _ _ _ _ X0 Y0) as P0. pose proof (nth_combine _ _ _ _ _ X Y) as P1.
      destruct (Rle_dec x0 x) as [H1|H1].
      * apply (fit_between i x0 x y0 y x X0 X Y0 Y). lra.
      * exfalso. clear - G P0 P1 H1. fold l in P0, P1. revert i P0 P1. revert G. generalize ds.
        induction l as [|a r IH]; intros es G i P0 P1; [destruct i; discriminate|].
        destruct es as [|e0 [|e1 es]]; destruct r as [|b r]; try contradiction;
          try (destruct i as [|i]; cbn in P1; [discriminate|destruct i; discriminate]).
        destruct G as (L & _ & _ & G). destruct i as [|i].
        -- cbn in P0, P1. injection P0 as ->. injection P1 as ->. cbn in L. lra.
        -- apply (IH (e1 :: es) G i P0 P1).
Qed.

(** The slope is differentiable away from the points. *)
Lemma fit_second t : ~ In t xs ->
  is_derive (pp_eval (pp_derivative p)) t (pp_eval (pp_derivative (pp_derivative p)) t).
Proof.
  intros N. destruct fit_regular as (W & _ & _). unfold pp_eval, pp_wf in *.
  destruct (fit_inv _ _ _ Hp) as (_ & _ & _ & Ex & _). rewrite <- Ex in N.
  cbn [pp_derivative pp_x pp_c]. 
  set (X := pp_x p) in *. set (C := pp_c p) in *. clearbody X C. clear - W N.
  revert X W N. induction C as [|c C IH]; intros X W N; [destruct X; contradiction|].
  destruct X as [|x0 [|x1 X]]; try contradiction.
  assert (Hpiece : forall y, is_derive (fun y => horner (col_deriv c) (y - x0)) y
                               (horner (col_deriv (col_deriv c)) (y - x0))).
  { intros y. pose proof (horner_is_derive (col_deriv c) (y - x0)) as Hy.
    pose proof (is_derive_comp (horner (col_deriv c)) (fun y => y - x0) y _ 1 Hy) as G.
    unfold scal in G; simpl in G; unfold mult in G; simpl in G. rewrite Rmult_1_l in G.
    apply G. auto_derive; [trivial|ring]. }
  destruct C as [|c' C].
  - apply (is_derive_ext (fun y => horner (col_deriv c) (y - x0))); [reflexivity|]. apply Hpiece.
  - destruct W as [L W]. cbn [map].
    change (pp_eval_aux (x0 :: x1 :: X) (col_deriv (col_deriv c) :: col_deriv (col_deriv c') :: map col_deriv (map col_deriv C)) t)
      with (if Rlt_dec t x1 then horner (col_deriv (col_deriv c)) (t - x0)
            else pp_eval_aux (x1 :: X) (map col_deriv (map col_deriv (c' :: C))) t).
    assert (Nt : t <> x1) by (intros ->; apply N; right; left; reflexivity).
    destruct (Rlt_dec t x1) as [H|H].
    + apply (is_derive_ext_loc (fun y => horner (col_deriv c) (y - x0))); [|apply Hpiece].
      exists (mkposreal (x1 - t) ltac:(lra)). intros y Hy.
      unfold ball in Hy. cbn in Hy. unfold AbsRing_ball, abs, minus, plus, opp in Hy. cbn in Hy.
      apply Rabs_def2 in Hy. cbn [pp_eval_aux].
      destruct (Rlt_dec y x1); [reflexivity|lra].
    + apply (is_derive_ext_loc (pp_eval_aux (x1 :: X) (map col_deriv (c' :: C)))).
      * exists (mkposreal (t - x1) ltac:(lra)). intros y Hy.
        unfold ball in Hy. cbn in Hy. unfold AbsRing_ball, abs, minus, plus, opp in Hy. cbn in Hy.
        apply Rabs_def2 in Hy. cbn [map].
        change (pp_eval_aux (x0 :: x1 :: X) (col_deriv c :: col_deriv c' :: map col_deriv C) y)
          with (if Rlt_dec y x1 then horner (col_deriv c) (y - x0)
                else pp_eval_aux (x1 :: X) (map col_deriv (c' :: C)) y).
        destruct (Rlt_dec y x1); [lra|reflexivity].
      * apply IH; [exact W|]. intros Q. apply N. right. exact Q.
Qed.

End Fit.

From Verif Require Import WorkflowModel WorkflowSpec.

(* ------------------------------------------------------------------ *)
(** * C92: velocities given by points *)

Lemma strictly_increasing_iff xs : strictly_increasing xs = true <->
  forall i a b, nth_error xs i = Some a -> nth_error xs (S i) = Some b -> a < b.
Proof.
  induction xs as [|x [|y r] IH].
  - split; [intros _ [|i] a b H; discriminate|reflexivity].
  - split; [intros _ [|i] a b H H'; [discriminate|destruct i; discriminate]|reflexivity].
  - cbn [strictly_increasing]. rewrite andb_true_iff, Rltb_iff. split.
    + intros [L S] [|i] a b H H'; [cbn in H, H'; congruence|].
      apply (proj1 IH S i a b); assumption.
    + intros H. split; [apply (H 0%nat); reflexivity|].
      apply IH. intros i a b Ha Hb. apply (H (S i)); assumption.
Qed.

Lemma fit_usable xs ys :
  (usable_points xs ys -> exists p, pchip_fit xs ys = Ok p) /\
  (~ usable_points xs ys -> pchip_fit xs ys = Err ValueError).
Proof.
  unfold usable_points, pchip_fit. rewrite <- strictly_increasing_iff.
  destruct (PeanoNat.Nat.eqb_spec (length xs) (length ys)) as [E|E];
  destruct (PeanoNat.Nat.leb_spec 2 (length xs)) as [L|L];
  destruct (strictly_increasing xs) eqn:I; cbn [andb];
  (split; [intros (A & B & C); try lia; try discriminate; eexists; reflexivity
          |intros N; try reflexivity; exfalso; apply N; repeat split; assumption]).
Qed.

Lemma fit_follows xs ys p : pchip_fit xs ys = Ok p -> follows (pp_eval p) xs ys.
Proof.
  intros H. split; [apply (fit_point xs ys p H)|].
  intros i x0 x1 y0 y1 s t X0 X1 Y0 Y1 H1 H2 H3.
  destruct (fit_monotone xs ys p H i x0 x1 y0 y1 s t X0 X1 Y0 Y1 H1 H2 H3) as [M1 M2].
  pose proof (fit_bounds xs ys p H i x0 x1 y0 y1 s X0 X1 Y0 Y1 ltac:(lra)) as B1.
  pose proof (fit_bounds xs ys p H i x0 x1 y0 y1 t X0 X1 Y0 Y1 ltac:(lra)) as B2.
  split; intros Hy.
  - rewrite Rmin_left, Rmax_right in * by exact Hy. specialize (M1 Hy). lra.
  - rewrite Rmin_right, Rmax_left in * by exact Hy. specialize (M2 Hy). lra.
Qed.

Lemma points_velocity_lemma m v1 v2 xs us du d2u :
  np_asarray v1 = Ok (vec xs) -> np_asarray v2 = Ok (vec us) ->
  (~ usable_points xs us ->
     set_velocity pchip_scipy m (PTup [v1; v2]) du d2u = (m, Err ValueError)) /\
  (usable_points xs us ->
     exists m' U dU d2U,
       set_velocity pchip_scipy m (PTup [v1; v2]) du d2u = (m', Ok tt) /\
       answers m' U (fun x => Ok (dU x)) (fun x => Ok (d2U x)) /\
       follows U xs us /\
       (forall x, is_derive U x (dU x)) /\
       (forall x, ~ In x xs -> is_derive dU x (d2U x)) /\
       (forall lo hi, (forall u, In u us -> lo <= u <= hi) ->
          forall x, hd 0 xs <= x <= last xs 0 -> lo <= U x <= hi)).
Proof.
  intros H1 H2. destruct (fit_usable xs us) as [F1 F2].
  cbn [set_velocity]. unfold set_velocity_points.
  cbn [py_len List.length py_item nth_error bind]. rewrite H1, H2. cbn [vec nd_shape].
  change (negb (Nat.eqb (length [length xs]) 1)) with false.
  change (negb (Nat.eqb (length [length us]) 1)) with false. cbv iota.
  cbn [hd]. change (pchip_scipy (vec xs) (vec us)) with (pchip_fit xs us). split.
  - intros N. destruct (Nat.eqb (length xs) (length us)) eqn:E; cbn [negb]; [|reflexivity].
    destruct (Nat.ltb (length xs) 2); [reflexivity|]. rewrite F2 by exact N. reflexivity.
  - intros U. destruct (F1 U) as [p Hp]. destruct U as (U1 & U2 & U3).
    rewrite U1, ?PeanoNat.Nat.eqb_refl. cbn [negb].
    destruct (PeanoNat.Nat.ltb_spec (length us) 2) as [L|_]; [lia|].
    rewrite Hp. eexists _, (pp_eval p), (pp_eval (pp_derivative p)), (pp_eval (pp_derivative (pp_derivative p))).
    split; [reflexivity|]. split; [intros x; repeat split|].
    split; [apply fit_follows; exact Hp|].
    split; [apply (fit_derive xs us p Hp)|].
    split; [apply (fit_second xs us p Hp)|].
    intros lo hi HB x Hx.
    destruct (find_interval xs us p Hp x Hx) as (i & x0 & x1 & X0 & X1 & Hi).
    destruct (nth_error us i) as [y0|] eqn:Y0;
      [|apply nth_error_None in Y0; rewrite <- U1 in Y0; apply nth_error_None in Y0; congruence].
    destruct (nth_error us (S i)) as [y1|] eqn:Y1;
      [|apply nth_error_None in Y1; rewrite <- U1 in Y1; apply nth_error_None in Y1; congruence].
    pose proof (fit_bounds xs us p Hp i x0 x1 y0 y1 x X0 X1 Y0 Y1 Hi) as B.
    pose proof (HB y0 (nth_error_In _ _ Y0)) as B0. pose proof (HB y1 (nth_error_In _ _ Y1)) as B1.
    assert (lo <= Rmin y0 y1) by (apply Rmin_glb; lra).
    assert (Rmax y0 y1 <= hi) by (apply Rmax_lub; lra). lra.
Qed.

(** The scalar form: start value and derivative points. *)
Lemma derivative_points_lemma m u0 v1 v2 xs gs d2u :
  np_asarray v1 = Ok (vec xs) -> np_asarray v2 = Ok (vec gs) ->
  (~ usable_points xs gs ->
     set_velocity pchip_scipy m (PNum u0) (PTup [v1; v2]) d2u = (m, Err ValueError)) /\
  (usable_points xs gs ->
     exists m' U dU d2U,
       set_velocity pchip_scipy m (PNum u0) (PTup [v1; v2]) d2u = (m', Ok tt) /\
       answers m' U (fun x => Ok (dU x)) (fun x => Ok (d2U x)) /\
       U (hd 0 xs) = u0 /\
       follows dU xs gs /\
       (forall x, is_derive U x (dU x)) /\
       (forall x, is_derive dU x (d2U x))).
Proof.
  intros H1 H2. destruct (fit_usable xs gs) as [F1 F2].
  cbn [set_velocity]. unfold set_velocity_scalar.
  cbn [py_len List.length py_item nth_error bind]. rewrite H1, H2.
  change (pchip_scipy (vec xs) (vec gs)) with (pchip_fit xs gs). split.
  - intros N. rewrite F2 by exact N. reflexivity.
  - intros U. destruct (F1 U) as [p Hp]. rewrite Hp.
    destruct (fit_regular xs gs p Hp) as (W & C & _).
    destruct (pp_velocity_correct p u0 W C) as [V1 V2].
    destruct (fit_inv _ _ _ Hp) as (_ & _ & _ & Ex & _).
    eexists _, (pp_eval (pp_shift (pp_antiderivative p) u0)), (pp_eval p), (pp_eval (pp_derivative p)).
    split; [reflexivity|]. split; [intros x; repeat split|].
    split; [rewrite <- Ex; exact V1|].
    split; [apply fit_follows; exact Hp|]. split; [exact V2|].
    intros x. apply (fit_derive xs gs p Hp).
Qed.
