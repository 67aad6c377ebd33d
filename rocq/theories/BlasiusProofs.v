(** The Blasius profile: positivity, error of a piecewise polynomial approximation. *)
From Coq Require Import ZArith List Reals Ranalysis5 Lra Lia Psatz.
From Coquelicot Require Import Coquelicot.
From Verif Require Import BlasiusPoly.
Import ListNotations.
Open Scope R_scope.

(** A function whose derivative is not positive does not grow. *)
Lemma not_growing (V D : R -> R) a b : a <= b ->
  (forall t, a <= t <= b -> is_derive V t (D t)) -> (forall t, a <= t <= b -> D t <= 0) -> V b <= V a.
Proof.
  intros Hab HD HN. destruct (Rle_lt_or_eq_dec a b Hab) as [H|<-]; [|lra].
  destruct (MVT_gen V a b D) as [c [Hc E]].
  - intros x Hx. rewrite Rmin_left, Rmax_right in Hx by lra. apply HD. lra.
  - intros x Hx. rewrite Rmin_left, Rmax_right in Hx by lra.
    apply continuity_pt_filterlim, (ex_derive_continuous V). eexists. apply HD. lra.
  - rewrite Rmin_left, Rmax_right in Hc by lra. specialize (HN c ltac:(lra)). nra.
Qed.

Lemma exp_nat n : exp (INR n) = exp 1 ^ n.
Proof.
  induction n as [|n IH]; [apply exp_0|]. rewrite S_INR, exp_plus, IH. simpl. ring.
Qed.

(** ** The exact profile *)
Section Exact.
Variables (F0 F1 F2 : R -> R) (E w : R).
Hypothesis E_pos : 0 < E.
Hypothesis w_pos : 0 < w.
Hypothesis start0 : F0 0 = 0.
Hypothesis start1 : F1 0 = 0.
Hypothesis start2 : F2 0 = w.
Hypothesis D0 : forall t, 0 <= t <= E -> is_derive F0 t (F1 t).
Hypothesis D1 : forall t, 0 <= t <= E -> is_derive F1 t (F2 t).
Hypothesis D2 : forall t, 0 <= t <= E -> is_derive F2 t (- (F0 t * F2 t)).

Lemma F_cont (F D : R -> R) : (forall t, 0 <= t <= E -> is_derive F t (D t)) ->
  forall t, 0 <= t <= E -> continuity_pt F t.
Proof.
  intros H t Ht. apply continuity_pt_filterlim, (ex_derive_continuous F). eexists. apply H, Ht.
Qed.

Lemma F2_not_zero t : 0 <= t <= E -> F2 t <> 0.
Proof.
  intros Ht.
  destruct (continuity_ab_maj F0 0 E ltac:(lra) (F_cont _ _ D0)) as [m [Hm _]].
  set (K := F0 m) in *.
  set (V := fun s => - (F2 s * F2 s * exp (2 * K * s))).
  assert (HV : V t <= V 0).
  { apply (not_growing V (fun s => - (2 * exp (2 * K * s) * (F2 s * F2 s) * (K - F0 s))) 0 t ltac:(lra)).
    - intros s Hs. unfold V. auto_derive; [repeat split; try exact I; eexists; apply D2; lra|].
      replace (Derive (fun x => F2 x) s) with (- (F0 s * F2 s)); [ring|].
      symmetry. apply is_derive_unique, D2. lra.
    - intros s Hs. specialize (Hm s ltac:(lra)).
      assert (0 <= 2 * exp (2 * K * s) * (F2 s * F2 s) * (K - F0 s)); [|lra].
      apply Rmult_le_pos; [|lra]. apply Rmult_le_pos; [|nra].
      pose proof (exp_pos (2 * K * s)). lra. }
  unfold V in HV. rewrite start2, Rmult_0_r, exp_0 in HV. intros Hz. rewrite Hz in HV. nra.
Qed.

Lemma F2_pos t : 0 <= t <= E -> 0 < F2 t.
Proof.
  intros Ht. destruct (Rlt_or_le 0 (F2 t)) as [H|H]; [exact H|exfalso].
  destruct (Rle_lt_or_eq_dec (F2 t) 0 H) as [Hn|Hz]; [|exact (F2_not_zero t Ht Hz)].
  assert (H0 : 0 < t). { destruct (Rle_lt_or_eq_dec 0 t ltac:(lra)) as [G|G]; [exact G|].
    rewrite <- G, start2 in Hn. lra. }
  destruct (IVT_interv (fun s => - F2 s) 0 t) as [z [Hz1 Hz2]].
  - intros s Hs. apply continuity_pt_opp. apply (F_cont _ _ D2). lra.
  - exact H0.
  - rewrite start2. lra.
  - lra.
  - apply (F2_not_zero z ltac:(lra)). lra.
Qed.

Lemma F1_increasing a b : 0 <= a <= b -> b <= E -> F1 a <= F1 b.
Proof.
  intros Hab Hb.
  enough (- F1 b <= - F1 a) by lra.
  apply (not_growing (fun s => - F1 s) (fun s => - F2 s) a b ltac:(lra)).
  - intros s Hs. apply (is_derive_opp F1). apply D1. lra.
  - intros s Hs. pose proof (F2_pos s ltac:(lra)). lra.
Qed.

Lemma F1_nonneg t : 0 <= t <= E -> 0 <= F1 t.
Proof. intros Ht. rewrite <- start1. apply F1_increasing; lra. Qed.

Lemma F0_nonneg t : 0 <= t <= E -> 0 <= F0 t.
Proof.
  intros Ht. enough (- F0 t <= - F0 0) by lra.
  apply (not_growing (fun s => - F0 s) (fun s => - F1 s) 0 t ltac:(lra)).
  - intros s Hs. apply (is_derive_opp F0). apply D0. lra.
  - intros s Hs. pose proof (F1_nonneg s ltac:(lra)). lra.
Qed.

(** ** An approximation on part of the interval *)
Section Piece.
Variables (P0 P1 P2 P3 : R -> R) (a b delta : R).
Hypothesis inside : 0 <= a /\ a <= b /\ b <= E.
Hypothesis dP0 : forall t, a <= t <= b -> is_derive P0 t (P1 t).
Hypothesis dP1 : forall t, a <= t <= b -> is_derive P1 t (P2 t).
Hypothesis dP2 : forall t, a <= t <= b -> is_derive P2 t (P3 t).
Hypothesis defect : forall t, a <= t <= b -> Rabs (P3 t + P0 t * P2 t) <= delta.
Hypothesis slope : forall t, a <= t <= b -> Rabs (P2 t) <= 1.

Definition sq_err (t : R) : R :=
  (F0 t - P0 t) ^ 2 + (F1 t - P1 t) ^ 2 + (F2 t - P2 t) ^ 2.

Lemma piece_error : sq_err b * exp (- 3 * b) <= sq_err a * exp (- 3 * a) + delta ^ 2 * (b - a).
Proof.
  set (V := fun t => sq_err t * exp (- 3 * t) - delta ^ 2 * t).
  enough (V b <= V a) by (unfold V in *; lra).
  set (D := fun t => (2 * (F0 t - P0 t) * (F1 t - P1 t) + 2 * (F1 t - P1 t) * (F2 t - P2 t)
     + 2 * (F2 t - P2 t) * (- (F0 t * F2 t) - P3 t) - 3 * sq_err t) * exp (- 3 * t) - delta ^ 2).
  apply (not_growing V D a b ltac:(lra)).
  - intros t Ht. unfold V, sq_err. auto_derive.
    + assert (E0 : ex_derive F0 t) by (eexists; apply D0; lra).
      assert (E1 : ex_derive F1 t) by (eexists; apply D1; lra).
      assert (E2 : ex_derive F2 t) by (eexists; apply D2; lra).
      assert (E3 : ex_derive P0 t) by (eexists; apply dP0; lra).
      assert (E4 : ex_derive P1 t) by (eexists; apply dP1; lra).
      assert (E5 : ex_derive P2 t) by (eexists; apply dP2; lra).
      repeat split; assumption.
    + replace (Derive (fun x => F0 x) t) with (F1 t) by (symmetry; apply is_derive_unique, D0; lra).
      replace (Derive (fun x => F1 x) t) with (F2 t) by (symmetry; apply is_derive_unique, D1; lra).
      replace (Derive (fun x => F2 x) t) with (- (F0 t * F2 t))
        by (symmetry; apply is_derive_unique, D2; lra).
      replace (Derive (fun x => P0 x) t) with (P1 t) by (symmetry; apply is_derive_unique, dP0; lra).
      replace (Derive (fun x => P1 x) t) with (P2 t) by (symmetry; apply is_derive_unique, dP1; lra).
      replace (Derive (fun x => P2 x) t) with (P3 t) by (symmetry; apply is_derive_unique, dP2; lra).
      unfold D, sq_err. ring.
  - intros t Ht. unfold D.
    assert (HE : 0 < exp (- 3 * t) <= 1).
    { split; [apply exp_pos|]. rewrite <- exp_0. destruct (Req_dec t 0) as [->|Hn].
      - right. f_equal. ring.
      - left. apply exp_increasing. lra. }
    assert (Hd := defect t Ht). assert (Hs := slope t Ht).
    assert (HF := F0_nonneg t ltac:(lra)).
    set (d := P3 t + P0 t * P2 t) in *.
    replace (- (F0 t * F2 t) - P3 t)
      with (- ((F0 t - P0 t) * P2 t) - F0 t * (F2 t - P2 t) - d) by (unfold d; ring).
    unfold sq_err. set (x := F0 t - P0 t) in *. set (y := F1 t - P1 t) in *. set (z := F2 t - P2 t) in *.
    set (p := P2 t) in *. set (F := F0 t) in *.
    assert (Hd2 : d ^ 2 <= delta ^ 2).
    { apply Rabs_le_between in Hd. assert (0 <= (delta - d) * (delta + d)) by (apply Rmult_le_pos; lra). nra. }
    apply Rabs_le_between in Hs.
    clearbody d x y z p F. clear D V.
    assert (M : 2 * x * y + 2 * y * z + 2 * z * (- (x * p) - F * z - d) - 3 * (x ^ 2 + y ^ 2 + z ^ 2)
                <= delta ^ 2).
    { assert (0 <= F * z ^ 2) by (apply Rmult_le_pos; [exact HF|apply pow2_ge_0]).
      assert (- (2 * z * x * p) <= z ^ 2 + x ^ 2).
      { assert (0 <= (1 + p) * (x + z) ^ 2) by (apply Rmult_le_pos; [lra|apply pow2_ge_0]).
        assert (0 <= (1 - p) * (x - z) ^ 2) by (apply Rmult_le_pos; [lra|apply pow2_ge_0]).
        nra. }
      assert (2 * x * y <= x ^ 2 + y ^ 2) by (pose proof (pow2_ge_0 (x - y)); nra).
      assert (2 * y * z <= y ^ 2 + z ^ 2) by (pose proof (pow2_ge_0 (y - z)); nra).
      assert (- (2 * z * d) <= z ^ 2 + d ^ 2) by (pose proof (pow2_ge_0 (z + d)); nra).
      nra. }
    assert (0 <= delta ^ 2) by apply pow2_ge_0.
    set (Q := 2 * x * y + 2 * y * z + 2 * z * (- (x * p) - F * z - d) - 3 * (x ^ 2 + y ^ 2 + z ^ 2)) in *.
    nra.
Qed.
End Piece.

(** ** The pieces *)
Definition delta : R := / 10 ^ 19.

Definition p0 (l : list Z) (a t : R) : R := zeval l (4 * (t - a)) / IZR M.
Definition p1 (l : list Z) (a t : R) : R := 4 * zeval (zder l) (4 * (t - a)) / IZR M.
Definition p2 (l : list Z) (a t : R) : R := 16 * zeval (zder (zder l)) (4 * (t - a)) / IZR M.
Definition p3 (l : list Z) (a t : R) : R := 64 * zeval (zder (zder (zder l))) (4 * (t - a)) / IZR M.

Lemma M_pos : 0 < IZR M.
Proof. apply (IZR_lt 0). reflexivity. Qed.

Lemma scaled_derive l a c t :
  is_derive (fun t => c * zeval l (4 * (t - a)) / IZR M) t (4 * c * zeval (zder l) (4 * (t - a)) / IZR M).
Proof.
  pose proof M_pos as HM.
  apply (is_derive_ext (fun t => (c / IZR M) * zeval l (4 * (t - a)))); [intros s; match goal with |- @eq _ ?x ?y => change (@eq R x y) end; field; lra|].
  replace (4 * c * zeval (zder l) (4 * (t - a)) / IZR M)
    with ((c / IZR M) * (4 * zeval (zder l) (4 * (t - a)))) by (field; lra).
  apply (is_derive_scal (fun t => zeval l (4 * (t - a)))).
  apply (is_derive_comp (zeval l) (fun t => 4 * (t - a))).
  - apply zeval_derive.
  - auto_derive; [exact I|ring].
Qed.

Lemma p0_derive l a t : is_derive (p0 l a) t (p1 l a t).
Proof.
  apply (is_derive_ext (fun t => 1 * zeval l (4 * (t - a)) / IZR M)); [intros; unfold p0; rewrite Rmult_1_l; reflexivity|].
  unfold p1. replace 4 with (4 * 1) at 1 by ring. apply scaled_derive.
Qed.
Lemma p1_derive l a t : is_derive (p1 l a) t (p2 l a t).
Proof. unfold p1, p2. replace 16 with (4 * 4) by ring. apply (scaled_derive (zder l) a 4). Qed.
Lemma p2_derive l a t : is_derive (p2 l a) t (p3 l a t).
Proof. unfold p2, p3. replace 64 with (4 * 16) by ring. apply (scaled_derive (zder (zder l)) a 16). Qed.

Lemma good_defect l a t : good l = true -> a <= t <= a + / 4 ->
  Rabs (p3 l a t + p0 l a t * p2 l a t) <= delta.
Proof.
  intros HG Ht. unfold good in HG. apply andb_prop in HG. destruct HG as [HG _].
  apply Z.leb_le, IZR_le in HG. rewrite !mult_IZR in HG.
  pose proof M_pos as HM.
  assert (Hs : 0 <= 4 * (t - a) <= 1) by lra.
  assert (HB := zeval_bound (defect_poly l) _ Hs).
  set (s := 4 * (t - a)) in *.
  assert (E1 : p3 l a t + p0 l a t * p2 l a t = 16 * zeval (defect_poly l) s / (IZR M * IZR M)).
  { unfold p3, p0, p2. fold s. unfold defect_poly. rewrite zeval_add, zeval_scale, zeval_mul, mult_IZR.
    field. lra. }
  rewrite E1. unfold Rdiv. rewrite !Rabs_mult, (Rabs_pos_eq 16) by lra.
  rewrite (Rabs_pos_eq (/ (IZR M * IZR M))).
  2:{ left. apply Rinv_0_lt_compat. apply Rmult_lt_0_compat; exact HM. }
  apply (Rmult_le_reg_r (IZR M * IZR M)); [apply Rmult_lt_0_compat; exact HM|].
  rewrite Rmult_assoc, Rinv_l, Rmult_1_r by (apply Rgt_not_eq, Rmult_lt_0_compat; exact HM).
  apply (Rmult_le_reg_r (10 ^ 19)); [lra|]. unfold delta.
  replace (/ 10 ^ 19 * (IZR M * IZR M) * 10 ^ 19) with (IZR M * IZR M) by (field; lra).
  eapply Rle_trans; [|exact HG].
  replace (IZR (10 ^ 19)) with (10 ^ 19) by (simpl; lra).
  apply Rmult_le_compat_r; [lra|]. apply Rmult_le_compat_l; [lra|exact HB].
Qed.

Lemma good_slope l a t : good l = true -> a <= t <= a + / 4 -> Rabs (p2 l a t) <= 1.
Proof.
  intros HG Ht. unfold good in HG. apply andb_prop in HG. destruct HG as [_ HG].
  apply Z.leb_le, IZR_le in HG. rewrite !mult_IZR in HG.
  pose proof M_pos as HM.
  assert (Hs : 0 <= 4 * (t - a) <= 1) by lra.
  assert (HB := zeval_bound (zder (zder l)) _ Hs).
  unfold p2, Rdiv. rewrite !Rabs_mult, (Rabs_pos_eq 16) by lra.
  rewrite (Rabs_pos_eq (/ IZR M)) by (left; apply Rinv_0_lt_compat; exact HM).
  apply (Rmult_le_reg_r (IZR M)); [exact HM|].
  rewrite Rmult_assoc, Rinv_l, Rmult_1_r, Rmult_1_l by lra. lra.
Qed.

Lemma linked_same l r a : linked l r = true ->
  p0 r (a + / 4) (a + / 4) = p0 l a (a + / 4) /\ p1 r (a + / 4) (a + / 4) = p1 l a (a + / 4) /\
  p2 r (a + / 4) (a + / 4) = p2 l a (a + / 4).
Proof.
  intros H. unfold linked in H. apply andb_prop in H. destruct H as [H H3].
  apply andb_prop in H. destruct H as [H1 H2]. apply Z.eqb_eq in H1, H2, H3.
  unfold p0, p1, p2. replace (4 * (a + / 4 - (a + / 4))) with 0 by ring.
  replace (4 * (a + / 4 - a)) with 1 by field.
  rewrite !zeval_zero, !zeval_one, H1, H2, H3. auto.
Qed.

Definition err (l : list Z) (a t : R) : R := sq_err (p0 l a) (p1 l a) (p2 l a) t.

Lemma within l a b t : good l = true -> 0 <= a -> a <= b <= t -> t <= a + / 4 -> t <= E ->
  err l a b * exp (- 3 * b) <= delta ^ 2 * b -> err l a t * exp (- 3 * t) <= delta ^ 2 * t.
Proof.
  intros HG Ha Hb Ht HE H0.
  assert (G := piece_error (p0 l a) (p1 l a) (p2 l a) (p3 l a) b t delta ltac:(lra)
    (fun s _ => p0_derive l a s) (fun s _ => p1_derive l a s) (fun s _ => p2_derive l a s)
    (fun s Hs => good_defect l a s HG ltac:(lra)) (fun s Hs => good_slope l a s HG ltac:(lra))).
  fold (err l a b) in G. fold (err l a t) in G. lra.
Qed.

Lemma chain_error l rest a : chained l rest = true -> 0 <= a ->
  err l a a * exp (- 3 * a) <= delta ^ 2 * a ->
  forall k r t, nth_error (l :: rest) k = Some r ->
    a + INR k * / 4 <= t <= a + INR k * / 4 + / 4 -> t <= E ->
    err r (a + INR k * / 4) t * exp (- 3 * t) <= delta ^ 2 * t.
Proof.
  revert l a. induction rest as [|r rest IH]; intros l a HC Ha H0 k q t Hk Ht HE.
  - destruct k as [|k]; [|destruct k; discriminate Hk]. injection Hk as <-.
    simpl INR in *. rewrite Rmult_0_l, Rplus_0_r in *.
    apply (within l a a t); try assumption; lra.
  - cbn [chained] in HC. apply andb_prop in HC. destruct HC as [HC Hr].
    apply andb_prop in HC. destruct HC as [HG HL].
    destruct k as [|k].
    + injection Hk as <-. simpl INR in *. rewrite Rmult_0_l, Rplus_0_r in *.
      apply (within l a a t); try assumption; lra.
    + rewrite S_INR in *. replace (a + (INR k + 1) * / 4) with (a + / 4 + INR k * / 4) in * by ring.
      assert (Hk0 : 0 <= INR k * / 4) by (pose proof (pos_INR k); lra).
      apply (IH r (a + / 4)); try assumption; [lra|].
      destruct (linked_same l r a HL) as [L0 [L1 L2]].
      unfold err, sq_err. rewrite L0, L1, L2.
      change (err l a (a + / 4) * exp (- 3 * (a + / 4)) <= delta ^ 2 * (a + / 4)).
      apply (within l a a (a + / 4)); try assumption; lra.
Qed.

Hypothesis w_is : w = 4695999888844369 / 10000000000000000.

Lemma profile_error k l t : nth_error profile_pieces k = Some l ->
  INR k * / 4 <= t <= INR k * / 4 + / 4 -> t <= E ->
  err l (INR k * / 4) t * exp (- 3 * t) <= delta ^ 2 * t.
Proof.
  intros Hk Ht HE.
  pose proof profile_pieces_checked as HC.
  assert (Hh : match profile_pieces with
               | l :: _ => hd 0%Z l = 0%Z /\ hd 0%Z (zder l) = 0%Z /\
                   (hd 0 (zder (zder l)) * 16 * 10 ^ 16 = 4695999888844369 * M)%Z
               | [] => False end) by (vm_compute; auto).
  destruct profile_pieces as [|l0 rest]; [contradiction|].
  rewrite <- (Rplus_0_l (INR k * / 4)) in *.
  apply (chain_error l0 rest 0 HC); try assumption; try lra.
  destruct Hh as [H0 [H1 H2]].
  unfold err, sq_err, p0, p1, p2. rewrite Rminus_0_r, Rmult_0_r, !zeval_zero, H0, H1, start0, start1, start2, w_is.
  assert (HM := M_pos).
  replace (16 * IZR (hd 0%Z (zder (zder l0))) / IZR M) with (4695999888844369 / 10000000000000000).
  2:{ apply (f_equal IZR) in H2. rewrite !mult_IZR in H2.
      apply (Rmult_eq_reg_r (IZR M * IZR (10 ^ 16))); [|apply Rgt_not_eq, Rmult_lt_0_compat; [exact HM|apply (IZR_lt 0); reflexivity]].
      replace (16 * IZR (hd 0%Z (zder (zder l0))) / IZR M * (IZR M * IZR (10 ^ 16)))
        with (IZR (hd 0%Z (zder (zder l0))) * 16 * IZR (10 ^ 16)) by (field; lra).
      rewrite H2. simpl Z.pow. field. }
  right. field. lra.
Qed.

Definition small : R := / 10 ^ 13.

Lemma profile_close k l t : nth_error profile_pieces k = Some l ->
  INR k * / 4 <= t <= INR k * / 4 + / 4 -> t <= E -> t <= 22 / 3 ->
  Rabs (F0 t - p0 l (INR k * / 4) t) <= small /\
  Rabs (F1 t - p1 l (INR k * / 4) t) <= small /\
  Rabs (F2 t - p2 l (INR k * / 4) t) <= small.
Proof.
  intros Hk Ht HE H22.
  assert (H := profile_error k l t Hk Ht HE).
  assert (Ht0 : 0 <= t) by (pose proof (pos_INR k); lra).
  assert (HX : exp (3 * t) <= 3 ^ 22).
  { apply Rle_trans with (exp 22).
    - destruct (Req_dec (3 * t) 22) as [->|Hn]; [right; reflexivity|]. left. apply exp_increasing. lra.
    - replace 22 with (INR 22) by (simpl; ring). rewrite exp_nat. apply pow_incr.
      split; [left; apply exp_pos|apply exp_le_3]. }
  assert (HS : err l (INR k * / 4) t <= small ^ 2).
  { replace (err l (INR k * / 4) t) with (err l (INR k * / 4) t * exp (- 3 * t) * exp (3 * t)).
    2:{ rewrite Rmult_assoc, <- exp_plus. replace (- 3 * t + 3 * t) with 0 by ring. rewrite exp_0. ring. }
    apply Rle_trans with (delta ^ 2 * t * exp (3 * t)).
    - apply Rmult_le_compat_r; [left; apply exp_pos|exact H].
    - apply Rle_trans with (delta ^ 2 * (22 / 3) * 3 ^ 22).
      + apply Rmult_le_compat; [| left; apply exp_pos| |exact HX].
        * apply Rmult_le_pos; [apply pow2_ge_0|exact Ht0].
        * apply Rmult_le_compat_l; [apply pow2_ge_0|exact H22].
      + unfold delta, small. lra. }
  unfold err, sq_err in HS.
  set (x := F0 t - _) in *. set (y := F1 t - _) in *. set (z := F2 t - _) in *. clearbody x y z.
  assert (0 < small) by (unfold small; lra).
  assert (B : forall v, v ^ 2 <= small ^ 2 -> Rabs v <= small).
  { intros v Hv. apply Rabs_le_between. split; nra. }
  pose proof (pow2_ge_0 x). pose proof (pow2_ge_0 y). pose proof (pow2_ge_0 z).
  split; [|split]; apply B; lra.
Qed.

(** Certified values at the point [k/4 + p/(4 q)]. *)
Lemma profile_value k p q t lo0 hi0 lo1 hi1 lo2 hi2 den :
  t = INR k * / 4 + IZR p / IZR q * / 4 -> t <= E -> t <= 22 / 3 ->
  (0 <= p <= q)%Z -> (0 < q)%Z -> (0 < den)%Z ->
  match nth_error profile_pieces k with
  | Some l => (in_range l p q 1 lo0 hi0 den && in_range (zder l) p q 4 lo1 hi1 den
               && in_range (zder (zder l)) p q 16 lo2 hi2 den)%bool
  | None => false
  end = true ->
  IZR lo0 / IZR den - small <= F0 t <= IZR hi0 / IZR den + small /\
  IZR lo1 / IZR den - small <= F1 t <= IZR hi1 / IZR den + small /\
  IZR lo2 / IZR den - small <= F2 t <= IZR hi2 / IZR den + small.
Proof.
  intros Et HE H22 Hp Hq Hd H.
  destruct (nth_error profile_pieces k) as [l|] eqn:Hk; [|discriminate H].
  apply andb_prop in H. destruct H as [H R2]. apply andb_prop in H. destruct H as [R0 R1].
  apply in_range_true in R0, R1, R2; try assumption.
  assert (HQ : 0 < IZR q) by (apply (IZR_lt 0); exact Hq).
  assert (Hs : 0 <= IZR p / IZR q <= 1).
  { destruct Hp as [Hp1 Hp2]. apply IZR_le in Hp1, Hp2. split.
    - apply Rdiv_le_0_compat; lra.
    - apply (Rmult_le_reg_r (IZR q)); [exact HQ|]. unfold Rdiv. rewrite Rmult_assoc, Rinv_l by lra. lra. }
  destruct (profile_close k l t Hk ltac:(lra) HE H22) as [C0 [C1 C2]].
  unfold p0 in C0. unfold p1 in C1. unfold p2 in C2.
  replace (4 * (t - INR k * / 4)) with (IZR p / IZR q) in C0, C1, C2 by (rewrite Et; field; lra).
  rewrite Rmult_1_l in R0.
  apply Rabs_le_between in C0, C1, C2. lra.
Qed.

(** ** The integral of 2 f f' f'' *)
Variable K : R -> R.
Hypothesis K0 : K 0 = 0.
Hypothesis DK : forall t, 0 <= t <= E -> is_derive K t (F2 t * F2 t).
Hypothesis E_22 : E <= 22 / 3.

Lemma F2_le t : 0 <= t <= E -> F2 t <= w.
Proof.
  intros Ht. rewrite <- start2.
  apply (not_growing F2 (fun s => - (F0 s * F2 s)) 0 t ltac:(lra)).
  - intros s Hs. apply D2. lra.
  - intros s Hs. pose proof (F0_nonneg s ltac:(lra)). pose proof (F2_pos s ltac:(lra)). nra.
Qed.

Lemma F1_le t : 0 <= t <= E -> F1 t <= w * t.
Proof.
  intros Ht. enough (F1 t - w * t <= F1 0 - w * 0) by lra.
  apply (not_growing (fun s => F1 s - w * s) (fun s => F2 s - w) 0 t ltac:(lra)).
  - intros s Hs. apply (is_derive_minus F1 (fun s => w * s)); [apply D1; lra|].
    auto_derive; [exact I|ring].
  - intros s Hs. pose proof (F2_le s ltac:(lra)). lra.
Qed.

Lemma F0_le t : 0 <= t <= E -> F0 t <= w * t ^ 2 / 2.
Proof.
  intros Ht. enough (F0 t - w * t ^ 2 / 2 <= F0 0 - w * 0 ^ 2 / 2) by lra.
  apply (not_growing (fun s => F0 s - w * s ^ 2 / 2) (fun s => F1 s - w * s) 0 t ltac:(lra)).
  - intros s Hs. apply (is_derive_minus F0 (fun s => w * s ^ 2 / 2)); [apply D0; lra|].
    auto_derive; [exact I|]. field.
  - intros s Hs. pose proof (F1_le s ltac:(lra)). lra.
Qed.

Definition pk (l : list Z) (a t : R) : R := zeval l (4 * (t - a)) / IZR M.

Lemma pk_derive l a t : is_derive (pk l a) t (4 * zeval (zder l) (4 * (t - a)) / IZR M).
Proof. exact (p0_derive l a t). Qed.

Definition kdelta : R := / 10 ^ 10.

Lemma kslope l kl k t : kgood (l, kl) = true -> nth_error profile_pieces k = Some l ->
  INR k * / 4 <= t <= INR k * / 4 + / 4 -> t <= E ->
  Rabs (F2 t * F2 t - 4 * zeval (zder kl) (4 * (t - INR k * / 4)) / IZR M) <= kdelta.
Proof.
  intros HG Hk Ht HE.
  assert (Ht0 : 0 <= t) by (pose proof (pos_INR k); lra).
  destruct (profile_close k l t Hk Ht HE ltac:(lra)) as [C0 [C1 C2]].
  set (a := INR k * / 4) in *.
  assert (Hs : 0 <= 4 * (t - a) <= 1) by lra.
  unfold kgood in HG. cbn [fst snd] in HG. apply Z.leb_le, IZR_le in HG. rewrite !mult_IZR in HG.
  assert (HB := zeval_bound (zadd (zscale M (zder kl)) (zscale (-64) (kprod l))) _ Hs).
  rewrite zeval_add, !zeval_scale in HB. unfold kprod in HB. rewrite !zeval_mul in HB.
  fold (kprod l) in HB.
  pose proof M_pos as HM. set (s := 4 * (t - a)) in *.
  assert (HP : Rabs (4 * zeval (zder kl) s / IZR M - p2 l a t * p2 l a t) <= / 10 ^ 11).
  { unfold p2. fold s.
    replace (4 * zeval (zder kl) s / IZR M
       - 16 * zeval (zder (zder l)) s / IZR M * (16 * zeval (zder (zder l)) s / IZR M))
      with (4 * (IZR M * zeval (zder kl) s + -64 * (zeval (zder (zder l)) s * zeval (zder (zder l)) s))
             / (IZR M * IZR M)) by (field; lra).
    assert (HM2 : 0 < IZR M * IZR M) by (apply Rmult_lt_0_compat; exact HM).
    unfold Rdiv. rewrite !Rabs_mult, (Rabs_pos_eq 4) by lra.
    rewrite (Rabs_pos_eq (/ (IZR M * IZR M))) by (left; apply Rinv_0_lt_compat; exact HM2).
    apply (Rmult_le_reg_r (IZR M * IZR M * 10 ^ 11)); [apply Rmult_lt_0_compat; [exact HM2|lra]|].
    match goal with |- 4 * ?X * / ?D * (?D * ?T) <= _ =>
      replace (4 * X * / D * (D * T)) with (4 * X * T) by (field; lra) end.
    replace (/ 10 ^ 11 * (IZR M * IZR M * 10 ^ 11)) with (IZR M * IZR M) by (field; lra).
    eapply Rle_trans; [|exact HG].
    replace (IZR (10 ^ 11)) with (10 ^ 11) by (simpl; lra).
    apply Rmult_le_compat_r; [lra|]. apply Rmult_le_compat_l; [lra|exact HB]. }
  pose proof (F2_pos t ltac:(lra)) as N2.
  pose proof (F2_le t ltac:(lra)) as U2.
  assert (B2 : F2 t <= 1) by (rewrite w_is in U2; lra).
  clear U2.
  set (g2 := p2 l a t) in *. set (x2 := F2 t) in *.
  set (q := 4 * zeval (zder kl) s / IZR M) in *. clearbody g2 x2 q.
  clear HB HG Hs s C0 C1.
  assert (A : forall u v cu cv, Rabs u <= cu -> Rabs v <= cv -> Rabs (u * v) <= cu * cv).
  { intros u v cu cv Hu Hv. rewrite Rabs_mult. apply Rmult_le_compat; try apply Rabs_pos; assumption. }
  assert (S1 : small <= 1) by (unfold small; lra).
  assert (G2 : Rabs g2 <= 2). { apply Rabs_le_between. apply Rabs_le_between in C2. lra. }
  replace (x2 * x2 - q) with ((x2 - g2) * x2 + g2 * (x2 - g2) - (q - g2 * g2)) by ring.
  assert (X1 : Rabs ((x2 - g2) * x2) <= small * 1).
  { apply A; [exact C2|]. apply Rabs_le_between; lra. }
  assert (X2 : Rabs (g2 * (x2 - g2)) <= 2 * small) by (apply A; assumption).
  apply Rabs_le_between in X1, X2, HP. apply Rabs_le_between. unfold kdelta, small in *. lra.
Qed.

Lemma kwithin l kl k b t : kgood (l, kl) = true -> nth_error profile_pieces k = Some l ->
  INR k * / 4 <= b <= t -> t <= INR k * / 4 + / 4 -> t <= E ->
  Rabs (K b - pk kl (INR k * / 4) b) <= kdelta * b ->
  Rabs (K t - pk kl (INR k * / 4) t) <= kdelta * t.
Proof.
  intros HG Hk Hb Ht HE H0. apply Rabs_le_between in H0. apply Rabs_le_between.
  pose proof (pos_INR k) as Pk.
  assert (D : forall s, b <= s <= t -> is_derive (fun t => K t - pk kl (INR k * / 4) t) s
    (F2 s * F2 s - 4 * zeval (zder kl) (4 * (s - INR k * / 4)) / IZR M)).
  { intros s Hs. apply (is_derive_minus K (pk kl (INR k * / 4))); [apply DK; lra|apply pk_derive]. }
  split.
  - assert (G := not_growing (fun t => - kdelta * t - (K t - pk kl (INR k * / 4) t))
      (fun s => - kdelta - (F2 s * F2 s - 4 * zeval (zder kl) (4 * (s - INR k * / 4)) / IZR M))
      b t ltac:(lra)).
    cbv beta in G. enough (- kdelta * t - (K t - pk kl (INR k * / 4) t)
      <= - kdelta * b - (K b - pk kl (INR k * / 4) b)) by lra.
    apply G.
    + intros s Hs. apply (is_derive_minus (fun t => - kdelta * t)).
      * auto_derive; [exact I|ring].
      * apply D, Hs.
    + intros s Hs. pose proof (kslope l kl k s HG Hk ltac:(lra) ltac:(lra)) as X.
      apply Rabs_le_between in X. lra.
  - assert (G := not_growing (fun t => (K t - pk kl (INR k * / 4) t) - kdelta * t)
      (fun s => (F2 s * F2 s - 4 * zeval (zder kl) (4 * (s - INR k * / 4)) / IZR M) - kdelta)
      b t ltac:(lra)).
    cbv beta in G. enough ((K t - pk kl (INR k * / 4) t) - kdelta * t
      <= (K b - pk kl (INR k * / 4) b) - kdelta * b) by lra.
    apply G.
    + intros s Hs. apply (is_derive_minus (fun t => K t - pk kl (INR k * / 4) t) (fun t => kdelta * t)).
      * apply D, Hs.
      * auto_derive; [exact I|ring].
    + intros s Hs. pose proof (kslope l kl k s HG Hk ltac:(lra) ltac:(lra)) as X.
      apply Rabs_le_between in X. lra.
Qed.

Lemma kchain_error p rest j : kchained p rest = true ->
  (forall k q, nth_error (p :: rest) k = Some q -> nth_error profile_pieces (j + k) = Some (fst q)) ->
  Rabs (K (INR j * / 4) - pk (snd p) (INR j * / 4) (INR j * / 4)) <= kdelta * (INR j * / 4) ->
  forall k q t, nth_error (p :: rest) k = Some q ->
    INR (j + k) * / 4 <= t <= INR (j + k) * / 4 + / 4 -> t <= E ->
    Rabs (K t - pk (snd q) (INR (j + k) * / 4) t) <= kdelta * t.
Proof.
  revert p j. induction rest as [|r rest IH]; intros p j HC HP H0 k q t Hk Ht HE.
  - destruct k as [|k]; [|destruct k; discriminate Hk]. injection Hk as <-.
    rewrite Nat.add_0_r in *. destruct p as [l kl].
    assert (Hl := HP O _ eq_refl). rewrite Nat.add_0_r in Hl.
    apply (kwithin l kl j (INR j * / 4) t); try assumption; lra.
  - cbn [kchained] in HC. apply andb_prop in HC. destruct HC as [HC Hr].
    apply andb_prop in HC. destruct HC as [HG HL]. apply Z.eqb_eq in HL.
    destruct k as [|k].
    + injection Hk as <-. rewrite Nat.add_0_r in *. destruct p as [l kl].
      assert (Hl := HP O _ eq_refl). rewrite Nat.add_0_r in Hl.
      apply (kwithin l kl j (INR j * / 4) t); try assumption; lra.
    + rewrite <- Nat.add_succ_comm in *.
      apply (IH r (S j)); try assumption.
      * intros k' q' Hq'. rewrite Nat.add_succ_comm. apply (HP (S k')). exact Hq'.
      * assert (Hj : INR (S j) * / 4 = INR j * / 4 + / 4) by (rewrite S_INR; ring).
        assert (HT : INR (S j) * / 4 <= t).
        { apply Rle_trans with (INR (S j + k) * / 4); [|lra].
          apply Rmult_le_compat_r; [lra|]. apply le_INR. lia. }
        replace (pk (snd r) (INR (S j) * / 4) (INR (S j) * / 4))
          with (pk (snd p) (INR j * / 4) (INR (S j) * / 4)).
        2:{ unfold pk. rewrite Hj. replace (4 * (INR j * / 4 + / 4 - INR j * / 4)) with 1 by field.
            replace (4 * (INR j * / 4 + / 4 - (INR j * / 4 + / 4))) with 0 by ring.
            rewrite zeval_one, zeval_zero, HL. reflexivity. }
        destruct p as [l kl].
        assert (Hl := HP O _ eq_refl). rewrite Nat.add_0_r in Hl.
        apply (kwithin l kl j (INR j * / 4)); try assumption; lra.
Qed.

Lemma energy_value k p q t lo hi den :
  t = INR k * / 4 + IZR p / IZR q * / 4 -> t <= E ->
  (0 <= p <= q)%Z -> (0 < q)%Z -> (0 < den)%Z ->
  match nth_error energy_pieces k with
  | Some l => in_range (snd l) p q 1 lo hi den
  | None => false
  end = true ->
  IZR lo / IZR den - kdelta * t <= K t <= IZR hi / IZR den + kdelta * t.
Proof.
  intros Et HE Hp Hq Hd H.
  destruct (nth_error energy_pieces k) as [[l kl]|] eqn:Hk; [|discriminate H].
  apply in_range_true in H; try assumption. cbn [snd] in H.
  assert (HQ : 0 < IZR q) by (apply (IZR_lt 0); exact Hq).
  assert (Hs : 0 <= IZR p / IZR q <= 1).
  { destruct Hp as [Hp1 Hp2]. apply IZR_le in Hp1, Hp2. split.
    - apply Rdiv_le_0_compat; lra.
    - apply (Rmult_le_reg_r (IZR q)); [exact HQ|]. unfold Rdiv. rewrite Rmult_assoc, Rinv_l by lra. lra. }
  assert (HK : Rabs (K t - pk kl (INR k * / 4) t) <= kdelta * t).
  { destruct energy_pieces_checked as [HC H0]. pose proof energy_pieces_profile as HPP.
    destruct energy_pieces as [|p0' rest]; [discriminate HC|].
    apply (kchain_error p0' rest 0 HC) with (k := k) (q := (l, kl)); try assumption.
    - intros k' q' Hk'. cbn [Nat.add]. rewrite <- HPP. rewrite nth_error_map, Hk'. reflexivity.
    - simpl INR. unfold pk. rewrite !Rmult_0_l, Rminus_0_r, Rmult_0_r, zeval_zero, H0, K0.
      right. replace (0 - 0 / IZR M) with 0 by (field; pose proof M_pos; lra). rewrite Rabs_R0. ring.
    - cbn [Nat.add]. lra. }
  unfold pk in HK. replace (4 * (t - INR k * / 4)) with (IZR p / IZR q) in HK by (rewrite Et; field; lra).
  rewrite Rmult_1_l in H. apply Rabs_le_between in HK. lra.
Qed.
End Exact.
