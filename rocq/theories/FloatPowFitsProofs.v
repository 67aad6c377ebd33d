(** C174: proofs. *)
From Coq Require Import Reals ZArith Lra Lia Psatz Bool List.
From Flocq Require Import Core IEEE754.BinarySingleNaN.
From Interval Require Import Tactic.
From Verif Require Import PyBase PyBaseFacts ThwaitesFitsModel CoreModel FloatModel FloatSpec FloatFacts FloatProofs FloatXFoilModel
  FloatXFoilProofs FloatThwaitesModel FloatThwaitesSpec FloatThwaitesProofs FloatFitsProofs FloatStanfordModel FloatStanfordSpec FloatStanfordProofs FloatHeadSpec
  FloatScaleProofs FloatHeadProofs FloatPowFitsModel FloatPowFitsSpec.
From Verif Require Import ThwaitesFitsModel.
Open Scope R_scope.

Lemma p_1_52 : ab b_1_52 (152/100) (2/10^17). Proof. alit b_1_52 6845471433603154%positive (-52)%Z. Qed.
Lemma p_0_072 : ab b_0_072 (72/1000) (6/10^18). Proof. alit b_0_072 5188146770730811%positive (-56)%Z. Qed.
Lemma p_0_18 : ab b_0_18 (18/100) (7/10^18). Proof. alit b_0_18 6485183463413514%positive (-55)%Z. Qed.
Lemma p_4_1 : ab b_4_1 (41/10) (4/10^16). Proof. alit b_4_1 4616189618054758%positive (-50)%Z. Qed.
Lemma p_m4_1 : ab b_m4_1 (-41/10) (4/10^16). Proof. nlit b_m4_1 4616189618054758%positive (-50)%Z. Qed.
Lemma p_14 : ab b_14 14 0. Proof. alit b_14 7881299347898368%positive (-49)%Z. Qed.
Lemma p_0_56 : ab b_0_56 (56/100) (6/10^17). Proof. alit b_0_56 5044031582654956%positive (-53)%Z. Qed.
Lemma p_42 : ab b_42 42 0. Proof. alit b_42 5910974510923776%positive (-47)%Z. Qed.
Lemma p_0_2016 : ab b_0_2016 (2016/10000) (2/10^18). Proof. alit b_0_2016 7263405479023136%positive (-55)%Z. Qed.
Lemma p_0_62 : units b_0_62 (62/100) 1. Proof. ulit b_0_62 5584463537939415%positive (-53)%Z. Qed.

Lemma ab_abs x z e : ab x z e -> Rabs (real_of x - z) <= e.
Proof. intros [_ H]. apply Rabs_le, H. Qed.
Lemma tiny_1000 : / 2 ^ 1000 <= / 10 ^ 20.
Proof.
  apply Rle_trans with (/ 2 ^ 70); [|simpl; lra]. apply Rinv_le_contravar; [apply two_pow|apply Rle_pow; [lra|lia]].
Qed.
Lemma one_le_2_100 z : z <= 1 -> z <= 2 ^ 100.
Proof. intros H. eapply Rle_trans; [exact H|apply two_ge_1]. Qed.

Lemma ab_sq sq x z e A g : raises sq 2 -> ab x z e -> - A <= z <= A -> 0 <= e -> A + e <= 1 ->
  e * (2 * A + e) + 23/10^17 * (A + e) * (A + e) + / 10 ^ 20 <= g -> ab (sq x) (z * z) g.
Proof.
  intros S [N H] Hz He HA HG. assert (Bx : Rabs (real_of x) <= A + e) by (apply Rabs_le; lra).
  destruct (S x N) as [M E]; [apply one_le_2_100; lra|].
  destruct uu_small as [U0 _]. destruct uu_112 as [_ U1]. pose proof tiny_1000 as T.
  split; [exact M|]. apply Rabs_le_inv.
  change (2 / 2 ^ 53) with (2 * uu) in E.
  replace (real_of (sq x) - z * z) with ((real_of (sq x) - real_of x ^ 2) + (real_of x - z) * (real_of x + z)) by ring.
  eapply Rle_trans; [apply Rabs_triang|].
  assert (P : Rabs ((real_of x - z) * (real_of x + z)) <= e * (2 * A + e)).
  { rewrite Rabs_mult. apply Rmult_le_compat; try apply Rabs_pos; apply Rabs_le; lra. }
  assert (Q : 2 * uu * Rabs (real_of x) ^ 2 <= 23/10^17 * (A + e) * (A + e)).
  { replace (23/10^17 * (A + e) * (A + e)) with (23/10^17 * ((A + e) * (A + e))) by ring.
    apply Rmult_le_compat; [lra|apply pow2_ge_0|lra|].
    replace (Rabs (real_of x) ^ 2) with (Rabs (real_of x) * Rabs (real_of x)) by ring.
    apply Rmult_le_compat; try apply Rabs_pos; exact Bx. }
  lra.
Qed.
Lemma ab_cube cube x z e A g : raises cube 3 -> ab x z e -> - A <= z <= A -> 0 <= e -> A + e <= 1 ->
  e * (3 * ((A + e) * (A + e))) + 23/10^17 * ((A + e) * ((A + e) * (A + e))) + / 10 ^ 20 <= g -> ab (cube x) (z * z * z) g.
Proof.
  intros S [N H] Hz He HA HG. assert (Bx : Rabs (real_of x) <= A + e) by (apply Rabs_le; lra).
  assert (Bz : Rabs z <= A + e) by (apply Rabs_le; lra).
  destruct (S x N) as [M E]; [apply one_le_2_100; lra|].
  destruct uu_small as [U0 _]. destruct uu_112 as [_ U1]. pose proof tiny_1000 as T.
  split; [exact M|]. apply Rabs_le_inv.
  change (2 / 2 ^ 53) with (2 * uu) in E. set (y := real_of x) in *.
  replace (real_of (cube x) - z * z * z) with ((real_of (cube x) - y ^ 3) + (y - z) * (y * y + y * z + z * z)) by ring.
  eapply Rle_trans; [apply Rabs_triang|].
  assert (P : Rabs ((y - z) * (y * y + y * z + z * z)) <= e * (3 * ((A + e) * (A + e)))).
  { rewrite Rabs_mult. apply Rmult_le_compat; try apply Rabs_pos; [apply Rabs_le; lra|].
    assert (forall a b, Rabs a <= A + e -> Rabs b <= A + e -> Rabs (a * b) <= (A + e) * (A + e)).
    { intros a b Ha Hb. rewrite Rabs_mult. apply Rmult_le_compat; try apply Rabs_pos; assumption. }
    eapply Rle_trans; [apply Rabs_triang|]. eapply Rle_trans; [apply Rplus_le_compat_r, Rabs_triang|].
    pose proof (H0 y y Bx Bx). pose proof (H0 y z Bx Bz). pose proof (H0 z z Bz Bz). lra. }
  assert (Q : 2 * uu * Rabs y ^ 3 <= 23/10^17 * ((A + e) * ((A + e) * (A + e)))).
  { apply Rmult_le_compat; [lra|apply pow_le, Rabs_pos|lra|].
    replace (Rabs y ^ 3) with (Rabs y * (Rabs y * Rabs y)) by ring. pose proof (Rabs_pos y).
    apply Rmult_le_compat; [lra|nra|lra|]. apply Rmult_le_compat; lra. }
  lra.
Qed.

(* ------------------------------------------------------------------ *)
(** * Drela's fit *)
Section Drela.
Variables (sq cube : b64 -> b64).
Hypotheses (SQ : raises sq 2) (CU : raises cube 3).
Variables (l : b64) (c : R).
Hypotheses (H : ab l c (4/10^18)) (C : - 9/100 <= c <= 25/100).

Lemma d_sq : ab (sq l) (c * c) (2/10^17).
Proof. apply (ab_sq sq l c _ (1/4) _ SQ H); lra. Qed.
Lemma d_cube : ab (cube l) (c * c * c) (1/10^17).
Proof. apply (ab_cube cube l c _ (1/4) _ CU H); lra. Qed.
Lemma d_base : ab (l + b_0_18)%b64 (c + 18/100) (1/10^16).
Proof. apply (ab_add _ _ _ _ _ _ (43/100) _ H p_0_18); lra. Qed.
Lemma d_base_sq : ab (sq (l + b_0_18)%b64) ((c + 18/100) * (c + 18/100)) (2/10^16).
Proof. apply (ab_sq sq _ _ _ (43/100) _ SQ d_base); lra. Qed.
Lemma d_base_cube : ab (cube (l + b_0_18)%b64) ((c + 18/100) * (c + 18/100) * (c + 18/100)) (1/10^16).
Proof. apply (ab_cube cube _ _ _ (43/100) _ CU d_base); lra. Qed.
Lemma d_ratio k kf e : ab kf k e -> 0 < k <= 1 -> 0 <= e <= 1/10^16 ->
  0 <= k * (c * c) / ((c + 18/100) * (c + 18/100)) <= 1 /\
  ab (kf * sq l / sq (l + b_0_18))%b64 (k * (c * c) / ((c + 18/100) * (c + 18/100))) (4/10^14).
Proof.
  intros K Hk He.
  assert (Q0 : 0 <= c * c <= 625/10000) by nra.
  assert (Q1 : 81/10000 <= (c + 18/100) * (c + 18/100)) by nra.
  assert (Q2 : c * c <= (c + 18/100) * (c + 18/100)) by nra.
  assert (Q : 0 <= k * (c * c) / ((c + 18/100) * (c + 18/100)) <= 1).
  { split; [apply quot_ge; [lra|]; rewrite Rmult_0_l; apply Rmult_le_pos; lra|apply quot_le; [lra|]].
    assert (k * (c * c) <= 1 * (c * c)) by (apply Rmult_le_compat_r; lra). lra. }
  split; [exact Q|].
  assert (P := ab_mul _ _ _ _ _ _ 1 (1/10) (5/10^17) K d_sq ltac:(lra) ltac:(lra) ltac:(lra) ltac:(lra) ltac:(lra) ltac:(lra)).
  apply (ab_div _ _ _ _ _ _ (81/10000) 1 _ P d_base_sq); lra.
Qed.

Lemma d_shear : exists t, drela_shear (Fin c) = Fin t /\ -1 <= t <= 1 /\ ab (drela_shear64 sq cube l) t (1/10^13).
Proof.
  destruct (d_ratio _ _ _ p_0_072 ltac:(lra) ltac:(lra)) as [Q R1].
  assert (Q1 : - (1/100) <= c * c * c <= 2/100) by nra.
  assert (P1 := ab_mul _ _ _ _ _ _ (152/100) (1/4) (1/10^15) p_1_52 H ltac:(lra) ltac:(lra) ltac:(lra) ltac:(lra) ltac:(lra) ltac:(lra)).
  assert (P2 := ab_add _ _ _ _ _ _ 1 (2/10^15) v_0_22 P1 ltac:(lra) ltac:(lra) ltac:(lra)).
  assert (P3 := ab_mul _ _ _ _ _ _ 5 (2/100) (1/10^15) v_5 d_cube ltac:(lra) ltac:(lra) ltac:(lra) ltac:(lra) ltac:(lra) ltac:(lra)).
  assert (P4 := ab_sub _ _ _ _ _ _ 1 (4/10^15) P2 P3 ltac:(lra) ltac:(lra) ltac:(lra)).
  assert (Q2 : 72/1000 * (c * c) / ((c + 18/100) * (c + 18/100)) <= 72/1000).
  { apply quot_le; [nra|]. assert (c * c <= (c + 18/100) * (c + 18/100)) by nra. lra. }
  unfold drela_shear, xsq, xcube, xsub, xneg, xadd, xmul, xdiv.
  destruct (Req_EM_T ((c + 18/100) * (c + 18/100)) 0) as [E|_]; [nra|].
  eexists. split; [reflexivity|].
  replace (220/1000 + 152/100 * c + - (5 * (c * c * c)) + - (72/1000 * (c * c) / ((c + 18/100) * (c + 18/100))))
    with (22/100 + 152/100 * c - 5 * (c * c * c) - 72/1000 * (c * c) / ((c + 18/100) * (c + 18/100))) by lra.
  split; [lra|].
  apply (ab_sub _ _ _ _ _ _ 2 _ P4 R1); lra.
Qed.
Lemma d_shape : exists h, drela_shape (Fin c) = Fin h /\ 0 <= h <= 5 /\ ab (drela_shape64 sq cube l) h (1/10^13).
Proof.
  destruct (d_ratio _ _ _ p_0_56 ltac:(lra) ltac:(lra)) as [Q R1].
  assert (Q1 : - (1/100) <= c * c * c <= 2/100) by nra.
  assert (P1 := ab_mul _ _ _ _ _ _ (41/10) (1/4) (1/10^15) p_4_1 H ltac:(lra) ltac:(lra) ltac:(lra) ltac:(lra) ltac:(lra) ltac:(lra)).
  assert (P2 := ab_sub _ _ _ _ _ _ 4 (2/10^15) v_2_61 P1 ltac:(lra) ltac:(lra) ltac:(lra)).
  assert (P3 := ab_mul _ _ _ _ _ _ 14 (2/100) (1/10^15) p_14 d_cube ltac:(lra) ltac:(lra) ltac:(lra) ltac:(lra) ltac:(lra) ltac:(lra)).
  assert (P4 := ab_add _ _ _ _ _ _ 4 (4/10^15) P2 P3 ltac:(lra) ltac:(lra) ltac:(lra)).
  unfold drela_shape, xsq, xcube, xsub, xneg, xadd, xmul, xdiv.
  destruct (Req_EM_T ((c + 18/100) * (c + 18/100)) 0) as [E|_]; [nra|].
  eexists. split; [reflexivity|].
  replace (261/100 + - (41/10 * c) + 14 * (c * c * c) + 56/100 * (c * c) / ((c + 18/100) * (c + 18/100)))
    with (261/100 - 41/10 * c + 14 * (c * c * c) + 56/100 * (c * c) / ((c + 18/100) * (c + 18/100))) by lra.
  split; [lra|].
  apply (ab_add _ _ _ _ _ _ 5 _ P4 R1); lra.
Qed.
Lemma d_shape_p : exists h, drela_shape_p (Fin c) = Fin h /\ ab (drela_shape_p64 sq cube l) h (1/10^11).
Proof.
  assert (Q0 : 0 <= c * c <= 625/10000) by nra.
  set (w := c + 18/100). assert (W : 9/100 <= w <= 43/100) by (unfold w; lra).
  assert (W2 : 81/10000 <= w * w) by nra. assert (W3 : 729/1000000 <= w * w * w) by nra.
  assert (P1 := ab_mul _ _ _ _ _ _ 42 (1/10) (2/10^15) p_42 d_sq ltac:(lra) ltac:(lra) ltac:(lra) ltac:(lra) ltac:(lra) ltac:(lra)).
  assert (P2 := ab_add _ _ _ _ _ _ 5 (4/10^15) p_m4_1 P1 ltac:(lra) ltac:(lra) ltac:(lra)).
  assert (P3 := ab_mul _ _ _ _ _ _ (2016/10000) (1/4) (1/10^17) p_0_2016 H ltac:(lra) ltac:(lra) ltac:(lra) ltac:(lra) ltac:(lra) ltac:(lra)).
  assert (Q : - 26 <= 2016/10000 * c / (w * w * w) <= 26).
  { split; [apply quot_ge; [lra|]|apply quot_le; [lra|]].
    - lra.
    - assert (c <= w) by (unfold w; lra). assert (c * (729/1000000) <= w * w * w * 1) by nra. nra. }
  assert (P4 := ab_div _ _ _ _ _ _ (729/1000000) 26 (9/10^12) P3 d_base_cube W3 ltac:(lra) Q ltac:(lra) ltac:(lra) ltac:(lra) ltac:(lra)).
  unfold drela_shape_p, xsq, xcube, xadd, xmul, xdiv. fold w.
  destruct (Req_EM_T (w * w * w) 0) as [E|_]; [lra|].
  eexists. split; [reflexivity|].
  assert (Q2 : - 34 <= -41/10 + 42 * (c * c) + 2016/10000 * c / (w * w * w) <= 34) by lra.
  apply (ab_add _ _ _ _ _ _ 34 _ P2 P4 Q2); [lra|]. clear. lra.
Qed.
End Drela.


Lemma fit_drela64_ab sq cube lam : raises sq 2 -> raises cube 3 -> is_number lam -> real_of lam <= 25/100 ->
  exists h t h', shape fit_drela (Fin (real_of lam)) = Fin h /\ shear fit_drela (Fin (real_of lam)) = Fin t /\
    shape_p fit_drela (Fin (real_of lam)) = Fin h' /\ 0 <= h <= 5 /\ -1 <= t <= 1 /\
    ab (shape_drela64 sq cube lam) h (1/10^13) /\ ab (shear_drela64 sq cube lam) t (1/10^13) /\ ab (shape_p_drela64 sq cube lam) h' (1/10^11).
Proof.
  intros SQ CU N L. destruct (clamp_lo b_m0_09 (-9/100) _ lam v_m0_09 N) as (c & E & C1 & C2 & P).
  assert (C : -9/100 <= c <= 25/100) by lra.
  destruct (d_shape sq cube SQ CU _ c P C) as (h & Eh & Bh & Ph).
  destruct (d_shear sq cube SQ CU _ c P C) as (t & Et & Bt & Pt).
  destruct (d_shape_p sq cube SQ CU _ c P C) as (h' & Eh' & Ph').
  exists h, t, h'. unfold shape, shear, shape_p, fit_drela, fit_lo, fit_hi, fit_shape, fit_shear, fit_shape_p. rewrite E.
  repeat (split; [assumption|]). assumption.
Qed.

(* ------------------------------------------------------------------ *)
(** * White's shear fit *)
Lemma rpow_neg_le x y q : 0 < x -> x <= y -> q <= 0 -> Rpower y q <= Rpower x q.
Proof.
  intros X XY Q. unfold Rpower. apply Raux.exp_le. assert (ln x <= ln y) by (destruct XY as [XY| ->]; [apply Rlt_le, ln_increasing; assumption|lra]). nra.
Qed.
Lemma rpow_sub a d p : 0 < a -> 0 < d -> 0 <= p <= 1 -> Rpower (a + d) p <= Rpower a p + Rpower d p.
Proof.
  intros A D P.
  assert (S : forall x, 0 < x -> Rpower x p = x * Rpower x (p - 1)).
  { intros x X. rewrite <- (Rpower_1 x X) at 2. rewrite <- Rpower_plus. f_equal. ring. }
  rewrite (S (a + d)), (S a A), (S d D) by lra. rewrite Rmult_plus_distr_r.
  apply Rplus_le_compat; (apply Rmult_le_compat_l; [lra|apply rpow_neg_le; lra]).
Qed.
Lemma rpow_le x y p : 0 < x -> x <= y -> 0 <= p -> Rpower x p <= Rpower y p.
Proof. intros X XY P. apply Rle_Rpower_l; lra. Qed.

(** The power of a number that is not negative. *)
Definition pw0 (x p : R) : R := if Rlt_dec 0 x then Rpower x p else 0.
Lemma pw0_nonneg x p : 0 <= pw0 x p.
Proof. unfold pw0. destruct (Rlt_dec 0 x); [apply Rlt_le, exp_pos|lra]. Qed.
Lemma pw0_close x y d p : 0 <= x -> 0 <= y -> 0 < d -> 0 <= p <= 1 -> Rabs (x - y) <= d -> Rabs (pw0 x p - pw0 y p) <= Rpower d p.
Proof.
  intros X Y D P H. apply Rabs_le_inv in H. apply Rabs_le.
  assert (K : forall u v, 0 <= u -> 0 <= v -> u <= v + d -> pw0 u p <= pw0 v p + Rpower d p).
  { intros u v U V L. unfold pw0. assert (0 < Rpower d p) by apply exp_pos. destruct (Rlt_dec 0 u) as [U'|U']; destruct (Rlt_dec 0 v) as [V'|V'].
    - eapply Rle_trans; [apply (rpow_le u (v + d)); lra|]. apply rpow_sub; lra.
    - assert (Rpower u p <= Rpower d p) by (apply rpow_le; lra). lra.
    - assert (0 < Rpower v p) by apply exp_pos. lra.
    - lra. }
  pose proof (K x y X Y ltac:(lra)). pose proof (K y x Y X ltac:(lra)). lra.
Qed.

(** A positive base is not small. *)
Lemma white_base64_gap lam : is_number lam -> real_of lam <= 1 -> 0 < real_of (white_base64 (clamp64 b_m0_09 None lam)) ->
  / 2 ^ 60 <= real_of (white_base64 (clamp64 b_m0_09 None lam)).
Proof.
  intros N H1 HB. destruct v_m0_09 as [A1 A2]. destruct v_0_09 as [B1 B2].
  assert (E9 : real_of b_0_09 = 6485183463413514 * / 72057594037927936).
  { destruct (literal 6485183463413514 (-56) eq_refl) as [_ E1]. unfold b_0_09. rewrite E1. reflexivity. }
  assert (Em9 : real_of b_m0_09 = - 6485183463413514 * / 72057594037927936).
  { destruct (neg_literal 6485183463413514 (-56) eq_refl) as [_ E1]. unfold b_m0_09. rewrite E1. reflexivity. }
  destruct (Rle_or_lt (real_of lam) (real_of b_m0_09)) as [L|L].
  { destruct (white_base64_ok lam N H1) as (_ & _ & Z). rewrite (Z L) in HB. lra. }
  unfold white_base64, clamp64 in *. rewrite (flt_number lam b_m0_09 N A1) in *. rewrite Rlt_bool_false in * by lra.
  assert (S : near (lam + b_0_09)%b64 (real_of lam + real_of b_0_09)).
  { apply add_near; [exact N|exact B1|]. apply huge_40, Rabs_le. lra. }
  apply near_abs in S. destruct S as [_ S].
  assert (G : / 72057594037927936 <= real_of lam + real_of b_0_09).
  { destruct (Rle_or_lt (-8/100) (real_of lam)) as [M|M]; [lra|].
    assert (G : generic_format radix2 (SpecFloat.fexp 53 1024) (real_of lam)) by (apply generic_format_B2R).
    unfold generic_format, F2R in G. cbn [Fnum Fexp] in G.
    assert (Mg : mag radix2 (real_of lam) = (-3)%Z :> Z).
    { apply mag_unique. rewrite Rabs_left by lra. simpl. split; lra. }
    unfold cexp in G. rewrite Mg in G. change (SpecFloat.fexp 53 1024 (-3)) with (-56)%Z in G.
    set (k := Ztrunc _) in G. change (bpow radix2 (-56)) with (/ 72057594037927936) in G.
    assert (K : -6485183463413514 < IZR k) by lra. apply lt_IZR in K. assert (K1 : (-6485183463413513 <= k)%Z) by lia. apply IZR_le in K1.
    rewrite G, E9. lra. }
  set (z := real_of lam + real_of b_0_09) in *. rewrite (Rabs_pos_eq z) in S by lra.
  destruct uu_112 as [U0 U1]. pose proof tiny_30 as T. assert (uu * z <= 112/10^18 * z) by (apply Rmult_le_compat_r; lra).
  simpl (2 ^ 60). lra.
Qed.

Lemma white_exact c : -9/100 <= c -> white_shear (Fin c) = Fin (pw0 (c + 9/100) (62/100)).
Proof.
  intros C. unfold white_shear, xadd, xpow, pw0. destruct (Req_EM_T (62/100) 0) as [E|_]; [lra|].
  destruct (Rlt_dec 0 (c + 9/100)) as [_|L]; [reflexivity|]. destruct (Req_EM_T (c + 9/100) 0) as [_|E]; [|lra].
  destruct (Rlt_dec 0 (62/100)) as [_|E]; [reflexivity|lra].
Qed.
Lemma b_0_62_pos : is_number b_0_62 /\ 0 < real_of b_0_62.
Proof.
  destruct p_0_62 as [A B]. split; [exact A|]. change (1 / 2 ^ 53) with (1 * uu) in B. destruct uu_small.
  rewrite (Rabs_pos_eq (62/100)) in B by lra. apply Rabs_le_inv in B. lra.
Qed.
Lemma pw0_le_1 z : 0 <= z <= 34/100 -> 0 <= pw0 z (62/100) <= 1.
Proof.
  intros H. split; [apply pw0_nonneg|]. unfold pw0. destruct (Rlt_dec 0 z) as [P|_]; [|lra].
  apply Rle_trans with (Rpower 1 (62/100)); [apply rpow_le; lra|]. unfold Rpower. rewrite ln_1, Rmult_0_r, exp_0. lra.
Qed.

Lemma shear_white64_ab pw lam : powers pw -> keeps_zero pw -> is_number lam -> real_of lam <= 25/100 ->
  exists t, shear fit_white (Fin (real_of lam)) = Fin t /\ 0 <= t <= 1 /\ ab (shear_white64 pw lam) t (2/10^10) /\
    (-8/100 <= real_of lam -> ab (shear_white64 pw lam) t (1/10^14)).
Proof.
  intros PW KZ N L. destruct (clamp_lo b_m0_09 (-9/100) _ lam v_m0_09 N) as (c & E & C1 & C2 & P).
  assert (C : -9/100 <= c <= 25/100) by lra.
  exists (pw0 (c + 9/100) (62/100)).
  split. { unfold shear, fit_white, fit_lo, fit_hi, fit_shear. rewrite E. apply white_exact. lra. }
  assert (T1 := pw0_le_1 (c + 9/100) ltac:(lra)). split; [exact T1|].
  assert (B : ab (white_base64 (clamp64 b_m0_09 None lam)) (c + 9/100) (5/10^17)).
  { unfold white_base64. apply (ab_add _ _ _ _ _ _ (34/100) _ P v_0_09); lra. }
  destruct (white_base64_ok lam N ltac:(lra)) as (NB & B0 & _).
  assert (GB := white_base64_gap lam N ltac:(lra)).
  unfold shear_white64. set (b := white_base64 (clamp64 b_m0_09 None lam)) in *. clearbody b.
  destruct b_0_62_pos as [N62 P62]. destruct uu_112 as [U0 U1].
  assert (B1 := proj2 B).
  assert (D : Rabs (pw0 (real_of b) (62/100) - pw0 (c + 9/100) (62/100)) <= 1/10^10).
  { eapply Rle_trans; [apply (pw0_close _ _ (5/10^17)); [exact B0|lra|lra|lra|apply Rabs_le; lra]|].
    unfold Rpower. interval. }
  assert (W : ab (pw b b_0_62) (pw0 (real_of b) (62/100)) (1/10^14)).
  { unfold pw0. destruct (Rlt_dec 0 (real_of b)) as [Pb|Zb].
    - assert (BT : btw 60 (real_of b)) by (split; [apply GB, Pb|simpl; lra]).
      assert (X := pow_units pw b b_0_62 (real_of b) (62/100) 0 1 60 38 PW ltac:(split; [exact NB|rewrite Rminus_eq_0, Rabs_R0; lra])
        p_0_62 BT ltac:(lra) ltac:(lra) ltac:(lra) ltac:(simpl; lra) ltac:(lra) ltac:(simpl; lra)).
      destruct X as [X1 X2]. split; [exact X1|]. apply Rabs_le_inv. eapply Rle_trans; [exact X2|].
      assert (R1 : 0 < Rpower (real_of b) (62/100) <= 1).
      { split; [apply exp_pos|]. apply Rle_trans with (Rpower 1 (62/100)); [apply rpow_le; lra|]. unfold Rpower. rewrite ln_1, Rmult_0_r, exp_0. lra. }
      rewrite Rabs_pos_eq by lra. change ((101/100 * 38 + 202/100) / 2 ^ 53) with ((101/100 * 38 + 202/100) * uu).
      apply Rle_trans with ((101/100 * 38 + 202/100) * uu * 1); [apply Rmult_le_compat_l; lra|lra].
    - destruct (KZ b b_0_62 NB N62 ltac:(lra) P62) as [Z1 Z2]. split; [exact Z1|]. lra. }
  split.
  - destruct W as [W1 W2]. apply Rabs_le_inv in D. split; [exact W1|]. lra.
  - intros L8. assert (Ec : c = real_of lam).
    { unfold check_range, xltb, Rltb in E. destruct (Rlt_dec (real_of lam) (-9/100)); [lra|]. injection E as E. symmetry. exact E. }
    unfold pw0. destruct (Rlt_dec 0 (c + 9/100)) as [_|Z]; [|lra].
    assert (BT : btw 7 (c + 9/100)) by (split; simpl; lra).
    assert (UB : units b (c + 9/100) 46).
    { split; [exact NB|]. change (46 / 2 ^ 53) with (46 * uu). rewrite (Rabs_pos_eq (c + 9/100)) by lra.
      assert (1110/10^19 <= uu) by (unfold uu; lra). assert (uu * (1/100) <= uu * (c + 9/100)) by (apply Rmult_le_compat_l; lra).
      replace (46 * uu * (c + 9/100)) with (46 * (uu * (c + 9/100))) by ring. apply Rabs_le. lra. }
    assert (X := pow_units pw b b_0_62 (c + 9/100) (62/100) 46 1 7 34 PW UB
        p_0_62 BT ltac:(lra) ltac:(lra) ltac:(lra) ltac:(simpl; lra) ltac:(lra) ltac:(simpl; lra)).
    destruct X as [X1 X2]. split; [exact X1|]. apply Rabs_le_inv. eapply Rle_trans; [exact X2|].
    assert (R1 : 0 < Rpower (c + 9/100) (62/100) <= 1).
    { split; [apply exp_pos|]. apply Rle_trans with (Rpower 1 (62/100)); [apply rpow_le; lra|]. unfold Rpower. rewrite ln_1, Rmult_0_r, exp_0. lra. }
    rewrite Rabs_pos_eq by lra. change ((101/100 * 34 + 202/100) / 2 ^ 53) with ((101/100 * 34 + 202/100) * uu).
    apply Rle_trans with ((101/100 * 34 + 202/100) * uu * 1); [apply Rmult_le_compat_l; lra|lra].
Qed.
Lemma shear_white64_zero pw lam : keeps_zero pw -> is_number lam -> real_of lam <= real_of b_m0_09 ->
  is_number (shear_white64 pw lam) /\ real_of (shear_white64 pw lam) = 0.
Proof.
  intros KZ N L. destruct v_m0_09 as [_ V]. destruct (white_base64_ok lam N ltac:(lra)) as (NB & _ & Z).
  destruct b_0_62_pos as [N62 P62]. exact (KZ _ _ NB N62 (Z L) P62).
Qed.

Lemma shape_white64_ab lam : is_number lam -> real_of lam <= 25/100 ->
  exists h, shape fit_white (Fin (real_of lam)) = Fin h /\ 0 <= h <= 5 /\ ab (shape_white64 lam) h (1/10^13).
Proof.
  intros N H. destruct (clamp_lo b_m0_09 (-9/100) _ lam v_m0_09 N) as (c & E & C1 & C2 & P).
  eexists. split; [|split].
  - unfold shape, fit_white, fit_lo, fit_hi, fit_shape. rewrite E. unfold white_shape, xsub, xneg, xadd, xmul. reflexivity.
  - set (z := 25/100 + - c). assert (Hz : 0 <= z <= 34/100) by (unfold z; lra). clearbody z. split; interval with (i_bisect z, i_depth 20).
  - apply (white_horner _ c P); lra.
Qed.

(* ------------------------------------------------------------------ *)
(** * [f] and the right-hand side *)
Lemma f64_ab sh hp lam t h eS eH : is_number lam -> -101/100 <= real_of lam <= 25/100 -> -1 <= t <= 1 -> 0 <= h <= 5 ->
  ab (sh lam) t eS -> ab (hp lam) h eH -> 0 <= eS <= 1 -> 0 <= eH <= 1/10^13 ->
  ab (f64 sh hp lam) (2 * (t - real_of lam * (h + 2))) (3 * eS + 4/10^13).
Proof.
  intros N L T H S P HS HH. unfold f64.
  assert (V2 : ab b_2 2 0) by (destruct two_val as [Y1 Y2]; split; [exact Y1|lra]).
  assert (P1 := ab_add _ _ _ _ _ _ 7 (102/10^15) P V2 ltac:(lra) ltac:(lra) ltac:(lra)).
  assert (P2 := ab_mul _ _ _ _ _ _ (101/100) 7 (105/10^15) (ab_exact lam N) P1 ltac:(lra) ltac:(lra) ltac:(lra) ltac:(lra) ltac:(lra) ltac:(lra)).
  assert (BL : - 8 <= real_of lam * (h + 2) <= 8) by nra.
  assert (P3 := ab_sub _ _ _ _ _ _ 9 (101/100 * eS + 108/10^15) S P2 ltac:(lra) ltac:(lra) ltac:(lra)).
  apply (ab_mul _ _ _ _ _ _ 2 9 _ V2 P3); lra.
Qed.

(** [f] of the fit [ft] is computed with an error of at most [e]. *)
Definition good_f (ft : fit) (f : b64 -> b64) (e : R) : Prop := forall lam, is_number lam -> -101/100 <= real_of lam <= 25/100 ->
  exists z, fit_f ft (Fin (real_of lam)) = Fin z /\ - 20 <= z <= 20 /\ ab (f lam) z e.
Lemma good_f_of ft sh hp eS eH : 0 <= eS <= 1 -> 0 <= eH <= 1/10^13 ->
  (forall lam, is_number lam -> real_of lam <= 25/100 -> exists t h, shear ft (Fin (real_of lam)) = Fin t /\
     shape ft (Fin (real_of lam)) = Fin h /\ -1 <= t <= 1 /\ 0 <= h <= 5 /\ ab (sh lam) t eS /\ ab (hp lam) h eH) ->
  good_f ft (f64 sh hp) (3 * eS + 4/10^13).
Proof.
  intros HS HH K lam N L. destruct (K lam N (proj2 L)) as (t & h & Et & Eh & Bt & Bh & Pt & Ph).
  exists (2 * (t - real_of lam * (h + 2))). split; [|split].
  - unfold fit_f. rewrite Et, Eh. reflexivity.
  - assert (- 8 <= real_of lam * (h + 2) <= 8) by nra. lra.
  - apply (f64_ab _ _ _ _ _ _ _ N L Bt Bh Pt Ph HS HH).
Qed.

Lemma nl_quot F D f E e : 0 < E -> 0 <= e -> Rabs f <= 20 -> Rabs (F - f) <= e -> Rabs (D - E) <= 202/100 * uu * E ->
  Rabs (F / D - f / E) <= (1001/1000 * e + 41 * uu) / E.
Proof.
  intros HE He Hf HF HD. destruct uu_small as [U0 U1]. apply Rabs_le_inv in HD.
  assert (UE : uu * E <= / 10 ^ 15 * E) by (apply Rmult_le_compat_r; lra).
  assert (Dp : 9999/10000 * E <= D) by lra. assert (D0 : 0 < D) by lra.
  replace (F / D - f / E) with (((F - f) * E - f * (D - E)) / (D * E)) by (field; lra).
  assert (DE : 0 < D * E) by (apply Rmult_lt_0_compat; assumption).
  rewrite abs_quot by lra. apply quot_le; [exact DE|].
  replace ((1001/1000 * e + 41 * uu) / E * (D * E)) with ((1001/1000 * e + 41 * uu) * D) by (field; lra).
  apply Rle_trans with (e * E + 20 * (202/100 * uu * E)).
  - replace ((F - f) * E - f * (D - E)) with ((F - f) * E + - (f * (D - E))) by ring.
    eapply Rle_trans; [apply Rabs_triang|]. rewrite Rabs_Ropp, !Rabs_mult, (Rabs_pos_eq E) by lra.
    apply Rplus_le_compat; [apply Rmult_le_compat_r; lra|]. apply Rmult_le_compat; try apply Rabs_pos; [exact Hf|apply Rabs_le; lra].
  - apply Rle_trans with ((1001/1000 * e + 41 * uu) * (9999/10000 * E)); [|apply Rmult_le_compat_l; lra].
    assert (0 <= e * E) by (apply Rmult_le_pos; lra). assert (0 <= uu * E) by (apply Rmult_le_pos; lra). lra.
Qed.

Lemma nonlinear_rhs_ok m ft f e g : m_kind m = ThwaitesNonlinear -> m_fit m = Some ft -> good_f ft f e -> 0 <= e <= 1/10 ->
  101/100 * e + 1/10^14 <= g -> accurate_rhs m f g.
Proof.
  intros K Ef GF He Hg x s u du Eu Ed Ns Nu Nd Hu HZ HZ'.
  destruct uu_small as [U0 U1]. destruct uu_112 as [_ U2]. pose proof tiny_pos as T0.
  unfold nonlinear_rhs64, lambda64. set (z := real_of s * real_of du) in *. set (v := real_of u) in *.
  destruct (sizes 0 v) as (h & _ & VH & KH & KV); [apply Rlt_le, two_pow|apply Hu|]. apply proj1 in Hu.
  assert (HL : z = 0 \/ lo9 <= Rabs z).
  { destruct HZ' as [Z|Z]; [left; exact Z|right]. eapply Rle_trans; [|exact Z]. apply Rinv_le_contravar; [apply two_pow|apply Rle_pow; clear; [lra|lia]]. }
  clear HZ'.
  assert (P1 : near (s * du)%b64 z). { apply mul_near; [exact Ns|exact Nd|]. fold z. apply huge_40, Rabs_le. lra. }
  assert (L0 : z = 0 -> real_of (s * du)%b64 = 0) by (intros Z; apply (mul_zero s du Ns Nd Z)).
  apply near_abs in P1. destruct P1 as [NL EL]. set (L := (s * du)%b64) in *. clearbody L. set (l := real_of L) in *.
  assert (Bz : Rabs z <= 1) by (apply Rabs_le; lra).
  assert (T1 : tiny <= / 10 ^ 20) by apply tiny_30.
  assert (UZ : uu * Rabs z <= uu * 1) by (apply Rmult_le_compat_l; lra).
  destruct (GF L NL) as (fz & Ez & Bf & Pf); [fold l; lra|]. fold l in Ez.
  assert (ST : exists s', Rabs (s' - real_of s) <= 2 / 2 ^ 53 * Rabs (real_of s) /\ s' * real_of du = l).
  { change (2 / 2 ^ 53) with (2 * uu). destruct HL as [Z|Z].
    - exists (real_of s). rewrite Rminus_eq_0, Rabs_R0. split; [apply Rmult_le_pos; [lra|apply Rabs_pos]|].
      rewrite (L0 Z). exact Z.
    - assert (Z0 : 0 < Rabs z). { eapply Rlt_le_trans; [|exact Z]. apply Rinv_0_lt_compat, two_pow. }
      assert (T2 : tiny <= uu / 1000 * Rabs z).
      { apply tiny_lo, Z. }
      assert (D0 : real_of du <> 0). { intros D. unfold z in Z0. rewrite D, Rmult_0_r, Rabs_R0 in Z0. lra. }
      exists (l / real_of du). split; [|field; exact D0].
      replace (l / real_of du - real_of s) with ((l - z) / real_of du) by (unfold z; field; exact D0).
      unfold Rdiv. rewrite Rabs_mult, Rabs_inv. apply Rmult_le_reg_r with (Rabs (real_of du)); [apply Rabs_pos_lt, D0|].
      rewrite Rmult_assoc, Rinv_l, Rmult_1_r by (apply Rabs_no_R0, D0).
      rewrite Rmult_assoc, <- Rabs_mult. fold z. apply Rabs_le. lra. }
  destruct ST as (s' & Hs' & Es').
  set (E := 1/1000 + v). assert (EP : 1/1000 <= E) by (unfold E; lra).
  exists s', (fz / E). split; [exact Hs'|]. split.
  { unfold ode_impl. rewrite K. unfold calc_f, calc_lambda. rewrite Ed, Eu, K, Ef. cbn [bind]. unfold xmul at 1. rewrite Es', Ez.
    unfold xadd, xdiv. fold v. fold E. destruct (Req_EM_T E 0) as [X|_]; [lra|]. reflexivity. }
  assert (K2 : 1000 <= hi9) by (clear; apply Rle_trans with (2 ^ 10); [simpl; lra|apply Rle_pow; [lra|lia]]).
  destruct lit_1e_3 as [Nk Ek]. set (k := real_of b_1e_3) in *.
  assert (P4 : near (b_1e_3 + u)%b64 (k + v)). { apply add_near; [exact Nk|exact Nu|]. fold k v. apply huge_pow, Rabs_le. lra. }
  apply near_abs in P4. destruct P4 as [N4 E4]. set (Dh := (b_1e_3 + u)%b64) in *. clearbody Dh. set (D := real_of Dh) in *.
  pose proof tiny_uu as TU.
  assert (DE : Rabs (D - E) <= 202/100 * uu * E).
  { rewrite (Rabs_pos_eq (k + v)) in E4 by lra. apply Rabs_le. unfold E.
    assert (uu * k <= uu * (1/1000 + / 10 ^ 10)) by (apply Rmult_le_compat_l; lra). assert (0 <= uu * v) by (apply Rmult_le_pos; lra). lra. }
  destruct Pf as [NF PF]. set (F := real_of (f L)) in *.
  assert (Q := nl_quot F D fz E e ltac:(lra) ltac:(lra) ltac:(apply Rabs_le; lra) ltac:(apply Rabs_le; lra) DE).
  assert (D0 : D <> 0).
  { apply Rabs_le_inv in DE. assert (uu * E <= / 10 ^ 15 * E) by (apply Rmult_le_compat_r; lra).
    replace (202/100 * uu * E) with (202/100 * (uu * E)) in DE by ring. lra. }
  set (w := / E). assert (W0 : 0 < w) by (apply Rinv_0_lt_compat; lra).
  assert (W1 : w <= 1000) by (unfold w; rewrite <- (Rinv_inv 1000); apply Rinv_le_contravar; lra).
  assert (Wlo : lo9 <= w).
  { unfold w. replace (/ E) with (1 / E) by (field; lra). apply quot_ge; [lra|]. unfold E. lra. }
  assert (T2 := tiny_lo _ Wlo).
  unfold Rdiv in Q. fold w in Q. apply Rabs_le_inv in Q.
  assert (FW : - (20 * w) <= fz * w <= 20 * w) by (rewrite Ropp_mult_distr_l; split; apply Rmult_le_compat_r; lra).
  assert (EW : 0 <= e * w <= 1/10 * w) by (split; [apply Rmult_le_pos; lra|apply Rmult_le_compat_r; lra]).
  assert (UW : 0 <= uu * w <= / 10 ^ 15 * w) by (split; [apply Rmult_le_pos; lra|apply Rmult_le_compat_r; lra]).
  assert (FD : Rabs (F / D) <= 21 * w) by (apply Rabs_le; unfold Rdiv; lra).
  assert (P5 : near (f L / Dh)%b64 (F / D)). { apply div_near; [exact NF|exact N4|exact D0|]. fold F D. apply huge_pow. lra. }
  apply near_abs in P5. destruct P5 as [N5 E5]. split; [exact N5|].
  assert (UFD : uu * Rabs (F / D) <= 21 * (uu * w)).
  { replace (21 * (uu * w)) with (uu * (21 * w)) by ring. apply Rmult_le_compat_l; lra. }
  unfold Rdiv in E5, UFD. unfold Rdiv. fold w.
  apply Rle_trans with ((101/100 * e + 1/10^14) * w); [|apply Rmult_le_compat_r; lra].
  apply Rabs_le. assert (uu * w <= 112/10^18 * w) by (apply Rmult_le_compat_r; lra).
  lra.
Qed.

Lemma white_rhs_ok m pw : m_kind m = ThwaitesNonlinear -> m_fit m = Some fit_white -> powers pw -> keeps_zero pw ->
  accurate_rhs m (f64 (shear_white64 pw) shape_white64) (1/10^9).
Proof.
  intros K F PW KZ. apply (nonlinear_rhs_ok m fit_white _ (3 * (2/10^10) + 4/10^13) _ K F); [|lra|lra].
  apply (good_f_of _ _ _ _ (1/10^13)); [lra|lra|]. intros lam N L.
  destruct (shear_white64_ab pw lam PW KZ N L) as (t & Et & Bt & Pt & _). destruct (shape_white64_ab lam N L) as (h & Eh & Bh & Ph).
  exists t, h. repeat (split; [first [assumption|lra]|]). assumption.
Qed.
Lemma cb_rhs_ok m : m_kind m = ThwaitesNonlinear -> m_fit m = Some fit_cb -> accurate_rhs m f_cb64 (1/10^12).
Proof.
  intros K F. apply (nonlinear_rhs_ok m fit_cb _ (3 * / 10 ^ 14 + 4/10^13) _ K F); [|lra|lra].
  apply (good_f_of _ _ _ _ (/ 10 ^ 14)); [lra|lra|]. intros lam N L.
  destruct (fit_cb64_ab lam N) as (h & t & Eh & Et & Bh & Bt & Ph & Pt). exists t, h. repeat (split; [first [assumption|lra]|]). assumption.
Qed.
Lemma drela_rhs_ok m sq cube : m_kind m = ThwaitesNonlinear -> m_fit m = Some fit_drela -> raises sq 2 -> raises cube 3 ->
  accurate_rhs m (f64 (shear_drela64 sq cube) (shape_drela64 sq cube)) (1/10^12).
Proof.
  intros K F SQ CU. apply (nonlinear_rhs_ok m fit_drela _ (3 * (1/10^13) + 4/10^13) _ K F); [|lra|lra].
  apply (good_f_of _ _ _ _ (1/10^13)); [lra|lra|]. intros lam N L.
  destruct (fit_drela64_ab sq cube lam SQ CU N L) as (h & t & h' & Eh & Et & _ & Bh & Bt & Ph & Pt & _).
  exists t, h. repeat (split; [first [assumption|lra]|]). assumption.
Qed.

(* ------------------------------------------------------------------ *)
(** * Library functions with the assumed accuracy *)
Lemma raises_example n : (n <= 3)%nat -> raises (fun x => float_of (real_of x ^ n)) n.
Proof.
  intros Hn x _ B. set (z := real_of x ^ n). assert (Az : Rabs z = Rabs (real_of x) ^ n) by (symmetry; apply RPow_abs).
  assert (N : near (float_of z) z).
  { apply float_of_near. rewrite Az. apply Rle_trans with ((2 ^ 100) ^ n); [apply pow_incr; split; [apply Rabs_pos|exact B]|].
    rewrite <- pow_mult. unfold huge. apply Rle_pow; [clear; lra|clear - Hn; lia]. }
  destruct N as [N1 N2]. split; [exact N1|]. rewrite <- Az. eapply Rle_trans; [exact N2|]. change (2 / 2 ^ 53) with (2 * uu).
  change (/ 2 ^ 1000) with tiny.
  destruct uu_small as [U0 _]. assert (0 <= uu * Rabs z) by (apply Rmult_le_pos; [lra|apply Rabs_pos]). clear - H. lra.
Qed.
(** A power that is zero for the base zero. *)
Definition power_example (x y : b64) : b64 :=
  if Rlt_dec 0 (real_of x) then float_of (Rpower (real_of x) (real_of y)) else b_0.
Lemma power_example_powers : powers power_example.
Proof.
  intros x y Nx Ny P B. unfold power_example. destruct (Rlt_dec 0 (real_of x)) as [_|Z]; [|lra]. exact (powers_example x y Nx Ny P B).
Qed.
Lemma power_example_zero : keeps_zero power_example.
Proof.
  intros x y _ _ Z _. unfold power_example. destruct (Rlt_dec 0 (real_of x)) as [P|_]; [lra|]. exact zero_val.
Qed.
