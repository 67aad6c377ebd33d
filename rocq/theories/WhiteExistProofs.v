(** Existence of solutions of the nonlinear Thwaites problem with White's fit (C112). *)
From Coq Require Import Reals List Lra Lia.
From Coquelicot Require Import Coquelicot.
From Verif Require Import UntilProofs PyBase PyBaseFacts ThwaitesFitsModel ThwaitesFitsProofs CoreModel OdeSpec ThwaitesOdeProofs
  PositivityProofs WellPosedProofs FitLipschitzProofs WellPosedOdeProofs LimitExistProofs.
Import ListNotations.
Open Scope R_scope.

Definition wH (l : R) : R := whiteH (Rmax (-9/100) l).
Definition wF : R -> R := rhsF whiteS wH.
(** Shear with the power moved away from its singular point. *)
Definition wSe (e l : R) : R := Rpower (Rmax (-9/100) l + 9/100 + e) (62/100).

Lemma rpow_step x h : 0 <= x -> 0 < h -> Rpower (x + h) (62/100) <= (if Rle_dec x 0 then 0 else Rpower x (62/100)) + Rpower h (62/100).
Proof.
  intros Hx Hh.
  assert (K : forall y, 0 < y -> y <= x + h -> y * Rpower (x + h) (- (38/100)) <= Rpower y (62/100)).
  { intros y Py Ly. replace (62/100) with (1 + - (38/100)) by field. rewrite Rpower_plus, Rpower_1 by exact Py.
    apply Rmult_le_compat_l; [lra|]. rewrite !Rpower_Ropp. apply Rinv_le_contravar; [apply exp_pos|].
    apply Rle_Rpower_l; lra. }
  assert (E : Rpower (x + h) (62/100) = x * Rpower (x + h) (- (38/100)) + h * Rpower (x + h) (- (38/100))).
  { replace (62/100) with (1 + - (38/100)) at 1 by field. rewrite Rpower_plus, Rpower_1 by lra. ring. }
  rewrite E. apply Rplus_le_compat; [|apply K; lra].
  destruct (Rle_dec x 0); [assert (x = 0) as -> by lra; lra|apply K; lra].
Qed.

Lemma wSe_close e l : 0 < e -> whiteS l <= wSe e l <= whiteS l + Rpower e (62/100).
Proof.
  intros He. unfold wSe, whiteS. destruct (Rle_dec l (-9/100)).
  - rewrite Rmax_left by lra. replace (-9/100 + 9/100 + e) with e by field. assert (P := exp_pos (62/100 * ln e)).
    unfold Rpower. lra.
  - rewrite Rmax_right by lra. split.
    + apply Rle_Rpower_l; lra.
    + assert (Q := rpow_step (l + 9/100) e ltac:(lra) He). destruct (Rle_dec (l + 9/100) 0); lra.
Qed.

Lemma wSe_lip e : 0 < e -> forall M, 0 < M -> exists L, lip_on (wSe e) (- M) M L.
Proof.
  intros He M HM. apply (lip_glue_ex _ (- M) (-9/100) M).
  - exists (Rabs 0). apply (lip_ext _ (fun x => Rpower e (62/100) + 0 * x)).
    + intros x Hx. unfold wSe. rewrite Rmax_left by lra. rewrite Rmult_0_l, Rplus_0_r. f_equal. field.
    + apply lip_affine.
  - destruct (lip_smooth (fun l => Rpower (l + 9/100 + e) (62/100))
       (fun l => Rpower (l + 9/100 + e) (62/100) * (62/100) / (l + 9/100 + e)) (-9/100) M) as [L HL].
    + intros x Hx. unfold Rpower. split.
      * auto_derive; [lra|]. field. lra.
      * auto_derive. split; lra.
    + exists L. eapply lip_ext; [|exact HL]. intros x Hx. unfold wSe. rewrite Rmax_right by lra. reflexivity.
Qed.

Lemma wG_lip M : 0 < M -> exists L, lip_on (fun l => l * (wH l + 2)) (- M) M L.
Proof.
  intros HM. apply (lip_glue_ex _ (- M) (-9/100) M).
  - exists (Rabs (whiteH (-9/100) + 2)). apply (lip_ext _ (fun x => 0 + (whiteH (-9/100) + 2) * x)).
    + intros x Hx. unfold wH. rewrite Rmax_left by lra. ring.
    + apply lip_affine.
  - destruct (lip_smooth (fun l => l * (whiteH l + 2)) (fun l => whiteH l + 2 + l * whiteHp l) (-9/100) M) as [L HL].
    + intros x Hx. split.
      * unfold whiteH, whiteHp. auto_derive; [exact I|]. field.
      * unfold whiteH, whiteHp. auto_derive. exact I.
    + exists L. eapply lip_ext; [|exact HL]. intros x Hx. unfold wH. rewrite Rmax_right by lra. reflexivity.
Qed.

Lemma lip_rhs S H M : (exists L, lip_on S (- M) M L) -> (exists L, lip_on (fun l => l * (H l + 2)) (- M) M L) ->
  exists L, lip_on (rhsF S H) (- M) M L.
Proof.
  intros [L1 H1] [L2 H2]. exists (2 * (L1 + L2)). intros p q Hp Hq. unfold rhsF.
  specialize (H1 p q Hp Hq). specialize (H2 p q Hp Hq). cbv beta in H2.
  replace (2 * (S p - p * (H p + 2)) - 2 * (S q - q * (H q + 2)))
    with (2 * ((S p - S q) + - (p * (H p + 2) - q * (H q + 2)))) by ring.
  rewrite Rabs_mult, (Rabs_right 2) by lra. rewrite Rmult_assoc. apply Rmult_le_compat_l; [lra|].
  eapply Rle_trans; [apply Rabs_triang|]. rewrite Rabs_Ropp, Rmult_plus_distr_r. lra.
Qed.

(** The right-hand side cut off above [M]. *)
Section Cut.
Context (M : R) (HM : 0 < M).
Definition cut (f : R -> R) (p : R) : R := f (Rmin p M).
Definition eps (n : nat) : R := / (INR n + 1).
Definition err (n : nat) : R := 2 * Rpower (eps n) (62/100).
Definition wFn (n : nat) : R -> R := cut (rhsF (wSe (eps n)) wH).

Lemma eps_pos n : 0 < eps n <= 1.
Proof.
  unfold eps. assert (P := pos_INR n). split; [apply Rinv_0_lt_compat; lra|].
  rewrite <- Rinv_1. apply Rinv_le_contravar; lra.
Qed.
Lemma min_abs p : Rabs (Rmin p M) <= Rabs p.
Proof.
  unfold Rmin. destruct (Rle_dec p M); [lra|]. rewrite !Rabs_right by lra. lra.
Qed.
Lemma min_lip p q : Rabs (Rmin p M - Rmin q M) <= Rabs (p - q).
Proof.
  unfold Rmin. destruct (Rle_dec p M), (Rle_dec q M); try lra; apply Rabs_le_between; unfold Rabs; destruct (Rcase_abs (p - q)); lra.
Qed.

Lemma cut_lip f : (forall N, 0 < N -> exists L, lip_on f (- N) N L) -> locally_lip (cut f).
Proof.
  intros H N HN. destruct (H N HN) as [L HL]. exists (Rabs L). intros p q Hp Hq. unfold cut.
  assert (Ap := min_abs p). assert (Aq := min_abs q).
  eapply Rle_trans; [apply HL; apply Rabs_le_between; lra|].
  apply Rle_trans with (Rabs L * Rabs (Rmin p M - Rmin q M)).
  - apply Rmult_le_compat_r; [apply Rabs_pos|apply Rle_abs].
  - apply Rmult_le_compat_l; [apply Rabs_pos|apply min_lip].
Qed.
Lemma wFn_lip n : locally_lip (wFn n).
Proof. apply cut_lip. intros N HN. apply lip_rhs; [apply wSe_lip; [apply eps_pos|exact HN]|apply wG_lip, HN]. Qed.

Lemma wFn_zero n : 0 < wFn n 0.
Proof.
  unfold wFn, cut, rhsF. rewrite Rmin_left by lra. unfold wSe.
  assert (P := exp_pos (62/100 * ln (Rmax (-9/100) 0 + 9/100 + eps n))). unfold Rpower. lra.
Qed.

Lemma err_pos n : 0 < err n.
Proof. unfold err, Rpower. assert (P := exp_pos (62/100 * ln (eps n))). lra. Qed.
Lemma wFn_close n p : Rabs (wFn n p - cut wF p) <= err n.
Proof.
  unfold wFn, cut, wF, rhsF, err. destruct (wSe_close (eps n) (Rmin p M) (proj1 (eps_pos n))) as [A B].
  apply Rabs_le_between. lra.
Qed.
Lemma err_dec n m : (n <= m)%nat -> err m <= err n.
Proof.
  intros H. unfold err. apply Rmult_le_compat_l; [lra|]. apply Rle_Rpower_l; [lra|].
  split; [apply eps_pos|]. unfold eps. assert (P := pos_INR n). apply le_INR in H. apply Rinv_le_contravar; lra.
Qed.
Lemma err_small d : 0 < d -> exists n, err n <= d.
Proof.
  intros Hd. destruct (nfloor_ex (Rpower (d / 2) (- (100/62)))) as [n Hn]; [left; apply exp_pos|].
  exists n. unfold err. assert (P := exp_pos (- (100/62) * ln (d / 2))).
  assert (Rpower (eps n) (62/100) <= d / 2); [|lra].
  replace (d / 2) with (Rpower (/ Rpower (d / 2) (- (100/62))) (62/100)).
  - apply Rle_Rpower_l; [lra|]. split; [apply eps_pos|]. unfold eps. apply Rinv_le_contravar; [apply exp_pos|lra].
  - rewrite <- Rpower_Ropp, Ropp_involutive, Rpower_mult. replace (100/62 * (62/100)) with 1 by field. apply Rpower_1. lra.
Qed.

Lemma wFn_up : exists A B, 0 <= A /\ 0 <= B /\ forall n p, wFn n p <= A + B * Rabs p.
Proof.
  destruct (wG_lip (M + 1) ltac:(lra)) as [L HL].
  exists (2 * Rpower (M + 9/100 + 1) (62/100)), (2 * (Rabs L + Rabs (whiteH (-9/100) + 2))).
  assert (P := exp_pos (62/100 * ln (M + 9/100 + 1))).
  split; [unfold Rpower; lra|]. split.
  { assert (P1 := Rabs_pos L). assert (P2 := Rabs_pos (whiteH (-9/100) + 2)). lra. }
  intros n p. unfold wFn, cut, rhsF. set (q := Rmin p M).
  assert (Sq : wSe (eps n) q <= Rpower (M + 9/100 + 1) (62/100)).
  { assert (E := eps_pos n). unfold wSe. apply Rle_Rpower_l; [lra|].
    assert (q <= M) by apply Rmin_r. assert (X := Rmax_l (-9/100) q).
    assert (Rmax (-9/100) q <= M) by (apply Rmax_lub; lra). lra. }
  assert (Gq : Rabs (q * (wH q + 2)) <= (Rabs L + Rabs (whiteH (-9/100) + 2)) * Rabs q).
  { assert (P1 := Rabs_pos L). assert (P2 := Rabs_pos (whiteH (-9/100) + 2)). assert (P3 := Rabs_pos q).
    destruct (Rle_lt_dec q (-9/100)) as [Q|Q].
    - unfold wH. rewrite Rmax_left by lra. rewrite Rabs_mult. nra.
    - assert (H := HL q 0 ltac:(assert (q <= M) by apply Rmin_r; lra) ltac:(lra)). cbv beta in H.
      rewrite Rmult_0_l, !Rminus_0_r in H. eapply Rle_trans; [exact H|]. assert (L <= Rabs L) by apply Rle_abs. nra. }
  assert (Aq := min_abs p). fold q in Aq.
  assert (P1 := Rabs_pos L). assert (P2 := Rabs_pos (whiteH (-9/100) + 2)).
  assert (Gl := Rle_abs (- (q * (wH q + 2)))). rewrite Rabs_Ropp in Gl.
  assert ((Rabs L + Rabs (whiteH (-9/100) + 2)) * Rabs q <= (Rabs L + Rabs (whiteH (-9/100) + 2)) * Rabs p)
    by (apply Rmult_le_compat_l; lra).
  lra.
Qed.

Lemma cut_continuous p : continuous (cut wF) p.
Proof.
  apply continuity_pt_filterlim. intros d Hd. destruct (err_small (d / 4) ltac:(lra)) as [n Hn].
  assert (C : continuity_pt (wFn n) p) by (apply continuity_pt_filterlim, local_lip_continuous, wFn_lip).
  destruct (C (d / 4)) as [r [Hr H]]; [lra|]. exists r. split; [exact Hr|]. intros y Hy. specialize (H y Hy).
  simpl in *. unfold R_dist in *.
  assert (E1 := wFn_close n y). assert (E2 := wFn_close n p).
  apply Rabs_le_between in E1, E2. apply Rabs_lt_between in H. apply Rabs_lt_between. lra.
Qed.

Lemma wF_lip_pos : exists L, lip_on wF 0 M L.
Proof.
  destruct (wG_lip M HM) as [L2 H2].
  destruct (lip_smooth (fun l => Rpower (l + 9/100) (62/100))
       (fun l => Rpower (l + 9/100) (62/100) * (62/100) / (l + 9/100)) 0 M) as [L1 H1].
  { intros x Hx. unfold Rpower. split.
    * auto_derive; [lra|]. field. lra.
    * auto_derive. split; lra. }
  exists (2 * (L1 + L2)). intros p q Hp Hq. unfold wF, rhsF.
  specialize (H1 p q Hp Hq). specialize (H2 p q ltac:(lra) ltac:(lra)). cbv beta in H1, H2.
  unfold whiteS. destruct (Rle_dec p (-9/100)); [lra|]. destruct (Rle_dec q (-9/100)); [lra|].
  set (sp := Rpower (p + 9/100) (62/100)) in *. set (sq := Rpower (q + 9/100) (62/100)) in *.
  replace (2 * (sp - p * (wH p + 2)) - 2 * (sq - q * (wH q + 2)))
    with (2 * ((sp - sq) + - (p * (wH p + 2) - q * (wH q + 2)))) by ring.
  rewrite Rabs_mult, (Rabs_right 2) by lra. rewrite Rmult_assoc. apply Rmult_le_compat_l; [lra|].
  eapply Rle_trans; [apply Rabs_triang|]. rewrite Rabs_Ropp, Rmult_plus_distr_r. lra.
Qed.

Lemma cut_one_sided : one_sided (cut wF).
Proof.
  destruct wF_lip_pos as [LP HP].
  intros N HN. destruct (white_one_sided N HN) as [L HL]. exists (Rabs L + Rabs LP). intros p q d Pp Pq Bp Bq.
  assert (P1 := Rabs_pos L). assert (P2 := Rabs_pos LP). assert (Pd := Rabs_pos d). assert (P3 := pow2_ge_0 (p - q)).
  destruct (Rle_lt_dec d 0) as [D|D].
  - unfold cut. rewrite !Rmin_left by nra.
    eapply Rle_trans; [apply (HL p q d Pp Pq Bp Bq)|]. apply Rmult_le_compat_r; [exact P3|].
    apply Rmult_le_compat_r; [exact Pd|]. assert (Q := Rle_abs L). lra.
  - unfold cut.
    assert (I : forall u, 0 <= u -> 0 <= Rmin (u * d) M <= M).
    { intros u Hu. split; [apply Rmin_glb; [apply Rmult_le_pos; lra|lra]|apply Rmin_r]. }
    assert (K := HP _ _ (I p Pp) (I q Pq)). assert (Ml := min_lip (p * d) (q * d)).
    eapply Rle_trans; [apply Rle_abs|]. rewrite Rabs_mult.
    apply Rle_trans with (Rabs LP * (Rabs (p - q) * Rabs d) * Rabs (p - q)).
    + apply Rmult_le_compat_r; [apply Rabs_pos|]. eapply Rle_trans; [exact K|].
      rewrite <- Rabs_mult. replace ((p - q) * d) with (p * d - q * d) by ring.
      apply Rle_trans with (Rabs LP * Rabs (Rmin (p * d) M - Rmin (q * d) M)).
      * apply Rmult_le_compat_r; [apply Rabs_pos|apply Rle_abs].
      * apply Rmult_le_compat_l; [exact P2|exact Ml].
    + rewrite <- (pow2_abs (p - q)). assert (P4 := Rabs_pos (p - q)).
      replace (Rabs LP * (Rabs (p - q) * Rabs d) * Rabs (p - q)) with (Rabs LP * Rabs d * Rabs (p - q) ^ 2) by ring.
      apply Rmult_le_compat_r; [apply pow2_ge_0|]. apply Rmult_le_compat_r; [exact Pd|lra].
Qed.

Lemma cut_exists (dU W : R -> R) a b s0 : a <= b -> 0 < s0 ->
  (forall x, a <= x <= b -> continuous dU x) -> (forall x, a <= x <= b -> continuous W x /\ 0 < W x) ->
  exists s : R -> R, s a = s0 /\ forall x, a <= x <= b -> is_derive s x (cut wF (s x * dU x) / W x) /\ 0 <= s x.
Proof.
  intros L P D V. destruct wFn_up as [A [B [HA [HB Up]]]].
  apply (limit_exists (cut wF) wFn err dU W a b A B s0 L HA HB P D V cut_continuous cut_one_sided wFn_lip wFn_zero Up
    wFn_close err_dec err_small).
Qed.
End Cut.

Lemma white_until_lemma m U dU a b s0 M : m_kind m = ThwaitesNonlinear -> m_fit m = Some fit_white -> a <= b ->
  (forall x, a <= x <= b -> velocity_at m U (dU x) x /\ continuous dU x /\ 0 < U x + 1/1000) ->
  0 < s0 -> 0 < M -> s0 * dU a < M ->
  exists c s, a <= c <= b /\ (a < b -> a < c) /\ s a = s0 /\
    (forall x, a <= x <= c -> solves1_at m s x /\ 0 < s x /\ s x * dU x <= M) /\ (c = b \/ s c * dU c = M).
Proof.
  intros Km Ef L V P HM Hs.
  destruct (cut_exists M HM dU (fun x => U x + 1/1000) a b s0 L P) as [s [Sa S]].
  - intros x Hx. apply V, Hx.
  - intros x Hx. destruct (V x Hx) as [[_ [DU _]] [_ W]]. split; [|exact W].
    apply (ex_derive_continuous (fun x => U x + 1/1000)). auto_derive. eexists; exact DU.
  - destruct (until (fun x => s x * dU x) a b M L) as [c [Hc [Pc [Bc Ec]]]].
    { intros x Hx. apply (continuous_mult s dU); [|apply V, Hx].
      apply (ex_derive_continuous s). eexists. apply S, Hx. }
    { rewrite Sa. exact Hs. }
    assert (So : forall x, a <= x <= c -> solves1_at m s x).
    { intros x Hx. destruct (S x ltac:(lra)) as [D _]. destruct (V x ltac:(lra)) as [[LU [_ QD]] [_ W]].
      assert (QU := locally_singleton _ _ LU). cbv beta in QU.
      exists (wF (s x * dU x) / (U x + 1/1000)). split.
      - apply (rhs_nonlinear m fit_white _ _ x (s x) (U x) (dU x) Km Ef white_is QU QD). lra.
      - unfold cut in D. rewrite Rmin_left in D by (apply Bc, Hx). exact D. }
    exists c, s. split; [exact Hc|]. split; [exact Pc|]. split; [exact Sa|]. split; [|exact Ec].
    intros x Hx. split; [apply So, Hx|]. split; [|apply Bc, Hx].
    apply (thwaites_positive_lemma m U dU s a x ltac:(congruence)); [lra| | |lra].
    + right. destruct (white_is 0) as [F1 F2]. exists fit_white, (whiteS 0), (wH 0).
      split; [exact Ef|]. split; [exact F1|]. split; [exact white_S0|exact F2].
    + intros t Ht. destruct (V t ltac:(lra)) as [V1 [_ V2]]. split; [exact V1|]. split; [apply So; lra|exact V2].
Qed.

Lemma white_decelerating_lemma m U dU a b s0 : m_kind m = ThwaitesNonlinear -> m_fit m = Some fit_white -> a <= b ->
  (forall x, a <= x <= b -> velocity_at m U (dU x) x /\ continuous dU x /\ 0 < U x + 1/1000 /\ dU x <= 0) -> 0 < s0 ->
  exists s, s a = s0 /\ (forall x, a <= x <= b -> solves1_at m s x /\ 0 < s x) /\
    forall s', s' a = s0 -> (forall x, a <= x <= b -> solves1_at m s' x) -> forall x, a <= x <= b -> s' x = s x.
Proof.
  intros Km Ef L V P.
  assert (V' : forall x, a <= x <= b -> velocity_at m U (dU x) x /\ continuous dU x /\ 0 < U x + 1/1000).
  { intros x Hx. destruct (V x Hx) as (V1 & V2 & V3 & _). auto. }
  assert (Da : dU a <= 0) by (apply V; lra).
  destruct (white_until_lemma m U dU a b s0 1 Km Ef L V' P ltac:(lra) ltac:(nra)) as (c & s & Hc & _ & Sa & S & E).
  assert (c = b) as ->.
  { destruct E as [E|E]; [exact E|]. destruct (S c ltac:(lra)) as (_ & Pc & _). assert (dU c <= 0) by (apply V; lra). nra. }
  exists s. split; [exact Sa|]. split; [intros x Hx; destruct (S x Hx) as (S1 & S2 & _); auto|].
  intros s' Sa' S' x Hx. apply (white_unique_lemma m U dU s' s a b Km Ef L V'); try assumption; [lra|lra|].
  intros t Ht. apply S, Ht.
Qed.
