(** Thwaites' methods on a flat plate against the Blasius solution (C114). *)
From Coq Require Import Reals List Lra Lia.
From Coquelicot Require Import Coquelicot.
From Verif Require Import PyBase PyBaseFacts XDeriv ThwaitesFitsModel ThwaitesFitsProofs SplineSpec
  CoreModel OdeSpec SimilarityModel SimilaritySpec BlasiusSpec BlasiusExistProofs ThwaitesOdeProofs FitLipschitzProofs WellPosedProofs
  WellPosedOdeProofs FlatPlateSpec BlasiusProps.
Import ListNotations.
Open Scope R_scope.

Definition near_flat (f : fit) : Prop :=
  exists S H, shear f (Fin 0) = Fin S /\ shape f (Fin 0) = Fin H /\
    22/100 <= S <= 2255/10000 /\ 259/100 <= H <= 261/100.

Lemma pow_inj_le x y n : 0 <= x -> 0 <= y -> x ^ S n <= y ^ S n -> x <= y.
Proof.
  intros Hx Hy H. destruct (Rle_lt_dec x y) as [C|C]; [exact C|].
  assert (y ^ S n < x ^ S n); [|lra]. clear H. induction n as [|n IH].
  - simpl. lra.
  - change (y * y ^ S n < x * x ^ S n). assert (0 <= y ^ S n) by (apply pow_le; exact Hy).
    apply Rle_lt_trans with (x * y ^ S n); [apply Rmult_le_compat_r; lra|apply Rmult_lt_compat_l; lra].
Qed.
Lemma white_zero : 22/100 <= whiteS 0 <= 2255/10000.
Proof.
  assert (E : whiteS 0 = Rpower (9/100) (62/100)).
  { unfold whiteS. destruct (Rle_dec 0 (-9/100)); [lra|]. f_equal. lra. }
  rewrite E. set (x := Rpower (9/100) (62/100)). assert (P : 0 < x) by apply exp_pos.
  assert (X : x ^ 50 = (9/100) ^ 31).
  { rewrite <- (Rpower_pow 50 x P). unfold x. rewrite Rpower_mult, <- (Rpower_pow 31 (9/100)) by lra.
    assert (I50 : INR 50 = 50) by (rewrite INR_IZR_INZ; reflexivity).
    assert (I31 : INR 31 = 31) by (rewrite INR_IZR_INZ; reflexivity). rewrite I50, I31. f_equal. lra. }
  split; apply (pow_inj_le _ _ 49); lra.
Qed.

Lemma builtin_flat cs f : cubic_spline_ok cs ->
  f = fit_white \/ f = fit_cb \/ f = fit_drela \/ f = fit_spline cs -> near_flat f.
Proof.
  intros OK [->|[->|[->| ->]]].
  - destruct (white_is 0) as [ES EH]. do 2 eexists. split; [exact ES|]. split; [exact EH|].
    split; [exact white_zero|]. rewrite Rmax_right by lra. unfold whiteH. lra.
  - destruct (cb_is 0) as [ES EH]. do 2 eexists. split; [exact ES|]. split; [exact EH|].
    rewrite clip_id by lra. unfold cbS, cbH. destruct (Rlt_dec 0 0); [lra|]. unfold cbS_pos, cbH_pos. lra.
  - destruct (drela_is 0) as [ES EH]. do 2 eexists. split; [exact ES|]. split; [exact EH|].
    rewrite Rmax_right by lra. unfold drelaS, drelaH. replace (0 * 0) with 0 by ring.
    unfold Rdiv. rewrite !Rmult_0_r, !Rmult_0_l. lra.
  - destruct (spline_slopes cs OK) as (S & S' & H & H' & ES & EH & _ & _ & _ & _ & TS & TH).
    exists (S 0), (H 0). rewrite ES, EH, clip_id by lra. split; [reflexivity|]. split; [reflexivity|].
    assert (S 0 = 22/100) by (apply (TS 16%nat); cbn [nth_error tab_lambda tab_shear map]; f_equal; lra).
    assert (H 0 = 261/100) by (apply (TH 16%nat); cbn [nth_error tab_lambda tab_shape map]; f_equal; lra).
    lra.
Qed.

(** The solution on a flat plate. *)
Lemma flat_solution m f S H s u X : m_kind m <> Head -> m_fit m = Some f ->
  shear f (Fin 0) = Fin S -> shape f (Fin 0) = Fin H -> 0 < u ->
  (forall x, 0 <= x <= X -> velocity_at m (fun _ => u) 0 x /\ solves1_at m s x) -> s 0 = 0 ->
  exists F0, (m_kind m = ThwaitesLinear -> F0 = 45/100) /\ (m_kind m = ThwaitesNonlinear -> F0 = 2 * S) /\
    forall x, 0 <= x <= X -> s x = F0 * x / (u + 1/1000).
Proof.
  intros K Kf ES EH Pu V S0.
  assert (Q : exists F0, (m_kind m = ThwaitesLinear -> F0 = 45/100) /\ (m_kind m = ThwaitesNonlinear -> F0 = 2 * S) /\
     forall x, 0 <= x <= X -> is_derive s x (F0 / (u + 1/1000))).
  { destruct (m_kind m) eqn:Km; [| |congruence].
    - exists (45/100). split; [reflexivity|]. split; [discriminate|]. intros x Hx.
      destruct (V x Hx) as [[LU [_ QD]] [v [Ev D]]]. assert (QU := locally_singleton _ _ LU). cbv beta in QU.
      rewrite (rhs_linear m u 0 (s x) x Km QU QD) in Ev by lra. injection Ev as Ev.
      rewrite Rmult_0_r, Rmult_0_r, Rminus_0_r, (Rplus_comm (1/1000)) in Ev. rewrite Ev. exact D.
    - exists (2 * S). split; [discriminate|]. split; [reflexivity|]. intros x Hx.
      destruct (V x Hx) as [[LU [_ QD]] [v [Ev D]]]. assert (QU := locally_singleton _ _ LU). cbv beta in QU.
      unfold ode_impl, calc_f, calc_lambda in Ev. rewrite Km, QD in Ev. cbn [bind] in Ev. rewrite Kf in Ev. cbn [bind] in Ev.
      rewrite QU in Ev. cbn [bind] in Ev. unfold fit_f in Ev. rewrite xmul_fin, Rmult_0_r, ES, EH in Ev.
      rewrite !xadd_fin, !xmul_fin, xsub_fin, xmul_fin, xdiv_fin in Ev by lra. injection Ev as Ev.
      rewrite Rmult_0_l, Rminus_0_r, (Rplus_comm (1/1000)) in Ev. rewrite Ev. exact D. }
  destruct Q as [F0 [A [B D]]]. exists F0. split; [exact A|]. split; [exact B|]. intros x Hx.
  destruct (MVT_gen s 0 x (fun _ => F0 / (u + 1/1000))) as [c [_ E]].
  - intros z Hz. rewrite Rmin_left, Rmax_right in Hz by lra. apply D. lra.
  - intros z Hz. rewrite Rmin_left, Rmax_right in Hz by lra. apply (PositivityProofs.derive_cont_pt s z (F0 / (u + 1/1000))), D. lra.
  - rewrite S0 in E. replace (s x) with (s x - 0) by ring. rewrite E. field. lra.
Qed.

Lemma frac_bounds u : 1 <= u -> 1000/1001 <= u / (u + 1/1000) <= 1.
Proof.
  intros H. split.
  - apply (Rmult_le_reg_r (u + 1/1000)); [lra|].
    replace (u / (u + 1/1000) * (u + 1/1000)) with u by (field; lra). lra.
  - apply (Rmult_le_reg_r (u + 1/1000)); [lra|].
    replace (u / (u + 1/1000) * (u + 1/1000)) with u by (field; lra). lra.
Qed.
Lemma sqrt_between lo hi x : 0 <= lo -> 0 <= hi -> lo * lo <= x <= hi * hi -> lo <= sqrt x <= hi.
Proof.
  intros A B [C D]. split.
  - rewrite <- (sqrt_square lo A). apply sqrt_le_1_alt, C.
  - rewrite <- (sqrt_square hi B). apply sqrt_le_1_alt, D.
Qed.

Lemma agree_scaled tol p c lo hi k q : q = Ok (Fin (c * k)) -> 0 < k -> 0 < lo -> lo <= c <= hi ->
  lo - tol * lo <= p <= lo + tol * lo -> hi - tol * lo <= p -> 
  agree tol (Ok (Fin (p * k))) q.
Proof.
  intros E Pk Pl B C D. exists (p * k), (c * k). split; [reflexivity|]. split; [exact E|].
  split; [apply Rmult_lt_0_compat; lra|].
  rewrite <- Rmult_minus_distr_r, Rabs_mult, (Rabs_pos_eq k) by lra. rewrite <- Rmult_assoc.
  apply Rmult_le_compat_r; [lra|].
  assert (T : 0 <= tol) by nra.
  assert (tol * lo <= tol * c) by (apply Rmult_le_compat_l; lra).
  apply Rabs_le. split; lra.
Qed.

Lemma flat_plate_lemma m f cs s g u n X ivp quad bisect o :
  m_kind m <> Head -> m_nu m = Fin n -> 0 < n -> m_fit m = Some f -> cubic_spline_ok cs ->
  f = fit_white \/ f = fit_cb \/ f = fit_drela \/ f = fit_spline cs -> 1 <= u ->
  (forall x, 0 <= x <= X -> velocity_at m (fun _ => u) 0 x /\ solves1_at m s x) -> s 0 = 0 ->
  m_sol m = Some g -> (forall x, 0 <= x <= X -> g x = [Fin (s x)]) ->
  exact_ivp ivp -> exact_quad quad -> exact_bisect bisect ->
  new_blasius ivp quad bisect (Fin u) (Fin n) None None = Ok o ->
  forall x rho, 0 < x <= X -> 0 < rho ->
  agree (12/1000) (q_delta_m m x) (qs_delta_m o x) /\
  agree (19/1000) (q_delta_d m x) (qs_delta_d o x) /\
  agree (8/1000) (q_shape_d m x) (qs_shape_d o x) /\
  agree (13/1000) (q_tau_w_thwaites m x rho) (qs_tau_w o x (Fin rho)).
Proof.
  intros K Kn Pn Kf OK Hf Hu V S0 Eg Hg A1 A2 A3 EB x rho Hx Hr.
  destruct (builtin_flat cs f OK Hf) as (S & H & ES & EH & BS & BH).
  destruct (flat_solution m f S H s u X K Kf ES EH ltac:(lra) V S0) as (F0 & FL & FN & Sx).
  destruct (blasius_defaults ivp quad bisect u n o A1 A2 A3 EB ltac:(lra) Pn) as [_ BB].
  specialize (BB x ltac:(lra)). cbv zeta in BB.
  destruct BB as ((cd & Bd & Qd) & (cm & Bm & Qm) & _ & _ & (ch & Bh & Qh) & _ & _ & BB).
  destruct (BB rho) as [(ct & Bt & Qt) _].
  assert (Bm' : 66411/100000 <= cm <= 66412/100000) by lra.
  assert (Bd' : 172078/100000 <= cd <= 172079/100000) by lra.
  assert (Bh' : 259110/100000 <= ch <= 259111/100000) by lra.
  assert (Bt' : 33205/100000 <= ct <= 33206/100000) by lra.
  clear Bm Bd Bh Bt BB.
  destruct (V x ltac:(lra)) as [[LU [_ QD]] _]. assert (QU := locally_singleton _ _ LU). cbv beta in QU.
  assert (Gx := Hg x ltac:(lra)). assert (Ex := Sx x ltac:(lra)).
  set (r := u / (u + 1/1000)). assert (Br := frac_bounds u Hu). fold r in Br.
  set (root := sqrt (u * x / n)) in *.
  assert (Pux : 0 < u * x / n) by (apply Rdiv_lt_0_compat; [apply Rmult_lt_0_compat; lra|exact Pn]).
  assert (Pr : 0 < root) by (apply sqrt_lt_R0, Pux).
  assert (Rr : root * root = u * x / n) by (apply sqrt_sqrt; lra).
  assert (FV : F0 = 45/100 \/ F0 = 2 * S).
  { destruct (m_kind m); [left; apply FL; reflexivity|right; apply FN; reflexivity|congruence]. }
  assert (BF : 44/100 <= F0 <= 451/1000).
  { destruct FV; lra. }
  assert (PF : 0 < F0 * r) by (apply Rmult_lt_0_compat; lra).
  set (c := sqrt (F0 * r)).
  assert (Pc : 0 < c) by (apply sqrt_lt_R0, PF).
  assert (Cc : c * c = F0 * r) by (apply sqrt_sqrt; lra).
  assert (Bc : 66299/100000 <= c <= 67157/100000).
  { apply sqrt_between; [lra|lra|]. split; nra. }
  assert (Ec : sqrt (s x * n) = c * (x / root)).
  { rewrite Ex. replace (F0 * x / (u + 1/1000) * n) with ((c * (x / root)) * (c * (x / root))).
    - apply sqrt_square. apply Rmult_le_pos; [lra|]. apply Rdiv_le_0_compat; lra.
    - replace (c * (x / root) * (c * (x / root))) with (c * c * (x * x / (root * root))) by (field; lra).
      rewrite Cc, Rr. unfold r. field. lra. }
  assert (Psn : 0 <= s x * n).
  { rewrite Ex. apply Rmult_le_pos; [|lra]. apply Rdiv_le_0_compat; [apply Rmult_le_pos; lra|lra]. }
  assert (QM : q_delta_m m x = Ok (Fin (c * (x / root)))).
  { unfold q_delta_m, sol_at. rewrite Eg. cbn [bind]. rewrite Gx. cbn [comp nth_error bind].
    rewrite Kn, xmul_fin, xsqrt_fin, Ec by exact Psn. destruct (m_kind m); [reflexivity|reflexivity|congruence]. }
  assert (QH : q_shape_d m x = Ok (Fin (H * 1))).
  { unfold q_shape_d, sol_at. rewrite Eg. cbn [bind]. rewrite Gx.
    destruct (m_kind m); [| |congruence]; cbn [comp nth_error bind]; unfold calc_lambda;
      rewrite QD; cbn [bind]; rewrite Kf, xmul_fin, Rmult_0_r, EH, Rmult_1_r; reflexivity. }
  assert (QDD : q_delta_d m x = Ok (Fin ((c * H) * (x / root)))).
  { unfold q_delta_d. rewrite QM, QH. cbn [bind]. rewrite xmul_fin. do 2 f_equal. ring. }
  assert (QT : q_tau_w_thwaites m x rho = Ok (Fin ((S / c) * (rho * u ^ 2 / root)))).
  { unfold q_tau_w_thwaites, sol_at. rewrite Eg. cbn [bind]. rewrite Gx. cbn [comp nth_error bind].
    unfold calc_lambda. rewrite QD. cbn [bind]. rewrite QU. cbn [bind]. rewrite Kf, QM. cbn [bind].
    rewrite Kn, (xmul_fin (s x) 0), Rmult_0_r, ES, !xmul_fin.
    assert (c * (x / root) <> 0).
    { apply Rgt_not_eq. apply Rmult_lt_0_compat; [exact Pc|apply Rdiv_lt_0_compat; lra]. }
    rewrite xdiv_fin by assumption. do 2 f_equal.
    replace (rho * n * u * S / (c * (x / root))) with (S / c * (rho * (n * u * root / x))) by (field; repeat split; lra).
    replace (rho * u ^ 2 / root) with (rho * (u ^ 2 / root)) by (field; lra). f_equal. f_equal.
    assert (E2 : u ^ 2 / root = u ^ 2 * root / (root * root)) by (field; lra).
    rewrite E2, Rr. field. repeat split; lra. }
  assert (Pk : 0 < x / root) by (apply Rdiv_lt_0_compat; lra).
  assert (Pt : 0 < rho * u ^ 2 / root).
  { apply Rdiv_lt_0_compat; [|exact Pr]. apply Rmult_lt_0_compat; [lra|apply pow_lt; lra]. }
  assert (BT : 32795/100000 <= S / c <= 33634/100000).
  { assert (K2 : S * S / (F0 * r) = (S / c) * (S / c)) by (rewrite <- Cc; field; lra).
    assert (Psc : 0 < S / c) by (apply Rdiv_lt_0_compat; lra).
    assert (Lo : (32795/100000) * (32795/100000) <= S * S / (F0 * r) <= (33634/100000) * (33634/100000)).
    { split.
      - apply (Rmult_le_reg_r (F0 * r)); [exact PF|]. replace (S * S / (F0 * r) * (F0 * r)) with (S * S) by (field; split; lra).
        assert (F0 * r <= F0 * 1) by (apply Rmult_le_compat_l; lra).
        assert (22/100 * S <= S * S) by (apply Rmult_le_compat_r; lra).
        destruct FV as [-> | ->]; lra.
      - apply (Rmult_le_reg_r (F0 * r)); [exact PF|]. replace (S * S / (F0 * r) * (F0 * r)) with (S * S) by (field; split; lra).
        assert (F0 * (1000/1001) <= F0 * r) by (apply Rmult_le_compat_l; lra).
        assert (S * S <= 2255/10000 * S) by (apply Rmult_le_compat_r; lra).
        destruct FV as [-> | ->]; lra. }
    rewrite K2 in Lo. rewrite <- (sqrt_square (S / c)) by lra. apply sqrt_between; [lra|lra|exact Lo]. }
  rewrite QM, QDD, QH, QT. split; [|split; [|split]].
  - apply (agree_scaled _ _ cm (66411/100000) (66412/100000) _ _ Qm Pk); lra.
  - assert (66299/100000 * (259/100) <= c * H <= 67157/100000 * (261/100))
      by (split; apply Rmult_le_compat; lra).
    apply (agree_scaled _ _ cd (172078/100000) (172079/100000) _ _ Qd Pk); lra.
  - apply (agree_scaled _ _ ch (259110/100000) (259111/100000) _ _ Qh Rlt_0_1); lra.
  - apply (agree_scaled _ _ ct (33205/100000) (33206/100000) _ _ Qt Pt); lra.
Qed.

(** At the speed 1/1000 the offset in the equation halves the growth. *)
Lemma flat_plate_slow_lemma k m s ivp quad bisect o : exact_ivp ivp -> exact_quad quad -> exact_bisect bisect ->
  new_blasius ivp quad bisect (Fin (1/1000)) (Fin 1) None None = Ok o ->
  m_kind m = k -> k <> Head -> m_nu m = Fin 1 -> m_sol m = Some (fun x => [Fin (s x)]) ->
  s 1 = 45/100 / (1/1000 + 1/1000) -> ~ agree (1/4) (q_delta_m m 1) (qs_delta_m o 1).
Proof.
  intros A1 A2 A3 EB Km Kh Kn Eg S1 [p [q [Ep [Eq [Pq B]]]]].
  destruct (delta_m_of m 1 _ (s 1) 1 ltac:(rewrite Km; exact Kh) Kn Rlt_0_1 Eg eq_refl) as [d [Ed D2]].
  { rewrite S1. lra. }
  rewrite Ep in Ed. injection Ed as <-.
  destruct (blasius_defaults ivp quad bisect (1/1000) 1 o A1 A2 A3 EB ltac:(lra) Rlt_0_1) as [_ BB].
  specialize (BB 1 Rlt_0_1). cbv zeta in BB. destruct BB as (_ & (cm & Bm & Qm) & _).
  rewrite Eq in Qm. injection Qm as Qm.
  set (root := sqrt (1/1000 * 1 / 1)) in *.
  assert (Pr : 0 < root) by (apply sqrt_lt_R0; lra).
  assert (Rr : root * root = 1/1000) by (unfold root; rewrite sqrt_sqrt by lra; lra).
  assert (Q2 : q ^ 2 = cm ^ 2 * 1000).
  { rewrite Qm. replace ((cm * (1 / root)) ^ 2) with (cm ^ 2 * (1 / (root * root))) by (field; lra). rewrite Rr. field. }
  assert (Cm : 441 <= q ^ 2).
  { rewrite Q2. assert (66411/100000 <= cm) by lra. assert (441/1000 <= cm ^ 2) by (simpl; nra). lra. }
  assert (P2 : p ^ 2 = 225) by (rewrite D2, S1; field).
  assert (q <= 4/3 * p) by (apply Rabs_le_between in B; lra).
  assert (q ^ 2 <= (4/3 * p) ^ 2) by (apply pow_incr; lra).
  replace ((4/3 * p) ^ 2) with (16/9 * p ^ 2) in * by field. lra.
Qed.
