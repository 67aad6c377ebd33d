(** Mass and momentum balances over a stretch of wall (C171). *)
From Coq Require Import Reals List Lra Lia.
From Coquelicot Require Import Coquelicot Rcomplements.
From Verif Require Import PyBase PyBaseFacts XDeriv SkinFrictionModel HeadModel HeadProofs HeadArrayModel HeadArrayProofs
  ThwaitesFitsModel CoreModel OdeSpec ThwaitesOdeProofs HeadOdeProofs PositivityProofs WellPosedProofs SystemProofs HeadExistProofs
  BalanceSpec.
Import ListNotations.
Open Scope R_scope.

(** ** Integrals of derivatives *)
Lemma total_of (F f : R -> R) a b : a <= b ->
  (forall x, a <= x <= b -> is_derive F x (f x) /\ continuous f x) -> is_RInt f a b (F b - F a).
Proof.
  intros L H. apply (is_RInt_derive F f); intros x Hx; rewrite Rmin_left, Rmax_right in Hx by lra; apply H, Hx.
Qed.

(** ** Continuity *)
Lemma cont_mult (f g : R -> R) x : continuous f x -> continuous g x -> continuous (fun t => f t * g t) x.
Proof. intros A B. exact (continuous_mult f g x A B). Qed.
Lemma cont_plus (f g : R -> R) x : continuous f x -> continuous g x -> continuous (fun t => f t + g t) x.
Proof. intros A B. exact (continuous_plus f g x A B). Qed.
Lemma cont_minus (f g : R -> R) x : continuous f x -> continuous g x -> continuous (fun t => f t - g t) x.
Proof. intros A B. exact (continuous_minus f g x A B). Qed.
Lemma cont_opp (f : R -> R) x : continuous f x -> continuous (fun t => - f t) x.
Proof. intros A. exact (continuous_opp f x A). Qed.
Lemma cont_const (c x : R) : continuous (fun _ : R => c) x.
Proof. apply continuous_const. Qed.
Lemma cont_inv (f : R -> R) x : continuous f x -> f x <> 0 -> continuous (fun t => / f t) x.
Proof.
  intros A N. apply (continuous_comp f Rinv); [exact A|]. apply (ex_derive_continuous Rinv). auto_derive. exact N.
Qed.
Lemma cont_power (f : R -> R) c x : continuous f x -> 0 < f x -> continuous (fun t => Rpower (f t) c) x.
Proof.
  intros A P. apply (continuous_comp f (fun y => Rpower y c)); [exact A|].
  apply (ex_derive_continuous (fun y => Rpower y c)). unfold Rpower. auto_derive. exact P.
Qed.
Lemma cont_power10 (f : R -> R) x : continuous f x -> continuous (fun t => Rpower 10 (f t)) x.
Proof.
  intros A. apply (continuous_comp f (Rpower 10)); [exact A|].
  apply (ex_derive_continuous (Rpower 10)). unfold Rpower. auto_derive. exact I.
Qed.
Lemma cont_up (f : R -> R) x : continuous f x -> continuous (fun t => up (f t)) x.
Proof.
  intros A. apply (continuous_comp f up); [exact A|]. apply (lip_continuous _ 1). intros y z. unfold up, Rmax, Rabs.
  repeat destruct (Rle_dec _ _); repeat destruct (Rcase_abs _); lra.
Qed.
Lemma cont_pow2 (f : R -> R) x : continuous f x -> continuous (fun t => f t ^ 2) x.
Proof.
  intros A. apply (continuous_ext (fun t => f t * f t)); [intros t; change (f t * f t = f t ^ 2); ring|]. apply cont_mult; exact A.
Qed.
Lemma derive_cont (f : R -> R) x (l : R) : is_derive f x l -> continuous f x.
Proof. intros D. apply (ex_derive_continuous f). exists l. exact D. Qed.

Lemma cont_sys0 nu (U dU d h : R -> R) (x : R) : 0 < nu -> continuous U x -> continuous dU x -> continuous d x -> continuous h x ->
  0 < U x -> 0 < d x -> continuous (fun t => sys0 nu U dU t (d t) (h t)) x.
Proof.
  intros Pn CU CdU Cd Ch PU Pd. unfold sys0.
  apply cont_minus.
  - apply cont_mult; [apply cont_const|]. apply cont_mult.
    + apply cont_power; [apply cont_mult; [apply cont_mult; assumption|apply cont_const]|].
      apply Rmult_lt_0_compat; [apply Rmult_lt_0_compat; assumption|apply Rinv_0_lt_compat, Pn].
    + apply cont_power10. apply cont_mult; [apply cont_const|apply cont_up, Ch].
  - apply cont_mult; [|apply cont_inv; [exact CU|lra]]. apply cont_mult; [|exact CdU].
    apply cont_mult; [exact Cd|]. apply cont_plus; [apply cont_const|apply cont_up, Ch].
Qed.

Lemma cont_h1 (A B C D : R) (h : R -> R) (x : R) : B < 111/100 -> continuous h x -> continuous (fun t => sys_h1 A B C D (h t)) x.
Proof.
  intros PB Ch. unfold sys_h1. apply cont_plus; [apply cont_const|]. apply cont_mult; [apply cont_const|].
  apply cont_power; [apply cont_minus; [apply cont_up, Ch|apply cont_const]|]. assert (G := up_ge (h x)). lra.
Qed.

Lemma cont_sys1 A B C D nu (U dU d h : R -> R) (x : R) : 0 < A -> B < 111/100 -> 3 < D -> 0 < nu ->
  continuous U x -> continuous dU x -> continuous d x -> continuous h x ->
  0 < U x -> 0 < d x -> continuous (fun t => sys1 A B C D nu U dU t (d t) (h t)) x.
Proof.
  intros PA PB PD Pn CU CdU Cd Ch PU Pd. assert (C0 := cont_sys0 nu U dU d h x Pn CU CdU Cd Ch PU Pd).
  assert (C1 := cont_h1 A B C D h x PB Ch). assert (G := up_ge (h x)). assert (G1 := sys_h1_gt A B C D PA (h x)).
  unfold sys1. apply cont_mult; [|apply cont_inv; [exact Cd|lra]]. apply cont_mult; [|apply cont_inv; [exact CU|lra]].
  apply cont_mult.
  - apply cont_opp. apply cont_minus.
    + apply cont_minus.
      * apply cont_mult; [exact CU|]. apply cont_mult; [apply cont_const|].
        apply cont_power; [apply cont_minus; [exact C1|apply cont_const]|lra].
      * apply cont_mult; [|exact C1]. apply cont_mult; [exact CU|exact C0].
    + apply cont_mult; [|exact C1]. apply cont_mult; assumption.
  - apply cont_mult; [|apply cont_const]. apply cont_power; [apply cont_minus; [apply cont_up, Ch|apply cont_const]|lra].
Qed.

(** ** Head's method *)
Lemma head_reports m d h x : m_kind m = Head -> stored2_at m d h x ->
  q_delta_m m x = Ok (Fin (d x)) /\ q_delta_d m x = Ok (Fin (d x * h x)).
Proof.
  intros Km (g & SE & SL). apply locally_singleton in SL.
  unfold q_delta_d, q_delta_m, q_shape_d, sol_at. rewrite SE. cbn [bind]. rewrite Km, SL. split; reflexivity.
Qed.

Lemma head_momentum_balance_lemma m nu U dU d h u_call rho a b :
  m_kind m = Head -> m_nu m = Fin nu -> 0 < nu -> slot_kind (m_u m) <> KInt -> a <= b ->
  (forall x, a <= x <= b -> velocity_at m U (dU x) x /\ continuous dU x /\ 1/1000 <= U x /\
     solves2_at m d h x /\ stored2_at m d h x /\ 0 < d x /\ 111/100 <= h x /\ u_call (LArray [x]) = UArr [U x]) ->
  exists tau dm dd, reports (head_shear m u_call rho) tau a b /\ reports (q_delta_m m) dm a b /\
    reports (q_delta_d m) dd a b /\
    is_RInt (fun x => tau x - rho * U x * dU x * dd x) a b (rho * U b ^ 2 * dm b - rho * U a ^ 2 * dm a).
Proof.
  intros Km Kn Pn Sk L H.
  set (cf := fun x => 246/1000 * (Rpower (U x * d x / nu) (- (268/1000)) * Rpower 10 (- (678/1000) * up (h x)))).
  exists (fun x => 1/2 * rho * U x ^ 2 * cf x), d, (fun x => d x * h x).
  assert (Mu : m_u m <> None).
  { destruct (H a ltac:(lra)) as ((LU & _) & _). apply locally_singleton in LU. unfold q_u_e in LU.
    intros E. rewrite E in LU. discriminate. }
  split; [|split; [|split]].
  - intros x Hx. destruct (H x Hx) as (_ & _ & PU & _ & (g & SE & SL) & Pd & Hh & Uc). apply locally_singleton in SL.
    destruct (tau_array_lemma m nu g u_call U d h [x] rho Kn Pn SE Mu ltac:(discriminate) Uc) as (taus & E & F).
    { intros t [<-|[]]. auto. }
    inversion F as [|? t ? ? (c & Ec & _ & Et) F']; subst. inversion F'; subst.
    unfold head_shear. rewrite E. cbn [snd map]. do 2 f_equal.
    assert (Pr : 0 < U x * d x / nu) by (apply Rdiv_lt_0_compat; [apply Rmult_lt_0_compat; lra|exact Pn]).
    assert (c = cf x) as ->; [|reflexivity].
    unfold ludwieg_tillman in Ec. rewrite xmul_fin, !xpow_fin in Ec by lra. rewrite xmul_fin, xdiv_fin in Ec.
    2:{ apply Rgt_not_eq, Rmult_lt_0_compat; apply Rpower_pos. }
    injection Ec as <-. unfold cf. rewrite up_id by lra.
    replace (- (678/1000) * h x) with (- (678/1000 * h x)) by ring.
    rewrite !Rpower_Ropp. field. split; apply Rpower_nz.
  - intros x Hx. destruct (H x Hx) as (_ & _ & _ & _ & St & _). apply (head_reports m d h x Km St).
  - intros x Hx. destruct (H x Hx) as (_ & _ & _ & _ & St & _). apply (head_reports m d h x Km St).
  - apply (total_of (fun x => rho * U x ^ 2 * d x)); [exact L|]. intros x Hx.
    destruct (H x Hx) as ((LU & DU & QD) & CdU & PU & (v & w & E & Dd & Dh) & _ & Pd & Hh & _).
    assert (QU := locally_singleton _ _ LU). cbv beta in QU.
    rewrite (rhs_sys m nu U dU x (d x) (h x) Km Kn Pn Sk QU QD PU Pd) in E. injection E as E1 E2.
    assert (CU := derive_cont _ _ _ DU). assert (Cd := derive_cont _ _ _ Dd). assert (Ch := derive_cont _ _ _ Dh).
    split.
    + assert (D1 : is_derive (fun t => rho * U t ^ 2 * d t) x (rho * (2 * U x * dU x) * d x + rho * U x ^ 2 * v)).
      { apply (mult_derive (fun t => rho * U t ^ 2) d); [|exact Dd]. auto_derive; [eexists; exact DU|].
        change (Derive (fun x0 => U x0) x) with (Derive U x). rewrite (is_derive_unique U _ _ DU). ring. }
      replace (1/2 * rho * U x ^ 2 * cf x - rho * U x * dU x * (d x * h x)) with
        (rho * (2 * U x * dU x) * d x + rho * U x ^ 2 * v); [exact D1|].
      rewrite <- E1. unfold sys0, cf. rewrite up_id by lra. field. lra.
    + apply cont_minus.
      * apply cont_mult; [apply cont_mult; [apply cont_const|apply cont_pow2, CU]|].
        unfold cf. apply cont_mult; [apply cont_const|]. apply cont_mult.
        -- apply cont_power; [apply cont_mult; [apply cont_mult; assumption|apply cont_const]|].
           apply Rdiv_lt_0_compat; [apply Rmult_lt_0_compat; lra|exact Pn].
        -- apply cont_power10. apply cont_mult; [apply cont_const|apply cont_up, Ch].
      * apply cont_mult; [|apply cont_mult; assumption]. apply cont_mult; [|exact CdU].
        apply cont_mult; [apply cont_const|exact CU].
Qed.

Lemma head_mass_balance_lemma m nu U dU d h a b :
  m_kind m = Head -> m_nu m = Fin nu -> 0 < nu -> slot_kind (m_u m) <> KInt -> a <= b ->
  (forall x, a <= x <= b -> velocity_at m U (dU x) x /\ continuous dU x /\ 1/1000 <= U x /\
     solves2_at m d h x /\ stored2_at m d h x /\ 0 < d x) ->
  (forall x, a <= x <= b -> h x <= 16/10) \/ (forall x, a <= x <= b -> 16/10 < h x) ->
  exists ve dd, reports (q_v_e m) ve a b /\ reports (q_delta_d m) dd a b /\ is_RInt ve a b (U b * dd b - U a * dd a).
Proof.
  intros Km Kn Pn Sk L H Side.
  assert (G : exists S1 : R -> R, (forall x, a <= x <= b -> sys1_at nu U dU (h x) x (d x) (h x) = S1 x) /\
     forall x, a <= x <= b -> continuous S1 x).
  { destruct Side as [Sd|Sd].
    - exists (fun t => sys1 lo_a lo_b lo_c lo_d nu U dU t (d t) (h t)). split.
      + intros x Hx. unfold sys1_at. specialize (Sd x Hx). destruct (Rle_dec (h x) (16/10)); [reflexivity|lra].
      + intros x Hx. destruct (H x Hx) as ((_ & DU & _) & CdU & PU & (v & w & _ & Dd & Dh) & _ & Pd).
        apply cont_sys1; try (unfold lo_a, lo_b, lo_d); try lra; try assumption; eapply derive_cont; eassumption.
    - exists (fun t => sys1 hi_a hi_b hi_c hi_d nu U dU t (d t) (h t)). split.
      + intros x Hx. unfold sys1_at. specialize (Sd x Hx). destruct (Rle_dec (h x) (16/10)); [lra|reflexivity].
      + intros x Hx. destruct (H x Hx) as ((_ & DU & _) & CdU & PU & (v & w & _ & Dd & Dh) & _ & Pd).
        apply cont_sys1; try (unfold hi_a, hi_b, hi_d); try lra; try assumption; eapply derive_cont; eassumption. }
  destruct G as (S1 & ES & CS).
  set (ve := fun x => dU x * h x * d x + U x * S1 x * d x + U x * h x * sys0 nu U dU x (d x) (h x)).
  assert (Main : forall x, a <= x <= b -> q_v_e m x = Ok (Fin (ve x)) /\ is_derive (fun t => U t * (d t * h t)) x (ve x)).
  { intros x Hx. destruct (H x Hx) as (V & CdU & PU & So & St & Pd).
    destruct V as (LU & DU & QD). assert (QU := locally_singleton _ _ LU). cbv beta in QU.
    destruct So as (v & w & E & Dd & Dh). pose proof E as E'.
    rewrite (rhs_sys m nu U dU x (d x) (h x) Km Kn Pn Sk QU QD PU Pd) in E'. injection E' as E1 E2. rewrite ES in E2 by exact Hx.
    destruct (head_ve_lemma m U (dU x) d h x Km (conj LU (conj DU QD))
      (ex_intro _ v (ex_intro _ w (conj E (conj Dd Dh)))) St) as (v0 & dd & Q & Ld & D0).
    assert (D1 : is_derive (fun t => U t * (d t * h t)) x v0).
    { apply (is_derive_ext_loc (fun t => U t * dd t)); [|exact D0].
      destruct St as (g & SE & SL). generalize (filter_and _ _ Ld SL). apply filter_imp. intros t [A B].
      unfold q_delta_d, q_delta_m, q_shape_d, sol_at in A. rewrite SE in A. cbn [bind] in A. rewrite Km, B in A. cbn in A.
      injection A as A. rewrite A. reflexivity. }
    assert (D2 : is_derive (fun t => U t * (d t * h t)) x (dU x * (d x * h x) + U x * (v * h x + d x * w))).
    { apply (mult_derive U (fun t => d t * h t)); [exact DU|]. apply (mult_derive d h); assumption. }
    assert (v0 = ve x) as ->.
    { rewrite <- (is_derive_unique _ _ _ D1), (is_derive_unique _ _ _ D2). unfold ve. rewrite E1, E2. ring. }
    split; assumption. }
  exists ve, (fun x => d x * h x). split; [intros x Hx; apply Main, Hx|]. split.
  { intros x Hx. destruct (H x Hx) as (_ & _ & _ & _ & St & _). apply (head_reports m d h x Km St). }
  apply (total_of (fun x => U x * (d x * h x))); [exact L|]. intros x Hx. split; [apply Main, Hx|].
  destruct (H x Hx) as ((_ & DU & _) & CdU & PU & (v & w & _ & Dd & Dh) & _ & Pd).
  assert (CU := derive_cont _ _ _ DU). assert (Cd := derive_cont _ _ _ Dd). assert (Ch := derive_cont _ _ _ Dh).
  unfold ve. apply cont_plus; [apply cont_plus|].
  - apply cont_mult; [|exact Cd]. apply cont_mult; assumption.
  - apply cont_mult; [|exact Cd]. apply cont_mult; [exact CU|apply CS, Hx].
  - apply cont_mult; [apply cont_mult; assumption|]. apply cont_sys0; try assumption. lra.
Qed.

(** ** Thwaites' methods *)
Lemma thwaites_mass_balance_lemma m nu f U dU d2U s ve a b : m_kind m <> Head ->
  m_nu m = Fin nu -> 0 < nu -> m_fit m = Some f -> a <= b ->
  (forall x, a <= x <= b -> velocity2_at m U dU (d2U x) x /\ solves1_at m s x /\ stored1_at m s x /\ 0 < s x /\
     exists p, shape_p f (Fin (s x * dU x)) = Fin p /\ xderiv (shape f) (s x * dU x) p) ->
  reports (q_v_e m) ve a b -> (forall x, a <= x <= b -> continuous ve x) ->
  exists dd, reports (q_delta_d m) dd a b /\ is_RInt ve a b (U b * dd b - U a * dd a).
Proof.
  intros K Kn Pn Kf L H RV CV.
  set (dd := fun x => match q_delta_d m x with Ok (Fin v) => v | _ => 0 end).
  assert (Main : forall x, a <= x <= b -> q_delta_d m x = Ok (Fin (dd x)) /\ is_derive (fun t => U t * dd t) x (ve x)).
  { intros x Hx. destruct (H x Hx) as (V & So & St & Ps & p & E1 & E2).
    destruct (thwaites_ve_lemma m nu f U dU (d2U x) s x p K Kn Pn Kf V So St Ps E1 E2) as (v & d' & Q & Ld & D).
    rewrite (RV x Hx) in Q. injection Q as <-.
    assert (Le : locally x (fun t => U t * d' t = U t * dd t)).
    { generalize Ld. apply filter_imp. intros t E. unfold dd. rewrite E. reflexivity. }
    split; [apply locally_singleton in Ld; unfold dd; rewrite Ld; reflexivity|].
    apply (is_derive_ext_loc (fun t => U t * d' t)); assumption. }
  exists dd. split; [intros x Hx; apply Main, Hx|].
  apply (total_of (fun x => U x * dd x)); [exact L|]. intros x Hx. split; [apply Main, Hx|apply CV, Hx].
Qed.

Lemma thwaites_momentum_balance_lemma m nu f U dU s S H rho a b : m_kind m = ThwaitesNonlinear ->
  m_nu m = Fin nu -> 0 < nu -> m_fit m = Some f -> a <= b ->
  (forall x, a <= x <= b -> velocity_at m U (dU x) x /\ continuous dU x /\ 0 < U x + 1/1000 /\
     solves1_at m s x /\ stored1_at m s x /\ 0 < s x /\
     shear f (Fin (s x * dU x)) = Fin (S x) /\ shape f (Fin (s x * dU x)) = Fin (H x) /\ continuous S x /\ continuous H x) ->
  exists tau dm dd, reports (fun x => q_tau_w_thwaites m x rho) tau a b /\ reports (q_delta_m m) dm a b /\
    reports (q_delta_d m) dd a b /\
    is_RInt (fun x => tau x - rho * U x * dU x * dd x + 1/1000 * (rho * dU x * dm x)) a b
      (rho * U b * (U b + 1/1000) * dm b - rho * U a * (U a + 1/1000) * dm a).
Proof.
  intros K Kn Pn Kf L HX.
  set (dm := fun x => sqrt (s x * nu)).
  set (tau := fun x => rho * nu * U x * S x / dm x).
  assert (Main : forall x, a <= x <= b -> q_tau_w_thwaites m x rho = Ok (Fin (tau x)) /\ q_delta_m m x = Ok (Fin (dm x)) /\
     q_delta_d m x = Ok (Fin (dm x * H x)) /\ 0 < dm x /\
     exists l, is_derive dm x l /\ rho * U x * (U x + 1/1000) * l = tau x - rho * U x * (2 + H x) * dm x * dU x).
  { intros x Hx. destruct (HX x Hx) as (V & CdU & W & So & St & Ps & ES & EH & _).
    destruct (thwaites_momentum_lemma m nu f U (dU x) s x (S x) (H x) rho K Kn Pn Kf V So St Ps W ES EH)
      as (t & d' & Qt & Qh & Ld & Pd & Dd & Eq).
    destruct V as (LU & DU & QD). assert (QU := locally_singleton _ _ LU). cbv beta in QU.
    destruct St as (g & Eg & Lg). assert (Sx := locally_singleton _ _ Lg). cbv beta in Sx.
    assert (Lpos : locally x (fun t => 0 < s t)).
    { destruct So as (v & _ & Ds). assert (Cs := derive_cont _ _ _ Ds).
      exact (Cs _ (locally_gt 0 (s x) Ps)). }
    assert (QB : forall t, g t = [Fin (s t)] -> 0 < s t -> q_delta_m m t = Ok (Fin (dm t))).
    { intros y E1 P. unfold q_delta_m, sol_at. rewrite Eg. cbn [bind]. rewrite E1. cbn [comp nth_error bind].
      assert (0 < s y * nu) by (apply Rmult_lt_0_compat; lra).
      rewrite Kn, xmul_fin, xsqrt_fin by lra. rewrite K. reflexivity. }
    assert (Le : locally x (fun t => d' t = dm t)).
    { generalize (filter_and _ _ Ld (filter_and _ _ Lg Lpos)). apply filter_imp. intros y (A & B & C).
      rewrite (QB y B C) in A. injection A as A. symmetry. exact A. }
    assert (Ex := locally_singleton _ _ Le). cbv beta in Ex. rewrite Ex in Pd, Eq.
    assert (Dm : is_derive dm x (Derive d' x)) by (apply (is_derive_ext_loc d'); assumption).
    assert (Qm := QB x Sx Ps).
    split; [|split; [exact Qm|split; [|split; [exact Pd|]]]].
    - unfold q_tau_w_thwaites, sol_at. rewrite Eg. cbn [bind]. rewrite Sx. cbn [comp nth_error bind].
      unfold calc_lambda. rewrite QD. cbn [bind]. rewrite QU. cbn [bind].
      rewrite Kf, Qm. cbn [bind]. rewrite xmul_fin, ES, Kn, !xmul_fin, xdiv_fin by lra. reflexivity.
    - unfold q_delta_d. rewrite Qm, Qh. cbn [bind]. rewrite xmul_fin. reflexivity.
    - exists (Derive d' x). split; [exact Dm|].
      assert (Et : t = tau x).
      { assert (Q2 : q_tau_w_thwaites m x rho = Ok (Fin (tau x))); [|congruence].
        unfold q_tau_w_thwaites, sol_at. rewrite Eg. cbn [bind]. rewrite Sx. cbn [comp nth_error bind].
        unfold calc_lambda. rewrite QD. cbn [bind]. rewrite QU. cbn [bind].
        rewrite Kf, Qm. cbn [bind]. rewrite xmul_fin, ES, Kn, !xmul_fin, xdiv_fin by lra. reflexivity. }
      rewrite <- Et, <- Eq. field. lra. }
  exists tau, dm, (fun x => dm x * H x).
  split; [intros x Hx; apply Main, Hx|]. split; [intros x Hx; apply Main, Hx|]. split; [intros x Hx; apply Main, Hx|].
  apply (total_of (fun x => rho * U x * (U x + 1/1000) * dm x)); [exact L|]. intros x Hx.
  destruct (HX x Hx) as ((_ & DU & _) & CdU & W & _ & _ & _ & _ & _ & CS & CH).
  destruct (Main x Hx) as (_ & _ & _ & Pd & l & Dm & Eq).
  assert (CU := derive_cont _ _ _ DU). assert (Cm := derive_cont _ _ _ Dm).
  split.
  - assert (D1 : is_derive (fun t => rho * U t * (U t + 1/1000) * dm t) x
      (rho * dU x * (2 * U x + 1/1000) * dm x + rho * U x * (U x + 1/1000) * l)).
    { apply (mult_derive (fun t => rho * U t * (U t + 1/1000)) dm); [|exact Dm]. auto_derive; [repeat split; eexists; exact DU|].
      change (Derive (fun x0 => U x0) x) with (Derive U x). rewrite (is_derive_unique U _ _ DU). ring. }
    replace (tau x - rho * U x * dU x * (dm x * H x) + 1/1000 * (rho * dU x * dm x)) with
      (rho * dU x * (2 * U x + 1/1000) * dm x + rho * U x * (U x + 1/1000) * l); [exact D1|].
    rewrite Eq. ring.
  - apply cont_plus; [apply cont_minus|].
    + unfold tau. apply cont_mult; [|apply cont_inv; [exact Cm|lra]]. apply cont_mult; [|exact CS].
      apply cont_mult; [apply cont_const|exact CU].
    + apply cont_mult; [|apply cont_mult; assumption]. apply cont_mult; [|exact CdU]. apply cont_mult; [apply cont_const|exact CU].
    + apply cont_mult; [apply cont_const|]. apply cont_mult; [|exact Cm]. apply cont_mult; [apply cont_const|exact CdU].
Qed.
