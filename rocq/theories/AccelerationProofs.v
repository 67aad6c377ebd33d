(** Flow that is not decelerating is never reported as separated (C115). *)
From Coq Require Import Reals List String ZArith Lra Lia.
From Coquelicot Require Import Coquelicot.
From Verif Require Import PyBase PyBaseFacts XDeriv InitialConditionModel SkinFrictionModel HeadModel HeadProofs ThwaitesFitsModel ThwaitesFitsProofs SplineSpec SplineProofs
  CoreModel CoreSpec CoreProofs CoreHistoryProofs WorkflowSpec LocationProofs CoreRefute OdeSpec HeadOdeProofs ThwaitesOdeProofs PositivityProofs WellPosedProofs FitLipschitzProofs WellPosedOdeProofs.
Import ListNotations.
Open Scope R_scope.

(** ** Thwaites *)
Lemma shear_accelerating cs f l : cubic_spline_ok cs ->
  f = fit_white \/ f = fit_cb \/ f = fit_spline cs \/ (f = fit_drela /\ l <= 6/10) -> 0 <= l ->
  finite_pos (shear f (Fin l)).
Proof.
  intros OK Hf Hl. destruct Hf as [->|[->|[->|[-> U]]]].
  - rewrite white_shear_in by lra. eexists. split; [reflexivity|apply exp_pos].
  - destruct cb_shear_sep_lemma as [r [Br [_ [_ P]]]]. apply P. lra.
  - destruct (default_fit_lemma cs OK) as (_ & _ & Q & _). destruct (Q l) as [v [E [B Z]]].
    exists v. split; [exact E|]. destruct (Req_dec v 0) as [N|N]; [apply Z in N; lra|lra].
  - apply drela_shear_lemma. exact U.
Qed.

Lemma flat_shear cs f : cubic_spline_ok cs ->
  f = fit_white \/ f = fit_cb \/ f = fit_spline cs \/ f = fit_drela ->
  exists S H, shear f (Fin 0) = Fin S /\ 0 < S /\ shape f (Fin 0) = Fin H.
Proof.
  intros OK Hf.
  assert (Z : finite_pos (shear f (Fin 0))).
  { apply (shear_accelerating cs); [exact OK| |lra].
    destruct Hf as [->|[->|[->| ->]]]; auto. right. right. right. split; [reflexivity|lra]. }
  destruct Z as [S [ES PS]].
  assert (HH : exists H, shape f (Fin 0) = Fin H).
  { destruct Hf as [->|[->|[->| ->]]]; [apply white_finite|apply cb_finite| |apply drela_finite].
    destruct (default_rhs cs OK) as (S1 & H1 & FI & _). eexists. apply FI. }
  destruct HH as [H EH]. exists S, H. auto.
Qed.

Lemma thwaites_accelerating_lemma m f cs nu g U dU s a b rho : m_kind m <> Head -> m_nu m = Fin nu -> 0 < nu ->
  m_fit m = Some f -> cubic_spline_ok cs -> a <= b -> 0 < s a -> 0 < rho ->
  (forall x, a <= x <= b -> velocity_at m U (dU x) x /\ solves1_at m s x /\ 0 < U x /\ 0 <= dU x) ->
  m_sol m = Some g -> (forall x, a <= x <= b -> g x = [Fin (s x)]) ->
  f = fit_white \/ f = fit_cb \/ f = fit_spline cs \/ (f = fit_drela /\ s b * dU b <= 6/10) ->
  (exists v, event_value m (thwaites_event f) b [Fin (s b)] = Ok (Fin v) /\ 0 < v) /\
  (exists v, q_tau_w_thwaites m b rho = Ok (Fin v) /\ 0 < v).
Proof.
  intros K Kn Pn Kf OK L Pa Pr V Eg Hg Hf.
  assert (Flat : exists S H, shear f (Fin 0) = Fin S /\ 0 < S /\ shape f (Fin 0) = Fin H)
    by (apply (flat_shear cs); [exact OK|]; destruct Hf as [->|[->|[->|[-> _]]]]; auto).
  assert (P : 0 < s b).
  { apply (thwaites_positive_lemma m U dU s a b K L); [| |exact Pa].
    - right. destruct Flat as (S & H & A & B & C). exists f, S, H. auto.
    - intros x Hx. destruct (V x Hx) as (A & B & C & _). split; [exact A|]. split; [exact B|lra]. }
  destruct (V b ltac:(lra)) as ([LU [_ QD]] & _ & Ub & Db). assert (QU := locally_singleton _ _ LU). cbv beta in QU.
  assert (Z : finite_pos (shear f (Fin (s b * dU b)))).
  { apply (shear_accelerating cs); [exact OK|exact Hf|]. apply Rmult_le_pos; lra. }
  destruct Z as [v [Ev Pv]].
  assert (Psn : 0 < s b * nu) by (apply Rmult_lt_0_compat; assumption).
  assert (QM : q_delta_m m b = Ok (Fin (sqrt (s b * nu)))).
  { unfold q_delta_m, sol_at. rewrite Eg. cbn [bind]. rewrite Hg by lra. cbn [comp nth_error bind].
    rewrite Kn, xmul_fin, xsqrt_fin by lra. destruct (m_kind m); [reflexivity|reflexivity|congruence]. }
  split.
  - unfold event_value. cbn [thwaites_event ev_src]. unfold calc_lambda. rewrite QD. cbn [bind].
    rewrite xmul_fin, Ev. exists v. split; [reflexivity|exact Pv].
  - unfold q_tau_w_thwaites, sol_at. rewrite Eg. cbn [bind]. rewrite Hg by lra. cbn [comp nth_error bind].
    unfold calc_lambda. rewrite QD. cbn [bind]. rewrite QU. cbn [bind]. rewrite Kf, QM. cbn [bind].
    rewrite Kn, (xmul_fin (s b)), Ev, !xmul_fin. assert (Q := sqrt_lt_R0 _ Psn).
    rewrite xdiv_fin by lra. eexists. split; [reflexivity|].
    apply Rdiv_lt_0_compat; [|exact Q]. repeat apply Rmult_lt_0_compat; assumption.
Qed.

(** ** Head *)
Lemma Rpower_ge_1 x y : 1 <= x -> 0 <= y -> 1 <= Rpower x y.
Proof.
  intros Hx Hy. rewrite <- (Rpower_O x) by lra. apply Rle_Rpower; lra.
Qed.
Lemma Rpower_le_1 x y : 0 < x <= 1 -> 0 <= y -> Rpower x y <= 1.
Proof.
  intros [Hx Hx1] Hy. unfold Rpower. rewrite <- exp_0.
  assert (ln x <= 0). { rewrite <- ln_1. destruct Hx1 as [H| ->]; [left; apply ln_increasing; lra|lra]. }
  assert (y * ln x <= 0) by nra. destruct H0 as [H0| ->]; [left; apply exp_increasing; exact H0|lra].
Qed.

Lemma ten_power h : 2 <= h -> 21 <= Rpower 10 (678/1000 * h).
Proof.
  intros H. apply Rle_trans with (Rpower 10 (4/3)).
  - set (t := Rpower 10 (4/3)). assert (P : 0 < t) by apply exp_pos.
    assert (T : t ^ 3 = 10 ^ 4).
    { rewrite <- (Rpower_pow 3 t P). unfold t. rewrite Rpower_mult, <- (Rpower_pow 4 10) by lra.
      f_equal. cbn [INR]. lra. }
    destruct (Rle_lt_dec 21 t) as [C|C]; [exact C|].
    assert (t ^ 3 <= 21 ^ 3) by (apply pow_incr; lra). lra.
  - apply Rle_Rpower; lra.
Qed.

(** At shape factors of 2 and above entrainment outweighs friction. *)
Lemma head_balance re h : 1 <= re -> 2 <= h -> exists cf e,
  ludwieg_tillman (Fin re) (Fin h) = Fin cf /\ entrainment_velocity (Fin (h1R h)) = Fin e /\
  0 < h1R h /\ cf / 2 * h1R h < e.
Proof.
  intros Hre Hh.
  assert (EH : h1R h = branch hi_a hi_b hi_c hi_d h) by (unfold h1R; rewrite entr_hi by lra; reflexivity).
  assert (B : 332/100 < h1R h <= 4).
  { rewrite EH. unfold branch, hi_a, hi_b, hi_c, hi_d.
    assert (P : 23/10 <= Rpower (h - 6778/10000) (3064/1000)).
    { apply Rle_trans with (Rpower (13222/10000) 3).
      - replace 3 with (INR 3) by (cbn [INR]; lra). rewrite Rpower_pow by lra. simpl. lra.
      - apply Rle_trans with (Rpower (13222/10000) (3064/1000)).
        + apply Rle_Rpower; lra.
        + apply Rle_Rpower_l; lra. }
    set (r := Rpower (h - 6778/10000) (3064/1000)) in *.
    assert (Q : 0 < 15501/10000 / r <= 15501/10000 / (23/10)).
    { split; [apply Rdiv_lt_0_compat; lra|]. apply Rmult_le_compat_l; [lra|]. apply Rinv_le_contravar; lra. }
    lra. }
  unfold ludwieg_tillman. rewrite xmul_fin, !xpow_fin by lra. rewrite xmul_fin.
  assert (R1 : 1 <= Rpower re (268/1000)) by (apply Rpower_ge_1; lra).
  assert (T := ten_power h Hh). set (p := Rpower re (268/1000)) in *. set (t := Rpower 10 (678/1000 * h)) in *.
  assert (PT : 21 <= p * t) by nra.
  rewrite xdiv_fin by lra. rewrite entr_vel_fin by lra.
  do 2 eexists. split; [reflexivity|]. split; [reflexivity|]. split; [lra|].
  assert (E1 : 306/10000 <= 306/10000 / Rpower (h1R h - 3) (6169/10000)).
  { assert (L := Rpower_le_1 (h1R h - 3) (6169/10000) ltac:(lra) ltac:(lra)).
    assert (P0 : 0 < Rpower (h1R h - 3) (6169/10000)) by apply exp_pos.
    set (w := Rpower (h1R h - 3) (6169/10000)) in *.
    apply (Rmult_le_reg_r w); [exact P0|]. replace (306/10000 / w * w) with (306/10000) by (field; lra). lra. }
  assert (C1 : 0 < 246/1000 / (p * t) <= 246/1000 / 21).
  { split; [apply Rdiv_lt_0_compat; lra|]. apply Rmult_le_compat_l; [lra|]. apply Rinv_le_contravar; lra. }
  assert (246/1000 / (p * t) / 2 * h1R h <= 246/1000 / 21 / 2 * 4) by (apply Rmult_le_compat; lra).
  lra.
Qed.

Lemma head_accelerating_lemma m nu U dU d h a b crit : m_kind m = Head -> m_nu m = Fin nu -> 0 < nu ->
  slot_kind (m_u m) <> KInt -> 2 <= crit -> a <= b -> h a < crit ->
  (forall x, a <= x <= b -> velocity_at m U (dU x) x /\ solves2_at m d h x /\
     1/1000 <= U x /\ 0 <= dU x /\ 1 <= U x * d x / nu) ->
  exists v, event_value m (head_sep_event (Fin crit)) b [Fin (d b); Fin (h b)] = Ok (Fin v) /\ 0 < v.
Proof.
  intros Km Kn Pn Hk Hc L Ha V.
  assert (Hb : 0 < crit - h b).
  { apply (stays_positive (fun x => crit - h x) a b L); [lra|]. intros x Hx.
    destruct (V x Hx) as ([LU [_ QD]] & [v [w [ER [Dd Dh]]]] & Ux & Dx & Rx).
    assert (QU := locally_singleton _ _ LU). cbv beta in QU.
    exists (- w). split.
    { auto_derive; [eexists; exact Dh|].
      assert (U1 : Derive (fun t : R => h t) x = w) by exact (is_derive_unique h x _ Dh). rewrite U1. ring. }
    intros Z. assert (Hx2 : 2 <= h x) by lra.
    assert (Pd : 0 < d x).
    { apply (Rmult_lt_reg_l (U x / nu)); [apply Rdiv_lt_0_compat; lra|].
      rewrite Rmult_0_r. replace (U x / nu * d x) with (U x * d x / nu) by (field; lra). lra. }
    assert (Kk : slot_kind (m_u m) = KFloat \/ slot_kind (m_u m) = KArray).
    { destruct (slot_kind (m_u m)); auto. congruence. }
    destruct (head_rhs_fin nu (U x) (dU x) (d x) (h x) _ Pn Ux ltac:(lra) Pd Kk) as [cf [e [p [Ecf [Ee [Ep [Pp RHS]]]]]]].
    unfold ode_impl in ER. rewrite Km, QU, QD in ER. cbn [bind] in ER.
    rewrite Kn, RHS in ER. cbn [bind fst snd] in ER. injection ER as E1 E2.
    destruct (head_balance _ _ Rx Hx2) as (cf' & e' & Ecf' & Ee' & P1 & Bal).
    rewrite Ecf in Ecf'. injection Ecf' as <-. rewrite Ee in Ee'. injection Ee' as <-.
    assert (Num : 0 < U x * e - U x * (5/10 * cf - d x * (2 + h x) * dU x / U x) * h1R (h x) - dU x * d x * h1R (h x)).
    { replace (U x * e - U x * (5/10 * cf - d x * (2 + h x) * dU x / U x) * h1R (h x) - dU x * d x * h1R (h x))
        with (U x * (e - cf / 2 * h1R (h x)) + d x * dU x * h1R (h x) * (1 + h x)) by (field; lra).
      apply Rplus_lt_le_0_compat; [apply Rmult_lt_0_compat; lra|]. repeat apply Rmult_le_pos; lra. }
    assert (Den : 0 < - p * U x * d x) by (repeat apply Rmult_lt_0_compat; lra).
    rewrite <- E2. replace (- (_ / (p * U x * d x))) with
      ((U x * e - U x * (5/10 * cf - d x * (2 + h x) * dU x / U x) * h1R (h x) - dU x * d x * h1R (h x)) / (- p * U x * d x))
      by (field; repeat split; lra).
    apply Rdiv_lt_0_compat; assumption. }
  unfold event_value. cbn [head_sep_event ev_src]. unfold head_event. rewrite xsub_fin.
  eexists. split; [reflexivity|exact Hb].
Qed.

(** ** What [solve] reports *)
Section Solve.
Variable pchip : ndarray -> ndarray -> res PPolyModel.ppoly.
Variable cubic_spline : list R -> list R -> (xr -> xr) * (xr -> xr).
Variable solve_ivp :
  (R -> list xr -> res (list xr)) -> R -> R -> list xr ->
  list (bool * (R -> list xr -> res xr)) -> res ivp_result.

Lemma thwaites_not_separated s x0 x1 l m' ir f U dU y : reachable pchip cubic_spline solve_ivp s ->
  m_kind s <> Head -> roots_are_zeros solve_ivp -> cubic_spline_ok cubic_spline ->
  (forall e, In e (tl (m_events s) ++ l) -> ev_reason e <> SEPARATED) ->
  solve solve_ivp s x0 x1 l = (m', Ok ir) -> x0 <= ir_x_end ir -> m_fit m' = Some f ->
  f = fit_white \/ f = fit_cb \/ f = fit_spline cubic_spline \/
    (f = fit_drela /\ y (ir_x_end ir) * dU (ir_x_end ir) <= 6/10) ->
  (forall g, m_sol m' = Some g -> g (ir_x_end ir) = [Fin (y (ir_x_end ir))]) -> 0 < y x0 ->
  (forall x, x0 <= x <= ir_x_end ir -> velocity_at m' U (dU x) x /\ solves1_at m' y x /\ 0 < U x /\ 0 <= dU x) ->
  ir_status ir <> SEPARATED.
Proof.
  intros HR HK HZ OK HE HS HX Kf Hf Hg Py V HT.
  destruct (location_lemma pchip cubic_spline solve_ivp s x0 x1 l m' ir HR HK HZ HE HS HT)
    as (f' & sol & z & du & Ef & Es & Ez & Ed & Zs & _).
  rewrite Kf in Ef. injection Ef as <-. rewrite (Hg _ Es) in Ez. injection Ez as <-.
  set (b := ir_x_end ir) in *.
  destruct (V b ltac:(lra)) as ([LU [_ QD]] & _ & Ub & Db). rewrite QD in Ed. injection Ed as <-.
  rewrite xmul_fin in Zs.
  assert (K' : m_kind m' <> Head).
  { assert (HN := reachable_nu _ _ _ _ HR).
    pose proof (solve_cases solve_ivp s x0 x1 l HN) as C. rewrite HS in C. cbn [fst snd] in C.
    inversion C; subst; exact HK. }
  assert (Flat : exists S H, shear f (Fin 0) = Fin S /\ 0 < S /\ shape f (Fin 0) = Fin H)
    by (apply (flat_shear cubic_spline); [exact OK|]; destruct Hf as [->|[->|[->|[-> _]]]]; auto).
  assert (P : 0 < y b).
  { apply (thwaites_positive_lemma m' U dU y x0 b K' HX); [| |exact Py].
    - right. destruct Flat as (S & H & A & B & C). exists f, S, H. auto.
    - intros x Hx. destruct (V x Hx) as (A & B & C & _). split; [exact A|]. split; [exact B|lra]. }
  assert (Z : finite_pos (shear f (Fin (y b * dU b)))).
  { apply (shear_accelerating cubic_spline); [exact OK|exact Hf|]. apply Rmult_le_pos; lra. }
  destruct Z as [v [Ev Pv]]. rewrite Zs in Ev. injection Ev as <-. lra.
Qed.

Lemma new_head_kind nu u du d2u crit m : new_head pchip nu u du d2u crit = Ok m -> m_kind m = Head.
Proof.
  intros H. unfold new_head in H. destruct (new_base pchip Head nu u du d2u _) as [m1|] eqn:E; [|discriminate].
  injection H as <-. cbn. unfold new_base in E.
  destruct (new_fs (Fin 0) nu) as [fs|]; [|discriminate].
  destruct u; try (destruct du; try discriminate; destruct d2u; try discriminate;
                   injection E as <-; reflexivity);
  match type of E with context [CoreModel.set_velocity pchip ?m0 ?u ?a ?b] =>
    pose proof (set_velocity_frame pchip m0 u a b) as F;
    destruct (CoreModel.set_velocity pchip m0 u a b) as [m2 [|]]; [|discriminate] end;
  injection E as <-; destruct F as [F _]; cbn in *; exact F.
Qed.

Lemma head_not_separated nu0 u0 du0 d2u0 crit0 m0 hist crit x0 x1 l m' ir nu U dU d h :
  new_head pchip nu0 u0 du0 d2u0 crit0 = Ok m0 -> crit_after crit0 hist = Fin crit -> 2 <= crit ->
  let s := run pchip cubic_spline solve_ivp m0 hist in
  roots_are_zeros solve_ivp ->
  (forall e, In e (tl (m_events s) ++ l) -> ev_reason e <> SEPARATED) ->
  solve solve_ivp s x0 x1 l = (m', Ok ir) -> x0 <= ir_x_end ir ->
  (forall g, m_sol m' = Some g -> g (ir_x_end ir) = [Fin (d (ir_x_end ir)); Fin (h (ir_x_end ir))]) ->
  m_nu m' = Fin nu -> 0 < nu -> slot_kind (m_u m') <> KInt -> h x0 < crit ->
  (forall x, x0 <= x <= ir_x_end ir -> velocity_at m' U (dU x) x /\ solves2_at m' d h x /\
     1/1000 <= U x /\ 0 <= dU x /\ 1 <= U x * d x / nu) ->
  ir_status ir <> SEPARATED.
Proof.
  intros HC Hcr H2 s HZ HE HS HX Hg Kn Pn Kk Hh V HT.
  assert (HR : reachable pchip cubic_spline solve_ivp s).
  { exists m0, hist. split; [|reflexivity]. econstructor 2. exact HC. }
  assert (HN := reachable_nu _ _ _ _ HR).
  assert (K0 : m_kind m0 = Head) by exact (new_head_kind _ _ _ _ _ _ HC).
  assert (Ks : m_kind s = Head).
  { assert (G : forall g m, m_kind (run pchip cubic_spline solve_ivp m g) = m_kind m).
    { induction g as [|o g IH]; intros m; [reflexivity|]. rewrite run_cons, IH. apply step_kind. }
    unfold s. rewrite G. exact K0. }
  destruct (head_event_history pchip cubic_spline solve_ivp _ _ _ _ _ _ hist HC) as [rest EE].
  fold s in EE. rewrite Hcr in EE.
  pose proof (solve_cases solve_ivp s x0 x1 l HN) as C. rewrite HS in C. cbn [fst snd] in C.
  inversion C as [| |c y0 r HI HB HV E1 E2]; subst m'.
  unfold gather in E2. destruct (r_success r) eqn:ER; [|injection E2 as <-; discriminate HT].
  destruct (Z.eqb (r_status r) 0).
  { destruct (last_t (r_t r)); [|discriminate]. injection E2 as <-. discriminate HT. }
  destruct (Z.eqb (r_status r) 1); [|injection E2 as <-; discriminate HT].
  destruct (first_event (r_t_events r) (m_events s ++ l)) as [[[x e]|]|] eqn:FE; try discriminate;
    [|injection E2 as <-; discriminate HT].
  injection E2 as <-. cbn [ir_status ir_x_end] in *.
  destruct (first_event_root _ _ _ _ FE) as (i & roots & A & B & D).
  rewrite EE in D, HE. cbn [tl app] in D, HE.
  destruct i as [|i]; [|exfalso; apply (HE e); [exact (nth_error_In (rest ++ l) i D)|exact HT]].
  cbn in D. injection D as <-.
  assert (ND : nth_error (ivp_events s (m_events s ++ l)) 0 =
               Some (true, event_value s (head_sep_event (Fin crit)))) by (rewrite EE; reflexivity).
  pose proof (HZ _ _ _ _ _ _ HV 0%nat _ _ roots x ND A B) as Z0.
  rewrite (Hg _ eq_refl) in Z0.
  destruct (head_accelerating_lemma _ nu U dU d h x0 x crit Ks Kn Pn Kk H2 HX Hh V) as (v & Ev & Pv).
  unfold event_value in Z0, Ev. cbn [head_sep_event ev_src] in Z0, Ev. rewrite Ev in Z0. injection Z0 as ->. lra.
Qed.
End Solve.

(** ** An integrator that returns a given solution *)
Definition ivp_follow (sol : R -> list xr) : ivp_t := fun _ a b _ e =>
  Ok {| r_success := true; r_status := 0; r_message := ""; r_t := [a; b];
        r_sol := sol; r_t_events := map (fun _ => []) e |}.
Lemma ivp_follow_contract sol : ivp_contract (ivp_follow sol) /\ roots_are_zeros (ivp_follow sol).
Proof.
  split.
  - constructor; unfold ivp_follow; intros f a b y e r H; injection H as <-; cbn; try reflexivity; try discriminate.
    apply map_length.
  - intros f a b y e r H i t g roots x _ Hr Hx. injection H as <-. cbn [r_t_events] in Hr. exfalso.
    revert i Hr. induction e as [|p e IH]; intros [|i] Hr; cbn in Hr; try discriminate; [|eauto].
    injection Hr as <-. exact Hx.
Qed.
Lemma follow_solve pchip cs sol s x0 x1 y : reachable pchip cs (ivp_follow sol) s -> initial_state s x0 y ->
  exists c ir, solve (ivp_follow sol) s x0 x1 [] = (set_sol (set_events (set_ic s c) (m_events s ++ [])) (Some sol), Ok ir) /\
    ir_x_end ir = x1.
Proof.
  intros HR HI. pose proof (solve_cases (ivp_follow sol) s x0 x1 [] (reachable_nu _ _ _ _ HR)) as C.
  destruct (solve (ivp_follow sol) s x0 x1 []) as [m' r] eqn:ES. cbn [fst snd] in C.
  inversion C as [c e N B E1 E2|c y0 e I0 B V E1 E2|c y0 r' I0 B V E1 E2]; subst.
  - exfalso. exact (N _ HI).
  - discriminate V.
  - injection V as <-. exists c. eexists. split; reflexivity.
Qed.

(** Linear method, U = 1 + 3x/40, viscosity 1, initial momentum thickness 1: the momentum thickness
    stays 1. *)
Definition acc_m : meth :=
  {| m_kind := ThwaitesLinear; m_nu := Fin 1; m_u := Some (VF (fun x => 1 + 75/1000 * x) KFloat);
     m_du := Some (VF (fun _ => 75/1000) KFloat); m_d2u := Some VFd1DU;
     m_ic := new_manual (Fin 0) (Fin 1) (Fin 0); m_fit := Some fit_white;
     m_events := [thwaites_event fit_white]; m_sol := None |}.
Lemma acc_reachable pchip cs ivp : reachable pchip cs ivp acc_m.
Proof.
  exists {| m_kind := ThwaitesLinear; m_nu := Fin 1; m_u := Some (VF (fun x => 1 + 75/1000 * x) KFloat);
     m_du := Some (VF (fun _ => 75/1000) KFloat); m_d2u := Some VFd1DU;
     m_ic := new_manual (Fin 0) PInf (Fin 0); m_fit := Some fit_white;
     m_events := [thwaites_event fit_white]; m_sol := None |}, [OpInitialDeltaM (Fin 1)].
  split.
  - apply (created_thwaites pchip cs true (Fin 1)
      (PCall {| c_fun := fun x => 1 + 75/1000 * x; c_ret := KFloat; c_deriv := None |})
      (PCall (const_call (75/1000))) PNone (FName "White")).
    unfold new_thwaites, new_base, new_fs, ic_set_nu. cbn [xleb].
    rewrite Rleb_false by lra. reflexivity.
  - unfold run. cbn [fold_left step no_result fst].
    unfold set_initial_delta_m. cbn [xleb]. rewrite Rleb_false by lra. reflexivity.
Qed.
Lemma acc_velocity s c l x : velocity_at (set_sol (set_events (set_ic acc_m c) l) s) (fun x => 1 + 75/1000 * x) (75/1000) x.
Proof.
  split; [exists (mkposreal 1 Rlt_0_1); intros; reflexivity|]. split; [auto_derive; [exact I|ring]|reflexivity].
Qed.
Lemma acc_solves s c l x : 0 <= x -> solves1_at (set_sol (set_events (set_ic acc_m c) l) s) (fun _ => 1) x.
Proof.
  intros Hx. exists 0. split; [|apply (@is_derive_const R_AbsRing)].
  unfold ode_impl, calc_f, calc_lambda.
  cbn [m_kind acc_m q_du_e m_du call_du bind q_u_e m_u call_plain set_sol set_events set_ic].
  rewrite !xmul_fin, xsub_fin, xadd_fin, xdiv_fin by lra. do 3 f_equal. field. lra.
Qed.
Lemma acc_initial : initial_state acc_m 0 [Fin 1].
Proof.
  replace (Fin 1) with (Fin 1 * Fin 1 / m_nu acc_m)%xr.
  - apply (initial_state_thwaites acc_m 0 (75/1000) (Fin 1)); [discriminate|reflexivity|reflexivity].
  - cbn [m_nu acc_m]. rewrite xmul_fin, xdiv_fin by lra. f_equal. field.
Qed.
