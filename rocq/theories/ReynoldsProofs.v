From Coq Require Import Reals List String Bool ZArith Lra Lia.
From Verif Require Import PyBase PyBaseFacts FiniteDiffModel PPolyModel
  InitialConditionModel ThwaitesFitsModel HeadModel CoreModel CoreSpec CoreProofs
  CoreHistoryProofs WorkflowModel WorkflowSpec WorkflowProofs.
Import ListNotations.
Open Scope R_scope.

(* ------------------------------------------------------------------ *)
(** * Multiplication by a positive number *)

Ltac xr_cases :=
  unfold xmul, xadd, xdiv, inf_times, xsqrt;
  repeat match goal with
    | |- context [Rlt_dec ?a ?b] => destruct (Rlt_dec a b)
    | |- context [Req_EM_T ?a ?b] => destruct (Req_EM_T a b)
    end; try reflexivity; try (exfalso; nra).

Section Scale.
Variable k : R.
Hypothesis Hk : 0 < k.

Lemma ks_mul a b : (Fin k * a * b = Fin k * (a * b))%xr.
Proof. destruct a, b; xr_cases; f_equal; ring. Qed.
Lemma ks_mul_r a b : (a * (Fin k * b) = Fin k * (a * b))%xr.
Proof. destruct a, b; xr_cases; f_equal; ring. Qed.
Lemma ks_add a b : (Fin k * a + Fin k * b = Fin k * (a + b))%xr.
Proof. destruct a, b; xr_cases; f_equal; ring. Qed.
Lemma ks_div a b : (Fin (k * k) * a / (Fin k * b) = Fin k * (a / b))%xr.
Proof.
  assert (0 < k * k) by nra.
  destruct a, b; xr_cases;
    try (match goal with H : k * ?r = 0 |- _ =>
           destruct (Rmult_integral _ _ H); exfalso; nra end);
    try (subst; exfalso; nra); try (f_equal; field; nra).
Qed.
Lemma ks_sq a b : (a * Fin (k * k * b) = Fin (k * k) * (a * Fin b))%xr.
Proof.
  assert (0 < k * k) by nra. destruct a; xr_cases; f_equal; ring.
Qed.
Lemma ks_sqrt a : (xsqrt (Fin (k * k) * a) = Fin k * xsqrt a)%xr.
Proof.
  assert (0 < k * k) by nra. destruct a; xr_cases.
  f_equal. rewrite sqrt_mult_alt by lra. rewrite sqrt_square by lra. reflexivity.
Qed.
Lemma ks_quot n s : (Fin (k * k * n) / s = Fin (k * k) * (Fin n / s))%xr.
Proof.
  assert (0 < k * k) by nra. destruct s; xr_cases; try (f_equal; try field; nra).
Qed.

End Scale.

Section Reynolds.
Variable pchip : ndarray -> ndarray -> res ppoly.
Variable cubic_spline : list R -> list R -> (xr -> xr) * (xr -> xr).
Variable solve_ivp :
  (R -> list xr -> res (list xr)) -> R -> R -> list xr ->
  list (bool * (R -> list xr -> res xr)) -> res ivp_result.
Notation solve := (solve solve_ivp).

(** The same object with another viscosity and condition. *)
Definition at_nu (m : meth) (nu : R) (c : ic) : meth := set_ic (set_nu_field m (Fin nu)) c.

(** Initial value of delta_m^2/nu. *)
Definition start (nu : R) (b : ic_body) (du : xr) : res xr :=
  bind (ic_delta_m {| ic_du := du; ic_nu := Fin nu; ic_body_of := b |})
       (fun d => py_div (xsq d) (Fin nu)).

Lemma solve_at_nu m nu1 nu2 c1 c2 x0 x1 l :
  m_kind m <> Head -> 0 < nu1 -> 0 < nu2 ->
  (forall du, start nu1 (ic_body_of c1) du = start nu2 (ic_body_of c2) du) ->
  snd (solve (at_nu m nu1 c1) x0 x1 l) = snd (solve (at_nu m nu2 c2) x0 x1 l) /\
  exists m' c1' c2', m_kind m' = m_kind m /\
    fst (solve (at_nu m nu1 c1) x0 x1 l) = at_nu m' nu1 c1' /\
    fst (solve (at_nu m nu2 c2) x0 x1 l) = at_nu m' nu2 c2'.
Proof.
  intros HK H1 H2 HS. destruct m as [k nu u du d2u ia fi ev so]. cbn [m_kind] in HK.
  unfold at_nu, CoreModel.solve, ic_set_nu, set_nu_field.
  cbn [set_ic m_ic m_sol m_nu m_kind m_u m_du m_d2u m_fit m_events].
  unfold xleb. rewrite !Rleb_false by lra.
  match goal with |- context [q_du_e ?m x0] => set (q := q_du_e m x0) end.
  match goal with |- context [match q_du_e ?m x0 with _ => _ end] => change (q_du_e m x0) with q end.
  destruct q as [v|e].
  2:{ split; [reflexivity|].
      exists {| m_kind := k; m_nu := nu; m_u := u; m_du := du; m_d2u := d2u; m_ic := ia;
                m_fit := fi; m_events := ev; m_sol := so |}.
      eexists _, _. split; [reflexivity|]. cbn. split; reflexivity. }
  cbn [set_ic m_ic m_sol m_nu m_kind m_u m_du m_d2u m_fit m_events].
  unfold ic_set_du. cbn [ic_du ic_nu ic_body_of].
  assert (EO : forall n c, ode_setup {| m_kind := k; m_nu := Fin n; m_u := u; m_du := du;
             m_d2u := d2u; m_ic := {| ic_du := Fin v; ic_nu := Fin n; ic_body_of := ic_body_of c |};
             m_fit := fi; m_events := ev; m_sol := so |}
           = bind (start n (ic_body_of c) (Fin v)) (fun s => Ok [s])).
  { intros n c. unfold ode_setup, start. cbn [m_ic m_kind m_nu].
    destruct k; try congruence;
    (destruct (ic_delta_m _) as [d|e]; [|reflexivity]; cbn [bind]; reflexivity). }
  unfold set_ic. cbn [m_ic m_sol m_nu m_kind m_u m_du m_d2u m_fit m_events].
  rewrite !EO, (HS (Fin v)).
  destruct (start nu2 (ic_body_of c2) (Fin v)) as [s|e]; cbn [bind].
  2:{ split; [reflexivity|].
      exists {| m_kind := k; m_nu := nu; m_u := u; m_du := du; m_d2u := d2u; m_ic := ia;
                m_fit := fi; m_events := ev; m_sol := so |}.
      eexists _, _. split; [reflexivity|]. cbn. split; reflexivity. }
  unfold add_kill_events, set_events.
  cbn [m_ic m_sol m_nu m_kind m_u m_du m_d2u m_fit m_events].
  match goal with |- context [solve_ivp ?f x0 x1 [s] ?ev] => set (r := solve_ivp f x0 x1 [s] ev) end.
  match goal with |- context [match solve_ivp ?f x0 x1 [s] ?ev with _ => _ end] =>
    replace (solve_ivp f x0 x1 [s] ev) with r by (subst r; destruct k; congruence || reflexivity) end.
  destruct r as [r|e].
  - cbn. split; [reflexivity|].
    exists {| m_kind := k; m_nu := nu; m_u := u; m_du := du; m_d2u := d2u; m_ic := ia;
              m_fit := fi; m_events := ev ++ l;
              m_sol := if r_success r then Some (r_sol r) else None |}.
    eexists _, _. split; [reflexivity|]. cbn. split; reflexivity.
  - cbn. split; [reflexivity|].
    exists {| m_kind := k; m_nu := nu; m_u := u; m_du := du; m_d2u := d2u; m_ic := ia;
              m_fit := fi; m_events := ev ++ l; m_sol := so |}.
    eexists _, _. split; [reflexivity|]. cbn. split; reflexivity.
Qed.

(** Queries. *)
Lemma queries_at_nu m nu1 nu2 c1 c2 k x rho :
  m_kind m <> Head -> 0 < k -> nu2 = k * k * nu1 ->
  let a := at_nu m nu1 c1 in let b := at_nu m nu2 c2 in
  q_shape_d b x = q_shape_d a x /\
  scaled k (q_delta_m a x) (q_delta_m b x) /\
  scaled k (q_delta_d a x) (q_delta_d b x) /\
  scaled k (q_tau_w_thwaites a x rho) (q_tau_w_thwaites b x rho) /\
  scaled k (q_v_e a x) (q_v_e b x).
Proof.
  intros HK Hk ->. cbv zeta.
  assert (ES : q_shape_d (at_nu m (k * k * nu1) c2) x = q_shape_d (at_nu m nu1 c1) x) by reflexivity.
  assert (EM : scaled k (q_delta_m (at_nu m nu1 c1) x) (q_delta_m (at_nu m (k * k * nu1) c2) x)).
  { unfold q_delta_m, sol_at, at_nu. cbn [set_ic set_nu_field m_sol m_kind m_nu].
    destruct (m_sol m) as [f|]; cbn [bind]; [|exact eq_refl].
    destruct (comp 0 (f x)) as [s|]; cbn [bind]; [|exact eq_refl].
    destruct (m_kind m); try congruence; cbn [scaled];
      rewrite ks_sq by exact Hk; apply ks_sqrt; exact Hk. }
  assert (ED : scaled k (q_delta_d (at_nu m nu1 c1) x) (q_delta_d (at_nu m (k * k * nu1) c2) x)).
  { unfold q_delta_d. rewrite ES.
    destruct (q_delta_m (at_nu m nu1 c1) x), (q_delta_m (at_nu m (k * k * nu1) c2) x);
      try contradiction; cbn [bind scaled] in *; subst; [|exact eq_refl].
    destruct (q_shape_d (at_nu m nu1 c1) x); cbn [bind]; [|exact eq_refl].
    apply ks_mul; exact Hk. }
  split; [exact ES|]. split; [exact EM|]. split; [exact ED|]. split.
  - unfold q_tau_w_thwaites, sol_at.
    change (calc_lambda (at_nu m (k * k * nu1) c2)) with (calc_lambda (at_nu m nu1 c1)).
    change (q_u_e (at_nu m (k * k * nu1) c2)) with (q_u_e (at_nu m nu1 c1)).
    change (m_sol (at_nu m (k * k * nu1) c2)) with (m_sol m).
    change (m_sol (at_nu m nu1 c1)) with (m_sol m).
    change (m_fit (at_nu m (k * k * nu1) c2)) with (m_fit m).
    change (m_fit (at_nu m nu1 c1)) with (m_fit m).
    change (m_nu (at_nu m (k * k * nu1) c2)) with (Fin (k * k * nu1)).
    change (m_nu (at_nu m nu1 c1)) with (Fin nu1).
    destruct (m_sol m) as [f|]; cbn [bind]; [|exact eq_refl].
    destruct (comp 0 (f x)) as [s|]; cbn [bind]; [|exact eq_refl].
    destruct (calc_lambda (at_nu m nu1 c1) x s) as [lam|]; cbn [bind]; [|exact eq_refl].
    destruct (q_u_e (at_nu m nu1 c1) x) as [u|]; cbn [bind]; [|exact eq_refl].
    destruct (m_fit m) as [ft|]; [|exact eq_refl].
    destruct (q_delta_m (at_nu m nu1 c1) x) as [d1|], (q_delta_m (at_nu m (k * k * nu1) c2) x) as [d2|];
      try contradiction; cbn [bind scaled] in *; subst; [|exact eq_refl].
    rewrite <- (ks_div k Hk). f_equal. rewrite !xmul_fin.
    replace (rho * (k * k * nu1) * u) with (k * k * (rho * nu1 * u)) by ring.
    rewrite <- xmul_fin. apply ks_mul. nra.
  - unfold q_v_e, sol_at.
    change (calc_lambda (at_nu m (k * k * nu1) c2)) with (calc_lambda (at_nu m nu1 c1)).
    change (q_u_e (at_nu m (k * k * nu1) c2)) with (q_u_e (at_nu m nu1 c1)).
    change (q_du_e (at_nu m (k * k * nu1) c2)) with (q_du_e (at_nu m nu1 c1)).
    change (q_d2u_e (at_nu m (k * k * nu1) c2)) with (q_d2u_e (at_nu m nu1 c1)).
    rewrite ES.
    assert (EI : forall s, ode_impl (at_nu m (k * k * nu1) c2) x [s] = ode_impl (at_nu m nu1 c1) x [s]).
    { intros s. unfold ode_impl, at_nu. cbn [set_ic set_nu_field m_kind].
      destruct (m_kind m); try congruence; reflexivity. }
    change (m_sol (at_nu m (k * k * nu1) c2)) with (m_sol m).
    change (m_sol (at_nu m nu1 c1)) with (m_sol m).
    change (m_kind (at_nu m (k * k * nu1) c2)) with (m_kind m).
    change (m_kind (at_nu m nu1 c1)) with (m_kind m).
    change (m_fit (at_nu m (k * k * nu1) c2)) with (m_fit m).
    change (m_fit (at_nu m nu1 c1)) with (m_fit m).
    change (m_nu (at_nu m (k * k * nu1) c2)) with (Fin (k * k * nu1)).
    change (m_nu (at_nu m nu1 c1)) with (Fin nu1).
    destruct (m_sol m) as [f|]; cbn [bind]; [|exact eq_refl].
    assert (EB : forall A (p : mkind) (h t : A), p <> Head -> match p with Head => h | _ => t end = t)
      by (intros A [| |] h t H; congruence).
    rewrite !EB by exact HK.
    destruct (q_u_e (at_nu m nu1 c1) x) as [u|]; cbn [bind]; [|exact eq_refl].
    destruct (q_du_e (at_nu m nu1 c1) x) as [du|]; cbn [bind]; [|exact eq_refl].
    destruct (comp 0 (f x)) as [s|]; cbn [bind]; [|exact eq_refl].
    rewrite EI.
    destruct (q_delta_d (at_nu m nu1 c1) x) as [d1|], (q_delta_d (at_nu m (k * k * nu1) c2) x) as [d2|];
      try contradiction; cbn [bind scaled] in ED; subst; [|exact eq_refl].
    cbn [bind].
    destruct (ode_impl (at_nu m nu1 c1) x [s]) as [rhs|]; cbn [bind]; [|exact eq_refl].
    destruct (comp 0 rhs) as [ds|]; cbn [bind]; [|exact eq_refl].
    destruct (q_shape_d (at_nu m nu1 c1) x) as [h|]; cbn [bind]; [|exact eq_refl].
    destruct (calc_lambda (at_nu m nu1 c1) x s) as [lam|]; cbn [bind]; [|exact eq_refl].
    destruct (m_fit m) as [ft|]; [|exact eq_refl].
    destruct (q_d2u_e (at_nu m nu1 c1) x) as [d2u|]; cbn [bind]; [|exact eq_refl].
    cbn [scaled].
    rewrite ks_quot by exact Hk. rewrite ks_sqrt by exact Hk.
    rewrite ks_mul by exact Hk. rewrite ks_mul_r by exact Hk. apply ks_add. exact Hk.
Qed.

(** The stagnation condition. *)
Lemma start_stagnation nu du : 0 < nu ->
  start nu FSStag du = start 1 FSStag du.
Proof.
  assert (W : forall q, 0 < q -> start q FSStag du =
    bind (py_div (Fin 1) du) (fun i => Ok (if xltb i (Fin 0) then NaN else
      (Fin (fs_eta_m * fs_fpp0 / (fs_shape_d + 2)) * i)%xr))).
  { intros q Hq. unfold start, ic_delta_m. cbn [ic_body_of ic_nu ic_du].
    rewrite !xmul_fin, xadd_fin.
    unfold fs_eta_m, fs_fpp0, fs_shape_d.
    set (K := (29235/100000) * (123259/100000)). set (D := 22162/10000 + 2).
    replace (q * (29235/100000) * (123259/100000)) with (q * K) by (unfold K; ring).
    assert (0 < K) by (unfold K; lra). assert (0 < D) by (unfold D; lra).
    clearbody K D.
    destruct du as [d| | |].
    - unfold py_div, xeqb, xmul at 1 2, Reqb.
      destruct (Req_EM_T d 0) as [->|N].
      + destruct (Req_EM_T (D * 0) 0) as [_|N]; [reflexivity|lra].
      + destruct (Req_EM_T (D * d) 0) as [Z|_]; [apply Rmult_integral in Z; lra|].
        cbn [bind].
        rewrite xdiv_fin by (apply Rmult_integral_contrapositive; lra).
        rewrite xdiv_fin by exact N. unfold xltb.
        destruct (Rlt_dec d 0) as [L|L].
        * assert (1 / d < 0) by (unfold Rdiv; rewrite Rmult_1_l; apply Rinv_lt_0_compat; exact L).
          assert (q * K / (D * d) < 0).
          { replace (q * K / (D * d)) with (- (q * K / D * - (1 / d))) by (field; lra).
            assert (0 < q * K / D) by (apply Rdiv_lt_0_compat; nra). nra. }
          rewrite (Rltb_true (1/d)) by assumption.
          unfold xsqrt. destruct (Rlt_dec _ 0); [|lra]. cbn.
          destruct (Req_EM_T q 0); [lra|reflexivity].
        * assert (0 < 1 / d) by (apply Rdiv_lt_0_compat; lra).
          assert (0 < q * K / (D * d)) by (apply Rdiv_lt_0_compat; nra).
          rewrite (Rltb_false (1/d)) by lra.
          unfold xsqrt. destruct (Rlt_dec _ 0); [lra|]. unfold xsq.
          rewrite !xmul_fin, sqrt_sqrt by lra.
          destruct (Req_EM_T q 0); [lra|]. rewrite xdiv_fin by lra. f_equal. f_equal. field. lra.
    - cbn. unfold inf_times. destruct (Rlt_dec 0 D); [|lra]. cbn.
      rewrite Rltb_false by lra. destruct (Rlt_dec 0 0); [lra|].
      rewrite sqrt_0. unfold Reqb. destruct (Req_EM_T q 0); [lra|].
      unfold xsq. rewrite xmul_fin, py_div_fin by lra. f_equal. f_equal. field. lra.
    - cbn. unfold inf_times. destruct (Rlt_dec 0 (-D)); [lra|]. destruct (Rlt_dec (-D) 0); [|lra]. cbn.
      rewrite Rltb_false by lra. destruct (Rlt_dec 0 0); [lra|].
      rewrite sqrt_0. unfold Reqb. destruct (Req_EM_T q 0); [lra|].
      unfold xsq. rewrite xmul_fin, py_div_fin by lra. f_equal. f_equal. field. lra.
    - cbn. unfold py_div, xeqb, Reqb. destruct (Req_EM_T q 0); [lra|]. reflexivity. }
  intros H. rewrite (W nu H), (W 1) by lra. reflexivity.
Qed.

Lemma start_manual k nu1 d1 d m e d2 m2 e2 du : 0 < k -> 0 < nu1 ->
  m = Fin d1 -> m2 = Fin (k * d1) ->
  start nu1 (Manual d m e) du = start (k * k * nu1) (Manual d2 m2 e2) du.
Proof.
  intros Hk Hn -> ->. assert (0 < k * k * nu1) by (repeat apply Rmult_lt_0_compat; assumption).
  unfold start, ic_delta_m. cbn [ic_body_of bind]. unfold xsq.
  rewrite !xmul_fin. rewrite (py_div_fin (d1 * d1)) by lra.
  rewrite (py_div_fin (k * d1 * (k * d1))) by lra. f_equal. f_equal. field. lra.
Qed.

(** C95 *)
Lemma reynolds_lemma s c1 c2 nu1 nu2 x0 x1 l :
  m_kind s <> Head -> 0 < nu1 -> 0 < nu2 ->
  let k := sqrt (nu2 / nu1) in
  (ic_body_of c1 = FSStag /\ ic_body_of c2 = FSStag) \/
  (exists dd1 d dk1 dd2 dk2, ic_body_of c1 = Manual dd1 (Fin d) dk1 /\
                             ic_body_of c2 = Manual dd2 (Fin (k * d)) dk2) ->
  let a := run pchip cubic_spline solve_ivp s [OpCondition c1; OpNu (Fin nu1)] in
  let b := run pchip cubic_spline solve_ivp s [OpCondition c2; OpNu (Fin nu2)] in
  let pa := step pchip cubic_spline solve_ivp a (OpSolve x0 x1 l) in
  let pb := step pchip cubic_spline solve_ivp b (OpSolve x0 x1 l) in
  snd pa = snd pb /\
  forall x rho,
    q_shape_d (fst pb) x = q_shape_d (fst pa) x /\
    scaled k (q_delta_m (fst pa) x) (q_delta_m (fst pb) x) /\
    scaled k (q_delta_d (fst pa) x) (q_delta_d (fst pb) x) /\
    scaled k (q_tau_w_thwaites (fst pa) x rho) (q_tau_w_thwaites (fst pb) x rho) /\
    scaled k (q_v_e (fst pa) x) (q_v_e (fst pb) x).
Proof.
  intros HK H1 H2 k HC a b pa pb.
  assert (Hq : 0 < nu2 / nu1) by (apply Rdiv_lt_0_compat; assumption).
  assert (Hk : 0 < k) by (apply sqrt_lt_R0; exact Hq).
  assert (E : nu2 = k * k * nu1) by (unfold k; rewrite sqrt_sqrt by lra; field; lra).
  assert (EA : a = at_nu s nu1 c1).
  { unfold a. cbn. unfold set_nu, xleb. rewrite Rleb_false by lra. reflexivity. }
  assert (EB : b = at_nu s nu2 c2).
  { unfold b. cbn. unfold set_nu, xleb. rewrite Rleb_false by lra. reflexivity. }
  assert (HS : forall du, start nu1 (ic_body_of c1) du = start nu2 (ic_body_of c2) du).
  { intros du. destruct HC as [[-> ->]|(dd1 & d & dk1 & dd2 & dk2 & -> & ->)].
    - rewrite (start_stagnation nu1 du H1), (start_stagnation nu2 du H2). reflexivity.
    - rewrite E. apply (start_manual k nu1 d); auto. }
  destruct (solve_at_nu s nu1 nu2 c1 c2 x0 x1 l HK H1 H2 HS) as (E1 & m' & c1' & c2' & K' & F1 & F2).
  unfold pa, pb. cbn [CoreSpec.step fst snd]. rewrite EA, EB, E1. split; [reflexivity|].
  intros x rho. rewrite F1, F2. apply queries_at_nu; [congruence|exact Hk|exact E].
Qed.

End Reynolds.
