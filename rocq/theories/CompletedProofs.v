From Coq Require Import Reals List String ZArith Lra Lia.
From Coquelicot Require Import Coquelicot.
From Verif Require Import PyBase PyBaseFacts XDeriv InitialConditionModel SkinFrictionModel HeadModel HeadProofs ThwaitesFitsModel ThwaitesFitsProofs
  CoreModel CoreSpec CoreProofs CoreHistoryProofs WorkflowSpec LocationProofs CoreRefute OdeSpec AccelerationProofs HeadExistProofs CompletedSpec.
Import ListNotations.
Open Scope R_scope.

(** Along a list of points. *)
Lemma same_sign (val : R -> R) : forall ts a, 
  (forall l1 p q l2, a :: ts = l1 ++ p :: q :: l2 -> 0 < val p * val q) ->
  forall t, In t (a :: ts) -> t = a \/ 0 < val a * val t.
Proof.
  induction ts as [|b ts IH]; intros a H t Ht.
  - destruct Ht as [->|[]]. left; reflexivity.
  - destruct Ht as [->|Ht]; [left; reflexivity|]. right.
    pose proof (H [] a b ts eq_refl) as AB.
    destruct (IH b) with (t := t) as [->|B]; [|exact Ht|exact AB|].
    + intros l1 p q l2 E. apply (H (a :: l1) p q l2). cbn. rewrite E. reflexivity.
    + assert (0 < (val a * val t) * (val b * val b)) by nra.
      destruct (Rle_dec (val a * val t) 0) as [L|L]; [|lra]. pose proof (Rle_0_sqr (val b)) as S. unfold Rsqr in S. nra.
Qed.
Lemma last_t_in l x : last_t l = Ok x -> In x l.
Proof.
  unfold last_t. destruct (rev l) eqn:E; [discriminate|]. intros H; injection H as <-.
  apply in_rev. rewrite E. left. reflexivity.
Qed.

Section Solve.
Variable pchip : ndarray -> ndarray -> res PPolyModel.ppoly.
Variable cubic_spline : list R -> list R -> (xr -> xr) * (xr -> xr).
Variable solve_ivp :
  (R -> list xr -> res (list xr)) -> R -> R -> list xr ->
  list (bool * (R -> list xr -> res xr)) -> res ivp_result.

(** The first event of a solve that reached the end. *)
Lemma reached_end s x0 x1 l m' ir e rest val : nu_ok s -> steps_checked solve_ivp ->
  m_events s = e :: rest -> ev_terminal e = true -> ev_reason e <> REACHED_END ->
  (forall d, In d (rest ++ l) -> ev_reason d <> REACHED_END) -> x0 <= x1 ->
  solve solve_ivp s x0 x1 l = (m', Ok ir) -> ir_status ir = REACHED_END ->
  (forall g x, m_sol m' = Some g -> x0 <= x <= x1 -> event_value s e x (g x) = Ok (Fin (val x))) ->
  x0 <= ir_x_end ir <= x1 /\ (ir_x_end ir = x0 \/ 0 < val x0 * val (ir_x_end ir)).
Proof.
  intros HN HC EE TE RE HE HX HS HT HV.
  pose proof (solve_cases solve_ivp s x0 x1 l HN) as C. rewrite HS in C. cbn [fst snd] in C.
  inversion C as [| |c y0 r HI HB HR E1 E2]; subst m'.
  unfold gather in E2. destruct (r_success r) eqn:ER; [|injection E2 as <-; discriminate HT].
  destruct (Z.eqb (r_status r) 0) eqn:E0.
  - apply Z.eqb_eq in E0. destruct (last_t (r_t r)) as [xe|] eqn:LT; [|discriminate]. injection E2 as <-.
    cbn [ir_x_end]. apply last_t_in in LT.
    pose proof (steps_inside _ HC _ _ _ _ _ _ HR HX) as IN. split; [apply IN, LT|].
    destruct (steps_start _ HC _ _ _ _ _ _ HR E0) as [ts T]. rewrite T in LT.
    apply (same_sign val ts x0); [|exact LT].
    intros l1 p q l2 Q. rewrite <- T in Q.
    assert (Ip : In p (r_t r)) by (rewrite Q; apply in_or_app; right; left; reflexivity).
    assert (Iq : In q (r_t r)) by (rewrite Q; apply in_or_app; right; right; left; reflexivity).
    apply (steps_signs _ HC _ _ _ _ _ _ HR E0 (event_value s e)) with (l1 := l1) (p := p) (q := q) (l2 := l2).
    + unfold ivp_events. rewrite EE. left. rewrite TE. reflexivity.
    + exact Q.
    + apply HV; [reflexivity|apply IN, Ip].
    + apply HV; [reflexivity|apply IN, Iq].
  - exfalso. destruct (Z.eqb (r_status r) 1); [|injection E2 as <-; discriminate HT].
    destruct (first_event (r_t_events r) (m_events s ++ l)) as [[[x d]|]|] eqn:FE; try discriminate;
      [|injection E2 as <-; discriminate HT].
    injection E2 as <-. cbn [ir_status] in HT.
    destruct (first_event_root _ _ _ _ FE) as (i & roots & A & B & D). rewrite EE in D.
    destruct i as [|i]; [cbn in D; injection D as <-; exact (RE HT)|].
    exact (HE d (nth_error_In (rest ++ l) i D) HT).
Qed.

Lemma run_kind m g : m_kind (run pchip cubic_spline solve_ivp m g) = m_kind m.
Proof. revert m. induction g as [|o g IH]; intros m; [reflexivity|]. rewrite run_cons, IH. apply step_kind. Qed.

(** C153, Head's method *)
Lemma head_completed nu0 u0 du0 d2u0 crit0 m0 hist crit x0 x1 l m' ir d h :
  new_head pchip nu0 u0 du0 d2u0 crit0 = Ok m0 -> crit_after crit0 hist = Fin crit ->
  let s := run pchip cubic_spline solve_ivp m0 hist in
  steps_checked solve_ivp -> x0 <= x1 ->
  (forall e, In e (tl (m_events s) ++ l) -> ev_reason e <> REACHED_END) ->
  solve solve_ivp s x0 x1 l = (m', Ok ir) -> ir_status ir = REACHED_END ->
  (forall g x, m_sol m' = Some g -> x0 <= x <= x1 -> g x = [Fin (d x); Fin (h x)]) ->
  (h x0 < crit -> h (ir_x_end ir) < crit) /\ (crit < h x0 -> crit < h (ir_x_end ir)).
Proof.
  intros HC Hcr s HK HX HE HS HT Hg.
  assert (HR : reachable pchip cubic_spline solve_ivp s).
  { exists m0, hist. split; [|reflexivity]. econstructor 2. exact HC. }
  destruct (head_event_history pchip cubic_spline solve_ivp _ _ _ _ _ _ hist HC) as [rest EE].
  fold s in EE. rewrite Hcr in EE.
  destruct (reached_end s x0 x1 l m' ir (head_sep_event (Fin crit)) rest (fun x => crit - h x) (reachable_nu _ _ _ _ HR) HK EE eq_refl
    ltac:(discriminate) ltac:(rewrite EE in HE; exact HE) HX HS HT) as [_ [->|P]].
  - intros g x G Hx. rewrite (Hg g x G Hx). unfold event_value. cbn [head_sep_event ev_src]. unfold head_event.
    rewrite xsub_fin. reflexivity.
  - auto.
  - split; intros H; nra.
Qed.

(** C153, Thwaites' methods *)
Lemma thwaites_completed s x0 x1 l m' ir f y dU S :
  reachable pchip cubic_spline solve_ivp s -> m_kind s <> Head -> steps_checked solve_ivp -> x0 <= x1 ->
  (forall e, In e (tl (m_events s) ++ l) -> ev_reason e <> REACHED_END) ->
  solve solve_ivp s x0 x1 l = (m', Ok ir) -> ir_status ir = REACHED_END -> m_fit m' = Some f ->
  (forall g x, m_sol m' = Some g -> x0 <= x <= x1 -> g x = [Fin (y x)] /\ q_du_e m' x = Ok (dU x) /\
     shear f (Fin (y x * dU x)) = Fin (S x)) ->
  (0 < S x0 -> 0 < S (ir_x_end ir)) /\ (S x0 < 0 -> S (ir_x_end ir) < 0).
Proof.
  intros HR HK HC HX HE HS HT Hf Hg.
  assert (HN := reachable_nu _ _ _ _ HR). destruct HR as (m0 & h & HC0 & Es).
  assert (HK0 : m_kind m0 <> Head) by (intros Q; apply HK; rewrite Es, run_kind; exact Q).
  destruct (event_fit_history pchip cubic_spline solve_ivp m0 h HC0 HK0) as (f' & rest & EF & EE).
  rewrite <- Es in EF, EE.
  assert (SF : m_fit m' = m_fit s /\ forall x, q_du_e m' x = q_du_e s x).
  { pose proof (solve_cases solve_ivp s x0 x1 l HN) as C. rewrite HS in C. cbn [fst snd] in C.
    inversion C; subst; split; intros; reflexivity. }
  destruct SF as [SF SD]. rewrite SF, EF in Hf. injection Hf as ->.
  destruct (reached_end s x0 x1 l m' ir (thwaites_event f) rest S HN HC EE eq_refl ltac:(discriminate)
    ltac:(rewrite EE in HE; exact HE) HX HS HT) as [_ [->|P]].
  - intros g x G Hx. destruct (Hg g x G Hx) as (E1 & E2 & E3). rewrite E1. unfold event_value. cbn [ev_src thwaites_event].
    unfold calc_lambda. rewrite <- SD, E2. cbn [bind]. rewrite xmul_fin, E3. reflexivity.
  - auto.
  - split; intros H; nra.
Qed.

(** C154 *)
Lemma head_location nu0 u0 du0 d2u0 crit0 m0 hist crit x0 x1 l m' ir :
  new_head pchip nu0 u0 du0 d2u0 crit0 = Ok m0 -> crit_after crit0 hist = Fin crit ->
  let s := run pchip cubic_spline solve_ivp m0 hist in
  roots_are_zeros solve_ivp ->
  (forall e, In e (tl (m_events s) ++ l) -> ev_reason e <> SEPARATED) ->
  solve solve_ivp s x0 x1 l = (m', Ok ir) -> ir_status ir = SEPARATED ->
  q_shape_d m' (ir_x_end ir) = Ok (Fin crit).
Proof.
  intros HC Hcr s HZ HE HS HT.
  assert (HR : reachable pchip cubic_spline solve_ivp s).
  { exists m0, hist. split; [|reflexivity]. econstructor 2. exact HC. }
  assert (HN := reachable_nu _ _ _ _ HR).
  assert (Ks : m_kind s = Head) by (unfold s; rewrite run_kind; exact (new_head_kind _ _ _ _ _ _ _ HC)).
  destruct (head_event_history pchip cubic_spline solve_ivp _ _ _ _ _ _ hist HC) as [rest EE].
  fold s in EE. rewrite Hcr in EE.
  pose proof (solve_cases solve_ivp s x0 x1 l HN) as C. rewrite HS in C. cbn [fst snd] in C.
  inversion C as [| |c y0 r HI HB HV E1 E2]; subst m'.
  unfold gather in E2. destruct (r_success r) eqn:ER; [|injection E2 as <-; discriminate HT].
  destruct (Z.eqb (r_status r) 0).
  { destruct (last_t (r_t r)); [|discriminate]. injection E2 as <-. discriminate HT. }
  destruct (Z.eqb (r_status r) 1); [|injection E2 as <-; discriminate HT].
  destruct (first_event (r_t_events r) (m_events s ++ l)) as [[[x e]|]|] eqn:FE; try discriminate;
    [|injection E2 as <-; discriminate HT].
  injection E2 as <-. cbn [ir_status ir_x_end] in *.
  destruct (first_event_root _ _ _ _ FE) as (i & roots & A & B & D).
  rewrite EE in D, HE. cbn [tl app] in D, HE.
  destruct i as [|i]; [|exfalso; apply (HE e); [exact (nth_error_In (rest ++ l) i D)|exact HT]].
  cbn in D. injection D as <-.
  assert (ND : nth_error (ivp_events s (m_events s ++ l)) 0 =
               Some (true, event_value s (head_sep_event (Fin crit)))) by (rewrite EE; reflexivity).
  pose proof (HZ _ _ _ _ _ _ HV 0%nat _ _ roots x ND A B) as Z0.
  unfold event_value in Z0. cbn [head_sep_event ev_src] in Z0.
  destruct (r_sol r x) as [|z [|v [|]]] eqn:ES; try discriminate.
  unfold q_shape_d, sol_at. cbn [m_sol set_sol m_kind set_events set_ic bind]. rewrite Ks, ES. cbn [comp nth_error bind].
  unfold head_event in Z0. injection Z0 as Z0. destruct v as [v| | |]; try discriminate.
  cbn in Z0. try (injection Z0 as Z0). do 2 f_equal. lra.
Qed.
End Solve.

(** ** An integrator with two points that checks the signs *)
Definition signs_ok (u v : res xr) : bool :=
  match u, v with
  | Ok (Fin a), Ok (Fin b) => if Rlt_dec 0 (a * b) then true else false
  | _, _ => true
  end.
Definition ivp_checked (sol : R -> list xr) : ivp_t := fun f a b y e =>
  if forallb (fun p => negb (fst p) || signs_ok (snd p a (sol a)) (snd p b (sol b)))%bool e
  then ivp_follow sol f a b y e else Err ValueError.
Lemma ivp_checked_ok sol f a b y e r : ivp_checked sol f a b y e = Ok r -> ivp_follow sol f a b y e = Ok r.
Proof. unfold ivp_checked. destruct (forallb _ e); [auto|discriminate]. Qed.
Lemma ivp_checked_contract sol : ivp_contract (ivp_checked sol) /\ roots_are_zeros (ivp_checked sol) /\ steps_checked (ivp_checked sol).
Proof.
  destruct (ivp_follow_contract sol) as [[A B C D] Z]. split; [|split].
  - constructor; intros f a b y e r H; apply ivp_checked_ok in H; [eapply A|eapply B|eapply C|eapply D]; eassumption.
  - intros f a b y e r H. apply ivp_checked_ok in H. eapply Z. eassumption.
  - constructor.
    + intros f a b y e r H _. apply ivp_checked_ok in H. injection H as <-. exists [b]. reflexivity.
    + intros f a b y e r H L t Ht. apply ivp_checked_ok in H. injection H as <-. cbn in Ht. destruct Ht as [<-|[<-|[]]]; lra.
    + intros f a b y e r H _ g Hg l1 p q l2 u v Q Hu Hv. pose proof (ivp_checked_ok _ _ _ _ _ _ _ H) as K.
      unfold ivp_checked in H. destruct (forallb _ e) eqn:F; [|discriminate]. rewrite forallb_forall in F.
      specialize (F _ Hg). injection K as <-. cbn [r_t r_sol] in *.
      destruct l1 as [|z [|z' l1]]; cbn in Q; [|injection Q as <- Q; try discriminate; destruct l2; discriminate|].
      * injection Q as <- <- <-. cbn [fst snd negb orb] in F. rewrite Hu, Hv in F. cbn [signs_ok] in F.
        destruct (Rlt_dec 0 (u * v)); [assumption|discriminate].
      * injection Q as _ _ Q. destruct l1; discriminate.
Qed.

(** Head's method on a plate from the momentum thickness 2 and a given shape
    factor, with the default criterion 2.4. *)
Lemma plate_run pchip cs h0 : 0 < h0 -> h0 <> 16/10 -> h0 <> 24/10 -> exists ivp m' ir c d h,
  let s := run pchip cs ivp w_head [OpInitialDeltaM (Fin 2); OpInitialShapeD (Fin h0)] in
  ivp_contract ivp /\ roots_are_zeros ivp /\ steps_checked ivp /\
  new_head pchip (Fin 1) (PCall (const_call 1)) (PCall (const_call 0)) PNone (Fin (24/10)) = Ok w_head /\
  0 < c /\ initial_state s 0 [Fin (d 0); Fin (h 0)] /\ (forall x, 0 <= x <= c -> solves2_at s d h x) /\
  solve ivp s 0 c [] = (m', Ok ir) /\ ir_status ir = REACHED_END /\ ir_x_end ir = c /\
  h 0 = h0 /\
  m_sol m' = Some (fun x => [Fin (d x); Fin (h x)]) /\
  forall x, 0 <= x <= c -> q_shape_d m' x = Ok (Fin (h x)) /\ 0 < (h x - 24/10) * (h0 - 24/10).
Proof.
  intros Ph N16 N24.
  assert (V : forall x, 0 <= x <= 1 -> velocity_at w_head (fun _ => 1) 0 x /\ continuous (fun _ : R => 0) x /\ 1/1000 <= 1).
  { intros x _. split; [|split; [apply continuous_const|lra]].
    split; [exists (mkposreal 1 Rlt_0_1); intros; reflexivity|]. split; [apply (@is_derive_const R_AbsRing)|reflexivity]. }
  destruct (head_exists_lemma w_head 1 (fun _ => 1) (fun _ => 0) 0 1 2 h0 eq_refl eq_refl ltac:(lra) ltac:(discriminate)
    ltac:(lra) V ltac:(lra) N16) as (c0 & d & h & Hc & D0 & H0 & S).
  assert (CT : continuous h 0).
  { destruct (S 0 ltac:(lra)) as ((v & w & _ & _ & Dh) & _). apply (ex_derive_continuous (K := R_AbsRing) (V := R_NormedModule)). eexists. exact Dh. }
  assert (LO : locally 0 (fun x => 0 < (h x - 24/10) * (h0 - 24/10))).
  { destruct (Rtotal_order h0 (24/10)) as [L|[L|L]]; [|contradiction|].
    - assert (Q : locally 0 (fun x => h x < 24/10)) by (apply (CT (fun t => t < 24/10)); apply (open_lt (24/10)); rewrite H0; lra).
      apply (filter_imp (F := locally 0) (fun x => h x < 24/10)); [intros x Hx; nra|exact Q].
    - assert (Q : locally 0 (fun x => 24/10 < h x)) by (apply (CT (fun t => 24/10 < t)); apply (open_gt (24/10)); rewrite H0; lra).
      apply (filter_imp (F := locally 0) (fun x => 24/10 < h x)); [intros x Hx; nra|exact Q]. }
  destruct LO as [eps LO].
  set (c := Rmin c0 (eps / 2)). pose proof (cond_pos eps) as Pe.
  assert (Hc1 : 0 < c) by (unfold c; apply Rmin_pos; lra).
  assert (Hc2 : c <= c0) by apply Rmin_l. assert (Hc3 : c <= eps / 2) by apply Rmin_r.
  assert (HB : forall x, 0 <= x <= c -> 0 < (h x - 24/10) * (h0 - 24/10)).
  { intros x Hx. apply LO. unfold ball; cbn. unfold AbsRing_ball, abs, minus, plus, opp; cbn. rewrite Rabs_right; lra. }
  set (sol := fun x => [Fin (d x); Fin (h x)]).
  set (s := run pchip cs (ivp_checked sol) w_head [OpInitialDeltaM (Fin 2); OpInitialShapeD (Fin h0)]).
  assert (Es : s = set_ic w_head {| ic_du := Fin 0; ic_nu := Fin (1/100000); ic_body_of := Manual (Fin (h0 * 2)) (Fin 2) (Fin 0) |}).
  { unfold s, run. cbn [fold_left step no_result fst].
    unfold set_initial_delta_m. cbn [xleb]. rewrite Rleb_false by lra.
    cbn [fst m_kind w_head set_ic]. unfold set_initial_shape_d. cbn [xleb]. rewrite Rleb_false by lra. reflexivity. }
  assert (HR : reachable pchip cs (ivp_checked sol) s).
  { exists w_head, [OpInitialDeltaM (Fin 2); OpInitialShapeD (Fin h0)]. split; [apply w_head_created|reflexivity]. }
  assert (HI : initial_state s 0 [Fin (d 0); Fin (h 0)]).
  { rewrite D0, H0, Es. apply (initial_state_head _ 0 0 (Fin 2) (Fin h0)); try reflexivity.
    unfold ic_shape_d. cbn [ic_body_of m_ic set_ic]. rewrite py_div_fin by lra. do 2 f_equal. field. }
  destruct (ivp_checked_contract sol) as (C1 & C2 & C3).
  pose proof (solve_cases (ivp_checked sol) s 0 c [] (reachable_nu _ _ _ _ HR)) as C.
  destruct (solve (ivp_checked sol) s 0 c []) as [m' r] eqn:ES. cbn [fst snd] in C.
  assert (OKR : forall y, ivp_checked sol (ode_impl s) 0 c y (ivp_events s (m_events s ++ [])) =
                          ivp_follow sol (ode_impl s) 0 c y (ivp_events s (m_events s ++ []))).
  { intros y. unfold ivp_checked. rewrite Es. cbn [ivp_events m_events set_ic w_head app map forallb fst snd].
    unfold event_value. cbn [ev_src head_sep_event sol]. unfold head_event. rewrite !xsub_fin. cbn [signs_ok].
    pose proof (HB 0 ltac:(lra)). pose proof (HB c ltac:(lra)).
    destruct (Rlt_dec 0 ((24/10 - h 0) * (24/10 - h c))) as [L|L]; [reflexivity|exfalso; apply L].
    rewrite H0. assert (0 < (h0 - 24/10)^2) by (apply pow2_gt_0; lra). nra. }
  inversion C as [ci e N B E1 E2|ci y0 e I0 B W E1 E2|ci y0 r' I0 B W E1 E2]; subst m' r.
  - exfalso. exact (N _ HI).
  - rewrite OKR in W. discriminate W.
  - rewrite OKR in W. injection W as <-.
    exists (ivp_checked sol). eexists. eexists. exists c, d, h. cbv zeta. fold s.
    split; [exact C1|]. split; [exact C2|]. split; [exact C3|]. split; [apply w_head_new|]. split; [exact Hc1|].
    split; [exact HI|]. split.
    { intros x Hx. destruct (S x ltac:(lra)) as [S1 _]. rewrite Es. exact S1. }
    split; [rewrite ES; reflexivity|]. split; [reflexivity|]. split; [reflexivity|]. split; [exact H0|]. split; [reflexivity|].
    intros x Hx. split; [|apply HB, Hx]. unfold q_shape_d, sol_at. cbn [m_sol set_sol bind m_kind set_events set_ic r_success ivp_follow].
    assert (K : m_kind s = Head) by (rewrite Es; reflexivity). rewrite K. reflexivity.
Qed.

(** The linear method in accelerating flow, from 0 to 2. *)
Lemma acc_run pchip cs : exists ivp m' ir, steps_checked ivp /\ reachable pchip cs ivp acc_m /\
  solve ivp acc_m 0 2 [] = (m', Ok ir) /\ ir_status ir = REACHED_END /\ ir_x_end ir = 2 /\ m_fit m' = Some fit_white /\
  m_sol m' = Some (fun _ => [Fin 1]) /\ (forall x, q_du_e m' x = Ok (75/1000)).
Proof.
  set (sol := fun _ : R => [Fin 1]).
  assert (HR : reachable pchip cs (ivp_checked sol) acc_m) by apply acc_reachable.
  pose proof (solve_cases (ivp_checked sol) acc_m 0 2 [] (reachable_nu _ _ _ _ HR)) as C.
  destruct (solve (ivp_checked sol) acc_m 0 2 []) as [m' r] eqn:ES. cbn [fst snd] in C.
  assert (P : exists v, shear fit_white (Fin (1 * (75/1000))) = Fin v /\ 0 < v).
  { rewrite white_shear_in by lra. eexists. split; [reflexivity|apply exp_pos]. }
  destruct P as (v & Ev & Pv).
  assert (OKR : forall y, ivp_checked sol (ode_impl acc_m) 0 2 y (ivp_events acc_m (m_events acc_m ++ [])) =
                          ivp_follow sol (ode_impl acc_m) 0 2 y (ivp_events acc_m (m_events acc_m ++ []))).
  { intros y. unfold ivp_checked.
    change (ivp_events acc_m (m_events acc_m ++ [])) with [(true, event_value acc_m (thwaites_event fit_white))].
    cbn [forallb fst snd negb orb].
    assert (Q : forall x, event_value acc_m (thwaites_event fit_white) x (sol x) = Ok (Fin v)).
    { intros x. unfold event_value, calc_lambda, sol. cbn [ev_src thwaites_event q_du_e m_du acc_m call_du bind].
      rewrite xmul_fin, Ev. reflexivity. }
    rewrite !Q. cbn [signs_ok]. destruct (Rlt_dec 0 (v * v)) as [L|L]; [reflexivity|exfalso; apply L; nra]. }
  inversion C as [ci e N B E1 E2|ci y0 e I0 B W E1 E2|ci y0 r' I0 B W E1 E2]; subst m' r.
  - exfalso. exact (N _ acc_initial).
  - rewrite OKR in W. discriminate W.
  - rewrite OKR in W. injection W as <-. exists (ivp_checked sol). eexists. eexists.
    split; [apply ivp_checked_contract|]. split; [exact HR|]. split; [exact ES|]. repeat split.
Qed.
