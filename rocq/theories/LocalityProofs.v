(** What happens outside the interval does not matter (C118). *)
From Coq Require Import Reals List Lra Lia Bool ZArith String FunctionalExtensionality.
From Coquelicot Require Import Coquelicot.
From Verif Require Import PyBase PyBaseFacts FiniteDiffModel PPolyModel InitialConditionModel
  ThwaitesFitsModel CoreModel CoreSpec TranslationSpec UnitsProofs.
Import ListNotations.
Open Scope R_scope.

(** Same object except for the velocity, which agrees on the interval. *)
Record agree (m m' : meth) (a b : R) : Prop := {
  ag_kind : m_kind m' = m_kind m;
  ag_nu : m_nu m' = m_nu m;
  ag_ic : m_ic m' = m_ic m;
  ag_fit : m_fit m' = m_fit m;
  ag_events : m_events m' = m_events m;
  ag_sol : m_sol m' = m_sol m;
  ag_ku : slot_kind (m_u m') = slot_kind (m_u m);
  ag_kdu : slot_kind (m_du m') = slot_kind (m_du m);
  ag_u : forall x, a <= x <= b -> q_u_e m' x = q_u_e m x;
  ag_du : forall x, a <= x <= b -> q_du_e m' x = q_du_e m x;
  ag_d2u : forall x, a <= x <= b -> q_d2u_e m' x = q_d2u_e m x }.

Lemma agree_ode m m' a b x y : agree m m' a b -> a <= x <= b -> ode_impl m' x y = ode_impl m x y.
Proof.
  intros A Hx. unfold ode_impl, calc_f, calc_lambda.
  rewrite (ag_kind _ _ _ _ A), (ag_nu _ _ _ _ A), (ag_fit _ _ _ _ A), (ag_ku _ _ _ _ A), (ag_kdu _ _ _ _ A),
    (ag_u _ _ _ _ A x Hx), (ag_du _ _ _ _ A x Hx). reflexivity.
Qed.
Lemma agree_event m m' a b x y e : agree m m' a b -> a <= x <= b -> event_value m' e x y = event_value m e x y.
Proof.
  intros A Hx. unfold event_value, calc_lambda. rewrite (ag_du _ _ _ _ A x Hx). reflexivity.
Qed.
Lemma agree_reports m m' a b : agree m m' a b -> same_reports m m' a b.
Proof.
  intros A.
  assert (So : forall x, sol_at m' x = sol_at m x).
  { intros x. unfold sol_at. rewrite (ag_sol _ _ _ _ A). reflexivity. }
  assert (DM : forall x, a <= x <= b -> q_delta_m m' x = q_delta_m m x).
  { intros x _. unfold q_delta_m. rewrite So, (ag_kind _ _ _ _ A), (ag_nu _ _ _ _ A). reflexivity. }
  assert (SD : forall x, a <= x <= b -> q_shape_d m' x = q_shape_d m x).
  { intros x Hx. unfold q_shape_d, calc_lambda.
    rewrite So, (ag_kind _ _ _ _ A), (ag_du _ _ _ _ A x Hx), (ag_fit _ _ _ _ A). reflexivity. }
  assert (DD : forall x, a <= x <= b -> q_delta_d m' x = q_delta_d m x).
  { intros x Hx. unfold q_delta_d. rewrite DM, SD by exact Hx. reflexivity. }
  constructor; try assumption.
  - apply A.
  - apply A.
  - apply A.
  - intros x Hx. unfold q_shape_k. rewrite DM by exact Hx. reflexivity.
  - intros x rho Hx. unfold q_tau_w_thwaites, calc_lambda.
    rewrite So, (ag_u _ _ _ _ A x Hx), (ag_du _ _ _ _ A x Hx), (ag_fit _ _ _ _ A), (ag_nu _ _ _ _ A), DM by exact Hx. reflexivity.
  - intros x Hx. unfold q_v_e, calc_lambda.
    rewrite So, (ag_kind _ _ _ _ A), (ag_u _ _ _ _ A x Hx), (ag_du _ _ _ _ A x Hx), (ag_d2u _ _ _ _ A x Hx),
      (ag_fit _ _ _ _ A), (ag_nu _ _ _ _ A), (ag_ku _ _ _ _ A), (ag_kdu _ _ _ _ A), DD, SD by exact Hx.
    destruct (sol_at m x) as [y|]; [|reflexivity]. cbn [bind]. destruct (m_kind m); try reflexivity;
    (destruct (q_u_e m x); [|reflexivity]); (destruct (q_du_e m x); [|reflexivity]); cbn [bind];
      (destruct (comp 0 y); [|reflexivity]); cbn [bind]; (destruct (q_delta_d m x); [|reflexivity]); cbn [bind];
      rewrite (agree_ode m m' a b x _ A Hx); reflexivity.
Qed.

Lemma agree_upd m m' a b (f : meth -> meth) :
  (forall n, m_kind (f n) = m_kind n /\ m_nu (f n) = m_nu n /\ m_u (f n) = m_u n /\ m_du (f n) = m_du n /\ m_d2u (f n) = m_d2u n) ->
  m_ic (f m') = m_ic (f m) -> m_fit (f m') = m_fit (f m) -> m_events (f m') = m_events (f m) -> m_sol (f m') = m_sol (f m) ->
  agree m m' a b -> agree (f m) (f m') a b.
Proof.
  intros H E1 E2 E3 E4 A. destruct (H m) as (K1 & N1 & U1 & D1 & T1). destruct (H m') as (K2 & N2 & U2 & D2 & T2).
  assert (QU : forall n x, m_u (f n) = m_u n -> q_u_e (f n) x = q_u_e n x).
  { intros n x E. unfold q_u_e. rewrite E. reflexivity. }
  assert (QD : forall n x, m_u (f n) = m_u n -> m_du (f n) = m_du n -> q_du_e (f n) x = q_du_e n x).
  { intros n x E F. unfold q_du_e, call_du. rewrite E, F. reflexivity. }
  assert (QT : forall n x, m_u (f n) = m_u n -> m_du (f n) = m_du n -> m_d2u (f n) = m_d2u n -> q_d2u_e (f n) x = q_d2u_e n x).
  { intros n x E F G. unfold q_d2u_e, call_d2u, du_fun. rewrite E, F, G. reflexivity. }
  constructor; try assumption.
  - rewrite K1, K2. apply A.
  - rewrite N1, N2. apply A.
  - rewrite U1, U2. apply A.
  - rewrite D1, D2. apply A.
  - intros x Hx. rewrite !QU by assumption. apply A, Hx.
  - intros x Hx. rewrite !QD by assumption. apply A, Hx.
  - intros x Hx. rewrite !QT by assumption. apply A, Hx.
Qed.

Lemma agree_solve ivp m m' a b l : local_ivp ivp -> a <= b -> agree m m' a b ->
  snd (solve ivp m' a b l) = snd (solve ivp m a b l) /\ agree (fst (solve ivp m a b l)) (fst (solve ivp m' a b l)) a b.
Proof.
  intros LI L A. unfold solve. rewrite (ag_ic _ _ _ _ A), (ag_nu _ _ _ _ A).
  destruct (ic_set_nu (m_ic m) (m_nu m)) as [c [u|e]].
  2:{ split; [reflexivity|]. apply (agree_upd m m' a b (fun n => set_ic n c)); try reflexivity; try apply A; repeat split. }
  assert (A1 : agree (set_ic m c) (set_ic m' c) a b).
  { apply (agree_upd m m' a b (fun n => set_ic n c)); try reflexivity; try apply A; repeat split. }
  rewrite (ag_du _ _ _ _ A1 a ltac:(lra)).
  destruct (q_du_e (set_ic m c) a) as [du|e]; [|split; [reflexivity|exact A1]].
  set (m1 := set_ic m c) in *. set (m1' := set_ic m' c) in *. rewrite (ag_ic _ _ _ _ A1).
  set (c2 := ic_set_du (m_ic m1) (Fin du)).
  assert (A2 : agree (set_ic m1 c2) (set_ic m1' c2) a b).
  { apply (agree_upd m1 m1' a b (fun n => set_ic n c2)); try reflexivity; try apply A1; repeat split. }
  set (m2 := set_ic m1 c2) in *. set (m2' := set_ic m1' c2) in *.
  assert (E0 : ode_setup m2' = ode_setup m2).
  { unfold ode_setup. rewrite (ag_kind _ _ _ _ A2), (ag_ic _ _ _ _ A2), (ag_nu _ _ _ _ A2). reflexivity. }
  rewrite E0. destruct (ode_setup m2) as [y0|e]; [|split; [reflexivity|exact A2]].
  assert (A3 : agree (add_kill_events m2 l) (add_kill_events m2' l) a b).
  { apply (agree_upd m2 m2' a b (fun n => add_kill_events n l)); try apply A2; [repeat split|].
    unfold add_kill_events. cbn [set_events m_events]. rewrite (ag_events _ _ _ _ A2). reflexivity. }
  set (m3 := add_kill_events m2 l) in *. set (m3' := add_kill_events m2' l) in *.
  rewrite (ag_events _ _ _ _ A3).
  rewrite (LI (ode_impl m3') (ode_impl m3) a b y0
             (map (fun e => (ev_terminal e, event_value m3' e)) (m_events m3))
             (map (fun e => (ev_terminal e, event_value m3 e)) (m_events m3)) L).
  2:{ intros x v Hx. apply (agree_ode m3 m3' a b x v A3 Hx). }
  2:{ induction (m_events m3) as [|e es IH]; constructor; [|exact IH]. cbn [fst snd]. split; [reflexivity|].
      intros x v Hx. apply (agree_event m3 m3' a b x v e A3 Hx). }
  destruct (ivp (ode_impl m3) a b y0 _) as [r|e]; [|split; [reflexivity|exact A3]]. cbn [fst snd].
  assert (Ev : m_events m3' = m_events m3) by apply A3.
  split; [cbn [set_sol m_events]; rewrite Ev; reflexivity|].
  apply (agree_upd m3 m3' a b (fun n => set_sol n (if r_success r then Some (r_sol r) else None)));
    try reflexivity; try apply A3; repeat split.
Qed.

Lemma fd_1f_agree f g x d : f (x - 2*d) = g (x - 2*d) -> f (x + 2*d) = g (x + 2*d) -> f (x - d) = g (x - d) ->
  f (x + d) = g (x + d) -> fd_1f f x d = fd_1f g x d.
Proof. intros A B C D. unfold fd_1f. rewrite A, B, C, D. reflexivity. Qed.
Lemma fd_2f_agree f g x d : f (x - 2*d) = g (x - 2*d) -> f (x + 2*d) = g (x + 2*d) -> f (x - d) = g (x - d) ->
  f (x + d) = g (x + d) -> f x = g x -> fd_2f f x d = fd_2f g x d.
Proof. intros A B C D E. unfold fd_2f. rewrite A, B, C, D, E. reflexivity. Qed.

Lemma plain_agree pchip m c c' a b : c_deriv c = None -> c_deriv c' = None -> c_ret c' = c_ret c ->
  (forall x, a - 2/10000 <= x <= b + 2/10000 -> c_fun c' x = c_fun c x) ->
  agree (fst (set_velocity pchip m (PCall c) PNone PNone)) (fst (set_velocity pchip m (PCall c') PNone PNone)) a b.
Proof.
  intros D D' Rk H. cbn [set_velocity]. unfold set_velocity_callable. rewrite D, D'. cbn [fst].
  constructor; try reflexivity.
  - cbn [set_d2u set_du set_u m_u slot_kind]. exact Rk.
  - intros x Hx. unfold q_u_e. cbn [set_d2u set_du set_u m_u call_plain bind]. rewrite H by lra. reflexivity.
  - intros x Hx. unfold q_du_e, call_du. cbn [set_d2u set_du set_u m_u m_du call_plain bind]. f_equal.
    apply fd_1f_agree; apply H; lra.
  - intros x Hx. unfold q_d2u_e, call_d2u. cbn [set_d2u set_du set_u m_u m_d2u call_plain bind]. f_equal.
    apply fd_2f_agree; apply H; lra.
Qed.

Lemma locality_lemma pchip ivp m c c' a b l : local_ivp ivp -> a <= b ->
  c_deriv c = None -> c_deriv c' = None -> c_ret c' = c_ret c ->
  (forall x, a - 2/10000 <= x <= b + 2/10000 -> c_fun c' x = c_fun c x) ->
  let m1 := fst (set_velocity pchip m (PCall c) PNone PNone) in
  let m2 := fst (set_velocity pchip m (PCall c') PNone PNone) in
  snd (solve ivp m2 a b l) = snd (solve ivp m1 a b l) /\
  same_reports (fst (solve ivp m1 a b l)) (fst (solve ivp m2 a b l)) a b.
Proof.
  intros LI L D D' Rk H m1 m2.
  destruct (agree_solve ivp m1 m2 a b l LI L (plain_agree pchip m c c' a b D D' Rk H)) as [E A].
  split; [exact E|]. apply agree_reports, A.
Qed.

Lemma locality_given_lemma pchip ivp m c dc d2c c' dc' d2c' a b l : local_ivp ivp -> a <= b ->
  c_ret c' = c_ret c -> c_ret dc' = c_ret dc ->
  (forall x, a <= x <= b -> c_fun c' x = c_fun c x /\ c_fun dc' x = c_fun dc x /\ c_fun d2c' x = c_fun d2c x) ->
  let m1 := fst (set_velocity pchip m (PCall c) (PCall dc) (PCall d2c)) in
  let m2 := fst (set_velocity pchip m (PCall c') (PCall dc') (PCall d2c')) in
  snd (solve ivp m2 a b l) = snd (solve ivp m1 a b l) /\
  same_reports (fst (solve ivp m1 a b l)) (fst (solve ivp m2 a b l)) a b.
Proof.
  intros LI L Rk Rk' H m1 m2.
  assert (A0 : agree m1 m2 a b).
  { unfold m1, m2. cbn [set_velocity]. unfold set_velocity_callable. cbn [fst].
    constructor; try reflexivity; try assumption.
    - intros x Hx. unfold q_u_e. cbn [set_d2u set_du set_u m_u call_plain bind]. f_equal. apply H, Hx.
    - intros x Hx. unfold q_du_e, call_du. cbn [set_d2u set_du set_u m_u m_du call_plain bind]. f_equal. apply H, Hx.
    - intros x Hx. unfold q_d2u_e, call_d2u. cbn [set_d2u set_du set_u m_u m_d2u call_plain bind as_slot]. f_equal. apply H, Hx. }
  destruct (agree_solve ivp m1 m2 a b l LI L A0) as [E A].
  split; [exact E|]. apply agree_reports, A.
Qed.

(** ** The finite differences reach outside *)
Lemma ivp_slope_local : local_ivp ivp_slope.
Proof.
  intros f f' a b y e e' L H F. unfold ivp_slope. rewrite (H a y) by lra.
  replace (map (fun _ => []) e) with (map (fun _ : bool * (R -> list xr -> res xr) => @nil R) e'); [reflexivity|].
  induction F; [reflexivity|]. cbn [map]. f_equal. assumption.
Qed.

Definition step_call : callable :=
  {| c_fun := fun x => if Rltb x 0 then 2 else 1; c_ret := KFloat; c_deriv := None |}.
Definition one_call : callable := {| c_fun := fun _ => 1; c_ret := KFloat; c_deriv := None |}.


Lemma step_du : fd_1f (c_fun step_call) 0 (1/10000) = - (17500/3).
Proof.
  unfold fd_1f, step_call. cbn [c_fun]. rewrite (Rltb_true (0 - 2 * (1/10000))), (Rltb_true (0 - 1/10000)),
    (Rltb_false (0 + 2 * (1/10000))), (Rltb_false (0 + 1/10000)) by lra. field.
Qed.
Lemma one_du x : fd_1f (c_fun one_call) x (1/10000) = 0.
Proof. unfold fd_1f, one_call. cbn [c_fun]. field. Qed.

Lemma locality_witness pchip cs : exists ivp, local_ivp ivp /\ ivp_contract ivp /\ exists m c c' r r',
  reachable pchip cs ivp m /\ c_deriv c = None /\ c_deriv c' = None /\ c_ret c' = c_ret c /\
  (forall x, 0 <= x -> c_fun c' x = c_fun c x) /\
  snd (solve ivp (fst (set_velocity pchip m (PCall c) PNone PNone)) 0 1 []) = Ok r /\
  snd (solve ivp (fst (set_velocity pchip m (PCall c') PNone PNone)) 0 1 []) = Ok r' /\
  ir_status r = REACHED_END /\ ir_status r' = REACHED_END /\ ir_f_end r' <> ir_f_end r.
Proof.
  exists ivp_slope. split; [exact ivp_slope_local|]. split; [exact ivp_slope_contract|].
  assert (G : forall c du, c_deriv c = None -> c_fun c 0 = 1 -> fd_1f (c_fun c) 0 (1/10000) = du ->
    exists r, snd (solve ivp_slope (fst (set_velocity pchip (flat 1 1 1) (PCall c) PNone PNone)) 0 1 []) = Ok r /\
      ir_status r = REACHED_END /\ ir_f_end r = [Fin (1 + (45/100 - 6 * du) / (1/1000 + 1))]).
  { intros c du Dc C0 Du. cbn [set_velocity]. unfold set_velocity_callable. rewrite Dc. cbn [fst].
    unfold solve. cbn [set_d2u set_du set_u m_ic m_nu flat].
    unfold ic_set_nu, new_manual. cbn [ic_nu xleb]. rewrite Rleb_false by lra.
    unfold q_du_e, call_du. cbn [set_ic set_d2u set_du set_u flat m_du m_u call_plain bind]. rewrite Du.
    unfold ode_setup. cbn [set_d2u set_du set_u flat set_ic m_kind m_ic m_nu ic_set_du ic_body_of ic_delta_m bind].
    unfold xsq. rewrite xmul_fin, py_div_fin by lra. cbn [bind].
    unfold ivp_slope. cbn [bind]. unfold gather. cbn [r_success r_status Z.eqb r_t r_sol]. unfold last_t. cbn [rev app bind].
    cbn [snd]. eexists. split; [reflexivity|]. cbn [ir_status ir_f_end]. split; [reflexivity|].
    unfold ode_impl, calc_f, calc_lambda, q_du_e, q_u_e, call_du.
    cbn [set_d2u set_du set_u flat add_kill_events set_events set_ic m_kind m_du m_u call_plain bind m_events m_fit]. rewrite Du, C0.
    rewrite !xmul_fin, xsub_fin, xadd_fin, xdiv_fin by lra. do 2 f_equal. field. }
  destruct (G one_call 0 eq_refl eq_refl (one_du 0)) as (r & E & St & Fe).
  destruct (G step_call _ eq_refl ltac:(cbn; rewrite Rltb_false by lra; reflexivity) step_du) as (r' & E' & St' & Fe').
  exists (flat 1 1 1), one_call, step_call, r, r'.
  split; [apply flat_reachable; lra|]. split; [reflexivity|]. split; [reflexivity|]. split; [reflexivity|].
  split; [intros x Hx; cbn; rewrite Rltb_false by lra; reflexivity|].
  split; [exact E|]. split; [exact E'|]. split; [exact St|]. split; [exact St'|].
  rewrite Fe, Fe'. intros Q. injection Q as Q. lra.
Qed.

Lemma ivp_slope_moves : ivp_moves ivp_slope.
Proof.
  intros k f a b y e. unfold ivp_slope. cbn [res_map]. unfold moved_ivp. cbn [r_success r_status r_message r_t r_sol r_t_events map].
  f_equal. f_equal.
  - apply functional_extensionality. intros x. unfold moved. replace (a + k - k) with a by ring.
    destruct (f a y) as [[|[v| | |] [|]]|]; try reflexivity. destruct y as [|[y0| | |] [|]]; try reflexivity.
    do 2 f_equal. ring.
  - rewrite !map_map. reflexivity.
Qed.
