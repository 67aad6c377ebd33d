(** Proofs for C159: one method object takes over from another. *)
From Coq Require Import Reals List Lra ZArith.
From Coquelicot Require Import Coquelicot.
From Verif Require Import PyBase PyBaseFacts ThwaitesFitsModel InitialConditionModel CoreModel CoreSpec HandoffSpec.
Import ListNotations.
Open Scope R_scope.

Lemma gather_success x0 y0 l r ir : gather x0 y0 l r = Ok ir -> ir_success ir = r_success r.
Proof.
  unfold gather. destruct (r_success r) eqn:S; [|intros H; injection H as <-; reflexivity].
  destruct (Z.eqb (r_status r) 0).
  - destruct (last_t (r_t r)); cbn [bind]; [|discriminate]. intros H; injection H as <-. reflexivity.
  - destruct (Z.eqb (r_status r) 1).
    + destruct (first_event (r_t_events r) l) as [[[x e]|]|e]; cbn [bind]; [| |discriminate]; intros H; injection H as <-; reflexivity.
    + intros H; injection H as <-; reflexivity.
Qed.

(** After a successful solve the stored solution has, at the start, the state the setup computed. *)
Lemma solve_start ivp m a b l m' r : keeps_start ivp -> solve ivp m a b l = (m', Ok r) -> ir_success r = true ->
  exists g du, m_sol m' = Some g /\ q_du_e m a = Ok du /\ m_kind m' = m_kind m /\ m_nu m' = m_nu m /\
    ode_setup (set_ic m {| ic_du := Fin du; ic_nu := m_nu m; ic_body_of := ic_body_of (m_ic m) |}) = Ok (g a).
Proof.
  intros K E S. unfold solve in E. unfold ic_set_nu in E. destruct (xleb (m_nu m) (Fin 0)); [discriminate|].
  set (m1 := set_ic m _) in E. change (q_du_e m1 a) with (q_du_e m a) in E. destruct (q_du_e m a) as [du|e]; [|discriminate].
  set (m2 := set_ic m1 _) in E. destruct (ode_setup m2) as [y0|e] eqn:Eo; [|discriminate].
  set (m3 := add_kill_events m2 l) in E.
  destruct (ivp (ode_impl m3) a b y0 _) as [q|e] eqn:Ei; [|discriminate].
  injection E as E1 E2. apply gather_success in E2. rewrite E2 in S. rewrite S in E1.
  exists (r_sol q), du. split; [rewrite <- E1; reflexivity|]. split; [reflexivity|]. split; [rewrite <- E1; reflexivity|]. split; [rewrite <- E1; reflexivity|].
  rewrite (K _ _ _ _ _ _ Ei S). rewrite <- Eo. unfold m2, m1. reflexivity.
Qed.

Lemma delta_d_of m x d h : q_delta_m m x = Ok (Fin d) -> q_shape_d m x = Ok (Fin h) -> q_delta_d m x = Ok (Fin (d * h)).
Proof. intros A B. unfold q_delta_d. rewrite A, B. reflexivity. Qed.

Lemma head_takeover_lemma lam tur c d h : m_kind tur = Head -> ic_body_of (m_ic tur) <> FSStag ->
  q_delta_m lam c = Ok (Fin d) -> q_shape_d lam c = Ok (Fin h) -> 0 < d -> 0 < h ->
  exists t1 t2, set_initial_delta_m tur (Fin d) = (t1, Ok tt) /\ set_initial_shape_d t1 (Fin h) = (t2, Ok tt) /\
  forall ivp b l t3 r, keeps_start ivp -> solve ivp t2 c b l = (t3, Ok r) -> ir_success r = true -> same_layer t3 lam c.
Proof.
  intros K B Qd Qh Pd Ph. exists (set_ic tur (ic_assign_del_m (m_ic tur) (Fin d))).
  exists (set_ic (set_ic tur (ic_assign_del_m (m_ic tur) (Fin d))) (ic_assign_del_d (ic_assign_del_m (m_ic tur) (Fin d)) (Fin (h * d)))).
  destruct (m_ic tur) as [du0 nu0 [|dd0 d0 dk0]] eqn:Ei; [exfalso; apply B; reflexivity|].
  split. { unfold set_initial_delta_m. cbn [xleb]. rewrite Rleb_false by lra. rewrite Ei. reflexivity. }
  split. { unfold set_initial_shape_d. cbn [xleb]. rewrite Rleb_false by lra. reflexivity. }
  intros ivp b l t3 r Hk Es Ss. destruct (solve_start _ _ _ _ _ _ _ Hk Es Ss) as (g & du & Eg & _ & Ek & _ & Eo).
  cbn [set_ic m_kind] in Ek. unfold ode_setup in Eo. cbn [set_ic m_kind m_ic ic_assign_del_m ic_assign_del_d ic_body_of] in Eo. rewrite K in Eo, Ek.
  cbn [ic_delta_m ic_shape_d ic_body_of bind] in Eo. rewrite py_div_fin in Eo by lra. cbn [bind] in Eo. injection Eo as Eo.
  replace (h * d / d) with h in Eo by (field; lra).
  assert (A1 : q_delta_m t3 c = Ok (Fin d)). { unfold q_delta_m, sol_at. rewrite Eg. cbn [bind]. rewrite <- Eo. cbn [comp nth_error bind]. rewrite Ek. reflexivity. }
  assert (A2 : q_shape_d t3 c = Ok (Fin h)). { unfold q_shape_d, sol_at. rewrite Eg. cbn [bind]. rewrite <- Eo, Ek. reflexivity. }
  split; [congruence|]. split; [congruence|]. rewrite (delta_d_of t3 c d h), (delta_d_of lam c d h) by assumption. reflexivity.
Qed.

Lemma condition_takeover_lemma lam tur c d h : m_kind tur = Head ->
  q_delta_m lam c = Ok (Fin d) -> q_shape_d lam c = Ok (Fin h) -> 0 < d ->
  exists dd, q_delta_d lam c = Ok dd /\
  forall ivp b l t r, keeps_start ivp -> solve ivp (set_initial_condition tur (new_manual dd (Fin d) (Fin 0))) c b l = (t, Ok r) -> ir_success r = true ->
    same_layer t lam c.
Proof.
  intros K Qd Qh Pd. exists (Fin (d * h)). split; [apply delta_d_of; assumption|].
  intros ivp b l t3 r Hk Es Ss. destruct (solve_start _ _ _ _ _ _ _ Hk Es Ss) as (g & du & Eg & _ & Ek & _ & Eo).
  cbn [set_initial_condition set_ic m_kind] in Ek. unfold ode_setup in Eo. cbn [set_initial_condition set_ic m_kind m_ic new_manual ic_body_of] in Eo. rewrite K in Eo, Ek.
  cbn [ic_delta_m ic_shape_d ic_body_of bind] in Eo. rewrite py_div_fin in Eo by lra. cbn [bind] in Eo. injection Eo as Eo.
  replace (d * h / d) with h in Eo by (field; lra).
  assert (A1 : q_delta_m t3 c = Ok (Fin d)). { unfold q_delta_m, sol_at. rewrite Eg. cbn [bind]. rewrite <- Eo. cbn [comp nth_error bind]. rewrite Ek. reflexivity. }
  assert (A2 : q_shape_d t3 c = Ok (Fin h)). { unfold q_shape_d, sol_at. rewrite Eg. cbn [bind]. rewrite <- Eo, Ek. reflexivity. }
  split; [congruence|]. split; [congruence|]. rewrite (delta_d_of t3 c d h), (delta_d_of lam c d h) by assumption. reflexivity.
Qed.

Lemma thwaites_takeover_lemma lam m c d nu : m_kind m <> Head -> ic_body_of (m_ic m) <> FSStag -> m_nu m = Fin nu -> 0 < nu ->
  q_delta_m lam c = Ok (Fin d) -> 0 < d ->
  exists m1, set_initial_delta_m m (Fin d) = (m1, Ok tt) /\
  forall ivp b l m2 r, keeps_start ivp -> solve ivp m1 c b l = (m2, Ok r) -> ir_success r = true -> q_delta_m m2 c = q_delta_m lam c.
Proof.
  intros K B N Pn Qd Pd. exists (set_ic m (ic_assign_del_m (m_ic m) (Fin d))).
  destruct (m_ic m) as [du0 nu0 [|dd0 d0 dk0]] eqn:Ei; [exfalso; apply B; reflexivity|].
  split. { unfold set_initial_delta_m. cbn [xleb]. rewrite Rleb_false by lra. rewrite Ei. reflexivity. }
  intros ivp b l t3 r Hk Es Ss. destruct (solve_start _ _ _ _ _ _ _ Hk Es Ss) as (g & du & Eg & _ & Ek & En & Eo).
  cbn [set_ic m_kind m_nu] in Ek, En. unfold ode_setup in Eo. cbn [set_ic m_kind m_nu m_ic ic_assign_del_m ic_body_of] in Eo.
  assert (Eo' : Ok [Fin (d * d / nu)] = Ok (g c)).
  { rewrite <- Eo. destruct (m_kind m); [| |contradiction]; cbn [ic_delta_m ic_body_of bind]; rewrite N; unfold xsq; rewrite xmul_fin, py_div_fin by lra; reflexivity. }
  injection Eo' as Eo'. rewrite Qd. unfold q_delta_m, sol_at. rewrite Eg. cbn [bind]. rewrite <- Eo'. cbn [comp nth_error bind]. rewrite Ek, En, N.
  assert (Sq : xsqrt (Fin (d * d / nu) * Fin nu)%xr = Fin d).
  { rewrite xmul_fin. replace (d * d / nu * nu) with (d * d) by (field; lra). unfold xsqrt. destruct (Rlt_dec (d * d) 0); [nra|]. rewrite sqrt_square by lra. reflexivity. }
  destruct (m_kind m); [rewrite Sq; reflexivity|rewrite Sq; reflexivity|contradiction].
Qed.
