(** Proofs for C164: the end state that solve returns. *)
From Coq Require Import Reals List Bool String Lra ZArith.
From Verif Require Import PyBase PyBaseFacts ThwaitesFitsModel InitialConditionModel CoreModel CoreSpec CoreProofs CoreHistoryProofs
  HandoffSpec HandoffProofs.
Import ListNotations.
Open Scope R_scope.

Lemma gather_end x0 y0 l r ir : gather x0 y0 l r = Ok ir -> (r_success r = true -> r_sol r x0 = y0) ->
  (r_success r = true -> ir_f_end ir = r_sol r (ir_x_end ir)) /\ (r_success r = false -> ir_x_end ir = x0 /\ ir_f_end ir = y0).
Proof.
  unfold gather. intros H K. destruct (r_success r) eqn:S; [|injection H as <-; split; [discriminate|split; reflexivity]].
  split; [intros _|discriminate]. specialize (K eq_refl).
  destruct (Z.eqb (r_status r) 0).
  - destruct (last_t (r_t r)); cbn [bind] in H; [|discriminate]. injection H as <-. reflexivity.
  - destruct (Z.eqb (r_status r) 1).
    + destruct (first_event (r_t_events r) l) as [[[x e]|]|e]; cbn [bind] in H; [| |discriminate]; injection H as <-; [reflexivity|symmetry; exact K].
    + injection H as <-. symmetry; exact K.
Qed.

Lemma solve_end ivp m a b l m' r : keeps_start ivp -> solve ivp m a b l = (m', Ok r) ->
  m_kind m' = m_kind m /\ m_nu m' = m_nu m /\
  if ir_success r then exists g, m_sol m' = Some g /\ ir_f_end r = g (ir_x_end r) else m_sol m' = None /\ ir_x_end r = a.
Proof.
  intros K E. unfold solve in E. unfold ic_set_nu in E. destruct (xleb (m_nu m) (Fin 0)); [discriminate|].
  set (m1 := set_ic m _) in E. destruct (q_du_e m1 a) as [du|e]; [|discriminate].
  set (m2 := set_ic m1 _) in E. destruct (ode_setup m2) as [y0|e] eqn:Eo; [|discriminate].
  set (m3 := add_kill_events m2 l) in E.
  destruct (ivp (ode_impl m3) a b y0 _) as [q|e] eqn:Ei; [|discriminate].
  injection E as E1 E2. assert (E3 := gather_success _ _ _ _ _ E2).
  destruct (gather_end _ _ _ _ _ E2 (fun S => K _ _ _ _ _ _ Ei S)) as [A B].
  split; [rewrite <- E1; reflexivity|]. split; [rewrite <- E1; reflexivity|]. rewrite E3. destruct (r_success q) eqn:S.
  - exists (r_sol q). split; [rewrite <- E1; reflexivity|apply A; reflexivity].
  - split; [rewrite <- E1; reflexivity|apply B; reflexivity].
Qed.

Lemma end_state_lemma pchip cubic_spline ivp m a b l m' r h : keeps_start ivp -> solve ivp m a b l = (m', Ok r) ->
  List.Forall (fun o => is_solve o = false /\ is_nu o = false) h ->
  let s := run pchip cubic_spline ivp m' h in
  (ir_success r = true -> m_kind m = Head -> forall d H, ir_f_end r = [d; H] ->
     q_delta_m s (ir_x_end r) = Ok d /\ q_shape_d s (ir_x_end r) = Ok H) /\
  (ir_success r = true -> m_kind m <> Head -> forall v, ir_f_end r = [v] ->
     q_delta_m s (ir_x_end r) = Ok (xsqrt (v * m_nu m)%xr)) /\
  (ir_success r = false -> ir_x_end r = a /\ forall x, q_delta_m s x = Err ValueError).
Proof.
  intros K E F s. destruct (solve_end ivp m a b l m' r K E) as (Ek & En & C).
  assert (Q : forall x, q_delta_m s x = q_delta_m m' x) by (intros x; apply thwaites_delta_m_insulated_lemma, F).
  split; [|split].
  - intros S Kh d H Ef. rewrite S in C. destruct C as (g & Eg & Efg). rewrite Ef in Efg.
    destruct (head_insulated_lemma pchip cubic_spline ivp m' h (ir_x_end r) ltac:(congruence)) as (_ & QH & _).
    { eapply Forall_impl; [|exact F]. intros o Ho. apply Ho. }
    fold s in QH. rewrite Q, QH. unfold q_delta_m, q_shape_d, sol_at. rewrite Eg. cbn [bind]. rewrite <- Efg, Ek, Kh. split; reflexivity.
  - intros S Kh v Ef. rewrite S in C. destruct C as (g & Eg & Efg). rewrite Ef in Efg.
    rewrite Q. unfold q_delta_m, sol_at. rewrite Eg. cbn [bind]. rewrite <- Efg, Ek, En. cbn [comp nth_error bind].
    destruct (m_kind m); [reflexivity|reflexivity|congruence].
  - intros S. rewrite S in C. destruct C as (Es & Ex). split; [exact Ex|]. intros x. rewrite Q. unfold q_delta_m, sol_at. rewrite Es. reflexivity.
Qed.
