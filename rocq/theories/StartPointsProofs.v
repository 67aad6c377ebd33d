(** C168: proofs. *)
From Coq Require Import Reals List Bool ZArith Lra Lia.
From Coquelicot Require Import Coquelicot.
From Verif Require Import PyBase PyBaseFacts FiniteDiffModel PPolyModel PchipModel PchipProofs InitialConditionModel
  CoreModel CoreSpec CoreProofs CoreProps WorkflowSpec StartPointsSpec.
Import ListNotations.
Open Scope R_scope.

Lemma parabola_edge x0 u0 x1 u1 x2 u2 : x0 < x1 -> x1 < x2 ->
  parabola_slope x0 u0 x1 u1 x2 u2 =
  ((2 * (x1 - x0) + (x2 - x1)) * ((u1 - u0) / (x1 - x0)) - (x1 - x0) * ((u2 - u1) / (x2 - x1))) / ((x1 - x0) + (x2 - x1)).
Proof. intros A B. unfold parabola_slope. field. lra. Qed.

Lemma edge_value x0 u0 x1 u1 x2 u2 : x0 < x1 -> x1 < x2 -> u0 < u1 -> u1 < u2 ->
  pchip_edge (x1 - x0) (x2 - x1) (secant (x0, u0) (x1, u1)) (secant (x1, u1) (x2, u2)) =
  Rmax 0 (parabola_slope x0 u0 x1 u1 x2 u2).
Proof.
  intros A B C D. unfold pchip_edge, secant. cbn [fst snd]. rewrite <- parabola_edge by assumption.
  set (g := parabola_slope x0 u0 x1 u1 x2 u2).
  assert (P0 : 0 < (u1 - u0) / (x1 - x0)) by (apply Rdiv_lt_0_compat; lra).
  assert (P1 : 0 < (u2 - u1) / (x2 - x1)) by (apply Rdiv_lt_0_compat; lra).
  rewrite (sign_pos _ P0), (sign_pos _ P1). rewrite (Reqb_true 1 1) by reflexivity.
  destruct (Rle_lt_dec g 0) as [L|L].
  - rewrite Rmax_left by exact L.
    assert (np_sign g <> 1).
    { destruct (sign_inv g) as [[E G]|[[E G]|[E G]]]; rewrite E; lra. }
    rewrite Reqb_false by assumption. reflexivity.
  - rewrite (sign_pos _ L), Rmax_right by lra. rewrite (Reqb_true 1 1) by reflexivity. reflexivity.
Qed.

(** The gradient at the first point. *)
Lemma first_gradient m xs us p0 p1 r v1 v2 du d2u : np_asarray v1 = Ok (vec xs) -> np_asarray v2 = Ok (vec us) ->
  usable_points xs us -> combine xs us = p0 :: p1 :: r ->
  exists m' g ds, set_velocity pchip_scipy m (PTup [v1; v2]) du d2u = (m', Ok tt) /\
    pchip_slopes (p0 :: p1 :: r) = g :: ds /\ q_du_e m' (fst p0) = Ok g /\
    m_kind m' = m_kind m /\ m_ic m' = m_ic m /\ m_nu m' = m_nu m.
Proof.
  intros H1 H2 U EC. destruct (fit_usable xs us) as [F1 _]. destruct (F1 U) as [p Hp].
  destruct (fit_facts xs us p Hp) as (E1 & E2 & M & G & Ex & Ec).
  destruct U as (U1 & U2 & U3).
  cbn [set_velocity]. unfold set_velocity_points.
  cbn [py_len List.length py_item nth_error bind]. rewrite H1, H2. cbn [vec nd_shape].
  change (negb (Nat.eqb (length [length xs]) 1)) with false.
  change (negb (Nat.eqb (length [length us]) 1)) with false. cbv iota.
  cbn [hd]. change (pchip_scipy (vec xs) (vec us)) with (pchip_fit xs us).
  rewrite U1, ?PeanoNat.Nat.eqb_refl. cbn [negb].
  destruct (PeanoNat.Nat.ltb_spec (length us) 2) as [L|_]; [lia|]. rewrite Hp.
  rewrite EC in *.
  destruct (eval_between_nth (p0 :: p1 :: r) (pchip_slopes (p0 :: p1 :: r)) 0 p0 p1 (fst p0) G eq_refl eq_refl)
    as (d0 & d1 & N0 & _ & _ & _ & _ & _ & D).
  { destruct (pchip_slopes (p0 :: p1 :: r)) as [|a [|b t]]; [contradiction|destruct G|destruct G as [G _]; lra]. }
  destruct (pchip_slopes (p0 :: p1 :: r)) as [|g ds] eqn:ES; [discriminate|]. injection N0 as <-.
  eexists _, g, ds. split; [reflexivity|]. split; [reflexivity|]. split; [|repeat split].
  unfold q_du_e. cbn. unfold pp_eval. cbn [pp_derivative pp_x pp_c]. rewrite Ex, Ec.
  f_equal. rewrite D. replace (fst p0 - fst p0) with 0 by ring. apply piece_dstart.
Qed.

Section Start.
Variable solve_ivp : (R -> list xr -> res (list xr)) -> R -> R -> list xr ->
  list (bool * (R -> list xr -> res xr)) -> res ivp_result.

(** With gradient zero the solve raises; with a positive gradient it has a start. *)
Lemma solve_zero_gradient m nu x0 xe l : starts_at_stagnation m nu -> q_du_e m x0 = Ok 0 ->
  snd (solve solve_ivp m x0 xe l) = Err ZeroDivisionError.
Proof.
  intros (A & B & C) D. unfold solve, ic_set_nu. rewrite B. cbn [xleb]. rewrite Rleb_false by lra.
  change (q_du_e (set_ic m _) x0) with (q_du_e m x0). rewrite D.
  assert (E : forall c, ic_body_of c = FSStag -> ic_nu c = Fin nu -> ic_du c = Fin 0 -> ic_delta_m c = Err ZeroDivisionError).
  { intros c E1 E2 E3. unfold ic_delta_m. rewrite E1, E2, E3.
    unfold py_div. cbn. rewrite Reqb_true by ring. reflexivity. }
  unfold ode_setup. cbn [set_ic m_kind m_ic].
  destruct (m_kind m); rewrite E; try reflexivity; exact A.
Qed.
End Start.

Lemma start_positive m nu x0 g : starts_at_stagnation m nu -> q_du_e m x0 = Ok g -> 0 < g ->
  initial_state m x0 (stagnation_state m nu g).
Proof.
  intros (A & B & C) D G.
  assert (N : (22162 / 10000 + 2) * g <> 0) by nra.
  assert (P : 0 <= nu * (29235/100000) * (123259/100000) / ((22162/10000 + 2) * g)) by (apply Rdiv_le_0_compat; nra).
  assert (E : ic_delta_m {| ic_du := Fin g; ic_nu := m_nu m; ic_body_of := ic_body_of (m_ic m) |} =
    Ok (Fin (sqrt (nu * (29235/100000) * (123259/100000) / ((22162/10000 + 2) * g))))).
  { unfold ic_delta_m. cbn [ic_body_of ic_nu ic_du]. rewrite A, B. unfold fs_eta_m, fs_fpp0, fs_shape_d. cbn [xadd xmul].
    rewrite py_div_fin by exact N. cbn [bind]. rewrite xsqrt_fin by exact P. reflexivity. }
  assert (T : (Fin (sqrt (nu * (29235/100000) * (123259/100000) / ((22162/10000 + 2) * g))) *
     Fin (sqrt (nu * (29235/100000) * (123259/100000) / ((22162/10000 + 2) * g))) / m_nu m)%xr =
     Fin ((29235/100000) * (123259/100000) / ((22162/10000 + 2) * g))).
  { rewrite B. cbn [xmul]. rewrite sqrt_sqrt by exact P. rewrite xdiv_fin by lra. f_equal. field. lra. }
  unfold stagnation_state. destruct (m_kind m) eqn:K.
  - rewrite <- T. eapply initial_state_thwaites; [congruence|exact D|exact E].
  - rewrite <- T. eapply initial_state_thwaites; [congruence|exact D|exact E].
  - eapply initial_state_head; [exact K|exact D|exact E|]. unfold ic_shape_d. cbn [ic_body_of]. rewrite A. reflexivity.
Qed.

Lemma keeps_stagnation m m' nu : starts_at_stagnation m nu -> m_ic m' = m_ic m -> m_nu m' = m_nu m -> starts_at_stagnation m' nu.
Proof. unfold starts_at_stagnation. intros (A & B & C) -> ->. repeat split; assumption. Qed.

Lemma three_points m nu v1 v2 x0 x1 x2 xs u0 u1 u2 us du d2u :
  np_asarray v1 = Ok (vec (x0 :: x1 :: x2 :: xs)) -> np_asarray v2 = Ok (vec (u0 :: u1 :: u2 :: us)) ->
  usable_points (x0 :: x1 :: x2 :: xs) (u0 :: u1 :: u2 :: us) -> u0 < u1 < u2 -> starts_at_stagnation m nu ->
  let g := parabola_slope x0 u0 x1 u1 x2 u2 in
  exists m', set_velocity pchip_scipy m (PTup [v1; v2]) du d2u = (m', Ok tt) /\
    (0 < g -> q_du_e m' x0 = Ok g /\ initial_state m' x0 (stagnation_state m nu g)) /\
    (g <= 0 -> q_du_e m' x0 = Ok 0 /\
       forall solve_ivp x_end l, snd (solve solve_ivp m' x0 x_end l) = Err ZeroDivisionError).
Proof.
  intros H1 H2 U [C D] ST g.
  assert (A : x0 < x1) by (apply (proj2 (proj2 U) 0%nat); reflexivity).
  assert (B : x1 < x2) by (apply (proj2 (proj2 U) 1%nat); reflexivity).
  destruct (first_gradient m _ _ (x0, u0) (x1, u1) ((x2, u2) :: combine xs us) v1 v2 du d2u H1 H2 U eq_refl)
    as (m' & g' & ds & E & ES & Q & K1 & K2 & K3).
  cbn [pchip_slopes fst snd] in ES. rewrite edge_value in ES by assumption.
  injection ES as <- _. fold g in Q.
  pose proof (keeps_stagnation m m' nu ST K2 K3) as ST'.
  exists m'. split; [exact E|]. split; intros G.
  - rewrite Rmax_right in Q by lra. split; [exact Q|].
    unfold stagnation_state. rewrite <- K1. apply start_positive; assumption.
  - rewrite Rmax_left in Q by lra. split; [exact Q|]. intros ivp xe l. apply (solve_zero_gradient ivp m' nu); assumption.
Qed.

Lemma two_points m nu v1 v2 x0 x1 u0 u1 du d2u :
  np_asarray v1 = Ok (vec [x0; x1]) -> np_asarray v2 = Ok (vec [u0; u1]) ->
  x0 < x1 -> u0 < u1 -> starts_at_stagnation m nu ->
  exists m', set_velocity pchip_scipy m (PTup [v1; v2]) du d2u = (m', Ok tt) /\
    initial_state m' x0 (stagnation_state m nu ((u1 - u0) / (x1 - x0))).
Proof.
  intros H1 H2 A C ST.
  assert (U : usable_points [x0; x1] [u0; u1]).
  { split; [reflexivity|]. split; [cbn; lia|]. intros [|[|i]] a b P Q; cbn in P, Q; try discriminate.
    injection P as <-. injection Q as <-. exact A. }
  destruct (first_gradient m _ _ (x0, u0) (x1, u1) [] v1 v2 du d2u H1 H2 U eq_refl)
    as (m' & g' & ds & E & ES & Q & K1 & K2 & K3).
  cbn [pchip_slopes] in ES. injection ES as <- _.
  exists m'. split; [exact E|]. unfold stagnation_state. rewrite <- K1.
  apply start_positive; [exact (keeps_stagnation m m' nu ST K2 K3)|exact Q|apply Rdiv_lt_0_compat; lra].
Qed.

Lemma no_start : exists xs us, accelerates_from_rest xs us /\
  forall m nu du d2u, starts_at_stagnation m nu ->
  exists m', set_velocity pchip_scipy m (PTup [PArr (vec xs); PArr (vec us)]) du d2u = (m', Ok tt) /\
    forall solve_ivp x_end l, snd (solve solve_ivp m' (hd 0 xs) x_end l) = Err ZeroDivisionError.
Proof.
  assert (I : forall l : list R, l = [0; 1; 2] \/ l = [0; 1; 5] ->
    forall i a b, nth_error l i = Some a -> nth_error l (S i) = Some b -> a < b).
  { intros l [-> | ->] [|[|[|i]]] a b P Q; cbn in P, Q; try discriminate; injection P as <-; injection Q as <-; lra. }
  assert (U : usable_points [0; 1; 2] [0; 1; 5]).
  { split; [reflexivity|]. split; [cbn; lia|]. apply I. left. reflexivity. }
  exists [0; 1; 2], [0; 1; 5]. split.
  - split; [exact U|]. split; [reflexivity|]. apply I. right. reflexivity.
  - intros m nu du d2u ST.
    destruct (three_points m nu (PArr (vec [0; 1; 2])) (PArr (vec [0; 1; 5])) 0 1 2 [] 0 1 5 [] du d2u eq_refl eq_refl U
      ltac:(lra) ST) as (m' & E & _ & Z).
    exists m'. split; [exact E|]. cbn [hd]. apply Z. unfold parabola_slope. lra.
Qed.
