(** Proofs about Head's right-hand side and transpiration velocity (C35-C37). *)
From Coq Require Import Reals List Lra Bool.
From Coquelicot Require Import Coquelicot.
From Verif Require Import PyBase PyBaseFacts XDeriv SkinFrictionModel HeadModel HeadProofs
  CoreModel OdeSpec.
Import ListNotations.
Open Scope R_scope.

Lemma ludwieg_fin re h : 0 < re -> exists cf, ludwieg_tillman (Fin re) (Fin h) = Fin cf /\ 0 < cf.
Proof.
  intros H. unfold ludwieg_tillman. rewrite xmul_fin, !xpow_fin by lra. rewrite xmul_fin.
  rewrite xdiv_fin.
  2:{ apply Rgt_not_eq, Rmult_lt_0_compat; apply Rpower_pos. }
  eexists; split; [reflexivity|]. apply Rdiv_lt_0_compat; [lra|].
  apply Rmult_lt_0_compat; apply Rpower_pos.
Qed.

(** H1 and its derivative as real functions. *)
Definition h1R (h : R) : R :=
  match shape_entrainment (Fin h) with Fin y => y | _ => 0 end.
Lemma h1R_eq h : shape_entrainment (Fin h) = Fin (h1R h).
Proof. unfold h1R. destruct (entr_range h) as [y [E _]]. rewrite E. reflexivity. Qed.
Lemma h1R_derive h d : xderiv shape_entrainment h d -> is_derive h1R h d.
Proof.
  intros [g [L D]]. apply (is_derive_ext_loc g); [|exact D].
  generalize L. apply filter_imp. intros y E. unfold h1R. rewrite E. reflexivity.
Qed.
Lemma entr_p_neg h : 11/10 < h -> exists p, shape_entrainment_p (Fin h) = Fin p /\ p < 0.
Proof.
  intros H. destruct (Rle_or_lt h (16/10)) as [L|L].
  - exists (branch_p lo_a lo_b lo_c h). split; [apply entr_p_lo; lra|].
    unfold branch_p. apply Ropp_lt_cancel. rewrite Ropp_0.
    replace (- (- lo_a * lo_c / Rpower (h - lo_b) (lo_c + 1)))
      with ((lo_a * lo_c) / Rpower (h - lo_b) (lo_c + 1)) by (field; apply Rpower_nz).
    apply Rdiv_lt_0_compat; [unfold lo_a, lo_c; lra|apply Rpower_pos].
  - exists (branch_p hi_a hi_b hi_c h). split; [apply entr_p_hi; lra|].
    unfold branch_p. apply Ropp_lt_cancel. rewrite Ropp_0.
    replace (- (- hi_a * hi_c / Rpower (h - hi_b) (hi_c + 1)))
      with ((hi_a * hi_c) / Rpower (h - hi_b) (hi_c + 1)) by (field; apply Rpower_nz).
    apply Rdiv_lt_0_compat; [unfold hi_a, hi_c; lra|apply Rpower_pos].
Qed.
Lemma entr_vel_eq y : exists e, entrainment_velocity (Fin y) = Fin e /\ 0 < e.
Proof. apply entr_vel_pos. Qed.

(** The right-hand side in real numbers, for a regular state. *)
Lemma head_rhs_fin nu u du d h k : 0 < nu -> 1/1000 <= u -> 111/100 <= h -> 0 < d ->
  k = KFloat \/ k = KArray ->
  exists cf e p,
    ludwieg_tillman (Fin (u * d / nu)) (Fin h) = Fin cf /\
    entrainment_velocity (Fin (h1R h)) = Fin e /\
    shape_entrainment_p (Fin h) = Fin p /\ p < 0 /\
    forall k', head_rhs (Fin nu) (ret_val k (Fin u)) (ret_val k' (Fin du)) (Fin d) (Fin h) =
      Ok (Fin (5/10 * cf - d * (2 + h) * du / u),
          Fin ((u * e - u * (5/10 * cf - d * (2 + h) * du / u) * h1R h - du * d * h1R h)
               / (p * u * d))).
Proof.
  intros Hn Hu Hh Hd Hk.
  assert (Hre : 0 < u * d / nu).
  { apply Rdiv_lt_0_compat; [apply Rmult_lt_0_compat; lra|exact Hn]. }
  destruct (ludwieg_fin (u * d / nu) h Hre) as [cf [Ecf Pcf]].
  destruct (entr_vel_eq (h1R h)) as [e [Ee _]].
  destruct (entr_p_neg h) as [p [Ep Hp]]; [lra|].
  exists cf, e, p. repeat (split; [assumption|]). intros k'.
  unfold head_rhs. cbn [xltb]. rewrite Rltb_false by lra. cbv zeta.
  assert (G : ode_u_guard (ret_val k (Fin u)) = Ok (Fin u)).
  { destruct Hk; subst k; cbn [ret_val ode_u_guard xltb xabs].
    - rewrite Rltb_false by lra. reflexivity.
    - rewrite Rltb_false by (rewrite Rabs_pos_eq by lra; lra). reflexivity. }
  rewrite G. cbn [bind].
  assert (V : vel_num (ret_val k' (Fin du)) = Fin du) by (destruct k'; reflexivity).
  rewrite V. rewrite !xmul_fin, (xdiv_fin (u * d) nu) by lra.
  rewrite Ecf, h1R_eq, Ee, Ep. rewrite !xadd_fin, !xmul_fin, xdiv_fin by lra.
  rewrite !xsub_fin, !xmul_fin, !xsub_fin. rewrite xdiv_fin; [reflexivity|].
  assert (p * u * d < 0); [|lra].
  assert (0 < u * d) by (apply Rmult_lt_0_compat; lra).
  replace (p * u * d) with (- (- p * (u * d))) by ring.
  assert (0 < - p * (u * d)) by (apply Rmult_lt_0_compat; lra). lra.
Qed.

Definition float_or_array (m : meth) : Prop := slot_kind (m_u m) <> KInt.

Lemma locally_here (P : R -> Prop) x : locally x P -> P x.
Proof. apply locally_singleton. Qed.

Lemma head_ode_lemma m nu U dU d h x :
  m_kind m = Head -> m_nu m = Fin nu -> 0 < nu -> float_or_array m ->
  velocity_at m U dU x -> solves2_at m d h x ->
  1/1000 <= U x -> 111/100 <= h x -> 0 < d x ->
  exists cf e : R, exists H1 : R -> R,
    ludwieg_tillman (Fin (U x * d x / nu)) (Fin (h x)) = Fin cf /\
    (forall v, shape_entrainment (Fin v) = Fin (H1 v)) /\
    entrainment_velocity (Fin (H1 (h x))) = Fin e /\
    Derive d x + (2 + h x) * (d x / U x) * dU = cf / 2 /\
    (h x <> 16/10 -> is_derive (fun t => U t * d t * H1 (h t)) x (U x * e)).
Proof.
  intros Km Kn Pn Hk [LU [DU QD]] [v [w [ER [Dd Dh]]]] HU Hh Hd.
  assert (Kk : slot_kind (m_u m) = KFloat \/ slot_kind (m_u m) = KArray).
  { unfold float_or_array in Hk. destruct (slot_kind (m_u m)); auto. congruence. }
  destruct (head_rhs_fin nu (U x) dU (d x) (h x) _ Pn HU Hh Hd Kk) as [cf [e [p [Ecf [Ee [Ep [Pp RHS]]]]]]].
  exists cf, e, h1R. split; [assumption|]. split; [apply h1R_eq|]. split; [assumption|].
  assert (QU := locally_here _ _ LU).
  unfold ode_impl in ER. rewrite Km, QU, QD in ER. cbn [bind] in ER.
  rewrite Kn, RHS in ER. cbn [bind fst snd] in ER. injection ER as E1 E2.
  split.
  - rewrite (is_derive_unique _ _ _ Dd). rewrite <- E1. field. lra.
  - intros Hn.
    destruct (entrainment_derivative_lemma (h x)) as [p' [Ep' [_ XD]]]; [lra|assumption|].
    rewrite Ep in Ep'. injection Ep' as <-. apply h1R_derive in XD.
    assert (DH : is_derive (fun t => h1R (h t)) x (w * p)).
    { apply (is_derive_comp h1R h x p w XD Dh). }
    assert (D1 : is_derive (fun t => U t * d t) x (dU * d x + U x * v)).
    { apply (is_derive_mult U d x dU v DU Dd). intros; apply Rmult_comm. }
    assert (D2 : is_derive (fun t => U t * d t * h1R (h t)) x
                   ((dU * d x + U x * v) * h1R (h x) + U x * d x * (w * p))).
    { apply (is_derive_mult (fun t => U t * d t) (fun t => h1R (h t)) x _ _ D1 DH).
      intros; apply Rmult_comm. }
    replace (U x * e) with ((dU * d x + U x * v) * h1R (h x) + U x * d x * (w * p)); [exact D2|].
    rewrite <- E2, <- E1. field. repeat split; lra.
Qed.

Lemma head_ve_lemma m U dU d h x :
  m_kind m = Head ->
  velocity_at m U dU x -> solves2_at m d h x -> stored2_at m d h x ->
  exists v, exists dd : R -> R, q_v_e m x = Ok (Fin v) /\
    locally x (fun t => q_delta_d m t = Ok (Fin (dd t))) /\
    is_derive (fun t => U t * dd t) x v.
Proof.
  intros Km [LU [DU QD]] [v [w [ER [Dd Dh]]]] [f [SE SL]].
  assert (QU := locally_here _ _ LU). assert (Sx := locally_here _ _ SL).
  unfold ode_impl in ER. rewrite Km, QU, QD in ER. cbn [bind] in ER.
  destruct (head_rhs (m_nu m) (ret_val (slot_kind (m_u m)) (Fin (U x)))
              (ret_val (slot_kind (m_du m)) (Fin dU)) (Fin (d x)) (Fin (h x)))
    as [[y1 y2]|] eqn:RH; [|discriminate].
  cbn [bind fst snd] in ER. injection ER as -> ->.
  exists (dU * h x * d x + U x * w * d x + U x * h x * v), (fun t => d t * h t).
  split; [|split].
  - unfold q_v_e, sol_at. rewrite SE. cbn [bind]. rewrite Km. rewrite Sx, QU, QD. cbn [bind].
    unfold head_v_e. rewrite RH. cbn [bind fst snd].
    assert (V : forall k r, vel_num (ret_val k r) = r) by (intros [] r; reflexivity).
    rewrite !V, !xmul_fin, !xadd_fin. reflexivity.
  - generalize SL. apply filter_imp. intros t Et.
    unfold q_delta_d, q_delta_m, q_shape_d, sol_at. rewrite SE. cbn [bind]. rewrite Km, Et.
    cbn. reflexivity.
  - assert (D1 : is_derive (fun t => d t * h t) x (v * h x + d x * w)).
    { apply (is_derive_mult d h x v w Dd Dh). intros; apply Rmult_comm. }
    assert (D2 : is_derive (fun t => U t * (d t * h t)) x
       (dU * (d x * h x) + U x * (v * h x + d x * w))).
    { apply (is_derive_mult U (fun t => d t * h t) x dU _ DU D1). intros; apply Rmult_comm. }
    replace (dU * h x * d x + U x * w * d x + U x * h x * v)
      with (dU * (d x * h x) + U x * (v * h x + d x * w)) by ring.
    exact D2.
Qed.

(** ** C37 *)
Lemma rhs_form_lemma nu u du d h k' : - (1/1000) < u ->
  head_rhs nu (VFloat (Fin u)) (ret_val k' (Fin du)) d h
  = head_rhs nu (VArray (Fin u)) (ret_val k' (Fin du)) d h.
Proof. intros H. unfold head_rhs. rewrite guard_same by assumption. reflexivity. Qed.

(** The same callable, handing its values back in another form. *)
Definition returning (k : retkind) (c : callable) : callable :=
  {| c_fun := c_fun c; c_ret := k; c_deriv := c_deriv c |}.

Lemma call_form_lemma pchip m c du d2u m1 m2 x y :
  m_kind m = Head ->
  set_velocity pchip m (PCall (returning KFloat c)) du d2u = (m1, Ok tt) ->
  set_velocity pchip m (PCall (returning KArray c)) du d2u = (m2, Ok tt) ->
  - (1/1000) < c_fun c x ->
  ode_impl m1 x y = ode_impl m2 x y.
Proof.
  intros Km E1 E2 H. cbn [set_velocity] in E1, E2.
  assert (S : m_kind m1 = Head /\ m_kind m2 = Head /\ m_nu m1 = m_nu m2 /\
              m_u m1 = Some (VF (c_fun c) KFloat) /\ m_u m2 = Some (VF (c_fun c) KArray) /\
              q_du_e m1 x = q_du_e m2 x).
  { unfold set_velocity_callable, returning in E1, E2. cbn [c_fun c_ret c_deriv] in E1, E2.
    destruct du; try discriminate;
    destruct d2u; try discriminate;
    repeat (match goal with
            | H : context [match c_deriv ?c with _ => _ end] |- _ => destruct (c_deriv c)
            | H : context [match ?f ?n with Ok _ => _ | Err _ => _ end] |- _ => destruct (f n)
            end; try discriminate);
    injection E1 as <-; injection E2 as <-; cbn; rewrite Km; repeat split; reflexivity. }
  destruct S as [K1 [K2 [N [U1 [U2 D]]]]].
  unfold ode_impl. rewrite K1, K2. destruct y as [|d [|h [|]]]; try reflexivity.
  unfold q_u_e. rewrite U1, U2. cbn [bind call_plain]. rewrite D, N.
  destruct (q_du_e m2 x) as [g|e]; [|reflexivity]. cbn [bind slot_kind].
  cbn [ret_val]. f_equal. unfold head_rhs. rewrite (guard_same _ H).
  assert (V : forall k r, vel_num (ret_val k r) = r) by (intros [] r; reflexivity).
  rewrite !V. reflexivity.
Qed.

Lemma xpow_neg_nan : xpow (Fin (-1)) (Fin (268/1000)) = NaN.
Proof.
  unfold xpow. destruct (Req_EM_T (268/1000) 0); [lra|]. destruct (Rlt_dec 0 (-1)); [lra|].
  destruct (Req_EM_T (-1) 0); [lra|]. destruct (Req_EM_T (frac_part (268/1000)) 0) as [E|E]; [|reflexivity].
  exfalso. unfold frac_part in E. assert (E1 : IZR (Int_part (268/1000)) = 268/1000) by lra.
  assert (0 < IZR (Int_part (268/1000)) < 1) by lra.
  destruct H as [A B]. apply lt_IZR in A. apply lt_IZR in B. 
  destruct (Int_part (268/1000)) as [|q|q]; try discriminate.
  destruct q; discriminate.
Qed.

(** HeadMethod(nu=1, U_e=lambda x: -1, dU_e=lambda x: 0), by the form of the returned value. *)
Definition w_rev (k : retkind) : meth :=
  {| m_kind := Head; m_nu := Fin 1; m_u := Some (VF (fun _ => -1) k);
     m_du := Some (VF (fun _ => 0) KFloat); m_d2u := Some VFd1DU;
     m_ic := InitialConditionModel.new_manual PInf PInf (Fin 0); m_fit := None;
     m_events := [head_sep_event (Fin (24/10))]; m_sol := None |}.
Lemma w_rev_new pchip k :
  new_head pchip (Fin 1)
    (PCall {| c_fun := fun _ => -1; c_ret := k; c_deriv := None |})
    (PCall {| c_fun := fun _ => 0; c_ret := KFloat; c_deriv := None |}) PNone (Fin (24/10))
   = Ok (w_rev k).
Proof.
  unfold new_head, new_base, InitialConditionModel.new_fs, InitialConditionModel.ic_set_nu. cbn [xleb].
  rewrite Rleb_false by lra. reflexivity.
Qed.
Lemma w_rev_rhs :
  (exists v w, ode_impl (w_rev KFloat) 0 [Fin 1; Fin 2] = Ok [Fin v; Fin w]) /\
  (exists w, ode_impl (w_rev KArray) 0 [Fin 1; Fin 2] = Ok [NaN; w]) /\
  ode_impl (w_rev KInt) 0 [Fin 1; Fin 2] = Err TypeError.
Proof.
  split; [|split].
  - destruct (head_rhs_fin 1 (1/1000) 0 1 2 KFloat) as [cf [e [p [_ [_ [_ [_ R]]]]]]]; try lra; [auto|].
    specialize (R KFloat). do 2 eexists.
    unfold ode_impl. cbn [m_kind w_rev q_u_e q_du_e m_u m_du call_plain call_du bind slot_kind m_nu].
    cbn [ret_val] in R |- *.
    assert (G : head_rhs (Fin 1) (VFloat (Fin (-1))) (VFloat (Fin 0)) (Fin 1) (Fin 2)
              = head_rhs (Fin 1) (VFloat (Fin (1/1000))) (VFloat (Fin 0)) (Fin 1) (Fin 2)).
    { unfold head_rhs. cbn [ode_u_guard xltb]. rewrite (Rltb_true (-1)), (Rltb_false (1/1000) (1/1000)) by lra.
      reflexivity. }
    rewrite G, R. reflexivity.
  - eexists. unfold ode_impl.
    cbn [m_kind w_rev q_u_e q_du_e m_u m_du call_plain call_du bind slot_kind m_nu ret_val].
    unfold head_rhs. cbn [ode_u_guard xltb xabs].
    rewrite (Rltb_false (Rabs (-1))).
    2:{ rewrite Rabs_left by lra. lra. }
    rewrite (Rltb_false 2) by lra. cbn [bind fst snd].
    rewrite xmul_fin, xdiv_fin by lra. replace (-1 * 1 / 1) with (-1) by field.
    unfold ludwieg_tillman. rewrite xpow_neg_nan. reflexivity.
  - reflexivity.
Qed.
