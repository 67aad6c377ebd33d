(** C173: proofs. *)
From Coq Require Import Reals List String Bool ZArith Lra Lia Sorted.
From Coquelicot Require Import Coquelicot.
From Verif Require Import PyBase PyBaseFacts PPolyModel PchipModel PchipProofs InitialConditionModel CoreModel CoreSpec WorkflowModel WorkflowSpec
  XFoilModel XFoilSpec XFoilProofs XFoilLoadProofs XFoilHistoryProofs XFoilQueryProofs XFoilFlowSpec XFoilFlowProofs
  CaseFlowProofs.
From Verif Require CoreProofs.
Import ListNotations.
Open Scope R_scope.

Lemma at_zero_range v x1 lv x2 : 0 < v -> lv < 0 -> Rmin x1 x2 <= at_zero v x1 lv x2 <= Rmax x1 x2.
Proof.
  intros Hv Hl. unfold at_zero.
  assert (B : 0 < (0 - v) / (lv - v) < 1).
  { replace ((0 - v) / (lv - v)) with (v / (v - lv)) by (field; lra).
    split; [apply Rdiv_lt_0_compat; lra|]. apply (Rmult_lt_reg_r (v - lv)); [lra|].
    unfold Rdiv. rewrite Rmult_assoc, Rinv_l by lra. lra. }
  revert B. generalize ((0 - v) / (lv - v)). intros t B.
  unfold Rmin, Rmax. destruct (Rle_dec x1 x2); split; nra.
Qed.

Lemma at_zero_pos v x1 lv x2 : 0 < v -> lv < 0 -> 0 < x1 -> 0 < x2 -> 0 < at_zero v x1 lv x2.
Proof.
  intros Hv Hl H1 H2. pose proof (at_zero_range v x1 lv x2 Hv Hl) as [B _].
  revert B. unfold Rmin. destruct (Rle_dec x1 x2); lra.
Qed.

Lemma points_gradient m m' xs us du d2u :
  set_velocity pchip_scipy m (PTup [PArr (vec xs); PArr (vec us)]) du d2u = (m', Ok tt) ->
  m_nu m' = m_nu m /\ m_kind m' = m_kind m /\ forall x, exists g, q_du_e m' x = Ok g.
Proof.
  intros E.
  pose proof (CoreProofs.set_velocity_frame pchip_scipy m (PTup [PArr (vec xs); PArr (vec us)]) du d2u) as FR.
  rewrite E in FR. cbn [fst] in FR.
  split; [apply FR|]. split; [apply FR|].
  pose proof (points_velocity_lemma m (PArr (vec xs)) (PArr (vec us)) xs us du d2u eq_refl eq_refl) as [V1 V2].
  destruct (Classical_Prop.classic (usable_points xs us)) as [U|U].
  - destruct (V2 U) as (m2 & V & dV & d2V & E2 & A & _). rewrite E in E2. injection E2 as <-.
    intros x. exists (dV x). apply (A x).
  - rewrite (V1 U) in E. discriminate.
Qed.

Lemma sets_up_head ps nu crit d0 h0 : 0 < nu -> 0 < d0 -> 0 < h0 ->
  (forall m, exists m', set_velocity pchip_scipy m
     (PTup [PArr (vec (map fst ps)); PArr (vec (map snd ps))]) PNone PNone = (m', Ok tt) /\ flows_through m' ps) ->
  exists m m1 m2,
    new_head pchip_scipy (Fin nu) (PTup [PArr (vec (map fst ps)); PArr (vec (map snd ps))]) PNone PNone crit = Ok m /\
    set_initial_delta_m m (Fin d0) = (m1, Ok tt) /\ set_initial_shape_d m1 (Fin h0) = (m2, Ok tt) /\
    m_nu m2 = Fin nu /\ flows_through m2 ps /\ forall x, initial_state m2 x [Fin d0; Fin h0].
Proof.
  intros Hn Hd Hh V. destruct (V (blank_head nu)) as (m' & EV & T & B).
  assert (C : new_head pchip_scipy (Fin nu) (PTup [PArr (vec (map fst ps)); PArr (vec (map snd ps))]) PNone PNone crit
    = Ok (made_head m' crit)) by (apply (head_created _ PNone crit nu m' (Ok tt) Hn); [discriminate|exact EV]).
  destruct (points_gradient _ _ _ _ _ _ EV) as (Nu & Ki & G).
  destruct (head_conditions (made_head m' crit) d0 h0) as (m1 & m2 & E1 & E2 & E3 & G1 & G2);
    [reflexivity|exact Hd|exact Hh|].
  exists (made_head m' crit), m1, m2. split; [exact C|]. split; [exact E1|]. split; [exact E2|].
  split. { rewrite E3. exact Nu. }
  split. { rewrite E3. split; [exact T|exact B]. }
  intros x. destruct (G x) as [g Eg].
  assert (Body : ic_body_of (m_ic m2) = Manual (Fin (h0 * d0)) (Fin d0) (Fin 0)).
  { revert E1. unfold set_initial_delta_m. cbn [xleb]. rewrite Rleb_false by lra. intros E1.
    assert (E1' : set_ic (made_head m' crit) (ic_assign_del_m (m_ic (made_head m' crit)) (Fin d0)) = m1) by congruence.
    rewrite <- E1' in E2. revert E2. unfold set_initial_shape_d. cbn [xleb]. rewrite Rleb_false by lra.
    cbn [get_initial_delta_m m_ic set_ic made_head set_shape_d_critical set_kill_event set_initial_condition set_events
         ic_assign_del_m new_manual ic_body_of ic_delta_m ic_assign_del_d ic_du ic_nu]. rewrite xmul_fin.
    intros E2. injection E2 as E2. rewrite <- E2. reflexivity. }
  rewrite E3 in Body |- *. cbn [m_ic set_ic] in Body.
  apply (initial_state_head _ x g (Fin d0) (Fin h0)).
  - exact Ki.
  - exact Eg.
  - cbn [m_ic set_ic]. rewrite Body. reflexivity.
  - cbn [m_ic set_ic]. rewrite Body. unfold ic_shape_d. cbn [ic_body_of]. rewrite py_div_fin by lra.
    f_equal. f_equal. field. lra.
Qed.

Definition blank_thwaites (k : mkind) (nu : R) : meth :=
  {| m_kind := k; m_nu := Fin nu; m_u := None; m_du := None; m_d2u := None;
     m_ic := {| ic_du := Fin 0; ic_nu := Fin nu; ic_body_of := FSStag |}; m_fit := None; m_events := []; m_sol := None |}.

Lemma sets_up_thwaites cubic (linear : bool) ps nu a f d0 : 0 < nu -> 0 < d0 -> choose_fit cubic a = Ok f ->
  (forall m, exists m', set_velocity pchip_scipy m
     (PTup [PArr (vec (map fst ps)); PArr (vec (map snd ps))]) PNone PNone = (m', Ok tt) /\ flows_through m' ps) ->
  exists m m1,
    new_thwaites pchip_scipy cubic linear (Fin nu) (PTup [PArr (vec (map fst ps)); PArr (vec (map snd ps))]) PNone PNone a = Ok m /\
    set_initial_delta_m m (Fin d0) = (m1, Ok tt) /\
    m_nu m1 = Fin nu /\ flows_through m1 ps /\ forall x, initial_state m1 x [Fin (d0 * d0 / nu)].
Proof.
  intros Hn Hd Ha V. set (k := if linear then ThwaitesLinear else ThwaitesNonlinear).
  assert (Kh : k <> Head) by (unfold k; destruct linear; discriminate).
  destruct (V (blank_thwaites k nu)) as (m' & EV & T & B).
  destruct (points_gradient _ _ _ _ _ _ EV) as (Nu & Ki & G).
  eexists. eexists. split.
  { unfold new_thwaites, new_base, new_fs, ic_set_nu. cbn [xleb]. rewrite Rleb_false by lra.
    cbn [ic_du ic_body_of]. fold k. unfold blank_thwaites in EV. rewrite EV. cbn iota.
    unfold set_data_fits. rewrite Ha. reflexivity. }
  split. { unfold set_initial_delta_m. cbn [xleb]. rewrite Rleb_false by lra. reflexivity. }
  split; [exact Nu|]. split; [split; [exact T|exact B]|].
  intros x. destruct (G x) as [g Eg].
  match goal with |- initial_state ?m _ _ => set (mm := m) end.
  assert (Nm : m_nu mm = Fin nu) by exact Nu.
  replace (Fin (d0 * d0 / nu)) with (Fin d0 * Fin d0 / m_nu mm)%xr
    by (rewrite Nm, xmul_fin; apply xdiv_fin; lra).
  apply (initial_state_thwaites mm x g (Fin d0)).
  - change (m_kind mm) with (m_kind m'). rewrite Ki. exact Kh.
  - exact Eg.
  - reflexivity.
Qed.

Lemma stagnation_column floats read r r1 r2 f b u l t wake pu s1 v s2 lv pl w :
  file_holds floats read f ((b ++ [u]) ++ l :: t) wake ->
  stations (b ++ [u]) (pu ++ [(s1, v)]) -> stations (l :: t) ((s2, lv) :: pl) ->
  (forall p, In p pu -> 0 <= snd p) -> 0 < v -> lv < 0 ->
  set_filename floats read r f = (r1, Ok tt) ->
  do_raction floats read r1 (RSetURef (Fin w)) = (r2, Ok tt) ->
  forall q x1 x2, In q interp_fields -> q u = Fin x1 -> q l = Fin x2 ->
  nth_error (map q (upper_rows r2)) 0 = Some (Fin (at_zero v x1 lv x2)) /\
  nth_error (map q (lower_rows r2)) 0 = Some (Fin (at_zero v x1 lv x2)).
Proof.
  intros FH SU SL PU Hv Hl HL HW.
  assert (Eu : a_u_e_rel u = Fin v).
  { apply Forall2_app_inv_r in SU. destruct SU as (b' & u' & K1 & K2 & K3).
    inversion K2 as [|u'' ? ? ? [_ E2] K4]; subst. inversion K4; subst. apply app_inj_tail in K3.
    destruct K3 as [_ <-]. exact E2. }
  assert (El : a_u_e_rel l = Fin lv) by (inversion SL as [|? ? ? ? [_ E] _]; subst; exact E).
  assert (TS : two_sided (b ++ [u]) (l :: t)).
  { split; [destruct b; discriminate|]. split; [|exists lv; split; assumption].
    apply List.Forall_app. split; [|repeat constructor; exists v; split; [exact Eu|lra]].
    assert (SB : exists q, stations b q /\ forall p, In p q -> 0 <= snd p).
    { apply Forall2_app_inv_l in SU. destruct SU as (q1 & q2 & K1 & K2 & K3). exists q1. split; [exact K1|].
      inversion K2 as [|? q ? ? _ K4]; subst. inversion K4; subst. apply app_inj_tail in K3.
      destruct K3 as [<- _]. exact PU. }
    destruct SB as (q & SB & Q). clear -SB Q.
    induction SB as [|a p b pu [_ E] _ IH]; constructor.
    - exists (snd p). split; [exact E|]. apply Q. left. reflexivity.
    - apply IH. intros z Hz. apply Q. right. exact Hz. }
  assert (V0 : v <> 0) by lra.
  destruct (stagnation_holds _ _ _ _ _ _ _ _ _ _ _ _ FH TS Eu El V0 HL)
    as (stag & s0' & nu' & nl' & E1 & E1' & _ & _ & _ & FI & _).
  assert (LV : last_velocity (b ++ [u]) v) by (exists b, u; split; [reflexivity|exact Eu]).
  destruct (edge_velocity_holds _ _ _ _ _ _ _ _ _ _ _ FH TS LV V0 HL HW) as (_ & _ & _ & RU & RL & _).
  rewrite Forall_forall in FI.
  intros q x1 x2 Hq Q1 Q2. rewrite !nth_error_map, RU, RL, E1, E1'. cbn [option_map].
  rewrite (FI q Hq x1 x2 Q1 Q2). split; reflexivity.
Qed.

Lemma dump_start_lemma floats read r r1 r2 f b u l t wake pu s1 v s2 lv pl w d1 d2 h1 h2 :
  file_holds floats read f ((b ++ [u]) ++ l :: t) wake ->
  stations (b ++ [u]) (pu ++ [(s1, v)]) -> stations (l :: t) ((s2, lv) :: pl) ->
  (forall p, In p pu -> 0 <= snd p) -> 0 < v -> lv < 0 ->
  Sorted Rlt (map fst ((pu ++ [(s1, v)]) ++ (s2, lv) :: pl)) ->
  a_delta_m u = Fin d1 -> a_delta_m l = Fin d2 -> 0 < d1 -> 0 < d2 ->
  a_shape_d u = Fin h1 -> a_shape_d l = Fin h2 -> 0 < h1 -> 0 < h2 ->
  set_filename floats read r f = (r1, Ok tt) ->
  do_raction floats read r1 (RSetURef (Fin w)) = (r2, Ok tt) ->
  exists upper lower d0 h0,
    column (qs_upper r2) (map fst upper) /\ column (qu_e_upper r2) (map snd upper) /\
    column (qs_lower r2) (map fst lower) /\ column (qu_e_lower r2) (map snd lower) /\
    nth_error (qdelta_m_upper r2) 0 = Some (Fin d0) /\ nth_error (qshape_d_upper r2) 0 = Some (Fin h0) /\
    nth_error (qdelta_m_lower r2) 0 = Some (Fin d0) /\ nth_error (qshape_d_lower r2) 0 = Some (Fin h0) /\
    Rmin d1 d2 <= d0 <= Rmax d1 d2 /\ Rmin h1 h2 <= h0 <= Rmax h1 h2 /\
    forall ps nu, ps = upper \/ ps = lower -> 0 < nu ->
      (forall crit, exists m m1 m2,
        new_head pchip_scipy (Fin nu) (PTup [PArr (vec (map fst ps)); PArr (vec (map snd ps))]) PNone PNone crit = Ok m /\
        set_initial_delta_m m (Fin d0) = (m1, Ok tt) /\ set_initial_shape_d m1 (Fin h0) = (m2, Ok tt) /\
        m_nu m2 = Fin nu /\ flows_through m2 ps /\ q_u_e m2 0 = Ok 0 /\
        forall x, initial_state m2 x [Fin d0; Fin h0]) /\
      (forall cubic_spline linear a fit, choose_fit cubic_spline a = Ok fit -> exists m m1,
        new_thwaites pchip_scipy cubic_spline linear (Fin nu)
          (PTup [PArr (vec (map fst ps)); PArr (vec (map snd ps))]) PNone PNone a = Ok m /\
        set_initial_delta_m m (Fin d0) = (m1, Ok tt) /\
        m_nu m1 = Fin nu /\ flows_through m1 ps /\ q_u_e m1 0 = Ok 0 /\
        forall x, initial_state m1 x [Fin (d0 * d0 / nu)]).
Proof.
  intros FH SU SL PU Hv Hl SS Ed1 Ed2 Pd1 Pd2 Eh1 Eh2 Ph1 Ph2 HL HW.
  destruct (surface_velocity_lemma _ _ _ _ _ _ _ _ _ _ _ _ _ _ _ _ FH SU SL PU Hv Hl SS HL HW)
    as (C1 & C2 & C3 & C4 & A).
  pose proof (stagnation_column _ _ _ _ _ _ _ _ _ _ _ _ _ _ _ _ _ _ FH SU SL PU Hv Hl HL HW) as SC.
  destruct (SC a_delta_m d1 d2 ltac:(unfold interp_fields; cbn; tauto) Ed1 Ed2) as [D1 D2].
  destruct (SC a_shape_d h1 h2 ltac:(unfold interp_fields; cbn; tauto) Eh1 Eh2) as [H1 H2].
  exists (upper_points (at_zero v s1 lv s2) w (pu ++ [(s1, v)])),
         (lower_points (at_zero v s1 lv s2) w ((s2, lv) :: pl)),
         (at_zero v d1 lv d2), (at_zero v h1 lv h2).
  split; [exact C1|]. split; [exact C2|]. split; [exact C3|]. split; [exact C4|].
  split; [exact D1|]. split; [exact H1|]. split; [exact D2|]. split; [exact H2|].
  split; [apply at_zero_range; assumption|]. split; [apply at_zero_range; assumption|].
  pose proof (at_zero_pos v d1 lv d2 Hv Hl Pd1 Pd2) as Pd.
  pose proof (at_zero_pos v h1 lv h2 Hv Hl Ph1 Ph2) as Ph.
  intros ps nu Hps Hn.
  assert (V : forall m, exists m', set_velocity pchip_scipy m
     (PTup [PArr (vec (map fst ps)); PArr (vec (map snd ps))]) PNone PNone = (m', Ok tt) /\ flows_through m' ps).
  { intros m. destruct Hps as [->| ->]; apply A. }
  assert (Z : In (0, 0) ps) by (destruct Hps as [->| ->]; left; reflexivity).
  split.
  - intros crit. destruct (sets_up_head ps nu crit _ _ Hn Pd Ph V) as (m & m1 & m2 & K1 & K2 & K3 & K4 & K5 & K6).
    exists m, m1, m2. repeat (split; [assumption|]). split; [apply (proj1 K5); exact Z|exact K6].
  - intros cs linear a fit Hf.
    destruct (sets_up_thwaites cs linear ps nu a fit _ Hn Pd Hf V) as (m & m1 & K1 & K2 & K3 & K4 & K5).
    exists m, m1. repeat (split; [assumption|]). split; [apply (proj1 K4); exact Z|exact K5].
Qed.

Lemma inviscid_start_lemma floats read r r1 r2 f b u l t wake pu s1 v s2 lv pl w :
  file_holds floats read f ((b ++ [u]) ++ l :: t) wake ->
  stations (b ++ [u]) (pu ++ [(s1, v)]) -> stations (l :: t) ((s2, lv) :: pl) ->
  (forall p, In p pu -> 0 <= snd p) -> 0 < v -> lv < 0 ->
  a_delta_m u = Fin 0 -> a_delta_m l = Fin 0 ->
  set_filename floats read r f = (r1, Ok tt) ->
  do_raction floats read r1 (RSetURef (Fin w)) = (r2, Ok tt) ->
  exists d0, nth_error (qdelta_m_upper r2) 0 = Some d0 /\ nth_error (qdelta_m_lower r2) 0 = Some d0 /\
    forall m, set_initial_delta_m m d0 = (m, Err ValueError).
Proof.
  intros FH SU SL PU Hv Hl E1 E2 HL HW. exists (Fin (at_zero v 0 lv 0)).
  destruct (stagnation_column _ _ _ _ _ _ _ _ _ _ _ _ _ _ _ _ _ _ FH SU SL PU Hv Hl HL HW
    a_delta_m 0 0 ltac:(unfold interp_fields; cbn; tauto) E1 E2) as [D1 D2].
  split; [exact D1|]. split; [exact D2|].
  intros m. unfold set_initial_delta_m. cbn [xleb]. rewrite Rleb_true; [reflexivity|].
  unfold at_zero. lra.
Qed.
