(** Properties C47-C57, C77, C78: similarity solutions (Blasius, Falkner-Skan).

    [qs_u_e], [qs_v_e], [q_u], [q_v], [q_eta], [qs_delta_d], ... are the public methods of the
    same names.  The derivatives in the statements are those of [rderiv] and [rderiv2]
    (SimilaritySpec.v), which determine their value ([rderiv_unique], [rderiv2_unique]). *)
From Coq Require Import Reals List Lra Bool Lia.
From Coquelicot Require Import Coquelicot.
From Verif Require Import PyBase PyBaseFacts SimilarityModel SimilaritySpec SimilarityProofs
  SimilarityIntegralProofs SimilarityHistoryProofs SimilarityFlowProofs SearchSpec SearchProofs.
Import ListNotations.
Open Scope R_scope.

(** The objects a user builds are those the theorems below speak about. *)
Theorem constructed_objects : forall ivp quad bisect U N w e o,
  (new_blasius ivp quad bisect (Fin U) (Fin N) w e = Ok o ->
   flow o 0 U N /\ solved ivp quad bisect o) /\
  (forall b, b < 2 -> new_falkner_skan ivp quad bisect (Fin b) (Fin U) (Fin N) w e = Ok o ->
   flow o b U N /\ solved ivp quad bisect o) /\
  (forall b cs, new_falkner_skan ivp quad bisect (Fin b) (Fin U) (Fin N) w e = Ok o ->
   List.Forall finite_call cs ->
   s_beta (do_scalls ivp quad bisect o cs) = Fin 2 \/
   exists b' U' N', flow (do_scalls ivp quad bisect o cs) b' U' N').
Proof.
  intros ivp quad bisect U N w e o. split; [apply blasius_flow|].
  split; [intros b; apply falkner_skan_flow|intros b cs; apply history_flow].
Qed.
Print Assumptions constructed_objects.

(** A concrete object for the examples: beta = 2/3 and the exact solution f = -t^3/9. *)
Definition ex_ivp (f : triple -> triple) (t : xr) (y : triple) : res ivp3 :=
  Ok {| i_success := true; i_last := (Fin 0, Fin 1, Fin 0);
        i_sol := fun t => match t with
                 | Fin t => (Fin (- (t*t*t)/9), Fin (- (t*t)/3), Fin (- (2*t)/3))
                 | _ => (NaN, NaN, NaN) end |}.
Definition ex_quad (q : xr -> res xr) (b : xr) : res xr :=
  match b with
  | Fin b => Ok (Fin (RInt (fun t => match q (Fin t) with Ok (Fin r) => r | _ => 0 end) 0 b))
  | _ => Err ValueError
  end.
Definition ex_bisect (q : xr -> res xr) (b : xr) : res (bool * xr) := Ok (true, Fin 0).
Definition ex_F0 (t : R) : R := - (t*t*t)/9.
Definition ex_F1 (t : R) : R := - (t*t)/3.
Definition ex_F2 (t : R) : R := - (2*t)/3.

Lemma ex_built : exists o,
  new_falkner_skan ex_ivp ex_quad ex_bisect (Fin (2/3)) (Fin 10) (Fin (1/100)) (Some (Fin 1)) (Some (Fin 3)) = Ok o
  /\ s_eta_inf o = Fin 3
  /\ s_f o = Some (fun t => match t with
                 | Fin t => (Fin (- (t*t*t)/9), Fin (- (t*t)/3), Fin (- (2*t)/3))
                 | _ => (NaN, NaN, NaN) end).
Proof.
  unfold new_falkner_skan.
  assert (R : beta_rejected (Fin (2/3)) = false) by (apply beta_rejected_fin; unfold beta_min; lra).
  rewrite R. unfold new_sim. cbn [xleb]. rewrite !Rleb_false by lra.
  unfold set_solution_parameters. cbn [bad_positive xleb]. rewrite !Rleb_false by lra.
  unfold calculate_solution. cbn [search snd].
  cbn [ex_ivp i_success i_sol].
  cbn [q_f s_f sim_with_f s_eta_inf sim_with_eta_inf t0 fst].
  cbn [q_fw_pp q_f_pp s_f sim_with_eta_d sim_with_f bind s_beta s_alpha s_eta_d sim_with_eta_inf t2 snd].
  rewrite !xsub_fin, !xadd_fin, !xmul_fin, !xsub_fin, py_div_fin by lra.
  cbn [ex_quad s_eta_inf sim_with_eta_m sim_with_eta_d sim_with_f sim_with_eta_inf].
  cbn [ex_bisect]. eexists. split; [reflexivity|]. split; reflexivity.
Qed.

Lemma ex_object : exists o, flow o (2/3) 10 (1/100) /\ solved ex_ivp ex_quad ex_bisect o /\
  profile_on o ex_F0 ex_F1 ex_F2 3 /\
  (forall t, profile_near o ex_F0 ex_F1 ex_F2 t) /\
  (forall t, is_derive ex_F0 t (ex_F1 t)) /\ (forall t, is_derive ex_F1 t (ex_F2 t)) /\
  (forall t, falkner_skan_at (2/3) ex_F0 ex_F1 ex_F2 t).
Proof.
  destruct ex_built as (o & B & Ei & Ef). exists o.
  apply falkner_skan_flow in B; [|lra]. destruct B as [Fl So].
  assert (D0 : forall t, is_derive ex_F0 t (ex_F1 t)).
  { intros t. unfold ex_F0, ex_F1. auto_derive; [exact I|field]. }
  assert (D1 : forall t, is_derive ex_F1 t (ex_F2 t)).
  { intros t. unfold ex_F1, ex_F2. auto_derive; [exact I|field]. }
  split; [exact Fl|]. split; [exact So|]. split.
  - split; [exact Ei|]. split; [lra|]. split; [|split; intros t _; [apply D0|apply D1]].
    eexists. split; [exact Ef|]. intros t _. reflexivity.
  - split; [|split; [exact D0|split; [exact D1|]]].
    + intros t. eexists. split; [exact Ef|]. apply filter_forall. intros y. reflexivity.
    + intros t. unfold falkner_skan_at, ex_F0, ex_F1, ex_F2. auto_derive; [exact I|field].
Qed.

(* ---------------------------------------------------------------- C47 *)
Theorem similarity_continuity : forall o beta u_ref nu_ref F0 F1 F2 x y eta f2,
  flow o beta u_ref nu_ref -> 0 < x -> q_eta o x y = Ok (Fin eta) ->
  profile_near o F0 F1 F2 eta ->
  is_derive F0 eta (F1 eta) -> is_derive F1 eta f2 ->
  exists ux vy, rderiv (fun t => q_u o t y) x ux /\ rderiv (fun t => q_v o x t) y vy /\
                ux + vy = 0.
Proof.
  intros o b U N F0 F1 F2 x y eta f2 F Hx E. rewrite (eta_val o b U N F x y Hx) in E.
  apply (f_equal (fun r => match r with Ok (Fin z) => z | _ => 0 end)) in E. cbv beta iota in E.
  subst eta. intros P D0 D1. exact (continuity_equation_lem o b U N F F0 F1 F2 x y f2 Hx P D0 D1).
Qed.
Print Assumptions similarity_continuity.

(* ---------------------------------------------------------------- C48 *)
Theorem similarity_momentum : forall o beta u_ref nu_ref F0 F1 F2 x y eta,
  flow o beta u_ref nu_ref -> 0 < x -> q_eta o x y = Ok (Fin eta) ->
  profile_near o F0 F1 F2 eta ->
  is_derive F0 eta (F1 eta) -> locally eta (fun t => is_derive F1 t (F2 t)) ->
  falkner_skan_at beta F0 F1 F2 eta ->
  exists u v ux uy uyy ue due,
    q_u o x y = Ok (Fin u) /\ q_v o x y = Ok (Fin v) /\ qs_u_e o x = Ok (Fin ue) /\
    rderiv (fun t => q_u o t y) x ux /\ rderiv (fun t => q_u o x t) y uy /\
    rderiv2 (fun t => q_u o x t) y uyy /\ rderiv (qs_u_e o) x due /\
    u * ux + v * uy = ue * due + nu_ref * uyy.
Proof.
  intros o b U N F0 F1 F2 x y eta F Hx E. rewrite (eta_val o b U N F x y Hx) in E.
  apply (f_equal (fun r => match r with Ok (Fin z) => z | _ => 0 end)) in E. cbv beta iota in E.
  subst eta. intros P D0 D1 D2. exact (momentum_equation_lem o b U N F F0 F1 F2 x y Hx P D0 D1 D2).
Qed.
Print Assumptions similarity_momentum.

Theorem derivatives_determined : forall q x d1 d2,
  (rderiv q x d1 -> rderiv q x d2 -> d1 = d2) /\ (rderiv2 q x d1 -> rderiv2 q x d2 -> d1 = d2).
Proof. exact (fun q x d1 d2 => conj (rderiv_unique q x d1 d2) (rderiv2_unique q x d1 d2)). Qed.
Print Assumptions derivatives_determined.

(** The ODE integrated by the code is the one of [falkner_skan_at], and the equation searched
    over is the same one in the coordinate eta/eta_inf. *)
Theorem integrated_equation : forall beta f fp fpp e,
  sim_rhs (Fin 1) (Fin beta) (Fin 1) (Fin f, Fin fp, Fin fpp)
    = (Fin fp, Fin fpp, Fin (- (f * fpp + beta * (1 - fp * fp)))) /\
  sim_rhs_scaled (Fin 1) (Fin beta) (Fin 1) (Fin e) (Fin f, Fin fp, Fin fpp)
    = (Fin (e * fp), Fin (e * fpp), Fin (e * - (f * fpp + beta * (1 - fp * fp)))).
Proof.
  intros. unfold sim_rhs, sim_rhs_scaled. cbn [t0 t1 t2 fst snd].
  repeat (rewrite ?xsub_fin, ?xmul_fin, ?xadd_fin, ?xneg_fin).
  split; (apply f_equal2; [reflexivity|]); apply f_equal; ring.
Qed.
Print Assumptions integrated_equation.

Example similarity_equations_case : exists o F0 F1 F2,
  flow o (2/3) 10 (1/100) /\ (forall t, profile_near o F0 F1 F2 t) /\
  (forall t, is_derive F0 t (F1 t)) /\ (forall t, is_derive F1 t (F2 t)) /\
  (forall t, falkner_skan_at (2/3) F0 F1 F2 t) /\
  (forall x y, 0 < x -> exists eta, q_eta o x y = Ok (Fin eta)).
Proof.
  destruct ex_object as (o & A & B & C & D & E & G & H). exists o, ex_F0, ex_F1, ex_F2.
  repeat (split; [assumption|]). intros x y Hx. eexists. exact (eta_val o _ _ _ A x y Hx).
Qed.

(* ---------------------------------------------------------------- C49 *)
Theorem similarity_wall : forall o beta u_ref nu_ref F0 F1 F2 x rho,
  flow o beta u_ref nu_ref -> 0 < x -> profile_near o F0 F1 F2 0 ->
  F0 0 = 0 -> F1 0 = 0 -> is_derive F1 0 (F2 0) ->
  q_u o x 0 = Ok (Fin 0) /\ q_v o x 0 = Ok (Fin 0) /\
  exists uy, rderiv (fun t => q_u o x t) 0 uy /\
             qs_tau_w o x (Fin rho) = Ok (Fin (rho * nu_ref * uy)).
Proof. intros o b U N F0 F1 F2 x rho F. exact (wall_lem o b U N F F0 F1 F2 x rho). Qed.
Print Assumptions similarity_wall.

Example similarity_wall_case : exists o, flow o (2/3) 10 (1/100) /\
  profile_near o ex_F0 ex_F1 ex_F2 0 /\ ex_F0 0 = 0 /\ ex_F1 0 = 0 /\ is_derive ex_F1 0 (ex_F2 0).
Proof.
  destruct ex_object as (o & A & B & C & D & E & G & H). exists o.
  split; [exact A|]. split; [apply D|]. split; [unfold ex_F0; field|].
  split; [unfold ex_F1; field|apply G].
Qed.

(* ---------------------------------------------------------------- C50 *)
Theorem similarity_transpiration : forall o beta u_ref nu_ref x eta_d,
  flow o beta u_ref nu_ref -> 0 < x -> s_eta_d o = Fin eta_d ->
  exists v, qs_v_e o x = Ok (Fin v) /\
    rderiv (fun t => bind (qs_u_e o t) (fun ue => bind (qs_delta_d o t) (fun dd =>
              Ok (ue * dd)%xr))) x v.
Proof. intros o b U N x d F. exact (transpiration_lem o b U N F x d). Qed.
Print Assumptions similarity_transpiration.

Example similarity_transpiration_case : exists o d, flow o (2/3) 10 (1/100) /\ s_eta_d o = Fin d.
Proof.
  destruct ex_object as (o & A & B & C & _). exists o. eexists. split; [exact A|].
  exact (eta_d_val _ _ _ o ex_F0 ex_F1 ex_F2 3 B C).
Qed.

(* ---------------------------------------------------------------- C51 *)
Theorem displacement_integral : forall ivp quad bisect o beta u_ref nu_ref F0 F1 F2 E x Y,
  solved ivp quad bisect o -> flow o beta u_ref nu_ref -> profile_on o F0 F1 F2 E -> F0 0 = 0 ->
  0 < x -> q_eta o x Y = Ok (Fin E) ->
  s_eta_d o = Fin (RInt (fun t => 1 - F1 t) 0 E) /\
  exists ue u, qs_u_e o x = Ok (Fin ue) /\
    (forall y, 0 <= y <= Y -> q_u o x y = Ok (Fin (u y))) /\
    qs_delta_d o x = Ok (Fin (RInt (fun y => 1 - u y / ue) 0 Y)).
Proof.
  intros i q s o b U N F0 F1 F2 E x Y A B C D G H.
  exact (displacement_lem i q s o b U N F0 F1 F2 E A B C D x Y G H).
Qed.
Print Assumptions displacement_integral.

(* ---------------------------------------------------------------- C52 *)
Theorem momentum_thickness_integral : forall ivp quad bisect o beta u_ref nu_ref F0 F1 F2 E x Y,
  solved ivp quad bisect o -> flow o beta u_ref nu_ref -> profile_on o F0 F1 F2 E -> F0 0 = 0 ->
  0 < x -> q_eta o x Y = Ok (Fin E) ->
  (forall t, 0 <= t <= E -> falkner_skan_at beta F0 F1 F2 t) ->
  s_eta_m o = Fin (RInt (fun t => F1 t * (1 - F1 t)) 0 E
                   + (F2 E + F0 E * (F1 E - 1)) / (1 + beta)) /\
  exists ue u, qs_u_e o x = Ok (Fin ue) /\
    (forall y, 0 <= y <= Y -> q_u o x y = Ok (Fin (u y))) /\
    qs_delta_m o x = Ok (Fin (RInt (fun y => u y / ue * (1 - u y / ue)) 0 Y
                     + Y / E * ((F2 E + F0 E * (F1 E - 1)) / (1 + beta)))).
Proof.
  intros i q s o b U N F0 F1 F2 E x Y A B C D G H K.
  exact (momentum_thickness_lem i q s o b U N F0 F1 F2 E A B C D x Y G H K).
Qed.
Print Assumptions momentum_thickness_integral.

(* ---------------------------------------------------------------- C53 *)
Theorem dissipation_integral : forall ivp quad bisect o beta u_ref nu_ref F0 F1 F2 E x Y rho,
  solved ivp quad bisect o -> flow o beta u_ref nu_ref -> profile_on o F0 F1 F2 E -> F0 0 = 0 ->
  0 < x -> q_eta o x Y = Ok (Fin E) ->
  (forall t, 0 <= t <= E -> falkner_skan_at beta F0 F1 F2 t) -> F1 0 = 0 -> exact_quad quad ->
  exists ue uy, qs_u_e o x = Ok (Fin ue) /\
    (forall y, 0 < y < Y -> rderiv (fun t => q_u o x t) y (uy y)) /\
    qs_dissipation o x (Fin rho) =
      Ok (Fin (rho * nu_ref * (RInt (fun y => uy y * uy y) 0 Y
        - ue * ue * (E / Y) * (F1 E * F2 E + beta * F0 E * (1 - F1 E * F1 E))))).
Proof.
  intros i q s o b U N F0 F1 F2 E x Y rho A B C D G H K L M.
  exact (dissipation_lem i q s o b U N F0 F1 F2 E A B C D x Y G H K L M rho).
Qed.
Print Assumptions dissipation_integral.

(* ---------------------------------------------------------------- C77 *)
Theorem kinetic_energy_integral : forall ivp quad bisect o beta F0 F1 F2 E,
  solved ivp quad bisect o -> profile_on o F0 F1 F2 E -> F0 0 = 0 ->
  (forall t, 0 <= t <= E -> falkner_skan_at beta F0 F1 F2 t) -> exact_quad quad ->
  s_eta_k o = Fin (RInt (fun t => F1 t * (1 - F1 t * F1 t)) 0 E - F0 E * (1 - F1 E * F1 E)).
Proof.
  intros i q s o b F0 F1 F2 E A C D K M.
  exact (energy_eta i q s o b F0 F1 F2 E A C D K M).
Qed.
Print Assumptions kinetic_energy_integral.

Lemma ex_quad_exact : exact_quad ex_quad.
Proof.
  intros q g b Hb H _. unfold ex_quad. do 2 f_equal. apply RInt_ext. intros t.
  rewrite Rmin_left, Rmax_right by exact Hb. intros Ht. rewrite H by lra. reflexivity.
Qed.

Example similarity_integrals_case : exists o x Y, flow o (2/3) 10 (1/100) /\
  solved ex_ivp ex_quad ex_bisect o /\ profile_on o ex_F0 ex_F1 ex_F2 3 /\ ex_F0 0 = 0 /\
  ex_F1 0 = 0 /\ (forall t, 0 <= t <= 3 -> falkner_skan_at (2/3) ex_F0 ex_F1 ex_F2 t) /\
  exact_quad ex_quad /\ 0 < x /\ q_eta o x Y = Ok (Fin 3).
Proof.
  destruct ex_object as (o & A & B & C & D & E & G & H). exists o, 1, (3 / GG (2/3) 10 (1/100) 1).
  split; [exact A|]. split; [exact B|]. split; [exact C|]. split; [unfold ex_F0; field|].
  split; [unfold ex_F1; field|]. split; [intros t _; apply H|]. split; [exact ex_quad_exact|].
  split; [lra|]. rewrite (eta_val o _ _ _ A 1 _ ltac:(lra)).
  pose proof (GG_pos o _ _ _ A 1 ltac:(lra)). do 2 f_equal. field. lra.
Qed.

(* ---------------------------------------------------------------- C78 *)
Theorem shear_thickness : forall ivp quad bisect o beta u_ref nu_ref F0 F1 F2 E x Y,
  solved ivp quad bisect o -> flow o beta u_ref nu_ref -> profile_on o F0 F1 F2 E ->
  0 < x -> q_eta o x Y = Ok (Fin E) -> exact_bisect bisect ->
  exists d ue, qs_delta_s o x = Ok (Fin d) /\ 0 <= d <= Y /\ qs_u_e o x = Ok (Fin ue) /\
    q_u o x d = Ok (Fin (99/100 * ue)).
Proof.
  intros i q s o b U N F0 F1 F2 E x Y A B C D G H.
  exact (shear_thickness_lem i q s o b U N F0 F1 F2 E A B C x Y D G H).
Qed.
Print Assumptions shear_thickness.

(** An exact root finder for the profile f' = t on [0, 1]. *)
Definition lin_ivp (f : triple -> triple) (t : xr) (y : triple) : res ivp3 :=
  Ok {| i_success := true; i_last := (Fin 0, Fin 1, Fin 0);
        i_sol := fun t => match t with
                 | Fin t => (Fin (t*t/2), Fin t, Fin 1)
                 | _ => (NaN, NaN, NaN) end |}.
Definition lin_bisect (q : xr -> res xr) (b : xr) : res (bool * xr) :=
  match q (Fin (99/100)) with
  | Ok (Fin r) => if Req_EM_T r 0 then
                    if xleb (Fin (99/100)) b then Ok (true, Fin (99/100)) else Err ValueError
                  else Err ValueError
  | _ => Err ValueError
  end.

Example shear_thickness_case : exact_bisect lin_bisect /\
  exists o F0 F1 F2, flow o 0 10 (1/100) /\ solved lin_ivp ex_quad lin_bisect o /\
    profile_on o F0 F1 F2 1.
Proof.
  split.
  { intros q b r. unfold lin_bisect. destruct (q (Fin (99/100))) as [[v| | |]|] eqn:Eq; try discriminate.
    destruct (Req_EM_T v 0) as [->|]; [|discriminate].
    destruct (xleb (Fin (99/100)) b) eqn:L; [|discriminate].
    intros H. inversion H; subst r. exists (99/100). split; [reflexivity|].
    split; [cbn [xleb]; apply Rleb_true; lra|]. split; [exact L|exact Eq]. }
  assert (B : exists o, new_blasius lin_ivp ex_quad lin_bisect (Fin 10) (Fin (1/100)) (Some (Fin 1)) (Some (Fin 1)) = Ok o
    /\ s_eta_inf o = Fin 1
    /\ s_f o = Some (fun t => match t with
                 | Fin t => (Fin (t*t/2), Fin t, Fin 1)
                 | _ => (NaN, NaN, NaN) end)).
  { unfold new_blasius. cbn [fst snd]. unfold new_sim. cbn [xleb]. rewrite !Rleb_false by lra.
    unfold set_solution_parameters. cbn [bad_positive xleb]. rewrite !Rleb_false by lra.
    unfold calculate_solution. cbn [search snd]. cbn [lin_ivp i_success i_sol].
    cbn [q_f s_f sim_with_f s_eta_inf sim_with_eta_inf t0 fst].
    cbn [q_fw_pp q_f_pp s_f sim_with_eta_d sim_with_f bind s_beta s_alpha s_eta_d sim_with_eta_inf t2 snd].
    rewrite !xsub_fin, !xadd_fin, !xmul_fin, !xsub_fin, py_div_fin by lra.
    cbn [ex_quad s_eta_inf sim_with_eta_m sim_with_eta_d sim_with_f sim_with_eta_inf].
    unfold lin_bisect. cbn [s_fun q_f_p s_f sim_with_eta_k sim_with_eta_m sim_with_eta_d sim_with_f bind t1 fst snd].
    rewrite xsub_fin. destruct (Req_EM_T (99/100 - 99/100) 0) as [_|K]; [|exfalso; apply K; ring].
    cbn [s_eta_inf sim_with_eta_k sim_with_eta_m sim_with_eta_d sim_with_f sim_with_eta_inf xleb].
    rewrite Rleb_true by lra. eexists. split; [reflexivity|]. split; reflexivity. }
  destruct B as (o & B & Ei & Ef). apply blasius_flow in B. destruct B as [Fl So].
  exists o, (fun t => t*t/2), (fun t => t), (fun _ => 1). split; [exact Fl|]. split; [exact So|].
  split; [exact Ei|]. split; [lra|]. split; [eexists; split; [exact Ef|intros; reflexivity]|].
  split; intros t _; auto_derive; try exact I; field.
Qed.

(* ---------------------------------------------------------------- C54 *)
Theorem shape_factors_constant : forall o beta u_ref nu_ref x d m k,
  flow o beta u_ref nu_ref -> 0 < x ->
  s_eta_d o = Fin d -> s_eta_m o = Fin m -> s_eta_k o = Fin k -> m <> 0 ->
  qs_shape_d o x = Ok (Fin (d / m)) /\ qs_shape_k o x = Ok (Fin (k / m)) /\
  exists dd dm dk, qs_delta_d o x = Ok (Fin dd) /\ qs_delta_m o x = Ok (Fin dm) /\
    qs_delta_k o x = Ok (Fin dk) /\ dd / dm = d / m /\ dk / dm = k / m.
Proof. intros o b U N x d m k F. exact (shape_lem o b U N F x d m k). Qed.
Print Assumptions shape_factors_constant.

Example shape_factors_case : exists o d m k, flow o (2/3) 10 (1/100) /\
  s_eta_d o = Fin d /\ s_eta_m o = Fin m /\ s_eta_k o = Fin k /\ m <> 0.
Proof.
  destruct ex_object as (o & A & B & C & D & E & G & H). exists o. eexists _, _, _.
  split; [exact A|].
  split; [exact (eta_d_val _ _ _ o ex_F0 ex_F1 ex_F2 3 B C)|].
  split; [exact (eta_m_val _ _ _ o _ _ _ ex_F0 ex_F1 ex_F2 3 B A C)|].
  split; [exact (eta_k_val _ _ _ o (2/3) ex_F0 ex_F1 ex_F2 3 B C (fun t _ => H t) ex_quad_exact)|].
  unfold ex_F0, ex_F2. lra.
Qed.

(* ---------------------------------------------------------------- C55 *)
(** Reading m after a successful reset_m gives m back. *)
Theorem wedge_round_trip : forall ivp quad bisect o m e w o',
  (reset_m ivp quad bisect o (Fin m) e w = (o', Ok tt) -> q_m o' = Ok (Fin m)) /\
  (reset_m ivp quad bisect o PInf e w = (o', Ok tt) -> q_m o' = Ok PInf).
Proof.
  intros i q s o m e w o'. split; [apply reset_m_round_trip|apply reset_m_inf].
Qed.
Print Assumptions wedge_round_trip.

(** beta stays in range through every history, whether the calls succeed or not. *)
Theorem wedge_in_range : forall ivp quad bisect b u n w e o cs,
  new_falkner_skan ivp quad bisect (Fin b) u n w e = Ok o -> List.Forall finite_call cs ->
  exists r, s_beta (do_scalls ivp quad bisect o cs) = Fin r /\ - (19884/100000) <= r <= 2.
Proof. exact falkner_skan_history. Qed.
Print Assumptions wedge_in_range.

(** A finite m below the limit raises and changes nothing. *)
Theorem wedge_rejected : forall ivp quad bisect o m e w,
  m < - (19884/100000) / (2 + 19884/100000) ->
  exists x, reset_m ivp quad bisect o (Fin m) e w = (o, Err x).
Proof.
  intros i q s o m e w H. apply reset_m_rejects. unfold m_min, beta_min.
  replace (2 - - (19884/100000)) with (2 + 19884/100000) by ring. exact H.
Qed.
Print Assumptions wedge_rejected.

(** m = -inf passes the test and turns beta into nan. *)
Theorem wedge_rejected_refuted : exists ivp quad bisect o o',
  new_falkner_skan ivp quad bisect (Fin 0) (Fin 1) (Fin 1) None None = Ok o /\
  reset_m ivp quad bisect o NInf None None = (o', Ok tt) /\ s_beta o' = NaN.
Proof.
  destruct minus_infinity_accepted as (o & o' & A & B & C).
  exists flat_ivp, flat_quad, flat_bisect, o, o'. auto.
Qed.
Print Assumptions wedge_rejected_refuted.

Example wedge_case : exists o,
  new_falkner_skan flat_ivp flat_quad flat_bisect (Fin (1/2)) (Fin 1) (Fin 1) None None = Ok o /\
  List.Forall finite_call [ResetM (Fin 3) None None; ResetBeta (Fin 7) None None; ResetM PInf None None].
Proof.
  destruct (flat_new (1/2)) as (o & A & _); [unfold beta_min; lra|]. exists o. split; [exact A|].
  constructor; [right; exists 3; reflexivity|]. constructor; [exists 7; reflexivity|].
  constructor; [left; reflexivity|constructor].
Qed.

(* ---------------------------------------------------------------- C56 *)
(** A range failure leaves the object as it was. *)
Theorem rejected_reset_partial : forall ivp quad bisect o b e w,
  xltb b (Fin (- (19884/100000))) = true \/ xltb (Fin 2) b = true ->
  reset_beta ivp quad bisect o b e w = (o, Err ValueError).
Proof.
  intros i q s o b e w H. apply reset_rejected_unchanged. unfold beta_rejected, beta_min.
  destruct H as [->| ->]; [reflexivity|apply orb_true_r].
Qed.
Print Assumptions rejected_reset_partial.

(** With an admissible beta and a bad eta_inf or fw_pp the call raises, but beta has been
    replaced, so that the object reports the old profile with the new exponent. *)
Theorem rejected_reset_refuted : forall ivp quad bisect o b e w,
  - (19884/100000) <= b <= 2 -> s_beta o <> Fin b ->
  (exists v, e = Some (Fin v) /\ v <= 0) \/ (exists v, w = Some (Fin v) /\ v <= 0) ->
  exists o', reset_beta ivp quad bisect o (Fin b) e w = (o', Err ValueError) /\
    s_beta o' = Fin b /\ s_beta o' <> s_beta o /\ s_f o' = s_f o /\ s_eta_d o' = s_eta_d o.
Proof.
  intros i q s o b e w Hb Hne H. exists (sim_with_beta o (Fin b)). split.
  - apply reset_bad_parameter; [apply beta_rejected_fin; exact Hb|].
    destruct H as [[v [-> V]]|[v [-> V]]]; cbn [bad_positive xleb]; rewrite Rleb_true by exact V;
    [reflexivity|apply orb_true_r].
  - split; [reflexivity|]. split; [cbn; congruence|]. split; reflexivity.
Qed.
Print Assumptions rejected_reset_refuted.

Example rejected_reset_case : exists o,
  new_falkner_skan flat_ivp flat_quad flat_bisect (Fin (1/2)) (Fin 1) (Fin 1) None None = Ok o /\
  s_beta o <> Fin 1.
Proof.
  destruct (flat_new (1/2)) as (o & A & B & _); [unfold beta_min; lra|]. exists o. split; [exact A|].
  rewrite B. intro K. apply Fin_inj in K. lra.
Qed.

(* ---------------------------------------------------------------- C57 *)
(** Every search ends within 1 + 100*100 integrations, whatever the integrator does. *)
Theorem search_terminates : forall ivp alpha beta gamma eta_inf fw_pp,
  (length (fst (search ivp alpha beta gamma eta_inf fw_pp)) <= 1 + 100 * 100)%nat.
Proof. exact search_count. Qed.
Print Assumptions search_terminates.

(** When both loops ended because their test passed, the last integration was done with the
    values returned and its edge values are within 1e-8 of 1 and 0. *)
Theorem search_edge_partial : forall ivp alpha beta gamma e w log ei fw,
  e = None \/ w = None ->
  search ivp alpha beta gamma e w = (log, Ok (ei, fw, Converged, Converged)) ->
  exists s r f1 f2, log = s :: r /\ real_shot ivp alpha beta gamma s /\
    sh_eta s = ei /\ sh_fw s = fw /\
    sh_f1 s = Fin f1 /\ sh_f2 s = Fin f2 /\
    Rabs (1 - f1) < 1/100000000 /\ Rabs f2 < 1/100000000.
Proof.
  intros i a b g e w log ei fw Hn H.
  destruct (search_converged i a b g e w log ei fw Hn H) as (s & r & El & A & B & C & D).
  unfold near_one, near_zero, tol in *.
  destruct (sh_f1 s) as [f1| | |] eqn:E1; cbn [xsub xadd xneg xabs xltb] in C; try discriminate.
  destruct (sh_f2 s) as [f2| | |] eqn:E2; cbn [xabs xltb] in D; try discriminate.
  apply Rltb_iff in C. apply Rltb_iff in D.
  exists s, r, f1, f2. split; [exact El|].
  split; [pose proof (search_real i a b g e w) as K; rewrite H, El in K; inversion K; assumption|].
  repeat (split; [assumption|]). exact D.
Qed.
Print Assumptions search_edge_partial.

(** The search never raises for lack of convergence: with an integrator that always succeeds
    it returns normally, even if no integration comes near the edge condition. *)
Theorem search_edge_refuted :
  (forall ivp alpha beta gamma e w,
     (forall f t y, exists r, ivp f t y = Ok r /\ i_success r = true) ->
     exists ei fw a b, snd (search ivp alpha beta gamma e w) = Ok (ei, fw, a, b)) /\
  (exists ivp quad bisect o,
     new_falkner_skan ivp quad bisect (Fin 0) (Fin 1) (Fin 1) None None = Ok o /\
     q_f_p o (s_eta_inf o) = Ok (Fin 0)).
Proof.
  split; [exact search_returns|].
  destruct (flat_new 0) as (o & A & _ & C); [unfold beta_min; lra|].
  exists flat_ivp, flat_quad, flat_bisect, o. auto.
Qed.
Print Assumptions search_edge_refuted.

(** An integrator for which the search converges at its first step. *)
Definition one_ivp (f : triple -> triple) (t : xr) (y : triple) : res ivp3 :=
  Ok {| i_success := true; i_last := (Fin 0, Fin 1, Fin 0); i_sol := fun _ => (Fin 0, Fin 1, Fin 0) |}.
Lemma one_outer m n g st last log :
  exists log' st', outer one_ivp (Fin 1) (Fin 0) (Fin 1) g (S m) (S n) st last log
                   = (log', Ok (st', Converged, Converged)).
Proof.
  cbn [outer is_some inner shoot one_ivp bind i_success t1 t2 i_last fst snd].
  unfold near_one. rewrite xsub_fin. cbn [xabs].
  assert (N1 : xltb (Fin (Rabs (1 - 1))) tol = true).
  { replace (1 - 1) with 0 by ring. rewrite Rabs_R0. unfold tol. cbn [xltb]. apply Rltb_true. lra. }
  rewrite N1, orb_true_r. cbn [in_f2_curr].
  assert (N2 : near_zero (Fin 0) = true).
  { unfold near_zero, tol. cbn [xabs xltb]. rewrite Rabs_R0. apply Rltb_true. lra. }
  rewrite N2, orb_true_r. eexists _, _. reflexivity.
Qed.
Example search_edge_case : exists log ei fw,
  search one_ivp (Fin 1) (Fin 0) (Fin 1) None None = (log, Ok (ei, fw, Converged, Converged)).
Proof.
  unfold search. cbn [shoot one_ivp bind i_success t1 t2 i_last fst snd is_some].
  match goal with |- context[outer _ _ _ _ ?g _ _ ?st ?last ?log] =>
    destruct (one_outer 99 99 g st last log) as (l & st' & E) end.
  unfold i_max, j_max. rewrite E. eexists _, _, _. reflexivity.
Qed.
