(** Parameters of the similarity solutions: the theorems. *)
From Coq Require Import Reals List Bool Lra Lia.
From Verif Require Import PyBase PyBaseFacts SimilarityModel SimilaritySpec SimilarityProofs
  SearchSpec SearchProofs.
Import ListNotations.
Open Scope R_scope.

(* ---------------- C103 ---------------- *)

(** A given eta_inf or f''(0) is used exactly as given, a Blasius object created without
    either uses the tabulated pair, and the profile is what the integrator returned for the
    Falkner-Skan equation started at (0, 0, f''(0)) and run to eta_inf. *)
Theorem given_parameters_used : forall ivp quad bisect u n e w o,
  (new_blasius ivp quad bisect u n w e = Ok o -> exists ei fw, profile_from ivp o (Fin 0) ei fw /\
     (e = None -> w = None -> ei = Fin (714513231841832/100000000000000) /\
                              fw = Fin (4695999888844369/10000000000000000)) /\
     (forall r, e = Some (Fin r) -> ei = Fin r) /\ (forall r, w = Some (Fin r) -> fw = Fin r)) /\
  (forall beta, new_falkner_skan ivp quad bisect beta u n w e = Ok o ->
     exists ei fw, profile_from ivp o beta ei fw /\
     (forall r, e = Some (Fin r) -> ei = Fin r) /\ (forall r, w = Some (Fin r) -> fw = Fin r)) /\
  (forall o0, s_alpha o0 = Fin 1 -> s_gamma o0 = Fin 1 ->
     set_solution_parameters ivp quad bisect o0 e w = (o, Ok tt) ->
     exists ei fw, profile_from ivp o (s_beta o0) ei fw /\
     (forall r, e = Some (Fin r) -> ei = Fin r) /\ (forall r, w = Some (Fin r) -> fw = Fin r)).
Proof. exact given_parameters_lemma. Qed.
Print Assumptions given_parameters_used.

(** An integrator and helpers for the examples. *)
Definition any_ivp (f : triple -> triple) (t : xr) (y : triple) : res ivp3 :=
  Ok {| i_success := true; i_last := (Fin 0, Fin 1, Fin 0); i_sol := fun _ => (Fin 0, Fin 1, Fin 1) |}.
Definition any_quad (f : xr -> res xr) (b : xr) : res xr := Ok (Fin 1).
Definition any_bisect (f : xr -> res xr) (b : xr) : res (bool * xr) := Ok (true, Fin 1).

Lemma any_solution o e w : s_alpha o = Fin 1 -> s_beta o = Fin 0 -> 0 < e -> 0 < w ->
  exists o', set_solution_parameters any_ivp any_quad any_bisect o (Some (Fin e)) (Some (Fin w)) = (o', Ok tt).
Proof.
  intros EA EB He Hw. unfold set_solution_parameters, calculate_solution. cbn [bad_positive xleb].
  rewrite !Rleb_false by assumption. cbn [search snd]. cbn [any_ivp i_success i_sol].
  unfold q_f, q_fw_pp, q_f_pp. cbn [s_f s_eta_inf sim_with_f sim_with_eta_inf sim_with_eta_d bind t0 t2 fst snd
    s_beta s_alpha s_eta_d]. rewrite EA, EB. rewrite !xsub_fin, xmul_fin, xsub_fin, xadd_fin.
  rewrite py_div_fin by lra. cbn [any_quad any_bisect]. eexists. reflexivity.
Qed.
Example given_parameters_example : exists o,
  new_blasius any_ivp any_quad any_bisect (Fin 10) (Fin (1/100)) (Some (Fin 2)) (Some (Fin 5)) = Ok o.
Proof.
  unfold new_blasius, new_sim. cbn [xleb]. rewrite !Rleb_false by lra. cbv zeta.
  match goal with |- context[set_solution_parameters _ _ _ ?o _ _] =>
    destruct (any_solution o 5 2 eq_refl eq_refl) as [o' E]; [lra|lra|] end.
  cbn [fst snd]. rewrite E. exists o'. reflexivity.
Qed.

(* ---------------- C104 ---------------- *)

(** Every trial of the search is a completed integration of the stretched equation from the
    wall; with eta_inf given the trial f''(0) follow the secant rule for f'(edge) = 1, with
    f''(0) given the trial eta_inf follow it for f''(edge) = 0. *)
Theorem search_is_secant : forall ivp alpha beta gamma,
  (forall e w, List.Forall (real_shot ivp alpha beta gamma) (fst (search ivp alpha beta gamma e w))) /\
  (forall e, secant_trials (Fin 1) sh_fw sh_f1 (fst (search ivp alpha beta gamma (Some (Fin e)) None))) /\
  (forall w, secant_trials (Fin 0) sh_eta sh_f2 (fst (search ivp alpha beta gamma None (Some (Fin w))))).
Proof.
  intros ivp al be ga. split; [exact (search_real ivp al be ga)|].
  split; [exact (secant_fw ivp al be ga)|exact (secant_eta ivp al be ga)].
Qed.
Print Assumptions search_is_secant.

(** When the edge value depends on the unknown parameter through a straight line, at most
    three integrations find it. *)
Theorem affine_response_solved : forall ivp alpha beta gamma,
  (forall e p q g, q <> 0 ->
     (forall w, ends_at ivp alpha beta gamma (Fin e) (Fin w) (Fin (p + q * w)) (g w)) ->
     exists log fw b,
       search ivp alpha beta gamma (Some (Fin e)) None = (log, Ok (Fin e, Fin fw, Converged, b)) /\
       (length log <= 3)%nat /\ Rabs (1 - (p + q * fw)) < 1/100000000) /\
  (forall w p q g, q <> 0 ->
     (forall e, ends_at ivp alpha beta gamma (Fin e) (Fin w) (g e) (Fin (p + q * e))) ->
     exists log ei a,
       search ivp alpha beta gamma None (Some (Fin w)) = (log, Ok (Fin ei, Fin w, a, Converged)) /\
       (length log <= 3)%nat /\ Rabs (p + q * ei) < 1/100000000).
Proof.
  intros ivp al be ga. split; [exact (affine_fw ivp al be ga)|exact (affine_eta ivp al be ga)].
Qed.
Print Assumptions affine_response_solved.

(** Integrators with a straight-line response. *)
Definition fw_ivp (f : triple -> triple) (t : xr) (y : triple) : res ivp3 :=
  Ok {| i_success := true; i_last := (Fin 0, Fin (1/2) + Fin 3 * t2 y, Fin 0)%xr; i_sol := fun _ => y |}.
Definition eta_ivp (f : triple -> triple) (t : xr) (y : triple) : res ivp3 :=
  Ok {| i_success := true; i_last := (Fin 0, Fin 1, Fin 3 + Fin (-1) * t0 (f (Fin 0, Fin 1, Fin 0)))%xr;
        i_sol := fun _ => y |}.
Example affine_response_example : forall alpha beta gamma,
  (forall e w, ends_at fw_ivp alpha beta gamma (Fin e) (Fin w) (Fin (1/2 + 3 * w)) (Fin 0)) /\
  (forall w e, ends_at eta_ivp alpha beta gamma (Fin e) (Fin w) (Fin 1) (Fin (3 + -1 * e))).
Proof.
  intros al be ga. split; intros e w rhs H; (eexists _, (Fin 0); split; [reflexivity|]; split; [reflexivity|]).
  - cbn [i_last t2 snd]. rewrite xmul_fin, xadd_fin. reflexivity.
  - cbn [i_last]. rewrite H. cbn [t0 fst]. rewrite xmul_fin, xmul_fin, xadd_fin, Rmult_1_r. reflexivity.
Qed.

(* ---------------- C105 ---------------- *)

(** When the final integration fails, ValueError is raised and no profile is left: the
    profile queries raise ValueError, whatever the object held before. *)
Theorem failed_integration_clears : forall ivp quad bisect o e w log ei fw a b,
  (forall v, e = Some v -> xleb v (Fin 0) = false) -> (forall v, w = Some v -> xleb v (Fin 0) = false) ->
  search ivp (s_alpha o) (s_beta o) (s_gamma o) e w = (log, Ok (ei, fw, a, b)) ->
  (forall rhs, similarity_rhs (s_alpha o) (s_beta o) (s_gamma o) rhs ->
     exists r, ivp rhs ei (Fin 0, Fin 0, fw) = Ok r /\ i_success r = false) ->
  exists o', set_solution_parameters ivp quad bisect o e w = (o', Err ValueError) /\
    forall eta, q_f o' eta = Err ValueError /\ q_f_p o' eta = Err ValueError /\
      q_f_pp o' eta = Err ValueError.
Proof. exact failed_integration. Qed.
Print Assumptions failed_integration_clears.

(** An integrator that gives up beyond t = 7, on an object that held a profile. *)
Definition short_ivp (f : triple -> triple) (t : xr) (y : triple) : res ivp3 :=
  if xltb (Fin 7) t then Ok {| i_success := false; i_last := y; i_sol := fun _ => y |}
  else any_ivp f t y.
Example failed_integration_example : exists o o',
  new_blasius short_ivp any_quad any_bisect (Fin 1) (Fin 1) (Some (Fin 2)) (Some (Fin 5)) = Ok o /\
  set_solution_parameters short_ivp any_quad any_bisect o (Some (Fin 8)) (Some (Fin 2)) = (o', Err ValueError) /\
  q_f o (Fin 1) = Ok (Fin 0) /\ q_f o' (Fin 1) = Err ValueError.
Proof.
  assert (S5 : forall f y, short_ivp f (Fin 5) y = any_ivp f (Fin 5) y).
  { intros f y. unfold short_ivp. cbn [xltb]. rewrite Rltb_false by lra. reflexivity. }
  assert (B : exists o, new_blasius short_ivp any_quad any_bisect (Fin 1) (Fin 1) (Some (Fin 2)) (Some (Fin 5)) = Ok o
    /\ q_f o (Fin 1) = Ok (Fin 0)).
  { unfold new_blasius, new_sim. cbn [xleb]. rewrite !Rleb_false by lra. cbv zeta. cbn [fst snd].
    unfold set_solution_parameters, calculate_solution. cbn [bad_positive xleb].
    rewrite !Rleb_false by lra. cbn [search snd]. rewrite S5. cbn [any_ivp i_success i_sol].
    unfold q_f, q_fw_pp, q_f_pp. cbn [s_f s_eta_inf sim_with_f sim_with_eta_inf sim_with_eta_d bind t0 t2 fst snd
      s_beta s_alpha s_eta_d]. rewrite !xsub_fin, xmul_fin, xsub_fin, xadd_fin.
    rewrite py_div_fin by lra. cbn [any_quad any_bisect]. eexists. split; [reflexivity|]. reflexivity. }
  destruct B as (o & B1 & B2). exists o.
  destruct (failed_integration_clears short_ivp any_quad any_bisect o (Some (Fin 8)) (Some (Fin 2))
    [] (Fin 8) (Fin 2) Converged Converged) as (o' & E & K).
  - intros v H. injection H as <-. cbn [xleb]. apply Rleb_false. lra.
  - intros v H. injection H as <-. cbn [xleb]. apply Rleb_false. lra.
  - reflexivity.
  - intros rhs _. unfold short_ivp. cbn [xltb]. rewrite Rltb_true by lra. eexists. split; reflexivity.
  - exists o'. split; [exact B1|]. split; [exact E|]. split; [exact B2|]. apply K.
Qed.
