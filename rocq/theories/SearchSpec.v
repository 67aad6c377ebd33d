(** Vocabulary for the search of the similarity solutions' parameters. *)
From Coq Require Import Reals List.
From Verif Require Import PyBase SimilarityModel.
Import ListNotations.
Open Scope R_scope.

(** [rhs] is the right-hand side of f''' + alpha f f'' + beta (gamma - f'^2) = 0, written as a
    first-order system in (f, f', f'') ... *)
Definition similarity_rhs (alpha beta gamma : xr) (rhs : triple -> triple) : Prop :=
  forall f fp fpp, rhs (f, fp, fpp)
    = (fp, fpp, - (alpha * f * fpp + beta * (gamma - fp * fp)))%xr.
(** ... and the same with eta/eta_inf as the variable. *)
Definition stretched_rhs (alpha beta gamma eta_inf : xr) (rhs : triple -> triple) : Prop :=
  forall f fp fpp, rhs (f, fp, fpp)
    = (eta_inf * fp, eta_inf * fpp,
       - eta_inf * (alpha * f * fpp + beta * (gamma - fp * fp)))%xr.

Section Integrator.
Variable ivp : (triple -> triple) -> xr -> triple -> res ivp3.

(** The shot is an integration of the equation in eta/eta_inf from the wall (0, 0, f''(0)) to
    the edge that the integrator completed, with the f' and f'' it ended at. *)
Definition real_shot (alpha beta gamma : xr) (s : shot) : Prop :=
  exists rhs r f0, stretched_rhs alpha beta gamma (sh_eta s) rhs /\
    ivp rhs (Fin 1) (Fin 0, Fin 0, sh_fw s) = Ok r /\
    i_success r = true /\ i_last r = (f0, sh_f1 s, sh_f2 s).

(** Integrating with these parameters always ends at (f', f'') = ([f1], [f2]). *)
Definition ends_at (alpha beta gamma eta fw f1 f2 : xr) : Prop :=
  forall rhs, stretched_rhs alpha beta gamma eta rhs ->
  exists r f0, ivp rhs (Fin 1) (Fin 0, Fin 0, fw) = Ok r /\ i_success r = true /\
    i_last r = (f0, f1, f2).

(** The object's profile is what the integrator returned for the Falkner-Skan equation from
    (0, 0, [fw]) over [0, [ei]]. *)
Definition profile_from (o : sim) (beta ei fw : xr) : Prop :=
  exists rhs r, similarity_rhs (Fin 1) beta (Fin 1) rhs /\
    ivp rhs ei (Fin 0, Fin 0, fw) = Ok r /\ i_success r = true /\
    (forall eta, q_f o eta = Ok (t0 (i_sol r eta)) /\ q_f_p o eta = Ok (t1 (i_sol r eta)) /\
                 q_f_pp o eta = Ok (t2 (i_sol r eta))) /\
    s_eta_inf o = ei.
End Integrator.

(** From the third one on (the list has the newest first), each trial value [X] is where the
    line through the two trials before it reaches the value [goal]. *)
Definition secant_trials (goal : xr) (X Y : shot -> xr) (l : list shot) : Prop :=
  forall k s1 s2 s3, nth_error l k = Some s3 -> nth_error l (S k) = Some s2 ->
    nth_error l (S (S k)) = Some s1 ->
    X s3 = (X s2 + (goal - Y s2) * (X s2 - X s1) / (Y s2 - Y s1))%xr.
