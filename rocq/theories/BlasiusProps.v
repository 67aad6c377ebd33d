(** The default Blasius solution (C107). *)
From Coq Require Import Reals Lra.
From Coquelicot Require Import Coquelicot.
From Verif Require Import PyBase SimilarityModel SimilaritySpec BlasiusSpec BlasiusFlowProofs
  BlasiusExistProofs BlasiusWallProofs.
Open Scope R_scope.

(* ---------------------------------------------------------------- C107 *)
Theorem blasius_defaults : forall ivp quad bisect u n o,
  exact_ivp ivp -> exact_quad quad -> exact_bisect bisect ->
  new_blasius ivp quad bisect (Fin u) (Fin n) None None = Ok o -> 0 < u -> 0 < n ->
  (exists f1 f2, q_f_p o (s_eta_inf o) = Ok (Fin f1) /\ q_f_pp o (s_eta_inf o) = Ok (Fin f2) /\
     Rabs (1 - f1) < / 10 ^ 8 /\ 0 < f2 < / 10 ^ 8) /\
  forall x, 0 < x ->
  let root := sqrt (u * x / n) in
  between (172078 / 10 ^ 5) (172079 / 10 ^ 5) (x / root) (qs_delta_d o x) /\
  between (66411 / 10 ^ 5) (66412 / 10 ^ 5) (x / root) (qs_delta_m o x) /\
  between (104437 / 10 ^ 5) (104438 / 10 ^ 5) (x / root) (qs_delta_k o x) /\
  between (49098 / 10 ^ 4) (49102 / 10 ^ 4) (x / root) (qs_delta_s o x) /\
  between (259110 / 10 ^ 5) (259111 / 10 ^ 5) 1 (qs_shape_d o x) /\
  between (157258 / 10 ^ 5) (157259 / 10 ^ 5) 1 (qs_shape_k o x) /\
  between (86039 / 10 ^ 5) (86040 / 10 ^ 5) (u / root) (qs_v_e o x) /\
  forall rho,
    between (33205 / 10 ^ 5) (33206 / 10 ^ 5) (rho * u ^ 2 / root) (qs_tau_w o x (Fin rho)) /\
    between (26109 / 10 ^ 5) (26110 / 10 ^ 5) (rho * u ^ 3 / root) (qs_dissipation o x (Fin rho)).
Proof. intros ivp quad bisect u n o A B C D E F. exact (default_numbers ivp quad bisect A B C u n o D E F). Qed.
Print Assumptions blasius_defaults.

Example blasius_defaults_case : exists ivp quad bisect,
  exact_ivp ivp /\ exact_quad quad /\ exact_bisect bisect /\
  forall u n, 0 < u -> 0 < n ->
  exists o, new_blasius ivp quad bisect (Fin u) (Fin n) None None = Ok o.
Proof. exact default_object_exists. Qed.

Theorem blasius_wall_value : exists w, blasius_wall w /\ (forall v, blasius_wall v -> v = w) /\
  Rabs (blasius_fw_pp - w) < / 10 ^ 9.
Proof. exact wall_lemma. Qed.
Print Assumptions blasius_wall_value.
