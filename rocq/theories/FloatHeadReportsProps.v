(** C176: what Head's method reports, with the rounding of binary64 arithmetic. *)
From Coq Require Import Reals List Lra.
From Flocq Require Import Core IEEE754.BinarySingleNaN.
From Verif Require Import PyBase InitialConditionModel HeadModel CoreModel HeadArrayModel FloatModel FloatSpec FloatFacts FloatXFoilModel FloatThwaitesSpec FloatThwaitesProofs
  FloatStanfordModel FloatStanfordSpec FloatStanfordProofs FloatHeadModel FloatHeadSpec FloatScaleProofs FloatHeadProofs FloatHeadProps
  FloatHeadReportsModel FloatHeadReportsSpec FloatHeadReportsProofs.
Import ListNotations.
Open Scope R_scope.

(** C176: the displacement thickness. *)
Theorem float_head_delta_d : forall m x d h, m_kind m = Head -> sol_at m x = Ok [Fin (real_of d); Fin (real_of h)] ->
  is_number d -> is_number h -> sized (real_of d) -> 1 <= real_of h <= 4 ->
  exists v, q_delta_d m x = Ok (Fin v) /\ units (head_delta_d64 d h) v 2.
Proof.
  intros m x d h K Sx A B C D. exists (real_of d * real_of h). split; [|apply delta_d_ok; assumption].
  unfold q_delta_d, q_delta_m, q_shape_d. rewrite Sx, K. reflexivity.
Qed.
Print Assumptions float_head_delta_d.

(** C176: the wall shear stress. *)
Theorem float_head_tau : forall pw rho nu u d h, powers pw ->
  is_number rho -> is_number nu -> is_number u -> is_number d -> is_number h ->
  sized (real_of rho) -> sized (real_of nu) -> 0 <= real_of u <= 2 ^ 50 -> sized (real_of d) -> 1 <= real_of h <= 4 ->
  / 2 ^ 40 <= floor_u (real_of u) * real_of d / real_of nu <= 2 ^ 40 ->
  exists t, tau_elem (Fin (real_of nu)) (real_of rho) [Fin (real_of d); Fin (real_of h)] (floor_u (real_of u)) = Ok (Fin t) /\
    units (head_tau64 pw rho nu u d h) t 70.
Proof.
  intros pw rho nu u d h S A1 A2 A3 A4 A5 B1 B2 B3 B4 B5 B6. rewrite floor_speed in B6 by apply (proj1 B3).
  eexists. split; [apply tau_exact; [apply (btw_pos 50 _ B2)|apply (btw_pos 50 _ B4)|apply (proj1 B3)]|].
  apply tau_ok; assumption.
Qed.
Print Assumptions float_head_tau.

(** C176: the transpiration velocity, relative to the magnitudes of the terms it is a sum of. *)
Theorem float_head_v_e : forall pw scalar nu u du d h, powers pw ->
  is_number nu -> is_number u -> is_number du -> is_number d -> is_number h ->
  sized (real_of nu) -> sized (real_of u) -> signed (real_of du) -> sized (real_of d) ->
  1 <= real_of h <= 4 -> real_of h <> real_of b_1_6 ->
  / 2 ^ 40 <= speed_used (real_of u) * real_of d / real_of nu <= 2 ^ 40 ->
  exists v, head_v_e (Fin (real_of nu)) (VFloat (Fin (real_of u))) (VFloat (Fin (real_of du))) (Fin (real_of d)) (Fin (real_of h)) = Ok (Fin v) /\
    within (head_v_e64 pw scalar nu u du d h) v
      (1120 / 2 ^ 53 * transpiration_size (real_of nu) (real_of u) (real_of du) (real_of d) (real_of h)).
Proof.
  intros pw scalar nu u du d h S A1 A2 A3 A4 A5 B1 B2 B3 B4 B5 B6 B7. eexists.
  split; [apply v_e_exact; [apply (btw_pos 50 _ B1)|apply (btw_pos 50 _ B4)]|].
  apply v_e_ok; try assumption. apply zb_signed, B3.
Qed.
Print Assumptions float_head_v_e.

(** A power function as assumed, and a state: density 1, velocity 1, Reynolds number 8192, shape factor 1.5, du/dx = 1. *)
Example head_reports_case : exists pw, powers pw /\ is_number ex_nu /\ is_number b_1 /\ is_number ex_d /\ is_number ex_h /\
  sized (real_of ex_nu) /\ sized (real_of b_1) /\ signed (real_of b_1) /\ sized (real_of ex_d) /\
  1 <= real_of ex_h <= 4 /\ real_of ex_h <> real_of b_1_6 /\
  / 2 ^ 40 <= speed_used (real_of b_1) * real_of ex_d / real_of ex_nu <= 2 ^ 40 /\ floor_u (real_of b_1) = speed_used (real_of b_1) /\
  exists m x, m_kind m = Head /\ sol_at m x = Ok [Fin (real_of ex_d); Fin (real_of ex_h)].
Proof.
  destruct head_case as (pw & S & A1 & A2 & A3 & A4 & B1 & B2 & B3 & B4 & B5 & B6 & B7). exists pw.
  destruct (literal 4503599627370496 (-52) eq_refl) as [D1 D2]. fold b_1 in D1, D2. assert (D : real_of b_1 = 1) by (rewrite D2; simpl; lra).
  repeat (split; [first [assumption|rewrite D; unfold sized; simpl; lra|rewrite B5; lra|apply floor_speed; rewrite D; lra]|]).
  exists {| m_kind := Head; m_nu := Fin 1; m_u := None; m_du := None; m_d2u := None; m_ic := InitialConditionModel.new_manual (Fin 1) (Fin 1) (Fin 1); m_fit := None; m_events := [];
            m_sol := Some (fun _ => [Fin (real_of ex_d); Fin (real_of ex_h)]) |}, 0. split; reflexivity.
Qed.
