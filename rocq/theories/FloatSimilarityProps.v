(** C177: what the similarity solutions report, with the rounding of binary64 arithmetic. *)
From Coq Require Import Reals List Lra.
From Flocq Require Import Core IEEE754.BinarySingleNaN.
From Verif Require Import PyBase PyBaseFacts SimilarityModel FloatModel FloatSpec FloatFacts FloatXFoilModel FloatThwaitesSpec FloatThwaitesProofs
  FloatStanfordModel FloatStanfordSpec FloatStanfordProofs FloatHeadModel FloatHeadSpec FloatScaleProofs FloatHeadProofs FloatHeadProps
  FloatSimilarityModel FloatSimilaritySpec FloatSimilarityProofs.
Import ListNotations.
Open Scope R_scope.

(** C177: the edge velocity. *)
Theorem float_similarity_u_e : forall pw o u_ref nu_ref beta x, powers pw -> stores o u_ref nu_ref beta -> position x ->
  exists v, qs_u_e o (real_of x) = Ok (Fin v) /\ units (sim_u_e64 pw u_ref b_1 beta x) v 45.
Proof.
  intros pw o u n b x S St P. eexists. split; [apply (sim_u_exact o u n b x St P)|apply (sim_u_ok pw o u n b x S St P)].
Qed.
Print Assumptions float_similarity_u_e.

(** C177: the thicknesses. *)
Theorem float_similarity_thicknesses : forall pw o u_ref nu_ref beta x field report eta,
  powers pw -> stores o u_ref nu_ref beta -> position x ->
  In (field, report) thicknesses -> field o = Fin (real_of eta) -> sized_float eta ->
  exists v, report o (real_of x) = Ok (Fin v) /\ units (sim_delta64 pw eta (s_class o) u_ref nu_ref b_1 beta x) v 28.
Proof. intros. eapply sim_delta_ok; eassumption. Qed.
Print Assumptions float_similarity_thicknesses.

(** C177: the shape factors. *)
Theorem float_similarity_shape : forall o x a m, s_eta_m o = Fin (real_of m) -> sized_float a -> sized_float m ->
  (s_eta_d o = Fin (real_of a) -> exists v, qs_shape_d o x = Ok (Fin v) /\ units (sim_shape64 a m) v 3) /\
  (s_eta_k o = Fin (real_of a) -> exists v, qs_shape_k o x = Ok (Fin v) /\ units (sim_shape64 a m) v 3).
Proof.
  intros o x a m Em A M. assert (P := btw_pos 50 _ (proj2 M)).
  split; intros E; exists (real_of a / real_of m); (split; [unfold qs_shape_d, qs_shape_k; rewrite E, Em; apply py_div_fin; lra|apply sim_shape_ok; assumption]).
Qed.
Print Assumptions float_similarity_shape.

(** C177: the transpiration velocity, the wall shear stress and the dissipation integral. *)
Theorem float_similarity_fluxes : forall pw o u_ref nu_ref beta x eta_d fw_pp eta_k rho,
  powers pw -> stores o u_ref nu_ref beta -> position x ->
  s_eta_d o = Fin (real_of eta_d) -> q_fw_pp o = Ok (Fin (real_of fw_pp)) -> s_eta_k o = Fin (real_of eta_k) ->
  sized_float eta_d -> sized_float fw_pp -> sized_float eta_k -> sized_float rho ->
  (exists v, qs_v_e o (real_of x) = Ok (Fin v) /\ units (sim_v_e64 pw eta_d (s_class o) u_ref nu_ref b_1 beta x) v 29) /\
  (exists v, qs_tau_w o (real_of x) (Fin (real_of rho)) = Ok (Fin v) /\ units (sim_tau64 pw fw_pp rho (s_class o) u_ref nu_ref b_1 beta x) v 76) /\
  (exists v, qs_dissipation o (real_of x) (Fin (real_of rho)) = Ok (Fin v) /\
    units (sim_dissipation64 pw eta_k rho (s_class o) u_ref nu_ref b_1 beta x) v 126).
Proof.
  intros. split; [eapply sim_v_e_ok; eassumption|]. split; [eapply sim_tau_ok; eassumption|eapply sim_dissipation_ok; eassumption].
Qed.
Print Assumptions float_similarity_fluxes.

(** A power function as assumed and a decelerating wedge flow (beta = -1/128) with stored values of ordinary size. *)
Definition ex_beta : b64 := @B754_finite 53 1024 true 4503599627370496 (-59) eq_refl.
Definition ex_sim : sim :=
  {| s_class := CFalknerSkan; s_u_ref := Fin 1; s_nu_ref := Fin (real_of ex_nu); s_alpha := Fin 1; s_beta := Fin (real_of ex_beta);
     s_gamma := Fin 1; s_f := Some (fun _ => (Fin 0, Fin 0, Fin (real_of b_0_5))); s_eta_inf := Fin 7; s_eta_d := Fin (real_of ex_h);
     s_eta_m := Fin (real_of b_0_5); s_eta_k := Fin (real_of b_1); s_eta_s := Fin (real_of ex_h) |}.
Example similarity_case : exists pw, powers pw /\ stores ex_sim b_1 ex_nu ex_beta /\ position b_1 /\
  real_of ex_beta = - / 128 /\ sized_float b_1 /\ sized_float ex_h /\ sized_float b_0_5 /\ q_fw_pp ex_sim = Ok (Fin (real_of b_0_5)).
Proof.
  destruct head_case as (pw & S & A1 & A2 & A3 & A4 & B1 & B2 & B3 & B4 & B5 & B6 & B7). exists pw. split; [exact S|].
  destruct one_val as [N1 E1]. destruct (literal 4503599627370496 (-52) eq_refl) as [D1 D2]. fold b_1 in D1, D2. assert (D : real_of b_1 = 1) by (rewrite D2; simpl; lra).
  destruct half_val as [H1 H2].
  assert (Eb : is_number ex_beta /\ real_of ex_beta = - / 128).
  { split; [reflexivity|]. unfold ex_beta, real_of, B2R, F2R. simpl. lra. }
  destruct Eb as [Nb Eb]. unfold stores, ex_sim, position, sized_float. cbn [s_class s_u_ref s_nu_ref s_alpha s_beta]. rewrite Eb, D, B5.
  repeat split; try assumption; try reflexivity; try discriminate; try (simpl; lra); try apply B1.
  - right; right. unfold sized. simpl; lra.
  - rewrite H2. simpl; lra.
  - rewrite H2. simpl; lra.
Qed.
