(** C157: the 1968 Stanford tables with the rounding of binary64 arithmetic. *)
From Coq Require Import Reals List Lra.
From Flocq Require Import Core IEEE754.BinarySingleNaN.
From Verif Require Import PyBase StanfordSpec FloatModel FloatSpec FloatFacts FloatXFoilModel FloatXFoilProofs FloatThwaitesModel FloatThwaitesSpec
  FloatThwaitesProofs FloatFitsProofs FloatStanfordModel FloatStanfordSpec FloatStanfordProofs.
Import ListNotations.
Open Scope R_scope.

(** C157: a row of the summary table. *)
Theorem float_flow_row : forall u f row, reads row (summary_columns u f) -> sized_flow f ->
  exists s, summary64 (is_si u) row = Ok s /\ shows_flow64 8 s f.
Proof. exact flow_row64. Qed.
Print Assumptions float_flow_row.

(** C157: tables that agree a little better than required load, and the station shows their values. *)
Theorem float_station_loads : forall sq u f d row line, squares sq ->
  reads row (summary_columns u f) -> sized_flow f -> reads line (detail_columns u d) -> sized_detail d -> tame (compared f d) ->
  agree_by (1 - / 10 ^ 5) (compared f d) ->
  exists s, station_of64 sq (is_si u) row line = Ok s /\ shows_detail64 8 s f d.
Proof. intros sq u f d row line H1 H2 H3 H4 H5 H6. exact (proj1 (detail_ok sq u f d row line H1 H2 H3 H4 H5 H6)). Qed.
Print Assumptions float_station_loads.

(** C157: tables that load agree, up to rounding, as closely as required. *)
Theorem float_station_agrees : forall sq u f d row line s, squares sq ->
  reads row (summary_columns u f) -> sized_flow f -> reads line (detail_columns u d) -> sized_detail d -> tame (compared f d) ->
  station_of64 sq (is_si u) row line = Ok s -> agree_by (1 + / 10 ^ 5) (compared f d) /\ shows_detail64 8 s f d.
Proof. intros sq u f d row line s H1 H2 H3 H4 H5 H6. exact (proj2 (detail_ok sq u f d row line H1 H2 H3 H4 H5 H6) s). Qed.
Print Assumptions float_station_agrees.

(** C157: the requirement is that of the exact reader (C82, C88, C89). *)
Theorem float_station_tolerances : forall f d, agree_by 1 (compared f d) <-> agree f d.
Proof. exact agree_by_1. Qed.
Print Assumptions float_station_tolerances.

(** C157: the rows of the profile. *)
Theorem float_sample_loads : forall u f d p s row, shows_detail64 8 s f d -> sized_detail d ->
  reads row (profile_columns u p) -> sized_profile p -> tame (compared_sample d p) ->
  agree_by (1 - / 10 ^ 5) (compared_sample d p) ->
  exists a, sample_of64 (is_si u) row s = Ok a /\ shows_sample64 11 a d p.
Proof. intros u f d p s row H1 H2 H3 H4 H5. exact (proj1 (sample_ok u f d p s row H1 H2 H3 H4 H5)). Qed.
Print Assumptions float_sample_loads.

Theorem float_sample_agrees : forall u f d p s row a, shows_detail64 8 s f d -> sized_detail d ->
  reads row (profile_columns u p) -> sized_profile p -> tame (compared_sample d p) ->
  sample_of64 (is_si u) row s = Ok a -> agree_by (1 + / 10 ^ 5) (compared_sample d p) /\ shows_sample64 11 a d p.
Proof. intros u f d p s row a H1 H2 H3 H4 H5. exact (proj2 (sample_ok u f d p s row H1 H2 H3 H4 H5) a). Qed.
Print Assumptions float_sample_agrees.

(** A station one metre downstream, in SI units: 1 cm momentum thickness, Reynolds number 100. *)
Definition ex_flow : flow := {| f_x := 1; f_u_e := 1; f_du_e := 0; f_theta := 1/100; f_h := 1; f_hs := 1; f_g := 1;
  f_cf := 2; f_cf_lt := 2; f_cf_exp := 2; f_beta := 0 |}.
Definition ex_detail : detail := {| d_x := 1; d_us := 1; d_u_e := 1; d_nu := 1/10000; d_theta := 1/100; d_dels := 1/100; d_enth := 1/100;
  d_clth := 1/100; d_h := 1; d_g := 1; d_hs := 1; d_re_theta := 100; d_re_dels := 100 |}.
Definition ex_profile : profile := {| p_yplus := 100; p_uplus := 1; p_y := 1/100; p_ratio := 1; p_yc := 1; p_defect := 0 |}.
Definition ex_100 : b64 := @B754_finite 53 1024 false 7036874417766400 (-46) eq_refl.
Definition ex_row : list b64 := [b_1; b_1; b_0; b_1; b_1; b_1; b_1; b_2; b_2; b_2; b_0].
Definition ex_line : list b64 := [b_1; b_1; b_1; b_1; b_1; b_1; b_1; b_1; b_1; b_1; b_1; ex_100; ex_100].
Definition ex_sample : list b64 := [ex_100; b_1; b_1; b_1; b_1; b_0].

Lemma exactly x z : is_number x -> real_of x = z -> units x z 1.
Proof. intros N E. split; [exact N|]. rewrite E, Rminus_diag_eq, Rabs_R0 by reflexivity. pose proof (Rabs_pos z). lra. Qed.
Lemma ex1 z : z = 1 -> units b_1 z 1. Proof. intros ->. apply exactly; apply one_val. Qed.
Lemma ex0 z : z = 0 -> units b_0 z 1. Proof. intros ->. apply exactly; apply zero_val. Qed.
Lemma ex2 z : z = 2 -> units b_2 z 1. Proof. intros ->. apply exactly; apply two_val. Qed.
Lemma ex100 z : z = 100 -> units ex_100 z 1.
Proof. intros ->. destruct (literal 7036874417766400 (-46) eq_refl) as [A B]. apply exactly; [exact A|]. unfold ex_100. rewrite B. simpl. lra. Qed.
Lemma ex_sized z : / 10 ^ 10 <= z <= 10 ^ 10 -> sized z.
Proof. intros H. unfold sized. assert (/ 2 ^ 50 <= / 10 ^ 10) by (apply Rinv_le_contravar; lra). lra. Qed.
Lemma ex_same a b t : a = b -> 0 < t -> Rabs (a - b) < (1 - / 10 ^ 5) * t.
Proof. intros -> H. rewrite Rminus_diag_eq, Rabs_R0 by reflexivity. lra. Qed.

Ltac exrow1 := repeat apply Forall2_cons; try apply Forall2_nil; first [apply ex1; lra|apply ex0; lra|apply ex2; lra|apply ex100; lra].

Example station_case :
  reads ex_row (summary_columns SI ex_flow) /\ sized_flow ex_flow /\ reads ex_line (detail_columns SI ex_detail) /\ sized_detail ex_detail /\
  tame (compared ex_flow ex_detail) /\ agree_by (1 - / 10 ^ 5) (compared ex_flow ex_detail).
Proof.
  assert (E : sqrt (2 / 2) = 1) by (replace (2 / 2) with 1 by lra; apply sqrt_1).
  split; [unfold reads, ex_row, summary_columns; cbn [f_x f_u_e f_du_e f_theta f_h f_hs f_g f_cf f_cf_lt f_cf_exp f_beta ex_flow length_unit thickness_unit]; exrow1|].
  split; [repeat split; try (right; left); cbn [f_x f_u_e f_du_e f_theta f_h f_hs f_g f_cf ex_flow]; apply ex_sized; lra|].
  split; [unfold reads, ex_line, detail_columns; cbn [d_x d_us d_u_e d_nu d_theta d_dels d_enth d_clth d_h d_g d_hs d_re_theta d_re_dels ex_detail length_unit thickness_unit viscosity_unit]; exrow1|].
  split; [repeat split; try (right; left); cbn [d_x d_us d_u_e d_nu d_theta d_dels d_enth d_clth d_h d_g d_hs d_re_theta d_re_dels ex_detail]; apply ex_sized; lra|].
  unfold tame, agree_by, compared.
  cbn [f_x f_u_e f_du_e f_theta f_h f_hs f_g f_cf ex_flow d_x d_us d_u_e d_nu d_theta d_dels d_enth d_clth d_h d_g d_hs d_re_theta d_re_dels ex_detail]. rewrite E.
  split; repeat apply List.Forall_cons; try apply List.Forall_nil; try (apply ex_same; lra); split; rewrite Rabs_pos_eq; lra.
Qed.

Example sample_case : exists s, station_of64 (fun x => x * x)%b64 true ex_row ex_line = Ok s /\ shows_detail64 8 s ex_flow ex_detail /\
  reads ex_sample (profile_columns SI ex_profile) /\ sized_profile ex_profile /\ tame (compared_sample ex_detail ex_profile) /\
  agree_by (1 - / 10 ^ 5) (compared_sample ex_detail ex_profile).
Proof.
  destruct station_case as (H1 & H2 & H3 & H4 & H5 & H6).
  destruct (float_station_loads _ SI _ _ _ _ squares_example H1 H2 H3 H4 H5 H6) as (s & A & B). exists s. split; [exact A|]. split; [exact B|].
  split; [unfold reads, ex_sample, profile_columns; cbn [p_yplus p_uplus p_y p_ratio p_yc p_defect ex_profile thickness_unit]; exrow1|].
  split.
  { unfold sized_profile; cbn [p_yplus p_uplus p_y p_ratio p_yc p_defect ex_profile]. repeat split; first [left; reflexivity|right; left; apply ex_sized; lra]. }
  unfold tame, agree_by, compared_sample.
  cbn [p_yplus p_uplus p_y p_ratio p_yc p_defect ex_profile d_x d_us d_u_e d_nu d_theta d_dels d_enth d_clth ex_detail].
  split; repeat apply List.Forall_cons; try apply List.Forall_nil; try (apply ex_same; lra); split; first [rewrite Rabs_pos_eq; lra|apply Rabs_le; lra].
Qed.
