(** Properties C145-C147: the shape of the velocity profiles of the similarity solutions. *)
From Coq Require Import Reals List Lra.
From Coquelicot Require Import Coquelicot.
From Verif Require Import PyBase PyBaseFacts SimilarityModel SimilaritySpec SimilarityProofs SimilarityFlowProofs
  BlasiusSpec BlasiusFlowProofs BlasiusExistProofs ProfileSpec ProfileProofs ProfileThickProofs ProfileEdgeProofs.
Import ListNotations.
Open Scope R_scope.

(* ---------------------------------------------------------------- C145 *)
(** Every Blasius object, built with the default parameters or with two given ones. *)
Theorem blasius_profile_rises : forall ivp quad bisect U N w e o x Y,
  exact_ivp ivp ->
  (w = None /\ e = None \/ exists w' e', w = Some (Fin w') /\ e = Some (Fin e')) ->
  new_blasius ivp quad bisect (Fin U) (Fin N) w e = Ok o -> 0 < x ->
  q_eta o x Y = Ok (s_eta_inf o) ->
  rising o x Y /\ shear_falls o N x Y /\ outflow_rises o x Y.
Proof. intros i q s U N w e o x Y A. exact (blasius_lem i q s A U N w e o x Y). Qed.
Print Assumptions blasius_profile_rises.

(** With the default parameters the velocity is also below the edge velocity. *)
Theorem blasius_default_inside_edge : forall ivp quad bisect U N o x Y,
  exact_ivp ivp -> new_blasius ivp quad bisect (Fin U) (Fin N) None None = Ok o -> 0 < x ->
  q_eta o x Y = Ok (s_eta_inf o) -> inside_edge o x Y.
Proof. intros i q s U N o x Y A B C D. exact (proj1 (default_inside i q s A U N o x Y B C D)). Qed.
Print Assumptions blasius_default_inside_edge.

Example blasius_profile_rises_case : exists ivp quad bisect o, exact_ivp ivp /\
  new_blasius ivp quad bisect (Fin 10) (Fin (1/100)) None None = Ok o /\
  forall x, 0 < x -> exists Y, q_eta o x Y = Ok (s_eta_inf o).
Proof.
  destruct tangent_object as (i & q & s & c & d & A & _ & _ & _ & B).
  destruct (B 10 (1/100) ltac:(lra) ltac:(lra)) as (o & E & [K _]). exists i, q, s, o.
  split; [exact A|]. split; [exact E|]. intros x Hx.
  destruct (blasius_flow i q s _ _ _ _ o E) as [Fl _]. pose proof (GG_pos o _ _ _ Fl x Hx) as G.
  exists (blasius_eta_inf / GG 0 10 (1/100) x). rewrite (eta_val o _ _ _ Fl x _ Hx), K. do 2 f_equal. field. lra.
Qed.

(** Falkner-Skan objects in an accelerated flow whose f' is at most 1 and still growing at the
    edge, and which nowhere flow backwards faster than the edge velocity. *)
Theorem accelerated_profile_rises : forall o beta u_ref nu_ref F0 F1 F2 E x Y,
  flow o beta u_ref nu_ref -> profile_on o F0 F1 F2 E -> F0 0 = 0 -> F1 0 = 0 ->
  (forall t, 0 <= t <= E -> falkner_skan_at beta F0 F1 F2 t) ->
  0 < x -> q_eta o x Y = Ok (Fin E) ->
  0 <= beta -> F1 E <= 1 -> 0 < F2 E -> (forall t, 0 <= t <= E -> -1 <= F1 t) ->
  rising o x Y /\ inside_edge o x Y /\ shear_falls o nu_ref x Y.
Proof.
  intros o b U N F0 F1 F2 E x Y A B C D K L M. exact (accelerated_lem o b U N F0 F1 F2 E A B C D K x Y L M).
Qed.
Print Assumptions accelerated_profile_rises.

(** ... and in a decelerated flow, the wall shear being positive and f' nowhere above 1. *)
Theorem decelerated_profile_rises : forall o beta u_ref nu_ref F0 F1 F2 E x Y,
  flow o beta u_ref nu_ref -> profile_on o F0 F1 F2 E -> F0 0 = 0 -> F1 0 = 0 ->
  (forall t, 0 <= t <= E -> falkner_skan_at beta F0 F1 F2 t) ->
  0 < x -> q_eta o x Y = Ok (Fin E) ->
  beta <= 0 -> 0 < F2 0 -> (forall t, 0 <= t <= E -> -1 <= F1 t <= 1) ->
  rising o x Y /\ inside_edge o x Y.
Proof.
  intros o b U N F0 F1 F2 E x Y A B C D K L M. exact (decelerated_lem o b U N F0 F1 F2 E A B D K x Y L M).
Qed.
Print Assumptions decelerated_profile_rises.

(** An object for every wedge parameter of either sign. *)
Lemma near_wall_flow beta : beta_min <= beta <= 1 -> exists ivp quad bisect o F0 F1 F2,
  flow o beta 10 (1/100) /\ solved ivp quad bisect o /\ exact_quad quad /\
  profile_on o F0 F1 F2 (/ 100) /\ F0 0 = 0 /\ F1 0 = 0 /\ F2 0 = 1 /\
  (forall t, 0 <= t <= / 100 -> falkner_skan_at beta F0 F1 F2 t) /\
  (forall t, 0 <= t <= / 100 -> 0 <= F1 t <= 1 /\ 0 < F2 t <= 2) /\
  forall x, 0 < x -> exists Y, q_eta o x Y = Ok (Fin (/ 100)).
Proof.
  intros Hb. assert (Hb' : -1 <= beta <= 1) by (unfold beta_min in Hb; lra).
  destruct (near_wall_object beta Hb' 10 (1/100)) as (i & q & s & o & F0 & F1 & F2 & B & EQ & P & Z0 & Z1 & Z2 & D); [lra|lra|lra|].
  exists i, q, s, o, F0, F1, F2.
  destruct (falkner_skan_flow i q s beta _ _ _ _ o ltac:(lra) B) as [Fl So].
  split; [exact Fl|]. split; [exact So|]. split; [exact EQ|]. split; [exact P|].
  split; [exact Z0|]. split; [exact Z1|]. split; [exact Z2|].
  split; [intros t Ht; apply D, Ht|]. split; [intros t Ht; apply D, Ht|].
  intros x Hx. pose proof (GG_pos o _ _ _ Fl x Hx) as G.
  exists (/ 100 / GG beta 10 (1/100) x). rewrite (eta_val o _ _ _ Fl x _ Hx). do 2 f_equal. field. lra.
Qed.

Example accelerated_profile_rises_case : exists o F0 F1 F2 E Y,
  flow o (1/2) 10 (1/100) /\ profile_on o F0 F1 F2 E /\ F0 0 = 0 /\ F1 0 = 0 /\
  (forall t, 0 <= t <= E -> falkner_skan_at (1/2) F0 F1 F2 t) /\ q_eta o 1 Y = Ok (Fin E) /\
  F1 E <= 1 /\ 0 < F2 E /\ (forall t, 0 <= t <= E -> -1 <= F1 t).
Proof.
  destruct (near_wall_flow (1/2)) as (i & q & s & o & F0 & F1 & F2 & Fl & So & EQ & P & Z0 & Z1 & Z2 & O & D & HY);
    [unfold beta_min; lra|].
  destruct (HY 1 ltac:(lra)) as (Y & EY). exists o, F0, F1, F2, (/ 100), Y.
  pose proof (D (/ 100) ltac:(lra)). repeat (split; [assumption || lra|]).
  intros t Ht. specialize (D t Ht). lra.
Qed.

Example decelerated_profile_rises_case : exists o F0 F1 F2 E Y,
  flow o (-1/10) 10 (1/100) /\ profile_on o F0 F1 F2 E /\ F0 0 = 0 /\ F1 0 = 0 /\
  (forall t, 0 <= t <= E -> falkner_skan_at (-1/10) F0 F1 F2 t) /\ q_eta o 1 Y = Ok (Fin E) /\
  0 < F2 0 /\ (forall t, 0 <= t <= E -> -1 <= F1 t <= 1).
Proof.
  destruct (near_wall_flow (-1/10)) as (i & q & s & o & F0 & F1 & F2 & Fl & So & EQ & P & Z0 & Z1 & Z2 & O & D & HY);
    [unfold beta_min; lra|].
  destruct (HY 1 ltac:(lra)) as (Y & EY). exists o, F0, F1, F2, (/ 100), Y.
  repeat (split; [assumption || lra|]). intros t Ht. specialize (D t Ht). lra.
Qed.

(* ---------------------------------------------------------------- C146 *)
(** [eps] bounds how far f'' is from 0 and f' is below 1 at the edge. *)
Theorem thicknesses_ordered : forall ivp quad bisect o beta u_ref nu_ref F0 F1 F2 E x Y eps,
  solved ivp quad bisect o -> flow o beta u_ref nu_ref -> profile_on o F0 F1 F2 E -> F0 0 = 0 ->
  (forall t, 0 <= t <= E -> falkner_skan_at beta F0 F1 F2 t) -> exact_quad quad ->
  0 < x -> q_eta o x Y = Ok (Fin E) -> inside_edge o x Y ->
  Rabs (F2 E) <= eps -> 1 - eps <= F1 E ->
  exists d m k,
  qs_delta_d o x = Ok (Fin d) /\ qs_delta_m o x = Ok (Fin m) /\ qs_delta_k o x = Ok (Fin k) /\
  let slack := 3 * (Y + Y / E) * eps in
  0 <= d /\ - slack <= m <= d + slack /\ m - slack <= k <= 2 * m + slack /\
  (0 < m -> exists hd hk, qs_shape_d o x = Ok (Fin hd) /\ qs_shape_k o x = Ok (Fin hk) /\
     1 - slack / m <= hd /\ 1 - slack / m <= hk <= 2 + slack / m).
Proof.
  intros i q s o b U N F0 F1 F2 E x Y eps A B C D K L M G H I J.
  exact (order_lem i q s o b U N F0 F1 F2 E A B C D K L x Y eps M G H I J).
Qed.
Print Assumptions thicknesses_ordered.

(** The default Blasius objects meet the hypotheses with [eps] = 10^-8. *)
Example thicknesses_ordered_case : exists ivp quad bisect o F0 F1 F2 E Y,
  solved ivp quad bisect o /\ flow o 0 10 (1/100) /\ profile_on o F0 F1 F2 E /\ F0 0 = 0 /\
  (forall t, 0 <= t <= E -> falkner_skan_at 0 F0 F1 F2 t) /\ exact_quad quad /\
  q_eta o 1 Y = Ok (Fin E) /\ inside_edge o 1 Y /\ Rabs (F2 E) <= / 10 ^ 8 /\ 1 - / 10 ^ 8 <= F1 E.
Proof.
  destruct tangent_object as (i & q & s & c & d & A & Q & _ & _ & B).
  destruct (B 10 (1/100) ltac:(lra) ltac:(lra)) as (o & E & [K _]).
  destruct (blasius_flow i q s _ _ _ _ o E) as [Fl So]. pose proof (GG_pos o _ _ _ Fl 1 ltac:(lra)) as G.
  assert (HY : q_eta o 1 (blasius_eta_inf / GG 0 10 (1/100) 1) = Ok (s_eta_inf o)).
  { rewrite (eta_val o _ _ _ Fl 1 _ ltac:(lra)), K. do 2 f_equal. field. lra. }
  destruct (default_inside i q s A _ _ o 1 _ E ltac:(lra) HY)
    as (H & F0 & F1 & F2 & e & P & Z0 & He & O & R2 & R1).
  exists i, q, s, o, F0, F1, F2, e, (blasius_eta_inf / GG 0 10 (1/100) 1).
  repeat (split; [assumption|]). exact R1.
Qed.

(* ---------------------------------------------------------------- C147 *)
(** At the edge itself the velocity is the edge velocity, up to the residual of f'. *)
Theorem edge_velocity_partial : forall o beta u_ref nu_ref E x Y f1,
  flow o beta u_ref nu_ref -> s_eta_inf o = Fin E -> 0 < x -> q_eta o x Y = Ok (Fin E) ->
  q_f_p o (s_eta_inf o) = Ok (Fin f1) ->
  exists ue u, qs_u_e o x = Ok (Fin ue) /\ q_u o x Y = Ok (Fin u) /\ 0 < ue /\
    Rabs (u - ue) = ue * Rabs (1 - f1).
Proof.
  intros o b U N E x Y f1 A B C D K. rewrite B in K.
  destruct (at_edge_lem o b U N E x Y f1 A C D K) as (ue & H1 & H2 & H3).
  exists ue, (ue * f1). split; [exact H1|]. split; [exact H3|]. split; [exact H2|].
  replace (ue * f1 - ue) with (- (ue * (1 - f1))) by ring.
  rewrite Rabs_Ropp, Rabs_mult, (Rabs_pos_eq ue) by lra. reflexivity.
Qed.
Print Assumptions edge_velocity_partial.

(** For the default Blasius object that is one part in 10^8. *)
Theorem blasius_edge_velocity_partial : forall ivp quad bisect U N o x Y,
  exact_ivp ivp -> exact_quad quad -> exact_bisect bisect ->
  new_blasius ivp quad bisect (Fin U) (Fin N) None None = Ok o -> 0 < x ->
  q_eta o x Y = Ok (s_eta_inf o) ->
  exists ue u, qs_u_e o x = Ok (Fin ue) /\ q_u o x Y = Ok (Fin u) /\ Rabs (u - ue) < ue * / 10 ^ 8.
Proof.
  intros i q s U N o x Y A B C D Hx HY. destruct (blasius_flow i q s _ _ _ _ o D) as [Fl _].
  pose proof Fl as (_ & _ & _ & _ & _ & _ & HU & HN & _).
  destruct (default_numbers i q s A B C U N o D HU HN) as [(f1 & f2 & E1 & _ & E2 & _) _].
  destruct (s_eta_inf o) as [E| | |] eqn:EE;
    try (rewrite (eta_val o _ _ _ Fl x Y Hx) in HY; discriminate HY).
  destruct (edge_velocity_partial o 0 U N E x Y f1 Fl EE Hx HY) as (ue & u & H1 & H2 & H3 & H4).
  { rewrite EE. exact E1. }
  exists ue, u. split; [exact H1|]. split; [exact H2|]. rewrite H4. apply Rmult_lt_compat_l; assumption.
Qed.
Print Assumptions blasius_edge_velocity_partial.

Example edge_velocity_case : exists ivp quad bisect o,
  exact_ivp ivp /\ exact_quad quad /\ exact_bisect bisect /\
  new_blasius ivp quad bisect (Fin 10) (Fin (1/100)) None None = Ok o /\
  s_eta_inf o = Fin blasius_eta_inf /\ exists Y f1, q_eta o 1 Y = Ok (s_eta_inf o) /\
  q_f_p o (s_eta_inf o) = Ok (Fin f1).
Proof.
  destruct tangent_object as (i & q & s & c & d & A & Q & Bi & _ & B).
  destruct (B 10 (1/100) ltac:(lra) ltac:(lra)) as (o & E & [K L]). exists i, q, s, o.
  split; [exact A|]. split; [exact Q|]. split; [exact Bi|]. split; [exact E|]. split; [exact K|].
  destruct (blasius_flow i q s _ _ _ _ o E) as [Fl _]. pose proof (GG_pos o _ _ _ Fl 1 ltac:(lra)) as G.
  exists (blasius_eta_inf / GG 0 10 (1/100) 1). eexists. rewrite K. split.
  - rewrite (eta_val o _ _ _ Fl 1 _ ltac:(lra)). do 2 f_equal. field. lra.
  - apply L. lra.
Qed.

(** Above it the velocity grows beyond every bound whenever the last piece of the profile is
    not constant. *)
Theorem velocity_above_edge_unbounded : forall o beta u_ref nu_ref E c r x,
  flow o beta u_ref nu_ref -> continues_as o E (c :: r) -> last r 0 <> 0 -> 0 < x ->
  forall B, exists y0, forall y, y0 <= y -> exists u, q_u o x y = Ok (Fin u) /\ B < Rabs u.
Proof. exact above_lem. Qed.
Print Assumptions velocity_above_edge_unbounded.

(** So the velocity is not the edge velocity there, even for the default Blasius object and
    exact integrations inside the layer. *)
Theorem velocity_above_edge_refuted : exists ivp quad bisect o E c s,
  exact_ivp ivp /\ exact_quad quad /\ exact_bisect bisect /\
  new_blasius ivp quad bisect (Fin 10) (Fin (1/100)) None None = Ok o /\
  continues_as o E [c; s] /\ s <> 0 /\
  forall x, 0 < x -> exists y eta ue u, q_eta o x y = Ok (Fin eta) /\ E < eta /\
    qs_u_e o x = Ok (Fin ue) /\ q_u o x y = Ok (Fin u) /\ 2 * ue < Rabs u.
Proof.
  destruct tangent_object as (i & q & s & c & d & A & Q & Bi & Hd & B).
  destruct (B 10 (1/100) ltac:(lra) ltac:(lra)) as (o & E & K). exists i, q, s, o, blasius_eta_inf, c, d.
  split; [exact A|]. split; [exact Q|]. split; [exact Bi|]. split; [exact E|]. split; [exact K|]. split; [lra|].
  intros x Hx. destruct (blasius_flow i q s _ _ _ _ o E) as [Fl _]. pose proof (GG_pos o _ _ _ Fl x Hx) as G.
  destruct (above_lem o _ _ _ _ c [d] x Fl K ltac:(cbn; lra) Hx (2 * UE 0 10 x)) as (y0 & H).
  set (y := Rmax y0 ((blasius_eta_inf + 1) / GG 0 10 (1/100) x)).
  destruct (H y (Rmax_l _ _)) as (u & U1 & U2).
  exists y, (y * GG 0 10 (1/100) x), (UE 0 10 x), u.
  split; [apply (eta_val o _ _ _ Fl x y Hx)|]. split; [|split; [apply (ue_val o _ _ _ Fl x Hx)|split; assumption]].
  assert (L : (blasius_eta_inf + 1) / GG 0 10 (1/100) x * GG 0 10 (1/100) x <= y * GG 0 10 (1/100) x).
  { apply Rmult_le_compat_r; [lra|apply Rmax_r]. }
  replace ((blasius_eta_inf + 1) / GG 0 10 (1/100) x * GG 0 10 (1/100) x) with (blasius_eta_inf + 1) in L by (field; lra). lra.
Qed.
Print Assumptions velocity_above_edge_refuted.
