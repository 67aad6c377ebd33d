(** Every object a user can build satisfies the hypotheses [flow] and [solved]. *)
From Coq Require Import Reals List Lra Lia Bool.
From Coquelicot Require Import Coquelicot.
From Verif Require Import PyBase PyBaseFacts SimilarityModel SimilaritySpec SimilarityHistoryProofs.
Import ListNotations.
Open Scope R_scope.

Section Scipy.
Variable ivp : (triple -> triple) -> xr -> triple -> res ivp3.
Variable quad : (xr -> res xr) -> xr -> res xr.
Variable bisect : (xr -> res xr) -> xr -> res (bool * xr).

Lemma new_sim_inv c U N a b g w e o :
  new_sim ivp quad bisect c (Fin U) (Fin N) (Fin a) (Fin b) (Fin g) w e = Ok o ->
  0 < U /\ 0 < N /\ s_class o = c /\ s_u_ref o = Fin U /\ s_nu_ref o = Fin N /\
  s_alpha o = Fin a /\ s_beta o = Fin b /\ s_gamma o = Fin g /\ solved ivp quad bisect o.
Proof.
  unfold new_sim. cbn [xleb].
  destruct (Rleb U 0) eqn:EU; [discriminate|]. destruct (Rleb N 0) eqn:EN; [discriminate|].
  unfold Rleb in EU, EN. destruct (Rle_dec U 0); [discriminate|]. destruct (Rle_dec N 0); [discriminate|].
  match goal with |- context[set_solution_parameters _ _ _ ?o ?e ?w] =>
    pose proof (set_solution_kept ivp quad bisect o e w) as K;
    destruct (set_solution_parameters ivp quad bisect o e w) as [o' [[]|x]] eqn:ES end; [|discriminate].
  intros H. inversion H; subst o'. destruct K as (K1 & K2 & K3 & K4 & K5 & K6). cbn in *.
  split; [lra|]. split; [lra|]. repeat (split; [assumption|]).
  eexists _, _, _, o, []. split; [exact ES|]. split; [constructor|reflexivity].
Qed.

Lemma blasius_flow U N w e o :
  new_blasius ivp quad bisect (Fin U) (Fin N) w e = Ok o ->
  flow o 0 U N /\ solved ivp quad bisect o.
Proof.
  intros H. apply new_sim_inv in H. destruct H as (HU & HN & A & B & C & D & E & G & S).
  split; [|exact S]. unfold flow. rewrite D, G, E, B, C. unfold beta_min.
  repeat (split; [reflexivity || lra|]). intros _. reflexivity.
Qed.

Lemma falkner_skan_flow b U N w e o : b < 2 ->
  new_falkner_skan ivp quad bisect (Fin b) (Fin U) (Fin N) w e = Ok o ->
  flow o b U N /\ solved ivp quad bisect o.
Proof.
  intros Hb. unfold new_falkner_skan. destruct (beta_rejected (Fin b)) eqn:R; [discriminate|].
  apply beta_rejected_fin in R. intros H. apply new_sim_inv in H.
  destruct H as (HU & HN & A & B & C & D & E & G & S).
  split; [|exact S]. unfold flow. rewrite D, G, E, B, C, A.
  repeat (split; [reflexivity || lra|]). discriminate.
Qed.

(** The part of [flow] that every call keeps. *)
Definition sound (o : sim) : Prop :=
  s_class o = CFalknerSkan /\ s_alpha o = Fin 1 /\ s_gamma o = Fin 1 /\ beta_ok o /\
  (exists U, s_u_ref o = Fin U /\ 0 < U) /\ (exists N, s_nu_ref o = Fin N /\ 0 < N).

Lemma reset_beta_kept o b e w :
  let o' := fst (reset_beta ivp quad bisect o b e w) in
  s_class o' = s_class o /\ s_u_ref o' = s_u_ref o /\ s_nu_ref o' = s_nu_ref o /\
  s_alpha o' = s_alpha o /\ s_gamma o' = s_gamma o.
Proof.
  cbv zeta. unfold reset_beta. destruct (beta_rejected b); [repeat split|].
  pose proof (set_solution_kept ivp quad bisect (sim_with_beta o b) e w) as (K1 & K2 & K3 & K4 & _ & K6).
  rewrite K1, K2, K3, K4, K6. repeat split.
Qed.

Lemma call_sound o c : sound o -> finite_call c -> sound (fst (do_scall ivp quad bisect o c)).
Proof.
  intros (A & B & C & D & U & N) H.
  pose proof (call_beta_ok ivp quad bisect o c D H) as BO.
  destruct c as [v|v|e w|b e w|m e w]; cbn [do_scall finite_call] in *.
  - destruct H as [r ->]. unfold set_u_ref in *. cbn [xleb] in *.
    destruct (Rleb r 0) eqn:L; [repeat split; assumption|].
    unfold Rleb in L. destruct (Rle_dec r 0); [discriminate|].
    repeat (split; [assumption|]). split; [exists r; split; [reflexivity|lra]|exact N].
  - destruct H as [r ->]. unfold set_nu_ref in *. cbn [xleb] in *.
    destruct (Rleb r 0) eqn:L; [repeat split; assumption|].
    unfold Rleb in L. destruct (Rle_dec r 0); [discriminate|].
    repeat (split; [assumption|]). exists r; split; [reflexivity|lra].
  - pose proof (set_solution_kept ivp quad bisect o e w) as (K1 & K2 & K3 & K4 & _ & K6).
    unfold sound. rewrite K1, K2, K3, K4, K6. repeat (split; [assumption|]). assumption.
  - pose proof (reset_beta_kept o b e w) as (K1 & K2 & K3 & K4 & K6).
    unfold sound. rewrite K1, K2, K3, K4, K6. repeat (split; [assumption|]). assumption.
  - unfold reset_m in *. destruct (xeqb m PInf).
    + pose proof (reset_beta_kept o (Fin 2) e w) as (K1 & K2 & K3 & K4 & K6).
      unfold sound. rewrite K1, K2, K3, K4, K6. repeat (split; [assumption|]). assumption.
    + destruct (py_div _ _) as [b|]; [|repeat (split; [assumption|]); assumption].
      pose proof (reset_beta_kept o b e w) as (K1 & K2 & K3 & K4 & K6).
      unfold sound. rewrite K1, K2, K3, K4, K6. repeat (split; [assumption|]). assumption.
Qed.

Lemma history_flow b U N w e o cs :
  new_falkner_skan ivp quad bisect (Fin b) (Fin U) (Fin N) w e = Ok o ->
  List.Forall finite_call cs ->
  let o' := do_scalls ivp quad bisect o cs in
  s_beta o' = Fin 2 \/ exists b' U' N', flow o' b' U' N'.
Proof.
  intros H Hc. cbv zeta.
  assert (S0 : sound o).
  { pose proof (new_falkner_skan_beta _ _ _ _ _ _ _ _ _ H) as BO. revert H.
    unfold new_falkner_skan. destruct (beta_rejected (Fin b)) eqn:R; [discriminate|].
    intros H. apply new_sim_inv in H. destruct H as (HU & HN & A & B & C & D & E & G & _).
    unfold sound. repeat (split; [assumption|]). split; [exists U|exists N]; split; assumption. }
  assert (S1 : sound (do_scalls ivp quad bisect o cs)).
  { clear H. revert o S0. induction Hc as [|c r Hc Hr IH]; intros o S0; [exact S0|].
    cbn [do_scalls]. apply IH. apply call_sound; assumption. }
  destruct S1 as (A & B & C & [r [E [R1 R2]]] & [U' [EU PU]] & [N' [EN PN]]).
  destruct (Req_dec r 2) as [->|Z]; [left; exact E|right].
  exists r, U', N'. unfold flow. rewrite A. repeat (split; [assumption|]).
  split; [lra|]. split; [exact PU|]. split; [exact PN|]. discriminate.
Qed.
End Scipy.
