(** Proofs about the similarity solutions: velocities, derivatives, integrals. *)
From Coq Require Import Reals List Lra Lia.
From Coquelicot Require Import Coquelicot.
From Verif Require Import PyBase PyBaseFacts XDeriv SimilarityModel SimilaritySpec
  ThwaitesOdeProofs PositivityProofs.
Open Scope R_scope.

(** Uniqueness of the derivatives, so that [rderiv] determines them. *)
Lemma rderiv_unique q x d1 d2 : rderiv q x d1 -> rderiv q x d2 -> d1 = d2.
Proof.
  intros [g1 [L1 D1]] [g2 [L2 D2]].
  assert (D3 : is_derive g1 x d2).
  { apply (is_derive_ext_loc g2); [|exact D2].
    generalize (filter_and _ _ L1 L2). apply filter_imp. intros y [E1 E2].
    rewrite E1 in E2. injection E2 as E2. symmetry; exact E2. }
  rewrite <- (is_derive_unique _ _ _ D1). apply is_derive_unique. exact D3.
Qed.

Lemma rderiv2_unique q x d1 d2 : rderiv2 q x d1 -> rderiv2 q x d2 -> d1 = d2.
Proof.
  intros [g1 [L1 D1]] [g2 [L2 D2]].
  assert (D3 : is_derive g1 x d2).
  { apply (is_derive_ext_loc g2); [|exact D2].
    generalize (filter_and _ _ L1 L2). apply filter_imp. intros y [E1 E2].
    exact (rderiv_unique _ _ _ _ E2 E1). }
  rewrite <- (is_derive_unique _ _ _ D1). apply is_derive_unique. exact D3.
Qed.

Lemma comp_derive (f g : R -> R) (x a b : R) :
  is_derive f (g x) a -> is_derive g x b -> is_derive (fun t => f (g t)) x (a * b).
Proof.
  intros D1 D2. pose proof (is_derive_comp f g x a b D1 D2) as D. cbn in D.
  rewrite Rmult_comm. exact D.
Qed.

Lemma derive_eq (f : R -> R) (x a b : R) : is_derive f x a -> @eq R a b -> is_derive f x b.
Proof. intros D E. rewrite <- E. exact D. Qed.

Definition Mx (b : R) : R := b / (2 * 1 - b).
Definition UE (b U x : R) : R := U * Rpower x (Mx b).
Definition GG (b U N x : R) : R := sqrt (UE b U x / ((2 - b) * N * x)).

Section Flow.
Variables (o : sim) (b U N : R).
Hypothesis F : flow o b U N.

Lemma ue_val x : 0 < x -> qs_u_e o x = Ok (Fin (UE b U x)).
Proof.
  destruct F as (A & _ & B & C & _ & [_ D] & _). intros Hx.
  unfold qs_u_e. rewrite A, B, C, xmul_fin, xsub_fin, py_div_fin by lra.
  cbn [bind]. rewrite xpow_fin by exact Hx. rewrite xmul_fin. reflexivity.
Qed.

Lemma UE_pos x : 0 < UE b U x.
Proof.
  destruct F as (_ & _ & _ & _ & _ & _ & HU & _). unfold UE.
  apply Rmult_lt_0_compat; [exact HU | unfold Rpower; apply exp_pos].
Qed.

Lemma den_pos x : 0 < x -> 0 < (2 - b) * N * x.
Proof.
  destruct F as (_ & _ & _ & _ & _ & [_ D] & _ & HN & _). intros Hx.
  repeat apply Rmult_lt_0_compat; lra.
Qed.

Lemma GG_pos x : 0 < x -> 0 < GG b U N x.
Proof.
  intros Hx. unfold GG. apply sqrt_lt_R0. apply Rdiv_lt_0_compat;
  [apply UE_pos | apply den_pos; exact Hx].
Qed.

Lemma GG_sq x : 0 < x -> GG b U N x * GG b U N x = UE b U x / ((2 - b) * N * x).
Proof.
  intros Hx. unfold GG. apply sqrt_sqrt. left. apply Rdiv_lt_0_compat;
  [apply UE_pos | apply den_pos; exact Hx].
Qed.

Lemma g_val x : 0 < x -> q_g o x = Ok (Fin (GG b U N x)).
Proof.
  intros Hx. pose proof (den_pos x Hx) as Hd. pose proof (UE_pos x) as Hu.
  pose proof F as (A & _ & B & C & D & _ & _ & _ & K).
  unfold q_g. rewrite (ue_val x Hx). cbn [bind].
  assert (P : 0 <= UE b U x / ((2 - b) * N * x)) by (left; apply Rdiv_lt_0_compat; assumption).
  rewrite B, D. destruct (s_class o) eqn:Ec.
  - specialize (K eq_refl).
    assert (E2 : (Fin 2 * Fin N * Fin x)%xr = Fin ((2 - b) * N * x)).
    { rewrite !xmul_fin. f_equal. rewrite K. ring. }
    rewrite E2, xdiv_fin by lra. rewrite xsqrt_fin by exact P. reflexivity.
  - rewrite !xsub_fin, !xmul_fin, xdiv_fin by lra. rewrite xsqrt_fin by exact P. reflexivity.
Qed.

Lemma UE_derive x : 0 < x -> is_derive (UE b U) x (Mx b / x * UE b U x).
Proof.
  intros Hx. unfold UE, Rpower. auto_derive; [exact Hx|]. field. lra.
Qed.

Lemma Mx_val : Mx b = b / (2 - b).
Proof. unfold Mx. f_equal. ring. Qed.

Lemma GG_derive x : 0 < x -> is_derive (GG b U N) x ((b - 1) / ((2 - b) * x) * GG b U N x).
Proof.
  intros Hx. pose proof (den_pos x Hx) as Hd. pose proof (UE_pos x) as Hu.
  pose proof (GG_pos x Hx) as Hg. pose proof (GG_sq x Hx) as Hs.
  destruct F as (_ & _ & _ & _ & _ & [_ Hb] & HU & HN & _).
  assert (P : 0 < UE b U x / ((2 - b) * N * x)) by (apply Rdiv_lt_0_compat; assumption).
  assert (I : is_derive (fun t => UE b U t / ((2 - b) * N * t)) x
                (2 * (b - 1) / ((2 - b) * x) * (UE b U x / ((2 - b) * N * x)))).
  { pose proof (UE_derive x Hx) as D1.
    assert (D2 : is_derive (fun t : R => / ((2 - b) * N * t)) x
                   (- ((2 - b) * N) / ((2 - b) * N * x) ^ 2)).
    { auto_derive; [lra|]. field. repeat split; lra. }
    pose proof (mult_derive _ _ _ _ _ D1 D2) as D3.
    replace (2 * (b - 1) / ((2 - b) * x) * (UE b U x / ((2 - b) * N * x))) with
      (Mx b / x * UE b U x * / ((2 - b) * N * x) +
       UE b U x * (- ((2 - b) * N) / ((2 - b) * N * x) ^ 2)).
    - exact D3.
    - rewrite Mx_val. field. repeat split; lra. }
  unfold GG at 1.
  assert (S : is_derive sqrt (UE b U x / ((2 - b) * N * x)) (/ (2 * GG b U N x))).
  { unfold GG. apply is_derive_Reals. apply derivable_pt_lim_sqrt. exact P. }
  pose proof (comp_derive sqrt (fun t => UE b U t / ((2 - b) * N * t)) x _ _ S I) as Dc.
  apply (derive_eq _ _ _ _ Dc). rewrite <- Hs. field. repeat split; lra.
Qed.

Lemma eta_val x y : 0 < x -> q_eta o x y = Ok (Fin (y * GG b U N x)).
Proof. intros Hx. unfold q_eta. rewrite (g_val x Hx). cbn [bind]. rewrite xmul_fin. reflexivity. Qed.

Variables (F0 F1 F2 : R -> R).

Definition holds_at (e : R) : Prop :=
  exists f, s_f o = Some f /\ f (Fin e) = (Fin (F0 e), Fin (F1 e), Fin (F2 e)).

Lemma u_val x y : 0 < x -> holds_at (y * GG b U N x) ->
  q_u o x y = Ok (Fin (UE b U x * F1 (y * GG b U N x))).
Proof.
  intros Hx [f [E1 E2]]. unfold q_u. rewrite (ue_val x Hx), (eta_val x y Hx). cbn [bind].
  unfold q_f_p. rewrite E1, E2. cbn [bind t1 fst snd]. rewrite xmul_fin. reflexivity.
Qed.

Definition VV (x y : R) : R :=
  - (N * GG b U N x * (F0 (y * GG b U N x) + (b - 1) * (y * GG b U N x) * F1 (y * GG b U N x))).

Lemma v_val x y : 0 < x -> holds_at (y * GG b U N x) -> q_v o x y = Ok (Fin (VV x y)).
Proof.
  intros Hx [f [E1 E2]]. unfold q_v. rewrite (eta_val x y Hx), (g_val x Hx). cbn [bind].
  destruct F as (A & _ & B & _ & D & _).
  unfold q_f, q_f_p. rewrite E1, E2, A, B, D. cbn [bind t0 t1 fst snd].
  rewrite py_div_fin by lra. cbn [bind].
  repeat (rewrite ?xsub_fin, ?xmul_fin, ?xadd_fin, ?xneg_fin).
  unfold VV. repeat f_equal; field.
Qed.

Lemma near_x x y : 0 < x -> profile_near o F0 F1 F2 (y * GG b U N x) ->
  locally x (fun t => 0 < t /\ holds_at (y * GG b U N t)).
Proof.
  intros Hx [f [E1 E2]].
  assert (C : continuous (fun t => y * GG b U N t) x).
  { apply (ex_derive_continuous (fun t => y * GG b U N t)). eexists.
    apply (is_derive_scal (GG b U N)). apply GG_derive. exact Hx. }
  pose proof (C _ E2) as L. unfold filtermap in L.
  generalize (filter_and _ _ (locally_gt 0 x Hx) L). apply filter_imp.
  intros t [P Q]. split; [exact P|]. exists f. split; [exact E1|exact Q].
Qed.

Lemma near_y x y : 0 < x -> profile_near o F0 F1 F2 (y * GG b U N x) ->
  locally y (fun t => holds_at (t * GG b U N x)).
Proof.
  intros Hx [f [E1 E2]].
  assert (C : continuous (fun t => t * GG b U N x) y).
  { apply (ex_derive_continuous (fun t => t * GG b U N x)). auto_derive. exact I. }
  pose proof (C _ E2) as L. unfold filtermap in L. revert L. apply filter_imp.
  intros t Q. exists f. split; [exact E1|exact Q].
Qed.

Lemma profile_here e : profile_near o F0 F1 F2 e -> holds_at e.
Proof.
  intros [f [E1 E2]]. exists f. split; [exact E1|]. exact (locally_singleton _ _ E2).
Qed.

Lemma u_dx x y f2 : 0 < x -> profile_near o F0 F1 F2 (y * GG b U N x) ->
  is_derive F1 (y * GG b U N x) f2 ->
  rderiv (fun t => q_u o t y) x
    (UE b U x / ((2 - b) * x) * (b * F1 (y * GG b U N x) + (b - 1) * (y * GG b U N x) * f2)).
Proof.
  intros Hx P D1. exists (fun t => UE b U t * F1 (y * GG b U N t)). split.
  - generalize (near_x x y Hx P). apply filter_imp. intros t [Ht Hh]. apply u_val; assumption.
  - pose proof (GG_derive x Hx) as DG.
    assert (DE : is_derive (fun t => y * GG b U N t) x (y * ((b - 1) / ((2 - b) * x) * GG b U N x))).
    { apply (is_derive_scal (GG b U N)). exact DG. }
    pose proof (comp_derive F1 (fun t => y * GG b U N t) x _ _ D1 DE) as DC.
    pose proof (mult_derive _ _ _ _ _ (UE_derive x Hx) DC) as DM.
    apply (derive_eq _ _ _ _ DM). rewrite Mx_val.
    destruct F as (_ & _ & _ & _ & _ & [_ Hb] & _). field. split; lra.
Qed.

Lemma u_dy x y f2 : 0 < x -> profile_near o F0 F1 F2 (y * GG b U N x) ->
  is_derive F1 (y * GG b U N x) f2 ->
  rderiv (fun t => q_u o x t) y (UE b U x * GG b U N x * f2).
Proof.
  intros Hx P D1. exists (fun t => UE b U x * F1 (t * GG b U N x)). split.
  - generalize (near_y x y Hx P). apply filter_imp. intros t Hh. apply u_val; assumption.
  - assert (DE : is_derive (fun t => t * GG b U N x) y (GG b U N x)).
    { auto_derive; [exact I|ring]. }
    pose proof (comp_derive F1 (fun t => t * GG b U N x) y _ _ D1 DE) as DC.
    pose proof (is_derive_scal _ _ (UE b U x) _ DC) as DM.
    apply (derive_eq _ _ _ _ DM). ring.
Qed.

Lemma v_dy x y f2 : 0 < x -> profile_near o F0 F1 F2 (y * GG b U N x) ->
  is_derive F0 (y * GG b U N x) (F1 (y * GG b U N x)) ->
  is_derive F1 (y * GG b U N x) f2 ->
  rderiv (fun t => q_v o x t) y
    (- (N * (GG b U N x * GG b U N x) * (b * F1 (y * GG b U N x) + (b - 1) * (y * GG b U N x) * f2))).
Proof.
  intros Hx P D0 D1. exists (fun t => VV x t). split.
  - generalize (near_y x y Hx P). apply filter_imp. intros t Hh. apply v_val; assumption.
  - assert (DE : is_derive (fun t => t * GG b U N x) y (GG b U N x)).
    { auto_derive; [exact I|ring]. }
    pose proof (comp_derive F0 (fun t => t * GG b U N x) y _ _ D0 DE) as DC0.
    pose proof (comp_derive F1 (fun t => t * GG b U N x) y _ _ D1 DE) as DC1.
    pose proof (mult_derive _ _ _ _ _ (is_derive_scal _ _ (b - 1) _ DE) DC1) as DM.
    pose proof (is_derive_scal _ _ (- (N * GG b U N x)) _ (is_derive_plus _ _ _ _ _ DC0 DM)) as DF.
    eapply is_derive_ext; [|eapply (derive_eq _ _ _ _ DF)].
    + intros t. unfold VV. unfold plus; simpl. ring.
    + unfold plus; simpl. ring.
Qed.

Lemma continuity_equation_lem x y f2 :
  0 < x -> profile_near o F0 F1 F2 (y * GG b U N x) ->
  is_derive F0 (y * GG b U N x) (F1 (y * GG b U N x)) ->
  is_derive F1 (y * GG b U N x) f2 ->
  exists ux vy, rderiv (fun t => q_u o t y) x ux /\ rderiv (fun t => q_v o x t) y vy /\
                ux + vy = 0.
Proof.
  intros Hx P D0 D1. eexists _, _. split; [apply (u_dx x y f2); assumption|].
  split; [apply (v_dy x y f2); assumption|].
  rewrite (GG_sq x Hx). pose proof (den_pos x Hx) as Hd.
  destruct F as (_ & _ & _ & _ & _ & [_ Hb] & _ & HN & _). field. repeat split; lra.
Qed.

Lemma u_dyy x y : 0 < x -> profile_near o F0 F1 F2 (y * GG b U N x) ->
  locally (y * GG b U N x) (fun t => is_derive F1 t (F2 t)) ->
  falkner_skan_at b F0 F1 F2 (y * GG b U N x) ->
  rderiv2 (fun t => q_u o x t) y (UE b U x * (GG b U N x * GG b U N x)
    * - (F0 (y * GG b U N x) * F2 (y * GG b U N x)
         + b * (1 - F1 (y * GG b U N x) * F1 (y * GG b U N x)))).
Proof.
  intros Hx P L1 D2. exists (fun t => UE b U x * GG b U N x * F2 (t * GG b U N x)). split.
  - assert (C : continuous (fun t => t * GG b U N x) y).
    { apply (ex_derive_continuous (fun t => t * GG b U N x)). auto_derive. exact I. }
    destruct P as [f [E1 E2]].
    pose proof (C _ (locally_locally _ _ E2)) as L2. unfold filtermap in L2.
    pose proof (C _ L1) as L3. unfold filtermap in L3.
    generalize (filter_and _ _ L2 L3). apply filter_imp. intros t [A B].
    apply u_dy; [exact Hx | exists f; split; assumption | exact B].
  - assert (DE : is_derive (fun t => t * GG b U N x) y (GG b U N x)).
    { auto_derive; [exact I|ring]. }
    pose proof (comp_derive F2 (fun t => t * GG b U N x) y _ _ D2 DE) as DC.
    pose proof (is_derive_scal _ _ (UE b U x * GG b U N x) _ DC) as DM.
    apply (derive_eq _ _ _ _ DM). ring.
Qed.

Lemma ue_dx x : 0 < x -> rderiv (qs_u_e o) x (Mx b / x * UE b U x).
Proof.
  intros Hx. exists (UE b U). split; [|apply UE_derive; exact Hx].
  generalize (locally_gt 0 x Hx). apply filter_imp. intros t Ht. apply ue_val. exact Ht.
Qed.

Lemma momentum_equation_lem x y :
  0 < x -> profile_near o F0 F1 F2 (y * GG b U N x) ->
  is_derive F0 (y * GG b U N x) (F1 (y * GG b U N x)) ->
  locally (y * GG b U N x) (fun t => is_derive F1 t (F2 t)) ->
  falkner_skan_at b F0 F1 F2 (y * GG b U N x) ->
  exists u v ux uy uyy ue due,
    q_u o x y = Ok (Fin u) /\ q_v o x y = Ok (Fin v) /\ qs_u_e o x = Ok (Fin ue) /\
    rderiv (fun t => q_u o t y) x ux /\ rderiv (fun t => q_u o x t) y uy /\
    rderiv2 (fun t => q_u o x t) y uyy /\ rderiv (qs_u_e o) x due /\
    u * ux + v * uy = ue * due + N * uyy.
Proof.
  intros Hx P D0 L1 D2. pose proof (locally_singleton _ _ L1) as D1. cbn beta in D1.
  pose proof (profile_here _ P) as Hh.
  eexists _, _, _, _, _, _, _.
  split; [apply u_val; assumption|]. split; [apply v_val; assumption|].
  split; [apply ue_val; assumption|].
  split; [apply (u_dx x y (F2 (y * GG b U N x))); assumption|].
  split; [apply (u_dy x y (F2 (y * GG b U N x))); assumption|].
  split; [apply u_dyy; assumption|]. split; [apply ue_dx; assumption|].
  unfold VV. rewrite Mx_val.
  set (e := y * GG b U N x). set (g := GG b U N x) in *. set (w := UE b U x).
  assert (G2 : g * g = w / ((2 - b) * N * x)) by (apply GG_sq; exact Hx).
  pose proof (den_pos x Hx) as Hd.
  destruct F as (_ & _ & _ & _ & _ & [_ Hb] & _ & HN & _).
  replace (- (N * g * (F0 e + (b - 1) * e * F1 e)) * (w * g * F2 e))
    with (- (N * (g * g) * (F0 e + (b - 1) * e * F1 e)) * (w * F2 e)) by ring.
  rewrite G2. field. repeat split; lra.
Qed.

Lemma wall_lem x rho :
  0 < x -> profile_near o F0 F1 F2 0 -> F0 0 = 0 -> F1 0 = 0 -> is_derive F1 0 (F2 0) ->
  q_u o x 0 = Ok (Fin 0) /\ q_v o x 0 = Ok (Fin 0) /\
  exists uy, rderiv (fun t => q_u o x t) 0 uy /\
             qs_tau_w o x (Fin rho) = Ok (Fin (rho * N * uy)).
Proof.
  intros Hx P Z0 Z1 D.
  assert (E0 : 0 * GG b U N x = 0) by ring.
  assert (P' : profile_near o F0 F1 F2 (0 * GG b U N x)) by (rewrite E0; exact P).
  assert (Dp : is_derive F1 (0 * GG b U N x) (F2 0)) by (rewrite E0; exact D).
  pose proof (profile_here _ P') as Hh.
  split; [rewrite (u_val x 0 Hx Hh), E0, Z1; repeat f_equal; ring|].
  split; [rewrite (v_val x 0 Hx Hh); unfold VV; rewrite E0, Z0, Z1; repeat f_equal; ring|].
  eexists. split; [apply (u_dy x 0 (F2 0)); assumption|].
  unfold qs_tau_w. rewrite (ue_val x Hx), (g_val x Hx). cbn [bind].
  destruct (profile_here _ P) as [f [E1 E2]].
  unfold q_fw_pp, q_f_pp. rewrite E1, E2. cbn [bind t2 snd].
  destruct F as (_ & _ & _ & _ & D' & _). rewrite D'. rewrite !xmul_fin. apply f_equal, f_equal. ring.
Qed.

Lemma transpiration_lem x d :
  0 < x -> s_eta_d o = Fin d ->
  exists v, qs_v_e o x = Ok (Fin v) /\
    rderiv (fun t => bind (qs_u_e o t) (fun ue => bind (qs_delta_d o t) (fun dd =>
              Ok (ue * dd)%xr))) x v.
Proof.
  intros Hx Ed. pose proof F as (_ & _ & _ & _ & D' & [_ Hb] & _ & HN & _).
  eexists. split.
  - unfold qs_v_e. rewrite (g_val x Hx), Ed, D'. cbn [bind]. rewrite !xmul_fin. reflexivity.
  - exists (fun t => UE b U t * (d * / GG b U N t)). split.
    + generalize (locally_gt 0 x Hx). apply filter_imp. intros t Ht.
      pose proof (GG_pos t Ht). unfold qs_delta_d. rewrite (ue_val t Ht), (g_val t Ht).
      cbn [bind]. rewrite Ed, xdiv_fin by lra. cbn [bind]. rewrite xmul_fin. reflexivity.
    + pose proof (GG_pos x Hx) as Hg. pose proof (GG_sq x Hx) as Hs.
      pose proof (den_pos x Hx) as Hd.
      assert (DI : is_derive (fun t => / GG b U N t) x
                (- ((b - 1) / ((2 - b) * x) * GG b U N x) / (GG b U N x) ^ 2)).
      { apply (is_derive_inv (GG b U N)); [apply GG_derive; exact Hx|lra]. }
      pose proof (mult_derive _ _ _ _ _ (UE_derive x Hx) (is_derive_scal _ _ d _ DI)) as DM.
      apply (derive_eq _ _ _ _ DM). rewrite Mx_val.
      assert (EU : UE b U x = GG b U N x * GG b U N x * ((2 - b) * N * x)).
      { rewrite Hs. field. repeat split; lra. }
      rewrite EU. field. repeat split; lra.
Qed.

Lemma shape_lem x d m k :
  0 < x -> s_eta_d o = Fin d -> s_eta_m o = Fin m -> s_eta_k o = Fin k -> m <> 0 ->
  qs_shape_d o x = Ok (Fin (d / m)) /\ qs_shape_k o x = Ok (Fin (k / m)) /\
  exists dd dm dk, qs_delta_d o x = Ok (Fin dd) /\ qs_delta_m o x = Ok (Fin dm) /\
    qs_delta_k o x = Ok (Fin dk) /\ dd / dm = d / m /\ dk / dm = k / m.
Proof.
  intros Hx Ed Em Ek Hm. pose proof (GG_pos x Hx) as Hg.
  unfold qs_shape_d, qs_shape_k, qs_delta_d, qs_delta_m, qs_delta_k.
  rewrite Ed, Em, Ek, !py_div_fin, (g_val x Hx) by assumption. cbn [bind].
  rewrite !xdiv_fin by lra. split; [reflexivity|]. split; [reflexivity|].
  eexists _, _, _. split; [reflexivity|]. split; [reflexivity|]. split; [reflexivity|].
  split; field; lra.
Qed.
End Flow.
