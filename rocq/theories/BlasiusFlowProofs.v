(** The default Blasius solution: certified numbers (C107). *)
From Coq Require Import ZArith List Reals Lra Lia.
From Coquelicot Require Import Coquelicot.
From Verif Require Import PyBase PyBaseFacts SimilarityModel SimilaritySpec SearchSpec SearchProofs
  SimilarityProofs SimilarityIntegralProofs SimilarityFlowProofs BlasiusSpec BlasiusPoly BlasiusProofs.
Open Scope R_scope.

(** ** Integrals of functions known on an interval only *)
Definition held (E t : R) : R := Rmax 0 (Rmin E t).

Lemma held_inside E t : 0 <= t <= E -> held E t = t.
Proof. intros H. unfold held. rewrite Rmin_right, Rmax_right; lra. Qed.

Lemma held_range E t : 0 <= E -> 0 <= held E t <= E.
Proof. intros H. unfold held. split; [apply Rmax_l|]. apply Rmax_lub; [lra|apply Rmin_l]. Qed.

Lemma held_continuous E t : continuous (held E) t.
Proof.
  apply (proj2 (filterlim_locally (held E) (held E t))). intros eps.
  exists eps. intros s Hs. change (Rabs (s - t) < eps) in Hs. change (Rabs (held E s - held E t) < eps).
  eapply Rle_lt_trans; [|exact Hs].
  unfold held, Rmax, Rmin. repeat destruct (Rle_dec _ _); split_Rabs; lra.
Qed.

Lemma running_integral (g : R -> R) E : 0 <= E -> (forall t, 0 <= t <= E -> continuous g t) ->
  exists K : R -> R, K 0 = 0 /\ K E = RInt g 0 E /\ forall t, 0 <= t <= E -> is_derive K t (g t).
Proof.
  intros HE HC. set (h := fun t => g (held E t)).
  assert (Ch : forall t, continuous h t).
  { intros t. apply (continuous_comp (held E) g); [apply held_continuous|apply HC, held_range, HE]. }
  assert (Ih : forall a b, ex_RInt h a b).
  { intros a b. apply (ex_RInt_continuous h). intros; apply Ch. }
  exists (fun t => RInt h 0 t). split; [apply (RInt_point 0 h)|]. split.
  - apply (RInt_ext h g). intros t Ht. rewrite Rmin_left, Rmax_right in Ht by lra.
    unfold h. rewrite held_inside by lra. reflexivity.
  - intros t Ht. replace (g t) with (h t) by (unfold h; rewrite held_inside by lra; reflexivity).
    apply (is_derive_RInt h (fun t => RInt h 0 t) 0 t); [|apply Ch].
    apply filter_forall. intros b. apply (RInt_correct h), Ih.
Qed.

(** ** The numbers *)
Definition blasius_profile (F0 F1 F2 : R -> R) : Prop :=
  F0 0 = 0 /\ F1 0 = 0 /\ F2 0 = blasius_fw_pp /\
  (forall t, 0 <= t <= blasius_eta_inf -> is_derive F0 t (F1 t)) /\
  (forall t, 0 <= t <= blasius_eta_inf -> is_derive F1 t (F2 t)) /\
  (forall t, 0 <= t <= blasius_eta_inf -> is_derive F2 t (- (F0 t * F2 t))).

Lemma edge_numbers F0 F1 F2 : blasius_profile F0 F1 F2 ->
  5928351701863 / 10 ^ 12 - small <= F0 blasius_eta_inf <= 5928351701864 / 10 ^ 12 + small /\
  999999999475 / 10 ^ 12 - small <= F1 blasius_eta_inf <= 999999999476 / 10 ^ 12 + small /\
  7718 / 10 ^ 12 - small <= F2 blasius_eta_inf <= 7719 / 10 ^ 12 + small.
Proof.
  intros (S0 & S1 & S2 & D0 & D1 & D2).
  replace (10 ^ 12) with (IZR (10 ^ 12)) by (simpl; lra).
  apply (profile_value F0 F1 F2 blasius_eta_inf blasius_fw_pp ltac:(unfold blasius_eta_inf; lra)
    ltac:(unfold blasius_fw_pp; lra) S0 S1 S2 D0 D1 D2 eq_refl 28 58052927367328 (10 ^ 14)).
  - unfold blasius_eta_inf. simpl. lra.
  - lra.
  - unfold blasius_eta_inf. lra.
  - split; discriminate.
  - reflexivity.
  - reflexivity.
  - vm_compute. reflexivity.
Qed.

Lemma inner_numbers F0 F1 F2 : blasius_profile F0 F1 F2 ->
  F1 (34718 / 10000) < 99 / 100 < F1 (34720 / 10000).
Proof.
  intros (S0 & S1 & S2 & D0 & D1 & D2).
  assert (V := profile_value F0 F1 F2 blasius_eta_inf blasius_fw_pp ltac:(unfold blasius_eta_inf; lra)
    ltac:(unfold blasius_fw_pp; lra) S0 S1 S2 D0 D1 D2 eq_refl).
  split.
  - destruct (V 13%nat 8872%Z 10000%Z (34718 / 10000) 0%Z 3000000%Z 0%Z 989998%Z 0%Z 1000000%Z 1000000%Z) as [_ [[_ H] _]].
    + simpl. lra.
    + unfold blasius_eta_inf. lra.
    + lra.
    + split; discriminate.
    + reflexivity.
    + reflexivity.
    + vm_compute. reflexivity.
    + unfold small in H. lra.
  - destruct (V 13%nat 8880%Z 10000%Z (34720 / 10000) 0%Z 3000000%Z 990002%Z 990003%Z 0%Z 1000000%Z 1000000%Z) as [_ [[H _] _]].
    + simpl. lra.
    + unfold blasius_eta_inf. lra.
    + lra.
    + split; discriminate.
    + reflexivity.
    + reflexivity.
    + vm_compute. reflexivity.
    + unfold small in H. lra.
Qed.

Lemma energy_number F0 F1 F2 : blasius_profile F0 F1 F2 ->
  73848496 / 10 ^ 8 <= RInt (fun t => 2 * F0 t * F1 t * F2 t) 0 blasius_eta_inf <= 73848497 / 10 ^ 8.
Proof.
  intros HB. destruct (edge_numbers F0 F1 F2 HB) as (_ & N1 & N2).
  destruct HB as (S0 & S1 & S2 & D0 & D1 & D2).
  assert (HE : 0 < blasius_eta_inf <= 22 / 3) by (unfold blasius_eta_inf; lra).
  assert (CF : forall F D : R -> R, (forall t, 0 <= t <= blasius_eta_inf -> is_derive F t (D t)) ->
    forall t, 0 <= t <= blasius_eta_inf -> continuous F t).
  { intros F D H t Ht. apply (ex_derive_continuous F). eexists. apply H, Ht. }
  destruct (running_integral (fun t => 2 * F0 t * F1 t * F2 t) blasius_eta_inf ltac:(lra)) as (K & K0 & KE & DK).
  { intros t Ht. apply (continuous_mult (fun t => 2 * F0 t * F1 t) F2); [|apply (CF _ _ D2); exact Ht].
    apply (continuous_mult (fun t => 2 * F0 t) F1); [|apply (CF _ _ D1); exact Ht].
    apply (continuous_mult (fun _ : R => 2) F0); [apply continuous_const|apply (CF _ _ D0); exact Ht]. }
  destruct (running_integral (fun t => F2 t * F2 t) blasius_eta_inf ltac:(lra)) as (J & J0 & _ & DJ).
  { intros t Ht. apply (continuous_mult F2 F2); apply (CF _ _ D2); exact Ht. }
  rewrite <- KE.
  assert (EK : K blasius_eta_inf = 2 * J blasius_eta_inf - 2 * F1 blasius_eta_inf * F2 blasius_eta_inf).
  { set (V := fun t => K t - (2 * J t - 2 * (F1 t * F2 t))).
    assert (DV : forall t, 0 <= t <= blasius_eta_inf -> is_derive V t 0).
    { intros t Ht. specialize (D0 t Ht). specialize (D1 t Ht). specialize (D2 t Ht).
      specialize (DK t Ht). specialize (DJ t Ht). unfold V.
      auto_derive; [repeat split; try exact I; eexists; eassumption|].
      replace (Derive (fun x => F1 x) t) with (F2 t) by (symmetry; apply is_derive_unique, D1).
      replace (Derive (fun x => F2 x) t) with (- (F0 t * F2 t)) by (symmetry; apply is_derive_unique, D2).
      replace (Derive (fun x => K x) t) with (2 * F0 t * F1 t * F2 t) by (symmetry; apply is_derive_unique, DK).
      replace (Derive (fun x => J x) t) with (F2 t * F2 t) by (symmetry; apply is_derive_unique, DJ). ring. }
    assert (A : V blasius_eta_inf <= V 0).
    { apply (not_growing V (fun _ => 0) 0 blasius_eta_inf ltac:(lra) DV). intros; lra. }
    assert (B : - V blasius_eta_inf <= - V 0).
    { apply (not_growing (fun t => - V t) (fun _ => - 0) 0 blasius_eta_inf ltac:(lra)); [|intros; lra].
      intros t Ht. apply (is_derive_opp V). apply DV, Ht. }
    unfold V in A, B. rewrite K0, J0, S1 in A, B. lra. }
  rewrite EK.
  assert (NF : 7717 / 10 ^ 12 <= F1 blasius_eta_inf * F2 blasius_eta_inf <= 7720 / 10 ^ 12)
    by (unfold small in *; nra).
  assert (V := energy_value F0 F1 F2 blasius_eta_inf blasius_fw_pp ltac:(unfold blasius_eta_inf; lra)
    ltac:(unfold blasius_fw_pp; lra) S0 S1 S2 D0 D1 D2 eq_refl J J0 DJ (proj2 HE)
    28 58052927367328 (10 ^ 14) blasius_eta_inf 3692424910 3692424911 (10 ^ 10)).
  enough (IZR 3692424910 / IZR (10 ^ 10) - kdelta * blasius_eta_inf <= J blasius_eta_inf
    <= IZR 3692424911 / IZR (10 ^ 10) + kdelta * blasius_eta_inf).
  - assert (kdelta * blasius_eta_inf <= / 10 ^ 9) by (unfold kdelta, blasius_eta_inf; lra).
    simpl IZR in *. lra.
  - apply V.
    + unfold blasius_eta_inf. simpl. lra.
    + lra.
    + split; discriminate.
    + reflexivity.
    + reflexivity.
    + vm_compute. reflexivity.
Qed.

Lemma edge_of_99 F0 F1 F2 s : blasius_profile F0 F1 F2 -> 0 <= s <= blasius_eta_inf ->
  F1 s = 99 / 100 -> 34718 / 10000 <= s <= 34720 / 10000.
Proof.
  intros H Hs E. pose proof (inner_numbers F0 F1 F2 H) as [A B].
  destruct H as (S0 & S1 & S2 & D0 & D1 & D2).
  assert (I := F1_increasing F0 F1 F2 blasius_eta_inf blasius_fw_pp ltac:(unfold blasius_eta_inf; lra)
    ltac:(unfold blasius_fw_pp; lra) S2 D0 D1 D2).
  split.
  - destruct (Rle_lt_dec (34718 / 10000) s) as [L|L]; [exact L|exfalso].
    specialize (I s (34718 / 10000) ltac:(lra) ltac:(unfold blasius_eta_inf; lra)). lra.
  - destruct (Rle_lt_dec s (34720 / 10000)) as [L|L]; [exact L|exfalso].
    specialize (I (34720 / 10000) s ltac:(lra) ltac:(lra)). lra.
Qed.

(** ** The object *)
Lemma root2 : 141421356 / 10 ^ 8 < sqrt 2 < 141421357 / 10 ^ 8.
Proof.
  assert (H := sqrt_sqrt 2 ltac:(lra)). assert (P := sqrt_pos 2). split.
  - apply Rnot_le_lt. intros L. nra.
  - apply Rnot_le_lt. intros L. nra.
Qed.

Section Object.
Variable ivp : (triple -> triple) -> xr -> triple -> res ivp3.
Variable quad : (xr -> res xr) -> xr -> res xr.
Variable bisect : (xr -> res xr) -> xr -> res (bool * xr).
Hypothesis EI : exact_ivp ivp.

Lemma default_profile u n o :
  new_blasius ivp quad bisect (Fin u) (Fin n) None None = Ok o ->
  exists F0 F1 F2, blasius_profile F0 F1 F2 /\ profile_on o F0 F1 F2 blasius_eta_inf.
Proof.
  intros B. destruct (given_parameters_lemma ivp quad bisect (Fin u) (Fin n) None None o) as [G _].
  destruct (G B) as (ei & fw & (rhs & r & Hr & Hi & Hs & Hq & He) & Hd & _). clear G.
  destruct (Hd eq_refl eq_refl) as [E1 E2]. rewrite E1 in *. rewrite E2 in *. clear Hd.
  fold blasius_eta_inf in *. fold blasius_fw_pp in *.
  destruct (EI _ _ _ _ _ _ Hi Hs) as (F0 & F1 & F2 & (A & B1 & C & D) & HF).
  assert (DD : forall t, 0 <= t <= blasius_eta_inf ->
     is_derive F0 t (F1 t) /\ is_derive F1 t (F2 t) /\ is_derive F2 t (- (F0 t * F2 t))).
  { intros t Ht. destruct (D t Ht) as (d0 & d1 & d2 & Ed & I0 & I1 & I2).
    rewrite Hr in Ed. rewrite !xmul_fin, xsub_fin, xmul_fin, xadd_fin, xneg_fin in Ed.
    injection Ed as <- <- <-. split; [exact I0|]. split; [exact I1|].
    replace (- (F0 t * F2 t)) with (- (1 * F0 t * F2 t + 0 * (1 - F1 t * F1 t))) by ring. exact I2. }
  exists F0, F1, F2. split.
  - refine (conj A (conj B1 (conj C (conj _ (conj _ _))))); intros t Ht; apply DD, Ht.
  - split; [exact He|]. split; [unfold blasius_eta_inf; lra|]. split; [|split; intros t Ht; apply DD, Ht].
    destruct (s_f o) as [f|] eqn:Ef.
    + exists f. split; [reflexivity|]. intros t Ht. rewrite <- (HF t Ht).
      destruct (Hq (Fin t)) as (Q0 & Q1 & Q2). unfold q_f, q_f_p, q_f_pp in Q0, Q1, Q2. rewrite Ef in *.
      destruct (f (Fin t)) as [[a b] c]. destruct (i_sol r (Fin t)) as [[a' b'] c'].
      unfold t0, t1, t2 in *. cbn in *. congruence.
    + destruct (Hq (Fin 0)) as (Q0 & _). unfold q_f in Q0. rewrite Ef in Q0. discriminate Q0.
Qed.

Hypothesis EQ : exact_quad quad.
Hypothesis EB : exact_bisect bisect.

Lemma default_numbers u n o :
  new_blasius ivp quad bisect (Fin u) (Fin n) None None = Ok o -> 0 < u -> 0 < n ->
  (exists f1 f2, q_f_p o (s_eta_inf o) = Ok (Fin f1) /\ q_f_pp o (s_eta_inf o) = Ok (Fin f2) /\
     Rabs (1 - f1) < / 10 ^ 8 /\ 0 < f2 < / 10 ^ 8) /\
  forall x, 0 < x ->
  let root := sqrt (u * x / n) in
  between (172078 / 10 ^ 5) (172079 / 10 ^ 5) (x / root) (qs_delta_d o x) /\
  between (66411 / 10 ^ 5) (66412 / 10 ^ 5) (x / root) (qs_delta_m o x) /\
  between (104437 / 10 ^ 5) (104438 / 10 ^ 5) (x / root) (qs_delta_k o x) /\
  between (49098 / 10 ^ 4) (49102 / 10 ^ 4) (x / root) (qs_delta_s o x) /\
  between (259110 / 10 ^ 5) (259111 / 10 ^ 5) 1 (qs_shape_d o x) /\
  between (157258 / 10 ^ 5) (157259 / 10 ^ 5) 1 (qs_shape_k o x) /\
  between (86039 / 10 ^ 5) (86040 / 10 ^ 5) (u / root) (qs_v_e o x) /\
  forall rho, between (33205 / 10 ^ 5) (33206 / 10 ^ 5) (rho * u ^ 2 / root) (qs_tau_w o x (Fin rho)) /\
    between (26109 / 10 ^ 5) (26110 / 10 ^ 5) (rho * u ^ 3 / root) (qs_dissipation o x (Fin rho)).
Proof.
  intros B Hu Hn.
  destruct (default_profile u n o B) as (F0 & F1 & F2 & HP & HO).
  pose proof (blasius_flow _ _ _ _ _ _ _ _ B) as [FL SO].
  destruct (edge_numbers F0 F1 F2 HP) as (N0 & N1 & N2).
  pose proof (energy_number F0 F1 F2 HP) as NK.
  pose proof HO as (He & _ & (f & Ef & Hf) & D0 & D1).
  pose proof HP as (S0 & S1 & S2 & _ & _ & D2).
  pose proof (F2_pos F0 F1 F2 blasius_eta_inf blasius_fw_pp ltac:(unfold blasius_eta_inf; lra)
    ltac:(unfold blasius_fw_pp; lra) S2 D0 D2 blasius_eta_inf ltac:(unfold blasius_eta_inf; lra)) as P2.
  assert (Hend : 0 <= blasius_eta_inf <= blasius_eta_inf) by (unfold blasius_eta_inf; lra).
  split.
  - exists (F1 blasius_eta_inf), (F2 blasius_eta_inf). rewrite He. unfold q_f_p, q_f_pp. rewrite Ef, (Hf _ Hend).
    split; [reflexivity|]. split; [reflexivity|]. unfold small in *. split; [apply Rabs_lt_between; lra|lra].
  - intros x Hx root.
    assert (Hroot : 0 < root) by (apply sqrt_lt_R0; apply Rdiv_lt_0_compat; [apply Rmult_lt_0_compat|]; assumption).
    pose proof root2 as R2.
    set (g := GG 0 u n x).
    assert (Hg : g = root / (sqrt 2 * x)).
    { unfold g, GG, UE, Mx. replace (0 / (2 * 1 - 0)) with 0 by field. rewrite Rpower_O, Rmult_1_r by exact Hx.
      apply sqrt_lem_1.
      - left. apply Rdiv_lt_0_compat; [exact Hu|]. apply Rmult_lt_0_compat; [|exact Hx]. lra.
      - left. apply Rdiv_lt_0_compat; [exact Hroot|]. apply Rmult_lt_0_compat; lra.
      - assert (E1 : root * root = u * x / n).
        { apply sqrt_sqrt. left. apply Rdiv_lt_0_compat; [apply Rmult_lt_0_compat|]; assumption. }
        assert (E2 : sqrt 2 * sqrt 2 = 2) by (apply sqrt_sqrt; lra).
        replace (root / (sqrt 2 * x) * (root / (sqrt 2 * x)))
          with ((root * root) / ((sqrt 2 * sqrt 2) * (x * x))) by (field; lra).
        rewrite E1, E2. field. lra. }
    assert (Gv := g_val o 0 u n FL x Hx). fold g in Gv.
    assert (Hg0 : g <> 0).
    { rewrite Hg. apply Rgt_not_eq. apply Rdiv_lt_0_compat; [exact Hroot|]. apply Rmult_lt_0_compat; lra. }
    assert (Uv := ue_val o 0 u n FL x Hx).
    assert (UEu : UE 0 u x = u).
    { unfold UE, Mx. replace (0 / (2 * 1 - 0)) with 0 by field. rewrite Rpower_O, Rmult_1_r by exact Hx. reflexivity. }
    rewrite UEu in Uv.
    assert (Ed := eta_d_val ivp quad bisect o F0 F1 F2 blasius_eta_inf SO HO).
    assert (Em := eta_m_val ivp quad bisect o 0 u n F0 F1 F2 blasius_eta_inf SO FL HO).
    rewrite S2 in Em. replace ((blasius_fw_pp - 0 * (blasius_eta_inf - F0 blasius_eta_inf)) / (1 + 0))
      with blasius_fw_pp in Em by field.
    assert (Ek : s_eta_k o = Fin (RInt (fun t => 2 * F0 t * F1 t * F2 t) 0 blasius_eta_inf)).
    { apply (eta_k_val ivp quad bisect o 0 F0 F1 F2 blasius_eta_inf SO HO); [|exact EQ].
      intros t Ht. unfold falkner_skan_at.
      replace (- (F0 t * F2 t + 0 * (1 - F1 t * F1 t))) with (- (F0 t * F2 t)) by ring. apply D2, Ht. }
    destruct (solved_thick _ _ _ _ SO) as (_ & _ & _ & _ & _ & _ & _ & Es).
    destruct (EB _ _ _ Es) as (s & Es1 & Es2 & Es3 & Es4).
    rewrite Es1, He in *. cbn [xleb] in Es2, Es3. apply Rleb_iff in Es2, Es3.
    assert (Hs := edge_of_99 F0 F1 F2 s HP (conj Es2 Es3)).
    unfold s_fun, q_f_p in Es4. rewrite Ef, (Hf s (conj Es2 Es3)) in Es4. cbn [bind t1 fst snd] in Es4.
    rewrite xsub_fin in Es4. injection Es4 as Es4. specialize (Hs ltac:(lra)).
    set (d := blasius_eta_inf - F0 blasius_eta_inf) in *.
    set (k := RInt _ 0 blasius_eta_inf) in *.
    assert (Hd : 121678061655 / 10 ^ 11 <= d <= 121678061656 / 10 ^ 11).
    { unfold d, blasius_eta_inf, small in *. lra. }
    clearbody d k.
    assert (Th : forall eta lo hi, lo <= eta * sqrt 2 <= hi ->
      between lo hi (x / root) (bind (Ok (Fin g)) (fun g => Ok (Fin eta / g)%xr))).
    { intros eta lo hi H. exists (eta * sqrt 2). split; [exact H|]. cbn [bind]. rewrite xdiv_fin by exact Hg0.
      do 2 f_equal. rewrite Hg. field. lra. }
    assert (Hw : blasius_fw_pp <> 0) by (unfold blasius_fw_pp; lra).
    unfold qs_delta_d, qs_delta_m, qs_delta_k, qs_delta_s, qs_shape_d, qs_shape_k, qs_v_e.
    rewrite Gv, Ed, Em, Ek, Es1.
    assert (Wn : 4695999888 / 10 ^ 10 <= blasius_fw_pp <= 4695999889 / 10 ^ 10) by (unfold blasius_fw_pp; lra).
    split; [apply Th; nra|]. split; [apply Th; nra|]. split; [apply Th; nra|]. split; [apply Th; nra|].
    assert (Rt : forall eta lo hi, lo * blasius_fw_pp <= eta <= hi * blasius_fw_pp ->
      between lo hi 1 (py_div (Fin eta) (Fin blasius_fw_pp))).
    { intros eta lo hi H. exists (eta / blasius_fw_pp). split.
      - split; apply (Rmult_le_reg_r blasius_fw_pp); try lra; unfold Rdiv;
          rewrite Rmult_assoc, Rinv_l, Rmult_1_r by exact Hw; lra.
      - rewrite py_div_fin by exact Hw. do 2 f_equal. ring. }
    split; [apply Rt; lra|]. split; [apply Rt; lra|].
    assert (Hq : forall y : R, y / sqrt 2 = y * sqrt 2 / 2).
    { intros y. assert (E2 : sqrt 2 * sqrt 2 = 2) by (apply sqrt_sqrt; lra).
      rewrite <- E2 at 3. field. lra. }
    destruct FL as (Fa & Fg & Fb & Fu & Fn & _).
    split.
    { exists (d / sqrt 2). split; [rewrite Hq; nra|]. cbn [bind]. rewrite Fn, !xmul_fin. do 2 f_equal.
      rewrite Hg. assert (E1 : root * root = u * x / n).
      { apply sqrt_sqrt. left. apply Rdiv_lt_0_compat; [apply Rmult_lt_0_compat|]; assumption. }
      replace (n * (root / (sqrt 2 * x)) * d) with (d / sqrt 2 * (n * (root * root) / x / root)) by (field; lra).
      rewrite E1. field. lra. }
    intros rho. split.
    + exists (blasius_fw_pp / sqrt 2). split; [rewrite Hq; nra|].
      unfold qs_tau_w. rewrite Uv, Gv. cbn [bind]. unfold q_fw_pp. rewrite Ef. unfold q_f_pp. rewrite Ef, (Hf 0 ltac:(unfold blasius_eta_inf; lra)).
      cbn [bind t2 snd]. rewrite S2, Fn, !xmul_fin. do 2 f_equal. rewrite Hg.
      assert (E1 : root * root = u * x / n).
      { apply sqrt_sqrt. left. apply Rdiv_lt_0_compat; [apply Rmult_lt_0_compat|]; assumption. }
      replace (rho * n * u * (root / (sqrt 2 * x)) * blasius_fw_pp)
        with (rho * u * (blasius_fw_pp / sqrt 2) * (n * (root * root) / x / root)) by (field; lra).
      rewrite E1. field. lra.
    + exists (k / 2 / sqrt 2). split; [rewrite Hq; nra|].
      unfold qs_dissipation. rewrite Uv, Gv. cbn [bind]. rewrite Fa, Fb, Fn, Ek, !xmul_fin, xadd_fin, !xmul_fin.
      do 2 f_equal. rewrite Hg.
      assert (E1 : root * root = u * x / n).
      { apply sqrt_sqrt. left. apply Rdiv_lt_0_compat; [apply Rmult_lt_0_compat|]; assumption. }
      replace (rho * n * (root / (sqrt 2 * x)) * (u * u) * (5 / 10 * (1 + 2 * 0) * k))
        with (rho * u ^ 2 * (k / 2 / sqrt 2) * (n * (root * root) / x / root)) by (field; lra).
      rewrite E1. field. lra.
Qed.
End Object.
