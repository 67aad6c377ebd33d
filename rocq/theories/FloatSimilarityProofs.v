(** What the similarity solutions report, in binary64 (C177). *)
From Coq Require Import Reals ZArith List Lra Lia Psatz.
From Flocq Require Import Core IEEE754.BinarySingleNaN.
From Verif Require Import PyBase PyBaseFacts SimilarityModel FloatModel FloatSpec FloatFacts FloatProofs FloatXFoilModel FloatXFoilProofs
  FloatThwaitesModel FloatThwaitesSpec FloatThwaitesProofs FloatFitsProofs FloatStanfordModel FloatStanfordSpec FloatStanfordProofs
  FloatHeadModel FloatHeadSpec FloatScaleProofs FloatHeadProofs FloatSimilarityModel FloatSimilaritySpec.
Import ListNotations.
Open Scope R_scope.

(** A power of an exact base with an exponent of either sign. *)
Lemma pow_signed pw x y c k n M : powers pw -> is_number x -> units y c k -> btw n (real_of x) ->
  0 <= k -> Rabs c * INR n * k <= M -> M <= 1000 -> Rabs c * INR n <= 100 -> units (pw x y) (Rpower (real_of x) c) (101/100 * M + 202/100).
Proof.
  intros S X [Y1 Y2] Bn Hk HM M1 HL. pose proof (btw_pos _ _ Bn) as Pa. assert (La := ln_btw n _ Bn). destruct uu_small as [U0 U1].
  unfold Rdiv in Y2. fold uu in Y2. set (a := real_of x) in *.
  set (t := real_of y * ln a - c * ln a).
  pose proof (pos_INR n) as Pn. pose proof (Rabs_pos c) as Pc.
  assert (M0 : 0 <= M). { eapply Rle_trans; [|exact HM]. apply Rmult_le_pos; [apply Rmult_le_pos|]; lra. }
  assert (Ht : Rabs t <= M * uu).
  { unfold t. replace (real_of y * ln a - c * ln a) with ((real_of y - c) * ln a) by ring. rewrite Rabs_mult.
    apply Rle_trans with (k * uu * Rabs c * INR n).
    - apply Rmult_le_compat; try apply Rabs_pos; assumption.
    - replace (k * uu * Rabs c * INR n) with (Rabs c * INR n * k * uu) by ring. apply Rmult_le_compat_r; lra. }
  assert (MU : 0 <= M * uu <= / 10 ^ 11) by nra.
  destruct (S x y X Y1 Pa) as [R1 R2].
  { fold a. replace (real_of y * ln a) with (c * ln a + t) by (unfold t; ring). eapply Rle_trans; [apply Rabs_triang|].
    rewrite Rabs_mult. assert (Rabs c * Rabs (ln a) <= Rabs c * INR n) by (apply Rmult_le_compat_l; lra). lra. }
  fold a in R2.
  assert (EP : Rpower a (real_of y) = Rpower a c * exp t).
  { unfold Rpower. rewrite <- exp_plus. f_equal. unfold t. ring. }
  assert (Et : Rabs (exp t - 1) <= 1001/1000 * (M * uu)). { eapply Rle_trans; [apply exp_near; lra|]. lra. }
  rewrite EP in R2. set (E := Rpower a c) in *. assert (PE : 0 < E) by apply exp_pos. set (T := exp t) in *.
  assert (PT : 0 < T) by apply exp_pos. assert (BT := Rabs_le_inv _ _ Et).
  split; [exact R1|]. rewrite (Rabs_pos_eq E) by lra. unfold Rdiv. fold uu. unfold Rdiv in R2. fold uu in R2.
  rewrite (Rabs_pos_eq (E * T)) in R2 by nra.
  apply Rle_trans with (Rabs (real_of (pw x y) - E * T) + Rabs (E * (T - 1))).
  { replace (real_of (pw x y) - E) with ((real_of (pw x y) - E * T) + E * (T - 1)) by ring. apply Rabs_triang. }
  rewrite Rabs_mult, (Rabs_pos_eq E) by lra.
  assert (E * Rabs (T - 1) <= E * (1001/1000 * (M * uu))) by (apply Rmult_le_compat_l; lra).
  assert (2 * uu * (E * T) <= 2 * uu * (E * (1001/1000))). { apply Rmult_le_compat_l; [lra|]. apply Rmult_le_compat_l; lra. }
  assert (0 <= M * uu * E) by nra. assert (0 <= uu * E) by nra. lra.
Qed.

Lemma one_val : units b_1 1 0.
Proof. destruct (literal 4503599627370496 (-52) eq_refl) as [D1 D2]. fold b_1 in D1, D2. apply exact; [exact D1|]. rewrite D2; simpl; lra. Qed.
Lemma two_one : (b_2 * b_1)%b64 = b_2.
Proof. apply B2SF_inj. vm_compute. reflexivity. Qed.

Section Sim.
Variables (pw : b64 -> b64 -> b64) (o : sim) (ur nu be x : b64).
Hypothesis S : powers pw.
Hypothesis St : stores o ur nu be.
Hypothesis Px : position x.

Let UR := real_of ur. Let NU := real_of nu. Let BE := real_of be. Let X := real_of x.
Let P := Rpower X (BE / (2 * 1 - BE)).
Let U := UR * P.
Let G := sqrt (U / ((2 - BE) * NU * X)).

Lemma sim_den : units (b_2 * b_1 - be)%b64 (2 * 1 - BE) (101/100) /\ btw 2 (2 * 1 - BE).
Proof.
  destruct St as (_ & _ & _ & _ & _ & _ & _ & Nb & _ & _ & _ & Hb). fold BE in Hb. assert (B : btw 2 (2 * 1 - BE)) by bt. split; [|exact B].
  rewrite two_one. replace (2 * 1 - BE) with (2 - BE) in * by ring.
  apply (un_weaken _ _ (0 + 101/100)); [lra|]. apply (un_sub _ _ _ _ 0 0 _ 2); [exact x_2|apply exact; [exact Nb|reflexivity]|lra| |rewrite Rabs_pos_eq by lra; exact B|lia]. lra.
Qed.
Lemma sim_u_ok : units (sim_u_e64 pw ur b_1 be x) U 45 /\ btw 90 U.
Proof.
  destruct sim_den as [D BD]. destruct St as (_ & _ & _ & _ & _ & Nu & _ & Nb & Bu & _ & Sb & Hb). destruct Px as [Nx Bx].
  fold BE in Hb, Sb. fold UR in Bu. fold X in Bx. assert (Db : 0 < 2 * 1 - BE) by lra.
  assert (E := un_div _ _ _ _ _ _ _ (exact be _ Nb eq_refl) D Db ltac:(lra) ltac:(lra) (zb_div _ _ _ _ (zb_signed _ Sb) BD) ltac:(lia)).
  fold BE in E. set (e := BE / (2 * 1 - BE)) in *.
  assert (He : Rabs e <= 1).
  { assert (e * (2 * 1 - BE) = BE) by (unfold e; field; lra). apply Rabs_le. split; nra. }
  assert (I : INR 20 = 20) by (simpl; lra).
  assert (Q : units (pw x (be / (b_2 * b_1 - be))%b64) P (101/100 * 41 + 202/100)).
  { eapply (pow_signed _ _ _ _ _ 20); [exact S|exact Nx|exact E|exact Bx|lra|rewrite I; lra|lra|rewrite I; lra]. }
  assert (BP : btw (20 + 20) P).
  { apply exp_btw. rewrite Rabs_mult. pose proof (ln_btw 20 _ Bx). rewrite I in *. pose proof (Rabs_pos (ln X)). pose proof (Rabs_pos e). nra. }
  assert (BU := btw_mul _ _ _ _ Bu BP). split; [|exact BU].
  eapply un_weaken; [|apply (un_mul _ _ _ _ _ _ _ (exact ur _ Nu eq_refl) Q ltac:(lra) ltac:(lra) (zb_btw _ _ BU) ltac:(lia))]. lra.
Qed.
Lemma sim_g_ok : units (sim_g64 pw (s_class o) ur nu b_1 be x) G 26 /\ btw 90 G.
Proof.
  destruct sim_u_ok as [Uu BU]. destruct St as (_ & _ & _ & _ & Cb & _ & Nn & Nb & _ & Bn & Sb & Hb). destruct Px as [Nx Bx].
  fold BE in Hb, Sb, Cb. fold NU in Bn. fold X in Bx.
  assert (D : units (match s_class o with CBlasius => b_2 | CFalknerSkan => b_2 - be end)%b64 (2 - BE) (101/100)).
  { destruct (s_class o).
    - rewrite Cb, Rminus_0_r by reflexivity. apply (un_weaken _ _ 0); [lra|exact x_2].
    - destruct sim_den as [D _]. rewrite two_one in D. replace (2 * 1 - BE) with (2 - BE) in D by ring. exact D. }
  set (d := match s_class o with CBlasius => b_2 | CFalknerSkan => b_2 - be end%b64) in *.
  assert (Ed : sim_g64 pw (s_class o) ur nu b_1 be x = fsqrt (sim_u_e64 pw ur b_1 be x / (d * nu * x))%b64) by (unfold sim_g64, d; destruct (s_class o); reflexivity).
  rewrite Ed. clear Ed. assert (BD : btw 2 (2 - BE)) by bt.
  assert (B1 := btw_mul _ _ _ _ BD Bn). assert (B2 := btw_mul _ _ _ _ B1 Bx). simpl Nat.add in B1, B2.
  assert (D1 := un_mul _ _ _ _ _ _ _ D (exact nu _ Nn eq_refl) ltac:(lra) ltac:(lra) (zb_btw _ _ B1) ltac:(lia)).
  assert (D2 := un_mul _ _ _ _ _ _ _ D1 (exact x _ Nx eq_refl) ltac:(lra) ltac:(lra) (zb_btw _ _ B2) ltac:(lia)).
  assert (B3 := btw_div _ _ _ _ BU B2). simpl Nat.add in B3.
  assert (Q := un_div _ _ _ _ _ _ _ Uu D2 (btw_pos _ _ B2) ltac:(lra) ltac:(lra) (zb_btw _ _ B3) ltac:(lia)).
  assert (B4 : btw (90 + 90) (U / ((2 - BE) * NU * X))) by (apply (btw_weaken 162); [lia|exact B3]).
  split; [|apply btw_sqrt, B4]. eapply un_weaken; [|apply (un_sqrt _ _ _ 90 Q B4); [lia|lra]]. lra.
Qed.

(** The exact reports. *)
Lemma sim_u_exact : qs_u_e o X = Ok (Fin U).
Proof.
  destruct St as (Eu & _ & Ea & Eb & _ & _ & _ & _ & _ & _ & _ & Hb). destruct Px as [_ Bx]. fold BE in Eb, Hb. fold UR in Eu. fold X in Bx.
  pose proof (btw_pos 20 _ Bx). unfold qs_u_e. rewrite Eu, Ea, Eb. rewrite (xmul_fin 2 1), xsub_fin, py_div_fin by lra. cbn [bind].
  rewrite xpow_fin by assumption. rewrite xmul_fin. reflexivity.
Qed.
Lemma sim_g_exact : q_g o X = Ok (Fin G).
Proof.
  destruct sim_u_ok as [_ BU]. pose proof (btw_pos _ _ BU) as PU.
  destruct St as (_ & En & _ & Eb & Cb & _ & _ & _ & _ & Bn & _ & Hb). destruct Px as [_ Bx]. fold BE in Eb, Hb, Cb. fold NU in En, Bn. fold X in Bx.
  pose proof (btw_pos 20 _ Bx) as PX. pose proof (btw_pos 50 _ Bn) as PN.
  assert (PD : 0 < (2 - BE) * NU * X) by (apply Rmult_lt_0_compat; [apply Rmult_lt_0_compat; lra|exact PX]).
  assert (PQ : 0 < U / ((2 - BE) * NU * X)) by (apply Rdiv_lt_0_compat; assumption).
  assert (Q : xsqrt (Fin U / Fin ((2 - BE) * NU * X))%xr = Fin G).
  { rewrite xdiv_fin by lra. unfold xsqrt. match goal with |- context [Rlt_dec ?a 0] => destruct (Rlt_dec a 0) as [L|L] end; [lra|reflexivity]. }
  unfold q_g. rewrite sim_u_exact. cbn [bind]. rewrite En, Eb. destruct (s_class o).
  - rewrite !xmul_fin. rewrite Cb, Rminus_0_r in Q by reflexivity. rewrite Q. reflexivity.
  - rewrite xsub_fin, !xmul_fin. rewrite Q. reflexivity.
Qed.
Lemma g_pos : 0 < G. Proof. apply (btw_pos _ _ (proj2 sim_g_ok)). Qed.

Lemma sim_delta_ok field report eta : In (field, report) thicknesses -> field o = Fin (real_of eta) -> sized_float eta ->
  exists v, report o X = Ok (Fin v) /\ units (sim_delta64 pw eta (s_class o) ur nu b_1 be x) v 28.
Proof.
  intros I E [N B]. destruct sim_g_ok as [Gu BG]. pose proof g_pos as PG. exists (real_of eta / G). split.
  - assert (Q : (Fin (real_of eta) / Fin G)%xr = Fin (real_of eta / G)) by (apply xdiv_fin; lra).
    unfold thicknesses in I. simpl in I. destruct I as [I|[I|[I|[I|[]]]]]; inversion I; subst field report; clear I;
      unfold qs_delta_d, qs_delta_m, qs_delta_k, qs_delta_s; rewrite sim_g_exact; cbn [bind]; rewrite E, Q; reflexivity.
  - unfold sim_delta64. assert (Z := zb_btw _ _ (btw_div 50 90 _ _ B BG)).
    eapply un_weaken; [|apply (un_div _ _ _ _ _ _ _ (exact eta _ N eq_refl) Gu PG ltac:(lra) ltac:(lra) Z ltac:(lia))]. lra.
Qed.
Lemma sim_v_e_ok eta : s_eta_d o = Fin (real_of eta) -> sized_float eta ->
  exists v, qs_v_e o X = Ok (Fin v) /\ units (sim_v_e64 pw eta (s_class o) ur nu b_1 be x) v 29.
Proof.
  intros E [N B]. destruct sim_g_ok as [Gu BG]. exists (NU * G * real_of eta).
  destruct St as (_ & En & _ & _ & _ & _ & Nn & _ & _ & Bn & _). fold NU in En, Bn. split.
  - unfold qs_v_e. rewrite sim_g_exact. cbn [bind]. rewrite En, E. reflexivity.
  - unfold sim_v_e64. assert (B1 := btw_mul _ _ _ _ Bn BG). assert (B2 := btw_mul _ _ _ _ B1 B).
    assert (Q1 := un_mul _ _ _ _ _ _ _ (exact nu _ Nn eq_refl) Gu ltac:(lra) ltac:(lra) (zb_btw _ _ B1) ltac:(lia)).
    assert (Q2 := un_mul _ _ _ _ _ _ _ Q1 (exact eta _ N eq_refl) ltac:(lra) ltac:(lra) (zb_btw _ _ B2) ltac:(lia)).
    eapply un_weaken; [|exact Q2]. lra.
Qed.
Lemma sim_tau_ok fw rho : q_fw_pp o = Ok (Fin (real_of fw)) -> sized_float fw -> sized_float rho ->
  exists v, qs_tau_w o X (Fin (real_of rho)) = Ok (Fin v) /\ units (sim_tau64 pw fw rho (s_class o) ur nu b_1 be x) v 76.
Proof.
  intros E [N B] [Nr Br]. destruct sim_g_ok as [Gu BG]. destruct sim_u_ok as [Uu BU]. exists (real_of rho * NU * U * G * real_of fw).
  destruct St as (_ & En & _ & _ & _ & _ & Nn & _ & _ & Bn & _). fold NU in En, Bn. split.
  - unfold qs_tau_w. rewrite sim_u_exact, sim_g_exact, E. cbn [bind]. rewrite En. reflexivity.
  - unfold sim_tau64. assert (B1 := btw_mul _ _ _ _ Br Bn). assert (B2 := btw_mul _ _ _ _ B1 BU). assert (B3 := btw_mul _ _ _ _ B2 BG). assert (B4 := btw_mul _ _ _ _ B3 B).
    assert (Q1 := un_mul _ _ _ _ _ _ _ (exact rho _ Nr eq_refl) (exact nu _ Nn eq_refl) ltac:(lra) ltac:(lra) (zb_btw _ _ B1) ltac:(lia)).
    assert (Q2 := un_mul _ _ _ _ _ _ _ Q1 Uu ltac:(lra) ltac:(lra) (zb_btw _ _ B2) ltac:(lia)).
    assert (Q3 := un_mul _ _ _ _ _ _ _ Q2 Gu ltac:(lra) ltac:(lra) (zb_btw _ _ B3) ltac:(lia)).
    assert (Q4 := un_mul _ _ _ _ _ _ _ Q3 (exact fw _ N eq_refl) ltac:(lra) ltac:(lra) (zb_btw _ _ B4) ltac:(lia)).
    eapply un_weaken; [|exact Q4]. lra.
Qed.
Lemma sim_dissipation_ok eta rho : s_eta_k o = Fin (real_of eta) -> sized_float eta -> sized_float rho ->
  exists v, qs_dissipation o X (Fin (real_of rho)) = Ok (Fin v) /\ units (sim_dissipation64 pw eta rho (s_class o) ur nu b_1 be x) v 126.
Proof.
  intros E [N B] [Nr Br]. destruct sim_g_ok as [Gu BG]. destruct sim_u_ok as [Uu BU].
  exists (real_of rho * NU * G * (U * U) * (5/10 * (1 + 2 * BE) * real_of eta)).
  destruct St as (_ & En & Ea & Eb & _ & _ & Nn & Nb & _ & Bn & Sb & Hb). fold NU in En, Bn. fold BE in Eb, Sb, Hb. split.
  - unfold qs_dissipation. rewrite sim_u_exact, sim_g_exact. cbn [bind]. rewrite En, Ea, Eb, E. reflexivity.
  - unfold sim_dissipation64. assert (B1 := btw_mul _ _ _ _ Br Bn). assert (B2 := btw_mul _ _ _ _ B1 BG).
    assert (BQ := btw_mul _ _ _ _ BU BU). assert (B3 := btw_mul _ _ _ _ B2 BQ).
    assert (Q1 := un_mul _ _ _ _ _ _ _ (exact rho _ Nr eq_refl) (exact nu _ Nn eq_refl) ltac:(lra) ltac:(lra) (zb_btw _ _ B1) ltac:(lia)).
    assert (Q2 := un_mul _ _ _ _ _ _ _ Q1 Gu ltac:(lra) ltac:(lra) (zb_btw _ _ B2) ltac:(lia)).
    assert (QQ := un_mul _ _ _ _ _ _ _ Uu Uu ltac:(lra) ltac:(lra) (zb_btw _ _ BQ) ltac:(lia)).
    assert (Q3 := un_mul _ _ _ _ _ _ _ Q2 QQ ltac:(lra) ltac:(lra) (zb_btw _ _ B3) ltac:(lia)).
    assert (Z2 : zb (1 + 50) (2 * BE)) by (apply zb_mul; [apply zb_btw; bt|apply zb_signed, Sb]).
    assert (D1 := un_mul _ _ _ _ _ _ _ x_2 (exact be _ Nb eq_refl) ltac:(lra) ltac:(lra) Z2 ltac:(lia)). fold BE in D1.
    assert (BA : btw 2 (1 + 2 * BE)) by bt.
    assert (D2 : units (b_1 + b_2 * be)%b64 (1 + 2 * BE) (1 + 101/100)).
    { apply (un_add _ _ _ _ _ _ _ 2 one_val D1); [lra| |rewrite Rabs_pos_eq by lra; exact BA|lia].
      rewrite (Rabs_pos_eq (1 + 2 * BE)) by lra. destruct (Rle_or_lt 0 BE).
      - rewrite (Rabs_pos_eq (2 * BE)) by lra. lra.
      - rewrite (Rabs_left (2 * BE)) by lra. lra. }
    assert (BH : btw 3 (5/10 * (1 + 2 * BE))) by (apply (btw_mul 1 2); [bt|exact BA]).
    assert (D3 := un_mul _ _ _ _ _ _ _ x_half D2 ltac:(lra) ltac:(lra) (zb_btw _ _ BH) ltac:(lia)).
    assert (BT := btw_mul _ _ _ _ BH B).
    assert (D4 := un_mul _ _ _ _ _ _ _ D3 (exact eta _ N eq_refl) ltac:(lra) ltac:(lra) (zb_btw _ _ BT) ltac:(lia)).
    assert (Q4 := un_mul _ _ _ _ _ _ _ Q3 D4 ltac:(lra) ltac:(lra) (zb_btw _ _ (btw_mul _ _ _ _ B3 BT)) ltac:(lia)).
    eapply un_weaken; [|exact Q4]. lra.
Qed.
End Sim.

Lemma sim_shape_ok a b : sized_float a -> sized_float b -> units (sim_shape64 a b) (real_of a / real_of b) 3.
Proof.
  intros [Na Ba] [Nb Bb]. unfold sim_shape64. pose proof (btw_pos 50 _ Bb) as P. assert (Z := zb_btw _ _ (btw_div 50 50 _ _ Ba Bb)).
  assert (Q := un_div _ _ _ _ _ _ _ (exact a _ Na eq_refl) (exact b _ Nb eq_refl) P ltac:(lra) ltac:(lra) Z ltac:(lia)).
  rewrite <- (Rmult_1_r (real_of a / real_of b)) in Z.
  assert (T := un_mul _ _ _ _ _ _ _ Q one_val ltac:(lra) ltac:(lra) Z ltac:(lia)). rewrite Rmult_1_r in T.
  eapply un_weaken; [|exact T]. lra.
Qed.
