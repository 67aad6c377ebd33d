(** What Head's method reports, in binary64 (C176). *)
From Coq Require Import Reals ZArith List Lra Lia Psatz.
From Flocq Require Import Core IEEE754.BinarySingleNaN.
From Verif Require Import PyBase PyBaseFacts HeadModel CoreModel HeadArrayModel HeadArrayProofs FloatModel FloatSpec FloatFacts FloatProofs FloatXFoilModel FloatXFoilProofs
  FloatThwaitesModel FloatThwaitesSpec FloatThwaitesProofs FloatFitsProofs FloatStanfordModel FloatStanfordSpec FloatStanfordProofs
  FloatHeadModel FloatHeadSpec FloatScaleProofs FloatHeadProofs FloatHeadReportsModel FloatHeadReportsSpec.
Import ListNotations.
Open Scope R_scope.

Lemma su_add x y a b s t k n : su x a s k -> su y b t k -> 0 <= k <= 1000 -> btw n (s + t) -> (n <= 900)%nat ->
  su (x + y)%b64 (a + b) (s + t) (k + 101/100).
Proof.
  intros (A1 & A3 & A2) (B1 & B3 & B2) Hk Z Hn. apply (btw_room _ _) in Z; [|exact Hn]. destruct Z as [L H].
  assert (AB : Rabs (a + b) <= s + t). { eapply Rle_trans; [apply Rabs_triang|]. lra. }
  assert (P : Rabs ((real_of x + real_of y) - (a + b)) <= k * uu * (s + t)).
  { replace (real_of x + real_of y - (a + b)) with ((real_of x - a) + (real_of y - b)) by ring.
    eapply Rle_trans; [apply Rabs_triang|]. lra. }
  apply (su_round _ (real_of x + real_of y)); [|exact L|lra|exact AB|exact P].
  apply add_near; [exact A1|exact B1|]. apply (room_p _ _ _ _ P); [lra|exact AB|exact H].
Qed.
(** Twice the size, half the units. *)
Lemma su_double x z s k : su x z s (2 * k) -> su x z (2 * s) k.
Proof.
  intros (A & B & C). split; [exact A|]. pose proof (Rabs_pos z). split; [lra|]. eapply Rle_trans; [exact C|]. right; ring.
Qed.
Lemma btw_zb_plus n s t : btw n s -> zb n t -> btw (S n) (Rabs t + s).
Proof. rewrite Rplus_comm. apply btw_plus_zb. Qed.

Lemma speed_btw u : u <= 2 ^ 50 -> btw 50 (speed_used u).
Proof. intros H. unfold speed_used, btw. split; [|apply Rmax_lub; [simpl; lra|exact H]]. eapply Rle_trans; [|apply Rmax_l]. simpl. lra. Qed.

(** The magnitudes of the rates. *)
Lemma sizes_btw pw nu u du d h : powers pw -> is_number h ->
  btw 50 nu -> u <= 2 ^ 50 -> zb 50 du -> btw 50 d -> real_of h <= 4 -> real_of h <> real_of b_1_6 ->
  btw 40 (speed_used u * d / nu) ->
  btw 154 (momentum_size nu (speed_used u) du d (shape_used (real_of h))) /\
  btw 371 (shape_size nu (speed_used u) du d (shape_used (real_of h))).
Proof.
  intros S Nh Bnu Hu2 Bdu Bd Hh Hh6 Bre.
  assert (SH := shape_ok h Nh Hh Hh6). assert (BU := speed_btw u Hu2).
  set (h' := if flt h b_1_11 then b_1_11 else h) in *. set (z := shape_used (real_of h)) in *. set (U := speed_used u) in *.
  pose proof (btw_pos _ _ BU) as PU. pose proof (btw_pos _ _ Bd) as PD. pose proof (sh_range _ _ SH) as Rz.
  destruct (entr_ok pw h' z S SH) as (_ & _ & _ & B1 & B3 & B2). assert (BF := rate_btw _ B3).
  assert (BC := friction_btw (U * d / nu) z Bre ltac:(lra)).
  assert (BP : btw 48 (5/10 * friction (U * d / nu) z)) by (apply (btw_mul 1 47); [bt|exact BC]).
  assert (BY : btw 3 (2 + z)) by bt.
  assert (BQ := zb_div _ _ _ _ (zb_mul _ _ _ _ (zb_btw _ _ (btw_mul _ _ _ _ Bd BY)) Bdu) BU). simpl Nat.add in BQ.
  assert (BS : btw 154 (momentum_size nu U du d z)).
  { apply btw_plus_zb; [apply (btw_weaken 48); [lia|exact BP]|exact BQ]. }
  split; [exact BS|]. unfold shape_size. set (S0 := momentum_size nu U du d z) in *.
  assert (BA := btw_mul _ _ _ _ BU BF). assert (BB1 := btw_mul _ _ _ _ BU BS). assert (BB := btw_mul _ _ _ _ BB1 B1). simpl Nat.add in BA, BB.
  assert (BAB := btw_add 213 _ _ (btw_weaken 68 213 _ ltac:(lia) BA) BB).
  assert (ZC := zb_mul _ _ _ _ (zb_mul _ _ _ _ Bdu (zb_btw _ _ Bd)) (zb_btw _ _ B1)). simpl Nat.add in ZC.
  assert (BT := btw_plus_zb 214 _ _ BAB (zb_weaken 109 214 _ ltac:(lia) ZC)).
  assert (ZD := zb_mul _ _ _ _ (zb_mul _ _ _ _ (zb_neg _ _ B2) (zb_btw _ _ BU)) (zb_btw _ _ Bd)). simpl Nat.add in ZD.
  pose proof (btw_pos _ _ B2) as PP.
  assert (ND : entrainment_slope z * U * d <> 0). { apply Rmult_integral_contrapositive_currified; [apply Rmult_integral_contrapositive_currified|]; lra. }
  destruct ZD as [ZD|ZD]; [contradiction|]. apply (btw_div 215 156); [exact BT|exact ZD].
Qed.

Lemma v_e_ok pw scalar nu u du d h : powers pw -> is_number nu -> is_number u -> is_number du -> is_number d -> is_number h ->
  btw 50 (real_of nu) -> btw 50 (real_of u) -> zb 50 (real_of du) -> btw 50 (real_of d) ->
  1 <= real_of h <= 4 -> real_of h <> real_of b_1_6 ->
  btw 40 (speed_used (real_of u) * real_of d / real_of nu) ->
  within (head_v_e64 pw scalar nu u du d h)
    (real_of du * real_of h * real_of d
     + real_of u * shape_rate (real_of nu) (speed_used (real_of u)) (real_of du) (real_of d) (shape_used (real_of h)) * real_of d
     + real_of u * real_of h * momentum_rate (real_of nu) (speed_used (real_of u)) (real_of du) (real_of d) (shape_used (real_of h)))
    (1120 / 2 ^ 53 * transpiration_size (real_of nu) (real_of u) (real_of du) (real_of d) (real_of h)).
Proof.
  intros S Nn Nu Ndu Nd Nh Bnu Bu Bdu Bd Hh Hh6 Bre. pose proof (btw_pos _ _ Bu) as PU. pose proof (btw_pos _ _ Bd) as PD.
  destruct (rhs_ok pw scalar nu u du d h S Nn Nu Ndu Nd Nh Bnu (or_intror (Rlt_le _ _ PU)) (proj2 Bu) Bdu Bd (proj2 Hh) Hh6 Bre) as [F0 F1].
  destruct (sizes_btw pw _ _ _ _ h S Nh Bnu (proj2 Bu) Bdu Bd (proj2 Hh) Hh6 Bre) as [B0 B1].
  unfold head_v_e64, transpiration_size. destruct (head_rhs64 pw scalar nu u du d h) as [f0 f1]. cbn [fst snd] in *.
  set (Z0 := momentum_rate _ _ _ _ _) in *. set (S0 := momentum_size _ _ _ _ _) in *.
  set (Z1 := shape_rate _ _ _ _ _) in *. set (S1 := shape_size _ _ _ _ _) in *. clear Bre.
  assert (Uu := exact u _ Nu eq_refl). assert (Udu := exact du _ Ndu eq_refl). assert (Ud := exact d _ Nd eq_refl). assert (Uh := exact h _ Nh eq_refl).
  assert (Bh : btw 2 (real_of h)) by (unfold btw; simpl; lra). pose proof (btw_pos _ _ Bh) as PH.
  set (U := real_of u) in *. set (DU := real_of du) in *. set (D := real_of d) in *. set (H := real_of h) in *.
  (* du h d *)
  assert (ZA1 := zb_mul _ _ _ _ Bdu (zb_btw _ _ Bh)). assert (ZA := zb_mul _ _ _ _ ZA1 (zb_btw _ _ Bd)). simpl Nat.add in ZA1, ZA.
  assert (A1 := un_mul _ _ _ _ _ _ _ Udu Uh ltac:(lra) ltac:(lra) ZA1 ltac:(lia)).
  assert (A2 := un_mul _ _ _ _ _ _ _ A1 Ud ltac:(lra) ltac:(lra) ZA ltac:(lia)).
  (* u y1 d *)
  assert (F1' : su f1 Z1 (2 * S1) 550) by (apply su_double; eapply su_weaken; [|exact F1]; lra).
  assert (BS1 : btw 372 (2 * S1)) by (apply (btw_mul 1 371); [bt|exact B1]).
  assert (BB1 := btw_mul _ _ _ _ Bu BS1). assert (BB := btw_mul _ _ _ _ BB1 Bd). simpl Nat.add in BB1, BB.
  assert (C1 := su_mul _ _ _ _ _ _ _ _ _ (su_pos _ _ _ PU Uu) F1' ltac:(lra) ltac:(lra) BB1 ltac:(lia)).
  assert (C2 := su_mul _ _ _ _ _ _ _ _ _ C1 (su_pos _ _ _ PD Ud) ltac:(lra) ltac:(lra) BB ltac:(lia)).
  (* u h y0 *)
  assert (BG1 := btw_mul _ _ _ _ Bu Bh). assert (BG := btw_mul _ _ _ _ BG1 B0). simpl Nat.add in BG1, BG.
  assert (PUH : 0 < U * H) by (apply Rmult_lt_0_compat; assumption).
  assert (G1 := un_mul _ _ _ _ _ _ _ Uu Uh ltac:(lra) ltac:(lra) (zb_btw _ _ BG1) ltac:(lia)).
  assert (G2 := su_mul _ _ _ _ _ _ _ _ _ (su_pos _ _ _ PUH G1) F0 ltac:(lra) ltac:(lra) BG ltac:(lia)).
  (* the sums *)
  assert (BT1 := btw_zb_plus 472 _ _ BB (zb_weaken 102 472 _ ltac:(lia) ZA)).
  apply su_units in A2. apply (su_weaken _ _ _ _ 553) in A2; [|lra]. apply (su_weaken _ _ _ _ 553) in C2; [|lra].
  assert (T1 := su_add _ _ _ _ _ _ _ _ A2 C2 ltac:(lra) BT1 ltac:(lia)).
  assert (BT2 := btw_add 473 _ _ BT1 (btw_weaken 206 473 _ ltac:(lia) BG)).
  apply (su_weaken _ _ _ _ 555) in T1; [|lra]. apply (su_weaken _ _ _ _ 555) in G2; [|lra].
  assert (T2 := su_add _ _ _ _ _ _ _ _ T1 G2 ltac:(lra) BT2 ltac:(lia)).
  destruct T2 as (Tn & _ & Te). split; [exact Tn|]. eapply Rle_trans; [exact Te|]. change (1120 / 2 ^ 53) with (1120 * uu).
  destruct uu_small as [U0 _]. pose proof (btw_pos _ _ BG) as PG. pose proof (Rabs_pos (DU * H * D)) as PA.
  replace ((555 + 101/100) * uu * (Rabs (DU * H * D) + U * (2 * S1) * D + U * H * S0))
    with (uu * ((555 + 101/100) * (Rabs (DU * H * D) + 2 * (U * S1 * D) + U * H * S0))) by ring.
  replace (1120 * uu * (Rabs (DU * H * D) + U * S1 * D + U * H * S0)) with (uu * (1120 * (Rabs (DU * H * D) + U * S1 * D + U * H * S0))) by ring.
  apply Rmult_le_compat_l; [lra|].
  assert (PB : 0 < U * S1 * D) by (apply Rmult_lt_0_compat; [apply Rmult_lt_0_compat; [exact PU|exact (btw_pos _ _ B1)]|exact PD]).
  lra.
Qed.
Lemma v_e_exact nu u du d h : 0 < nu -> 0 < d ->
  head_v_e (Fin nu) (VFloat (Fin u)) (VFloat (Fin du)) (Fin d) (Fin h) =
  Ok (Fin (du * h * d + u * shape_rate nu (speed_used u) du d (shape_used h) * d + u * h * momentum_rate nu (speed_used u) du d (shape_used h))).
Proof. intros A B. unfold head_v_e. rewrite exact_rates by assumption. reflexivity. Qed.

Lemma floor_speed u : 0 <= u -> floor_u u = speed_used u.
Proof.
  intros H. unfold speed_used. destruct (Rlt_or_le u (1/1000)).
  - rewrite floor_u_small, Rmax_left by (try rewrite Rabs_pos_eq by lra; lra). reflexivity.
  - rewrite floor_u_big, Rmax_right by (try rewrite Rabs_pos_eq by lra; lra). reflexivity.
Qed.
Lemma tau_ok pw rho nu u d h : powers pw -> is_number rho -> is_number nu -> is_number u -> is_number d -> is_number h ->
  btw 50 (real_of rho) -> btw 50 (real_of nu) -> 0 <= real_of u <= 2 ^ 50 -> btw 50 (real_of d) -> 1 <= real_of h <= 4 ->
  btw 40 (speed_used (real_of u) * real_of d / real_of nu) ->
  let U := speed_used (real_of u) in
  units (head_tau64 pw rho nu u d h) (5/10 * real_of rho * (U * U) * friction (U * real_of d / real_of nu) (real_of h)) 70.
Proof.
  intros S Nr Nn Nu Nd Nh Br Bnu Hu Bd Hh Bre U. unfold head_tau64.
  assert (SU := speed_ok false u Nu (or_intror (proj1 Hu))). assert (BU := speed_btw _ (proj2 Hu)). fold U in SU, BU, Bre.
  set (u' := u_guard64 false u) in *. clearbody U.
  assert (Un := exact nu _ Nn eq_refl). assert (Ur := exact rho _ Nr eq_refl). assert (Ud := exact d _ Nd eq_refl). assert (Uh := exact h _ Nh eq_refl).
  pose proof (btw_pos _ _ Bnu) as PN.
  assert (X1 := un_mul _ _ _ _ _ _ _ SU Ud ltac:(lra) ltac:(lra) (zb_btw _ _ (btw_mul _ _ _ _ BU Bd)) ltac:(lia)).
  assert (X2 := un_div _ _ _ _ _ _ _ X1 Un PN ltac:(lra) ltac:(lra) (zb_btw _ _ Bre) ltac:(lia)).
  assert (CF : units (lt64 pw (u' * d / nu)%b64 h) (friction (U * real_of d / real_of nu) (real_of h)) 60).
  { apply friction_ok; [exact S| | |exact Bre|exact Hh]; (eapply un_weaken; [|eassumption]; lra). }
  assert (BC := friction_btw (U * real_of d / real_of nu) (real_of h) Bre Hh).
  assert (BP : btw 51 (5/10 * real_of rho)) by (apply (btw_mul 1 50); [bt|exact Br]).
  assert (P := un_mul _ _ _ _ _ _ _ x_half Ur ltac:(lra) ltac:(lra) (zb_btw _ _ BP) ltac:(lia)).
  assert (BQ := btw_mul _ _ _ _ BU BU). assert (Q := un_mul _ _ _ _ _ _ _ SU SU ltac:(lra) ltac:(lra) (zb_btw _ _ BQ) ltac:(lia)).
  assert (BPQ := btw_mul _ _ _ _ BP BQ). assert (PQ := un_mul _ _ _ _ _ _ _ P Q ltac:(lra) ltac:(lra) (zb_btw _ _ BPQ) ltac:(lia)).
  assert (T := un_mul _ _ _ _ _ _ _ PQ CF ltac:(lra) ltac:(lra) (zb_btw _ _ (btw_mul _ _ _ _ BPQ BC)) ltac:(lia)).
  eapply un_weaken; [|exact T]. lra.
Qed.
Lemma tau_exact nu rho u d h : 0 < nu -> 0 < d -> 0 <= u ->
  tau_elem (Fin nu) rho [Fin d; Fin h] (floor_u u) =
  Ok (Fin (5/10 * rho * (speed_used u * speed_used u) * friction (speed_used u * d / nu) h)).
Proof.
  intros Hn Hd Hu. rewrite floor_speed by exact Hu. assert (P : 0 < speed_used u) by (unfold speed_used; pose proof (Rmax_l (1/1000) u); lra).
  unfold tau_elem. cbn [comp nth_error bind]. rewrite (xmul_fin (speed_used u) d), (xdiv_fin _ nu) by lra. rewrite friction_eq; [reflexivity|].
  apply Rdiv_lt_0_compat; [apply Rmult_lt_0_compat|]; assumption.
Qed.
Lemma delta_d_ok d h : is_number d -> is_number h -> btw 50 (real_of d) -> 1 <= real_of h <= 4 -> units (head_delta_d64 d h) (real_of d * real_of h) 2.
Proof.
  intros A B C D. assert (Bh : btw 2 (real_of h)) by (unfold btw; simpl; lra).
  eapply un_weaken; [|apply (un_mul _ _ _ _ 0 0 52 (exact d _ A eq_refl) (exact h _ B eq_refl)); [lra|lra|apply zb_btw, (btw_mul 50 2); assumption|lia]]. lra.
Qed.
