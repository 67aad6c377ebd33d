(** Head's method in binary64 (C158). *)
From Coq Require Import Reals ZArith List Lra Lia Psatz.
From Flocq Require Import Core IEEE754.BinarySingleNaN.
From Interval Require Import Tactic.
From Verif Require Import PyBase FloatModel FloatSpec FloatFacts FloatProofs FloatXFoilModel FloatXFoilProofs
  FloatThwaitesModel FloatThwaitesSpec FloatThwaitesProofs FloatFitsProofs FloatStanfordModel FloatStanfordSpec FloatStanfordProofs
  FloatHeadModel FloatHeadSpec FloatScaleProofs.
Open Scope R_scope.

(* ------------------------------------------------------------------ *)
(** * Sizes *)
Lemma exp_btw n w : Rabs w <= INR n -> btw (n + n) (exp w).
Proof.
  intros H. apply Rabs_le_inv in H.
  assert (E : exp (INR n) <= 2 ^ (n + n)).
  { clear. induction n as [|n IH]; [simpl; rewrite exp_0; lra|]. rewrite S_INR, exp_plus. replace (S n + S n)%nat with (S (S (n + n))) by lia.
    simpl (2 ^ S (S (n + n))). pose proof exp_le_3. pose proof (exp_pos (INR n)). pose proof (exp_pos 1).
    apply Rle_trans with (2 ^ (n + n) * 4); [|lra]. apply Rmult_le_compat; lra. }
  split.
  - apply Rle_trans with (exp (- INR n)); [|apply Raux.exp_le; lra]. rewrite exp_Ropp. apply Rinv_le_contravar; [apply exp_pos|exact E].
  - apply Rle_trans with (exp (INR n)); [apply Raux.exp_le; lra|exact E].
Qed.
Lemma rpow_btw n m a c : btw n a -> 0 < c -> c * INR n <= INR m -> btw (m + m) (Rpower a c).
Proof.
  intros B Hc H. apply exp_btw. rewrite Rabs_mult, (Rabs_pos_eq c) by lra. apply Rle_trans with (c * INR n); [|exact H].
  apply Rmult_le_compat_l; [lra|]. apply ln_btw, B.
Qed.
Lemma btw_plus_zb n s t : btw n s -> zb n t -> btw (S n) (s + Rabs t).
Proof.
  intros S [T|T].
  - rewrite T, Rabs_R0, Rplus_0_r. apply (btw_weaken n); [lia|exact S].
  - apply btw_add; assumption.
Qed.
Lemma zb_weaken n m z : (n <= m)%nat -> zb n z -> zb m z.
Proof. intros L [H|H]; [left; exact H|right; apply (btw_weaken n m _ L H)]. Qed.
Lemma zb_neg n z : btw n (- z) -> zb n z.
Proof. intros B. right. pose proof (btw_pos _ _ B). rewrite <- Rabs_Ropp, Rabs_pos_eq by lra. exact B. Qed.
Ltac bt := unfold btw; simpl; lra.

(* ------------------------------------------------------------------ *)
(** * The constants *)
Lemma v_246 : units b_0_246 (246/1000) 1. Proof. ulit b_0_246 8863084066665136%positive (-55)%Z. Qed.
Lemma v_268 : units b_0_268 (268/1000) 1. Proof. ulit b_0_268 4827858800541172%positive (-54)%Z. Qed.
Lemma v_678 : units b_0_678 (678/1000) 1. Proof. ulit b_0_678 6106881094714393%positive (-53)%Z. Qed.
Lemma v_10 : units b_10 10 1. Proof. ulit b_10 5629499534213120%positive (-49)%Z. Qed.
Lemma v_1_1 : units b_1_1 (11/10) 1. Proof. ulit b_1_1 4953959590107546%positive (-52)%Z. Qed.
Lemma v_lo_a : units b_lo_a (8234/10000) 1. Proof. ulit b_lo_a 7416527866353733%positive (-53)%Z. Qed.
Lemma v_lo_c : units b_lo_c (1287/1000) 1. Proof. ulit b_lo_c 5796132720425828%positive (-52)%Z. Qed.
Lemma v_lo_d : units b_lo_d (33/10) 1. Proof. ulit b_lo_d 7430939385161318%positive (-51)%Z. Qed.
Lemma v_hi_a : units b_hi_a (15501/10000) 1. Proof. ulit b_hi_a 6981029782387006%positive (-52)%Z. Qed.
Lemma v_hi_b : units b_hi_b (6778/10000) 1. Proof. ulit b_hi_b 6105079654863444%positive (-53)%Z. Qed.
Lemma v_hi_c : units b_hi_c (3064/1000) 1. Proof. ulit b_hi_c 6899514629131600%positive (-51)%Z. Qed.
Lemma v_hi_d : units b_hi_d (332254659218600974/100000000000000000) 1. Proof. ulit b_hi_d 7481709797245012%positive (-51)%Z. Qed.
Lemma v_0306 : units b_0_0306 (306/10000) 1. Proof. ulit b_0_0306 8819849510242379%positive (-58)%Z. Qed.
Lemma v_6169 : units b_0_6169 (6169/10000) 1. Proof. ulit b_0_6169 5556541220249718%positive (-53)%Z. Qed.
Lemma v_1 : units b_1 1 1. Proof. ulit b_1 4503599627370496%positive (-52)%Z. Qed.
Lemma x_1_6 : is_number b_1_6 /\ real_of b_1_6 = 7205759403792794 / 2 ^ 52.
Proof. destruct (literal 7205759403792794 (-52) eq_refl) as [A B]. split; [exact A|]. unfold b_1_6. rewrite B. simpl. lra. Qed.
Lemma x_1_1 : is_number b_1_1 /\ real_of b_1_1 = 4953959590107546 / 2 ^ 52.
Proof. destruct (literal 4953959590107546 (-52) eq_refl) as [A B]. split; [exact A|]. unfold b_1_1. rewrite B. simpl. lra. Qed.
Lemma x_1_11 : is_number b_1_11 /\ real_of b_1_11 = 4998995586381251 / 2 ^ 52.
Proof. destruct (literal 4998995586381251 (-52) eq_refl) as [A B]. split; [exact A|]. unfold b_1_11. rewrite B. simpl. lra. Qed.
Lemma x_1e_3 : is_number b_1e_3 /\ real_of b_1e_3 = 4611686018427388 / 2 ^ 62.
Proof. destruct (literal 4611686018427388 (-62) eq_refl) as [A B]. split; [exact A|]. unfold b_1e_3. rewrite B. simpl. lra. Qed.
Lemma exact x z : is_number x -> real_of x = z -> units x z 0.
Proof. intros N E. split; [exact N|]. rewrite E, Rminus_eq_0, Rabs_R0. unfold Rdiv. rewrite !Rmult_0_l. lra. Qed.
Lemma x_2 : units b_2 2 0. Proof. apply exact; apply two_val. Qed.
Lemma x_3 : units b_3 3 0. Proof. apply exact; apply three_val. Qed.
Lemma x_half : units b_0_5 (5/10) 0. Proof. destruct half_val as [A B]. apply exact; [exact A|]. rewrite B. lra. Qed.
Lemma opp_units x z k : units x z k -> units (- x)%b64 (- z) k.
Proof.
  intros [A B]. destruct (opp_near x A) as [N E]. split; [exact N|]. rewrite E, Rabs_Ropp. replace (- real_of x - - z) with (- (real_of x - z)) by ring.
  rewrite Rabs_Ropp. exact B.
Qed.

(* ------------------------------------------------------------------ *)
(** * Skin friction *)
Lemma friction_btw a z : btw 40 a -> 1 <= z <= 4 -> btw 47 (friction a z).
Proof.
  intros Ba Hz. assert (B1 : btw (11 + 11) (Rpower a (268/1000))) by (apply (rpow_btw 40); [exact Ba|lra|simpl; lra]).
  assert (B2 : btw (11 + 11) (Rpower 10 (678/1000 * z))) by (apply (rpow_btw 4); [bt|lra|simpl; lra]).
  unfold friction. apply (btw_div 3 44); [bt|]. apply (btw_mul 22 22); assumption.
Qed.
Lemma friction_ok pw re h a z : powers pw -> units re a 4 -> units h z 1 -> btw 40 a -> 1 <= z <= 4 ->
  units (lt64 pw re h) (friction a z) 60.
Proof.
  intros S R1 R2 Ba Hz. unfold lt64.
  assert (B1 : btw (11 + 11) (Rpower a (268/1000))) by (apply (rpow_btw 40); [exact Ba|lra|simpl; lra]).
  assert (B2 : btw (11 + 11) (Rpower 10 (678/1000 * z))) by (apply (rpow_btw 4); [bt|lra|simpl; lra]).
  assert (P1 := pow_units pw re b_0_268 a (268/1000) 4 1 40 12 S R1 v_268 Ba ltac:(lra) ltac:(lra) ltac:(lra) ltac:(simpl; lra) ltac:(lra) ltac:(simpl; lra)).
  assert (M1 : units (b_0_678 * h)%b64 (678/1000 * z) (1 + 1 + 102/100)).
  { apply (un_mul _ _ _ _ _ _ 3); [exact v_678|exact R2|lra|lra|apply zb_btw; bt|lia]. }
  assert (P2 := pow_units pw b_10 (b_0_678 * h)%b64 10 (678/1000 * z) 1 _ 4 36 S v_10 M1 ltac:(bt) ltac:(lra) ltac:(lra) ltac:(lra) ltac:(simpl; lra) ltac:(lra) ltac:(simpl; lra)).
  assert (BM := btw_mul _ _ _ _ B1 B2).
  assert (M2 := un_mul _ _ _ _ _ _ _ P1 P2 ltac:(lra) ltac:(lra) (zb_btw _ _ BM) ltac:(lia)).
  apply (un_weaken _ _ _ 60) with (2 := un_div _ _ _ _ _ _ _ v_246 M2 (btw_pos _ _ BM) ltac:(lra) ltac:(lra) (zb_btw _ _ (friction_btw a z Ba Hz)) ltac:(lia)).
  lra.
Qed.

(* ------------------------------------------------------------------ *)
(** * Entrainment *)
Section Branch.
Variables (pw : b64 -> b64 -> b64) (S : powers pw) (a64 b64_ c64 d64 h : b64) (a b c d z m M Mp : R).
Hypotheses (Ha : units a64 a 1) (Hb : units b64_ b 1) (Hc : units c64 c 1) (Hd : units d64 d 1) (Hh : units h z 1).
Variable n : nat.
Hypotheses (Bn : btw n (z - b)) (Nn : (n <= 7)%nat) (Pz : 0 < z) (Pb : 0 < b) (Am : z + b <= m * (z - b)) (Hm : 0 <= m <= 300)
  (A1 : btw 2 a) (C1 : 1 <= c <= 4) (D1 : btw 2 d) (CM : c * (INR n + 101/100 * (m + 101/100)) <= M) (M1 : M <= 400)
  (CMp : (c + 1) * (201/100 * INR n + 101/100 * (m + 101/100)) <= Mp) (Mp1 : Mp <= 600) (CN : (c + 1) * INR n <= 25).

Lemma sub_ok : units (h - b64_)%b64 (z - b) (m + 101/100).
Proof.
  pose proof (btw_pos _ _ Bn). assert (Az : Rabs (z - b) = z - b) by (apply Rabs_pos_eq; lra).
  apply (un_sub _ _ _ _ 1 1 _ n); [exact Hh|exact Hb|lra| |rewrite Az; exact Bn|lia].
  rewrite Az, !Rabs_pos_eq by lra. lra.
Qed.
Lemma pw_btw : btw 50 (Rpower (z - b) c).
Proof. apply (rpow_btw n 25); [exact Bn|lra|]. pose proof (pos_INR n). simpl. nra. Qed.
Lemma pwp_btw : btw 50 (Rpower (z - b) (c + 1)).
Proof. apply (rpow_btw n 25); [exact Bn|lra|]. simpl. lra. Qed.

Lemma branch_btw : btw 53 (d + a / Rpower (z - b) c).
Proof. apply (btw_add 52); [apply (btw_weaken 2); [lia|exact D1]|]. apply (btw_div 2 50); [exact A1|exact pw_btw]. Qed.
Lemma branch_ok : units (entr_branch64 pw a64 b64_ c64 d64 h) (d + a / Rpower (z - b) c) (101/100 * M + 7).
Proof.
  pose proof (pos_INR n) as PN. unfold entr_branch64. assert (M0 : 0 <= M). { eapply Rle_trans; [|exact CM]. apply Rmult_le_pos; lra. }
  assert (P := pow_units pw _ _ _ _ _ _ _ M S sub_ok Hc Bn ltac:(lra) ltac:(lra) ltac:(lra) ltac:(lra) ltac:(lra) ltac:(nra)).
  assert (B2 : btw 52 (a / Rpower (z - b) c)) by (apply (btw_div 2 50); [exact A1|exact pw_btw]).
  assert (Q := un_div _ _ _ _ _ _ _ Ha P (btw_pos _ _ pw_btw) ltac:(lra) ltac:(lra) (zb_btw _ _ B2) ltac:(lia)).
  pose proof (btw_pos _ _ B2). pose proof (btw_pos _ _ D1). pose proof branch_btw as B3. set (q := a / Rpower (z - b) c) in *.
  apply (un_weaken _ _ (101/100 * M + 505/100 + 101/100)); [lra|].
  apply (un_add _ _ _ _ _ _ _ 53 Hd Q); [lra| |rewrite Rabs_pos_eq by lra; exact B3|lia].
  rewrite !Rabs_pos_eq by lra. nra.
Qed.
Lemma slope_btw : btw 56 (- (- a * c / Rpower (z - b) (c + 1))).
Proof.
  pose proof (btw_pos _ _ pwp_btw). replace (- (- a * c / Rpower (z - b) (c + 1))) with (a * c / Rpower (z - b) (c + 1)) by (field; lra).
  apply (btw_div 6 50); [|exact pwp_btw]. apply (btw_weaken 4); [lia|]. apply (btw_mul 2 2); [exact A1|]. bt.
Qed.
Lemma slope_ok : units (entr_p_branch64 pw a64 b64_ c64 h) (- a * c / Rpower (z - b) (c + 1)) (101/100 * Mp + 7).
Proof.
  pose proof (pos_INR n) as PN. unfold entr_p_branch64. assert (M0 : 0 <= Mp). { eapply Rle_trans; [|exact CMp]. apply Rmult_le_pos; lra. }
  assert (C2 : units (c64 + b_1)%b64 (c + 1) (1 + 101/100)).
  { apply (un_add _ _ _ _ 1 1 _ 3); [exact Hc|exact v_1|lra| |rewrite Rabs_pos_eq by lra; bt|lia]. rewrite !Rabs_pos_eq by lra. lra. }
  assert (P := pow_units pw _ _ _ _ _ _ _ Mp S sub_ok C2 Bn ltac:(lra) ltac:(lra) ltac:(lra) ltac:(lra) ltac:(lra) ltac:(lra)).
  assert (B4 : btw 4 (- (- a * c))). { replace (- (- a * c)) with (a * c) by ring. apply (btw_mul 2 2); [exact A1|]. bt. }
  assert (T := un_mul _ _ _ _ _ _ _ (opp_units _ _ _ Ha) Hc ltac:(lra) ltac:(lra) (zb_neg _ _ B4) ltac:(lia)).
  apply (un_weaken _ _ (1 + 1 + 102/100 + (101/100 * Mp + 202/100) + 102/100)); [lra|].
  apply (un_div _ _ _ _ _ _ 56 T P (btw_pos _ _ pwp_btw)); [lra|lra|apply zb_neg, slope_btw|lia].
Qed.
End Branch.

Lemma low_big z : 111/100 <= z <= 16/10 -> 5 <= 33/10 + (8234/10000) / Rpower (z - 11/10) (1287/1000).
Proof.
  intros H. assert (P : 0 < Rpower (z - 11/10) (1287/1000)) by apply exp_pos.
  assert (L : Rpower (z - 11/10) (1287/1000) <= 48/100).
  { apply Rle_trans with (Rpower (1/2) (1287/1000)); [apply Rle_Rpower_l; lra|]. unfold Rpower. interval. }
  assert (17/10 <= (8234/10000) / Rpower (z - 11/10) (1287/1000)); [|lra].
  set (x := Rpower (z - 11/10) (1287/1000)) in *. apply Rmult_le_reg_r with x; [exact P|]. replace (8234/10000 / x * x) with (8234/10000) by (field; lra). lra.
Qed.
Lemma low_top z : 111/100 <= z <= 16/10 -> 33/10 + (8234/10000) / Rpower (z - 11/10) (1287/1000) <= 500.
Proof.
  intros H. assert (P : 0 < Rpower (z - 11/10) (1287/1000)) by apply exp_pos.
  assert (L : 25/10000 <= Rpower (z - 11/10) (1287/1000)).
  { apply Rle_trans with (Rpower (1/100) (1287/1000)); [unfold Rpower; interval|apply Rle_Rpower_l; lra]. }
  assert ((8234/10000) / Rpower (z - 11/10) (1287/1000) <= 400); [|lra].
  set (x := Rpower (z - 11/10) (1287/1000)) in *. apply Rmult_le_reg_r with x; [exact P|]. replace (8234/10000 / x * x) with (8234/10000) by (field; lra). lra.
Qed.
Lemma high_top z : 16/10 < z -> (15501/10000) / Rpower (z - 6778/10000) (3064/1000) <= 10.
Proof.
  intros H. assert (P : 0 < Rpower (z - 6778/10000) (3064/1000)) by apply exp_pos.
  assert (L : 1/2 <= Rpower (z - 6778/10000) (3064/1000)).
  { apply Rle_trans with (Rpower (92/100) (3064/1000)); [unfold Rpower; interval|apply Rle_Rpower_l; lra]. }
  set (x := Rpower (z - 6778/10000) (3064/1000)) in *. apply Rmult_le_reg_r with x; [exact P|]. replace (15501/10000 / x * x) with (15501/10000) by (field; lra). lra.
Qed.

(** The shape factor of a state, as the float and as the real number. *)
Record shape (h : b64) (z : R) : Prop := {
  sh_units : units h z 1;
  sh_range : 111/100 <= z <= 4;
  sh_side : real_of h <= real_of b_1_6 <-> z <= 16/10;
  sh_above : real_of b_1_1 < real_of h }.

Lemma pieces f g h z : shape h z -> piecewise64 f g (entr_guard64 h) = if Rle_dec z (16/10) then f h else g h.
Proof.
  intros [[N _] _ D A]. unfold entr_guard64. rewrite fle_number by (exact N || apply x_1_1). rewrite Rle_bool_false by lra.
  unfold piecewise64. rewrite fle_number by (exact N || apply x_1_6). destruct (Rle_dec z (16/10)) as [L|L].
  - rewrite Rle_bool_true by tauto. reflexivity.
  - assert (real_of b_1_6 < real_of h) by (apply Rnot_le_lt; tauto). rewrite Rle_bool_false by assumption.
    unfold flt. rewrite Bltb_correct by (exact N || apply x_1_6). change (B2R b_1_6) with (real_of b_1_6). change (B2R h) with (real_of h). rewrite Rlt_bool_true by assumption. reflexivity.
Qed.

Lemma entr_ok pw h z : powers pw -> shape h z ->
  units (entr64 pw h) (entrainment z) 309 /\ units (entr_p64 pw h) (entrainment_slope z) 560 /\
  units (entr64 pw h - b_3)%b64 (entrainment z - 3) 781 /\
  btw 9 (entrainment z) /\ btw 9 (entrainment z - 3) /\ btw 56 (- entrainment_slope z).
Proof.
  intros S H. unfold entr64, entr_p64. rewrite !(pieces _ _ _ _ H). unfold entrainment, entrainment_slope.
  destruct H as [U R _ _]. destruct (Rle_dec z (16/10)) as [L|L].
  - assert (Bn : btw 7 (z - 11/10)) by (unfold btw; simpl; lra).
    assert (B := branch_ok pw S _ _ _ _ _ _ _ _ _ _ 221 298 v_lo_a v_1_1 v_lo_c v_lo_d U 7 Bn).
    assert (P := slope_ok pw S _ _ _ _ _ _ _ _ 221 546 v_lo_a v_1_1 v_lo_c U 7 Bn).
    assert (PB := slope_btw (8234/10000) (11/10) (1287/1000) z 7 Bn).
    assert (Lo := low_big z ltac:(lra)). assert (Hi := low_top z ltac:(lra)).
    simpl INR in *. set (q := (8234/10000) / Rpower (z - 11/10) (1287/1000)) in *.
    assert (B' : units (entr_branch64 pw b_lo_a b_1_1 b_lo_c b_lo_d h) (33/10 + q) 309).
    { eapply un_weaken; [|apply B; try lra; try lia; bt]. lra. }
    repeat match goal with |- _ /\ _ => split end.
    + exact B'.
    + eapply un_weaken; [|apply P; try lra; try lia; bt]. lra.
    + eapply un_weaken; [|apply (un_sub _ _ _ _ _ _ 779 9 B' x_3); [lra| |rewrite Rabs_pos_eq by lra; bt|lia]; rewrite !Rabs_pos_eq by lra; lra]. lra.
    + bt.
    + bt.
    + apply PB; try lra; try lia; bt.
  - assert (Bn : btw 2 (z - 6778/10000)) by (unfold btw; simpl; lra).
    assert (B := branch_ok pw S _ _ _ _ _ _ _ _ _ _ 3 19 v_hi_a v_hi_b v_hi_c v_hi_d U 2 Bn).
    assert (P := slope_ok pw S _ _ _ _ _ _ _ _ 3 34 v_hi_a v_hi_b v_hi_c U 2 Bn).
    assert (PB := slope_btw (15501/10000) (6778/10000) (3064/1000) z 2 Bn).
    assert (Hi := high_top z ltac:(lra)). assert (PP : 0 < Rpower (z - 6778/10000) (3064/1000)) by apply exp_pos.
    assert (Lo : 0 < (15501/10000) / Rpower (z - 6778/10000) (3064/1000)) by (apply Rdiv_lt_0_compat; lra).
    simpl INR in *. set (q := (15501/10000) / Rpower (z - 6778/10000) (3064/1000)) in *.
    assert (B' : units (entr_branch64 pw b_hi_a b_hi_b b_hi_c b_hi_d h) (332254659218600974/100000000000000000 + q) 27).
    { eapply un_weaken; [|apply B; try lra; try lia; bt]. lra. }
    repeat match goal with |- _ /\ _ => split end.
    + eapply un_weaken; [|exact B']. lra.
    + eapply un_weaken; [|apply P; try lra; try lia; bt]. lra.
    + eapply un_weaken; [|apply (un_sub _ _ _ _ _ _ 779 9 B' x_3); [lra| |rewrite Rabs_pos_eq by lra; bt|lia]; rewrite !Rabs_pos_eq by lra; lra]. lra.
    + bt.
    + bt.
    + apply PB; try lra; try lia; bt.
Qed.

Lemma rate_btw x : btw 9 (x - 3) -> btw 18 (entrainment_rate x).
Proof. intros B. unfold entrainment_rate. apply (btw_div 6 12); [bt|]. apply (rpow_btw 9 6); [exact B|lra|simpl; lra]. Qed.
Lemma rate_ok pw h1 x : powers pw -> units h1 x 309 -> units (h1 - b_3)%b64 (x - 3) 781 -> btw 9 (x - 3) ->
  units (entr_vel64 pw h1) (entrainment_rate x) 503.
Proof.
  intros S H1 H3 B. assert (PB := rate_btw x B). pose proof (btw_pos _ _ B) as Px. pose proof (proj1 B) as Lx. simpl in Lx.
  assert (G : real_of b_3 < real_of h1).
  { destruct H1 as [_ H1]. rewrite (Rabs_pos_eq x) in H1 by lra. apply Rabs_le_inv in H1. rewrite (proj2 three_val).
    unfold Rdiv in H1. change (/ 2 ^ 53) with uu in H1. destruct uu_small as [U0 U1].
    assert (309 * uu <= / 10 ^ 12) by lra. assert (309 * uu * x <= / 10 ^ 12 * x) by (apply Rmult_le_compat_r; lra).
    assert (x <= 515). { destruct B as [_ B]. simpl in B. lra. } lra. }
  unfold entr_vel64. rewrite fle_number by (apply H1 || apply three_val). rewrite Rle_bool_false by exact G. cbv zeta.
  assert (BP : btw 12 (Rpower (x - 3) (6169/10000))) by (apply (rpow_btw 9 6); [exact B|lra|simpl; lra]).
  assert (P := pow_units pw _ _ _ _ _ _ 9 493 S H3 v_6169 B ltac:(lra) ltac:(lra) ltac:(lra) ltac:(simpl; lra) ltac:(lra) ltac:(simpl; lra)).
  eapply un_weaken; [|apply (un_div _ _ _ _ _ _ _ v_0306 P (btw_pos _ _ BP) ltac:(lra) ltac:(lra) (zb_btw _ _ PB)); lia]. lra.
Qed.

(* ------------------------------------------------------------------ *)
(** * The values used *)
Lemma clamp_ok l c x : is_number l -> 0 < c -> c <= real_of l -> real_of l <= c + uu * c -> is_number x ->
  units (if flt x l then l else x) (Rmax c (real_of x)) 1.
Proof.
  intros N C L U X. rewrite flt_number by assumption. destruct uu_small as [U0 _]. destruct (Rlt_or_le (real_of x) (real_of l)) as [H|H].
  - rewrite Rlt_bool_true by exact H. split; [exact N|]. unfold Rdiv. rewrite Rmult_1_l. fold uu. set (r := Rmax c (real_of x)).
    assert (c <= r) by apply Rmax_l. assert (r <= real_of l) by (apply Rmax_lub; lra).
    rewrite !Rabs_pos_eq by lra. assert (uu * c <= uu * r) by (apply Rmult_le_compat_l; lra). lra.
  - rewrite Rlt_bool_false by exact H. rewrite Rmax_right by lra. apply (un_weaken _ _ 0); [lra|]. apply exact; [exact X|reflexivity].
Qed.

Lemma speed_ok scalar u : is_number u -> scalar = true \/ 0 <= real_of u -> units (u_guard64 scalar u) (speed_used (real_of u)) 1.
Proof.
  intros N H. destruct x_1e_3 as [A B]. unfold u_guard64, speed_used.
  assert (C : units (if flt u b_1e_3 then b_1e_3 else u) (Rmax (1/1000) (real_of u)) 1).
  { apply clamp_ok; [exact A|lra|rewrite B; simpl; lra|rewrite B; unfold uu; simpl; lra|exact N]. }
  destruct scalar; [exact C|]. destruct H as [H|H]; [discriminate|].
  replace (flt (Babs u) b_1e_3) with (flt u b_1e_3); [exact C|].
  assert (F : is_number (Babs u)) by (unfold is_number; rewrite is_finite_Babs; exact N).
  assert (V : real_of (Babs u) = real_of u) by (unfold real_of at 1; rewrite B2R_Babs; apply Rabs_pos_eq, H).
  rewrite !flt_number by assumption. rewrite V. reflexivity.
Qed.

(** No float lies strictly between 1.6 and its literal. *)
Lemma gap_1_6 h : is_number h -> 16/10 < real_of h -> real_of h < real_of b_1_6 -> False.
Proof.
  intros N L U. rewrite (proj2 x_1_6) in U.
  assert (G : generic_format radix2 (SpecFloat.fexp 53 1024) (real_of h)) by (apply generic_format_B2R).
  unfold generic_format, F2R in G. cbn [Fnum Fexp] in G.
  assert (Mg : mag radix2 (real_of h) = 1%Z :> Z).
  { apply mag_unique. rewrite Rabs_pos_eq by lra. simpl. simpl in U. split; lra. }
  unfold cexp in G. rewrite Mg in G. change (SpecFloat.fexp 53 1024 1) with (-52)%Z in G.
  set (k := Ztrunc _) in G. change (bpow radix2 (-52)) with (/ 4503599627370496) in G.
  simpl in U. assert (A : 7205759403792793 < IZR k) by lra. assert (B : IZR k < 7205759403792794) by lra.
  apply lt_IZR in A, B. lia.
Qed.

Lemma shape_ok h : is_number h -> real_of h <= 4 -> real_of h <> real_of b_1_6 ->
  shape (if flt h b_1_11 then b_1_11 else h) (shape_used (real_of h)).
Proof.
  intros N H4 N16. destruct x_1_11 as [A B]. destruct x_1_6 as [A6 B6]. destruct x_1_1 as [A1 B1]. unfold shape_used.
  assert (B' : real_of b_1_11 = 4998995586381251 / 4503599627370496) by (rewrite B; simpl; lra).
  assert (B6' : real_of b_1_6 = 7205759403792794 / 4503599627370496) by (rewrite B6; simpl; lra).
  assert (B1' : real_of b_1_1 = 4953959590107546 / 4503599627370496) by (rewrite B1; simpl; lra).
  split.
  - apply clamp_ok; [exact A|lra|lra|rewrite B'; unfold uu; simpl; lra|exact N].
  - split; [apply Rmax_l|apply Rmax_lub; lra].
  - rewrite flt_number by assumption. destruct (Rlt_or_le (real_of h) (real_of b_1_11)) as [L|L].
    + rewrite Rlt_bool_true by exact L. split; intros _; [|lra]. apply Rmax_lub; lra.
    + rewrite Rlt_bool_false by exact L. rewrite Rmax_right by lra. split; intros X; [|lra].
      apply Rnot_lt_le. intros Y. apply (gap_1_6 h N Y). lra.
  - rewrite flt_number by assumption. destruct (Rlt_or_le (real_of h) (real_of b_1_11)) as [L|L].
    + rewrite Rlt_bool_true by exact L. lra.
    + rewrite Rlt_bool_false by exact L. lra.
Qed.

(* ------------------------------------------------------------------ *)
(** * The right-hand side *)
Lemma rhs_ok pw scalar nu u du d h : powers pw -> is_number nu -> is_number u -> is_number du -> is_number d -> is_number h ->
  btw 50 (real_of nu) -> scalar = true \/ 0 <= real_of u -> real_of u <= 2 ^ 50 -> zb 50 (real_of du) -> btw 50 (real_of d) ->
  real_of h <= 4 -> real_of h <> real_of b_1_6 ->
  btw 40 (speed_used (real_of u) * real_of d / real_of nu) ->
  su (fst (head_rhs64 pw scalar nu u du d h)) (momentum_rate (real_of nu) (speed_used (real_of u)) (real_of du) (real_of d) (shape_used (real_of h)))
    (momentum_size (real_of nu) (speed_used (real_of u)) (real_of du) (real_of d) (shape_used (real_of h))) 64 /\
  su (snd (head_rhs64 pw scalar nu u du d h)) (shape_rate (real_of nu) (speed_used (real_of u)) (real_of du) (real_of d) (shape_used (real_of h)))
    (shape_size (real_of nu) (speed_used (real_of u)) (real_of du) (real_of d) (shape_used (real_of h))) 1100.
Proof.
  intros S Nn Nu Ndu Nd Nh Bnu Hu Hu2 Bdu Bd Hh Hh6 Bre. unfold head_rhs64. cbn [fst snd].
  assert (SH := shape_ok h Nh Hh Hh6). assert (SU := speed_ok scalar u Nu Hu).
  assert (BU : btw 50 (speed_used (real_of u))). { unfold speed_used, btw. split; [|apply Rmax_lub; [simpl; lra|exact Hu2]]. eapply Rle_trans; [|apply Rmax_l]. simpl. lra. }
  set (h' := if flt h b_1_11 then b_1_11 else h) in *. set (z := shape_used (real_of h)) in *.
  set (u' := u_guard64 scalar u) in *. set (U := speed_used (real_of u)) in *.
  assert (Un := exact nu _ Nn eq_refl). assert (Udu := exact du _ Ndu eq_refl). assert (Ud := exact d _ Nd eq_refl).
  set (NU := real_of nu) in *. set (DU := real_of du) in *. set (D := real_of d) in *.
  pose proof (btw_pos _ _ BU) as PU. pose proof (btw_pos _ _ Bd) as PD. pose proof (btw_pos _ _ Bnu) as PN.
  pose proof (sh_range _ _ SH) as Rz.
  destruct (entr_ok pw h' z S SH) as (E1 & E2 & E3 & B1 & B3 & B2).
  assert (F := rate_ok pw _ _ S E1 E3 B3). assert (BF := rate_btw _ B3).
  set (H1 := entrainment z) in *. set (H1p := entrainment_slope z) in *. set (Fz := entrainment_rate H1) in *.
  set (h1 := entr64 pw h') in *. set (h1p := entr_p64 pw h') in *. set (f := entr_vel64 pw h1) in *.
  (* the Reynolds number and the friction *)
  assert (BUD := btw_mul _ _ _ _ BU Bd).
  assert (X1 := un_mul _ _ _ _ _ _ _ SU Ud ltac:(lra) ltac:(lra) (zb_btw _ _ BUD) ltac:(lia)).
  assert (X2 := un_div _ _ _ _ _ _ _ X1 Un PN ltac:(lra) ltac:(lra) (zb_btw _ _ Bre) ltac:(lia)).
  assert (CF : units (lt64 pw (u' * d / nu)%b64 h') (friction (U * D / NU) z) 60).
  { apply friction_ok; [exact S| |apply (sh_units _ _ SH)|exact Bre|lra]. eapply un_weaken; [|exact X2]. lra. }
  assert (BC := friction_btw (U * D / NU) z Bre ltac:(lra)). set (cf := lt64 pw _ h') in *.
  assert (BP : btw 48 (5/10 * friction (U * D / NU) z)) by (apply (btw_mul 1 47); [bt|exact BC]).
  assert (P := un_mul _ _ _ _ _ _ _ x_half CF ltac:(lra) ltac:(lra) (zb_btw _ _ BP) ltac:(lia)).
  (* the pressure-gradient term *)
  assert (Y1 : units (b_2 + h')%b64 (2 + z) (1 + 101/100)).
  { apply (un_add _ _ _ _ 0 1 _ 3); [exact x_2|apply (sh_units _ _ SH)|lra| |rewrite Rabs_pos_eq by lra; bt|lia]. rewrite !Rabs_pos_eq by lra. lra. }
  assert (BY : btw 3 (2 + z)) by bt.
  assert (Y2 := un_mul _ _ _ _ _ _ _ Ud Y1 ltac:(lra) ltac:(lra) (zb_btw _ _ (btw_mul _ _ _ _ Bd BY)) ltac:(lia)).
  assert (Y3 := un_mul _ _ _ _ _ _ _ Y2 Udu ltac:(lra) ltac:(lra) (zb_mul _ _ _ _ (zb_btw _ _ (btw_mul _ _ _ _ Bd BY)) Bdu) ltac:(lia)).
  assert (BQ := zb_div _ _ _ _ (zb_mul _ _ _ _ (zb_btw _ _ (btw_mul _ _ _ _ Bd BY)) Bdu) BU). simpl Nat.add in BQ.
  assert (Q := un_div _ _ _ _ _ _ _ Y3 SU PU ltac:(lra) ltac:(lra) BQ ltac:(lia)).
  set (q := D * (2 + z) * DU / U) in *.
  assert (BS : btw 154 (5/10 * friction (U * D / NU) z + Rabs q)).
  { apply btw_plus_zb; [apply (btw_weaken 48); [lia|exact BP]|apply (zb_weaken 153); [lia|exact BQ]]. }
  assert (F0 : su (b_0_5 * cf - d * (b_2 + h') * du / u')%b64 (5/10 * friction (U * D / NU) z - q) (5/10 * friction (U * D / NU) z + Rabs q) 64).
  { apply (su_weaken _ _ _ (62 + 101/100)); [lra|]. apply (su_sub _ _ _ _ _ _ _ 154); [| |lra|exact BS|lia].
    - apply su_pos; [apply (btw_pos _ _ BP)|]. eapply un_weaken; [|exact P]. lra.
    - apply su_units. eapply un_weaken; [|exact Q]. lra. }
  change (5/10 * friction (U * D / NU) z - q) with (momentum_rate NU U DU D z) in F0.
  change (5/10 * friction (U * D / NU) z + Rabs q) with (momentum_size NU U DU D z) in F0, BS.
  set (f0 := (b_0_5 * cf - d * (b_2 + h') * du / u')%b64) in *.
  split; [exact F0|].
  set (Z0 := momentum_rate NU U DU D z) in *. set (S0 := momentum_size NU U DU D z) in *.
  (* the shape equation *)
  assert (BA := btw_mul _ _ _ _ BU BF). simpl Nat.add in BA.
  assert (A := un_mul _ _ _ _ _ _ _ SU F ltac:(lra) ltac:(lra) (zb_btw _ _ BA) ltac:(lia)).
  assert (BB1 := btw_mul _ _ _ _ BU BS). assert (BB := btw_mul _ _ _ _ BB1 B1). simpl Nat.add in BB1, BB.
  assert (C1 := su_mul _ _ _ _ _ _ _ _ _ (su_pos _ _ _ PU SU) F0 ltac:(lra) ltac:(lra) BB1 ltac:(lia)).
  assert (C2 := su_mul _ _ _ _ _ _ _ _ _ C1 (su_pos _ _ _ (btw_pos _ _ B1) E1) ltac:(lra) ltac:(lra) BB ltac:(lia)).
  assert (BAB : btw 214 (U * Fz + U * S0 * H1)).
  { apply btw_add; [apply (btw_weaken 68); [lia|exact BA]|exact BB]. }
  assert (AB : su (u' * f - u' * f0 * h1)%b64 (U * Fz - U * Z0 * H1) (U * Fz + U * S0 * H1) (506 + 101/100)).
  { apply (su_sub _ _ _ _ _ _ _ 214); [| |lra|exact BAB|lia].
    - apply su_pos; [apply (btw_pos _ _ BA)|]. eapply un_weaken; [|exact A]. lra.
    - eapply su_weaken; [|exact C2]. lra. }
  assert (ZC1 := zb_mul _ _ _ _ Bdu (zb_btw _ _ Bd)). assert (ZC := zb_mul _ _ _ _ ZC1 (zb_btw _ _ B1)). simpl Nat.add in ZC1, ZC.
  assert (G1 := un_mul _ _ _ _ _ _ _ Udu Ud ltac:(lra) ltac:(lra) ZC1 ltac:(lia)).
  assert (G2 := un_mul _ _ _ _ _ _ _ G1 E1 ltac:(lra) ltac:(lra) ZC ltac:(lia)).
  assert (BT : btw 215 (U * Fz + U * S0 * H1 + Rabs (DU * D * H1))).
  { apply btw_plus_zb; [exact BAB|apply (zb_weaken 109); [lia|exact ZC]]. }
  assert (T : su (u' * f - u' * f0 * h1 - du * d * h1)%b64 (U * Fz - U * Z0 * H1 - DU * D * H1) (U * Fz + U * S0 * H1 + Rabs (DU * D * H1)) (508 + 101/100)).
  { apply (su_sub _ _ _ _ _ _ _ 215); [| |lra|exact BT|lia].
    - eapply su_weaken; [|exact AB]. lra.
    - apply su_units. eapply un_weaken; [|exact G2]. lra. }
  (* the denominator *)
  assert (ZP : zb 56 H1p) by (apply zb_neg, B2).
  assert (ZD1 := zb_mul _ _ _ _ ZP (zb_btw _ _ BU)). assert (ZD := zb_mul _ _ _ _ ZD1 (zb_btw _ _ Bd)). simpl Nat.add in ZD1, ZD.
  assert (D1 := un_mul _ _ _ _ _ _ _ E2 SU ltac:(lra) ltac:(lra) ZD1 ltac:(lia)).
  assert (D2 := un_mul _ _ _ _ _ _ _ D1 Ud ltac:(lra) ltac:(lra) ZD ltac:(lia)).
  pose proof (btw_pos _ _ B2) as PP.
  assert (ND : H1p * U * D <> 0). { apply Rmult_integral_contrapositive_currified; [apply Rmult_integral_contrapositive_currified|]; lra. }
  assert (BD : btw 156 (Rabs (H1p * U * D))) by (destruct ZD as [ZD|ZD]; [contradiction|exact ZD]).
  apply (su_weaken _ _ _ (508 + 101/100 + (560 + 1 + 102/100 + 0 + 102/100) + 102/100)); [lra|].
  apply (su_div _ _ _ _ _ _ _ (215 + 156) T D2 ND); [lra|lra|apply btw_div; assumption|lia].
Qed.

(* ------------------------------------------------------------------ *)
(** * The exact model computes these rates *)
From Verif Require Import PyBaseFacts SkinFrictionModel SkinFrictionProofs HeadModel HeadProofs CoreModel HeadOdeProofs.

Lemma entrainment_eq z : 11/10 < z -> shape_entrainment (Fin z) = Fin (entrainment z).
Proof. intros H. unfold entrainment. destruct (Rle_dec z (16/10)); [apply entr_lo; lra|apply entr_hi; lra]. Qed.
Lemma entrainment_slope_eq z : 11/10 < z -> shape_entrainment_p (Fin z) = Fin (entrainment_slope z).
Proof. intros H. unfold entrainment_slope. destruct (Rle_dec z (16/10)); [apply entr_p_lo; lra|apply entr_p_hi; lra]. Qed.
Lemma entrainment_above z : 11/10 < z -> 3 < entrainment z.
Proof.
  intros H. unfold entrainment. destruct (Rle_dec z (16/10)).
  - assert (0 < (8234/10000) / Rpower (z - 11/10) (1287/1000)) by (apply Rdiv_lt_0_compat; [lra|apply exp_pos]). lra.
  - assert (0 < (15501/10000) / Rpower (z - 6778/10000) (3064/1000)) by (apply Rdiv_lt_0_compat; [lra|apply exp_pos]). lra.
Qed.
Lemma entrainment_rate_eq x : 3 < x -> entrainment_velocity (Fin x) = Fin (entrainment_rate x).
Proof.
  intros H. unfold entrainment_velocity. cbn [xleb]. rewrite Rleb_false by lra. rewrite xsub_fin, xpow_fin by lra.
  apply xdiv_fin, Rgt_not_eq, exp_pos.
Qed.
Lemma friction_eq re h : 0 < re -> ludwieg_tillman (Fin re) (Fin h) = Fin (friction re h).
Proof. apply lt_eval. Qed.

Lemma exact_rates nu u du d h : 0 < nu -> 0 < d ->
  head_rhs (Fin nu) (VFloat (Fin u)) (VFloat (Fin du)) (Fin d) (Fin h) =
  Ok (Fin (momentum_rate nu (speed_used u) du d (shape_used h)), Fin (shape_rate nu (speed_used u) du d (shape_used h))).
Proof.
  intros Hn Hd.
  assert (E : head_rhs (Fin nu) (VFloat (Fin u)) (VFloat (Fin du)) (Fin d) (Fin h) =
              head_rhs (Fin nu) (ret_val KFloat (Fin (speed_used u))) (ret_val KFloat (Fin du)) (Fin d) (Fin (shape_used h))).
  { unfold head_rhs, ode_u_guard, ret_val, speed_used, shape_used. cbn [xltb].
    assert (Eh : (if Rltb h (111/100) then Fin (111/100) else Fin h) =
                 (if Rltb (Rmax (111/100) h) (111/100) then Fin (111/100) else Fin (Rmax (111/100) h))).
    { rewrite (Rltb_false (Rmax _ _)) by (pose proof (Rmax_l (111/100) h); lra). destruct (Rlt_or_le h (111/100)).
      - rewrite Rltb_true, Rmax_left by lra. reflexivity.
      - rewrite Rltb_false, Rmax_right by lra. reflexivity. }
    assert (Eu : (if Rltb u (1/1000) then Fin (1/1000) else Fin u) =
                 (if Rltb (Rmax (1/1000) u) (1/1000) then Fin (1/1000) else Fin (Rmax (1/1000) u))).
    { rewrite (Rltb_false (Rmax _ _)) by (pose proof (Rmax_l (1/1000) u); lra). destruct (Rlt_or_le u (1/1000)).
      - rewrite Rltb_true, Rmax_left by lra. reflexivity.
      - rewrite Rltb_false, Rmax_right by lra. reflexivity. }
    cbn [bind]. rewrite <- Eh, <- Eu. reflexivity. }
  rewrite E. set (U := speed_used u). set (z := shape_used h).
  assert (HU : 1/1000 <= U) by apply Rmax_l. assert (Hz : 111/100 <= z) by apply Rmax_l.
  destruct (head_rhs_fin nu U du d z KFloat Hn HU Hz Hd (or_introl eq_refl)) as (cf & e & p & E1 & E2 & E3 & _ & E4).
  rewrite E4. assert (Hre : 0 < U * d / nu). { apply Rdiv_lt_0_compat; [apply Rmult_lt_0_compat; lra|exact Hn]. }
  rewrite (friction_eq _ _ Hre) in E1. injection E1 as <-. rewrite entrainment_slope_eq in E3 by lra. injection E3 as <-.
  assert (EH : h1R z = entrainment z) by (unfold h1R; rewrite entrainment_eq by lra; reflexivity).
  rewrite EH in *. rewrite entrainment_rate_eq in E2 by (apply entrainment_above; lra). injection E2 as <-. reflexivity.
Qed.

Lemma entr_facts pw h : powers pw -> is_number h -> 111/100 <= real_of h <= 4 -> real_of h <> real_of b_1_6 ->
  units (entr64 pw h) (entrainment (real_of h)) 309 /\ units (entr_p64 pw h) (entrainment_slope (real_of h)) 560 /\
  units (entr_vel64 pw (entr64 pw h)) (entrainment_rate (entrainment (real_of h))) 503.
Proof.
  intros S N H N6. assert (SH : shape h (real_of h)).
  { destruct x_1_6 as [_ B6]. destruct x_1_1 as [_ B1].
    assert (B6' : real_of b_1_6 = 7205759403792794 / 4503599627370496) by (rewrite B6; simpl; lra).
    assert (B1' : real_of b_1_1 = 4953959590107546 / 4503599627370496) by (rewrite B1; simpl; lra).
    split; [|exact H| |lra].
    - apply (un_weaken _ _ 0); [lra|]. apply exact; [exact N|reflexivity].
    - split; intros X; [|lra]. apply Rnot_lt_le. intros Y. apply (gap_1_6 h N Y). lra. }
  destruct (entr_ok pw h _ S SH) as (E1 & E2 & E3 & _ & B3 & _). split; [exact E1|]. split; [exact E2|]. apply rate_ok; assumption.
Qed.
