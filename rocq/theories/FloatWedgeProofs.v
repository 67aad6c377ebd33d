(** Setting and reading the exponent of a Falkner-Skan solution, in binary64 (C178). *)
From Coq Require Import Reals ZArith Lra Lia Psatz.
From Flocq Require Import Core IEEE754.BinarySingleNaN.
From Verif Require Import PyBase FloatModel FloatSpec FloatFacts FloatProofs FloatXFoilModel FloatXFoilProofs
  FloatThwaitesModel FloatThwaitesSpec FloatThwaitesProofs FloatFitsProofs FloatStanfordModel FloatStanfordSpec FloatStanfordProofs
  FloatHeadModel FloatHeadSpec FloatScaleProofs FloatHeadProofs FloatSimilarityProofs FloatWedgeModel.
Open Scope R_scope.

Lemma beta_min_val : is_number b_beta_min /\ real_of b_beta_min <= -1988/10000.
Proof. split; [reflexivity|]. unfold b_beta_min, real_of, B2R, F2R. simpl. lra. Qed.
Lemma number_not_inf x : is_number x -> feq x f_inf = false.
Proof. destruct x as [s|[|]| |s mm ee pf]; intros N; try discriminate N; try reflexivity; destruct s; reflexivity. Qed.

Lemma un_pos' x z k : units x z k -> 0 < z -> 0 <= k <= 1000 -> 0 < real_of x.
Proof. intros H Z K. apply units_ru in H; [|exact Z]. destruct H as [_ [H _]]. destruct uu_small as [U0 U1]. assert (k * uu <= / 10 ^ 11) by nra. nra. Qed.

Lemma wedge_ok m : is_number m -> zb 50 (real_of m) -> -9/100 <= real_of m <= 200 ->
  exists beta m', reset_m64 m = Ok beta /\ units beta (2 * real_of m / (1 + real_of m)) 4 /\
    wedge_m64 beta = Ok m' /\ units m' (real_of m) (6 + 4 * Rabs (real_of m)).
Proof.
  intros N Z H. set (M := real_of m) in *. assert (Um := exact m _ N eq_refl). fold M in Um.
  destruct uu_small as [U0 U1].
  assert (Z2 : zb (1 + 50) (2 * M)) by (apply zb_mul; [apply zb_btw; bt|exact Z]).
  assert (A := un_mul _ _ _ _ _ _ _ x_2 Um ltac:(lra) ltac:(lra) Z2 ltac:(lia)).
  assert (B1 : btw 8 (1 + M)) by bt.
  assert (B : units (b_1 + m)%b64 (1 + M) (0 + 101/100)).
  { apply (un_add _ _ _ _ 0 0 _ 8 one_val Um); [lra| |rewrite Rabs_pos_eq by lra; exact B1|lia]. rewrite (Rabs_pos_eq (1 + M)) by lra. lra. }
  assert (ZB := zb_div _ _ _ _ Z2 B1).
  assert (C := un_div _ _ _ _ _ _ _ A B ltac:(lra) ltac:(lra) ltac:(lra) ZB ltac:(lia)).
  set (z := 2 * M / (1 + M)) in *. set (b := (b_2 * m / (b_1 + m))%b64) in *.
  assert (C4 : units b z (305/100 + 1/100)) by (eapply un_weaken; [|exact C]; lra). clear C.
  assert (Ez : z * (1 + M) = 2 * M) by (unfold z; field; lra).
  assert (Hz : -198/1000 <= z <= 2 - / 128) by (split; nra).
  destruct C4 as [Nb Eb]. assert (Eb' := Eb). unfold Rdiv in Eb'. 
  assert (Rb : -1985/10000 <= real_of b < 2).
  { assert (Az : Rabs z <= 2) by (apply Rabs_le; lra). assert (Rabs (real_of b - z) <= / 10 ^ 10).
    { eapply Rle_trans; [exact Eb|]. change (/ 2 ^ 53) with uu. replace ((305 / 100 + 1 / 100) / 2 ^ 53) with (306/100 * uu) by (unfold uu; field; lra).
      pose proof (Rabs_pos z). nra. }
    apply Rabs_le_inv in H0. lra. }
  assert (two := x_2). destruct two as [N2 _]. assert (R2 : real_of b_2 = 2).
  { destruct x_2 as [_ E2]. rewrite (Rabs_pos_eq 2) in E2 by lra. replace (0 / 2 ^ 53 * 2) with 0 in E2 by (field; lra). pose proof (Rabs_pos (real_of b_2 - 2)).
    destruct (Req_EM_T (real_of b_2 - 2) 0) as [Q|Q]; [lra|]. apply Rabs_pos_lt in Q. lra. }
  assert (R1 : real_of b_1 = 1).
  { destruct one_val as [_ E1]. rewrite (Rabs_pos_eq 1) in E1 by lra. replace (0 / 2 ^ 53 * 1) with 0 in E1 by (field; lra).
    destruct (Req_EM_T (real_of b_1 - 1) 0) as [Q|Q]; [lra|]. apply Rabs_pos_lt in Q. lra. }
  destruct beta_min_val as [Nm Em].
  exists b.
  assert (D : units (b_2 - b)%b64 (2 - z) (306/100 * Rabs M + 101/100)).
  { assert (E : 2 - z = 2 / (1 + M)) by (unfold z; field; lra).
    assert (Ab : 0 <= Rabs M <= 200) by (split; [apply Rabs_pos|apply Rabs_le; lra]).
    assert (Pz : 0 < 2 - z) by lra.
    apply (un_sub _ _ _ _ 0 (305/100 + 1/100) _ 8 x_2); [split; assumption|lra| |rewrite Rabs_pos_eq by lra; bt|lia].
    rewrite (Rabs_pos_eq (2 - z)) by lra. rewrite E. unfold z, Rdiv. rewrite !Rabs_mult, Rabs_inv, (Rabs_pos_eq (1 + M)), (Rabs_pos_eq 2) by lra.
    right. field. lra. }
  assert (Ab : 0 <= Rabs M <= 200) by (split; [apply Rabs_pos|apply Rabs_le; lra]).
  assert (BD : btw 8 (2 - z)) by bt.
  assert (EM : z / (2 - z) = M) by (unfold z; field; split; lra).
  assert (ZM : zb 50 (z / (2 - z))) by (rewrite EM; exact Z).
  assert (Q := un_div _ _ _ _ _ _ _ (conj Nb Eb) D ltac:(lra) ltac:(lra) ltac:(lra) ZM ltac:(lia)). rewrite EM in Q.
  exists (b / (b_2 - b))%b64. split; [|split; [|split]].
  - unfold reset_m64. rewrite number_not_inf by exact N. unfold py_div64.
    assert (F : feq (b_1 + m)%b64 b_0 = false).
    { rewrite feq_number; [|apply (proj1 B)|reflexivity]. apply Req_bool_false. intros X. assert (Y := un_pos' _ _ _ B ltac:(lra) ltac:(lra)).
      rewrite X in Y. simpl in Y. lra. }
    rewrite F. cbn [bind]. fold b. unfold reset_beta64. rewrite !flt_number by assumption. rewrite R2. rewrite !Rlt_bool_false by lra. reflexivity.
  - eapply un_weaken; [|exact (conj Nb Eb)]. lra.
  - unfold wedge_m64. rewrite feq_number by assumption. rewrite R2, Req_bool_false by lra. unfold py_div64.
    assert (F : feq (b_2 - b)%b64 b_0 = false).
    { rewrite feq_number; [|apply (proj1 D)|reflexivity]. apply Req_bool_false. intros X. assert (Y := un_pos' _ _ _ D ltac:(lra) ltac:(lra)).
      rewrite X in Y. simpl in Y. lra. }
    rewrite F. reflexivity.
  - eapply un_weaken; [|exact Q]. lra.
Qed.

Lemma wedge_rejects m : is_number m -> -9/10 <= real_of m <= -905/10000 -> reset_m64 m = Err ValueError.
Proof.
  intros N H. set (M := real_of m) in *. assert (Um := exact m _ N eq_refl). fold M in Um. destruct uu_small as [U0 U1].
  assert (ZM : zb 4 M) by (apply zb_neg; bt).
  assert (Z2 : zb (1 + 4) (2 * M)) by (apply zb_mul; [apply zb_btw; bt|exact ZM]).
  assert (A := un_mul _ _ _ _ _ _ _ x_2 Um ltac:(lra) ltac:(lra) Z2 ltac:(lia)).
  assert (B1 : btw 4 (1 + M)) by bt.
  assert (B : units (b_1 + m)%b64 (1 + M) (0 + 101/100)).
  { apply (un_add _ _ _ _ 0 0 _ 4 one_val Um); [lra| |rewrite Rabs_pos_eq by lra; exact B1|lia]. rewrite (Rabs_pos_eq (1 + M)) by lra. lra. }
  assert (C := un_div _ _ _ _ _ _ _ A B ltac:(lra) ltac:(lra) ltac:(lra) (zb_div _ _ _ _ Z2 B1) ltac:(lia)).
  set (z := 2 * M / (1 + M)) in *. set (b := (b_2 * m / (b_1 + m))%b64) in *.
  assert (Ez : z * (1 + M) = 2 * M) by (unfold z; field; lra).
  assert (Hz : -18 <= z <= -199/1000) by (split; nra).
  destruct C as [Nb Eb].
  assert (Rb : real_of b < -1989/10000).
  { assert (Az : Rabs z <= 18) by (apply Rabs_le; lra). assert (Q : Rabs (real_of b - z) <= / 10 ^ 10).
    { eapply Rle_trans; [exact Eb|]. replace ((0 + 0 + 102 / 100 + (0 + 101 / 100) + 102 / 100) / 2 ^ 53) with (305/100 * uu) by (unfold uu; field; lra).
      pose proof (Rabs_pos z). nra. }
    apply Rabs_le_inv in Q. lra. }
  assert (Em : -19885/100000 <= real_of b_beta_min) by (unfold b_beta_min, real_of, B2R, F2R; simpl; lra).
  unfold reset_m64. rewrite number_not_inf by exact N. unfold py_div64.
  assert (F : feq (b_1 + m)%b64 b_0 = false).
  { rewrite feq_number; [|apply (proj1 B)|reflexivity]. apply Req_bool_false. intros X. assert (Y := un_pos' _ _ _ B ltac:(lra) ltac:(lra)).
    rewrite X in Y. simpl in Y. lra. }
  rewrite F. cbn [bind]. fold b. unfold reset_beta64. rewrite (flt_number b b_beta_min) by (try exact Nb; reflexivity). rewrite Rlt_bool_true by lra. reflexivity.
Qed.
