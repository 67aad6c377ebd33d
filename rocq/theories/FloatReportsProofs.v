(** C175: proofs. *)
From Coq Require Import Reals ZArith Lra Lia Psatz Bool List.
From Flocq Require Import Core IEEE754.BinarySingleNaN.
From Verif Require Import PyBase PyBaseFacts CoreModel FloatModel FloatSpec FloatFacts FloatProofs FloatXFoilModel
  FloatXFoilProofs FloatThwaitesModel FloatThwaitesSpec FloatThwaitesProofs FloatFitsProofs FloatStanfordModel FloatStanfordSpec FloatStanfordProofs FloatHeadSpec
  FloatPowFitsModel FloatPowFitsSpec FloatPowFitsProofs FloatReportsModel FloatReportsSpec.
From Verif Require Import ThwaitesFitsModel.
Import ListNotations.
Open Scope R_scope.

(** The fit [ft] is computed with errors of at most [et] and [eh]. *)
Definition good_fit (ft : fit) (sh hp : b64 -> b64) (et eh : R) : Prop := forall lam, is_number lam -> real_of lam <= 25/100 ->
  exists t h, shear ft (Fin (real_of lam)) = Fin t /\ shape ft (Fin (real_of lam)) = Fin h /\
    -1 <= t <= 1 /\ 0 <= h <= 5 /\ ab (sh lam) t et /\ ab (hp lam) h eh.

(** The computed parameter is the exact one of a state next to the given one. *)
Lemma lambda_back s du : is_number s -> is_number du -> -1 <= real_of s * real_of du <= 24/100 ->
  real_of s * real_of du = 0 \/ / 2 ^ 800 <= Rabs (real_of s * real_of du) ->
  exists s', Rabs (s' - real_of s) <= 101/100 * uu * Rabs (real_of s) /\ s' * real_of du = real_of (lambda64 s du) /\
    is_number (lambda64 s du) /\ real_of (lambda64 s du) <= 25/100.
Proof.
  intros Ns Nd HZ HZ'. destruct uu_small as [U0 U1]. destruct uu_112 as [_ U2]. pose proof tiny_pos as T0.
  unfold lambda64. set (z := real_of s * real_of du) in *.
  assert (HL : z = 0 \/ lo9 <= Rabs z).
  { destruct HZ' as [Z|Z]; [left; exact Z|right]. eapply Rle_trans; [|exact Z]. apply Rinv_le_contravar; [apply two_pow|apply Rle_pow; clear; [lra|lia]]. }
  clear HZ'.
  assert (P1 : near (s * du)%b64 z). { apply mul_near; [exact Ns|exact Nd|]. fold z. apply huge_40, Rabs_le. lra. }
  assert (L0 : z = 0 -> real_of (s * du)%b64 = 0) by (intros Z; apply (mul_zero s du Ns Nd Z)).
  apply near_abs in P1. destruct P1 as [NL EL]. set (L := (s * du)%b64) in *. clearbody L. set (l := real_of L) in *.
  assert (Bz : Rabs z <= 1) by (apply Rabs_le; lra).
  assert (T1 : tiny <= / 10 ^ 20) by apply tiny_30.
  assert (UZ : uu * Rabs z <= uu * 1) by (apply Rmult_le_compat_l; lra).
  assert (Bl : l <= 25/100) by lra.
  destruct HL as [Z|Z].
  - exists (real_of s). rewrite Rminus_eq_0, Rabs_R0. split; [apply Rmult_le_pos; [lra|apply Rabs_pos]|].
    rewrite (L0 Z). split; [exact Z|]. split; [exact NL|]. lra.
  - assert (Z0 : 0 < Rabs z). { eapply Rlt_le_trans; [|exact Z]. apply Rinv_0_lt_compat, two_pow. }
    assert (T2 : tiny <= uu / 1000 * Rabs z) by (apply tiny_lo, Z).
    assert (D0 : real_of du <> 0). { intros D. unfold z in Z0. rewrite D, Rmult_0_r, Rabs_R0 in Z0. lra. }
    exists (l / real_of du). split; [|split; [field; exact D0|split; [exact NL|exact Bl]]].
    replace (l / real_of du - real_of s) with ((l - z) / real_of du) by (unfold z; field; exact D0).
    unfold Rdiv at 1. rewrite Rabs_mult, Rabs_inv. apply Rmult_le_reg_r with (Rabs (real_of du)); [apply Rabs_pos_lt, D0|].
    rewrite Rmult_assoc, Rinv_l, Rmult_1_r by (apply Rabs_no_R0, D0).
    rewrite (Rmult_assoc (101/100 * uu)), <- Rabs_mult. fold z. apply Rabs_le. lra.
Qed.

Lemma sqrt_close a b u : 0 < a -> 0 <= u <= / 10 -> Rabs (b - a) <= u * a -> 0 < b /\ Rabs (sqrt a - sqrt b) <= u * sqrt b.
Proof.
  intros A U H. apply Rabs_le_inv in H. assert (B : 9/10 * a <= b) by nra. assert (B0 : 0 < b) by lra. split; [exact B0|].
  assert (SA := sqrt_lt_R0 a A). assert (SB := sqrt_lt_R0 b B0).
  assert (EA := sqrt_sqrt a (Rlt_le _ _ A)). assert (EB := sqrt_sqrt b (Rlt_le _ _ B0)).
  set (p := sqrt a) in *. set (q := sqrt b) in *. clearbody p q. subst a. subst b.
  assert (0 <= u * (p * p)) by (apply Rmult_le_pos; nra).
  apply Rabs_le. split.
  - apply Rnot_lt_le. intros X. assert (Y : p < q * (1 - u)) by lra.
    assert (Q1 : 0 < 1 - u <= 1) by lra. assert (p * p < q * (1 - u) * (q * (1 - u))) by (apply Rmult_le_0_lt_compat; lra).
    assert (q * q <= (1 + u) * (p * p)) by lra.
    assert ((1 + u) * (p * p) < (1 + u) * (q * (1 - u) * (q * (1 - u)))) by (apply Rmult_lt_compat_l; lra).
    assert ((1 + u) * (q * (1 - u) * (q * (1 - u))) = q * q * ((1 + u) * (1 - u) * (1 - u))) by ring.
    assert ((1 + u) * (1 - u) * (1 - u) <= 1) by nra. assert (0 < q * q) by nra. nra.
  - apply Rnot_lt_le. intros X. assert (Y : q * (1 + u) < p) by lra.
    assert (q * (1 + u) * (q * (1 + u)) < p * p) by (apply Rmult_le_0_lt_compat; nra).
    assert ((1 - u) * (p * p) <= q * q) by lra.
    assert ((1 - u) * (q * (1 + u) * (q * (1 + u))) < (1 - u) * (p * p)) by (apply Rmult_lt_compat_l; lra).
    assert ((1 - u) * (q * (1 + u) * (q * (1 + u))) = q * q * ((1 - u) * (1 + u) * (1 + u))) by ring.
    assert (1 <= (1 - u) * (1 + u) * (1 + u)) by nra. assert (0 < q * q) by nra. nra.
Qed.

Lemma tau_quot P A t e D d : 0 < A -> 0 < d -> 0 <= e <= 1 -> Rabs t <= 1 -> Rabs (P - A * t) <= e * A -> Rabs (D - d) <= 4 * uu * d ->
  D <> 0 /\ Rabs (P / D - A * t / d) <= (1001/1000 * e + 5 * uu) * (A / d).
Proof.
  intros HA Hd He Ht HP HD. destruct uu_small as [U0 U1]. apply Rabs_le_inv in HD.
  assert (UE : uu * d <= / 10 ^ 15 * d) by (apply Rmult_le_compat_r; lra).
  assert (Dp : 9999/10000 * d <= D) by lra. assert (D0 : 0 < D) by lra. split; [lra|].
  replace (P / D - A * t / d) with (((P - A * t) * d - A * t * (D - d)) / (D * d)) by (field; lra).
  assert (DE : 0 < D * d) by (apply Rmult_lt_0_compat; assumption).
  rewrite abs_quot by lra. apply quot_le; [exact DE|].
  replace ((1001/1000 * e + 5 * uu) * (A / d) * (D * d)) with ((1001/1000 * e + 5 * uu) * A * D) by (field; lra).
  apply Rle_trans with (e * A * d + A * 1 * (4 * uu * d)).
  - replace ((P - A * t) * d - A * t * (D - d)) with ((P - A * t) * d + - (A * t * (D - d))) by ring.
    eapply Rle_trans; [apply Rabs_triang|]. rewrite Rabs_Ropp, !Rabs_mult, (Rabs_pos_eq d), (Rabs_pos_eq A) by lra.
    apply Rplus_le_compat; [apply Rmult_le_compat_r; lra|]. apply Rmult_le_compat; [apply Rmult_le_pos; [lra|apply Rabs_pos]|apply Rabs_pos| |apply Rabs_le; lra].
    apply Rmult_le_compat_l; lra.
  - apply Rle_trans with ((1001/1000 * e + 5 * uu) * A * (9999/10000 * d)); [|apply Rmult_le_compat_l; [apply Rmult_le_pos; lra|lra]].
    assert (AD : 0 < A * d) by (apply Rmult_lt_0_compat; assumption).
    assert (0 <= e * (A * d)) by (apply Rmult_le_pos; lra). assert (0 <= uu * (A * d)) by (apply Rmult_le_pos; lra).
    replace (e * A * d + A * 1 * (4 * uu * d)) with (e * (A * d) + 4 * (uu * (A * d))) by ring.
    replace ((1001/1000 * e + 5 * uu) * A * (9999/10000 * d)) with (1001/1000 * (9999/10000) * (e * (A * d)) + 5 * (9999/10000) * (uu * (A * d))) by field.
    lra.
Qed.

Lemma reports_ok m ft sh hp et eh E : m_kind m <> Head -> m_fit m = Some ft -> good_fit ft sh hp et eh ->
  0 <= et <= 1/10 -> 1/10^15 <= eh <= 1/10 -> 101/100 * et + 2/10^15 <= E -> accurate_reports m sh hp E eh.
Proof.
  intros MK MF GF Het Heh HE x s nu u du rho En Eu Ed Ms Mn Mu Mr Nd HZ HZ'.
  assert (DM := delta_m64_ok s nu Ms Mn).
  apply moderate_btw in Ms, Mn, Mu, Mr. destruct Ms as [Ns Bs], Mn as [Nn Bn], Mu as [Nu Bu], Mr as [Nr Br].
  destruct (lambda_back s du Ns Nd HZ HZ') as (s' & Hs' & Es' & NL & BL). clear HZ HZ'.
  destruct (GF _ NL BL) as (t & h & Et & Eh & Bt & Bh & Pt & Ph).
  destruct uu_small as [U0 U1]. destruct uu_112 as [_ U2]. pose proof tiny_pos as T0.
  pose proof (btw_pos _ _ Bs) as Ps. pose proof (btw_pos _ _ Bn) as Pn. pose proof (btw_pos _ _ Bu) as Pu. pose proof (btw_pos _ _ Br) as Pr.
  rewrite (Rabs_pos_eq (real_of s)) in Hs' by lra.
  set (a := real_of s * real_of nu) in *. assert (A0 : 0 < a) by (apply Rmult_lt_0_compat; assumption).
  assert (Ba : btw (200 + 200) a) by (apply btw_mul; assumption).
  assert (Hb : Rabs (s' * real_of nu - a) <= 101/100 * uu * a).
  { unfold a. replace (s' * real_of nu - real_of s * real_of nu) with ((s' - real_of s) * real_of nu) by ring.
    rewrite Rabs_mult, (Rabs_pos_eq (real_of nu)) by lra. rewrite <- Rmult_assoc. apply Rmult_le_compat_r; lra. }
  destruct (sqrt_close a (s' * real_of nu) (101/100 * uu) A0 ltac:(lra) Hb) as [B0 Hd].
  set (d := sqrt (s' * real_of nu)) in *. assert (D0 : 0 < d) by (apply sqrt_lt_R0, B0).
  assert (Bd : lo9 <= d <= hi9 /\ btw 201 d).
  { assert (Bq := btw_sqrt 200 _ Ba). assert (B1 : btw 201 d).
    { apply Rabs_le_inv in Hd. assert (uu * d <= / 10 ^ 15 * d) by (apply Rmult_le_compat_r; lra). destruct Bq as [Q1 Q2].
      unfold btw in *. change (2 ^ 201) with (2 * 2 ^ 200). rewrite Rinv_mult. pose proof (two_pow 200). pose proof (two_inv 200).
      generalize dependent (2 ^ 200). intros w Q1 Q2 W1 W2. generalize dependent (/ w). intros. lra. }
    split; [apply (btw_room _ _ B1); lia|exact B1]. }
  destruct Bd as [Rd Bd].
  (* the thickness *)
  destruct DM as [ND ED]. set (Dh := delta_m64 s nu) in *. rewrite (Rabs_pos_eq (sqrt a)) in ED by apply sqrt_pos.
  change (2 / 2 ^ 53) with (2 * uu) in ED. set (D := real_of Dh) in *.
  assert (UD : 0 <= uu * d <= / 10 ^ 15 * d) by (split; [apply Rmult_le_pos; lra|apply Rmult_le_compat_r; lra]).
  assert (HD : Rabs (D - d) <= 4 * uu * d).
  { apply Rabs_le_inv in Hd. assert (uu * sqrt a <= uu * (101/100 * d)) by (apply Rmult_le_compat_l; lra).
    apply Rabs_le_inv in ED. apply Rabs_le. lra. }
  exists s', d, h, (real_of rho * real_of nu * real_of u * t / d).
  assert (QM : q_delta_m (with_value m s') x = Ok (Fin d)).
  { unfold q_delta_m, sol_at, with_value, comp. cbn [m_sol m_kind m_nu bind nth_error]. rewrite En. unfold xmul, xsqrt. fold d.
    destruct (m_kind m); [| |contradiction]; (destruct (Rlt_dec (s' * real_of nu) 0) as [X|_]; [lra|reflexivity]). }
  assert (QL : calc_lambda (with_value m s') x (Fin s') = Ok (Fin (real_of (lambda64 s du)))).
  { unfold calc_lambda. change (q_du_e (with_value m s') x) with (q_du_e m x). rewrite Ed. cbn [bind]. unfold xmul. rewrite Es'. reflexivity. }
  assert (QS : q_shape_d (with_value m s') x = Ok (Fin h)).
  { unfold q_shape_d, sol_at, comp. cbn [m_sol with_value bind nth_error m_kind].
    assert (X : bind (Ok (Fin s')) (fun s0 => bind (calc_lambda (with_value m s') x s0) (fun lam => match m_fit m with Some f => Ok (shape f lam) | None => Err AttributeError end)) = Ok (Fin h)).
    { cbn [bind]. rewrite QL. cbn [bind]. rewrite MF, Eh. reflexivity. }
    destruct (m_kind m); [exact X|exact X|contradiction]. }
  split. { eapply Rle_trans; [exact Hs'|]. change (2 / 2 ^ 53) with (2 * uu). rewrite (Rabs_pos_eq (real_of s)) by lra. apply Rmult_le_compat_r; lra. }
  split; [exact QM|].
  split. { split; [exact ND|]. rewrite (Rabs_pos_eq d) by lra. exact HD. }
  split; [exact QS|]. split; [apply ab_within, Ph|].
  split. { unfold q_delta_d. rewrite QM, QS. reflexivity. }
  split.
  { unfold delta_d64, shape_d64. fold Dh. destruct Ph as [NH EH]. set (Hh := hp (lambda64 s du)) in *. set (H := real_of Hh) in *.
    assert (X : Rabs (D * H - d * h) <= (101/100 * eh + 21 * uu) * d).
    { replace (D * H - d * h) with ((D - d) * H + d * (H - h)) by ring. eapply Rle_trans; [apply Rabs_triang|].
      rewrite !Rabs_mult, (Rabs_pos_eq d) by lra.
      assert (Rabs (D - d) * Rabs H <= 4 * uu * d * (51/10)) by (apply Rmult_le_compat; try apply Rabs_pos; [exact HD|apply Rabs_le; lra]).
      assert (d * Rabs (H - h) <= d * eh) by (apply Rmult_le_compat_l; [lra|apply Rabs_le; lra]).
      assert (0 <= d * eh) by (apply Rmult_le_pos; lra). lra. }
    assert (DEH : 1/10^15 * d <= eh * d <= 1/10 * d) by (split; apply Rmult_le_compat_r; lra).
    assert (DH : 0 <= d * h <= d * 5) by (split; [apply Rmult_le_pos; lra|apply Rmult_le_compat_l; lra]).
    apply Rabs_le_inv in X.
    assert (Y : Rabs (D * H) <= 6 * d) by (apply Rabs_le; lra).
    assert (N : near (Dh * Hh)%b64 (D * H)). { apply mul_near; [exact ND|exact NH|]. fold D H. apply huge_pow. pose proof (proj2 Rd). lra. }
    apply near_abs in N. destruct N as [N1 N2]. split; [exact N1|].
    assert (T := tiny_lo d (proj1 Rd)). assert (uu * Rabs (D * H) <= uu * (6 * d)) by (apply Rmult_le_compat_l; lra).
    assert (UD2 : uu * d <= 112/10^18 * d) by (apply Rmult_le_compat_r; lra).
    apply Rabs_le. lra. }
  split.
  { unfold q_tau_w_thwaites, sol_at, comp. cbn [m_sol with_value bind nth_error]. rewrite QL. cbn [bind].
    change (q_u_e (with_value m s') x) with (q_u_e m x). rewrite Eu. cbn [bind m_fit with_value]. rewrite MF.
    rewrite QM. cbn [bind m_nu with_value]. rewrite En, Et. unfold xmul, xdiv. destruct (Req_EM_T d 0) as [X|_]; [lra|reflexivity]. }
  (* the wall shear stress *)
  unfold wall_shear64, tau_w64. fold Dh. destruct Pt as [NT ET]. set (Th := sh (lambda64 s du)) in *. set (T := real_of Th) in *.
  assert (C1 := btw_mul _ _ _ _ Br Bn). assert (C2 := btw_mul _ _ _ _ C1 Bu). assert (C3 := btw_div _ _ _ _ C2 Bd).
  assert (R1 := ru_mul _ _ _ _ _ _ (ru_exact _ Nr) (ru_exact _ Nn) Pr Pn ltac:(lra) ltac:(lra) (btw_room _ _ C1 ltac:(lia))).
  assert (R2 := ru_mul _ _ _ _ _ _ R1 (ru_exact _ Nu) (btw_pos _ _ C1) Pu ltac:(lra) ltac:(lra) (btw_room _ _ C2 ltac:(lia))).
  set (A := real_of rho * real_of nu * real_of u) in *. set (Ah := (rho * nu * u)%b64) in *.
  pose proof (btw_pos _ _ C2) as PA. pose proof (btw_pos _ _ C3) as PQ.
  assert (RA := btw_room _ _ C2 ltac:(lia)). assert (RQ := btw_room _ _ C3 ltac:(lia)).
  destruct R2 as [NA EA]. 
  assert (UA : 0 <= uu * A <= / 10 ^ 15 * A) by (split; [apply Rmult_le_pos; lra|apply Rmult_le_compat_r; lra]).
  assert (HA : Rabs (real_of Ah - A) <= 205/100 * uu * A) by (apply Rabs_le; lra).
  assert (X : Rabs (real_of Ah * T - A * t) <= (et + 3 * uu) * A).
  { replace (real_of Ah * T - A * t) with ((real_of Ah - A) * T + A * (T - t)) by ring. eapply Rle_trans; [apply Rabs_triang|].
    rewrite !Rabs_mult, (Rabs_pos_eq A) by lra.
    assert (Rabs (real_of Ah - A) * Rabs T <= 205/100 * uu * A * (12/10)) by (apply Rmult_le_compat; try apply Rabs_pos; [exact HA|apply Rabs_le; lra]).
    assert (A * Rabs (T - t) <= A * et) by (apply Rmult_le_compat_l; [lra|apply Rabs_le; lra]). lra. }
  assert (AE : 0 <= et * A <= 1/10 * A) by (split; [apply Rmult_le_pos; lra|apply Rmult_le_compat_r; lra]).
  assert (AT : - A <= A * t <= A) by nra.
  assert (X' := Rabs_le_inv _ _ X).
  assert (Y : Rabs (real_of Ah * T) <= 12/10 * A) by (apply Rabs_le; lra).
  assert (N : near (Ah * Th)%b64 (real_of Ah * T)). { apply mul_near; [exact NA|exact NT|]. fold T. apply huge_pow. pose proof (proj2 RA). lra. }
  apply near_abs in N. destruct N as [NP EP]. set (P := real_of (Ah * Th)%b64) in *.
  assert (TA := tiny_lo A (proj1 RA)). assert (uu * Rabs (real_of Ah * T) <= uu * (12/10 * A)) by (apply Rmult_le_compat_l; lra).
  assert (XP : Rabs (P - A * t) <= (et + 5 * uu) * A) by (apply Rabs_le; lra).
  destruct (tau_quot P A t (et + 5 * uu) D d PA D0 ltac:(lra) ltac:(apply Rabs_le; lra) XP HD) as [DN Q].
  set (w := A / d) in *. assert (TW := tiny_lo w (proj1 RQ)).
  replace (A * t / d) with (w * t) in * by (unfold w; field; lra).
  assert (WT : - w <= w * t <= w) by nra.
  assert (UW : 0 <= uu * w <= / 10 ^ 15 * w) by (split; [apply Rmult_le_pos; lra|apply Rmult_le_compat_r; lra]).
  assert (UW2 : uu * w <= 112/10^18 * w) by (apply Rmult_le_compat_r; lra).
  assert (EW : 0 <= et * w <= 1/10 * w) by (split; [apply Rmult_le_pos; lra|apply Rmult_le_compat_r; lra]).
  apply Rabs_le_inv in Q.
  assert (UU : uu * uu * w <= / 10 ^ 15 * (uu * w)) by (rewrite Rmult_assoc; apply Rmult_le_compat_r; lra).
  assert (YQ : Rabs (P / D) <= 13/10 * w) by (apply Rabs_le; lra).
  assert (N : near (Ah * Th / Dh)%b64 (P / D)). { apply div_near; [exact NP|exact ND|exact DN|]. fold P D. apply huge_pow. pose proof (proj2 RQ). lra. }
  apply near_abs in N. destruct N as [N1 N2]. split; [exact N1|].
  assert (uu * Rabs (P / D) <= uu * (13/10 * w)) by (apply Rmult_le_compat_l; lra).
  apply Rle_trans with ((101/100 * et + 2/10^15) * w); [|apply Rmult_le_compat_r; lra].
  apply Rabs_le. lra.
Qed.

Lemma good_white pw : powers pw -> keeps_zero pw -> good_fit fit_white (shear_white64 pw) shape_white64 (2/10^10) (1/10^13).
Proof.
  intros PW KZ lam N L. destruct (shear_white64_ab pw lam PW KZ N L) as (t & Et & Bt & Pt & _). destruct (shape_white64_ab lam N L) as (h & Eh & Bh & Ph).
  exists t, h. repeat (split; [first [assumption|lra]|]). assumption.
Qed.
Lemma good_cb : good_fit fit_cb shear_cb64 shape_cb64 (/ 10 ^ 14) (/ 10 ^ 14).
Proof.
  intros lam N L. destruct (fit_cb64_ab lam N) as (h & t & Eh & Et & Bh & Bt & Ph & Pt). exists t, h. repeat (split; [first [assumption|lra]|]). assumption.
Qed.
Lemma good_drela sq cube : raises sq 2 -> raises cube 3 -> good_fit fit_drela (shear_drela64 sq cube) (shape_drela64 sq cube) (1/10^13) (1/10^13).
Proof.
  intros SQ CU lam N L. destruct (fit_drela64_ab sq cube lam SQ CU N L) as (h & t & h' & Eh & Et & _ & Bh & Bt & Ph & Pt & _).
  exists t, h. repeat (split; [first [assumption|lra]|]). assumption.
Qed.
Lemma white_reports m pw : m_kind m <> Head -> m_fit m = Some fit_white -> powers pw -> keeps_zero pw ->
  accurate_reports m (shear_white64 pw) shape_white64 (3/10^10) (1/10^13).
Proof. intros K F PW KZ. apply (reports_ok m _ _ _ _ _ _ K F (good_white pw PW KZ)); lra. Qed.
Lemma cb_reports m : m_kind m <> Head -> m_fit m = Some fit_cb -> accurate_reports m shear_cb64 shape_cb64 (2/10^14) (1/10^14).
Proof. intros K F. replace (1/10^14) with (/ 10 ^ 14) by lra. apply (reports_ok m _ _ _ _ _ _ K F good_cb); lra. Qed.
Lemma drela_reports m sq cube : m_kind m <> Head -> m_fit m = Some fit_drela -> raises sq 2 -> raises cube 3 ->
  accurate_reports m (shear_drela64 sq cube) (shape_drela64 sq cube) (2/10^13) (1/10^13).
Proof. intros K F SQ CU. apply (reports_ok m _ _ _ _ _ _ K F (good_drela sq cube SQ CU)); lra. Qed.
