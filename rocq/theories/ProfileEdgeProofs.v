(** Velocities above the edge (C147), and objects for the examples of C145-C147. *)
From Coq Require Import Reals Ranalysis5 List Lra Lia Psatz ClassicalDedekindReals Classical_Prop.
From Coquelicot Require Import Coquelicot.
From Verif Require Import PyBase PyBaseFacts SimilarityModel SimilaritySpec SimilarityProofs
  SimilarityFlowProofs PicardProofs ProductProofs BlasiusPoly BlasiusSpec BlasiusProofs BlasiusFlowProofs
  BlasiusExistProofs ProfileSpec ProfileProofs.
Import ListNotations.
Open Scope R_scope.

Lemma poly_away (l : list R) : last l 0 <> 0 ->
  exists T m, 0 < m /\ forall t, T <= t -> m <= Rabs (poly l t).
Proof.
  induction l as [|c r IH]; intros H; [exfalso; apply H; reflexivity|].
  destruct r as [|c' r].
  - exists 0, (Rabs c). split; [apply Rabs_pos_lt; exact H|]. intros t _. cbn [poly].
    rewrite Rmult_0_r, Rplus_0_r. apply Rle_refl.
  - destruct (IH H) as (T & m & Hm & Hp). exists (Rmax T (1 + Rabs c / m)), m. split; [exact Hm|].
    intros t Ht. pose proof (Rmax_l T (1 + Rabs c / m)). pose proof (Rmax_r T (1 + Rabs c / m)).
    specialize (Hp t ltac:(lra)). set (q := poly (c' :: r) t) in *.
    change (poly (c :: c' :: r) t) with (c + t * q).
    pose proof (Rabs_pos c) as Pc. assert (0 <= Rabs c / m) by (apply Rmult_le_pos; [lra|left; apply Rinv_0_lt_compat; lra]).
    assert (A : Rabs (t * q) - Rabs c <= Rabs (c + t * q)).
    { pose proof (Rabs_triang (c + t * q) (- c)) as K. replace (c + t * q + - c) with (t * q) in K by ring.
      rewrite Rabs_Ropp in K. lra. }
    rewrite Rabs_mult, (Rabs_pos_eq t) in A by lra.
    assert (B : (1 + Rabs c / m) * m <= t * Rabs q) by (apply Rmult_le_compat; lra).
    replace ((1 + Rabs c / m) * m) with (m + Rabs c) in B by (field; lra). lra.
Qed.

Lemma poly_unbounded (c : R) (r : list R) : last r 0 <> 0 ->
  forall B, exists T, forall t, T <= t -> B < Rabs (poly (c :: r) t).
Proof.
  intros H B. destruct (poly_away r H) as (T & m & Hm & Hp).
  exists (Rmax T (1 + (Rabs c + Rabs B) / m)). intros t Ht.
  pose proof (Rmax_l T (1 + (Rabs c + Rabs B) / m)). pose proof (Rmax_r T (1 + (Rabs c + Rabs B) / m)).
  specialize (Hp t ltac:(lra)). cbn [poly]. set (q := poly r t) in *.
  pose proof (Rabs_pos c) as Pc. pose proof (Rabs_pos B) as PB. pose proof (RRle_abs B).
  assert (0 <= (Rabs c + Rabs B) / m) by (apply Rmult_le_pos; [lra|left; apply Rinv_0_lt_compat; lra]).
  assert (A : Rabs (t * q) - Rabs c <= Rabs (c + t * q)).
  { pose proof (Rabs_triang (c + t * q) (- c)) as K. replace (c + t * q + - c) with (t * q) in K by ring.
    rewrite Rabs_Ropp in K. lra. }
  rewrite Rabs_mult, (Rabs_pos_eq t) in A by lra.
  assert (L : (1 + (Rabs c + Rabs B) / m) * m <= t * Rabs q) by (apply Rmult_le_compat; lra).
  replace ((1 + (Rabs c + Rabs B) / m) * m) with (m + Rabs c + Rabs B) in L by (field; lra). lra.
Qed.

Lemma above_lem o b U N E c r x : flow o b U N -> continues_as o E (c :: r) -> last r 0 <> 0 -> 0 < x ->
  forall B, exists y0, forall y, y0 <= y -> exists u, q_u o x y = Ok (Fin u) /\ B < Rabs u.
Proof.
  intros F [_ C] H Hx B. pose proof (GG_pos o b U N F x Hx) as Hg. pose proof (UE_pos o b U N F x) as Hu.
  destruct (poly_unbounded c r H (B / UE b U x)) as (T & HT).
  exists (Rmax E T / GG b U N x). intros y Hy.
  assert (Hyg : Rmax E T <= y * GG b U N x).
  { apply (Rmult_le_compat_r (GG b U N x)) in Hy; [|lra].
    replace (Rmax E T / GG b U N x * GG b U N x) with (Rmax E T) in Hy by (field; lra). exact Hy. }
  pose proof (Rmax_l E T). pose proof (Rmax_r E T).
  exists (UE b U x * poly (c :: r) (y * GG b U N x)). split.
  - unfold q_u. rewrite (ue_val o b U N F x Hx), (eta_val o b U N F x y Hx). cbn [bind].
    rewrite C by lra. cbn [bind]. rewrite xmul_fin. reflexivity.
  - specialize (HT (y * GG b U N x) ltac:(lra)). rewrite Rabs_mult, (Rabs_pos_eq (UE b U x)) by lra.
    apply (Rmult_lt_compat_l (UE b U x)) in HT; [|exact Hu].
    replace (UE b U x * (B / UE b U x)) with B in HT by (field; lra). exact HT.
Qed.

Lemma at_edge_lem o b U N E x Y f1 : flow o b U N -> 0 < x -> q_eta o x Y = Ok (Fin E) ->
  q_f_p o (Fin E) = Ok (Fin f1) ->
  exists ue, qs_u_e o x = Ok (Fin ue) /\ 0 < ue /\ q_u o x Y = Ok (Fin (ue * f1)).
Proof.
  intros F Hx HY Hf. exists (UE b U x). split; [apply (ue_val o b U N F x Hx)|].
  split; [apply (UE_pos o b U N F x)|]. unfold q_u. rewrite (ue_val o b U N F x Hx), HY. cbn [bind].
  rewrite Hf. cbn [bind]. rewrite xmul_fin. reflexivity.
Qed.

(** ** A default Blasius object whose profile goes on along its tangent above the edge *)
Definition tangent_ivp (F0 F1 F2 : R -> R) (rhs : triple -> triple) (T : xr) (y : triple) : res ivp3 :=
  match T, y with
  | Fin T, (Fin a, Fin b, Fin c) =>
      if sig_not_dec (solves_from rhs T a b c F0 F1 F2)
      then Ok {| i_success := true; i_last := (Fin (F0 T), Fin (F1 T), Fin (F2 T));
                 i_sol := fun t => match t with
                   | Fin t => if Rleb t T then (Fin (F0 t), Fin (F1 t), Fin (F2 t))
                              else (Fin (F0 T + F1 T * (t - T) + F2 T / 2 * (t - T) ^ 2),
                                    Fin (F1 T + F2 T * (t - T)), Fin (F2 T))
                   | _ => (NaN, NaN, NaN) end |}
      else Err ValueError
  | _, _ => Err ValueError
  end.

Lemma tangent_object : exists ivp quad bisect c s,
  exact_ivp ivp /\ exact_quad quad /\ exact_bisect bisect /\ 0 < s /\
  forall u n, 0 < u -> 0 < n ->
  exists o, new_blasius ivp quad bisect (Fin u) (Fin n) None None = Ok o /\
    continues_as o blasius_eta_inf [c; s].
Proof.
  destruct (profile_exists blasius_fw_pp ltac:(unfold blasius_fw_pp; lra)) as (F0 & F1 & F2 & A0 & A1 & A2 & D).
  set (E := blasius_eta_inf). assert (HE : 0 < E) by (unfold E, blasius_eta_inf; lra).
  assert (BP : blasius_profile F0 F1 F2).
  { refine (conj A0 (conj A1 (conj A2 (conj _ (conj _ _))))); intros t [Ht _]; apply D, Ht. }
  destruct (edge_numbers F0 F1 F2 BP) as (_ & N1 & _).
  assert (S : exists s, 0 <= s <= E /\ F1 s = 99 / 100).
  { destruct (IVT_interv (fun t => F1 t - 99 / 100) 0 E) as (s & Hs & Es).
    - intros t Ht. apply continuity_pt_filterlim.
      apply (ex_derive_continuous (fun t => F1 t - 99 / 100)).
      assert (X : ex_derive F1 t) by (exists (F2 t); exact (proj1 (proj2 (D t (proj1 Ht))))). auto_derive. exact X.
    - exact HE.
    - rewrite A1. lra.
    - unfold E, small in *. lra.
    - exists s. split; [exact Hs|lra]. }
  destruct S as (s & Hs & Es).
  assert (Pos : 0 < F2 E).
  { apply (F2_pos F0 F1 F2 E blasius_fw_pp HE ltac:(unfold blasius_fw_pp; lra) A2); try lra; intros t [Ht _]; apply D, Ht. }
  exists (tangent_ivp F0 F1 F2), the_quad, (the_bisect s), (F1 E - F2 E * E), (F2 E).
  split; [|split; [|split; [|split; [exact Pos|]]]].
  - intros rhs T a b c r H _. unfold tangent_ivp in H.
    destruct (sig_not_dec _) as [N|_]; [|discriminate H]. apply NNPP in N.
    inversion H; subst r. exists F0, F1, F2. split; [exact N|]. intros t Ht. cbn [i_sol].
    rewrite Rleb_true by lra. reflexivity.
  - intros q g b Hb H _. unfold the_quad. do 2 f_equal. apply RInt_ext. intros t.
    rewrite Rmin_left, Rmax_right by exact Hb. intros Ht. rewrite H by lra. reflexivity.
  - intros q b r H. unfold the_bisect in H. destruct (sig_not_dec _) as [N|_]; [|discriminate H].
    apply NNPP in N. inversion H; subst r. exists s. split; [reflexivity|exact N].
  - intros u n Hu Hn.
    enough (X : exists o, new_blasius (tangent_ivp F0 F1 F2) the_quad (the_bisect s) (Fin u) (Fin n) None None = Ok o /\
      s_eta_inf o = Fin E /\ s_f o = Some (fun t => match t with
                   | Fin t => if Rleb t E then (Fin (F0 t), Fin (F1 t), Fin (F2 t))
                              else (Fin (F0 E + F1 E * (t - E) + F2 E / 2 * (t - E) ^ 2),
                                    Fin (F1 E + F2 E * (t - E)), Fin (F2 E))
                   | _ => (NaN, NaN, NaN) end)).
    { destruct X as (o & B & Ei & Ef). exists o. split; [exact B|]. split; [exact Ei|]. intros t Ht.
      unfold q_f_p. rewrite Ef. cbn [poly]. destruct (Rle_lt_or_eq_dec E t Ht) as [L|<-].
      - rewrite Rleb_false by lra. unfold t1. cbn [fst snd]. do 2 f_equal. ring.
      - rewrite Rleb_true by lra. unfold t1. cbn [fst snd]. do 2 f_equal. ring. }
    unfold new_blasius. cbn [fst snd]. unfold new_sim. cbn [xleb]. rewrite !Rleb_false by assumption.
    unfold set_solution_parameters. cbn [bad_positive xleb].
    rewrite !Rleb_false by (exact HE || unfold blasius_fw_pp; lra).
    unfold calculate_solution. cbn [search snd]. unfold tangent_ivp at 1. cbn [s_alpha s_beta s_gamma].
    destruct (sig_not_dec _) as [_|N].
    2:{ exfalso. apply N. refine (conj A0 (conj A1 (conj A2 _))). intros t [Ht _].
        destruct (D t Ht) as (D0 & D1 & D2). exists (F1 t), (F2 t), (- (F0 t * F2 t)).
        split; [|split; [exact D0|split; [exact D1|exact D2]]].
        unfold sim_rhs, t0, t1, t2. cbn [fst snd]. rewrite !xmul_fin, !xsub_fin, xmul_fin, xadd_fin, xneg_fin.
        do 2 f_equal. ring. }
    fold E. cbn [i_success i_sol].
    cbn [q_f s_f sim_with_f s_eta_inf sim_with_eta_inf t0 fst].
    cbn [q_fw_pp q_f_pp s_f sim_with_eta_d sim_with_f bind s_beta s_alpha s_eta_d sim_with_eta_inf t2 snd].
    rewrite !Rleb_true by lra. cbn [t0 t2 fst snd].
    rewrite !xsub_fin, !xadd_fin, !xmul_fin, !xsub_fin, py_div_fin by lra.
    cbn [the_quad s_eta_inf sim_with_eta_m sim_with_eta_d sim_with_f sim_with_eta_inf].
    unfold the_bisect. destruct (sig_not_dec _) as [_|N].
    + eexists. split; [reflexivity|]. split; reflexivity.
    + exfalso. apply N. cbn [s_eta_inf sim_with_eta_k sim_with_eta_m sim_with_eta_d sim_with_f sim_with_eta_inf xleb].
      rewrite !Rleb_true by (apply Hs). split; [reflexivity|]. split; [reflexivity|].
      unfold s_fun, q_f_p. cbn [s_f sim_with_eta_k sim_with_eta_m sim_with_eta_d sim_with_f bind].
      rewrite Rleb_true by (apply Hs). cbn [bind t1 snd fst].
      rewrite xsub_fin, Es. do 2 f_equal. ring.
Qed.

(** ** A Falkner-Skan profile near the wall *)
Definition held2 (v : R) : R := Rmax (-2) (Rmin 2 v).
Lemma held2_inside v : -2 <= v <= 2 -> held2 v = v.
Proof. intros H. unfold held2. rewrite Rmin_right, Rmax_right; lra. Qed.
Lemma held2_range v : -2 <= held2 v <= 2.
Proof. unfold held2. split; [apply Rmax_l|]. apply Rmax_lub; [lra|apply Rmin_l]. Qed.
Lemma held2_lip v w : Rabs (held2 v - held2 w) <= Rabs (v - w).
Proof. unfold held2, Rmax, Rmin. repeat destruct (Rle_dec _ _); split_Rabs; lra. Qed.
Lemma held2_cont v : continuous held2 v.
Proof.
  apply filterlim_locally. intros eps. exists eps. intros q H.
  apply (Rle_lt_trans _ _ _ (held2_lip q v)). exact H.
Qed.

Section NearWall.
Variable b : R.
Hypothesis Hb : -1 <= b <= 1.

Definition fs_third (v : R3) : R :=
  - (held2 (fst v) * held2 (snd (snd v)) + b * (1 - held2 (fst (snd v)) * held2 (fst (snd v)))).
Definition fs_field (t : R) (v : R3) : R3 := (fst (snd v), (snd (snd v), fs_third v)).

Lemma fs_third_lip v w :
  Rabs (fs_third v - fs_third w)
  <= 2 * Rabs (fst v - fst w) + 4 * Rabs (fst (snd v) - fst (snd w)) + 2 * Rabs (snd (snd v) - snd (snd w)).
Proof.
  unfold fs_third.
  set (a := held2 (fst v)). set (a' := held2 (fst w)).
  set (c := held2 (fst (snd v))). set (c' := held2 (fst (snd w))).
  set (e := held2 (snd (snd v))). set (e' := held2 (snd (snd w))).
  pose proof (held2_range (fst v)) as Ra. pose proof (held2_range (fst w)) as Ra'.
  pose proof (held2_range (fst (snd v))) as Rc. pose proof (held2_range (fst (snd w))) as Rc'.
  pose proof (held2_range (snd (snd v))) as Re. pose proof (held2_range (snd (snd w))) as Re'.
  fold a in Ra. fold a' in Ra'. fold c in Rc. fold c' in Rc'. fold e in Re. fold e' in Re'.
  pose proof (held2_lip (fst v) (fst w)) as La. fold a a' in La.
  pose proof (held2_lip (fst (snd v)) (fst (snd w))) as Lc. fold c c' in Lc.
  pose proof (held2_lip (snd (snd v)) (snd (snd w))) as Le. fold e e' in Le.
  clearbody a a' c c' e e'.
  replace (- (a * e + b * (1 - c * c)) - - (a' * e' + b * (1 - c' * c')))
    with (- (a - a') * e + (- a' * (e - e') + b * (c + c') * (c - c'))) by ring.
  eapply Rle_trans; [apply Rabs_triang|].
  assert (X1 : Rabs (- (a - a') * e) <= 2 * Rabs (fst v - fst w)).
  { rewrite Rabs_mult, Rabs_Ropp, Rmult_comm. apply Rmult_le_compat; try apply Rabs_pos; [|exact La].
    apply Rabs_le. lra. }
  assert (X2 : Rabs (- a' * (e - e')) <= 2 * Rabs (snd (snd v) - snd (snd w))).
  { rewrite Rabs_mult, Rabs_Ropp. apply Rmult_le_compat; try apply Rabs_pos; [|exact Le]. apply Rabs_le. lra. }
  assert (X3 : Rabs (b * (c + c') * (c - c')) <= 4 * Rabs (fst (snd v) - fst (snd w))).
  { rewrite Rabs_mult. apply Rmult_le_compat; try apply Rabs_pos; [|exact Lc].
    rewrite Rabs_mult. replace 4 with (1 * 4) by ring.
    apply Rmult_le_compat; try apply Rabs_pos; apply Rabs_le; lra. }
  pose proof (Rabs_triang (- a' * (e - e')) (b * (c + c') * (c - c'))). lra.
Qed.

Lemma fs_third_bound v : Rabs (fs_third v) <= 7.
Proof.
  unfold fs_third.
  pose proof (held2_range (fst v)). pose proof (held2_range (fst (snd v))). pose proof (held2_range (snd (snd v))).
  set (a := held2 (fst v)) in *. set (c := held2 (fst (snd v))) in *. set (e := held2 (snd (snd v))) in *.
  clearbody a c e. rewrite Rabs_Ropp.
  assert (-4 <= a * e <= 4) by (split; nra).
  assert (-3 <= b * (1 - c * c) <= 3).
  { assert (0 <= c * c <= 4) by (split; nra). set (q := c * c) in *. clearbody q. split; nra. }
  apply Rabs_le. lra.
Qed.

Lemma fs_near_wall : exists F0 F1 F2 : R -> R, F0 0 = 0 /\ F1 0 = 0 /\ F2 0 = 1 /\
  forall t, 0 <= t <= / 100 ->
    is_derive F0 t (F1 t) /\ is_derive F1 t (F2 t) /\ falkner_skan_at b F0 F1 F2 t /\
    0 <= F1 t <= 1 /\ 0 < F2 t <= 2.
Proof.
  destruct (picard_exists fs_field 12 2 ((0, (0, 1)) : R3)) as (y & Y0 & YD).
  - lra.
  - intros t (p & q & r) (p' & q' & r'). unfold fs_field.
    pose proof (fs_third_lip (p, (q, r)) (p', (q', r'))) as L.
    cbn [fst snd] in *. rewrite !minus3, !norm3.
    set (X := fs_third _) in L at 1. set (X' := fs_third _) in L.
    match goal with |- context [(fs_third ?a - fs_third ?b) ^ 2] =>
      change (fs_third a) with X; change (fs_third b) with X' end.
    clearbody X X'.
    replace 12 with (sqrt (12 ^ 2)) by (rewrite sqrt_pow2; lra). rewrite <- sqrt_mult_alt by nra.
    apply sqrt_le_1_alt.
    assert (S : (X - X') ^ 2 <= 12 * (p - p') ^ 2 + 48 * (q - q') ^ 2 + 12 * (r - r') ^ 2).
    { rewrite <- (pow2_abs (X - X')), <- (pow2_abs (p - p')), <- (pow2_abs (q - q')), <- (pow2_abs (r - r')).
      pose proof (Rabs_pos (X - X')). pose proof (Rabs_pos (p - p')). pose proof (Rabs_pos (q - q')). pose proof (Rabs_pos (r - r')).
      set (A := Rabs (X - X')) in *. set (B := Rabs (p - p')) in *. set (C := Rabs (q - q')) in *. set (D := Rabs (r - r')) in *.
      clearbody A B C D. apply Rle_trans with ((2 * B + 4 * C + 2 * D) ^ 2); [apply pow_incr; lra|].
      pose proof (pow2_ge_0 (2 * B - 4 * C)). pose proof (pow2_ge_0 (2 * B - 2 * D)). pose proof (pow2_ge_0 (4 * C - 2 * D)). nra. }
    pose proof (pow2_ge_0 (p - p')). pose proof (pow2_ge_0 (q - q')). pose proof (pow2_ge_0 (r - r')). lra.
  - intros t (p & q & r). unfold fs_field.
    set (A := R_UniformSpace). set (AA := prod_UniformSpace A A). set (T3 := prod_UniformSpace A AA).
    set (T4 := prod_UniformSpace A T3). set (pt := (t, (p, (q, r))) : T4).
    assert (C1 : @continuous T4 T3 (fun p => snd p) pt) by exact (@continuous_snd A T3 t (p, (q, r))).
    assert (Cp : @continuous T4 A (fun p => fst (snd p)) pt).
    { exact (@continuous_comp T4 T3 A (fun p => snd p) (fun p => fst p) pt C1 (@continuous_fst A AA p (q, r))). }
    assert (C2 : @continuous T4 AA (fun p => snd (snd p)) pt).
    { exact (@continuous_comp T4 T3 AA (fun p => snd p) (fun p => snd p) pt C1 (@continuous_snd A AA p (q, r))). }
    assert (Cq : @continuous T4 A (fun p => fst (snd (snd p))) pt).
    { exact (@continuous_comp T4 AA A (fun p => snd (snd p)) (fun p => fst p) pt C2 (@continuous_fst A A q r)). }
    assert (Cr : @continuous T4 A (fun p => snd (snd (snd p))) pt).
    { exact (@continuous_comp T4 AA A (fun p => snd (snd p)) (fun p => snd p) pt C2 (@continuous_snd A A q r)). }
    refine (@continuous_both T4 A AA (fun p => fst (snd (snd p))) _ pt Cq _).
    refine (@continuous_both T4 A A (fun p => snd (snd (snd p))) (fun p => fs_third (snd p)) pt Cr _).
    unfold fs_third.
    assert (Hp := @continuous_comp T4 A A _ held2 pt Cp (held2_cont _)).
    assert (Hq := @continuous_comp T4 A A _ held2 pt Cq (held2_cont _)).
    assert (Hr := @continuous_comp T4 A A _ held2 pt Cr (held2_cont _)).
    refine (@continuous_opp T4 R_AbsRing R_NormedModule _ pt _).
    refine (@continuous_plus T4 R_AbsRing R_NormedModule _ _ pt _ _).
    + refine (@continuous_mult T4 R_AbsRing _ _ pt Hp Hr).
    + refine (@continuous_scal_r T4 R_AbsRing R_NormedModule b _ pt _).
      refine (@continuous_minus T4 R_AbsRing R_NormedModule (fun _ => 1) _ pt _ _); [apply continuous_const|].
      refine (@continuous_mult T4 R_AbsRing _ _ pt Hq Hq).
  - intros t. unfold fs_field, fs_third. cbn [fst snd]. rewrite norm3. rewrite !held2_inside by lra.
    rewrite <- (sqrt_pow2 2) by lra. apply sqrt_le_1_alt. nra.
  - set (f := fun t => fst (y t)). set (g := fun t => fst (snd (y t))). set (h := fun t => snd (snd (y t))).
    assert (D : forall t, is_derive f t (g t) /\ is_derive g t (h t) /\ is_derive h t (fs_third (y t))).
    { intros t. exact (derive3 y t _ _ _ (YD t)). }
    assert (f0 : f 0 = 0) by (unfold f; rewrite Y0; reflexivity).
    assert (g0 : g 0 = 0) by (unfold g; rewrite Y0; reflexivity).
    assert (h0 : h 0 = 1) by (unfold h; rewrite Y0; reflexivity).
    assert (Bd : forall (k dk : R -> R) lo hi, (forall t, is_derive k t (dk t)) ->
      (forall t, 0 <= t <= / 100 -> lo <= dk t <= hi) -> forall t, 0 <= t <= / 100 -> k 0 + lo * t <= k t <= k 0 + hi * t).
    { intros k dk lo hi Hk Hl t Ht. destruct (Rle_lt_or_eq_dec 0 t ltac:(lra)) as [Pt|<-]; [|lra].
      destruct (MVT_gen k 0 t dk) as (c & [Ca Cb] & C).
      - intros x _. apply Hk.
      - intros x _. apply continuity_pt_filterlim. apply (ex_derive_continuous k). eexists. apply Hk.
      - rewrite Rmin_left in Ca by lra. rewrite Rmax_right in Cb by lra. specialize (Hl c ltac:(lra)). nra. }
    assert (Hh : forall t, 0 <= t <= / 100 -> 93 / 100 <= h t <= 107 / 100).
    { intros t Ht. pose proof (Bd h (fun t => fs_third (y t)) (-7) 7 (fun t => proj2 (proj2 (D t)))) as B.
      rewrite h0 in B. assert (X : 1 + -7 * t <= h t <= 1 + 7 * t).
      { apply B; [|exact Ht]. intros s _. pose proof (fs_third_bound (y s)) as K.
        revert K. unfold Rabs. destruct (Rcase_abs _); lra. }
      lra. }
    assert (Hg : forall t, 0 <= t <= / 100 -> 0 <= g t <= 2 / 100).
    { intros t Ht. pose proof (Bd g h 0 2 (fun t => proj1 (proj2 (D t)))) as B. rewrite g0 in B.
      assert (X : 0 + 0 * t <= g t <= 0 + 2 * t).
      { apply B; [|exact Ht]. intros s Hs. pose proof (Hh s Hs). lra. }
      lra. }
    assert (Hf : forall t, 0 <= t <= / 100 -> 0 <= f t <= 1).
    { intros t Ht. pose proof (Bd f g 0 1 (fun t => proj1 (D t))) as B. rewrite f0 in B.
      assert (X : 0 + 0 * t <= f t <= 0 + 1 * t).
      { apply B; [|exact Ht]. intros s Hs. pose proof (Hg s Hs). lra. }
      lra. }
    exists f, g, h. split; [exact f0|]. split; [exact g0|]. split; [exact h0|].
    intros t Ht. destruct (D t) as (Da & Db & Dc). pose proof (Hh t Ht). pose proof (Hg t Ht). pose proof (Hf t Ht).
    split; [exact Da|]. split; [exact Db|]. split; [|split; lra].
    unfold falkner_skan_at. unfold fs_third in Dc. fold (f t) in Dc. fold (g t) in Dc. fold (h t) in Dc.
    rewrite !held2_inside in Dc by lra. exact Dc.
Qed.

(** The object with that profile. *)
Lemma near_wall_object U N : 0 < U -> 0 < N -> beta_min <= b -> exists ivp quad bisect o F0 F1 F2,
  new_falkner_skan ivp quad bisect (Fin b) (Fin U) (Fin N) (Some (Fin 1)) (Some (Fin (/ 100))) = Ok o /\
  exact_quad quad /\ profile_on o F0 F1 F2 (/ 100) /\ F0 0 = 0 /\ F1 0 = 0 /\ F2 0 = 1 /\
  (forall t, 0 <= t <= / 100 -> falkner_skan_at b F0 F1 F2 t /\ 0 <= F1 t <= 1 /\ 0 < F2 t <= 2).
Proof.
  intros HU HN Hm. destruct fs_near_wall as (F0 & F1 & F2 & Z0 & Z1 & Z2 & D).
  set (E := / 100) in *. assert (HE : 0 < E) by (unfold E; lra).
  exists (fun _ _ _ => Ok {| i_success := true; i_last := (Fin (F0 E), Fin (F1 E), Fin (F2 E));
    i_sol := fun t => match t with Fin t => (Fin (F0 t), Fin (F1 t), Fin (F2 t)) | _ => (NaN, NaN, NaN) end |}),
    the_quad, (fun _ _ => Ok (true, Fin 0)).
  enough (X : exists o, new_falkner_skan (fun _ _ _ => Ok {| i_success := true; i_last := (Fin (F0 E), Fin (F1 E), Fin (F2 E));
    i_sol := fun t => match t with Fin t => (Fin (F0 t), Fin (F1 t), Fin (F2 t)) | _ => (NaN, NaN, NaN) end |})
    the_quad (fun _ _ => Ok (true, Fin 0)) (Fin b) (Fin U) (Fin N) (Some (Fin 1)) (Some (Fin E)) = Ok o /\
    s_eta_inf o = Fin E /\ s_f o = Some (fun t => match t with Fin t => (Fin (F0 t), Fin (F1 t), Fin (F2 t)) | _ => (NaN, NaN, NaN) end)).
  { destruct X as (o & B & Ei & Ef). exists o, F0, F1, F2. split; [exact B|]. split.
    { intros q g c Hc H _. unfold the_quad. do 2 f_equal. apply RInt_ext. intros t.
      rewrite Rmin_left, Rmax_right by exact Hc. intros Ht. rewrite H by lra. reflexivity. }
    split.
    { split; [exact Ei|]. split; [exact HE|]. split; [eexists; split; [exact Ef|intros; reflexivity]|].
      split; intros t Ht; apply D, Ht. }
    split; [exact Z0|]. split; [exact Z1|]. split; [exact Z2|]. intros t Ht. apply D, Ht. }
  unfold new_falkner_skan. unfold beta_rejected. cbn [xltb]. unfold Rltb.
  destruct (Rlt_dec b beta_min) as [K|_]; [lra|]. destruct (Rlt_dec 2 b) as [K|_]; [lra|]. cbn [orb].
  unfold new_sim. cbn [xleb]. rewrite !Rleb_false by assumption.
  unfold set_solution_parameters. cbn [bad_positive xleb]. rewrite !Rleb_false by lra.
  unfold calculate_solution. cbn [search snd i_success i_sol].
  cbn [q_f s_f sim_with_f s_eta_inf sim_with_eta_inf t0 fst].
  cbn [q_fw_pp q_f_pp s_f sim_with_eta_d sim_with_f bind s_beta s_alpha s_eta_d sim_with_eta_inf t2 snd].
  unfold beta_min in Hm.
  rewrite !xsub_fin, !xadd_fin, !xmul_fin, !xsub_fin, py_div_fin by lra.
  cbn [the_quad s_eta_inf sim_with_eta_m sim_with_eta_d sim_with_f sim_with_eta_inf].
  eexists. split; [reflexivity|]. split; reflexivity.
Qed.
End NearWall.
