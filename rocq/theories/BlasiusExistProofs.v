(** The Blasius problem with the default wall value has a solution (C107). *)
From Coq Require Import Reals Lra ClassicalDedekindReals Classical_Prop.
From Coq Require Import Ranalysis5.
From Coquelicot Require Import Coquelicot.
From Verif Require Import PyBase PyBaseFacts SimilarityModel SimilaritySpec PicardProofs ProductProofs
  BlasiusPoly BlasiusProofs BlasiusSpec BlasiusFlowProofs.
Open Scope R_scope.

(** With p the integral of f, f'' = w exp (- p) solves f''' = - f f''.  The field below agrees
    with that where p >= 0 and is Lipschitz everywhere. *)
Definition decay (p : R) : R := exp (- Rmax 0 p).

Lemma exp_gap (u v : R) : u <= v -> v <= 0 -> 0 <= exp v - exp u <= v - u.
Proof.
  intros A B. split.
  - destruct (Req_dec u v) as [->|N]; [lra|]. assert (exp u < exp v) by (apply exp_increasing; lra). lra.
  - assert (E : exp u = exp v * exp (u - v)) by (rewrite <- exp_plus; f_equal; ring).
    assert (H : 1 + (u - v) <= exp (u - v)) by (apply exp_ineq1_le).
    assert (P := exp_pos v). assert (Q := exp_pos (u - v)).
    assert (X : exp v <= 1).
    { destruct (Req_dec v 0) as [->|N]; [rewrite exp_0; lra|]. left. rewrite <- exp_0. apply exp_increasing. lra. }
    rewrite E. nra.
Qed.

Lemma decay_lip (p q : R) : Rabs (decay p - decay q) <= Rabs (p - q).
Proof.
  assert (W : forall p q, p <= q -> Rabs (decay p - decay q) <= Rabs (p - q)).
  { intros a b H. unfold decay.
    assert (M : 0 <= Rmax 0 b - Rmax 0 a <= b - a).
    { unfold Rmax. destruct (Rle_dec 0 b), (Rle_dec 0 a); lra. }
    assert (M0 : 0 <= Rmax 0 a) by apply Rmax_l.
    destruct (exp_gap (- Rmax 0 b) (- Rmax 0 a)) as [G1 G2]; try lra.
    rewrite Rabs_pos_eq by lra. rewrite Rabs_left1 by lra. lra. }
  destruct (Rle_dec p q) as [H|H]; [apply W, H|].
  rewrite (Rabs_minus_sym (decay p)), (Rabs_minus_sym p). apply W. lra.
Qed.

Lemma decay_cont (p : R) : continuous decay p.
Proof.
  apply filterlim_locally. intros eps. exists eps. intros q H.
  apply (Rle_lt_trans _ _ _ (decay_lip q p)). exact H.
Qed.

Section Exist.
Variable w : R.
Hypothesis w_range : 0 < w <= 1.

Definition field3 (t : R) (v : R3) : R3 := (fst (snd v), (w * decay (snd (snd v)), fst v)).

Lemma profile_exists : exists F0 F1 F2 : R -> R, F0 0 = 0 /\ F1 0 = 0 /\ F2 0 = w /\
  forall t, 0 <= t -> is_derive F0 t (F1 t) /\ is_derive F1 t (F2 t) /\ is_derive F2 t (- (F0 t * F2 t)).
Proof.
  destruct (picard_exists field3 1 1 ((0, (0, 0)) : R3)) as (y & Y0 & YD).
  - lra.
  - intros t (a & b & c) (x & z & q). unfold field3. cbn [fst snd]. rewrite !minus3, !norm3, Rmult_1_l.
    apply sqrt_le_1_alt.
    assert (L := decay_lip c q).
    assert (S : (w * decay c - w * decay q) ^ 2 <= (c - q) ^ 2).
    { apply Rsqr_le_abs_1 in L. unfold Rsqr in L.
      replace ((w * decay c - w * decay q) ^ 2) with (w ^ 2 * (decay c - decay q) ^ 2) by ring.
      set (X := (decay c - decay q) ^ 2) in *.
      assert (X0 : 0 <= X) by apply pow2_ge_0.
      assert (X1 : X <= (c - q) ^ 2) by (unfold X; lra).
      assert (W2 : w ^ 2 <= 1) by nra. clearbody X. nra. }
    lra.
  - intros t (a & b & c). unfold field3.
    set (A := R_UniformSpace). set (AA := prod_UniformSpace A A). set (T3 := prod_UniformSpace A AA).
    set (T4 := prod_UniformSpace A T3).
    assert (C1 : @continuous T4 T3 (fun p => snd p) (t, (a, (b, c)))) by exact (@continuous_snd A T3 t (a, (b, c))).
    assert (C2 : @continuous T4 AA (fun p => snd (snd p)) (t, (a, (b, c)))).
    { exact (@continuous_comp T4 T3 AA (fun p => snd p) (fun p => snd p) (t, (a, (b, c))) C1 (@continuous_snd A AA a (b, c))). }
    refine (@continuous_both T4 A AA (fun p => fst (snd (snd p))) _ (t, (a, (b, c))) _ _).
    + exact (@continuous_comp T4 AA A (fun p => snd (snd p)) (fun p => fst p) (t, (a, (b, c))) C2 (@continuous_fst A A b c)).
    + refine (@continuous_both T4 A A (fun p => w * decay (snd (snd (snd p)))) (fun p => fst (snd p)) (t, (a, (b, c))) _ _).
      * refine (@continuous_scal_r T4 R_AbsRing R_NormedModule w (fun p => decay (snd (snd (snd p)))) (t, (a, (b, c))) _).
        refine (@continuous_comp T4 A A (fun p => snd (snd (snd p))) decay (t, (a, (b, c))) _ (decay_cont _)).
        exact (@continuous_comp T4 AA A (fun p => snd (snd p)) (fun p => snd p) (t, (a, (b, c))) C2 (@continuous_snd A A b c)).
      * exact (@continuous_comp T4 T3 A (fun p => snd p) (fun p => fst p) (t, (a, (b, c))) C1 (@continuous_fst A AA a (b, c))).
  - intros t. unfold field3. cbn [fst snd]. rewrite norm3. unfold decay. rewrite Rmax_left by lra.
    rewrite Ropp_0, exp_0. replace (0 ^ 2 + (w * 1) ^ 2 + 0 ^ 2) with (w * w) by ring.
    rewrite sqrt_square; lra.
  - set (f := fun t => fst (y t)). set (g := fun t => fst (snd (y t))). set (p := fun t => snd (snd (y t))).
    assert (D : forall t, is_derive f t (g t) /\ is_derive g t (w * decay (p t)) /\ is_derive p t (f t)).
    { intros t. exact (derive3 y t _ _ _ (YD t)). }
    assert (f0 : f 0 = 0) by (unfold f; rewrite Y0; reflexivity).
    assert (g0 : g 0 = 0) by (unfold g; rewrite Y0; reflexivity).
    assert (p0 : p 0 = 0) by (unfold p; rewrite Y0; reflexivity).
    assert (up : forall (h dh : R -> R), (forall t, is_derive h t (dh t)) -> h 0 = 0 ->
      (forall t, 0 <= t -> 0 <= dh t) -> forall t, 0 <= t -> 0 <= h t).
    { intros h dh Hd H0 Hp t Ht.
      destruct (MVT_gen h 0 t dh) as (c & [C1 C2] & C).
      - intros x _. apply Hd.
      - intros x _. apply continuity_pt_filterlim. apply (ex_derive_continuous h). eexists. apply Hd.
      - rewrite Rmin_left in C1 by lra. specialize (Hp c C1). rewrite H0 in C. nra. }
    assert (gp : forall t, 0 <= t -> 0 <= g t).
    { apply (up g (fun t => w * decay (p t))); [intros t; apply D|exact g0|].
      intros t _. unfold decay. assert (P := exp_pos (- Rmax 0 (p t))). nra. }
    assert (fp : forall t, 0 <= t -> 0 <= f t) by (apply (up f g); [intros t; apply D|exact f0|exact gp]).
    assert (pp : forall t, 0 <= t -> 0 <= p t) by (apply (up p f); [intros t; apply D|exact p0|exact fp]).
    exists f, g, (fun t => w * exp (- p t)).
    split; [exact f0|]. split; [exact g0|]. split; [rewrite p0, Ropp_0, exp_0; ring|].
    intros t Ht. destruct (D t) as (D0 & D1 & D2). split; [exact D0|]. split.
    + unfold decay in D1. rewrite Rmax_right in D1 by (apply pp, Ht). exact D1.
    + assert (X : is_derive (fun s => w * exp (- p s)) t (w * (- f t * exp (- p t)))).
      { apply (is_derive_scal (fun s => exp (- p s)) t w).
        apply (is_derive_comp exp (fun s => - p s) t); [apply is_derive_exp|].
        apply (is_derive_opp p t). exact D2. }
      replace (- (f t * (w * exp (- p t)))) with (w * (- f t * exp (- p t))) by ring. exact X.
Qed.
End Exist.

(** An integrator, a quadrature and a root search that are exact and with which the default
    Blasius object can be built. *)
Definition the_ivp (F0 F1 F2 : R -> R) (rhs : triple -> triple) (T : xr) (y : triple) : res ivp3 :=
  match T, y with
  | Fin T, (Fin a, Fin b, Fin c) =>
      if sig_not_dec (solves_from rhs T a b c F0 F1 F2)
      then Ok {| i_success := true; i_last := (Fin (F0 T), Fin (F1 T), Fin (F2 T));
                 i_sol := fun t => match t with
                   | Fin t => (Fin (F0 t), Fin (F1 t), Fin (F2 t))
                   | _ => (NaN, NaN, NaN) end |}
      else Err ValueError
  | _, _ => Err ValueError
  end.
Definition the_quad (q : xr -> res xr) (b : xr) : res xr :=
  match b with
  | Fin b => Ok (Fin (RInt (fun t => match q (Fin t) with Ok (Fin r) => r | _ => 0 end) 0 b))
  | _ => Err ValueError
  end.
Definition the_bisect (s : R) (q : xr -> res xr) (b : xr) : res (bool * xr) :=
  if sig_not_dec (xleb (Fin 0) (Fin s) = true /\ xleb (Fin s) b = true /\ q (Fin s) = Ok (Fin 0))
  then Ok (true, Fin s) else Err ValueError.

Lemma default_object_exists : exists ivp quad bisect,
  exact_ivp ivp /\ exact_quad quad /\ exact_bisect bisect /\
  forall u n, 0 < u -> 0 < n ->
  exists o, new_blasius ivp quad bisect (Fin u) (Fin n) None None = Ok o.
Proof.
  destruct (profile_exists blasius_fw_pp ltac:(unfold blasius_fw_pp; lra)) as (F0 & F1 & F2 & A0 & A1 & A2 & D).
  set (E := blasius_eta_inf). assert (HE : 0 < E) by (unfold E, blasius_eta_inf; lra).
  assert (BP : blasius_profile F0 F1 F2).
  { refine (conj A0 (conj A1 (conj A2 (conj _ (conj _ _))))); intros t [Ht _]; apply D, Ht. }
  destruct (edge_numbers F0 F1 F2 BP) as (_ & N1 & _).
  assert (S : exists s, 0 <= s <= E /\ F1 s = 99 / 100).
  { destruct (IVT_interv (fun t => F1 t - 99 / 100) 0 E) as (s & Hs & Es).
    - intros t Ht. apply continuity_pt_filterlim.
      apply (ex_derive_continuous (fun t => F1 t - 99 / 100)).
      assert (X : ex_derive F1 t) by (exists (F2 t); exact (proj1 (proj2 (D t (proj1 Ht))))). auto_derive. exact X.
    - exact HE.
    - rewrite A1. lra.
    - unfold E, small in *. lra.
    - exists s. split; [exact Hs|lra]. }
  destruct S as (s & Hs & Es).
  exists (the_ivp F0 F1 F2), the_quad, (the_bisect s). split; [|split; [|split]].
  - intros rhs T a b c r H _. unfold the_ivp in H.
    destruct (sig_not_dec _) as [N|_]; [|discriminate H]. apply NNPP in N.
    inversion H; subst r. exists F0, F1, F2. split; [exact N|]. intros t _. reflexivity.
  - intros q g b Hb H _. unfold the_quad. do 2 f_equal. apply RInt_ext. intros t.
    rewrite Rmin_left, Rmax_right by exact Hb. intros Ht. rewrite H by lra. reflexivity.
  - intros q b r H. unfold the_bisect in H. destruct (sig_not_dec _) as [N|_]; [|discriminate H].
    apply NNPP in N. inversion H; subst r. exists s. split; [reflexivity|exact N].
  - intros u n Hu Hn. unfold new_blasius. cbn [fst snd]. unfold new_sim. cbn [xleb]. rewrite !Rleb_false by assumption.
    unfold set_solution_parameters. cbn [bad_positive xleb].
    rewrite !Rleb_false by (exact HE || unfold blasius_fw_pp; lra).
    unfold calculate_solution. cbn [search snd]. unfold the_ivp at 1. cbn [s_alpha s_beta s_gamma].
    destruct (sig_not_dec _) as [_|N].
    2:{ exfalso. apply N. refine (conj A0 (conj A1 (conj A2 _))). intros t [Ht _].
        destruct (D t Ht) as (D0 & D1 & D2). exists (F1 t), (F2 t), (- (F0 t * F2 t)).
        split; [|split; [exact D0|split; [exact D1|exact D2]]].
        unfold sim_rhs, t0, t1, t2. cbn [fst snd]. rewrite !xmul_fin, !xsub_fin, xmul_fin, xadd_fin, xneg_fin.
        do 2 f_equal. ring. }
    cbn [i_success i_sol].
    cbn [q_f s_f sim_with_f s_eta_inf sim_with_eta_inf t0 fst].
    cbn [q_fw_pp q_f_pp s_f sim_with_eta_d sim_with_f bind s_beta s_alpha s_eta_d sim_with_eta_inf t2 snd].
    rewrite !xsub_fin, !xadd_fin, !xmul_fin, !xsub_fin, py_div_fin by lra.
    cbn [the_quad s_eta_inf sim_with_eta_m sim_with_eta_d sim_with_f sim_with_eta_inf].
    unfold the_bisect. destruct (sig_not_dec _) as [_|N]; [eexists; reflexivity|].
    exfalso. apply N. cbn [s_eta_inf sim_with_eta_k sim_with_eta_m sim_with_eta_d sim_with_f sim_with_eta_inf xleb].
    rewrite !Rleb_true by (apply Hs). split; [reflexivity|]. split; [reflexivity|].
    unfold s_fun, q_f_p. cbn [s_f sim_with_eta_k sim_with_eta_m sim_with_eta_d sim_with_f bind t1 snd fst].
    rewrite xsub_fin, Es. do 2 f_equal. ring.
Qed.
