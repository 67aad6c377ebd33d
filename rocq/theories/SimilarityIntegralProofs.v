(** Proofs about the similarity solutions: thicknesses and dissipation as integrals. *)
From Coq Require Import Reals List Lra Lia.
From Coquelicot Require Import Coquelicot.
From Verif Require Import PyBase PyBaseFacts XDeriv SimilarityModel SimilaritySpec
  ThwaitesOdeProofs PositivityProofs SimilarityProofs.
Open Scope R_scope.

Section Solved.
Variable ivp : (triple -> triple) -> xr -> triple -> res ivp3.
Variable quad : (xr -> res xr) -> xr -> res xr.
Variable bisect : (xr -> res xr) -> xr -> res (bool * xr).

(** What a successful [set_solution_parameters] leaves. *)
Definition thick (o : sim) : Prop :=
  exists fe fw, q_f o (s_eta_inf o) = Ok fe /\ s_eta_d o = (s_eta_inf o - fe)%xr /\
    q_fw_pp o = Ok fw /\
    py_div (fw - s_beta o * s_eta_d o)%xr (s_alpha o + s_beta o)%xr = Ok (s_eta_m o) /\
    quad (k_fun o) (s_eta_inf o) = Ok (s_eta_k o) /\
    bisect (s_fun o) (s_eta_inf o) = Ok (true, s_eta_s o).

Lemma set_solution_thick o e w o1 :
  set_solution_parameters ivp quad bisect o e w = (o1, Ok tt) -> thick o1.
Proof.
  unfold set_solution_parameters.
  destruct (bad_positive e); [discriminate|]. destruct (bad_positive w); [discriminate|].
  destruct (calculate_solution ivp o e w) as [oc [[]|ec]]; [|discriminate].
  destruct (q_f oc (s_eta_inf oc)) as [fe|] eqn:Ef; [|discriminate].
  set (o2 := sim_with_eta_d oc (s_eta_inf oc - fe)%xr).
  destruct (q_fw_pp o2) as [fw|] eqn:Ew; cbn [bind]; [|discriminate].
  destruct (py_div _ _) as [em|] eqn:Em; [|discriminate].
  set (o3 := sim_with_eta_m o2 em).
  destruct (quad (k_fun o3) (s_eta_inf o3)) as [ek|] eqn:Ek; [|discriminate].
  set (o4 := sim_with_eta_k o3 ek).
  destruct (bisect (s_fun o4) (s_eta_inf o4)) as [[[] r]|] eqn:Es; [|discriminate|discriminate].
  intros H. assert (Ho : o1 = sim_with_eta_s o4 r) by congruence. subst o1. clear H.
  exists fe, fw. split; [exact Ef|]. split; [reflexivity|]. split; [exact Ew|].
  split; [exact Em|]. split; [exact Ek|]. exact Es.
Qed.

Lemma refs_thick cs : List.Forall reference_call cs ->
  forall o, thick o -> thick (do_scalls ivp quad bisect o cs).
Proof.
  induction 1 as [|c r Hc Hr IH]; intros o T; [exact T|].
  cbn [do_scalls]. apply IH. destruct c; cbn [reference_call] in Hc; try contradiction.
  - cbn [do_scall]. unfold set_u_ref. destruct (xleb v (Fin 0)); exact T.
  - cbn [do_scall]. unfold set_nu_ref. destruct (xleb v (Fin 0)); exact T.
Qed.

Lemma solved_thick o : solved ivp quad bisect o -> thick o.
Proof.
  intros (o0 & e & w & o1 & cs & H & Hc & ->). apply refs_thick; [exact Hc|].
  eapply set_solution_thick; eassumption.
Qed.

Variables (o : sim) (b U N : R) (F0 F1 F2 : R -> R) (E : R).
Hypothesis S : solved ivp quad bisect o.
Hypothesis F : flow o b U N.
Hypothesis P : profile_on o F0 F1 F2 E.
Hypothesis Z0 : F0 0 = 0.

Lemma holds_on t : 0 <= t <= E -> holds_at o F0 F1 F2 t.
Proof. destruct P as (_ & _ & [f [E1 E2]] & _). intros H. exists f. auto. Qed.

Lemma eta_d_val : s_eta_d o = Fin (E - F0 E).
Proof.
  destruct (solved_thick _ S) as (fe & fw & A & B & _).
  destruct P as (Ei & He & [f [E1 E2]] & _).
  rewrite B. unfold q_f in A. rewrite E1, Ei, E2 in A by lra. cbn [t0 fst] in A.
  rewrite Ei. inversion A. subst fe. reflexivity.
Qed.

Lemma fw_val : q_fw_pp o = Ok (Fin (F2 0)).
Proof.
  destruct P as (Ei & He & [f [E1 E2]] & _).
  unfold q_fw_pp, q_f_pp. rewrite E1, E2 by lra. reflexivity.
Qed.

Lemma beta_pos : 0 < 1 + b.
Proof. destruct F as (_ & _ & _ & _ & _ & [H _] & _). unfold beta_min in H. lra. Qed.

Lemma eta_m_val : s_eta_m o = Fin ((F2 0 - b * (E - F0 E)) / (1 + b)).
Proof.
  destruct (solved_thick _ S) as (fe & fw & _ & _ & A & B & _).
  rewrite fw_val in A. inversion A; subst fw. rewrite eta_d_val in B.
  pose proof beta_pos. pose proof F as (Fa & _ & Fb & _).
  rewrite Fa, Fb, xmul_fin, xsub_fin, xadd_fin, py_div_fin in B by lra.
  inversion B. reflexivity.
Qed.

Lemma cont_of (g dg : R -> R) : (forall t, 0 <= t <= E -> is_derive g t (dg t)) ->
  forall t, 0 <= t <= E -> continuous g t.
Proof.
  intros H t Ht. apply (ex_derive_continuous g). eexists. apply H. exact Ht.
Qed.

Lemma ftc (g h : R -> R) (a c : R) : a <= c ->
  (forall t, a <= t <= c -> is_derive h t (g t)) ->
  (forall t, a <= t <= c -> continuous g t) -> is_RInt g a c (h c - h a).
Proof.
  intros Hac D C. apply (is_RInt_derive h g).
  - rewrite Rmin_left, Rmax_right by exact Hac. exact D.
  - rewrite Rmin_left, Rmax_right by exact Hac. exact C.
Qed.

Lemma int_ext (g h : R -> R) (a c l : R) :
  (forall t : R, @eq R (g t) (h t)) -> is_RInt g a c l -> is_RInt h a c l.
Proof. intros H I. apply (is_RInt_ext g); [intros t _; apply H|exact I]. Qed.

Lemma C1 t : 0 <= t <= E -> continuous F1 t.
Proof. destruct P as (_ & _ & _ & _ & D). apply (cont_of F1 F2). exact D. Qed.

Lemma displacement_eta : is_RInt (fun t => 1 - F1 t) 0 E (E - F0 E).
Proof.
  destruct P as (_ & He & _ & D0 & _).
  replace (E - F0 E) with ((E - F0 E) - (0 - F0 0)) by (rewrite Z0; ring).
  apply (ftc (fun t => 1 - F1 t) (fun t => t - F0 t)); [lra| |].
  - intros t Ht. apply (is_derive_minus (fun t : R => t) F0);
    [apply (is_derive_id (K:=R_AbsRing))|apply D0; exact Ht].
  - intros t Ht. apply (continuous_minus (fun _ : R => 1) F1);
    [apply continuous_const|apply C1; exact Ht].
Qed.

Variables (x Y : R).
Hypothesis Hx : 0 < x.
Hypothesis HY : q_eta o x Y = Ok (Fin E).

Lemma Y_val : Y * GG b U N x = E.
Proof.
  pose proof HY as H. rewrite (eta_val o b U N F x Y Hx) in H. inversion H. reflexivity.
Qed.

Lemma Y_pos : 0 < Y.
Proof.
  pose proof Y_val. pose proof (GG_pos o b U N F x Hx). destruct P as (_ & He & _).
  destruct (Rlt_le_dec 0 Y) as [|K]; [assumption|exfalso]. nra.
Qed.

Lemma in_range y : 0 <= y <= Y -> 0 <= y * GG b U N x <= E.
Proof.
  intros [A B]. pose proof Y_val. pose proof (GG_pos o b U N F x Hx). split; nra.
Qed.

Lemma displacement_lem :
  s_eta_d o = Fin (RInt (fun t => 1 - F1 t) 0 E) /\
  exists ue uf, qs_u_e o x = Ok (Fin ue) /\
    (forall y, 0 <= y <= Y -> q_u o x y = Ok (Fin (uf y))) /\
    qs_delta_d o x = Ok (Fin (RInt (fun y => 1 - uf y / ue) 0 Y)).
Proof.
  pose proof displacement_eta as I. split.
  - rewrite (is_RInt_unique _ _ _ _ I). apply eta_d_val.
  - exists (UE b U x), (fun y => UE b U x * F1 (y * GG b U N x)).
    split; [apply (ue_val o b U N F); exact Hx|]. split.
    + intros y Hy. apply (u_val o b U N F F0 F1 F2); [exact Hx|].
      apply holds_on. apply in_range. exact Hy.
    + pose proof (GG_pos o b U N F x Hx) as Hg. pose proof (UE_pos o b U N F x) as Hu.
      unfold qs_delta_d. rewrite (g_val o b U N F x Hx), eta_d_val. cbn [bind].
      rewrite xdiv_fin by lra. do 2 f_equal. symmetry. apply is_RInt_unique.
      rewrite <- Y_val in I.
      apply (int_ext (fun y => / GG b U N x * (GG b U N x * (1 - F1 (GG b U N x * y + 0))))).
      { intros y. replace (GG b U N x * y + 0) with (y * GG b U N x) by ring.
        field. split; lra. }
      replace ((E - F0 E) / GG b U N x) with (/ GG b U N x * (E - F0 E)) by (field; lra).
      apply (is_RInt_scal (fun y => GG b U N x * (1 - F1 (GG b U N x * y + 0)))).
      apply (is_RInt_comp_lin (fun t => 1 - F1 t)).
      rewrite Rmult_0_r, Rplus_0_r, Rplus_0_r, Rmult_comm, Y_val.
      rewrite Y_val in I. exact I.
Qed.

Hypothesis ODE : forall t, 0 <= t <= E -> falkner_skan_at b F0 F1 F2 t.
Hypothesis Z1 : F1 0 = 0.

Lemma C0 t : 0 <= t <= E -> continuous F0 t.
Proof. destruct P as (_ & _ & _ & D & _). apply (cont_of F0 F1). exact D. Qed.
Lemma C2 t : 0 <= t <= E -> continuous F2 t.
Proof. apply (cont_of F2 (fun t => - (F0 t * F2 t + b * (1 - F1 t * F1 t)))). exact ODE. Qed.

Lemma momentum_eta : is_RInt (fun t => F1 t * (1 - F1 t)) 0 E
  ((F2 0 - b * (E - F0 E)) / (1 + b) - (F2 E + F0 E * (F1 E - 1)) / (1 + b)).
Proof.
  pose proof beta_pos as Hb. pose proof P as (_ & He & _ & D0 & D1).
  set (h := fun t => (1 + b) * F0 t + - (F2 t + F0 t * F1 t + b * t)).
  replace ((F2 0 - b * (E - F0 E)) / (1 + b) - (F2 E + F0 E * (F1 E - 1)) / (1 + b))
    with (/ (1 + b) * h E - / (1 + b) * h 0).
  - apply (ftc (fun t => F1 t * (1 - F1 t)) (fun t => / (1 + b) * h t)); [lra| |].
    + intros t Ht.
      pose proof (mult_derive _ _ _ _ _ (D0 t Ht) (D1 t Ht)) as DM.
      pose proof (ODE t Ht) as D2. unfold falkner_skan_at in D2.
      assert (Dl : is_derive (fun t : R => b * t) t b) by (auto_derive; [exact I|ring]).
      pose proof (is_derive_plus _ _ _ _ _ (is_derive_plus _ _ _ _ _ D2 DM) Dl) as DP.
      pose proof (is_derive_plus _ _ _ _ _ (is_derive_scal _ _ (1 + b) _ (D0 t Ht))
                    (is_derive_opp _ _ _ DP)) as DQ.
      pose proof (is_derive_scal _ _ (/ (1 + b)) _ DQ) as DR.
      apply (derive_eq _ _ _ _ DR). unfold plus, opp; simpl. field. lra.
    + intros t Ht. apply (continuous_mult F1 (fun t => 1 - F1 t)); [apply C1; exact Ht|].
      apply (continuous_minus (fun _ : R => 1) F1); [apply continuous_const|apply C1; exact Ht].
  - unfold h. rewrite Z0. field. lra.
Qed.

Lemma momentum_thickness_lem :
  s_eta_m o = Fin (RInt (fun t => F1 t * (1 - F1 t)) 0 E
                   + (F2 E + F0 E * (F1 E - 1)) / (1 + b)) /\
  exists ue uf, qs_u_e o x = Ok (Fin ue) /\
    (forall y, 0 <= y <= Y -> q_u o x y = Ok (Fin (uf y))) /\
    qs_delta_m o x = Ok (Fin (RInt (fun y => uf y / ue * (1 - uf y / ue)) 0 Y
                     + Y / E * ((F2 E + F0 E * (F1 E - 1)) / (1 + b)))).
Proof.
  pose proof momentum_eta as I. pose proof beta_pos as Hb.
  assert (V : s_eta_m o = Fin (RInt (fun t => F1 t * (1 - F1 t)) 0 E
                   + (F2 E + F0 E * (F1 E - 1)) / (1 + b))).
  { rewrite (is_RInt_unique _ _ _ _ I), eta_m_val. f_equal. field. lra. }
  split; [exact V|].
  exists (UE b U x), (fun y => UE b U x * F1 (y * GG b U N x)).
  split; [apply (ue_val o b U N F); exact Hx|]. split.
  - intros y Hy. apply (u_val o b U N F F0 F1 F2); [exact Hx|].
    apply holds_on. apply in_range. exact Hy.
  - pose proof (GG_pos o b U N F x Hx) as Hg. pose proof (UE_pos o b U N F x) as Hu.
    unfold qs_delta_m. rewrite (g_val o b U N F x Hx), V. cbn [bind].
    rewrite xdiv_fin by lra. do 2 f_equal.
    set (c := (F2 E + F0 E * (F1 E - 1)) / (1 + b)).
    assert (Q : is_RInt (fun y => UE b U x * F1 (y * GG b U N x) / UE b U x
                * (1 - UE b U x * F1 (y * GG b U N x) / UE b U x)) 0 Y
                (/ GG b U N x * RInt (fun t => F1 t * (1 - F1 t)) 0 E)).
    { apply (int_ext (fun y => / GG b U N x * (GG b U N x *
               (F1 (GG b U N x * y + 0) * (1 - F1 (GG b U N x * y + 0)))))).
      { intros y. replace (GG b U N x * y + 0) with (y * GG b U N x) by ring.
        field. split; lra. }
      apply (is_RInt_scal (fun y => GG b U N x *
               (F1 (GG b U N x * y + 0) * (1 - F1 (GG b U N x * y + 0))))).
      apply (is_RInt_comp_lin (fun t => F1 t * (1 - F1 t))).
      rewrite Rmult_0_r, Rplus_0_r, Rplus_0_r, Rmult_comm, Y_val.
      rewrite (is_RInt_unique _ _ _ _ I). exact I. }
    rewrite (is_RInt_unique _ _ _ _ Q). pose proof Y_pos as HYp.
    rewrite <- Y_val at 3. field. split; lra.
Qed.

Hypothesis Q : exact_quad quad.

Lemma k_cont t : 0 <= t <= E -> continuous (fun t => 2 * F0 t * F1 t * F2 t) t.
Proof.
  intros Ht. apply (continuous_mult (fun t => 2 * F0 t * F1 t) F2); [|apply C2; exact Ht].
  apply (continuous_mult (fun t => 2 * F0 t) F1); [|apply C1; exact Ht].
  apply (continuous_mult (fun _ : R => 2) F0); [apply continuous_const|apply C0; exact Ht].
Qed.

Lemma eta_k_val : s_eta_k o = Fin (RInt (fun t => 2 * F0 t * F1 t * F2 t) 0 E).
Proof.
  destruct (solved_thick _ S) as (fe & fw & _ & _ & _ & _ & A & _).
  pose proof P as (Ei & He & [f [E1 E2]] & _).
  rewrite Ei in A. rewrite (Q _ (fun t => 2 * F0 t * F1 t * F2 t)) in A.
  - inversion A. reflexivity.
  - lra.
  - intros t Ht. unfold k_fun, q_f, q_f_p, q_f_pp. rewrite E1, (E2 t Ht).
    cbn [bind t0 t1 t2 fst snd]. rewrite !xmul_fin. reflexivity.
  - apply k_cont.
Qed.

Lemma k_int : is_RInt (fun t => 2 * F0 t * F1 t * F2 t) 0 E
                (RInt (fun t => 2 * F0 t * F1 t * F2 t) 0 E).
Proof.
  apply (RInt_correct (fun t => 2 * F0 t * F1 t * F2 t)).
  apply (ex_RInt_continuous (fun t => 2 * F0 t * F1 t * F2 t)).
  destruct P as (_ & He & _). intros t. rewrite Rmin_left, Rmax_right by lra. apply k_cont.
Qed.

Lemma energy_eta :
  s_eta_k o = Fin (RInt (fun t => F1 t * (1 - F1 t * F1 t)) 0 E - F0 E * (1 - F1 E * F1 E)).
Proof.
  rewrite eta_k_val. f_equal. pose proof P as (_ & He & _ & D0 & D1).
  set (k := RInt (fun t => 2 * F0 t * F1 t * F2 t) 0 E : R).
  assert (H : is_RInt (fun t => F1 t * (1 - F1 t * F1 t)) 0 E (F0 E * (1 - F1 E * F1 E) + k)).
  { set (h := fun t => F0 t * (1 - F1 t * F1 t)).
    assert (Dh : forall t, 0 <= t <= E ->
              is_derive h t (F1 t * (1 - F1 t * F1 t) - 2 * F0 t * F1 t * F2 t)).
    { intros t Ht. pose proof (mult_derive _ _ _ _ _ (D1 t Ht) (D1 t Ht)) as DM.
      pose proof (is_derive_minus (fun _ : R => 1) _ _ _ _
                    (@is_derive_const R_AbsRing R_NormedModule 1 t) DM) as DN.
      pose proof (mult_derive _ _ _ _ _ (D0 t Ht) DN) as DO.
      apply (derive_eq _ _ _ _ DO). unfold minus, plus, opp, zero; simpl. ring. }
    assert (Ih : is_RInt (fun t => F1 t * (1 - F1 t * F1 t) - 2 * F0 t * F1 t * F2 t) 0 E
                   (h E - h 0)).
    { apply (ftc (fun t => F1 t * (1 - F1 t * F1 t) - 2 * F0 t * F1 t * F2 t) h); [lra|exact Dh|].
      intros t Ht. apply (continuous_minus (fun t => F1 t * (1 - F1 t * F1 t))); [|apply k_cont; exact Ht].
      apply (continuous_mult F1 (fun t => 1 - F1 t * F1 t)); [apply C1; exact Ht|].
      apply (continuous_minus (fun _ : R => 1) (fun t => F1 t * F1 t)); [apply continuous_const|].
      apply (continuous_mult F1 F1); apply C1; exact Ht. }
    pose proof (is_RInt_plus _ _ _ _ _ _ Ih k_int) as IP.
    replace (F0 E * (1 - F1 E * F1 E) + k) with (h E - h 0 + k)
      by (unfold h; rewrite Z0; ring).
    refine (int_ext _ _ _ _ _ _ IP). intros t. unfold plus; simpl. ring. }
  rewrite (is_RInt_unique _ _ _ _ H). match goal with |- ?a = ?c => change (@eq R a c) end. ring.
Qed.

Lemma dissipation_eta : is_RInt (fun t => F2 t * F2 t) 0 E
  (F1 E * F2 E + b * F0 E * (1 - F1 E * F1 E)
   + 5 / 10 * (1 + 2 * b) * RInt (fun t => 2 * F0 t * F1 t * F2 t) 0 E).
Proof.
  pose proof P as (_ & He & _ & D0 & D1).
  set (k := RInt (fun t => 2 * F0 t * F1 t * F2 t) 0 E : R).
  set (h := fun t => F1 t * F2 t + b * (F0 t * (1 - F1 t * F1 t))).
  set (r := fun t => F2 t * F2 t - 5 / 10 * (1 + 2 * b) * (2 * F0 t * F1 t * F2 t)).
  assert (Dh : forall t, 0 <= t <= E -> is_derive h t (r t)).
  { intros t Ht. pose proof (mult_derive _ _ _ _ _ (D1 t Ht) (D1 t Ht)) as DM.
    pose proof (is_derive_minus (fun _ : R => 1) _ _ _ _
                  (@is_derive_const R_AbsRing R_NormedModule 1 t) DM) as DN.
    pose proof (mult_derive _ _ _ _ _ (D0 t Ht) DN) as DO.
    pose proof (ODE t Ht) as D2. unfold falkner_skan_at in D2.
    pose proof (mult_derive _ _ _ _ _ (D1 t Ht) D2) as DP.
    pose proof (is_derive_plus _ _ _ _ _ DP (is_derive_scal _ _ b _ DO)) as DQ.
    apply (derive_eq _ _ _ _ DQ). unfold r, minus, plus, opp, zero; simpl. field. }
  assert (Ih : is_RInt r 0 E (h E - h 0)).
  { apply (ftc r h); [lra|exact Dh|]. intros t Ht. unfold r.
    apply (continuous_minus (fun t => F2 t * F2 t)).
    - apply (continuous_mult F2 F2); apply C2; exact Ht.
    - apply (continuous_mult (fun _ : R => 5 / 10 * (1 + 2 * b)) (fun t => 2 * F0 t * F1 t * F2 t));
      [apply continuous_const|apply k_cont; exact Ht]. }
  pose proof (is_RInt_plus _ _ _ _ _ _ Ih
               (is_RInt_scal _ _ _ (5 / 10 * (1 + 2 * b)) _ k_int)) as IP.
  replace (F1 E * F2 E + b * F0 E * (1 - F1 E * F1 E) + 5 / 10 * (1 + 2 * b) * k)
    with (h E - h 0 + 5 / 10 * (1 + 2 * b) * k)
    by (unfold h; rewrite Z0, Z1; ring).
  refine (int_ext _ _ _ _ _ _ IP).
  intros t. unfold r, plus, scal; simpl; unfold mult; simpl. ring.
Qed.

Lemma dissipation_lem rho :
  exists ue uy, qs_u_e o x = Ok (Fin ue) /\
    (forall y, 0 < y < Y -> rderiv (fun t => q_u o x t) y (uy y)) /\
    qs_dissipation o x (Fin rho) =
      Ok (Fin (rho * N * (RInt (fun y => uy y * uy y) 0 Y
        - ue * ue * (E / Y) * (F1 E * F2 E + b * F0 E * (1 - F1 E * F1 E))))).
Proof.
  pose proof (GG_pos o b U N F x Hx) as Hg. pose proof Y_pos as HYp.
  exists (UE b U x), (fun y => UE b U x * GG b U N x * F2 (y * GG b U N x)).
  split; [apply (ue_val o b U N F); exact Hx|].
  pose proof P as (Ei & He & [f [E1 E2]] & D0 & D1). split.
  - intros y Hy. pose proof Y_val as Yv.
    assert (K : 0 < y * GG b U N x < E) by (rewrite <- Yv; split; nra).
    apply (u_dy o b U N F F0 F1 F2); [exact Hx| |apply D1; lra].
    exists f. split; [exact E1|]. generalize (locally_between 0 E _ K). apply filter_imp.
    intros t Ht. apply E2. lra.
  - unfold qs_dissipation. rewrite (ue_val o b U N F x Hx), (g_val o b U N F x Hx). cbn [bind].
    pose proof F as (Fa & _ & Fb & _ & Fn & _). rewrite Fa, Fb, Fn, eta_k_val.
    repeat (rewrite ?xmul_fin, ?xadd_fin). do 2 f_equal.
    pose proof dissipation_eta as I.
    set (k := RInt (fun t => 2 * F0 t * F1 t * F2 t) 0 E) in *.
    set (c := F1 E * F2 E + b * F0 E * (1 - F1 E * F1 E)) in *.
    assert (J : is_RInt (fun y => UE b U x * GG b U N x * F2 (y * GG b U N x)
                 * (UE b U x * GG b U N x * F2 (y * GG b U N x))) 0 Y
                 (UE b U x * UE b U x * GG b U N x * (c + 5 / 10 * (1 + 2 * b) * k))).
    { apply (int_ext (fun y => UE b U x * UE b U x * GG b U N x * (GG b U N x *
               (F2 (GG b U N x * y + 0) * F2 (GG b U N x * y + 0))))).
      { intros y. replace (GG b U N x * y + 0) with (y * GG b U N x) by ring. ring. }
      apply (is_RInt_scal (fun y => GG b U N x *
               (F2 (GG b U N x * y + 0) * F2 (GG b U N x * y + 0)))).
      apply (is_RInt_comp_lin (fun t => F2 t * F2 t)).
      rewrite Rmult_0_r, Rplus_0_r, Rplus_0_r, Rmult_comm, Y_val. exact I. }
    rewrite (is_RInt_unique _ _ _ _ J).
    replace (E / Y) with (GG b U N x) by (rewrite <- Y_val; field; lra). ring.
Qed.

Hypothesis BX : exact_bisect bisect.

Lemma shear_thickness_lem :
  exists d ue, qs_delta_s o x = Ok (Fin d) /\ 0 <= d <= Y /\ qs_u_e o x = Ok (Fin ue) /\
    q_u o x d = Ok (Fin (99/100 * ue)).
Proof.
  destruct (solved_thick _ S) as (fe & fw & _ & _ & _ & _ & _ & A).
  pose proof P as (Ei & He & [f [E1 E2]] & _). rewrite Ei in A.
  destruct (BX _ _ _ A) as (t & Et & L1 & L2 & Z). rewrite Et in *.
  cbn [xleb] in L1, L2. apply Rleb_iff in L1. apply Rleb_iff in L2.
  unfold s_fun, q_f_p in Z. rewrite E1, E2 in Z by lra. cbn [bind t1 fst snd] in Z.
  rewrite xsub_fin in Z. assert (Zr : 99/100 - F1 t = 0) by congruence.
  pose proof (GG_pos o b U N F x Hx) as Hg. pose proof Y_val as Yv.
  exists (t / GG b U N x), (UE b U x).
  assert (Tg : t / GG b U N x * GG b U N x = t) by (field; lra).
  split; [unfold qs_delta_s; rewrite (g_val o b U N F x Hx), Et; cbn [bind];
          rewrite xdiv_fin by lra; reflexivity|].
  split.
  { split; [apply Rmult_le_reg_r with (GG b U N x); [exact Hg|]; rewrite Tg; lra|].
    apply Rmult_le_reg_r with (GG b U N x); [exact Hg|]. rewrite Tg, Yv. exact L2. }
  split; [apply (ue_val o b U N F); exact Hx|].
  rewrite (u_val o b U N F F0 F1 F2); [|exact Hx|rewrite Tg; apply holds_on; lra].
  rewrite Tg. do 2 f_equal. replace (F1 t) with (99/100) by lra. ring.
Qed.
End Solved.
