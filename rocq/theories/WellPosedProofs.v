(** Existence, uniqueness and error growth for scalar equations s' = F(s dU)/W, the form of
    Thwaites' equation (C111, C112). *)
From Coq Require Import Reals Lra Lia.
From Coquelicot Require Import Coquelicot.
From Verif Require Import PicardProofs PositivityProofs.
Open Scope R_scope.

Lemma decreasing_on (g g' : R -> R) a b : a <= b ->
  (forall x, a <= x <= b -> is_derive g x (g' x) /\ g' x <= 0) -> g b <= g a.
Proof.
  intros L H. destruct (MVT_gen g a b g') as [c [Hc E]].
  - intros x Hx. rewrite Rmin_left, Rmax_right in Hx by lra. apply H. lra.
  - intros x Hx. rewrite Rmin_left, Rmax_right in Hx by lra.
    apply (derive_cont_pt g x (g' x)). apply H. lra.
  - rewrite Rmin_left, Rmax_right in Hc by lra. destruct (H c ltac:(lra)) as [_ N].
    assert (g' c * (b - a) <= 0) by nra. lra.
Qed.

Lemma growth_bound (E E' : R -> R) a b K rho : a <= b -> 0 <= K -> 0 <= rho ->
  (forall x, a <= x <= b -> is_derive E x (E' x) /\ E' x <= K * E x + rho) ->
  E b <= (E a + rho * (b - a)) * exp (K * (b - a)).
Proof.
  intros L HK Hr H.
  assert (G : E b * exp (- (K * (b - a))) - rho * (b - a) <= E a * exp (- (K * (a - a))) - rho * (a - a)).
  { apply (decreasing_on (fun x => E x * exp (- (K * (x - a))) - rho * (x - a))
      (fun x => (E' x - K * E x) * exp (- (K * (x - a))) - rho)); [exact L|].
    intros x Hx. destruct (H x Hx) as [D B]. split.
    - auto_derive; [eexists; exact D|]. assert (U : Derive (fun t : R => E t) x = E' x) by exact (is_derive_unique E x _ D). rewrite U. unfold Rminus. ring.
    - assert (P : 0 < exp (- (K * (x - a))) <= 1).
      { split; [apply exp_pos|]. rewrite <- exp_0.
        destruct (Req_dec (K * (x - a)) 0) as [Z|Z]; [rewrite Z, Ropp_0; lra|].
        left. apply exp_increasing. assert (0 <= K * (x - a)) by (apply Rmult_le_pos; lra). lra. }
      apply Rle_trans with (rho * exp (- (K * (x - a))) - rho); [|nra].
      apply Rplus_le_compat_r, Rmult_le_compat_r; lra. }
  replace (- (K * (a - a))) with 0 in G by ring. rewrite exp_0, exp_Ropp in G.
  assert (P := exp_pos (K * (b - a))). set (X := exp (K * (b - a))) in *. clearbody X.
  apply (Rmult_le_reg_r (/ X)); [apply Rinv_0_lt_compat; exact P|].
  rewrite Rmult_assoc, Rinv_r by lra. lra.
Qed.

(** Two functions whose difference grows at most at the rate [K], up to an error [rho]. *)
Lemma osl_error (y s y' s' : R -> R) a b K rho : a <= b -> 0 <= K -> 0 <= rho ->
  (forall x, a <= x <= b -> is_derive y x (y' x) /\ is_derive s x (s' x) /\
     (y' x - s' x) * (y x - s x) <= K * (y x - s x) ^ 2 + rho * Rabs (y x - s x)) ->
  Rabs (y b - s b) <= (Rabs (y a - s a) + rho * (b - a)) * exp (K * (b - a)).
Proof.
  intros L HK Hr H.
  assert (P := exp_pos (K * (b - a))). set (X := exp (K * (b - a))) in *.
  assert (Hn : forall n, 0 < n -> Rabs (y b - s b) <= (Rabs (y a - s a) + n + rho * (b - a)) * X).
  { intros n Pn.
    set (E := fun x => sqrt ((y x - s x) ^ 2 + n ^ 2)).
    assert (Ep : forall x, 0 < (y x - s x) ^ 2 + n ^ 2).
    { intros x. pose proof (pow2_ge_0 (y x - s x)). assert (0 < n ^ 2) by (apply pow_lt; exact Pn). lra. }
    assert (Ea : forall x, Rabs (y x - s x) <= E x).
    { intros x. unfold E. rewrite <- sqrt_Rsqr_abs. apply sqrt_le_1_alt. unfold Rsqr.
      pose proof (pow2_ge_0 n). simpl in *. lra. }
    assert (Eb : E a <= Rabs (y a - s a) + n).
    { unfold E. rewrite <- (sqrt_Rsqr (Rabs (y a - s a) + n)) by (pose proof (Rabs_pos (y a - s a)); lra).
      apply sqrt_le_1_alt. unfold Rsqr. rewrite <- (pow2_abs (y a - s a)).
      pose proof (Rabs_pos (y a - s a)). simpl. nra. }
    eapply Rle_trans; [apply Ea|].
    eapply Rle_trans; [apply (growth_bound E (fun x => (y' x - s' x) * (y x - s x) / E x) a b K rho L HK Hr)|].
    - intros x Hx. destruct (H x Hx) as (Dy & Ds & B).
      assert (E0 : 0 < E x) by (apply sqrt_lt_R0, Ep).
      assert (E2 : E x * E x = (y x - s x) ^ 2 + n ^ 2) by (unfold E; apply sqrt_sqrt; left; apply Ep).
      split.
      + unfold E. auto_derive.
        * split; [eexists; exact Dy|]. split; [eexists; exact Ds|]. split; [|exact I]. pose proof (Ep x). simpl in *. lra.
        * assert (Uy : Derive (fun t : R => y t) x = y' x) by exact (is_derive_unique y x _ Dy).
          assert (Us : Derive (fun t : R => s t) x = s' x) by exact (is_derive_unique s x _ Ds). rewrite Uy, Us.
          replace ((y x + - s x) * ((y x + - s x) * 1) + n * (n * 1)) with ((y x - s x) ^ 2 + n ^ 2) by (simpl; ring).
          field. fold (E x). lra.
      + apply (Rmult_le_reg_r (E x)); [exact E0|]. unfold Rdiv. rewrite Rmult_assoc, Rinv_l, Rmult_1_r by lra.
        eapply Rle_trans; [exact B|]. rewrite Rmult_plus_distr_r. apply Rplus_le_compat.
        * rewrite Rmult_assoc, E2. apply Rmult_le_compat_l; [exact HK|]. pose proof (pow2_ge_0 n). lra.
        * apply Rmult_le_compat_l; [exact Hr|apply Ea].
    - fold X. apply Rmult_le_compat_r; lra. }
  apply le_epsilon. intros e Pe. specialize (Hn (e / X) ltac:(apply Rdiv_lt_0_compat; assumption)).
  replace ((Rabs (y a - s a) + e / X + rho * (b - a)) * X)
    with ((Rabs (y a - s a) + rho * (b - a)) * X + e) in Hn by (field; lra). exact Hn.
Qed.

Definition clip (lo hi x : R) : R := Rmin hi (Rmax lo x).
Lemma clip_in lo hi x : lo <= hi -> lo <= clip lo hi x <= hi.
Proof. intros H. unfold clip, Rmin, Rmax. destruct (Rle_dec lo x), (Rle_dec hi _); lra. Qed.
Lemma clip_id lo hi x : lo <= x <= hi -> clip lo hi x = x.
Proof. intros H. unfold clip. rewrite Rmax_right, Rmin_right; lra. Qed.
Lemma clip_lip lo hi x y : lo <= hi -> Rabs (clip lo hi x - clip lo hi y) <= Rabs (x - y).
Proof.
  intros H. unfold clip, Rmin, Rmax, Rabs.
  destruct (Rle_dec lo x), (Rle_dec lo y); repeat destruct (Rle_dec hi _); repeat destruct (Rcase_abs _); lra.
Qed.
Lemma lip_continuous (g : R -> R) L x : (forall y z, Rabs (g y - g z) <= L * Rabs (y - z)) -> continuous g x.
Proof.
  intros H. apply continuity_pt_filterlim. intros e He.
  assert (L1 : 0 < Rabs L + 1) by (pose proof (Rabs_pos L); lra).
  exists (e / (Rabs L + 1)). split; [apply Rdiv_lt_0_compat; assumption|].
  intros y [_ Hy]. unfold R_dist in *. simpl in *. unfold R_dist in *.
  eapply Rle_lt_trans; [apply H|].
  apply Rle_lt_trans with ((Rabs L + 1) * Rabs (y - x)).
  - apply Rmult_le_compat_r; [apply Rabs_pos|]. pose proof (Rle_abs L). lra.
  - replace e with ((Rabs L + 1) * (e / (Rabs L + 1))) by (field; lra). apply Rmult_lt_compat_l; assumption.
Qed.
Lemma clip_continuous lo hi x : lo <= hi -> continuous (clip lo hi) x.
Proof. intros H. apply (lip_continuous _ 1). intros y z. rewrite Rmult_1_l. apply clip_lip, H. Qed.

Lemma local_lip_continuous (F : R -> R) :
  (forall M, 0 < M -> exists L, forall p q, Rabs p <= M -> Rabs q <= M -> Rabs (F p - F q) <= L * Rabs (p - q)) ->
  forall x, continuous F x.
Proof.
  intros H x. destruct (H (Rabs x + 1)) as [L HL]; [pose proof (Rabs_pos x); lra|].
  apply (continuous_ext_loc F (fun y => F (clip (x - 1) (x + 1) y)) x).
  - exists (mkposreal 1 Rlt_0_1). intros y Hy. f_equal. apply clip_id.
    apply Rabs_lt_between in Hy. unfold minus, plus, opp in Hy. simpl in Hy. lra.
  - apply (lip_continuous _ (Rabs L)). intros y z.
    assert (B : forall y, Rabs (clip (x - 1) (x + 1) y) <= Rabs x + 1).
    { intros t. pose proof (clip_in (x - 1) (x + 1) t ltac:(lra)). 
      pose proof (Rle_abs x). pose proof (Rle_abs (- x)). rewrite Rabs_Ropp in *.
      apply Rabs_le_between. lra. }
    eapply Rle_trans; [apply HL; apply B|].
    apply Rle_trans with (Rabs L * Rabs (clip (x - 1) (x + 1) y - clip (x - 1) (x + 1) z)).
    + apply Rmult_le_compat_r; [apply Rabs_pos|apply Rle_abs].
    + apply Rmult_le_compat_l; [apply Rabs_pos|]. apply clip_lip. lra.
Qed.

(** s' = F(s dU)/W has a positive solution on every interval on which W is positive, when F is
    locally Lipschitz, positive at zero and of at most linear growth from above. *)
Section Exist.
Context (F dU W : R -> R) (a b A B s0 : R).
Context (Hab : a <= b).
Context (HF : forall M, 0 < M -> exists L, forall p q, Rabs p <= M -> Rabs q <= M -> Rabs (F p - F q) <= L * Rabs (p - q)).
Context (F0 : 0 < F 0) (HA : 0 <= A) (HB : 0 <= B) (Fup : forall p, F p <= A + B * Rabs p).
Context (HdU : forall x, a <= x <= b -> continuous dU x) (HW : forall x, a <= x <= b -> continuous W x /\ 0 < W x).
Context (Hs0 : 0 < s0).

Lemma bound_above (g : R -> R) : (forall x, a <= x <= b -> continuous g x) ->
  exists D, 0 < D /\ forall x, a <= x <= b -> Rabs (g x) <= D.
Proof.
  intros C. destruct (continuity_ab_maj (fun x => Rabs (g x)) a b Hab) as [m [Hm _]].
  - intros x Hx. apply continuity_pt_filterlim. apply (continuous_comp g Rabs).
    + apply C, Hx.
    + apply continuous_Rabs.
  - exists (Rabs (g m) + 1). split; [pose proof (Rabs_pos (g m)); lra|].
    intros x Hx. specialize (Hm x Hx). lra.
Qed.

Lemma bound_below : exists w, 0 < w /\ forall x, a <= x <= b -> w <= W x.
Proof.
  destruct (continuity_ab_min W a b Hab) as [m [Hm Hm']].
  - intros x Hx. apply continuity_pt_filterlim. apply HW, Hx.
  - exists (W m). split; [apply HW, Hm'|exact Hm].
Qed.

Lemma solution_exists : exists s : R -> R, s a = s0 /\
  forall x, a <= x <= b -> is_derive s x (F (s x * dU x) / W x) /\ 0 < s x.
Proof.
  destruct (bound_above dU HdU) as [D [HD HD']]. destruct bound_below as [w [Hw Hw']].
  set (k := B * D / w). set (c := A / w).
  assert (Hk : 0 <= k) by (apply Rdiv_le_0_compat; [apply Rmult_le_pos; lra|exact Hw]).
  assert (Hc : 0 <= c) by (apply Rdiv_le_0_compat; assumption).
  set (T := (s0 + c * (b - a)) * exp (k * (b - a))).
  assert (HT : 0 < T).
  { apply Rmult_lt_0_compat; [|apply exp_pos]. pose proof (Rmult_le_pos c (b - a) Hc ltac:(lra)). lra. }
  destruct (HF (T * D)) as [L0 HL0]; [apply Rmult_lt_0_compat; assumption|].
  set (L := Rabs L0 * D / w + 1).
  assert (HL0p := Rabs_pos L0).
  assert (HLd : 0 <= Rabs L0 * D / w) by (apply Rdiv_le_0_compat; [apply Rmult_le_pos; lra|exact Hw]).
  assert (HLp : 0 < L) by (unfold L; lra).
  set (tt := fun t => clip a b (a + t)).
  set (f := fun t v : R => F (clip 0 T v * dU (tt t)) / W (tt t)).
  assert (Ht : forall t, a <= tt t <= b) by (intros t; apply clip_in, Hab).
  assert (Hc0 : forall v, 0 <= clip 0 T v <= T) by (intros v; apply clip_in; lra).
  assert (Harg : forall v t, Rabs (clip 0 T v * dU (tt t)) <= T * D).
  { intros v t. rewrite Rabs_mult. apply Rmult_le_compat; try apply Rabs_pos.
    - specialize (Hc0 v). rewrite Rabs_pos_eq; lra.
    - apply HD', Ht. }
  assert (Winv : forall t, 0 < / W (tt t) <= / w).
  { intros t. specialize (Ht t). destruct (HW _ Ht) as [_ P]. split; [apply Rinv_0_lt_compat, P|].
    apply Rinv_le_contravar; [exact Hw|apply Hw', Ht]. }
  assert (Lip : forall t u v, Rabs (f t u - f t v) <= L * Rabs (u - v)).
  { intros t u v. unfold f. unfold Rdiv. rewrite <- Rmult_minus_distr_r, Rabs_mult.
    rewrite (Rabs_pos_eq (/ W (tt t))) by (specialize (Winv t); lra).
    apply Rle_trans with ((Rabs L0 * (Rabs (u - v) * D)) * / w).
    - apply Rmult_le_compat; [apply Rabs_pos|specialize (Winv t); lra| |apply Winv].
      eapply Rle_trans; [apply HL0; apply Harg|].
      apply Rle_trans with (Rabs L0 * Rabs (clip 0 T u * dU (tt t) - clip 0 T v * dU (tt t))).
      + apply Rmult_le_compat_r; [apply Rabs_pos|apply Rle_abs].
      + apply Rmult_le_compat_l; [exact HL0p|]. rewrite <- Rmult_minus_distr_r, Rabs_mult.
        apply Rmult_le_compat; try apply Rabs_pos; [apply clip_lip; lra|apply HD', Ht].
    - replace ((Rabs L0 * (Rabs (u - v) * D)) * / w) with (Rabs L0 * D / w * Rabs (u - v)) by (unfold Rdiv; ring).
      apply Rmult_le_compat_r; [apply Rabs_pos|]. unfold L. lra. }
  assert (Ctt : forall t, continuous tt t).
  { intros t. unfold tt. apply (continuous_comp (fun t => a + t) (clip a b)).
    - apply (continuous_plus (fun _ => a) (fun t => t)); [apply continuous_const|apply continuous_id].
    - apply clip_continuous, Hab. }
  assert (CF := local_lip_continuous F HF).
  assert (Cont : forall t v, continuous (fun p : R * R => f (fst p) (snd p)) (t, v)).
  { intros t v. unfold f.
    assert (C1 : continuous (fun p : R * R => dU (tt (fst p))) (t, v)).
    { apply (continuous_comp (fun p : R * R => tt (fst p)) dU); [|apply HdU, Ht].
      apply (continuous_comp fst tt); [apply continuous_fst|apply Ctt]. }
    assert (C2 : continuous (fun p : R * R => / W (tt (fst p))) (t, v)).
    { apply (continuous_comp (fun p : R * R => W (tt (fst p))) Rinv).
      - apply (continuous_comp (fun p : R * R => tt (fst p)) W); [|apply HW, Ht].
        apply (continuous_comp fst tt); [apply continuous_fst|apply Ctt].
      - apply continuous_Rinv. cbn [fst]. destruct (HW _ (Ht t)). lra. }
    assert (C3 : continuous (fun p : R * R => clip 0 T (snd p)) (t, v)).
    { apply (continuous_comp snd (clip 0 T)); [apply continuous_snd|apply clip_continuous; lra]. }
    apply (continuous_mult (fun p : R * R => F (clip 0 T (snd p) * dU (tt (fst p)))) (fun p => / W (tt (fst p)))); [|exact C2].
    apply (continuous_comp (fun p : R * R => clip 0 T (snd p) * dU (tt (fst p))) F); [|apply CF].
    apply (continuous_mult (fun p : R * R => clip 0 T (snd p)) (fun p : R * R => dU (tt (fst p)))); assumption. }
  assert (Bnd : exists K, forall t, Rabs (f t s0) <= K).
  { exists ((Rabs (F 0) + Rabs L0 * (T * D)) * / w). intros t. unfold f, Rdiv. rewrite Rabs_mult.
    rewrite (Rabs_pos_eq (/ W (tt t))) by (specialize (Winv t); lra).
    apply Rmult_le_compat; [apply Rabs_pos|specialize (Winv t); lra| |apply Winv].
    set (p := clip 0 T s0 * dU (tt t)). replace (F p) with (F 0 + (F p - F 0)) by ring.
    eapply Rle_trans; [apply Rabs_triang|]. apply Rplus_le_compat_l.
    eapply Rle_trans; [apply HL0; [apply Harg|rewrite Rabs_R0; apply Rmult_le_pos; lra]|].
    rewrite Rminus_0_r.
    apply Rle_trans with (Rabs L0 * Rabs p).
    - apply Rmult_le_compat_r; [apply Rabs_pos|apply Rle_abs].
    - apply Rmult_le_compat_l; [exact HL0p|apply Harg]. }
  destruct Bnd as [K HK].
  destruct (@picard_exists R_CompleteNormedModule f L K s0 HLp Lip Cont HK) as [y [Y0 Yd]].
  set (s := fun x => y (x - a)).
  assert (Sa : s a = s0) by (unfold s; rewrite Rminus_diag_eq by reflexivity; exact Y0).
  assert (Sd : forall x, a <= x <= b -> is_derive s x (F (clip 0 T (s x) * dU x) / W x)).
  { intros x Hx. assert (E : f (x - a) (y (x - a)) = F (clip 0 T (s x) * dU x) / W x).
    { unfold f, s, tt. replace (a + (x - a)) with x by ring. rewrite (clip_id a b x Hx). reflexivity. }
    rewrite <- E. unfold s.
    assert (D0 := Yd (x - a)).
    evar (l : R). replace (f (x - a) (y (x - a))) with l.
    - apply (is_derive_comp y (fun x => x - a)); [exact D0|].
      auto_derive; [exact I|reflexivity].
    - unfold l. unfold scal. simpl. unfold mult. simpl. ring. }
  assert (Pos : forall x, a <= x <= b -> 0 < s x).
  { intros x Hx. apply (stays_positive s a x); [lra|rewrite Sa; exact Hs0|].
    intros z Hz. eexists. split; [apply Sd; lra|]. intros Z. rewrite Z, clip_id by lra.
    rewrite Rmult_0_l. apply Rdiv_lt_0_compat; [exact F0|apply HW; lra]. }
  assert (Up : forall x, a <= x <= b -> s x <= T).
  { intros x Hx. eapply Rle_trans.
    - apply (growth_bound s (fun z => F (clip 0 T (s z) * dU z) / W z) a x k c); try lra.
      intros z Hz. split; [apply Sd; lra|].
      assert (Pz := Pos z ltac:(lra)).
      destruct (HW z ltac:(lra)) as [_ Wz]. assert (wz := Hw' z ltac:(lra)).
      assert (Cz : 0 <= clip 0 T (s z) <= s z).
      { split; [apply Hc0|]. unfold clip. rewrite Rmax_right by lra. apply Rmin_r. }
      assert (N : F (clip 0 T (s z) * dU z) <= A + B * D * s z).
      { eapply Rle_trans; [apply Fup|]. apply Rplus_le_compat_l. rewrite Rmult_assoc.
        apply Rmult_le_compat_l; [exact HB|]. rewrite Rabs_mult, Rmult_comm.
        rewrite (Rabs_pos_eq (clip 0 T (s z))) by lra.
        apply Rmult_le_compat; try apply Rabs_pos; try lra. apply HD'. lra. }
      assert (0 <= B * D * s z) by (repeat apply Rmult_le_pos; lra).
      apply Rle_trans with ((A + B * D * s z) / W z).
      + apply Rmult_le_compat_r; [left; apply Rinv_0_lt_compat; exact Wz|exact N].
      + apply Rle_trans with ((A + B * D * s z) / w).
        * apply Rmult_le_compat_l; [lra|]. apply Rinv_le_contravar; assumption.
        * unfold k, c, Rdiv. lra.
    - rewrite Sa. unfold T. apply Rmult_le_compat.
      + pose proof (Rmult_le_pos c (x - a) Hc ltac:(lra)). lra.
      + left; apply exp_pos.
      + apply Rplus_le_compat_l, Rmult_le_compat_l; lra.
      + destruct (Req_dec (k * (x - a)) (k * (b - a))) as [->|Ne]; [lra|]. left. apply exp_increasing.
        assert (k * (x - a) <= k * (b - a)) by (apply Rmult_le_compat_l; lra). lra. }
  exists s. split; [exact Sa|]. intros x Hx. split; [|apply Pos, Hx].
  specialize (Sd x Hx). rewrite clip_id in Sd; [exact Sd|].
  specialize (Pos x Hx). specialize (Up x Hx). lra.
Qed.
End Exist.
