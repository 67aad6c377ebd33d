(** Solutions that start positive stay positive (C75). *)
From Coq Require Import Reals List Lra Bool.
From Coquelicot Require Import Coquelicot.
From Verif Require Import PyBase PyBaseFacts XDeriv ThwaitesFitsModel SkinFrictionModel HeadModel
  HeadProofs CoreModel OdeSpec.
Import ListNotations.
Open Scope R_scope.

Lemma derive_cont_pt (s : R -> R) x v : is_derive s x v -> continuity_pt s x.
Proof.
  intros D. apply continuity_pt_filterlim. apply (ex_derive_continuous s). exists v. exact D.
Qed.

Lemma cont_pos (s : R -> R) x : continuity_pt s x -> 0 < s x ->
  exists e, 0 < e /\ forall y, Rabs (y - x) < e -> 0 < s y.
Proof.
  intros C P. apply continuity_pt_filterlim in C.
  destruct (C _ (locally_gt 0 (s x) P)) as [e He]. exists e. split; [apply cond_pos|].
  intros y Hy. apply He. exact Hy.
Qed.

(** A function that leaves zero upwards whenever it is zero cannot cross it downwards. *)
Lemma stays_positive (s : R -> R) a b : a <= b -> 0 < s a ->
  (forall x, a <= x <= b -> exists v, is_derive s x v /\ (s x = 0 -> 0 < v)) ->
  0 < s b.
Proof.
  intros L Pa H.
  destruct (Rlt_or_le 0 (s b)) as [|Nb]; [assumption|exfalso].
  set (E := fun x => a <= x <= b /\ forall y, a <= y <= x -> 0 < s y).
  destruct (completeness E) as [c [UB LUB]].
  - exists b. intros x [Hx _]. lra.
  - exists a. split; [lra|]. intros y Hy. replace y with a by lra. exact Pa.
  - assert (Hac : a <= c).
    { apply UB. split; [lra|]. intros y Hy. replace y with a by lra. exact Pa. }
    assert (Hcb : c <= b) by (apply LUB; intros x [Hx _]; lra).
    assert (Below : forall y, a <= y < c -> 0 < s y).
    { intros y Hy. destruct (Rlt_or_le 0 (s y)) as [|N]; [assumption|exfalso].
      assert (c <= y); [|lra]. apply LUB. intros x [Hx Px].
      destruct (Rle_or_lt x y) as [|G]; [assumption|].
      assert (0 < s y) by (apply Px; lra). lra. }
    destruct (H c (conj Hac Hcb)) as [v [D Z]].
    assert (C := derive_cont_pt s c v D).
    destruct (Rtotal_order (s c) 0) as [N|[Ez|P]].
    + (* negative at c: also just before c, or c = a *)
      destruct (cont_pos (fun x => - s x) c) as [e [Pe He]].
      { apply continuity_pt_opp. exact C. } { lra. }
      destruct (Req_dec a c) as [->|Na]; [lra|].
      set (y := Rmax a (c - e / 2)).
      assert (a <= y < c).
      { unfold y. split; [apply Rmax_l|]. apply Rmax_lub_lt; lra. }
      assert (0 < - s y).
      { apply He. unfold y in *. rewrite Rabs_left by lra.
        assert (c - e / 2 <= Rmax a (c - e / 2)) by apply Rmax_r. lra. }
      assert (0 < s y) by (apply Below; assumption). lra.
    + (* zero at c with positive slope: negative just before *)
      specialize (Z Ez).
      destruct (Req_dec a c) as [Eac|Na]; [rewrite <- Eac in Ez; lra|].
      apply is_derive_Reals in D. destruct (D v Z) as [e He].
      set (y := Rmax a (c - e / 2)).
      assert (Pe := cond_pos e).
      assert (Hy : a <= y < c).
      { unfold y. split; [apply Rmax_l|]. apply Rmax_lub_lt; lra. }
      assert (Hd : c - e / 2 <= y) by apply Rmax_r.
      assert (P := Below y Hy).
      specialize (He (y - c) ltac:(lra)). rewrite Rabs_left in He by lra.
      specialize (He ltac:(lra)). replace (c + (y - c)) with y in He by ring.
      rewrite Ez, Rminus_0_r in He.
      assert (s y / (y - c) < 0).
      { assert (Q := Rinv_lt_0_compat (y - c) ltac:(lra)).
        assert (0 < s y * (- / (y - c))) by (apply Rmult_lt_0_compat; lra).
        unfold Rdiv. lra. }
      unfold Rabs in He. destruct (Rcase_abs (s y / (y - c) - v)); lra.
    + destruct (cont_pos s c C P) as [e [Pe He]].
      destruct (Req_dec c b) as [->|Nc]; [lra|].
      set (y := Rmin b (c + e / 2)).
      assert (Hy : c < y <= b).
      { unfold y. split; [apply Rmin_glb_lt; lra|apply Rmin_l]. }
      assert (Hy2 : y <= c + e / 2) by apply Rmin_r.
      assert (y <= c); [|lra]. apply UB. split; [lra|]. intros z Hz.
      destruct (Rlt_or_le z c); [apply Below; lra|].
      apply He. rewrite Rabs_pos_eq; lra.
Qed.

Lemma thwaites_positive_lemma m U dU s a b : m_kind m <> Head -> a <= b ->
  (m_kind m = ThwaitesLinear \/
   exists f S H, m_fit m = Some f /\ shear f (Fin 0) = Fin S /\ 0 < S /\ shape f (Fin 0) = Fin H) ->
  (forall x, a <= x <= b ->
     velocity_at m U (dU x) x /\ solves1_at m s x /\ 0 < U x + 1/1000) ->
  0 < s a -> 0 < s b.
Proof.
  intros K L C H Pa. apply (stays_positive s a b L Pa). intros x Hx.
  destruct (H x Hx) as [[LU [_ QD]] [[v [E D]] W]]. exists v. split; [exact D|].
  intros Z. assert (QU := locally_singleton _ _ LU). cbv beta in QU.
  unfold ode_impl, calc_f, calc_lambda in E. rewrite Z, QD in E. cbn [bind] in E.
  rewrite xmul_fin, Rmult_0_l in E.
  destruct (m_kind m) eqn:Km; [| |congruence].
  - cbn [bind] in E. rewrite QU in E. cbn [bind] in E.
    rewrite xmul_fin, xsub_fin, xadd_fin, xdiv_fin in E by lra. injection E as <-.
    apply Rdiv_lt_0_compat; lra.
  - destruct C as [C|[f [S [H0 [Ef [ES [PS EH]]]]]]]; [discriminate|].
    rewrite Ef in E. cbn [bind] in E. rewrite QU in E. cbn [bind] in E.
    unfold fit_f in E. rewrite ES, EH in E.
    rewrite !xadd_fin, !xmul_fin, xsub_fin, xmul_fin, xdiv_fin in E by lra. injection E as <-.
    apply Rdiv_lt_0_compat; lra.
Qed.

(** Head: the right-hand side is infinite at zero momentum thickness, so no exact solution
    reaches it. *)
Lemma head_zero_not_finite m x h v w :
  m_kind m = Head -> slot_kind (m_u m) <> KInt ->
  (exists nu, m_nu m = Fin nu /\ 0 < nu) -> (exists U, q_u_e m x = Ok U) ->
  ode_impl m x [Fin 0; Fin h] <> Ok [Fin v; Fin w].
Proof.
  intros K Sk [nu [Kn Pn]] [U QU] E. unfold ode_impl in E. rewrite K, QU in E. cbn [bind] in E.
  destruct (q_du_e m x) as [dU|]; [|discriminate]. cbn [bind] in E. unfold head_rhs in E.
  assert (exists u, ode_u_guard (ret_val (slot_kind (m_u m)) (Fin U)) = Ok (Fin u) /\ u <> 0) as [u [Eu Nu]].
  { destruct (slot_kind (m_u m)); [| congruence |]; cbn [ret_val ode_u_guard xltb xabs].
    - destruct (Rlt_or_le U (1/1000)).
      + rewrite Rltb_true by assumption. eexists; split; [reflexivity|lra].
      + rewrite Rltb_false by assumption. eexists; split; [reflexivity|lra].
    - destruct (Rlt_or_le (Rabs U) (1/1000)) as [A|A].
      + rewrite Rltb_true by assumption. eexists; split; [reflexivity|lra].
      + rewrite Rltb_false by assumption. eexists; split; [reflexivity|].
        intros ->. rewrite Rabs_R0 in A. lra. }
  rewrite Eu in E. cbn [bind] in E. cbv zeta in E.
  assert (V : forall k r, vel_num (ret_val k r) = r) by (intros [] r; reflexivity).
  rewrite V, Kn, xmul_fin, Rmult_0_r, (xdiv_fin 0 nu) in E by lra.
  replace (0 / nu) with 0 in E by (field; lra).
  set (h' := if xltb (Fin h) (Fin (111/100)) then Fin (111/100) else Fin h) in E.
  assert (exists q, h' = Fin q) as [q Eq].
  { unfold h'. destruct (xltb (Fin h) (Fin (111/100))); eexists; reflexivity. }
  assert (CF : ludwieg_tillman (Fin 0) h' = PInf).
  { rewrite Eq. unfold ludwieg_tillman. rewrite xpow_fin_0 by lra.
    rewrite xmul_fin, xpow_fin by lra. rewrite xmul_fin, Rmult_0_l.
    unfold xdiv. destruct (Req_EM_T 0 0); [|lra]. unfold inf_times.
    destruct (Rlt_dec 0 (246/1000)); [reflexivity|lra]. }
  rewrite CF, Eq in E. cbn [fst snd] in E. 
  assert (E1 : (Fin (5/10) * PInf - Fin 0 * (Fin 2 + Fin q) * Fin dU / Fin u)%xr = Fin v)
    by congruence. clear E. revert E1.
  rewrite xadd_fin, !xmul_fin, xdiv_fin by assumption.
  unfold xmul at 1, inf_times. destruct (Rlt_dec 0 (5/10)); [|lra]. discriminate.
Qed.

Lemma head_positive_lemma m U dU d h a b :
  m_kind m = Head -> slot_kind (m_u m) <> KInt ->
  (exists nu, m_nu m = Fin nu /\ 0 < nu) -> a <= b ->
  (forall x, a <= x <= b -> velocity_at m U (dU x) x /\ solves2_at m d h x) ->
  0 < d a -> 0 < d b.
Proof.
  intros K Sk Kn L H Pa. apply (stays_positive d a b L Pa). intros x Hx.
  destruct (H x Hx) as [[LU [_ QD]] [v [w [E [D _]]]]]. exists v. split; [exact D|].
  intros Z. exfalso. rewrite Z in E.
  apply (head_zero_not_finite m x (h x) v w K Sk Kn); [|exact E].
  exists (U x). exact (locally_singleton _ _ LU).
Qed.
