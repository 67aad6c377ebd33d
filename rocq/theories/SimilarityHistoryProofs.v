(** Proofs about the similarity solutions: parameters, failed resets, the search. *)
From Coq Require Import Reals List Lra Lia Bool.
From Verif Require Import PyBase PyBaseFacts SimilarityModel SimilaritySpec.
Import ListNotations.
Open Scope R_scope.

Section Scipy.
Variable ivp : (triple -> triple) -> xr -> triple -> res ivp3.
Variable quad : (xr -> res xr) -> xr -> res xr.
Variable bisect : (xr -> res xr) -> xr -> res (bool * xr).

Definition kept (o o' : sim) : Prop :=
  s_class o' = s_class o /\ s_u_ref o' = s_u_ref o /\ s_nu_ref o' = s_nu_ref o /\
  s_alpha o' = s_alpha o /\ s_beta o' = s_beta o /\ s_gamma o' = s_gamma o.

Lemma calculate_kept o e w : kept o (fst (calculate_solution ivp o e w)).
Proof.
  unfold calculate_solution. destruct (snd _) as [[[[e1 w1] a] b]|x]; [|repeat split].
  destruct (ivp _ e1 _) as [r|x]; [|repeat split].
  destruct (i_success r); repeat split.
Qed.

Lemma set_solution_kept o e w : kept o (fst (set_solution_parameters ivp quad bisect o e w)).
Proof.
  unfold set_solution_parameters.
  destruct (bad_positive e); [repeat split|]. destruct (bad_positive w); [repeat split|].
  pose proof (calculate_kept o e w) as K.
  destruct (calculate_solution ivp o e w) as [oc [[]|ec]]; [|exact K].
  destruct (q_f oc (s_eta_inf oc)) as [fe|]; [|exact K].
  destruct (bind _ _) as [em|]; [|exact K].
  destruct (quad _ _) as [ek|]; [|exact K].
  destruct (bisect _ _) as [[[] r]|]; exact K.
Qed.

(* ---------------- C55 ---------------- *)

Lemma reset_beta_ok o beta e w o' :
  reset_beta ivp quad bisect o beta e w = (o', Ok tt) ->
  beta_rejected beta = false /\ s_beta o' = beta.
Proof.
  unfold reset_beta. destruct (beta_rejected beta); [discriminate|]. intros H.
  pose proof (set_solution_kept (sim_with_beta o beta) e w) as (_ & _ & _ & _ & K & _).
  rewrite H in K. split; [reflexivity|exact K].
Qed.

Lemma xeqb_fin_inf m : xeqb (Fin m) PInf = false.
Proof. reflexivity. Qed.

Lemma reset_m_round_trip o m e w o' :
  reset_m ivp quad bisect o (Fin m) e w = (o', Ok tt) -> q_m o' = Ok (Fin m).
Proof.
  unfold reset_m. rewrite xeqb_fin_inf, xmul_fin, xadd_fin.
  destruct (Req_EM_T (1 + m) 0) as [Z|Z].
  { unfold py_div. cbn [xeqb]. rewrite Reqb_true by exact Z. discriminate. }
  rewrite py_div_fin by exact Z. intros H.
  apply reset_beta_ok in H. destruct H as [_ B].
  unfold q_m. rewrite B. cbn [xeqb].
  assert (D : 2 - 2 * m / (1 + m) = 2 / (1 + m)) by (field; exact Z).
  assert (P : 2 / (1 + m) <> 0).
  { unfold Rdiv. apply Rmult_integral_contrapositive. split; [lra|]. apply Rinv_neq_0_compat. exact Z. }
  rewrite Reqb_false by (intro K; rewrite K in D; lra).
  rewrite xsub_fin, py_div_fin by (rewrite D; exact P).
  do 2 f_equal. rewrite D. field. exact Z.
Qed.

Lemma reset_m_inf o e w o' :
  reset_m ivp quad bisect o PInf e w = (o', Ok tt) -> q_m o' = Ok PInf.
Proof.
  unfold reset_m. cbn [xeqb]. intros H. apply reset_beta_ok in H. destruct H as [_ B].
  unfold q_m. rewrite B. cbn [xeqb]. rewrite Reqb_true by reflexivity. reflexivity.
Qed.

Lemma beta_rejected_fin r : beta_rejected (Fin r) = false <-> beta_min <= r <= 2.
Proof.
  unfold beta_rejected. cbn [xltb]. rewrite orb_false_iff. split.
  - intros [A B]. unfold Rltb in A, B.
    destruct (Rlt_dec r beta_min); [discriminate|]. destruct (Rlt_dec 2 r); [discriminate|]. lra.
  - intros [A B]. rewrite !Rltb_false by lra. split; reflexivity.
Qed.

Definition m_min : R := beta_min / (2 - beta_min).

Lemma m_beta_range m : 1 + m <> 0 -> beta_min <= 2 * m / (1 + m) <= 2 -> m_min <= m.
Proof.
  intros Z [A B].
  assert (E : 2 * m / (1 + m) = 2 - 2 / (1 + m)) by (field; exact Z).
  assert (P : 0 < 1 + m).
  { destruct (Rlt_le_dec 0 (1 + m)) as [|[K|K]]; [assumption| |exfalso; apply Z; exact K].
    exfalso. assert (/ (1 + m) < 0) by (apply Rinv_lt_0_compat; exact K).
    unfold Rdiv in E at 2. lra. }
  unfold m_min, beta_min in *.
  apply Rmult_le_reg_r with (2 - - (19884/100000)); [lra|].
  replace (- (19884 / 100000) / (2 - - (19884 / 100000)) * (2 - - (19884 / 100000)))
    with (- (19884/100000)) by field.
  apply (Rmult_le_compat_r (1 + m)) in A; [|lra].
  replace (2 * m / (1 + m) * (1 + m)) with (2 * m) in A by (field; exact Z). lra.
Qed.

Lemma reset_m_rejects o m e w : m < m_min ->
  exists x, reset_m ivp quad bisect o (Fin m) e w = (o, Err x).
Proof.
  intros H. unfold reset_m. rewrite xeqb_fin_inf, xmul_fin, xadd_fin.
  destruct (Req_EM_T (1 + m) 0) as [Z|Z].
  { exists ZeroDivisionError. unfold py_div. cbn [xeqb]. rewrite Reqb_true by exact Z. reflexivity. }
  rewrite py_div_fin by exact Z. exists ValueError. unfold reset_beta.
  destruct (beta_rejected (Fin (2 * m / (1 + m)))) eqn:B; [reflexivity|].
  apply beta_rejected_fin in B. apply m_beta_range in B; [lra|exact Z].
Qed.

Definition beta_ok (o : sim) : Prop := exists r, s_beta o = Fin r /\ beta_min <= r <= 2.

Lemma call_beta_ok o c : beta_ok o -> finite_call c -> beta_ok (fst (do_scall ivp quad bisect o c)).
Proof.
  assert (RB : forall o b e w, beta_ok o -> (exists r, b = Fin r) ->
            beta_ok (fst (reset_beta ivp quad bisect o b e w))).
  { intros p b e w K [r ->]. unfold reset_beta.
    destruct (beta_rejected (Fin r)) eqn:B; [exact K|].
    pose proof (set_solution_kept (sim_with_beta p (Fin r)) e w) as (_ & _ & _ & _ & Kb & _).
    exists r. split; [exact Kb|apply beta_rejected_fin; exact B]. }
  intros K H. destruct c as [v|v|e w|b e w|m e w]; cbn [do_scall finite_call] in *.
  - unfold set_u_ref. destruct (xleb v (Fin 0)); exact K.
  - unfold set_nu_ref. destruct (xleb v (Fin 0)); exact K.
  - pose proof (set_solution_kept o e w) as (_ & _ & _ & _ & Kb & _).
    destruct K as [r [E R]]. exists r. rewrite Kb. split; assumption.
  - apply RB; assumption.
  - unfold reset_m. destruct (xeqb m PInf) eqn:Em; [apply RB; [exact K|eexists; reflexivity]|].
    destruct H as [->|[r ->]]; [discriminate|]. rewrite xmul_fin, xadd_fin.
    destruct (Req_EM_T (1 + r) 0) as [Z|Z].
    { unfold py_div. cbn [xeqb]. rewrite Reqb_true by exact Z. exact K. }
    rewrite py_div_fin by exact Z. apply RB; [exact K|eexists; reflexivity].
Qed.

Lemma new_falkner_skan_beta b u n w e o :
  new_falkner_skan ivp quad bisect (Fin b) u n w e = Ok o -> beta_ok o.
Proof.
  unfold new_falkner_skan. destruct (beta_rejected (Fin b)) eqn:B; [discriminate|].
  unfold new_sim. destruct (xleb u _); [discriminate|]. destruct (xleb n _); [discriminate|].
  match goal with |- context[set_solution_parameters _ _ _ ?o ?e ?w] =>
    pose proof (set_solution_kept o e w) as (_ & _ & _ & _ & K & _);
    destruct (set_solution_parameters ivp quad bisect o e w) as [o' [[]|x]] end;
  [|discriminate].
  intros H. inversion H; subst o'. exists b. split; [exact K|].
  apply beta_rejected_fin. exact B.
Qed.

Lemma falkner_skan_history b u n w e o cs :
  new_falkner_skan ivp quad bisect (Fin b) u n w e = Ok o ->
  Forall finite_call cs -> beta_ok (do_scalls ivp quad bisect o cs).
Proof.
  intros N. apply new_falkner_skan_beta in N. intros H. revert o N.
  induction H as [|c r Hc Hr IH]; intros o K; [exact K|].
  cbn [do_scalls]. apply IH. apply call_beta_ok; assumption.
Qed.

(* ---------------- C56 ---------------- *)

Lemma reset_rejected_unchanged o b e w : beta_rejected b = true ->
  reset_beta ivp quad bisect o b e w = (o, Err ValueError).
Proof. intros H. unfold reset_beta. rewrite H. reflexivity. Qed.

Lemma reset_bad_parameter o b e w :
  beta_rejected b = false -> bad_positive e || bad_positive w = true ->
  reset_beta ivp quad bisect o b e w = (sim_with_beta o b, Err ValueError).
Proof.
  intros H K. unfold reset_beta. rewrite H. unfold set_solution_parameters.
  destruct (bad_positive e); [reflexivity|]. cbn [orb] in K. rewrite K. reflexivity.
Qed.

(* ---------------- C57 ---------------- *)

Lemma inner_count al be ga eta n : forall st log,
  (length (fst (inner ivp al be ga eta n st log)) <= length log + n)%nat.
Proof.
  induction n as [|n IH]; intros st log; cbn [inner]; [cbn; lia|].
  destruct (shoot ivp al be ga eta (in_fw_curr st)) as [[f1 f2]|]; [|cbn; lia].
  destruct (xeqb (in_fw_prev st) (in_fw_curr st) || near_one f1)%bool; [cbn; lia|].
  match goal with |- context[inner _ _ _ _ _ n ?s ?l] => specialize (IH s l) end.
  cbn [length] in IH. lia.
Qed.

Lemma outer_count al be ga g imax n : forall st last log,
  (length (fst (outer ivp al be ga g imax n st last log)) <= length log + n * imax)%nat.
Proof.
  induction n as [|n IH]; intros st last log; cbn [outer]; [cbn; lia|].
  match goal with |- context[inner ivp al be ga ?e imax ?s ?l] =>
    pose proof (inner_count al be ga e imax s l) as K;
    destruct (inner ivp al be ga e imax s l) as [log' [[ist why]|x]] end;
  cbn [fst] in K; [|cbn [fst Nat.mul]; lia].
  destruct (xeqb (ou_eta_curr st) (ou_eta_prev st) || near_zero (in_f2_curr ist))%bool;
  [cbn [fst Nat.mul]; lia|].
  match goal with |- context[outer _ _ _ _ _ _ n ?s ?w ?l] => specialize (IH s w l) end.
  cbn [Nat.mul]. lia.
Qed.

Lemma search_count al be ga e w :
  (length (fst (search ivp al be ga e w)) <= 1 + 100 * 100)%nat.
Proof.
  assert (G : forall e0 w0 g e1,
    (length (fst (match shoot ivp al be ga e0 w0 with
    | Err e => ([], Err e)
    | Ok (f1, f2) =>
        let log := [{| sh_eta := e0; sh_fw := w0; sh_f1 := f1; sh_f2 := f2 |}] in
        match outer ivp al be ga g i_max j_max
                {| ou_eta_prev := e0; ou_eta_curr := e1; ou_fw_prev := w0; ou_fw_curr := Fin 0;
                   ou_f1_prev := f1; ou_f2_prev := f2 |} Converged log with
        | (l, Err e) => (l, Err e)
        | (l, Ok (st, a, b)) => (l, Ok (ou_eta_curr st, ou_fw_curr st, a, b))
        end
    end)) <= 1 + j_max * i_max)%nat).
  { intros e0 w0 g e1. destruct (shoot ivp al be ga e0 w0) as [[f1 f2]|]; [|cbn [fst length]; lia].
    cbv zeta.
    match goal with |- context[outer ivp al be ga ?g i_max j_max ?s ?l ?lg] =>
      pose proof (outer_count al be ga g i_max j_max s l lg) as K;
      destruct (outer ivp al be ga g i_max j_max s l lg) as [lo [[[st a] b]|x]] end;
    cbn [fst length] in *; exact K. }
  change (1 + 100 * 100)%nat with (1 + j_max * i_max)%nat.
  unfold search. destruct e as [e|]; destruct w as [w|].
  - cbn [fst length]. lia.
  - apply G.
  - apply G.
  - apply G.
Qed.

(** A shot whose edge values meet the tolerances. *)
Definition good_shot (e w : xr) (s : shot) : Prop :=
  sh_eta s = e /\ sh_fw s = w /\ near_one (sh_f1 s) = true /\ near_zero (sh_f2 s) = true.

Lemma inner_converged al be ga eta n : forall st log log' st',
  inner ivp al be ga eta n st log = (log', Ok (st', Converged)) ->
  exists s r, log' = s :: r /\ sh_eta s = eta /\ sh_fw s = in_fw_curr st' /\
    near_one (sh_f1 s) = true /\ sh_f2 s = in_f2_curr st'.
Proof.
  induction n as [|n IH]; intros st log log' st'; cbn [inner]; [discriminate|].
  destruct (shoot ivp al be ga eta (in_fw_curr st)) as [[f1 f2]|]; [|discriminate].
  destruct (xeqb (in_fw_prev st) (in_fw_curr st) || near_one f1)%bool.
  - destruct (near_one f1) eqn:N1; [|discriminate]. intros H. inversion H; subst.
    eexists _, _. split; [reflexivity|]. repeat split. exact N1.
  - apply IH.
Qed.

Lemma outer_converged al be ga g imax n : forall st last log log' st',
  outer ivp al be ga g imax n st last log = (log', Ok (st', Converged, Converged)) ->
  exists s r, log' = s :: r /\ good_shot (ou_eta_curr st') (ou_fw_curr st') s.
Proof.
  induction n as [|n IH]; intros st last log log' st'; cbn [outer]; [discriminate|].
  destruct (inner _ _ _ _ _ _ _ _) as [l1 [[ist why]|x]] eqn:I; [|discriminate].
  destruct (xeqb (ou_eta_curr st) (ou_eta_prev st) || near_zero (in_f2_curr ist))%bool.
  - destruct (near_zero (in_f2_curr ist)) eqn:N2; [|discriminate]. intros H. inversion H; subst.
    apply inner_converged in I. destruct I as (s & r & -> & A & B & C & D).
    exists s, r. split; [reflexivity|]. cbn. repeat split; try assumption. rewrite D. exact N2.
  - apply IH.
Qed.

Lemma search_converged al be ga e w log ei fw :
  e = None \/ w = None ->
  search ivp al be ga e w = (log, Ok (ei, fw, Converged, Converged)) ->
  exists s r, log = s :: r /\ good_shot ei fw s.
Proof.
  intros Hn. unfold search.
  assert (G : forall e0 w0 g e1,
    match shoot ivp al be ga e0 w0 with
    | Err e => ([], Err e)
    | Ok (f1, f2) =>
        let log := [{| sh_eta := e0; sh_fw := w0; sh_f1 := f1; sh_f2 := f2 |}] in
        match outer ivp al be ga g i_max j_max
                {| ou_eta_prev := e0; ou_eta_curr := e1; ou_fw_prev := w0; ou_fw_curr := Fin 0;
                   ou_f1_prev := f1; ou_f2_prev := f2 |} Converged log with
        | (l, Err e) => (l, Err e)
        | (l, Ok (st, a, b)) => (l, Ok (ou_eta_curr st, ou_fw_curr st, a, b))
        end
    end = (log, Ok (ei, fw, Converged, Converged)) ->
    exists s r, log = s :: r /\ good_shot ei fw s).
  { intros e0 w0 g e1. destruct (shoot ivp al be ga e0 w0) as [[f1 f2]|]; [|discriminate].
    cbv zeta. destruct (outer _ _ _ _ _ _ _ _ _ _) as [l [[[st a] b]|x]] eqn:O; [|discriminate].
    intros H. inversion H; subst. apply outer_converged in O. exact O. }
  destruct e as [e|]; destruct w as [w|].
  - destruct Hn; discriminate.
  - apply G.
  - apply G.
  - apply G.
Qed.

(** With an integrator that always succeeds, the search returns normally: it never raises for
    lack of convergence. *)
Lemma inner_returns al be ga eta n :
  (forall f t y, exists r, ivp f t y = Ok r /\ i_success r = true) ->
  forall st log, exists st' why, snd (inner ivp al be ga eta n st log) = Ok (st', why).
Proof.
  intros H. induction n as [|n IH]; intros st log; cbn [inner]; [eexists _, _; reflexivity|].
  destruct (shoot ivp al be ga eta (in_fw_curr st)) as [[f1 f2]|] eqn:E.
  - destruct (xeqb (in_fw_prev st) (in_fw_curr st) || near_one f1)%bool;
    [eexists _, _; reflexivity|apply IH].
  - exfalso. unfold shoot in E. destruct (H (sim_rhs_scaled al be ga eta) (Fin 1)
      (Fin 0, Fin 0, in_fw_curr st)) as [r [A B]]. rewrite A in E. cbn [bind] in E.
    rewrite B in E. discriminate.
Qed.

Lemma outer_returns al be ga g imax n :
  (forall f t y, exists r, ivp f t y = Ok r /\ i_success r = true) ->
  forall st last log, exists st' a b, snd (outer ivp al be ga g imax n st last log) = Ok (st', a, b).
Proof.
  intros H. induction n as [|n IH]; intros st last log; cbn [outer]; [eexists _, _, _; reflexivity|].
  match goal with |- context[inner ivp al be ga ?e imax ?s ?l] =>
    destruct (inner_returns al be ga e imax H s l) as (ist & why & E);
    destruct (inner ivp al be ga e imax s l) as [l1 r1] end.
  cbn [snd] in E. subst r1.
  destruct (xeqb (ou_eta_curr st) (ou_eta_prev st) || near_zero (in_f2_curr ist))%bool;
  [eexists _, _, _; reflexivity|apply IH].
Qed.

Lemma search_returns al be ga e w :
  (forall f t y, exists r, ivp f t y = Ok r /\ i_success r = true) ->
  exists ei fw a b, snd (search ivp al be ga e w) = Ok (ei, fw, a, b).
Proof.
  intros H.
  assert (Sh : forall e0 w0, exists f1 f2, shoot ivp al be ga e0 w0 = Ok (f1, f2)).
  { intros e0 w0. unfold shoot. destruct (H (sim_rhs_scaled al be ga e0) (Fin 1)
      (Fin 0, Fin 0, w0)) as [r [A B]]. rewrite A. cbn [bind]. rewrite B. eexists _, _; reflexivity. }
  unfold search. destruct e as [e|]; destruct w as [w|].
  - eexists _, _, _, _; reflexivity.
  - match goal with |- context[shoot ivp al be ga ?x ?y] =>
    destruct (Sh x y) as (f1 & f2 & ->) end; cbv zeta;
  match goal with |- context[outer ivp al be ga ?g i_max j_max ?s ?l ?lg] =>
     destruct (outer_returns al be ga g i_max j_max H s l lg) as (st & a & b & E);
     destruct (outer ivp al be ga g i_max j_max s l lg) as [lo r] end;
  cbn [snd] in E; subst r; eexists _, _, _, _; reflexivity.
  - match goal with |- context[shoot ivp al be ga ?x ?y] =>
    destruct (Sh x y) as (f1 & f2 & ->) end; cbv zeta;
  match goal with |- context[outer ivp al be ga ?g i_max j_max ?s ?l ?lg] =>
     destruct (outer_returns al be ga g i_max j_max H s l lg) as (st & a & b & E);
     destruct (outer ivp al be ga g i_max j_max s l lg) as [lo r] end;
  cbn [snd] in E; subst r; eexists _, _, _, _; reflexivity.
  - match goal with |- context[shoot ivp al be ga ?x ?y] =>
    destruct (Sh x y) as (f1 & f2 & ->) end; cbv zeta;
  match goal with |- context[outer ivp al be ga ?g i_max j_max ?s ?l ?lg] =>
     destruct (outer_returns al be ga g i_max j_max H s l lg) as (st & a & b & E);
     destruct (outer ivp al be ga g i_max j_max s l lg) as [lo r] end;
  cbn [snd] in E; subst r; eexists _, _, _, _; reflexivity.
Qed.
End Scipy.

(* ---------------- witnesses ---------------- *)

(** An integrator that always succeeds and always ends at f' = 0. *)
Definition flat_ivp (f : triple -> triple) (t : xr) (y : triple) : res ivp3 :=
  Ok {| i_success := true; i_last := (Fin 0, Fin 0, Fin 0);
        i_sol := fun _ => (Fin 0, Fin 0, Fin 0) |}.
Definition flat_quad (q : xr -> res xr) (b : xr) : res xr := Ok (Fin 0).
Definition flat_bisect (q : xr -> res xr) (b : xr) : res (bool * xr) := Ok (true, Fin 0).

Lemma flat_ok f t y : exists r, flat_ivp f t y = Ok r /\ i_success r = true.
Proof. eexists. split; reflexivity. Qed.

Lemma flat_set_solution o b : s_alpha o = Fin 1 -> s_beta o = b ->
  xeqb (Fin 1 + b)%xr (Fin 0) = false ->
  exists o', set_solution_parameters flat_ivp flat_quad flat_bisect o None None = (o', Ok tt) /\
    s_beta o' = b /\ q_f_p o' (s_eta_inf o') = Ok (Fin 0).
Proof.
  intros A B Z. unfold set_solution_parameters. cbn [bad_positive].
  unfold calculate_solution.
  destruct (search_returns flat_ivp (s_alpha o) (s_beta o) (s_gamma o) None None flat_ok)
    as (e & w & a & c & E). rewrite E. cbn [flat_ivp i_success i_sol].
  cbn [q_f s_f sim_with_f s_eta_inf sim_with_eta_inf t0 fst].
  cbn [q_fw_pp q_f_pp s_f sim_with_eta_d sim_with_f bind s_beta s_alpha s_eta_d sim_with_eta_inf t2 snd].
  unfold py_div at 1. rewrite A, B, Z. cbn [flat_quad flat_bisect].
  eexists. split; [reflexivity|]. split; [exact B|reflexivity].
Qed.

Lemma flat_new b : beta_min <= b <= 2 ->
  exists o, new_falkner_skan flat_ivp flat_quad flat_bisect (Fin b) (Fin 1) (Fin 1) None None = Ok o
    /\ s_beta o = Fin b /\ q_f_p o (s_eta_inf o) = Ok (Fin 0).
Proof.
  intros H. pose proof H as K. apply beta_rejected_fin in K.
  unfold new_falkner_skan. rewrite K. unfold new_sim. cbn [xleb].
  rewrite Rleb_false by lra.
  match goal with |- context[set_solution_parameters _ _ _ ?o _ _] =>
    destruct (flat_set_solution o (Fin b)) as (o' & E & B & Q) end; try reflexivity.
  - unfold beta_min in H. rewrite xadd_fin. cbn [xeqb]. apply Reqb_false. lra.
  - rewrite E. exists o'. split; [reflexivity|]. split; assumption.
Qed.

Lemma minus_infinity_accepted :
  exists o o', new_falkner_skan flat_ivp flat_quad flat_bisect (Fin 0) (Fin 1) (Fin 1) None None = Ok o
    /\ reset_m flat_ivp flat_quad flat_bisect o NInf None None = (o', Ok tt)
    /\ s_beta o' = NaN.
Proof.
  destruct (flat_new 0) as (o & E & B & _); [unfold beta_min; lra|].
  assert (A : s_alpha o = Fin 1).
  { unfold new_falkner_skan in E. destruct (beta_rejected (Fin 0)); [discriminate|].
    unfold new_sim in E. destruct (xleb (Fin 1) (Fin 0)); [discriminate|].
    match type of E with context[set_solution_parameters ?i ?q ?b ?o ?e ?w] =>
      pose proof (set_solution_kept i q b o e w) as (_ & _ & _ & K & _);
      destruct (set_solution_parameters i q b o e w) as [o' [[]|x]] end; [|discriminate].
    inversion E; subst o'. exact K. }
  exists o. unfold reset_m. cbn [xeqb].
  assert (D : py_div (Fin 2 * NInf)%xr (Fin 1 + NInf)%xr = Ok NaN).
  { cbn [xmul xadd]. unfold inf_times. destruct (Rlt_dec 0 (- (2))) as [K|K]; [lra|].
    destruct (Rlt_dec (- (2)) 0) as [K'|K']; [|lra]. reflexivity. }
  rewrite D. unfold reset_beta.
  assert (R : beta_rejected NaN = false) by reflexivity. rewrite R.
  destruct (flat_set_solution (sim_with_beta o NaN) NaN) as (o' & E' & B' & _);
    try reflexivity; [exact A|].
  exists o'. rewrite E'. split; [exact E|]. split; [reflexivity|exact B'].
Qed.
