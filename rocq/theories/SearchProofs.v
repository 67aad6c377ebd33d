(** C103-C105: the search for eta_inf and f''(0). *)
From Coq Require Import Reals List Lra Bool Lia.
From Verif Require Import PyBase PyBaseFacts SimilarityModel SimilaritySpec SimilarityHistoryProofs
  SearchSpec.
Import ListNotations.
Open Scope R_scope.

Section Scipy.
Variable ivp : (triple -> triple) -> xr -> triple -> res ivp3.
Variable quad : (xr -> res xr) -> xr -> res xr.
Variable bisect : (xr -> res xr) -> xr -> res (bool * xr).

(** ** The integrations are real *)
Lemma scaled_is al be ga e : stretched_rhs al be ga e (sim_rhs_scaled al be ga e).
Proof. intros f fp fpp. reflexivity. Qed.
Lemma unscaled_is al be ga : similarity_rhs al be ga (sim_rhs al be ga).
Proof. intros f fp fpp. reflexivity. Qed.

Lemma shoot_real al be ga e w f1 f2 : shoot ivp al be ga e w = Ok (f1, f2) ->
  real_shot ivp al be ga {| sh_eta := e; sh_fw := w; sh_f1 := f1; sh_f2 := f2 |}.
Proof.
  unfold shoot, real_shot. cbn [sh_eta sh_fw sh_f1 sh_f2].
  destruct (ivp _ _ _) as [r|] eqn:E; [|discriminate]. cbn [bind].
  destruct (i_success r) eqn:S; [|discriminate]. intros H. injection H as <- <-.
  exists (sim_rhs_scaled al be ga e), r, (t0 (i_last r)). split; [apply scaled_is|].
  split; [exact E|]. split; [exact S|].
  destruct (i_last r) as [[a b] c]. reflexivity.
Qed.

Lemma shoot_ends al be ga e w f1 f2 : ends_at ivp al be ga e w f1 f2 ->
  shoot ivp al be ga e w = Ok (f1, f2).
Proof.
  intros H. destruct (H _ (scaled_is al be ga e)) as (r & f0 & E & S & L).
  unfold shoot. rewrite E. cbn [bind]. rewrite S, L. reflexivity.
Qed.

Lemma inner_real al be ga eta n : forall st log, List.Forall (real_shot ivp al be ga) log ->
  List.Forall (real_shot ivp al be ga) (fst (inner ivp al be ga eta n st log)).
Proof.
  induction n as [|n IH]; intros st log H; cbn [inner]; [exact H|].
  destruct (shoot ivp al be ga eta (in_fw_curr st)) as [[f1 f2]|] eqn:E; [|exact H].
  apply shoot_real in E.
  destruct (xeqb (in_fw_prev st) (in_fw_curr st) || near_one f1)%bool.
  - constructor; assumption.
  - apply IH. constructor; assumption.
Qed.

Lemma outer_real al be ga g imax n : forall st last log, List.Forall (real_shot ivp al be ga) log ->
  List.Forall (real_shot ivp al be ga) (fst (outer ivp al be ga g imax n st last log)).
Proof.
  induction n as [|n IH]; intros st last log H; cbn [outer]; [exact H|].
  match goal with |- context[inner ivp al be ga ?e imax ?s ?l] =>
    pose proof (inner_real al be ga e imax s l H) as K;
    destruct (inner ivp al be ga e imax s l) as [log' [[ist why]|x]] end;
  cbn [fst] in K; [|exact K].
  destruct (xeqb (ou_eta_curr st) (ou_eta_prev st) || near_zero (in_f2_curr ist))%bool;
  [exact K|apply IH, K].
Qed.

(** The three cases in which there is something to search. *)
Definition run_search (al be ga e0 w0 e1 : xr) (g : bool) : list shot * res (xr * xr * stop * stop) :=
  match shoot ivp al be ga e0 w0 with
  | Err e => ([], Err e)
  | Ok (f1, f2) =>
      let log := [{| sh_eta := e0; sh_fw := w0; sh_f1 := f1; sh_f2 := f2 |}] in
      match outer ivp al be ga g i_max j_max
              {| ou_eta_prev := e0; ou_eta_curr := e1; ou_fw_prev := w0; ou_fw_curr := Fin 0;
                 ou_f1_prev := f1; ou_f2_prev := f2 |} Converged log with
      | (l, Err e) => (l, Err e)
      | (l, Ok (st, a, b)) => (l, Ok (ou_eta_curr st, ou_fw_curr st, a, b))
      end
  end.
Lemma search_e al be ga e :
  search ivp al be ga (Some e) None = run_search al be ga e (Fin 1) e false.
Proof. reflexivity. Qed.
Lemma search_w al be ga w :
  search ivp al be ga None (Some w) = run_search al be ga (Fin 1) w (Fin (101/100) * Fin 1)%xr true.
Proof. reflexivity. Qed.
Lemma search_none al be ga :
  search ivp al be ga None None = run_search al be ga (Fin 1) (Fin 1) (Fin (101/100) * Fin 1)%xr false.
Proof. reflexivity. Qed.

Lemma run_search_real al be ga e0 w0 e1 g :
  List.Forall (real_shot ivp al be ga) (fst (run_search al be ga e0 w0 e1 g)).
Proof.
  unfold run_search. destruct (shoot ivp al be ga e0 w0) as [[f1 f2]|] eqn:E; [|constructor].
  cbv zeta.
  match goal with |- context[outer ivp al be ga ?g i_max j_max ?s ?l ?lg] =>
    assert (K : List.Forall (real_shot ivp al be ga) (fst (outer ivp al be ga g i_max j_max s l lg)));
    [apply outer_real; constructor; [apply shoot_real, E|constructor]|];
    destruct (outer ivp al be ga g i_max j_max s l lg) as [lo [[[st a] b]|x]] end; exact K.
Qed.
Lemma search_real al be ga e w : List.Forall (real_shot ivp al be ga) (fst (search ivp al be ga e w)).
Proof.
  destruct e as [e|], w as [w|].
  - constructor.
  - rewrite search_e. apply run_search_real.
  - rewrite search_w. apply run_search_real.
  - rewrite search_none. apply run_search_real.
Qed.

(** ** Given parameters stay *)
Lemma xeqb_refl_fin r : xeqb (Fin r) (Fin r) = true.
Proof. cbn [xeqb]. apply Reqb_true. reflexivity. Qed.

Lemma outer_fw al be ga w k n : forall st last log log' st' a b,
  ou_fw_prev st = Fin w -> (n = O -> ou_fw_curr st = Fin w) ->
  outer ivp al be ga true (S k) n st last log = (log', Ok (st', a, b)) -> ou_fw_curr st' = Fin w.
Proof.
  induction n as [|n IH]; intros st last log log' st' a b P C; cbn [outer].
  - intros H. injection H as <- <- <- <-. apply C. reflexivity.
  - cbn [inner in_fw_prev in_fw_curr]. rewrite P.
    destruct (shoot ivp al be ga (ou_eta_curr st) (Fin w)) as [[f1 f2]|]; [|discriminate].
    rewrite xeqb_refl_fin. cbn [orb in_f2_curr in_fw_prev in_fw_curr in_f1_prev].
    destruct (xeqb (ou_eta_curr st) (ou_eta_prev st) || near_zero f2)%bool.
    + intros H. injection H as <- <- <- <-. reflexivity.
    + apply IH; reflexivity.
Qed.

Lemma outer_eta al be ga e g imax n st last log log' st' a b :
  ou_eta_curr st = Fin e -> ou_eta_prev st = Fin e ->
  outer ivp al be ga g imax n st last log = (log', Ok (st', a, b)) -> ou_eta_curr st' = Fin e.
Proof.
  destruct n as [|n]; intros P C; cbn [outer].
  - intros H. injection H as <- <- <- <-. exact P.
  - destruct (inner _ _ _ _ _ _ _ _) as [l1 [[ist why]|x]]; [|discriminate].
    rewrite P, C, xeqb_refl_fin. cbn [orb]. intros H. injection H as <- <- <- <-. reflexivity.
Qed.

Lemma search_given al be ga e w log ei fw a b :
  search ivp al be ga e w = (log, Ok (ei, fw, a, b)) ->
  (forall r, e = Some (Fin r) -> ei = Fin r) /\ (forall r, w = Some (Fin r) -> fw = Fin r).
Proof.
  intros H. destruct e as [e|], w as [w|].
  - cbn in H. injection H as <- <- <- <- <-. split; intros r E; injection E as ->; reflexivity.
  - split; [|discriminate]. intros r E. injection E as ->. rewrite search_e in H.
    unfold run_search in H. destruct (shoot ivp al be ga (Fin r) (Fin 1)) as [[f1 f2]|]; [|discriminate].
    cbv zeta in H. destruct (outer _ _ _ _ _ _ _ _ _ _) as [l [[[st c] d]|x]] eqn:O; [|discriminate].
    injection H as <- <- <- <- <-. eapply outer_eta; [| |exact O]; reflexivity.
  - split; [discriminate|]. intros r E. injection E as ->. rewrite search_w in H.
    unfold run_search in H. destruct (shoot ivp al be ga (Fin 1) (Fin r)) as [[f1 f2]|]; [|discriminate].
    cbv zeta in H. destruct (outer _ _ _ _ _ _ _ _ _ _) as [l [[[st c] d]|x]] eqn:O; [|discriminate].
    injection H as <- <- <- <- <-. eapply (outer_fw al be ga r 99); [| |exact O];
      [reflexivity|discriminate].
  - split; discriminate.
Qed.

Lemma solution_profile o e w o' : set_solution_parameters ivp quad bisect o e w = (o', Ok tt) ->
  exists log ei fw a b r,
    search ivp (s_alpha o) (s_beta o) (s_gamma o) e w = (log, Ok (ei, fw, a, b)) /\
    ivp (sim_rhs (s_alpha o) (s_beta o) (s_gamma o)) ei (Fin 0, Fin 0, fw) = Ok r /\
    i_success r = true /\ s_f o' = Some (i_sol r) /\ s_eta_inf o' = ei.
Proof.
  unfold set_solution_parameters, calculate_solution.
  destruct (bad_positive e); [discriminate|]. destruct (bad_positive w); [discriminate|].
  destruct (search ivp (s_alpha o) (s_beta o) (s_gamma o) e w) as [log [[[[ei fw] a] b]|x]] eqn:S;
    cbn [snd]; [|discriminate].
  destruct (ivp _ _ _) as [r|] eqn:I; [|discriminate].
  destruct (i_success r) eqn:Q; [|discriminate].
  intros H. exists log, ei, fw, a, b, r. split; [reflexivity|]. split; [exact I|]. split; [exact Q|].
  destruct (q_f _ _) as [fe|] in H; [|discriminate].
  destruct (bind _ _) as [em|] in H; [|discriminate].
  destruct (quad _ _) as [ek|] in H; [|discriminate].
  destruct (bisect _ _) as [[[|] rt]|] in H; try discriminate.
  injection H as <-. split; reflexivity.
Qed.

Lemma profile_is o beta ei fw r :
  ivp (sim_rhs (Fin 1) beta (Fin 1)) ei (Fin 0, Fin 0, fw) = Ok r -> i_success r = true ->
  s_f o = Some (i_sol r) -> s_eta_inf o = ei -> profile_from ivp o beta ei fw.
Proof.
  intros I Q F E. exists (sim_rhs (Fin 1) beta (Fin 1)), r. split; [apply unscaled_is|].
  split; [exact I|]. split; [exact Q|]. split; [|exact E].
  intros eta. unfold q_f, q_f_p, q_f_pp. rewrite F. repeat split.
Qed.

Lemma new_sim_profile c u n beta fw e o :
  new_sim ivp quad bisect c u n (Fin 1) beta (Fin 1) fw e = Ok o ->
  exists ei w, profile_from ivp o beta ei w /\
    (forall r, e = Some (Fin r) -> ei = Fin r) /\ (forall r, fw = Some (Fin r) -> w = Fin r).
Proof.
  unfold new_sim. destruct (xleb u (Fin 0)); [discriminate|]. destruct (xleb n (Fin 0)); [discriminate|].
  cbv zeta. destruct (set_solution_parameters _ _ _ _ _ _) as [o' [[]|]] eqn:S; [|discriminate].
  intros H. injection H as <-. apply solution_profile in S.
  destruct S as (log & ei & w & a & b & r & S & I & Q & F & E). cbn [s_alpha s_beta s_gamma] in *.
  exists ei, w. split; [exact (profile_is _ _ _ _ _ I Q F E)|]. exact (search_given _ _ _ _ _ _ _ _ _ _ S).
Qed.

Lemma given_parameters_lemma u n e w o :
  (new_blasius ivp quad bisect u n w e = Ok o -> exists ei fw, profile_from ivp o (Fin 0) ei fw /\
     (e = None -> w = None -> ei = Fin (714513231841832/100000000000000) /\
                              fw = Fin (4695999888844369/10000000000000000)) /\
     (forall r, e = Some (Fin r) -> ei = Fin r) /\ (forall r, w = Some (Fin r) -> fw = Fin r)) /\
  (forall beta, new_falkner_skan ivp quad bisect beta u n w e = Ok o ->
     exists ei fw, profile_from ivp o beta ei fw /\
     (forall r, e = Some (Fin r) -> ei = Fin r) /\ (forall r, w = Some (Fin r) -> fw = Fin r)) /\
  (forall o0, s_alpha o0 = Fin 1 -> s_gamma o0 = Fin 1 ->
     set_solution_parameters ivp quad bisect o0 e w = (o, Ok tt) ->
     exists ei fw, profile_from ivp o (s_beta o0) ei fw /\
     (forall r, e = Some (Fin r) -> ei = Fin r) /\ (forall r, w = Some (Fin r) -> fw = Fin r)).
Proof.
  split; [|split].
  - unfold new_blasius. intros H. destruct w as [w|], e as [e|]; cbn [fst snd] in H;
      apply new_sim_profile in H; destruct H as (ei & fw & P & A & B); exists ei, fw;
      (split; [exact P|]).
    + split; [discriminate|auto].
    + split; [discriminate|auto].
    + split; [discriminate|auto].
    + split; [intros _ _; split; [apply A; reflexivity|apply B; reflexivity]|].
      split; discriminate.
  - intros beta. unfold new_falkner_skan. destruct (beta_rejected beta); [discriminate|].
    apply new_sim_profile.
  - intros o0 HA HG H. apply solution_profile in H.
    destruct H as (log & ei & fw & a & b & r & S & I & Q & F & E). rewrite HA, HG in S, I.
    exists ei, fw. split; [exact (profile_is _ _ _ _ _ I Q F E)|]. exact (search_given _ _ _ _ _ _ _ _ _ _ S).
Qed.

(** ** Secant steps *)
Lemma trials_cons goal X Y s3 l : secant_trials goal X Y l ->
  (forall s2 s1 r, l = s2 :: s1 :: r ->
     X s3 = (X s2 + (goal - Y s2) * (X s2 - X s1) / (Y s2 - Y s1))%xr) ->
  secant_trials goal X Y (s3 :: l).
Proof.
  intros H K k a b c. destruct k as [|k]; cbn [nth_error].
  - intros E. injection E as <-. destruct l as [|s2 [|s1 r]]; try discriminate.
    intros E1 E2. injection E1 as <-. injection E2 as <-. exact (K s2 s1 r eq_refl).
  - exact (H k a b c).
Qed.
Lemma trials_one goal X Y s : secant_trials goal X Y [s].
Proof. intros [|[|k]] a b c; cbn; discriminate. Qed.

Lemma inner_secant al be ga eta n : forall st log s r,
  log = s :: r -> sh_fw s = in_fw_prev st -> sh_f1 s = in_f1_prev st ->
  secant_trials (Fin 1) sh_fw sh_f1 log ->
  (forall s2 s1 q, log = s2 :: s1 :: q -> in_fw_curr st
     = (sh_fw s2 + (Fin 1 - sh_f1 s2) * (sh_fw s2 - sh_fw s1) / (sh_f1 s2 - sh_f1 s1))%xr) ->
  secant_trials (Fin 1) sh_fw sh_f1 (fst (inner ivp al be ga eta n st log)).
Proof.
  induction n as [|n IH]; intros st log s r -> A B T C; cbn [inner]; [exact T|].
  destruct (shoot ivp al be ga eta (in_fw_curr st)) as [[f1 f2]|]; [|exact T].
  assert (T' : secant_trials (Fin 1) sh_fw sh_f1
    ({| sh_eta := eta; sh_fw := in_fw_curr st; sh_f1 := f1; sh_f2 := f2 |} :: s :: r)).
  { apply trials_cons; [exact T|]. cbn [sh_fw]. exact C. }
  destruct (xeqb (in_fw_prev st) (in_fw_curr st) || near_one f1)%bool; [exact T'|].
  eapply IH; [reflexivity|reflexivity|reflexivity|exact T'|].
  cbn [in_fw_curr]. intros s2 s1 q E. injection E as <- <- <-. cbn [sh_fw sh_f1].
  rewrite A, B. reflexivity.
Qed.

Lemma secant_fw al be ga e :
  secant_trials (Fin 1) sh_fw sh_f1 (fst (search ivp al be ga (Some (Fin e)) None)).
Proof.
  rewrite search_e. unfold run_search.
  destruct (shoot ivp al be ga (Fin e) (Fin 1)) as [[f1 f2]|];
    [|intros [|k] a b c; discriminate].
  cbv zeta. set (log := [_]). change j_max with (S 99). generalize 99%nat. intros n99. cbn [outer].
  match goal with |- context[inner ivp al be ga ?e i_max ?s ?l] =>
    assert (K : secant_trials (Fin 1) sh_fw sh_f1 (fst (inner ivp al be ga e i_max s l)));
    [eapply inner_secant; [reflexivity|reflexivity|reflexivity|apply trials_one|discriminate]|];
    destruct (inner ivp al be ga e i_max s l) as [log' [[ist why]|x]] end;
  cbn [fst] in K; [|exact K].
  cbn [ou_eta_curr ou_eta_prev]. rewrite xeqb_refl_fin. cbn [orb]. exact K.
Qed.

Lemma outer_secant al be ga w k n : forall st last log s r,
  log = s :: r -> ou_fw_prev st = Fin w ->
  sh_eta s = ou_eta_prev st -> sh_f2 s = ou_f2_prev st ->
  secant_trials (Fin 0) sh_eta sh_f2 log ->
  (forall s2 s1 q, log = s2 :: s1 :: q -> ou_eta_curr st
     = (sh_eta s2 + (Fin 0 - sh_f2 s2) * (sh_eta s2 - sh_eta s1) / (sh_f2 s2 - sh_f2 s1))%xr) ->
  secant_trials (Fin 0) sh_eta sh_f2 (fst (outer ivp al be ga true (S k) n st last log)).
Proof.
  induction n as [|n IH]; intros st last log s r -> W A B T C; cbn [outer]; [exact T|].
  cbn [inner in_fw_prev in_fw_curr]. rewrite W.
  destruct (shoot ivp al be ga (ou_eta_curr st) (Fin w)) as [[f1 f2]|]; [|exact T].
  rewrite xeqb_refl_fin. cbn [orb in_f2_curr in_fw_prev in_fw_curr in_f1_prev].
  assert (T' : secant_trials (Fin 0) sh_eta sh_f2
    ({| sh_eta := ou_eta_curr st; sh_fw := Fin w; sh_f1 := f1; sh_f2 := f2 |} :: s :: r)).
  { apply trials_cons; [exact T|]. cbn [sh_eta]. exact C. }
  destruct (xeqb (ou_eta_curr st) (ou_eta_prev st) || near_zero f2)%bool; [exact T'|].
  eapply IH; [reflexivity|reflexivity|reflexivity|reflexivity|exact T'|].
  cbn [ou_eta_curr]. intros s2 s1 q E. injection E as <- <- <-. cbn [sh_eta sh_f2].
  rewrite A, B. f_equal. f_equal. f_equal.
  destruct f2; cbn; try reflexivity. rewrite Rplus_0_l. reflexivity.
Qed.

Lemma secant_eta al be ga w :
  secant_trials (Fin 0) sh_eta sh_f2 (fst (search ivp al be ga None (Some (Fin w)))).
Proof.
  rewrite search_w. unfold run_search.
  destruct (shoot ivp al be ga (Fin 1) (Fin w)) as [[f1 f2]|];
    [|intros [|k] a b c; discriminate].
  cbv zeta. set (log := [_]). change i_max with (S 99). generalize 99%nat. intros n99.
  match goal with |- context[outer ivp al be ga true (S n99) ?m ?s ?l ?lg] =>
    assert (K : secant_trials (Fin 0) sh_eta sh_f2 (fst (outer ivp al be ga true (S n99) m s l lg)));
    [eapply (outer_secant al be ga w n99);
     [reflexivity|reflexivity|reflexivity|reflexivity|apply trials_one|discriminate]|];
    destruct (outer ivp al be ga true (S n99) m s l lg) as [lo [[[st a] b]|x]] end; exact K.
Qed.

(** ** Affine responses are solved at once *)
Lemma near_one_fin f : near_one (Fin f) = Rltb (Rabs (1 - f)) (1/100000000).
Proof. unfold near_one, tol. rewrite xsub_fin. reflexivity. Qed.
Lemma near_zero_fin f : near_zero (Fin f) = Rltb (Rabs f) (1/100000000).
Proof. reflexivity. Qed.

Lemma affine_fw al be ga e p q g : q <> 0 ->
  (forall w, ends_at ivp al be ga (Fin e) (Fin w) (Fin (p + q * w)) (g w)) ->
  exists log fw b, search ivp al be ga (Some (Fin e)) None = (log, Ok (Fin e, Fin fw, Converged, b)) /\
    (length log <= 3)%nat /\ Rabs (1 - (p + q * fw)) < 1/100000000.
Proof.
  intros Hq HS0. assert (HS : forall w, shoot ivp al be ga (Fin e) (Fin w) = Ok (Fin (p + q * w), g w))
    by (intros w; apply shoot_ends, HS0). clear HS0. rewrite search_e. unfold run_search. rewrite HS. cbv zeta.
  change i_max with (S (S 98)). change j_max with (S (S 98)). generalize 98%nat. intros n98.
  cbn [outer inner in_fw_curr in_fw_prev in_f1_prev in_f2_curr ou_fw_prev
    ou_f1_prev ou_eta_curr ou_eta_prev ou_f2_prev ou_fw_curr].
  rewrite xmul_fin, HS. cbn [xeqb]. rewrite (Reqb_false 1 (101/100*1)) by lra. cbn [orb].
  rewrite near_one_fin.
  destruct (Rltb (Rabs (1 - (p + q * (101/100*1)))) (1/100000000)) eqn:N.
  - cbn [in_f2_curr in_fw_prev in_fw_curr in_f1_prev]. rewrite (Reqb_true e e) by reflexivity.
    cbn [orb]. eexists _, _, _. split; [reflexivity|]. split; [cbn; lia|].
    apply Rltb_iff, N.
  - rewrite !xsub_fin, xmul_fin.
    assert (E : p + q * (101/100*1) - (p + q * 1) = q / 100) by field.
    rewrite E. rewrite xdiv_fin by lra. rewrite xadd_fin, HS.
    set (w := 101/100*1 + _).
    assert (W : p + q * w = 1) by (unfold w; field; exact Hq).
    rewrite W. cbn [xeqb]. 
    assert (N1 : near_one (Fin 1) = true).
    { rewrite near_one_fin. apply Rltb_true. replace (1 - 1) with 0 by ring. rewrite Rabs_R0. lra. }
    rewrite N1, orb_true_r. cbn [in_f2_curr in_fw_prev in_fw_curr in_f1_prev].
    rewrite (Reqb_true e e) by reflexivity. cbn [orb].
    eexists _, w, _. split; [reflexivity|]. split; [cbn; lia|].
    rewrite W. replace (1 - 1) with 0 by ring. rewrite Rabs_R0. lra.
Qed.

Lemma affine_eta al be ga w p q g : q <> 0 ->
  (forall e, ends_at ivp al be ga (Fin e) (Fin w) (g e) (Fin (p + q * e))) ->
  exists log ei a, search ivp al be ga None (Some (Fin w)) = (log, Ok (Fin ei, Fin w, a, Converged)) /\
    (length log <= 3)%nat /\ Rabs (p + q * ei) < 1/100000000.
Proof.
  intros Hq HS0. assert (HS : forall e, shoot ivp al be ga (Fin e) (Fin w) = Ok (g e, Fin (p + q * e)))
    by (intros e; apply shoot_ends, HS0). clear HS0. rewrite search_w. unfold run_search. rewrite HS. cbv zeta.
  change i_max with (S (S 98)). change j_max with (S (S 98)). generalize 98%nat. intros n98.
  cbn [outer inner in_fw_curr in_fw_prev in_f1_prev in_f2_curr ou_fw_prev
    ou_f1_prev ou_eta_curr ou_eta_prev ou_f2_prev ou_fw_curr].
  rewrite xmul_fin, HS. rewrite xeqb_refl_fin. cbn [orb in_f2_curr in_fw_prev in_fw_curr in_f1_prev].
  cbn [xeqb]. rewrite (Reqb_false (101/100*1) 1) by lra. cbn [orb].
  rewrite near_zero_fin.
  destruct (Rltb (Rabs (p + q * (101/100*1))) (1/100000000)) eqn:N.
  - eexists _, _, _. split; [reflexivity|]. split; [cbn; lia|]. apply Rltb_iff, N.
  - rewrite xneg_fin, !xsub_fin, xmul_fin.
    assert (E : p + q * (101/100*1) - (p + q * 1) = q / 100) by field.
    rewrite E. rewrite xdiv_fin by lra. rewrite xadd_fin, HS.
    set (x := 101/100*1 + _).
    assert (W : p + q * x = 0) by (unfold x; field; exact Hq).
    rewrite W.
    assert (N1 : near_zero (Fin 0) = true).
    { rewrite near_zero_fin. apply Rltb_true. rewrite Rabs_R0. lra. }
    cbn [xeqb]. rewrite (Reqb_true w w) by reflexivity. cbn [orb in_f2_curr in_fw_prev in_fw_curr in_f1_prev].
    rewrite N1, orb_true_r.
    eexists _, x, _. split; [reflexivity|]. split; [cbn; lia|]. rewrite W, Rabs_R0. lra.
Qed.

(** ** A failed last integration *)
Lemma failed_integration o e w log ei fw a b :
  (forall v, e = Some v -> xleb v (Fin 0) = false) -> (forall v, w = Some v -> xleb v (Fin 0) = false) ->
  search ivp (s_alpha o) (s_beta o) (s_gamma o) e w = (log, Ok (ei, fw, a, b)) ->
  (forall rhs, similarity_rhs (s_alpha o) (s_beta o) (s_gamma o) rhs ->
     exists r, ivp rhs ei (Fin 0, Fin 0, fw) = Ok r /\ i_success r = false) ->
  exists o', set_solution_parameters ivp quad bisect o e w = (o', Err ValueError) /\
    forall eta, q_f o' eta = Err ValueError /\ q_f_p o' eta = Err ValueError /\
      q_f_pp o' eta = Err ValueError.
Proof.
  intros E W S I. destruct (I _ (unscaled_is _ _ _)) as (r & I1 & Q).
  unfold set_solution_parameters, calculate_solution.
  assert (BE : bad_positive e = false) by (destruct e; [apply E|]; reflexivity).
  assert (BW : bad_positive w = false) by (destruct w; [apply W|]; reflexivity).
  rewrite BE, BW, S. cbn [snd].
  rewrite I1, Q. eexists. split; [reflexivity|]. intros eta. repeat split.
Qed.
End Scipy.
