From Coq Require Import Reals List String Bool ZArith Lra Lia.
From Verif Require Import PyBase PyBaseFacts FiniteDiffModel PPolyModel
  InitialConditionModel ThwaitesFitsModel HeadModel CoreModel CoreSpec CoreProofs.
Import ListNotations.
Open Scope R_scope.

Section CoreH.
Variable pchip : ndarray -> ndarray -> res ppoly.
Variable cubic_spline : list R -> list R -> (xr -> xr) * (xr -> xr).
Variable solve_ivp :
  (R -> list xr -> res (list xr)) -> R -> R -> list xr ->
  list (bool * (R -> list xr -> res xr)) -> res ivp_result.

Notation set_velocity := (set_velocity pchip).
Notation solve := (solve solve_ivp).
Notation events_added := (events_added pchip cubic_spline solve_ivp).
Notation reachable := (reachable pchip cubic_spline solve_ivp).
Notation step := (step pchip cubic_spline solve_ivp).
Notation run := (run pchip cubic_spline solve_ivp).
Notation trace := (trace pchip cubic_spline solve_ivp).
Notation created := (created pchip cubic_spline).
Notation ivp_contract := (ivp_contract solve_ivp).

(* ------------------------------------------------------------------ *)
(** * Rejected set_velocity *)

(** C04 *)
Lemma points_rejected m u m' e : set_velocity_points pchip m u = (m', Err e) -> m' = m.
Proof.
  unfold set_velocity_points. intros H.
  repeat match type of H with context [match ?x with _ => _ end] => destruct x end;
    try (injection H as <- <-; reflexivity); discriminate.
Qed.
Lemma scalar_rejected m u0 du m' e : set_velocity_scalar pchip m u0 du = (m', Err e) -> m' = m.
Proof.
  unfold set_velocity_scalar. intros H.
  repeat match type of H with context [match ?x with _ => _ end] => destruct x end;
    try (injection H as <- <-; reflexivity); discriminate.
Qed.
Lemma rejected_lemma m u du d2u m' e :
  set_velocity m u du d2u = (m', Err e) ->
  (forall c, u <> PCall c) -> m' = m.
Proof.
  intros H Hu. destruct u; cbn [CoreModel.set_velocity] in H.
  - apply (points_rejected _ _ _ _ H).
  - exfalso. apply (Hu c). reflexivity.
  - apply (scalar_rejected _ _ _ _ _ H).
  - apply (points_rejected _ _ _ _ H).
  - apply (points_rejected _ _ _ _ H).
  - apply (points_rejected _ _ _ _ H).
Qed.

(** The partial update of a rejected call with a callable velocity. *)
Lemma rejected_callable_lemma m c du d2u m' e :
  set_velocity m (PCall c) du d2u = (m', Err e) ->
  (forall x, q_u_e m' x = Ok (c_fun c x)) /\ m_d2u m' = m_d2u m /\
  (du <> PNone -> (forall dc, du <> PCall dc) -> m_du m' = m_du m) /\
  (d2u <> PNone -> m_du m' = m_du m \/ exists dc, du = PCall dc).
Proof.
  intros H. cbn [CoreModel.set_velocity] in H. unfold set_velocity_callable in H.
  destruct du as [|dc|z|z|z|].
  - destruct d2u; try (injection H as <- <-; repeat split; auto).
    destruct (c_deriv c) as [d|]; [|discriminate].
    destruct (d 1%nat).
    + destruct (d 2%nat); [discriminate|]. injection H as <- <-. repeat split; intros; congruence.
    + injection H as <- <-. repeat split; intros; congruence.
  - destruct d2u; try discriminate.
    destruct (c_deriv dc) as [d|]; [|discriminate].
    destruct (d 1%nat); [discriminate|]. injection H as <- <-.
    repeat split; intros; try congruence.
  - injection H as <- <-; repeat split; auto.
  - injection H as <- <-; repeat split; auto.
  - injection H as <- <-; repeat split; auto.
  - injection H as <- <-; repeat split; auto.
Qed.

(** C05 *)
Lemma bad_du_lemma m c du d2u : du <> PNone -> (forall dc, du <> PCall dc) ->
  snd (set_velocity m (PCall c) du d2u) = Err ValueError.
Proof.
  intros H1 H2. cbn [CoreModel.set_velocity]. unfold set_velocity_callable.
  destruct du; try reflexivity; [congruence|]. exfalso. eapply H2; reflexivity.
Qed.
Lemma d2u_without_du_lemma m c d2u : d2u <> PNone ->
  snd (set_velocity m (PCall c) PNone d2u) = Err ValueError.
Proof.
  intros H1. cbn [CoreModel.set_velocity]. unfold set_velocity_callable.
  destruct d2u; try reflexivity; congruence.
Qed.
Lemma bad_d2u_lemma m c dc v : v <> PNone -> (forall d, v <> PCall d) ->
  exists m', set_velocity m (PCall c) (PCall dc) v = (m', Ok tt) /\
    forall x, q_d2u_e m' x = Err TypeError.
Proof.
  intros H1 H2. cbn [CoreModel.set_velocity]. unfold set_velocity_callable.
  destruct v; try congruence; try (exfalso; eapply H2; reflexivity);
    eexists; (split; [reflexivity|]); intros x; reflexivity.
Qed.

(** C07 *)

Lemma points_spec m v1 v2 x u du d2u :
  np_asarray v1 = Ok x -> np_asarray v2 = Ok u ->
  (good_shapes x u -> snd (set_velocity m (PTup [v1; v2]) du d2u)
     = match pchip x u with Ok _ => Ok tt | Err e => Err e end) /\
  (~ good_shapes x u -> nd_shape x <> [] ->
     set_velocity m (PTup [v1; v2]) du d2u = (m, Err ValueError)) /\
  (nd_shape x = [] -> set_velocity m (PTup [v1; v2]) du d2u = (m, Err IndexError)).
Proof.
  intros E1 E2.
  assert (S : set_velocity m (PTup [v1; v2]) du d2u =
     match nd_shape x with
          | [] => (m, Err IndexError)
          | npts :: xrest =>
              if negb (Nat.eqb (List.length (npts :: xrest)) 1) then (m, Err ValueError)
              else if negb (Nat.eqb (List.length (nd_shape u)) 1) then (m, Err ValueError)
              else if negb (Nat.eqb npts (hd 0%nat (nd_shape u))) then (m, Err ValueError)
              else if Nat.ltb npts 2 then (m, Err ValueError)
              else match pchip x u with
                   | Err e => (m, Err e)
                   | Ok p => set_velocity_callable m (callable_of_ppoly p) PNone PNone
                   end
          end).
  { cbn [CoreModel.set_velocity]. unfold set_velocity_points.
    cbn [py_len List.length py_item nth_error bind]. rewrite E1, E2. reflexivity. }
  rewrite S. clear S. split; [|split].
  - intros (n & -> & -> & Hn). cbn [List.length Nat.eqb negb hd].
    rewrite Nat.eqb_refl. cbn [negb].
    destruct (Nat.ltb_spec n 2); [lia|]. destruct (pchip x u); reflexivity.
  - intros HB HX. destruct (nd_shape x) as [|npts xr] eqn:EX; [congruence|].
    destruct xr; [|reflexivity]. cbn [List.length Nat.eqb negb].
    destruct (nd_shape u) as [|n2 ur] eqn:EU; [reflexivity|].
    destruct ur; [|reflexivity]. cbn [List.length Nat.eqb negb hd].
    destruct (Nat.eqb_spec npts n2) as [<-|]; [|reflexivity]. cbn [negb].
    destruct (Nat.ltb_spec npts 2) as [|HN]; [reflexivity|].
    exfalso. apply HB. exists npts. rewrite EX, EU. auto.
  - intros ->. reflexivity.
Qed.
Lemma points_unchanged m v1 v2 x u du d2u m' e :
  np_asarray v1 = Ok x -> np_asarray v2 = Ok u ->
  set_velocity m (PTup [v1; v2]) du d2u = (m', Err e) -> m' = m.
Proof. intros _ _ H. eapply rejected_lemma; [exact H|discriminate]. Qed.
Lemma points_wrong_length m l du d2u : List.length l <> 2%nat ->
  set_velocity m (PTup l) du d2u = (m, Err ValueError).
Proof.
  intros H. cbn [CoreModel.set_velocity]. unfold set_velocity_points. cbn [py_len].
  destruct (List.length l) as [|[|[|n]]]; try reflexivity. congruence.
Qed.

(* ------------------------------------------------------------------ *)
(** * Queries before a velocity is set (C08) *)


Lemma set_velocity_d2u m u du d2u m' e :
  set_velocity m u du d2u = (m', Err e) -> m_d2u m' = m_d2u m.
Proof.
  intros H. destruct u as [|c|u0|a|l|].
  all: try (apply rejected_lemma in H; [subst; reflexivity|discriminate]).
  apply rejected_callable_lemma in H. apply H.
Qed.

Lemma history_slots (I : meth -> Prop)
  (P : pyval -> pyval -> pyval -> res (option int_result) -> Prop) m h :
  (forall a b, slots a = slots b -> I a -> I b) ->
  (forall m u du d2u, I m -> P u du d2u (snd (step m (OpVelocity u du d2u))) ->
     I (fst (step m (OpVelocity u du d2u)))) ->
  I m -> velocity_outcomes P (trace m h) -> I (run m h).
Proof.
  intros HS HV. revert m. induction h as [|o h IH]; intros m HI HT; [exact HI|].
  cbn [CoreSpec.trace] in HT. inversion HT as [|p t Hp Ht]; subst.
  rewrite run_cons. apply IH; [|exact Ht]. cbn [fst snd] in Hp.
  destruct o; try (apply (HS m); [symmetry; apply step_slots; reflexivity|exact HI]).
  apply HV; assumption.
Qed.


(** No successful call so far: d2u_e raises. *)
Lemma no_success_d2u m h : m_d2u m = None ->
  velocity_outcomes (fun _ _ _ r => rejected r) (trace m h) ->
  forall x, q_d2u_e (run m h) x = Err ValueError.
Proof.
  intros H0 HT x.
  assert (E : m_d2u (run m h) = None).
  { apply (history_slots (fun m => m_d2u m = None) (fun _ _ _ r => rejected r)); auto.
    - intros a b E. unfold slots in E. congruence.
    - clear. intros m u du d2u HI [e He]. cbn [CoreSpec.step] in *.
      destruct (set_velocity m u du d2u) as [m' [|e']] eqn:E; cbn in He; [discriminate|].
      cbn. rewrite (set_velocity_d2u _ _ _ _ _ _ E). exact HI. }
  unfold q_d2u_e. rewrite E. reflexivity.
Qed.
(** No successful call and none with a callable u_e: all three raise. *)
Lemma no_success_all m h : m_u m = None -> m_du m = None -> m_d2u m = None ->
  velocity_outcomes (fun u _ _ r => rejected r /\ forall c, u <> PCall c) (trace m h) ->
  forall x, q_u_e (run m h) x = Err ValueError /\ q_du_e (run m h) x = Err ValueError /\
            q_d2u_e (run m h) x = Err ValueError.
Proof.
  intros H1 H2 H3 HT x.
  assert (E : m_u (run m h) = None /\ m_du (run m h) = None /\ m_d2u (run m h) = None).
  { apply (history_slots (fun m => m_u m = None /\ m_du m = None /\ m_d2u m = None)
             (fun u _ _ r => rejected r /\ forall c, u <> PCall c)); auto.
    - intros a b E. unfold slots in E. injection E as -> -> ->. tauto.
    - clear. intros m u du d2u HI [[e He] Hu]. cbn [CoreSpec.step] in *.
      destruct (set_velocity m u du d2u) as [m' [|e']] eqn:E; cbn in He; [discriminate|].
      apply rejected_lemma in E; [|exact Hu]. cbn. subst. exact HI. }
  destruct E as [E1 [E2 E3]].
  unfold q_u_e, q_du_e, q_d2u_e. rewrite E1, E2, E3. auto.
Qed.
(** No successful call and none with a callable u_e that has a callable derivative: du_e
    raises. *)
Lemma no_success_du m h : m_du m = None ->
  velocity_outcomes (fun u du _ r => rejected r /\
     (forall c, u = PCall c -> c_deriv c = None) /\ (forall dc, du <> PCall dc)) (trace m h) ->
  forall x, q_du_e (run m h) x = Err ValueError.
Proof.
  intros H0 HT x.
  assert (E : m_du (run m h) = None).
  { apply (history_slots (fun m => m_du m = None) (fun u du _ r => rejected r /\
      (forall c, u = PCall c -> c_deriv c = None) /\ (forall dc, du <> PCall dc))); auto.
    - intros a b E. unfold slots in E. congruence.
    - clear. intros m u du d2u HI [[e He] [Hu Hdu]]. cbn [CoreSpec.step] in *.
      destruct (set_velocity m u du d2u) as [m' [|e']] eqn:E; cbn in He; [discriminate|].
      cbn. destruct u as [|c|u0|a|l|];
        try (apply rejected_lemma in E; [subst; exact HI|discriminate]).
      cbn [CoreModel.set_velocity] in E. unfold set_velocity_callable in E.
      destruct du; try (injection E as <- <-; exact HI).
      + destruct d2u; try (injection E as <- <-; exact HI).
        rewrite (Hu c eq_refl) in E. discriminate.
      + exfalso. eapply Hdu; reflexivity. }
  unfold q_du_e. rewrite E. reflexivity.
Qed.

Lemma created_no_velocity_thwaites linear nu du d2u a m :
  new_thwaites pchip cubic_spline linear nu PNone du d2u a = Ok m -> no_velocity m.
Proof.
  unfold new_thwaites, new_base. destruct (new_fs (Fin 0) nu); [|discriminate].
  destruct du; try discriminate. destruct d2u; try discriminate.
  unfold set_data_fits. destruct (choose_fit cubic_spline a); [|discriminate].
  intros H. injection H as <-. repeat split.
Qed.
Lemma created_no_velocity_head nu du d2u crit m :
  new_head pchip nu PNone du d2u crit = Ok m -> no_velocity m.
Proof.
  unfold new_head, new_base. destruct (new_fs (Fin 0) nu); [|discriminate].
  destruct du; try discriminate. destruct d2u; try discriminate.
  intros H. injection H as <-. repeat split.
Qed.

(** Once a velocity has been accepted, no velocity query raises ValueError again. *)
Definition velocity_set (m : meth) : Prop :=
  (exists f k, m_u m = Some (VF f k)) /\
  (m_du m = Some VFd1U \/ exists f k, m_du m = Some (VF f k)) /\ m_d2u m <> None.
Lemma velocity_set_step m u du d2u : velocity_set m ->
  velocity_set (fst (set_velocity m u du d2u)).
Proof.
  intros HI. destruct (set_velocity m u du d2u) as [m' r] eqn:E. cbn [fst].
  assert (C : forall c du d2u m' r, set_velocity_callable m c du d2u = (m', r) -> velocity_set m').
  { clear E. destruct HI as [H1 [H2 H3]]. unfold set_velocity_callable, velocity_set.
    intros c du0 d2u0 m1 r1 H.
    destruct du0; destruct d2u0;
    repeat match type of H with context [match ?x with _ => _ end] => destruct x end;
      injection H as <- <-; cbn; repeat split; eauto; try congruence. }
  destruct u; cbn [CoreModel.set_velocity] in E; try (eapply C; exact E);
    unfold set_velocity_scalar, set_velocity_points in E;
    repeat match type of E with context [match ?x with _ => _ end] => destruct x end;
    try (injection E as <- <-; exact HI); try (eapply C; exact E);
    injection E as <- <-; repeat split; cbn; eauto; congruence.
Qed.
Lemma velocity_set_after m u du d2u m' : set_velocity m u du d2u = (m', Ok tt) -> velocity_set m'.
Proof.
  intros E.
  assert (C : forall c du d2u m', set_velocity_callable m c du d2u = (m', Ok tt) -> velocity_set m').
  { clear E. unfold set_velocity_callable, velocity_set. intros c du0 d2u0 m1 H.
    destruct du0; destruct d2u0;
    repeat match type of H with context [match ?x with _ => _ end] => destruct x end;
      try discriminate; injection H as <-; cbn; repeat split; eauto; try congruence. }
  destruct u; cbn [CoreModel.set_velocity] in E; try (eapply C; exact E);
    unfold set_velocity_scalar, set_velocity_points in E;
    repeat match type of E with context [match ?x with _ => _ end] => destruct x end;
    try discriminate; try (eapply C; exact E);
    injection E as <-; repeat split; cbn; eauto; congruence.
Qed.
Lemma velocity_set_history m u du d2u m' h x :
  set_velocity m u du d2u = (m', Ok tt) ->
  (exists v, q_u_e (run m' h) x = Ok v) /\ (exists v, q_du_e (run m' h) x = Ok v) /\
  q_d2u_e (run m' h) x <> Err ValueError.
Proof.
  intros E. apply velocity_set_after in E.
  assert (V : velocity_set (run m' h)).
  { apply (history_slots velocity_set (fun _ _ _ _ => True)); auto.
    - intros a b Eq. unfold slots in Eq. unfold velocity_set. injection Eq as -> -> ->. auto.
    - intros m0 u0 du0 d2u0 HI _. apply velocity_set_step. exact HI.
    - unfold velocity_outcomes. apply Forall_forall. intros [o r] _. destruct o; exact I. }
  destruct V as [[f [k E1]] [E2 E3]]. unfold q_u_e, q_du_e, q_d2u_e, call_du, call_d2u, du_fun.
  rewrite E1. cbn [call_plain bind]. split; [eauto|]. split.
  - destruct E2 as [->|[g [k' ->]]]; eauto.
  - destruct (m_d2u (run m' h)) as [[]|] eqn:E4; try congruence.
    destruct E2 as [->|[g [k' ->]]]; cbn; congruence.
Qed.

(* ------------------------------------------------------------------ *)
(** * Viscosity (C09) *)

Definition nu_ok (m : meth) : Prop := xleb (m_nu m) (Fin 0) = false.
Lemma created_nu m : created m -> nu_ok m.
Proof.
  assert (B : forall k nu u du d2u c m, new_base pchip k nu u du d2u c = Ok m -> nu_ok m).
  { clear. intros k nu u du d2u c m H. unfold new_base in H. unfold new_fs in H.
    unfold ic_set_nu in H. destruct (xleb nu (Fin 0)) eqn:E; [discriminate|].
    destruct u; try (destruct du; try discriminate; destruct d2u; try discriminate;
                     injection H as <-; exact E);
    match type of H with context [CoreModel.set_velocity pchip ?m0 ?u ?a ?b] =>
      pose proof (set_velocity_frame pchip m0 u a b) as F;
      destruct (CoreModel.set_velocity pchip m0 u a b) as [m1 [|]]; [|discriminate] end;
    injection H as <-; destruct F as [_ [F _]]; unfold nu_ok; cbn in *; rewrite F; exact E. }
  intros [linear nu u du d2u a m0 H|nu u du d2u crit m0 H].
  - unfold new_thwaites in H. destruct (new_base pchip _ nu u du d2u _) eqn:E; [|discriminate].
    apply B in E. unfold set_data_fits in H. destruct (choose_fit cubic_spline a); [|discriminate].
    injection H as <-. exact E.
  - unfold new_head in H. destruct (new_base pchip _ nu u du d2u _) eqn:E; [|discriminate].
    apply B in E. injection H as <-. exact E.
Qed.
Lemma step_nu m o : nu_ok m -> nu_ok (fst (step m o)).
Proof.
  unfold nu_ok. intros H. destruct o; cbn [CoreSpec.step].
  - unfold set_nu, no_result. destruct (xleb v (Fin 0)) eqn:E; [exact H|exact E].
  - destruct (set_velocity_frame pchip m u du d2u) as [_ [F _]]. cbn. rewrite F. exact H.
  - exact H.
  - unfold set_initial_delta_m, no_result. destruct (xleb v (Fin 0)); exact H.
  - unfold set_initial_shape_d, no_result. destruct (m_kind m); try exact H.
    destruct (xleb v (Fin 0)); [exact H|]. destruct (get_initial_delta_m m); exact H.
  - unfold set_data_fits, no_result. destruct (m_kind m); try exact H;
      destruct (choose_fit cubic_spline a); exact H.
  - destruct (m_kind m); exact H.
  - cbn [fst]. rewrite solve_nu. exact H.
Qed.
Lemma nu_history m h : created m -> xleb (m_nu (run m h)) (Fin 0) = false.
Proof.
  intros H. apply created_nu in H. revert m H.
  induction h as [|o h IH]; intros m H; [exact H|]. rewrite run_cons. apply IH, step_nu, H.
Qed.

Lemma run_nu_ok m h : nu_ok m -> nu_ok (run m h).
Proof.
  revert m. induction h as [|o h IH]; intros m H; [exact H|]. rewrite run_cons. apply IH, step_nu, H.
Qed.
Lemma reachable_nu s : reachable s -> nu_ok s.
Proof. intros (m & h & HC & ->). apply run_nu_ok, created_nu, HC. Qed.
Lemma reachable_step s o : reachable s -> reachable (fst (step s o)).
Proof.
  intros (m & h & HC & ->). exists m, (h ++ [o]). split; [exact HC|]. rewrite run_app. reflexivity.
Qed.

(* ------------------------------------------------------------------ *)
(** * What solve does *)

Lemma ode_impl_ext a b : m_kind a = m_kind b -> m_nu a = m_nu b -> slots a = slots b ->
  m_fit a = m_fit b -> forall x f, ode_impl a x f = ode_impl b x f.
Proof.
  unfold slots. intros E1 E2 E3 E4 x f. injection E3 as E3 E5 E6.
  unfold ode_impl, calc_f, calc_lambda, q_u_e, q_du_e, call_du. rewrite E1, E2, E3, E4, E5.
  reflexivity.
Qed.

(** Complete description of one solve. *)
Inductive solve_case (m : meth) (x0 x1 : R) (l : list event) : meth -> res int_result -> Prop :=
| sc_early c e :
    (forall y0, ~ initial_state m x0 y0) ->
    ic_body_of c = ic_body_of (m_ic m) ->
    solve_case m x0 x1 l (set_ic m c) (Err e)
| sc_raise c y0 e :
    initial_state m x0 y0 ->
    ic_body_of c = ic_body_of (m_ic m) ->
    solve_ivp (ode_impl m) x0 x1 y0 (ivp_events m (m_events m ++ l)) = Err e ->
    solve_case m x0 x1 l (set_events (set_ic m c) (m_events m ++ l)) (Err e)
| sc_done c y0 r :
    initial_state m x0 y0 ->
    ic_body_of c = ic_body_of (m_ic m) ->
    solve_ivp (ode_impl m) x0 x1 y0 (ivp_events m (m_events m ++ l)) = Ok r ->
    solve_case m x0 x1 l
      (set_sol (set_events (set_ic m c) (m_events m ++ l))
               (if r_success r then Some (r_sol r) else None))
      (gather x0 y0 (m_events m ++ l) r).

Lemma py_div_nonzero a b : xleb b (Fin 0) = false -> py_div a b = Ok (a / b)%xr.
Proof.
  intros H. unfold py_div. destruct b; cbn in *; try reflexivity.
  unfold Reqb. destruct (Req_EM_T r 0) as [->|]; [|reflexivity].
  rewrite Rleb_true in H by lra. discriminate.
Qed.

Lemma initial_state_fun m x0 y y' : initial_state m x0 y -> initial_state m x0 y' -> y = y'.
Proof.
  intros [du d E1 E2 E3|du d h E1 E2 E3 E4] [du' d' E1' E2' E3'|du' d' h' E1' E2' E3' E4'];
    try congruence; rewrite E2 in E2'; injection E2' as <-; congruence.
Qed.

Lemma solve_cases m x0 x1 l : nu_ok m ->
  solve_case m x0 x1 l (fst (solve m x0 x1 l)) (snd (solve m x0 x1 l)).
Proof.
  intros HN. unfold CoreModel.solve, ic_set_nu. unfold nu_ok in HN. rewrite HN.
  set (c1 := {| ic_du := ic_du (m_ic m); ic_nu := m_nu m; ic_body_of := ic_body_of (m_ic m) |}).
  change (q_du_e (set_ic m c1) x0) with (q_du_e m x0).
  destruct (q_du_e m x0) as [du|e] eqn:EU.
  2:{ apply (sc_early m x0 x1 l c1 e); [|reflexivity]. intros y [du d Ek E|du d h Ek E]; congruence. }
  set (c2 := ic_set_du (m_ic (set_ic m c1)) (Fin du)).
  change (set_ic (set_ic m c1) c2) with (set_ic m c2).
  assert (EC : c2 = {| ic_du := Fin du; ic_nu := m_nu m; ic_body_of := ic_body_of (m_ic m) |})
    by reflexivity.
  assert (HS : (exists y0, ode_setup (set_ic m c2) = Ok y0 /\ initial_state m x0 y0) \/
               (exists e, ode_setup (set_ic m c2) = Err e /\ forall y0, ~ initial_state m x0 y0)).
  { unfold ode_setup. cbn [m_kind m_ic m_nu set_ic]. rewrite EC.
    assert (NI : forall e, ic_delta_m {| ic_du := Fin du; ic_nu := m_nu m;
        ic_body_of := ic_body_of (m_ic m) |} = Err e -> forall y0, ~ initial_state m x0 y0).
    { intros e Ee y0 [du' d' E1' E2' E3'|du' d' h' E1' E2' E3' E4'];
        rewrite EU in E2'; injection E2' as <-; congruence. }
    destruct (m_kind m) eqn:EK.
    1,2: (destruct (ic_delta_m _) as [d|e] eqn:ED; cbn [bind];
      [left; rewrite py_div_nonzero by exact HN; eexists; split; [reflexivity|];
       apply (initial_state_thwaites m x0 du d); [congruence|exact EU|exact ED]
      |right; exists e; split; [reflexivity|apply (NI e); reflexivity]]).
    destruct (ic_delta_m _) as [d|e] eqn:ED; cbn [bind];
      [|right; exists e; split; [reflexivity|apply (NI e); reflexivity]].
    destruct (ic_shape_d _) as [h|e] eqn:EH; cbn [bind].
    - left. eexists; split; [reflexivity|].
      apply (initial_state_head m x0 du d h); assumption.
    - right. exists e. split; [reflexivity|].
      intros y0 [du' d' E1' E2' E3'|du' d' h' E1' E2' E3' E4'];
        rewrite EU in E2'; injection E2' as <-; congruence. }
  destruct HS as [[y0 [-> HI]]|[e [-> HI]]].
  2:{ apply (sc_early m x0 x1 l c2 e); [exact HI|reflexivity]. }
  set (m3 := add_kill_events (set_ic m c2) l).
  change (m_events m3) with (m_events m ++ l).
  change (map (fun e => (ev_terminal e, event_value m3 e)) (m_events m ++ l))
    with (ivp_events m (m_events m ++ l)).
  change (ode_impl m3) with (ode_impl m).
  destruct (solve_ivp (ode_impl m) x0 x1 y0 (ivp_events m (m_events m ++ l))) as [r|e] eqn:ES.
  - apply (sc_done m x0 x1 l c2 y0 r); [exact HI|reflexivity|exact ES].
  - apply (sc_raise m x0 x1 l c2 y0 e); [exact HI|reflexivity|exact ES].
Qed.

(** C10 *)
Lemma last_t_last l x d : last_t l = Ok x -> l <> [] /\ last l d = x.
Proof.
  unfold last_t. intros H. destruct (rev l) as [|y r] eqn:E; [discriminate|].
  injection H as <-. assert (l = rev r ++ [y]) as -> by
    (rewrite <- (rev_involutive l), E; reflexivity).
  split; [destruct (rev r); discriminate|apply last_last].
Qed.

Lemma first_event_in te evs x e : first_event te evs = Ok (Some (x, e)) -> In e evs.
Proof.
  revert evs. induction te as [|[|y ys] te IH]; intros evs H; cbn in H; try discriminate.
  - apply IH in H. destruct evs; cbn in H; [exact H|right; exact H].
  - destruct evs; [discriminate|]. injection H as <- <-. left; reflexivity.
Qed.

Lemma solve_reports_lemma m x0 x1 l m' ir : nu_ok m ->
  solve m x0 x1 l = (m', Ok ir) ->
  exists y0 r, initial_state m x0 y0 /\
    solve_ivp (ode_impl m) x0 x1 y0 (ivp_events m (m_events m ++ l)) = Ok r /\
    ir_success ir = r_success r /\
    (r_success r = true -> r_status r = 0%Z ->
       ir_status ir = REACHED_END /\ r_t r <> [] /\ ir_x_end ir = last (r_t r) 0 /\
       ir_f_end ir = r_sol r (ir_x_end ir)) /\
    (r_success r = false ->
       ir_status ir = UNKNOWN /\ ir_x_end ir = x0 /\ ir_f_end ir = y0) /\
    (ir_status ir = REACHED_END -> (forall e, In e (m_events m ++ l) -> ev_reason e <> REACHED_END) ->
       r_status r = 0%Z).
Proof.
  intros HN H. pose proof (solve_cases m x0 x1 l HN) as C. rewrite H in C. cbn [fst snd] in C.
  inversion C as [| |c y0 r HI HB HS E1 E2]; subst.
  exists y0, r. split; [exact HI|]. split; [exact HS|].
  unfold gather in E2. destruct (r_success r) eqn:ES.
  2:{ injection E2 as <-. cbn. repeat split; try congruence. }
  destruct (Z.eqb_spec (r_status r) 0) as [E0|E0].
  { destruct (last_t (r_t r)) as [x|] eqn:EL; [|discriminate]. cbn [bind] in E2.
    injection E2 as <-. cbn. destruct (last_t_last _ _ 0 EL) as [L1 L2].
    repeat split; try congruence. }
  destruct (Z.eqb_spec (r_status r) 1) as [E1|E1].
  2:{ injection E2 as <-. cbn. repeat split; try congruence. }
  destruct (first_event (r_t_events r) (m_events m ++ l)) as [[[x e]|]|] eqn:EF;
    cbn [bind] in E2; try discriminate.
  - injection E2 as <-. cbn. repeat split; try congruence.
    intros Hr HE. exfalso. apply (HE e); [|exact Hr]. eapply first_event_in; exact EF.
  - injection E2 as <-. cbn. repeat split; try congruence.
Qed.

Lemma finish_message_full st msg : finish_message st msg = full_message st msg.
Proof. destruct msg; destruct st; reflexivity. Qed.

Lemma first_event_spec te evs x e : first_event te evs = Ok (Some (x, e)) ->
  exists i t, nth_error te i = Some (x :: t) /\ nth_error evs i = Some e /\
    forall j, (j < i)%nat -> nth_error te j = Some [].
Proof.
  revert evs. induction te as [|[|y ys] te IH]; intros evs H; cbn in H; try discriminate.
  - destruct (IH _ H) as (i & t & H1 & H2 & H3). exists (S i), t. split; [exact H1|].
    split; [destruct evs; [destruct i; discriminate|exact H2]|].
    intros [|j] Hj; [reflexivity|]. apply H3. lia.
  - destruct evs; [discriminate|]. injection H as <- <-. exists 0%nat, ys.
    split; [reflexivity|]. split; [reflexivity|]. intros j Hj. lia.
Qed.

Lemma first_event_none te evs : first_event te evs = Ok None -> Forall (fun t => t = []) te.
Proof.
  revert evs. induction te as [|[|y ys] te IH]; intros evs H; cbn in H; [constructor| |].
  - constructor; [reflexivity|]. eapply IH; exact H.
  - destruct evs; discriminate.
Qed.

(** C11, C12: everything the result says, by the integrator's answer. *)
Lemma result_details_lemma m x0 x1 l m' ir : nu_ok m ->
  solve m x0 x1 l = (m', Ok ir) ->
  exists y0 r, initial_state m x0 y0 /\
    solve_ivp (ode_impl m) x0 x1 y0 (ivp_events m (m_events m ++ l)) = Ok r /\
    (r_success r = false -> ir_message ir = full_message UNKNOWN (r_message r)) /\
    (r_success r = true -> r_status r = 0%Z ->
       ir_message ir = full_message REACHED_END "") /\
    (r_success r = true -> r_status r = 1%Z ->
       (exists i e x t,
          nth_error (m_events m ++ l) i = Some e /\ nth_error (r_t_events r) i = Some (x :: t) /\
          (forall j, (j < i)%nat -> nth_error (r_t_events r) j = Some []) /\
          ir_x_end ir = x /\ ir_f_end ir = r_sol r x /\ ir_status ir = ev_reason e /\
          ir_message ir = full_message (ev_reason e) (ev_message e)) \/
       (Forall (fun t => t = []) (r_t_events r) /\ ir_x_end ir = x0 /\ ir_f_end ir = y0 /\
          ir_status ir = UNKNOWN /\
          ir_message ir = full_message UNKNOWN "Event not found.")) /\
    (r_success r = true -> r_status r <> 0%Z -> r_status r <> 1%Z ->
       ir_x_end ir = x0 /\ ir_f_end ir = y0 /\ ir_status ir = UNKNOWN /\
       ir_message ir = full_message UNKNOWN (r_message r)).
Proof.
  intros HN H. pose proof (solve_cases m x0 x1 l HN) as C. rewrite H in C. cbn [fst snd] in C.
  inversion C as [| |c y0 r HI HB HS E1 E2]; subst.
  exists y0, r. split; [exact HI|]. split; [exact HS|].
  unfold gather in E2. destruct (r_success r) eqn:ES.
  2:{ injection E2 as <-. cbn [ir_message]. rewrite finish_message_full.
      repeat split; try discriminate; intros; reflexivity. }
  destruct (Z.eqb_spec (r_status r) 0) as [E0|E0].
  { destruct (last_t (r_t r)) as [x|] eqn:EL; [|discriminate]. cbn [bind] in E2.
    injection E2 as <-. cbn [ir_message]. rewrite finish_message_full.
    repeat split; try congruence; intros; try reflexivity; try congruence. }
  destruct (Z.eqb_spec (r_status r) 1) as [E1|E1].
  2:{ injection E2 as <-. cbn [ir_message ir_x_end ir_f_end ir_status].
      rewrite finish_message_full.
      repeat split; try discriminate; try congruence; intros; try reflexivity; try congruence. }
  destruct (first_event (r_t_events r) (m_events m ++ l)) as [[[x e]|]|] eqn:EF;
    cbn [bind] in E2; try discriminate;
    injection E2 as <-; cbn [ir_message ir_x_end ir_f_end ir_status];
    rewrite finish_message_full;
    (split; [discriminate|]); (split; [congruence|]); (split; [intros _ _|congruence]).
  - left. destruct (first_event_spec _ _ _ _ EF) as (i & t & H1 & H2 & H3).
    exists i, e, x, t. repeat split; assumption.
  - right. split; [eapply first_event_none; exact EF|]. repeat split.
Qed.

(** C12 *)
Lemma message_lemma m x0 x1 l m' ir : solve m x0 x1 l = (m', Ok ir) ->
  exists rest, ir_message ir = (status_name (ir_status ir) ++ rest)%string /\
    ir_message ir <> ""%string /\
    (rest = ""%string \/ exists t, rest = (": " ++ t)%string /\ t <> ""%string).
Proof.
  assert (N : forall st s, (status_name st ++ s)%string <> ""%string) by (intros []; discriminate).
  assert (F : forall st msg, exists rest, finish_message st msg = (status_name st ++ rest)%string /\
     finish_message st msg <> ""%string /\
     (rest = ""%string \/ exists t, rest = (": " ++ t)%string /\ t <> ""%string)).
  { intros st msg. unfold finish_message. change (reason_str st) with (status_name st).
    destruct (Nat.ltb_spec 0 (String.length msg)).
    - exists (": " ++ msg)%string. split; [reflexivity|]. split; [apply N|].
      right. exists msg. split; [reflexivity|]. intros ->. cbn in *. lia.
    - exists ""%string. assert (A : forall s, (s ++ "")%string = s).
      { clear. induction s; cbn; [reflexivity|rewrite IHs; reflexivity]. }
      rewrite A. split; [reflexivity|]. split; [destruct st; discriminate|left; reflexivity]. }
  intros H. unfold CoreModel.solve in H.
  destruct (ic_set_nu (m_ic m) (m_nu m)) as [c [u|e]]; [|discriminate].
  destruct (q_du_e (set_ic m c) x0) as [du|e]; [|discriminate].
  destruct (ode_setup _) as [y0|e]; [|discriminate].
  destruct (solve_ivp _ _ _ _ _) as [r|e]; [|discriminate].
  injection H as _ H. unfold gather in H.
  destruct (r_success r).
  2:{ injection H as <-. apply F. }
  destruct (Z.eqb (r_status r) 0).
  { destruct (last_t (r_t r)); cbn [bind] in H; [|discriminate]. injection H as <-. apply F. }
  destruct (Z.eqb (r_status r) 1).
  2:{ injection H as <-. apply F. }
  destruct (first_event _ _) as [[[x e]|]|]; cbn [bind] in H; try discriminate;
    injection H as <-; apply F.
Qed.

(** C11 *)
Lemma first_event_unique te evs i x : List.length te = List.length evs ->
  nth_error te i = Some [x] ->
  (forall j l, nth_error te j = Some l -> j <> i -> l = []) ->
  exists e, nth_error evs i = Some e /\ first_event te evs = Ok (Some (x, e)).
Proof.
  revert evs i. induction te as [|t te IH]; intros evs i HL HI HO; [destruct i; discriminate|].
  destruct evs as [|e evs]; [discriminate|]. destruct i as [|i].
  - injection HI as ->. exists e. split; reflexivity.
  - assert (t = []) as -> by (apply (HO 0%nat); [reflexivity|discriminate]).
    cbn [first_event tl nth_error]. apply IH; [cbn in HL; lia|exact HI|].
    intros j l Hj Hne. apply (HO (S j)); [exact Hj|lia].
Qed.

Lemma event_attribution_lemma m x0 x1 l m' ir :
  ivp_contract -> nu_ok m ->
  Forall (fun e => ev_terminal e = true) (m_events m ++ l) ->
  solve m x0 x1 l = (m', Ok ir) ->
  exists y0 r, solve_ivp (ode_impl m) x0 x1 y0 (ivp_events m (m_events m ++ l)) = Ok r /\
  (r_status r = 1%Z -> exists i e x,
     nth_error (m_events m ++ l) i = Some e /\ nth_error (r_t_events r) i = Some [x] /\
     (forall j t, nth_error (r_t_events r) j = Some t -> j <> i -> t = []) /\
     ir_x_end ir = x /\ ir_f_end ir = r_sol r x /\ ir_status ir = ev_reason e /\
     ir_message ir = full_message (ev_reason e) (ev_message e)).
Proof.
  intros [K1 K2 K3 K4] HN HT H. pose proof (solve_cases m x0 x1 l HN) as C.
  rewrite H in C. cbn [fst snd] in C.
  inversion C as [| |c y0 r HI HB HS E1 E2]; subst.
  exists y0, r. split; [exact HS|]. intros E1.
  pose proof (K1 _ _ _ _ _ _ HS) as S1. rewrite E1 in S1. cbn in S1.
  destruct (K4 _ _ _ _ _ _ HS E1) as (i & x & Hi & Ho).
  { unfold ivp_events. rewrite Forall_map. exact HT. }
  pose proof (K3 _ _ _ _ _ _ HS) as HL. unfold ivp_events in HL. rewrite map_length in HL.
  destruct (first_event_unique _ _ i x HL Hi Ho) as (e & He & HF).
  exists i, e, x. split; [exact He|]. split; [exact Hi|]. split; [exact Ho|].
  unfold gather in E2. rewrite S1, E1, HF in E2. cbn [Z.eqb bind] in E2.
  cbn in E2. injection E2 as <-. cbn.
  repeat split. apply finish_message_full.
Qed.

(* ------------------------------------------------------------------ *)
(** * Event list (C14) *)



Lemma step_events m o : is_config o = false -> (forall x0 x1 l, o <> OpSolve x0 x1 l) ->
  m_events (fst (step m o)) = m_events m.
Proof.
  intros H1 H2. destruct o; try discriminate; cbn [CoreSpec.step].
  - unfold set_nu, no_result. destruct (xleb v (Fin 0)); reflexivity.
  - apply (set_velocity_frame pchip m u du d2u).
  - reflexivity.
  - unfold set_initial_delta_m, no_result. destruct (xleb v (Fin 0)); reflexivity.
  - unfold set_initial_shape_d, no_result. destruct (m_kind m); try reflexivity.
    destruct (xleb v (Fin 0)); [reflexivity|]. destruct (get_initial_delta_m m); reflexivity.
  - exfalso. eapply H2; reflexivity.
Qed.

Lemma events_history_lemma m h r : nu_ok m ->
  Forall (fun o => is_config o = false) h -> events_added m h r ->
  m_events (run m h) = m_events m ++ r.
Proof.
  intros HN HC HE. induction HE.
  - symmetry. apply app_nil_r.
  - inversion HC; subst. rewrite run_cons, IHHE by (try apply step_nu; assumption).
    rewrite app_assoc. f_equal. cbn [CoreSpec.step fst].
    pose proof (solve_cases m x0 x1 l HN) as C. inversion C; subst; try reflexivity.
    match goal with K : forall y0, ~ initial_state m x0 y0 |- _ => exfalso; eapply K; exact H end.
  - inversion HC; subst. rewrite run_cons, IHHE by (try apply step_nu; assumption).
    f_equal. cbn [CoreSpec.step fst].
    pose proof (solve_cases m x0 x1 l HN) as C. inversion C; subst; try reflexivity;
    exfalso; eapply H; eassumption.
  - inversion HC; subst. rewrite run_cons, IHHE by (try apply step_nu; assumption).
    f_equal. apply step_events; assumption.
Qed.

Lemma initial_state_dec m x0 : nu_ok m ->
  (exists y0, initial_state m x0 y0) \/ (forall y0, ~ initial_state m x0 y0).
Proof.
  intros HN. destruct (solve_cases m x0 0 [] HN).
  - right; assumption.
  - left; eauto.
  - left; eauto.
Qed.

Lemma events_added_total m h : nu_ok m -> exists r, events_added m h r.
Proof.
  revert m. induction h as [|o h IH]; intros m HN; [exists []; constructor|].
  destruct (IH (fst (step m o)) (step_nu m o HN)) as [r Hr].
  destruct o as [v|u du d2u|c|v|v|a|v|x0 x1 l];
    try (exists r; apply ea_other; [discriminate|exact Hr]).
  destruct (initial_state_dec m x0 HN) as [[y0 Hy]|Hn].
  - exists (l ++ r). eapply ea_solve; eassumption.
  - exists r. apply ea_solve_not; assumption.
Qed.

(** What a configuration call installs. *)
Lemma config_events m a m' : m_kind m <> Head ->
  set_data_fits cubic_spline m a = (m', Ok tt) ->
  exists f, choose_fit cubic_spline a = Ok f /\ m_fit m' = Some f /\ m_events m' = [thwaites_event f].
Proof.
  intros _ H. unfold set_data_fits in H. destruct (choose_fit cubic_spline a) as [f|]; [|discriminate].
  injection H as <-. exists f. repeat split.
Qed.

(** C72: the separation event always looks at the fit in force. *)
Definition event_fit_ok (m : meth) : Prop :=
  m_kind m <> Head -> exists f rest, m_fit m = Some f /\ m_events m = thwaites_event f :: rest.
Lemma created_event_fit m : created m -> event_fit_ok m.
Proof.
  intros [linear nu u du d2u a m0 H|nu u du d2u crit m0 H].
  - unfold new_thwaites in H. destruct (new_base pchip _ nu u du d2u _) as [m1|] eqn:E; [|discriminate].
    unfold set_data_fits in H. destruct (choose_fit cubic_spline a) as [f|]; [|discriminate].
    injection H as <-. intros _. exists f, []. split; reflexivity.
  - intros HK. exfalso. apply HK.
    unfold new_head in H. destruct (new_base pchip Head nu u du d2u _) as [m1|] eqn:E; [|discriminate].
    injection H as <-. cbn. clear HK. unfold new_base in E.
    destruct (new_fs (Fin 0) nu) as [fs|]; [|discriminate].
    destruct u; try (destruct du; try discriminate; destruct d2u; try discriminate;
                     injection E as <-; reflexivity);
    match type of E with context [CoreModel.set_velocity pchip ?m0 ?u ?a ?b] =>
      pose proof (set_velocity_frame pchip m0 u a b) as F;
      destruct (CoreModel.set_velocity pchip m0 u a b) as [m2 [|]]; [|discriminate] end;
    injection E as <-; destruct F as [F _]; cbn in *; exact F.
Qed.
Lemma step_event_fit m o : nu_ok m -> event_fit_ok m -> event_fit_ok (fst (step m o)).
Proof.
  intros HN H. unfold event_fit_ok. rewrite step_kind. intros HK.
  destruct (H HK) as (f & rest & E1 & E2).
  destruct o; cbn [CoreSpec.step].
  - unfold set_nu, no_result. destruct (xleb v (Fin 0)); exists f, rest; auto.
  - exists f, rest. destruct (set_velocity_frame pchip m u du d2u) as (_ & _ & _ & F1 & F2 & _).
    cbn. rewrite F1, F2. auto.
  - exists f, rest; auto.
  - unfold set_initial_delta_m, no_result. destruct (xleb v (Fin 0)); exists f, rest; auto.
  - destruct (m_kind m); try (exists f, rest; auto; fail). congruence.
  - destruct (m_kind m) eqn:EK; try congruence;
    unfold no_result, set_data_fits;
    (destruct (choose_fit cubic_spline a) as [g|];
      [exists g, []; split; reflexivity|exists f, rest; auto]).
  - destruct (m_kind m); try (exists f, rest; auto; fail). congruence.
  - cbn [fst]. pose proof (solve_cases m x0 x_end l HN) as C.
    inversion C; subst; cbn; [exists f, rest; auto| |];
      exists f, (rest ++ l); (split; [exact E1|rewrite E2; reflexivity]).
Qed.
Lemma event_fit_history m h : created m -> m_kind m <> Head ->
  exists f rest, m_fit (run m h) = Some f /\ m_events (run m h) = thwaites_event f :: rest.
Proof.
  intros HC. assert (HN := created_nu m HC). apply created_event_fit in HC. revert m HC HN.
  induction h as [|o h IH]; intros m HC HN HK; [exact (HC HK)|].
  rewrite run_cons. apply IH.
  - apply step_event_fit; assumption.
  - apply step_nu. exact HN.
  - rewrite step_kind. exact HK.
Qed.

Lemma separation_event_lemma m h : created m -> m_kind m <> Head ->
  let s := run m h in
  exists f e rest, m_fit s = Some f /\ m_events s = e :: rest /\
    ev_reason e = SEPARATED /\ ev_terminal e = true /\ ev_message e = ""%string /\
    forall x y du, q_du_e s x = Ok du ->
      event_value s e x [Fin y] = Ok (shear f (Fin (y * du))).
Proof.
  intros HC HK s. destruct (event_fit_history m h HC HK) as (f & rest & E1 & E2).
  exists f, (thwaites_event f), rest. repeat split; try assumption.
  intros x y du Hd. unfold event_value, thwaites_event, calc_lambda. cbn [ev_src].
  rewrite Hd. reflexivity.
Qed.

(* ------------------------------------------------------------------ *)
(** * Solution availability (C15) *)

Lemma gather_ok x0 y0 evs r :
  (r_status r = 0%Z -> r_t r <> []) -> List.length (r_t_events r) = List.length evs ->
  exists ir, gather x0 y0 evs r = Ok ir /\ ir_success ir = r_success r.
Proof.
  intros H1 H2. unfold gather. destruct (r_success r); [|eexists; split; reflexivity].
  destruct (Z.eqb_spec (r_status r) 0) as [E0|E0].
  - destruct (last_t (r_t r)) as [x|e] eqn:E; [eexists; split; reflexivity|].
    exfalso. unfold last_t in E. destruct (rev (r_t r)) eqn:ER; [|discriminate].
    apply (H1 E0). rewrite <- (rev_involutive (r_t r)), ER. reflexivity.
  - destruct (Z.eqb (r_status r) 1); [|eexists; split; reflexivity].
    assert (exists o, first_event (r_t_events r) evs = Ok o) as [o ->].
    { clear -H2. revert evs H2. induction (r_t_events r) as [|t te IH]; intros evs H2;
        [eexists; reflexivity|]. destruct evs as [|e evs]; [discriminate|].
      destruct t; [apply (IH evs); cbn in H2; lia|eexists; reflexivity]. }
    cbn [bind]. destruct o as [[x e]|]; eexists; split; reflexivity.
Qed.

Lemma step_sol m o : (forall x0 x1 l, o <> OpSolve x0 x1 l) -> m_sol (fst (step m o)) = m_sol m.
Proof.
  intros H2. destruct o; cbn [CoreSpec.step].
  - unfold set_nu, no_result. destruct (xleb v (Fin 0)); reflexivity.
  - apply (set_velocity_frame pchip m u du d2u).
  - reflexivity.
  - unfold set_initial_delta_m, no_result. destruct (xleb v (Fin 0)); reflexivity.
  - unfold set_initial_shape_d, no_result. destruct (m_kind m); try reflexivity.
    destruct (xleb v (Fin 0)); [reflexivity|]. destruct (get_initial_delta_m m); reflexivity.
  - unfold set_data_fits, no_result. destruct (m_kind m); try reflexivity;
      destruct (choose_fit cubic_spline a); reflexivity.
  - destruct (m_kind m); reflexivity.
  - exfalso. eapply H2; reflexivity.
Qed.

Lemma created_sol m : created m -> m_sol m = None.
Proof.
  assert (B : forall k nu u du d2u c m, new_base pchip k nu u du d2u c = Ok m -> m_sol m = None).
  { clear. intros k nu u du d2u c m H. unfold new_base in H.
    destruct (new_fs (Fin 0) nu) as [fs|]; [|discriminate].
    destruct u; try (destruct du; try discriminate; destruct d2u; try discriminate;
                     injection H as <-; reflexivity);
    match type of H with context [CoreModel.set_velocity pchip ?m0 ?u ?a ?b] =>
      pose proof (set_velocity_frame pchip m0 u a b) as F;
      destruct (CoreModel.set_velocity pchip m0 u a b) as [m1 [|]]; [|discriminate] end;
    injection H as <-; destruct F as (_ & _ & _ & _ & _ & F); cbn in *; exact F. }
  intros [linear nu u du d2u a m0 H|nu u du d2u crit m0 H].
  - unfold new_thwaites in H. destruct (new_base pchip _ nu u du d2u _) eqn:E; [|discriminate].
    apply B in E. unfold set_data_fits in H. destruct (choose_fit cubic_spline a); [|discriminate].
    injection H as <-. exact E.
  - unfold new_head in H. destruct (new_base pchip _ nu u du d2u _) eqn:E; [|discriminate].
    apply B in E. injection H as <-. exact E.
Qed.

Lemma last_solve_app t1 t2 : last_solve (t1 ++ t2) =
  match last_solve t2 with Some v => Some v | None => last_solve t1 end.
Proof.
  unfold last_solve. rewrite fold_left_app.
  match goal with |- context [fold_left ?f t1 None] => generalize (fold_left f t1 None) end.
  induction t2 as [|[o r] t IH] using rev_ind; intros acc; [reflexivity|].
  rewrite !fold_left_app. cbn [fold_left].
  destruct o; try apply IH. destruct r as [[ir|]|]; try apply IH. reflexivity.
Qed.

(** The solution is present exactly when the last completed solve succeeded. *)
Lemma sol_history m h : ivp_contract -> created m ->
  (m_sol (run m h) = None <-> last_solve (trace m h) <> Some true).
Proof.
  intros [K1 K2 K3 K4] HC. assert (HN := created_nu m HC). apply created_sol in HC.
  induction h as [|o h IH] using rev_ind.
  - split; [discriminate|intros _; exact HC].
  - rewrite trace_app, run_app, last_solve_app.
    assert (HN' : nu_ok (run m h)).
    { clear -HN. revert m HN. induction h as [|o h IH]; intros m HN; [exact HN|].
      rewrite run_cons. apply IH, step_nu, HN. }
    set (s := run m h) in *. unfold CoreSpec.run. cbn [fold_left CoreSpec.trace].
    destruct o as [v|u du d2u|c|v|v|a|v|x0 x1 l];
      try (rewrite step_sol by discriminate; exact IH).
    cbn [CoreSpec.step fst snd].
    pose proof (solve_cases s x0 x1 l HN') as C.
    inversion C as [c e Hn Hb E1 E2|c y0 e Hi Hb Hs E1 E2|c y0 r Hi Hb Hs E1 E2].
    + exact IH.
    + exact IH.
    + destruct (gather_ok x0 y0 (m_events s ++ l) r) as [ir [EG ES]].
      * intros E. eapply K2; eassumption.
      * rewrite (K3 _ _ _ _ _ _ Hs). unfold ivp_events. apply map_length.
      * rewrite EG. cbn [last_solve fold_left]. rewrite ES. cbn [m_sol set_sol].
        destruct (r_success r); split; congruence.
Qed.

Lemma queries_without_solution m x rho : m_sol m = None ->
  q_delta_m m x = Err ValueError /\ q_delta_d m x = Err ValueError /\
  q_shape_d m x = Err ValueError /\ q_shape_k m x = Err ValueError /\
  q_v_e m x = Err ValueError /\ q_tau_w_thwaites m x rho = Err ValueError.
Proof.
  intros H. unfold q_delta_m, q_delta_d, q_shape_d, q_shape_k, q_v_e, q_tau_w_thwaites,
    q_delta_k, q_delta_m, sol_at. rewrite H. repeat split.
Qed.

Lemma queries_before_solve_lemma m h x rho : ivp_contract -> created m ->
  last_solve (trace m h) <> Some true ->
  q_delta_m (run m h) x = Err ValueError /\ q_delta_d (run m h) x = Err ValueError /\
  q_shape_d (run m h) x = Err ValueError /\ q_shape_k (run m h) x = Err ValueError /\
  q_v_e (run m h) x = Err ValueError /\ q_tau_w_thwaites (run m h) x rho = Err ValueError.
Proof.
  intros K HC HL. apply queries_without_solution. apply (sol_history m h K HC). exact HL.
Qed.

(* ------------------------------------------------------------------ *)
(** * The start of an integration (C16, C30, C40) *)

Lemma stagnation_start_lemma m x0 nu d y0 :
  ic_body_of (m_ic m) = FSStag -> m_nu m = Fin nu -> 0 < nu ->
  q_du_e m x0 = Ok d -> 0 < d -> initial_state m x0 y0 ->
  y0 = match m_kind m with
       | Head => [Fin (sqrt (nu * (29235/100000) * (123259/100000) / ((22162/10000 + 2) * d)));
                  Fin (22162/10000)]
       | _ => [Fin ((29235/100000) * (123259/100000) / ((22162/10000 + 2) * d))]
       end.
Proof.
  intros HB HNu Hnu HD Hd HI.
  assert (E : ic_delta_m {| ic_du := Fin d; ic_nu := m_nu m; ic_body_of := ic_body_of (m_ic m) |}
    = Ok (Fin (sqrt (nu * (29235/100000) * (123259/100000) / ((22162/10000 + 2) * d))))).
  { rewrite HB, HNu. unfold ic_delta_m. cbn [ic_body_of ic_nu ic_du].
    unfold fs_eta_m, fs_fpp0, fs_shape_d. rewrite !xmul_fin, !xadd_fin, !xmul_fin.
    assert (0 < (22162/10000 + 2) * d) by nra.
    rewrite py_div_fin by lra. cbn [bind]. rewrite xsqrt_fin; [reflexivity|].
    apply Rlt_le, Rdiv_lt_0_compat; nra. }
  destruct HI as [du d' E1 E2 E3|du d' h E1 E2 E3 E4]; rewrite HD in E2; injection E2 as <-;
    rewrite E in E3; injection E3 as <-.
  - destruct (m_kind m); try congruence; f_equal;
    rewrite HNu, xmul_fin, xdiv_fin by lra; f_equal;
    (rewrite sqrt_sqrt; [field; lra|apply Rlt_le, Rdiv_lt_0_compat; nra]).
  - rewrite HB in E4. cbn in E4. injection E4 as <-. rewrite E1. reflexivity.
Qed.

Lemma step_body m o : nu_ok m -> edits_condition o = false ->
  ic_body_of (m_ic (fst (step m o))) = ic_body_of (m_ic m).
Proof.
  intros HN H. destruct o; try discriminate; cbn [CoreSpec.step].
  - unfold set_nu, no_result. destruct (xleb v (Fin 0)); reflexivity.
  - destruct (set_velocity_frame pchip m u du d2u) as (_ & _ & F & _). cbn. rewrite F. reflexivity.
  - unfold set_data_fits, no_result. destruct (m_kind m); try reflexivity;
      destruct (choose_fit cubic_spline a); reflexivity.
  - destruct (m_kind m); reflexivity.
  - cbn [fst]. pose proof (solve_cases m x0 x_end l HN) as C. inversion C; subst; assumption.
Qed.
Lemma run_body m h : nu_ok m -> Forall (fun o => edits_condition o = false) h ->
  ic_body_of (m_ic (run m h)) = ic_body_of (m_ic m) /\ m_kind (run m h) = m_kind m /\
  nu_ok (run m h).
Proof.
  revert m. induction h as [|o h IH]; intros m HN HF; [auto|].
  inversion HF; subst. rewrite run_cons.
  destruct (IH (fst (step m o)) (step_nu m o HN)) as [E1 [E2 E3]]; [assumption|].
  rewrite E1, E2, step_body, step_kind by assumption. auto.
Qed.

Lemma initial_delta_m_lemma m dd dm dk d m' h x0 y0 nu :
  nu_ok m -> ic_body_of (m_ic m) = Manual dd dm dk ->
  step m (OpInitialDeltaM (Fin d)) = (m', Ok None) ->
  Forall (fun o => edits_condition o = false) h ->
  m_nu (run m' h) = Fin nu -> 0 < nu ->
  initial_state (run m' h) x0 y0 ->
  match m_kind m with
  | Head => hd NaN y0 = Fin d
  | _ => y0 = [Fin (d * d / nu)]
  end.
Proof.
  intros HN HB HS HF Hnu Hp HI.
  assert (E : ic_body_of (m_ic m') = Manual dd (Fin d) dk /\ m_kind m' = m_kind m /\ nu_ok m').
  { cbn [CoreSpec.step] in HS. unfold set_initial_delta_m, no_result in HS.
    destruct (xleb (Fin d) (Fin 0)); [discriminate|]. injection HS as <-. cbn.
    unfold ic_assign_del_m. rewrite HB. auto. }
  destruct E as [E1 [E2 E3]].
  destruct (run_body m' h E3 HF) as [B1 [B2 B3]]. rewrite E1 in B1. rewrite E2 in B2.
  rewrite <- B2.
  destruct HI as [du d' K1 K2 K3|du d' hh K1 K2 K3 K4]; rewrite B1 in K3; cbn in K3;
    injection K3 as <-.
  - destruct (m_kind (run m' h)); try congruence;
      rewrite Hnu, xmul_fin, xdiv_fin by lra; reflexivity.
  - rewrite K1. reflexivity.
Qed.
Lemma initial_delta_m_rejected_lemma m v : xleb v (Fin 0) = true ->
  step m (OpInitialDeltaM v) = (m, Err ValueError).
Proof.
  intros H. cbn [CoreSpec.step]. unfold set_initial_delta_m, no_result. rewrite H. reflexivity.
Qed.
(** With the stagnation condition the assignment is accepted and has no effect. *)
Lemma initial_delta_m_stagnation_lemma m d : ic_body_of (m_ic m) = FSStag -> 0 < d ->
  step m (OpInitialDeltaM (Fin d)) = (m, Ok None).
Proof.
  intros H Hd. cbn [CoreSpec.step]. unfold set_initial_delta_m, no_result. cbn [xleb].
  rewrite Rleb_false by exact Hd. cbn. unfold ic_assign_del_m. rewrite H. destruct m; reflexivity.
Qed.

(** C40 *)
Lemma head_start_order_lemma m dd dm dk d s m1 m2 h x0 y0 :
  nu_ok m -> m_kind m = Head -> ic_body_of (m_ic m) = Manual dd dm dk ->
  step m (OpInitialDeltaM (Fin d)) = (m1, Ok None) ->
  step m1 (OpInitialShapeD (Fin s)) = (m2, Ok None) ->
  Forall (fun o => edits_condition o = false) h ->
  initial_state (run m2 h) x0 y0 -> y0 = [Fin d; Fin s].
Proof.
  intros HN HK HB H1 H2 HF HI.
  cbn [CoreSpec.step] in H1. unfold set_initial_delta_m, no_result in H1.
  destruct (xleb (Fin d) (Fin 0)) eqn:Ed; [discriminate|]. injection H1 as <-.
  cbn [xleb] in Ed. assert (Hd : 0 < d).
  { destruct (Rle_lt_dec d 0) as [L|L]; [|exact L]. rewrite Rleb_true in Ed by exact L. discriminate. }
  cbn [CoreSpec.step m_kind set_ic fst snd] in H2. rewrite HK in H2.
  unfold set_initial_shape_d, no_result in H2. destruct (xleb (Fin s) (Fin 0)); [discriminate|].
  unfold get_initial_delta_m, ic_delta_m in H2.
  cbn [m_ic set_ic] in H2. unfold ic_assign_del_m in H2. rewrite HB in H2.
  cbn [ic_body_of] in H2. injection H2 as <-.
  match type of HI with initial_state (run ?mm h) _ _ =>
    destruct (run_body mm h) as [B1 [B2 B3]]; [exact HN|exact HF|];
    set (M := run mm h) in *; clearbody M end.
  assert (B1' : ic_body_of (m_ic M) = Manual (Fin (s * d)) (Fin d) dk) by (rewrite B1; cbn; reflexivity).
  clear B1; rename B1' into B1. change (m_kind M = m_kind m) in B2. rewrite HK in B2.
  destruct HI as [du d' K1 K2 K3|du d' hh K1 K2 K3 K4].
  - rewrite B2 in K1. congruence.
  - rewrite B1 in K3, K4. cbn in K3. injection K3 as <-.
    unfold ic_shape_d in K4. cbn [ic_body_of] in K4.
    rewrite py_div_fin in K4 by lra. injection K4 as <-.
    f_equal. f_equal. f_equal. field. lra.
Qed.
(** The other order: the shape factor that integration starts from. *)
Lemma head_start_reverse_lemma m dd d0 dk d s m1 m2 h x0 y0 :
  nu_ok m -> m_kind m = Head -> ic_body_of (m_ic m) = Manual dd (Fin d0) dk ->
  step m (OpInitialShapeD (Fin s)) = (m1, Ok None) ->
  step m1 (OpInitialDeltaM (Fin d)) = (m2, Ok None) ->
  Forall (fun o => edits_condition o = false) h ->
  initial_state (run m2 h) x0 y0 -> y0 = [Fin d; Fin (s * d0 / d)].
Proof.
  intros HN HK HB H1 H2 HF HI.
  cbn [CoreSpec.step] in H1. rewrite HK in H1.
  unfold set_initial_shape_d, no_result in H1. destruct (xleb (Fin s) (Fin 0)); [discriminate|].
  unfold get_initial_delta_m, ic_delta_m, ic_assign_del_d in H1. rewrite HB in H1.
  injection H1 as <-.
  cbn [CoreSpec.step] in H2. unfold set_initial_delta_m, no_result in H2.
  destruct (xleb (Fin d) (Fin 0)) eqn:Ed; [discriminate|]. injection H2 as <-.
  cbn [xleb] in Ed. assert (Hd : 0 < d).
  { destruct (Rle_lt_dec d 0) as [L|L]; [|exact L]. rewrite Rleb_true in Ed by exact L. discriminate. }
  match type of HI with initial_state (run ?mm h) _ _ =>
    destruct (run_body mm h) as [B1 [B2 B3]]; [exact HN|exact HF|];
    set (M := run mm h) in *; clearbody M end.
  assert (B1' : ic_body_of (m_ic M) = Manual (Fin (s * d0)) (Fin d) dk) by (rewrite B1; cbn; reflexivity).
  clear B1; rename B1' into B1. change (m_kind M = m_kind m) in B2. rewrite HK in B2.
  destruct HI as [du d' K1 K2 K3|du d' hh K1 K2 K3 K4].
  - rewrite B2 in K1. congruence.
  - rewrite B1 in K3, K4. cbn in K3. injection K3 as <-.
    unfold ic_shape_d in K4. cbn [ic_body_of] in K4.
    rewrite py_div_fin in K4 by lra. injection K4 as <-. reflexivity.
Qed.

(** C39 *)
Lemma head_event_history nu u du d2u crit m h :
  new_head pchip nu u du d2u crit = Ok m ->
  exists rest, m_events (run m h) = head_sep_event (crit_after crit h) :: rest.
Proof.
  intros H.
  assert (HN : nu_ok m) by (apply created_nu; eapply created_head; exact H).
  assert (HK : m_kind m = Head /\ exists rest, m_events m = head_sep_event crit :: rest).
  { assert (event_fit_ok m) as _ by (apply created_event_fit; eapply created_head; exact H).
    unfold new_head in H. destruct (new_base pchip Head nu u du d2u _) as [m1|] eqn:E; [|discriminate].
    injection H as <-. split; [|exists []; reflexivity]. cbn. unfold new_base in E.
    destruct (new_fs (Fin 0) nu) as [fs|]; [|discriminate].
    destruct u; try (destruct du; try discriminate; destruct d2u; try discriminate;
                     injection E as <-; reflexivity);
    match type of E with context [CoreModel.set_velocity pchip ?m0 ?u ?a ?b] =>
      pose proof (set_velocity_frame pchip m0 u a b) as F;
      destruct (CoreModel.set_velocity pchip m0 u a b) as [m2 [|]]; [|discriminate] end;
    injection E as <-; destruct F as [F _]; cbn in *; exact F. }
  clear H. destruct HK as [HK HE]. revert m crit HN HK HE.
  induction h as [|o h IH]; intros m crit HN HK HE; [exact HE|].
  rewrite run_cons. cbn [crit_after fold_left]. apply IH.
  - apply step_nu. exact HN.
  - rewrite step_kind. exact HK.
  - destruct HE as [rest HE]. destruct o as [v|u' du' d2u'|c|v|v|a|v|x0 x1 l];
      try (exists rest; rewrite step_events by (try reflexivity; discriminate); exact HE).
    + cbn [CoreSpec.step]. rewrite HK. exists rest. exact HE.
    + cbn [CoreSpec.step]. rewrite HK. exists []. reflexivity.
    + cbn [CoreSpec.step fst]. pose proof (solve_cases m x0 x1 l HN) as C.
      inversion C; subst; cbn; rewrite HE; eexists; reflexivity.
Qed.

Lemma head_event_sign m c d h x : exists v,
  event_value m (head_sep_event (Fin c)) x [d; Fin h] = Ok (Fin v) /\
  (0 < v <-> h < c) /\ (v = 0 <-> h = c) /\ (v < 0 <-> c < h).
Proof. exists (c - h). split; [reflexivity|]. repeat split; lra. Qed.

Lemma head_event_lemma nu u du d2u crit m h :
  new_head pchip nu u du d2u crit = Ok m ->
  let s := run m h in
  exists e rest, m_events s = e :: rest /\
    ev_reason e = SEPARATED /\ ev_terminal e = true /\ ev_message e = ""%string /\
    forall c x d shape, crit_after crit h = Fin c ->
      exists v, event_value s e x [d; Fin shape] = Ok (Fin v) /\
        (0 < v <-> shape < c) /\ (v = 0 <-> shape = c) /\ (v < 0 <-> c < shape).
Proof.
  intros H s. destruct (head_event_history _ _ _ _ _ _ h H) as [rest E].
  exists (head_sep_event (crit_after crit h)), rest. repeat split; try assumption.
  intros c x d shape ->. apply head_event_sign.
Qed.

(* ------------------------------------------------------------------ *)
(** * set_data_fits, solution after failure (C71, C74) *)

Lemma data_fits_atomic_lemma m a m' e :
  set_data_fits cubic_spline m a = (m', Err e) -> m' = m /\ e = ValueError.
Proof.
  unfold set_data_fits. destruct (choose_fit cubic_spline a) eqn:E; [discriminate|].
  intros H. injection H as <- <-. split; [reflexivity|].
  unfold choose_fit in E.
  repeat match type of E with context [match ?x with _ => _ end] => destruct x; try discriminate end;
    congruence.
Qed.

Lemma failed_solve_keeps_solution m x0 x1 l m' e : ivp_contract -> nu_ok m ->
  solve m x0 x1 l = (m', Err e) -> m_sol m' = m_sol m.
Proof.
  intros [K1 K2 K3 K4] HN H. pose proof (solve_cases m x0 x1 l HN) as C. rewrite H in C.
  cbn [fst snd] in C. inversion C as [| |c y0 r Hi Hb Hs E1 E2]; subst; try reflexivity.
  exfalso. destruct (gather_ok x0 y0 (m_events m ++ l) r) as [ir [EG _]].
  - intros E. eapply K2; eassumption.
  - rewrite (K3 _ _ _ _ _ _ Hs). unfold ivp_events. apply map_length.
  - congruence.
Qed.

(* ------------------------------------------------------------------ *)
(** * Insulation (C17, the true part) *)

Lemma head_insulated_lemma m h x : m_kind m = Head ->
  Forall (fun o => is_solve o = false) h ->
  q_delta_m (run m h) x = q_delta_m m x /\ q_shape_d (run m h) x = q_shape_d m x /\
  q_delta_d (run m h) x = q_delta_d m x.
Proof.
  intros HK HF.
  assert (E : m_sol (run m h) = m_sol m /\ m_kind (run m h) = m_kind m).
  { revert m HK. induction h as [|o h IH]; intros m HK; [auto|]. inversion HF; subst.
    rewrite run_cons. destruct (IH H2 (fst (step m o))) as [E1 E2]; [rewrite step_kind; exact HK|].
    rewrite E1, E2, step_kind, step_sol; [auto|]. intros x0 x1 l ->. discriminate. }
  destruct E as [E1 E2]. unfold q_delta_d, q_delta_m, q_shape_d, sol_at.
  rewrite E1, E2, HK. auto.
Qed.
Lemma step_nu_field m o : is_nu o = false -> m_nu (fst (step m o)) = m_nu m.
Proof.
  intros H. destruct o; try discriminate; cbn [CoreSpec.step].
  - apply (set_velocity_frame pchip m u du d2u).
  - reflexivity.
  - unfold set_initial_delta_m, no_result. destruct (xleb v (Fin 0)); reflexivity.
  - unfold set_initial_shape_d, no_result. destruct (m_kind m); try reflexivity.
    destruct (xleb v (Fin 0)); [reflexivity|]. destruct (get_initial_delta_m m); reflexivity.
  - unfold set_data_fits, no_result. destruct (m_kind m); try reflexivity;
      destruct (choose_fit cubic_spline a); reflexivity.
  - destruct (m_kind m); reflexivity.
  - apply solve_nu.
Qed.
Lemma thwaites_delta_m_insulated_lemma m h x :
  Forall (fun o => is_solve o = false /\ is_nu o = false) h ->
  q_delta_m (run m h) x = q_delta_m m x.
Proof.
  intros HF.
  assert (E : m_sol (run m h) = m_sol m /\ m_kind (run m h) = m_kind m /\ m_nu (run m h) = m_nu m).
  { revert m. induction h as [|o h IH]; intros m; [auto|]. inversion HF as [|? ? [Ha Hb] Hc]; subst.
    rewrite run_cons. destruct (IH Hc (fst (step m o))) as [E1 [E2 E3]].
    rewrite E1, E2, E3, step_kind, step_sol, step_nu_field; auto. intros x0 x1 l ->. discriminate. }
  destruct E as [E1 [E2 E3]]. unfold q_delta_m, sol_at. rewrite E1, E2, E3. reflexivity.
Qed.

(* ------------------------------------------------------------------ *)
(** * The fit in force (C31), constructing with a velocity (C73) *)

Lemma fit_history m h linear nu u du d2u a :
  new_thwaites pchip cubic_spline linear nu u du d2u a = Ok m ->
  exists f, choose_fit cubic_spline (fits_after a (trace m h)) = Ok f /\ m_fit (run m h) = Some f.
Proof.
  intros H.
  assert (HK : m_kind m <> Head).
  { unfold new_thwaites in H. destruct (new_base pchip _ nu u du d2u _) as [m1|] eqn:E; [|discriminate].
    assert (K : m_kind m1 = if linear then ThwaitesLinear else ThwaitesNonlinear).
    { clear H. unfold new_base in E. destruct (new_fs (Fin 0) nu) as [fs|]; [|discriminate].
      destruct u; try (destruct du; try discriminate; destruct d2u; try discriminate;
                     injection E as <-; reflexivity);
      match type of E with context [CoreModel.set_velocity pchip ?m0 ?u ?a ?b] =>
        pose proof (set_velocity_frame pchip m0 u a b) as F;
        destruct (CoreModel.set_velocity pchip m0 u a b) as [m2 [|]]; [|discriminate] end;
      injection E as <-; destruct F as [F _]; cbn in *; exact F. }
    unfold set_data_fits in H. destruct (choose_fit cubic_spline a); [|discriminate].
    injection H as <-. cbn. rewrite K. destruct linear; discriminate. }
  assert (HF : exists f, choose_fit cubic_spline a = Ok f /\ m_fit m = Some f).
  { unfold new_thwaites in H. destruct (new_base pchip _ nu u du d2u _) as [m1|]; [|discriminate].
    unfold set_data_fits in H. destruct (choose_fit cubic_spline a) as [f|]; [|discriminate].
    injection H as <-. exists f. split; reflexivity. }
  clear H. revert m a HK HF. induction h as [|o h IH]; intros m a HK HF; [exact HF|].
  rewrite run_cons. cbn [CoreSpec.trace]. cbn [fits_after fold_left].
  assert (HK' : m_kind (fst (step m o)) <> Head) by (rewrite step_kind; exact HK).
  destruct HF as (f & HF1 & HF2).
  apply IH; [exact HK'|].
  assert (Keep : m_fit (fst (step m o)) = m_fit m ->
    exists f, choose_fit cubic_spline a = Ok f /\ m_fit (fst (step m o)) = Some f).
  { intros ->. exists f. auto. }
  destruct o as [v|u' du' d2u'|c|v|v|b|v|x0 x1 l]; try (apply Keep).
  - cbn [CoreSpec.step]. unfold set_nu, no_result. destruct (xleb v (Fin 0)); reflexivity.
  - apply (set_velocity_frame pchip m u' du' d2u').
  - reflexivity.
  - cbn [CoreSpec.step]. unfold set_initial_delta_m, no_result. destruct (xleb v (Fin 0)); reflexivity.
  - cbn [CoreSpec.step]. unfold set_initial_shape_d, no_result. destruct (m_kind m); try reflexivity.
    destruct (xleb v (Fin 0)); [reflexivity|]. destruct (get_initial_delta_m m); reflexivity.
  - cbn [CoreSpec.step].
    destruct (m_kind m); try congruence; unfold no_result, set_data_fits;
      (destruct (choose_fit cubic_spline b) as [g|] eqn:EG;
       [exists g; split; [exact EG|reflexivity]|exists f; split; [exact HF1|exact HF2]]).
  - cbn [CoreSpec.step]. destruct (m_kind m); reflexivity.
  - apply solve_fit.
Qed.

Lemma custom2_exact_lemma s h a0 a1 a2 a3 a4 x :
  (forall t, h (Fin t) = Fin (a0 + a1*t + a2*t^2 + a3*t^3 + a4*t^4)) ->
  shape_p (fit_custom2 s h) (Fin x) = Fin (a1 + 2*a2*x + 3*a3*x^2 + 4*a4*x^3).
Proof.
  intros Hh.
  assert (S : forall t, shape (fit_custom2 s h) (Fin t) =
            Fin (a0 + a1*t + a2*t^2 + a3*t^3 + a4*t^4)) by (intros t; apply Hh).
  change (shape_fd (fit_custom2 s h) (Fin x) = Fin (a1 + 2*a2*x + 3*a3*x^2 + 4*a4*x^3)).
  unfold shape_fd. rewrite !xmul_fin, !xsub_fin, !xadd_fin, !S, !xsub_fin, !xmul_fin.
  rewrite !xdiv_fin by lra. rewrite !xsub_fin. rewrite xdiv_fin by lra. f_equal. field.
Qed.

Lemma set_velocity_local m1 m2 u du d2u : slots m1 = slots m2 ->
  slots (fst (set_velocity m1 u du d2u)) = slots (fst (set_velocity m2 u du d2u)) /\
  snd (set_velocity m1 u du d2u) = snd (set_velocity m2 u du d2u).
Proof.
  intros E. unfold slots in E. injection E as E1 E2 E3.
  assert (C : forall c du d2u,
    slots (fst (set_velocity_callable m1 c du d2u)) = slots (fst (set_velocity_callable m2 c du d2u)) /\
    snd (set_velocity_callable m1 c du d2u) = snd (set_velocity_callable m2 c du d2u)).
  { intros c du0 d2u0. unfold set_velocity_callable, slots.
    destruct du0; destruct d2u0;
    repeat match goal with |- context [match ?x with _ => _ end] => destruct x end;
    cbn; rewrite ?E1, ?E2, ?E3; auto. }
  destruct u; cbn [CoreModel.set_velocity]; try apply C;
    unfold set_velocity_scalar, set_velocity_points;
    repeat match goal with |- context [match ?x with _ => _ end] => destruct x; try apply C end;
    unfold slots; cbn; rewrite ?E1, ?E2, ?E3; auto.
Qed.

Lemma meth_eq m1 m2 : slots m1 = slots m2 -> same_but_slots m1 m2 -> m1 = m2.
Proof.
  destruct m1, m2. unfold slots, same_but_slots. cbn. intros E (F1 & F2 & F3 & F4 & F5 & F6).
  congruence.
Qed.

Lemma construct_then_set_lemma u du d2u m : u <> PNone ->
  (forall linear nu a,
     new_thwaites pchip cubic_spline linear nu u du d2u a = Ok m <->
     exists m0, new_thwaites pchip cubic_spline linear nu PNone PNone PNone a = Ok m0 /\
       set_velocity m0 u du d2u = (m, Ok tt)) /\
  (forall nu crit,
     new_head pchip nu u du d2u crit = Ok m <->
     exists m0, new_head pchip nu PNone PNone PNone crit = Ok m0 /\
       set_velocity m0 u du d2u = (m, Ok tt)).
Proof.
  intros Hu.
  assert (B : forall k nu c mm, new_base pchip k nu u du d2u c = Ok mm <->
     exists m0, new_base pchip k nu PNone PNone PNone c = Ok m0 /\
       set_velocity m0 u du d2u = (mm, Ok tt)).
  { intros k nu c mm. unfold new_base. destruct (new_fs (Fin 0) nu) as [fs|e].
    2:{ split; [discriminate|intros (m0 & E & _); discriminate]. }
    set (m0 := {| m_kind := k; m_nu := nu; m_u := None; m_du := None; m_d2u := None;
                  m_ic := fs; m_fit := None; m_events := []; m_sol := None |}).
    assert (Q : (match set_velocity m0 u du d2u with
                 | (m1, Ok _) => Ok (set_initial_condition m1 c)
                 | (_, Err e) => Err e end = Ok mm) <->
                set_velocity (set_initial_condition m0 c) u du d2u = (mm, Ok tt)).
    { destruct (set_velocity_local m0 (set_initial_condition m0 c) u du d2u eq_refl) as [L1 L2].
      pose proof (set_velocity_frame pchip m0 u du d2u) as F1.
      pose proof (set_velocity_frame pchip (set_initial_condition m0 c) u du d2u) as F2.
      destruct (set_velocity m0 u du d2u) as [m1 [[]|e1]];
      destruct (set_velocity (set_initial_condition m0 c) u du d2u) as [m2 [[]|e2]];
        cbn [fst snd] in *; try discriminate.
      - assert (EQ : set_initial_condition m1 c = m2).
        { apply meth_eq; [exact L1|].
          destruct F1 as (A1 & A2 & A3 & A4 & A5 & A6), F2 as (G1 & G2 & G3 & G4 & G5 & G6).
          cbn in *. unfold same_but_slots. cbn. repeat split; congruence. }
        rewrite EQ. split; congruence.
      - split; congruence. }
    destruct u; try congruence; rewrite Q; (split; [intros HQ; eexists; split; [reflexivity|exact HQ]|
       intros (m' & Em & HQ); injection Em as <-; exact HQ]). }
  assert (Post : forall m0 g, slots (g m0) = slots m0 ->
    (forall x, slots (g x) = slots x) ->
    (forall x y, same_but_slots x y -> same_but_slots (g x) (g y)) ->
    forall mm, (exists m1, set_velocity m0 u du d2u = (m1, Ok tt) /\ g m1 = mm) <->
               set_velocity (g m0) u du d2u = (mm, Ok tt)).
  { intros m0 g E1 E2 E3 mm.
    destruct (set_velocity_local (g m0) m0 u du d2u E1) as [L1 L2].
    pose proof (set_velocity_frame pchip m0 u du d2u) as F1.
    pose proof (set_velocity_frame pchip (g m0) u du d2u) as F2.
    destruct (set_velocity m0 u du d2u) as [m1 [[]|e1]];
    destruct (set_velocity (g m0) u du d2u) as [m2 [[]|e2]]; cbn [fst snd] in *; try discriminate.
    - assert (EQ : g m1 = m2).
      { apply meth_eq; [rewrite E2; congruence|].
        specialize (E3 _ _ F1).
        destruct E3 as (A1 & A2 & A3 & A4 & A5 & A6), F2 as (G1 & G2 & G3 & G4 & G5 & G6).
        unfold same_but_slots. repeat split; congruence. }
      rewrite <- EQ. split; [intros (m' & Em & <-); congruence|].
      intros Em. injection Em as <-. exists m1. auto.
    - split; [intros (m' & Em & _); discriminate|discriminate]. }
  split.
  - intros linear nu a. unfold new_thwaites.
    set (k := if linear then ThwaitesLinear else ThwaitesNonlinear).
    set (c := new_manual (Fin 0) PInf (Fin 0)).
    specialize (B k nu c). unfold set_data_fits.
    destruct (choose_fit cubic_spline a) as [f|ef].
    2:{ split.
        - destruct (new_base pchip k nu u du d2u c); discriminate.
        - intros (m0 & E & _). destruct (new_base pchip k nu PNone PNone PNone c); discriminate. }
    set (g := fun x => set_kill_event (set_fit x (Some f)) (thwaites_event f)).
    assert (G1 : forall x, slots (g x) = slots x) by (intros; reflexivity).
    assert (G2 : forall x y, same_but_slots x y -> same_but_slots (g x) (g y)).
    { intros x y (A1 & A2 & A3 & A4 & A5 & A6). unfold same_but_slots. cbn. auto 6. }
    split.
    + destruct (new_base pchip k nu u du d2u c) as [mm|] eqn:E; [|discriminate].
      intros H. injection H as H. destruct (proj1 (B mm) eq_refl) as (m0 & -> & HV).
      exists (g m0). split; [reflexivity|]. apply (Post m0 g (G1 m0) G1 G2). exists mm. auto.
    + intros (m0 & E & HV).
      destruct (new_base pchip k nu PNone PNone PNone c) as [mb|]; [|discriminate].
      injection E as <-. apply (Post mb g (G1 mb) G1 G2) in HV. destruct HV as (m1 & HV & <-).
      rewrite (proj2 (B m1)); [reflexivity|]. exists mb. auto.
  - intros nu crit. unfold new_head. set (c := new_manual PInf PInf (Fin 0)).
    specialize (B Head nu c).
    set (g := fun x => set_shape_d_critical x crit).
    assert (G1 : forall x, slots (g x) = slots x) by (intros; reflexivity).
    assert (G2 : forall x y, same_but_slots x y -> same_but_slots (g x) (g y)).
    { intros x y (A1 & A2 & A3 & A4 & A5 & A6). unfold same_but_slots. cbn. auto 6. }
    split.
    + destruct (new_base pchip Head nu u du d2u c) as [mm|] eqn:E; [|discriminate].
      intros H. injection H as H. destruct (proj1 (B mm) eq_refl) as (m0 & -> & HV).
      exists (g m0). split; [reflexivity|]. apply (Post m0 g (G1 m0) G1 G2). exists mm. auto.
    + intros (m0 & E & HV).
      destruct (new_base pchip Head nu PNone PNone PNone c) as [mb|]; [|discriminate].
      injection E as <-. apply (Post mb g (G1 mb) G1 G2) in HV. destruct HV as (m1 & HV & <-).
      rewrite (proj2 (B m1)); [reflexivity|]. exists mb. auto.
Qed.


Lemma custom2_fit_lemma s h a0 a1 a2 a3 a4 x :
  (forall t, h (Fin t) = Fin (a0 + a1*t + a2*t^2 + a3*t^3 + a4*t^4)) ->
  exists f, choose_fit cubic_spline (FTup [Some s; Some h]) = Ok f /\
    (forall t, shape f (Fin t) = h (Fin t)) /\ (forall t, shear f (Fin t) = s (Fin t)) /\
    shape_p f (Fin x) = Fin (a1 + 2*a2*x + 3*a3*x^2 + 4*a4*x^3).
Proof.
  intros Hh. exists (fit_custom2 s h). split; [reflexivity|]. split; [reflexivity|].
  split; [reflexivity|]. apply custom2_exact_lemma with (a0 := a0). exact Hh.
Qed.

Lemma fit_choice_lemma :
  (forall n f, choose_fit cubic_spline (FName n) = Ok f <->
     (n = "Spline"%string /\ f = fit_spline cubic_spline) \/ (n = "White"%string /\ f = fit_white) \/
     (n = "Cebeci-Bradshaw"%string /\ f = fit_cb) \/ (n = "Drela"%string /\ f = fit_drela)) /\
  (forall l f, choose_fit cubic_spline (FTup l) = Ok f ->
     exists s h, firstn 2 l = [Some s; Some h] /\
       (forall t, shear f (Fin t) = s (Fin t)) /\ (forall t, shape f (Fin t) = h (Fin t)) /\
       (l = [Some s; Some h] \/ exists hp, l = [Some s; Some h; Some hp] /\
          forall t, shape_p f (Fin t) = hp (Fin t))) /\
  (forall l, (exists s h, l = [Some s; Some h] \/ exists hp, l = [Some s; Some h; Some hp]) ->
     exists f, choose_fit cubic_spline (FTup l) = Ok f).
Proof.
  split; [|split].
  - intros n f. cbn [choose_fit].
    destruct (String.eqb_spec n "Spline"%string) as [->|N1];
      [split; [intros E; injection E as <-; auto|
        intros [[_ ->]|[[E _]|[[E _]|[E _]]]]; [reflexivity|discriminate..]]|].
    destruct (String.eqb_spec n "White"%string) as [->|N2];
      [split; [intros E; injection E as <-; auto|
        intros [[E _]|[[_ ->]|[[E _]|[E _]]]]; try discriminate; reflexivity]|].
    destruct (String.eqb_spec n "Cebeci-Bradshaw"%string) as [->|N3];
      [split; [intros E; injection E as <-; auto|
        intros [[E _]|[[E _]|[[_ ->]|[E _]]]]; try discriminate; reflexivity]|].
    destruct (String.eqb_spec n "Drela"%string) as [->|N4];
      [split; [intros E; injection E as <-; auto 6|
        intros [[E _]|[[E _]|[[E _]|[_ ->]]]]; try discriminate; reflexivity]|].
    split; [discriminate|]. intros [[E _]|[[E _]|[[E _]|[E _]]]]; contradiction.
  - intros l f E. destruct l as [|[s|] [|[h|] [|[hp|] [|? ?]]]]; try discriminate.
    + cbn [choose_fit] in E. injection E as <-. exists s, h. repeat split. left. reflexivity.
    + cbn [choose_fit] in E. injection E as <-. exists s, h. repeat split. right. exists hp.
      split; reflexivity.
  - intros l [s [h [->|[hp ->]]]]; eexists; reflexivity.
Qed.

Lemma config_step_events m :
  (forall a m', m_kind m <> Head -> step m (OpFits a) = (m', Ok None) ->
     exists f, choose_fit cubic_spline a = Ok f /\ m_events m' = [thwaites_event f]) /\
  (forall c m', m_kind m = Head -> step m (OpCritical c) = (m', Ok None) ->
     m_events m' = [head_sep_event c]).
Proof.
  split.
  - intros a m' HK H. cbn [CoreSpec.step] in H.
    destruct (m_kind m); try congruence; unfold no_result, set_data_fits in H;
      destruct (choose_fit cubic_spline a) as [f|]; try discriminate; injection H as <-;
      exists f; split; reflexivity.
  - intros c m' HK H. cbn [CoreSpec.step] in H. rewrite HK in H. injection H as <-. reflexivity.
Qed.

End CoreH.
