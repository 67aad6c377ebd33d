From Coq Require Import Reals List String Bool ZArith Lra Lia.
From Coquelicot Require Import Coquelicot.
From Verif Require Import PyBase PyBaseFacts FiniteDiffModel FiniteDiffProofs PPolyModel
  PPolyProofs InitialConditionModel ThwaitesFitsModel HeadModel CoreModel CoreSpec.
Import ListNotations.
Open Scope R_scope.

Section Core.
Variable pchip : ndarray -> ndarray -> res ppoly.
Variable cubic_spline : list R -> list R -> (xr -> xr) * (xr -> xr).
Variable solve_ivp :
  (R -> list xr -> res (list xr)) -> R -> R -> list xr ->
  list (bool * (R -> list xr -> res xr)) -> res ivp_result.

Notation set_velocity := (set_velocity pchip).
Notation solve := (solve solve_ivp).
Notation step := (step pchip cubic_spline solve_ivp).
Notation run := (run pchip cubic_spline solve_ivp).
Notation trace := (trace pchip cubic_spline solve_ivp).
Notation created := (created pchip cubic_spline).
Notation profile := (profile pchip).

(* ------------------------------------------------------------------ *)
(** * Which fields each call can change *)

Definition slots (m : meth) := (m_u m, m_du m, m_d2u m).

(** Everything but the three velocity slots. *)
Definition same_but_slots (a b : meth) : Prop :=
  m_kind a = m_kind b /\ m_nu a = m_nu b /\ m_ic a = m_ic b /\ m_fit a = m_fit b /\
  m_events a = m_events b /\ m_sol a = m_sol b.

Lemma set_velocity_frame m u du d2u : same_but_slots (fst (set_velocity m u du d2u)) m.
Proof.
  assert (R0 : forall m, same_but_slots m m) by (intros; repeat split).
  assert (C : forall c du d2u, same_but_slots (fst (set_velocity_callable m c du d2u)) m).
  { clear. intros c du d2u. unfold set_velocity_callable.
    destruct du; destruct d2u; try (repeat split; fail);
    repeat match goal with |- context [match ?x with _ => _ end] => destruct x end;
    repeat split. }
  unfold CoreModel.set_velocity. destruct u; try apply C;
    unfold set_velocity_scalar, set_velocity_points;
    repeat match goal with |- context [match ?x with _ => _ end] => destruct x end;
    try apply R0; try apply C; repeat split.
Qed.

Lemma solve_slots m x0 x1 l : slots (fst (solve m x0 x1 l)) = slots m.
Proof.
  unfold CoreModel.solve.
  repeat match goal with |- context [match ?x with _ => _ end] => destruct x end;
  reflexivity.
Qed.
Lemma solve_kind m x0 x1 l : m_kind (fst (solve m x0 x1 l)) = m_kind m.
Proof.
  unfold CoreModel.solve.
  repeat match goal with |- context [match ?x with _ => _ end] => destruct x end;
  reflexivity.
Qed.
Lemma solve_nu m x0 x1 l : m_nu (fst (solve m x0 x1 l)) = m_nu m.
Proof.
  unfold CoreModel.solve.
  repeat match goal with |- context [match ?x with _ => _ end] => destruct x end;
  reflexivity.
Qed.
Lemma solve_fit m x0 x1 l : m_fit (fst (solve m x0 x1 l)) = m_fit m.
Proof.
  unfold CoreModel.solve.
  repeat match goal with |- context [match ?x with _ => _ end] => destruct x end;
  reflexivity.
Qed.

Definition is_velocity (o : op) : bool := match o with OpVelocity _ _ _ => true | _ => false end.

Lemma step_slots m o : is_velocity o = false -> slots (fst (step m o)) = slots m.
Proof.
  destruct o; cbn [is_velocity]; intros H; try discriminate; cbn [CoreSpec.step].
  - unfold set_nu, no_result. destruct (xleb v (Fin 0)); reflexivity.
  - reflexivity.
  - unfold set_initial_delta_m, no_result. destruct (xleb v (Fin 0)); reflexivity.
  - unfold set_initial_shape_d, no_result.
    destruct (m_kind m); try reflexivity.
    destruct (xleb v (Fin 0)); [reflexivity|]. destruct (get_initial_delta_m m); reflexivity.
  - unfold set_data_fits, no_result. destruct (m_kind m); try reflexivity;
      destruct (choose_fit cubic_spline a); reflexivity.
  - destruct (m_kind m); reflexivity.
  - apply solve_slots.
Qed.

Lemma step_kind m o : m_kind (fst (step m o)) = m_kind m.
Proof.
  destruct o; cbn [CoreSpec.step].
  - unfold set_nu, no_result. destruct (xleb v (Fin 0)); reflexivity.
  - apply (set_velocity_frame m u du d2u).
  - reflexivity.
  - unfold set_initial_delta_m, no_result. destruct (xleb v (Fin 0)); reflexivity.
  - unfold set_initial_shape_d, no_result.
    destruct (m_kind m) eqn:E; try exact E.
    destruct (xleb v (Fin 0)); [exact E|]. destruct (get_initial_delta_m m); exact E.
  - unfold set_data_fits, no_result. destruct (m_kind m) eqn:E; try exact E;
      destruct (choose_fit cubic_spline a); exact E.
  - destruct (m_kind m) eqn:E; exact E.
  - apply solve_kind.
Qed.

(* ------------------------------------------------------------------ *)
(** * Velocities *)

(** Slots that stand for a profile. *)
Lemma answers_slots m1 m2 u du d2u :
  slots m1 = slots m2 -> answers m1 u du d2u -> answers m2 u du d2u.
Proof.
  unfold slots. intros E H x. injection E as E1 E2 E3.
  destruct (H x) as [H1 [H2 H3]].
  unfold q_u_e, q_du_e, q_d2u_e, call_du, call_d2u, du_fun in *.
  rewrite <- E1, <- E2, <- E3. auto.
Qed.

Lemma set_velocity_profile m u du d2u m' :
  set_velocity m u du d2u = (m', Ok tt) ->
  exists fu fdu fd2u, profile u du d2u fu fdu fd2u /\ answers m' fu fdu fd2u.
Proof.
  assert (SP : forall p m', set_velocity_callable m (callable_of_ppoly p) PNone PNone = (m', Ok tt) ->
    answers m' (pp_eval p) (fun x => Ok (pp_eval (pp_derivative p) x))
      (fun x => Ok (pp_eval (pp_derivative (pp_derivative p)) x))).
  { intros p m1 H. injection H as <-. intros x. repeat split. }
  unfold CoreModel.set_velocity. intros H. destruct u as [|c|u0|a|l|].
  - (* PNone *) discriminate.
  - (* callable *)
    unfold set_velocity_callable in H. destruct du as [|dc|du0|da|dl|]; try discriminate.
    + destruct d2u; try discriminate.
      destruct (c_deriv c) as [d|] eqn:Ed.
      * destruct (d 1%nat) as [d1|e1] eqn:E1; [|discriminate].
        destruct (d 2%nat) as [d2|e2] eqn:E2; [|discriminate].
        injection H as <-. do 3 eexists. split.
        { eapply profile_derivative_method; eassumption. }
        intros x. repeat split.
      * injection H as <-. do 3 eexists. split; [apply profile_plain; exact Ed|].
        intros x. repeat split.
    + destruct d2u as [|d2c|z|z|z|].
      * destruct (c_deriv dc) as [d|] eqn:Ed.
        -- destruct (d 1%nat) as [d1|e1] eqn:E1; [|discriminate].
           injection H as <-. do 3 eexists. split.
           { eapply profile_du_derivative_method; eassumption. }
           intros x. repeat split.
        -- injection H as <-. do 3 eexists. split; [apply profile_du_plain; exact Ed|].
           intros x. repeat split.
      * injection H as <-. do 3 eexists. split; [apply profile_all|]. intros x. repeat split.
      * injection H as <-. do 3 eexists. split; [apply profile_bad_d2u; discriminate|].
        intros x. repeat split.
      * injection H as <-. do 3 eexists. split; [apply profile_bad_d2u; discriminate|].
        intros x. repeat split.
      * injection H as <-. do 3 eexists. split; [apply profile_bad_d2u; discriminate|].
        intros x. repeat split.
      * injection H as <-. do 3 eexists. split; [apply profile_bad_d2u; discriminate|].
        intros x. repeat split.
  - (* scalar *)
    unfold set_velocity_scalar in H.
    destruct (py_len du) as [[|[|[|n]]]|e] eqn:EL; try discriminate.
    destruct (py_item du 0) as [xi|e0] eqn:E0; cbn [bind] in H; [|discriminate].
    destruct (py_item du 1) as [yi|e1] eqn:E1; cbn [bind] in H;
      [|destruct (np_asarray xi); discriminate].
    destruct (np_asarray xi) as [xa|ex] eqn:EX; [|discriminate].
    destruct (np_asarray yi) as [ya|ey] eqn:EY; [|discriminate].
    destruct (pchip xa ya) as [p|ep] eqn:EP; [|discriminate].
    injection H as <-. do 3 eexists. split; [eapply profile_scalar; eassumption|].
    intros x. repeat split.
  - (* array *)
    unfold set_velocity_points in H.
    destruct (py_len (PArr a)) as [[|[|[|n]]]|e] eqn:EL; try discriminate.
    destruct (py_item (PArr a) 0) as [xi|e0] eqn:E0; cbn [bind] in H; [|discriminate].
    destruct (py_item (PArr a) 1) as [yi|e1] eqn:E1; cbn [bind] in H;
      [|destruct (np_asarray xi); discriminate].
    destruct (np_asarray xi) as [xa|ex] eqn:EX; [|discriminate].
    destruct (np_asarray yi) as [ya|ey] eqn:EY; [|discriminate].
    destruct (nd_shape xa) as [|npts xrest] eqn:ES; [discriminate|].
    destruct xrest; [|discriminate]. cbn [List.length Nat.eqb negb] in H.
    destruct (nd_shape ya) as [|n2 yrest] eqn:ES2; [discriminate|].
    destruct yrest; [|discriminate]. cbn [List.length Nat.eqb negb hd] in H.
    destruct (Nat.eqb_spec npts n2) as [<-|]; [|discriminate]. cbn [negb] in H.
    destruct (Nat.ltb_spec npts 2) as [|HN]; [discriminate|].
    destruct (pchip xa ya) as [p|ep] eqn:EP; [|discriminate].
    do 3 eexists. split; [eapply profile_points; eassumption|]. apply SP. exact H.
  - unfold set_velocity_points in H.
    destruct (py_len (PTup l)) as [[|[|[|n]]]|e] eqn:EL; try discriminate.
    destruct (py_item (PTup l) 0) as [xi|e0] eqn:E0; cbn [bind] in H; [|discriminate].
    destruct (py_item (PTup l) 1) as [yi|e1] eqn:E1; cbn [bind] in H;
      [|destruct (np_asarray xi); discriminate].
    destruct (np_asarray xi) as [xa|ex] eqn:EX; [|discriminate].
    destruct (np_asarray yi) as [ya|ey] eqn:EY; [|discriminate].
    destruct (nd_shape xa) as [|npts xrest] eqn:ES; [discriminate|].
    destruct xrest; [|discriminate]. cbn [List.length Nat.eqb negb] in H.
    destruct (nd_shape ya) as [|n2 yrest] eqn:ES2; [discriminate|].
    destruct yrest; [|discriminate]. cbn [List.length Nat.eqb negb hd] in H.
    destruct (Nat.eqb_spec npts n2) as [<-|]; [|discriminate]. cbn [negb] in H.
    destruct (Nat.ltb_spec npts 2) as [|HN]; [discriminate|].
    destruct (pchip xa ya) as [p|ep] eqn:EP; [|discriminate].
    do 3 eexists. split; [eapply profile_points; eassumption|]. apply SP. exact H.
  - discriminate.
Qed.

(** The specification is a function of the arguments. *)
Lemma profile_deterministic u du d2u f1 g1 h1 f2 g2 h2 x :
  profile u du d2u f1 g1 h1 -> profile u du d2u f2 g2 h2 ->
  f1 x = f2 x /\ g1 x = g2 x /\ h1 x = h2 x.
Proof.
  intros A B. destruct A; inversion B; subst;
    try congruence; try (repeat split; congruence);
    try (exfalso; eauto; congruence).
  all: try (match goal with H : c_deriv ?c = Some ?d, H' : c_deriv ?c = Some ?d' |- _ =>
              rewrite H in H'; injection H' as <- end).
  all: try (repeat match goal with H : ?e = Ok ?a, H' : ?e = Ok ?b |- _ =>
              rewrite H in H'; injection H' as <- end; repeat split; congruence).
  all: try (cbn in *; discriminate).
Qed.

Lemma run_app m h1 h2 : run m (h1 ++ h2) = run (run m h1) h2.
Proof. unfold CoreSpec.run. apply fold_left_app. Qed.
Lemma run_cons m o h : run m (o :: h) = run (fst (step m o)) h.
Proof. reflexivity. Qed.
Lemma trace_app m h1 h2 : trace m (h1 ++ h2) = trace m h1 ++ trace (run m h1) h2.
Proof.
  revert m. induction h1 as [|o h IH]; intros m; [reflexivity|].
  cbn [app CoreSpec.trace]. rewrite IH. reflexivity.
Qed.
Lemma last_velocity_app h1 h2 : last_velocity (h1 ++ h2) =
  match last_velocity h2 with Some v => Some v | None => last_velocity h1 end.
Proof.
  unfold last_velocity. rewrite fold_left_app. generalize (fold_left
    (fun acc o => match o with OpVelocity u du d2u => Some (u, du, d2u) | _ => acc end) h1 None).
  induction h2 as [|o h IH] using rev_ind; intros acc; [reflexivity|].
  rewrite !fold_left_app. cbn [fold_left]. destruct o; try apply IH. reflexivity.
Qed.
Lemma accepted_app t1 t2 : all_velocities_accepted (t1 ++ t2) <->
  all_velocities_accepted t1 /\ all_velocities_accepted t2.
Proof.
  induction t1 as [|[o r] t IH]; cbn [app all_velocities_accepted]; [tauto|].
  destruct o; try exact IH. destruct r; [exact IH|tauto].
Qed.

(** C03 *)
Lemma derivatives_current_lemma m h u du d2u :
  all_velocities_accepted (trace m h) -> last_velocity h = Some (u, du, d2u) ->
  exists fu fdu fd2u, profile u du d2u fu fdu fd2u /\ answers (run m h) fu fdu fd2u.
Proof.
  induction h as [|o h IH] using rev_ind; [discriminate|].
  rewrite trace_app, accepted_app, last_velocity_app, run_app.
  intros [HA HO] HL. destruct (is_velocity o) eqn:EV.
  - destruct o; try discriminate. cbn in HL. injection HL as <- <- <-.
    cbn [CoreSpec.trace all_velocities_accepted CoreSpec.step no_result fst snd] in HO.
    unfold CoreSpec.run at 1. cbn [fold_left CoreSpec.step no_result fst].
    destruct (set_velocity (run m h) u0 du0 d2u0) as [m' [[]|e]] eqn:E; cbn [fst snd] in *;
      [|destruct HO].
    apply set_velocity_profile in E. exact E.
  - assert (HL' : last_velocity [o] = None) by (destruct o; [reflexivity|discriminate|reflexivity..]).
    rewrite HL' in HL. destruct (IH HA HL) as (fu & fdu & fd2u & HP & HAns).
    exists fu, fdu, fd2u. split; [exact HP|].
    eapply answers_slots; [|exact HAns].
    symmetry. unfold CoreSpec.run at 1. cbn [fold_left]. apply step_slots. exact EV.
Qed.

(** The constructor sets the same profile. *)
Lemma created_velocity_lemma :
  (forall linear nu u du d2u a m, u <> PNone ->
     new_thwaites pchip cubic_spline linear nu u du d2u a = Ok m ->
     exists fu fdu fd2u, profile u du d2u fu fdu fd2u /\ answers m fu fdu fd2u) /\
  (forall nu u du d2u crit m, u <> PNone ->
     new_head pchip nu u du d2u crit = Ok m ->
     exists fu fdu fd2u, profile u du d2u fu fdu fd2u /\ answers m fu fdu fd2u).
Proof.
  assert (B : forall k nu u du d2u c m, u <> PNone -> new_base pchip k nu u du d2u c = Ok m ->
    exists fu fdu fd2u, profile u du d2u fu fdu fd2u /\ answers m fu fdu fd2u).
  { intros k nu u du d2u c m Hu H. unfold new_base in H.
    destruct (new_fs (Fin 0) nu) as [fs|]; [|discriminate].
    assert (H' : forall m0, match set_velocity m0 u du d2u with
          | (m1, Ok _) => Ok (set_initial_condition m1 c)
          | (_, Err e) => Err e end = Ok m ->
       exists fu fdu fd2u, profile u du d2u fu fdu fd2u /\ answers m fu fdu fd2u).
    { clear H. intros m0 H. destruct (set_velocity m0 u du d2u) as [m1 [[]|e]] eqn:E; [|discriminate].
      injection H as <-. destruct (set_velocity_profile _ _ _ _ _ E) as (f & g & k0 & P & A).
      exists f, g, k0. split; [exact P|]. eapply answers_slots; [|exact A]. reflexivity. }
    match type of H with context [{| m_kind := ?a; m_nu := ?b; m_u := ?c0; m_du := ?d;
        m_d2u := ?e; m_ic := ?f; m_fit := ?g; m_events := ?h; m_sol := ?i |}] =>
      specialize (H' {| m_kind := a; m_nu := b; m_u := c0; m_du := d;
        m_d2u := e; m_ic := f; m_fit := g; m_events := h; m_sol := i |}) end.
    destruct u; try (apply H'; exact H). contradiction. }
  split.
  - intros linear nu u du d2u a m Hu H. unfold new_thwaites in H.
    destruct (new_base pchip _ nu u du d2u _) as [m1|] eqn:E; [|discriminate].
    destruct (B _ _ _ _ _ _ _ Hu E) as (f & g & k0 & P & A).
    exists f, g, k0. split; [exact P|].
    unfold set_data_fits in H. destruct (choose_fit cubic_spline a); [|discriminate].
    injection H as <-. apply (answers_slots m1); [reflexivity|exact A].
  - intros nu u du d2u crit m Hu H. unfold new_head in H.
    destruct (new_base pchip _ nu u du d2u _) as [m1|] eqn:E; [|discriminate].
    destruct (B _ _ _ _ _ _ _ Hu E) as (f & g & k0 & P & A).
    exists f, g, k0. split; [exact P|]. injection H as <-.
    apply (answers_slots m1); [reflexivity|exact A].
Qed.

(** C01, C02 *)
Lemma fd_first_lemma m m' c x r K :
  c_deriv c = None -> set_velocity m (PCall c) PNone PNone = (m', Ok tt) ->
  2/10000 < r -> smooth_near (c_fun c) 5 x r ->
  (forall t, Rabs (t - x) <= r -> Rabs (Derive_n (c_fun c) 5 t) <= K) ->
  exists v, q_du_e m' x = Ok v /\ Rabs (v - Derive (c_fun c) x) <= K * (1/10000)^4 / 18.
Proof.
  intros Hc H Hr Hs HK. cbn [CoreModel.set_velocity] in H. unfold set_velocity_callable in H.
  rewrite Hc in H. injection H as <-. eexists. split; [reflexivity|].
  apply (fd_1f_error _ _ _ r); try assumption; lra.
Qed.
Lemma fd_second_lemma m m' c x r K :
  c_deriv c = None -> set_velocity m (PCall c) PNone PNone = (m', Ok tt) ->
  2/10000 < r -> smooth_near (c_fun c) 6 x r ->
  (forall t, Rabs (t - x) <= r -> Rabs (Derive_n (c_fun c) 6 t) <= K) ->
  exists v, q_d2u_e m' x = Ok v /\ Rabs (v - Derive_n (c_fun c) 2 x) <= K * (1/10000)^4 / 54.
Proof.
  intros Hc H Hr Hs HK. cbn [CoreModel.set_velocity] in H. unfold set_velocity_callable in H.
  rewrite Hc in H. injection H as <-. eexists. split; [reflexivity|].
  apply (fd_2f_error _ _ _ r); try assumption; lra.
Qed.
(** The second derivative from a given first derivative, by fd_1f with step 1e-5. *)
Lemma fd_second_from_first_lemma m m' c dc x r K :
  c_deriv dc = None -> set_velocity m (PCall c) (PCall dc) PNone = (m', Ok tt) ->
  2/100000 < r -> smooth_near (c_fun dc) 5 x r ->
  (forall t, Rabs (t - x) <= r -> Rabs (Derive_n (c_fun dc) 5 t) <= K) ->
  exists v, q_d2u_e m' x = Ok v /\ Rabs (v - Derive (c_fun dc) x) <= K * (1/100000)^4 / 18.
Proof.
  intros Hc H Hr Hs HK. cbn [CoreModel.set_velocity] in H. unfold set_velocity_callable in H.
  rewrite Hc in H. injection H as <-. eexists. split; [reflexivity|].
  apply (fd_1f_error _ _ _ r); try assumption; lra.
Qed.
Lemma fd_exact_lemma m m' c a0 a1 a2 a3 a4 a5 x :
  c_deriv c = None -> set_velocity m (PCall c) PNone PNone = (m', Ok tt) ->
  (forall t, c_fun c t = a0 + a1*t + a2*t^2 + a3*t^3 + a4*t^4 + a5*t^5) ->
  (a5 = 0 -> q_du_e m' x = Ok (Derive (c_fun c) x)) /\
  q_d2u_e m' x = Ok (Derive_n (c_fun c) 2 x).
Proof.
  intros Hc H Hf. cbn [CoreModel.set_velocity] in H. unfold set_velocity_callable in H.
  rewrite Hc in H. injection H as <-.
  assert (D1 : forall t, Derive (c_fun c) t
     = a1 + 2*a2*t + 3*a3*t^2 + 4*a4*t^3 + 5*a5*t^4).
  { intros t. rewrite (Derive_ext _ _ _ Hf). apply is_derive_unique. auto_derive; [exact I|ring]. }
  assert (D2 : forall t, Derive_n (c_fun c) 2 t = 2*a2 + 6*a3*t + 12*a4*t^2 + 20*a5*t^3).
  { intros t. cbn [Derive_n]. rewrite (Derive_ext _ _ _ D1). apply is_derive_unique.
    auto_derive; [exact I|ring]. }
  split.
  - intros ->. cbn. f_equal. rewrite D1. unfold fd_1f. rewrite !Hf. field.
  - cbn. f_equal. change (Derive_n (c_fun c) 2 x) with (Derive_n (c_fun c) 2 x).
    transitivity (2*a2 + 6*a3*x + 12*a4*x^2 + 20*a5*x^3); [|symmetry; apply D2].
    unfold fd_2f. rewrite !Hf. field.
Qed.

(** C06 *)
Lemma scalar_points_lemma m u0 du d2u m' :
  (forall x y p, pchip x y = Ok p -> pp_wf p /\ pp_continuous p /\ pp_continuous (pp_derivative p)) ->
  set_velocity m (PNum u0) du d2u = (m', Ok tt) ->
  exists (U dU d2U : R -> R) x xs y p,
    bind (py_item du 0) np_asarray = Ok x /\ bind (py_item du 1) np_asarray = Ok y /\
    pchip x y = Ok p /\ hd 0 (pp_x p) = xs /\
    (forall t, q_u_e m' t = Ok (U t)) /\ (forall t, q_du_e m' t = Ok (dU t)) /\
    (forall t, q_d2u_e m' t = Ok (d2U t)) /\
    U xs = u0 /\ (forall t, dU t = pp_eval p t) /\
    (forall t, is_derive U t (dU t)) /\ (forall t, is_derive dU t (d2U t)).
Proof.
  intros HP H. cbn [CoreModel.set_velocity] in H. unfold set_velocity_scalar in H.
  destruct (py_len du) as [[|[|[|n]]]|e] eqn:EL; try discriminate.
  destruct (bind (py_item du 0) np_asarray) as [xa|ex] eqn:EX; [|discriminate].
  destruct (bind (py_item du 1) np_asarray) as [ya|ey] eqn:EY; [|discriminate].
  destruct (pchip xa ya) as [p|ep] eqn:EP; [|discriminate].
  destruct (HP _ _ _ EP) as [W [C CD]]. injection H as <-.
  destruct (pp_velocity_correct p u0 W C) as [V D].
  exists (pp_eval (pp_shift (pp_antiderivative p) u0)), (pp_eval p), (pp_eval (pp_derivative p)),
    xa, (hd 0 (pp_x p)), ya, p.
  repeat (split; [first [assumption | reflexivity | intros; reflexivity]|]).
  intros t. apply pp_derivative_correct; assumption.
Qed.
End Core.
