(** Proofs about method objects that run the user's code: calls made and exceptions. *)
From Coq Require Import Reals List String Bool ZArith Lra Lia.
From Verif Require Import PyBase PyBaseFacts InitialConditionModel ThwaitesFitsModel HeadModel CoreModel
  EffectModel EffectSpec.
Import ListNotations.
Open Scope R_scope.

Lemma none_raised_app : forall a b, none_raised a -> none_raised b -> none_raised (a ++ b).
Proof. intros a b Ha Hb. apply List.Forall_app. split; assumption. Qed.

Section Tracking.
Context {St : Type}.
Variable P : call -> Prop.

Definition rel_res {A B} (h : A -> B -> Prop) (r : res A) (r' : res B) : Prop :=
  match r, r' with Ok a, Ok b => h a b | Err e, Err e' => e = e' | _, _ => False end.
Lemma rel_res_eq : forall A (r r' : res A), rel_res eq r r' -> r' = r.
Proof. intros A [a|e] [b|e']; cbn; intros; try contradiction; congruence. Qed.

Definition tracks {A B} (h : A -> B -> Prop) (c : eff St A) (c' : eff (St * list call) B) : Prop :=
  forall s l, exists d o',
    c' (s, l) = (o', (snd (c s), l ++ d)) /\ rel_res h (fst (c s)) o' /\ List.Forall P d /\
    passed_on d (fst (c s)).

(** The same value; writing to it acts on the user's state and not on the log. *)
Definition ret_rel (r : uret St) (r' : uret (St * list call)) : Prop :=
  u_val _ r' = u_val _ r /\ forall v p, u_write _ r' v p = (u_write _ r v (fst p), snd p).

Lemma tracks_calls : forall A (c : eff St A) c' s, tracks eq c c' ->
  exists log, calls_of c c' s log /\ List.Forall P log /\ passed_on log (fst (c s)).
Proof.
  intros A c c' s H. destruct (H s []) as [d [o' [E [R1 [F Q]]]]].
  exists d. apply rel_res_eq in R1. subst o'. split; [exact E|split; assumption].
Qed.

Lemma tracks_bind : forall A A' B B' (h : A -> A' -> Prop) (h2 : B -> B' -> Prop) c c' k k',
  tracks h c c' -> (forall a b, h a b -> tracks h2 (k a) (k' b)) ->
  tracks h2 (ebind St c k) (ebind _ c' k').
Proof.
  intros A A' B B' h h2 c c' k k' H1 H2 s l. unfold ebind.
  destruct (H1 s l) as [d [o' [E [R1 [F Q]]]]]. rewrite E.
  destruct (c s) as [[a|e] s1]; cbn in *; destruct o' as [a'|e0]; try contradiction.
  - destruct (H2 a a' R1 s1 (l ++ d)) as [d2 [o2 [E2 [R2' [F2 Q2]]]]].
    exists (d ++ d2), o2. rewrite E2, app_assoc. split; [reflexivity|]. split; [exact R2'|].
    split; [apply List.Forall_app; split; assumption|].
    destruct Q as [Q|[e [_ Q]]]; [|discriminate Q].
    destruct Q2 as [Q2|[e [[b [w [x [Eb Nb]]]] R2]]].
    + left. apply none_raised_app; assumption.
    + right. exists e. split; [|exact R2].
      exists (d ++ b), w, x. split; [rewrite Eb, app_assoc; reflexivity|].
      apply none_raised_app; assumption.
  - exists d, (Err e0). split; [reflexivity|split; [exact R1|split; [exact F|]]].
    destruct Q as [Q|[e' [Q R']]]; [left; exact Q|right; exists e'; split; [exact Q|congruence]].
Qed.

Lemma tracks_const : forall A B (h : A -> B -> Prop) (r : res A) (r' : res B), rel_res h r r' ->
  tracks h (elift St r) (elift _ r').
Proof.
  intros A B h r r' E s l. exists [], r'. unfold elift. cbn. rewrite app_nil_r.
  split; [reflexivity|split; [exact E|split; [constructor|left; constructor]]].
Qed.
Lemma tracks_lift : forall A (r : res A), tracks eq (elift St r) (elift _ r).
Proof. intros A r. apply tracks_const. destruct r; reflexivity. Qed.
Lemma tracks_ret : forall A (a : A), tracks eq (eret St a) (eret _ a).
Proof. intros A a. apply (tracks_lift A (Ok a)). Qed.
Lemma tracks_raise : forall A B (h : A -> B -> Prop) e, tracks h (eraise St e) (eraise _ e).
Proof. intros A B h e. apply (tracks_const A B h (Err e) (Err e) eq_refl). Qed.

Lemma tracks_logged : forall w (f : ufun St) x,
  (forall o, P {| c_who := w; c_at := x; c_raised := o |}) ->
  tracks ret_rel (f x) (logged w f x).
Proof.
  intros w f x HP s l. unfold logged. cbn. destruct (f x s) as [o s1]. cbn.
  do 2 eexists. split; [reflexivity|].
  split; [destruct o; cbn; [split; reflexivity|reflexivity]|].
  split; [constructor; [apply HP|constructor]|].
  destruct o as [r|e]; cbn.
  - left. constructor; [reflexivity|constructor].
  - right. exists e. split; [|reflexivity]. exists [], w, x. split; [reflexivity|constructor].
Qed.
Lemma tracks_logged_event : forall (g : R -> list xr -> eff St xr) x y,
  (forall o, P {| c_who := Event; c_at := x; c_raised := o |}) ->
  tracks eq (g x y) (logged_event g x y).
Proof.
  intros g x y HP s l. unfold logged_event. cbn. destruct (g x y s) as [o s1]. cbn.
  do 2 eexists. split; [reflexivity|]. split; [destruct o; reflexivity|].
  split; [constructor; [apply HP|constructor]|].
  destruct o as [r|e]; cbn.
  - left. constructor; [reflexivity|constructor].
  - right. exists e. split; [|reflexivity]. exists [], Event, x. split; [reflexivity|constructor].
Qed.

(** Positions at which a call is permitted. *)
Definition may (w : supplied) (x : R) : Prop := forall o, P {| c_who := w; c_at := x; c_raised := o |}.

Variable m : emeth St.

Definition u_ok (x : R) : Prop := may Velocity x.
Definition fd1_ok (ok : R -> Prop) (x dx : R) : Prop :=
  ok (x - 2 * dx) /\ ok (x + 2 * dx) /\ ok (x - dx) /\ ok (x + dx).
Definition du_ok (x : R) : Prop :=
  match e_du _ m with
  | Some (EF _ _) => may Gradient x
  | Some (EFd1U _) => fd1_ok u_ok x (1/10000)
  | _ => True
  end.
Definition d2u_ok (x : R) : Prop :=
  match e_d2u _ m with
  | Some (EF _ _) => may SecondGradient x
  | Some (EFd2U _) => fd1_ok u_ok x (1/10000) /\ u_ok x
  | Some (EFd1DU _) => fd1_ok du_ok x (1/100000)
  | _ => True
  end.

Lemma tracks_fd1 : forall (f : ufun St) (f' : ufun (St * list call)) x dx (ok : R -> Prop),
  (forall t, ok t -> tracks ret_rel (f t) (f' t)) -> fd1_ok ok x dx ->
  tracks ret_rel (e_fd_1f St f x dx) (e_fd_1f _ f' x dx).
Proof.
  intros f f' x dx ok Hf (H1 & H2 & H3 & H4). unfold e_fd_1f.
  apply (tracks_bind _ _ _ _ ret_rel); [apply Hf, H1|intros a a' [Va Wa]].
  apply (tracks_bind _ _ _ _ ret_rel); [apply Hf, H2|intros b b' [Vb Wb]].
  apply (tracks_bind _ _ _ _ ret_rel); [apply Hf, H3|intros c c' [Vc Wc]].
  apply (tracks_bind _ _ _ _ ret_rel); [apply Hf, H4|intros d d' [Vd Wd]].
  rewrite Va, Vb, Vc, Vd. apply (tracks_const _ _ ret_rel (Ok _) (Ok _)). split; [reflexivity|].
  intros v [s l]. reflexivity.
Qed.
Lemma tracks_fd2 : forall (f : ufun St) (f' : ufun (St * list call)) x dx (ok : R -> Prop),
  (forall t, ok t -> tracks ret_rel (f t) (f' t)) -> fd1_ok ok x dx -> ok x ->
  tracks ret_rel (e_fd_2f St f x dx) (e_fd_2f _ f' x dx).
Proof.
  intros f f' x dx ok Hf (H1 & H2 & H3 & H4) H0. unfold e_fd_2f.
  apply (tracks_bind _ _ _ _ ret_rel); [apply Hf, H1|intros a a' [Va Wa]].
  apply (tracks_bind _ _ _ _ ret_rel); [apply Hf, H2|intros b b' [Vb Wb]].
  apply (tracks_bind _ _ _ _ ret_rel); [apply Hf, H0|intros z z' [Vz Wz]].
  apply (tracks_bind _ _ _ _ ret_rel); [apply Hf, H3|intros c c' [Vc Wc]].
  apply (tracks_bind _ _ _ _ ret_rel); [apply Hf, H4|intros d d' [Vd Wd]].
  rewrite Va, Vb, Vc, Vd, Vz. apply (tracks_const _ _ ret_rel (Ok _) (Ok _)).
  split; [reflexivity|]. intros v [s l]. reflexivity.
Qed.

Lemma tracks_call_u : forall x, u_ok x ->
  tracks ret_rel (e_call_u St m x) (e_call_u _ (watch m) x).
Proof.
  intros x H. unfold e_call_u, watch. cbn. destruct (e_u St m) as [[f| | | |]|]; cbn;
    try apply tracks_raise. apply tracks_logged, H.
Qed.
Lemma tracks_call_du : forall x, du_ok x ->
  tracks ret_rel (e_call_du St m x) (e_call_du _ (watch m) x).
Proof.
  intros x H. unfold e_call_du, du_ok in *. unfold watch at 1. cbn [e_du].
  destruct (e_du St m) as [[f| | | |]|]; cbn [watch_slot]; try apply tracks_raise.
  - apply tracks_logged, H.
  - apply (tracks_fd1 _ _ _ _ u_ok); [apply tracks_call_u|exact H].
Qed.
Lemma tracks_call_d2u : forall x, d2u_ok x ->
  tracks ret_rel (e_call_d2u St m x) (e_call_d2u _ (watch m) x).
Proof.
  intros x H. unfold e_call_d2u, d2u_ok in *. unfold watch at 1. cbn [e_d2u].
  destruct (e_d2u St m) as [[f| | | |]|]; cbn [watch_slot]; try apply tracks_raise.
  - apply tracks_logged, H.
  - apply (tracks_fd2 _ _ _ _ u_ok); [apply tracks_call_u|apply H|apply H].
  - apply (tracks_fd1 _ _ _ _ du_ok); [apply tracks_call_du|exact H].
Qed.

Lemma watch_none : forall w (v : option (eslot St)), watch_slot w v = None -> v = None.
Proof. intros w [[| | | |]|] H; cbn in H; congruence. Qed.

Lemma tracks_u_e : forall x, u_ok x -> tracks ret_rel (eq_u_e St m x) (eq_u_e _ (watch m) x).
Proof.
  intros x H. unfold eq_u_e. unfold watch at 1. cbn [e_u].
  destruct (e_u St m) as [[f| | | |]|] eqn:E; cbn [watch_slot]; try apply tracks_raise;
    apply tracks_call_u, H.
Qed.
Lemma tracks_du_e : forall x, du_ok x -> tracks ret_rel (eq_du_e St m x) (eq_du_e _ (watch m) x).
Proof.
  intros x H. unfold eq_du_e. unfold watch at 1. cbn [e_du].
  destruct (e_du St m) as [[f| | | |]|] eqn:E; cbn [watch_slot]; try apply tracks_raise;
    apply tracks_call_du, H.
Qed.
Lemma tracks_d2u_e : forall x, d2u_ok x -> tracks ret_rel (eq_d2u_e St m x) (eq_d2u_e _ (watch m) x).
Proof.
  intros x H. unfold eq_d2u_e. unfold watch at 1. cbn [e_d2u].
  destruct (e_d2u St m) as [[f| | | |]|] eqn:E; cbn [watch_slot]; try apply tracks_raise;
    apply tracks_call_d2u, H.
Qed.
Lemma tracks_number : forall c c', tracks ret_rel c c' ->
  tracks eq (number St c) (number _ c').
Proof.
  intros c c' H. unfold number. apply (tracks_bind _ _ _ _ ret_rel); [exact H|intros a a' [Va Wa]].
  rewrite Va. apply tracks_ret.
Qed.

Ltac tb := apply (tracks_bind _ _ _ _ eq).

Lemma tracks_lambda : forall x s, du_ok x ->
  tracks eq (e_calc_lambda St m x s) (e_calc_lambda _ (watch m) x s).
Proof.
  intros x s H. unfold e_calc_lambda. tb.
  - apply tracks_number, tracks_du_e, H.
  - intros a ? <-. apply tracks_ret.
Qed.
Lemma tracks_f : forall x s, du_ok x ->
  tracks eq (e_calc_f St m x s) (e_calc_f _ (watch m) x s).
Proof.
  intros x s H. unfold e_calc_f. tb.
  - apply tracks_lambda, H.
  - intros a ? <-. cbn [watch e_base].
    destruct (m_kind (e_base St m)); [apply tracks_ret| |];
      (destruct (m_fit (e_base St m)); [apply tracks_ret|apply tracks_raise]).
Qed.
Lemma tracks_floor : forall r r', ret_rel r r' -> tracks eq (e_floor St r) (e_floor _ r').
Proof.
  intros r r' [V W]. unfold e_floor. rewrite V. tb; [apply tracks_lift|].
  intros v ? <- s l. exists [], (Ok v). rewrite app_nil_r.
  destruct (u_val St r) as [a|a|a]; [| |destruct (xltb (xabs a) (Fin (1/1000)))];
    try rewrite W; (split; [reflexivity|split; [reflexivity|split; [constructor|left; constructor]]]).
Qed.
Lemma tracks_ode : forall x f, u_ok x -> du_ok x ->
  tracks eq (e_ode_impl St m x f) (e_ode_impl _ (watch m) x f).
Proof.
  intros x f Hu Hd. unfold e_ode_impl. cbn [watch e_base].
  assert (T : forall s,
    tracks eq
      (ebind St (e_calc_f St m x s) (fun F => ebind St (number St (eq_u_e St m x)) (fun u =>
        eret St [(F / (Fin (1/1000) + u))%xr])))
      (ebind _ (e_calc_f _ (watch m) x s) (fun F => ebind _ (number _ (eq_u_e _ (watch m) x)) (fun u =>
        eret _ [(F / (Fin (1/1000) + u))%xr])))).
  { intros s. tb; [apply tracks_f, Hd|intros F ? <-]. tb; [apply tracks_number, tracks_u_e, Hu|intros u ? <-].
    apply tracks_ret. }
  destruct (m_kind (e_base St m)).
  - destruct f as [|s [|]]; [apply tracks_raise|apply T|apply tracks_raise].
  - destruct f as [|s [|]]; [apply tracks_raise|apply T|apply tracks_raise].
  - destruct f as [|d [|h [|]]]; try apply tracks_raise.
    apply (tracks_bind _ _ _ _ ret_rel); [apply tracks_u_e, Hu|intros u u' [Vu Wu]].
    tb; [apply tracks_floor; split; assumption|intros v ? <-].
    rewrite Vu.
    apply (tracks_bind _ _ _ _ ret_rel); [apply tracks_du_e, Hd|intros du du' [Vdu Wdu]].
    rewrite Vdu. tb; [apply tracks_lift|intros p ? <-]. apply tracks_ret.
Qed.
Lemma tracks_event : forall e x f, du_ok x -> may Event x ->
  tracks eq (e_event_value St m e x f) (e_event_value _ (watch m) (watch_event e) x f).
Proof.
  intros e x f Hd He. unfold e_event_value, watch_event. cbn [ee_src].
  destruct (ee_src St e) as [g|ft|c].
  - apply tracks_logged_event, He.
  - destruct f as [|s [|]]; try apply tracks_raise.
    tb; [apply tracks_lambda, Hd|intros lam ? <-]. apply tracks_ret.
  - destruct f as [|d [|h [|]]]; try apply tracks_raise. apply tracks_ret.
Qed.

(** The integrator. *)
Lemma tracks_run : forall (Q : R -> Prop) (p : ask) F F' G G',
  asks_only Q p ->
  (forall x y, Q x -> tracks eq (F x y) (F' x y)) ->
  Forall2 (fun g g' => forall x y, Q x -> tracks eq (g x y) (g' x y)) G G' ->
  tracks eq (run St p F G) (run _ p F' G').
Proof.
  intros Q p F F' G G' Hp HF HG. induction p as [r|x y k IH|i x y k IH]; cbn in *.
  - apply tracks_lift.
  - destruct Hp as [Hx Hk]. tb; [apply HF, Hx|intros v ? <-]. apply IH, Hk.
  - destruct Hp as [Hx Hk].
    assert (E : match nth_error G i, nth_error G' i with
                | Some g, Some g' => forall x y, Q x -> tracks eq (g x y) (g' x y)
                | None, None => True
                | _, _ => False
                end).
    { clear -HG. revert i. induction HG as [|g g' G G' Hg HG IHG]; intros [|i]; cbn;
        [exact I|exact I|exact Hg|apply IHG]. }
    destruct (nth_error G i) as [g|], (nth_error G' i) as [g'|]; try contradiction.
    + tb; [apply E, Hx|intros v ? <-]. apply IH, Hk.
    + apply tracks_raise.
Qed.

(** Queries. *)
Lemma tracks_shape_d : forall x, du_ok x ->
  tracks eq (eq_shape_d St m x) (eq_shape_d _ (watch m) x).
Proof.
  intros x Hd. unfold eq_shape_d. cbn [watch e_base]. tb; [apply tracks_lift|intros y ? <-].
  destruct (m_kind (e_base St m)); [| |apply tracks_lift];
    (tb; [apply tracks_lift|intros s ? <-]; tb; [apply tracks_lambda, Hd|intros lam ? <-];
     destruct (m_fit (e_base St m)); [apply tracks_ret|apply tracks_raise]).
Qed.
Lemma tracks_delta_d : forall x, du_ok x ->
  tracks eq (eq_delta_d St m x) (eq_delta_d _ (watch m) x).
Proof.
  intros x Hd. unfold eq_delta_d. cbn [watch e_base]. tb; [apply tracks_lift|intros d ? <-].
  tb; [apply tracks_shape_d, Hd|intros h ? <-]. apply tracks_ret.
Qed.
Lemma tracks_tau_w : forall x rho, u_ok x -> du_ok x ->
  tracks eq (eq_tau_w St m x rho) (eq_tau_w _ (watch m) x rho).
Proof.
  intros x rho Hu Hd. unfold eq_tau_w. cbn [watch e_base]. tb; [apply tracks_lift|intros y ? <-].
  destruct (m_kind (e_base St m)).
  1, 2: (tb; [apply tracks_lift|intros s ? <-]; tb; [apply tracks_lambda, Hd|intros lam ? <-];
         tb; [apply tracks_number, tracks_u_e, Hu|intros u ? <-];
         destruct (m_fit (e_base St m)); [|apply tracks_raise];
         tb; [apply tracks_lift|intros d ? <-]; apply tracks_ret).
  tb; [apply tracks_lift|intros d ? <-]. tb; [apply tracks_lift|intros h ? <-].
  apply (tracks_bind _ _ _ _ ret_rel); [apply tracks_u_e, Hu|intros u u' [Vu Wu]].
  rewrite Vu. destruct (u_val St u) as [v|v|v] eqn:Eu; try apply tracks_raise.
  tb; [apply tracks_floor; split; congruence|intros w ? <-]. apply tracks_ret.
Qed.
Lemma tracks_v_e : forall x, u_ok x -> du_ok x -> d2u_ok x ->
  tracks eq (eq_v_e St m x) (eq_v_e _ (watch m) x).
Proof.
  intros x Hu Hd Hd2. unfold eq_v_e. cbn [watch e_base]. tb; [apply tracks_lift|intros y ? <-].
  destruct (m_kind (e_base St m)).
  1, 2: (tb; [apply tracks_number, tracks_u_e, Hu|intros u ? <-];
         tb; [apply tracks_number, tracks_du_e, Hd|intros du ? <-];
         tb; [apply tracks_lift|intros s ? <-];
         tb; [apply tracks_delta_d, Hd|intros dd ? <-];
         tb; [apply tracks_ode; [exact Hu|exact Hd]|intros rhs ? <-];
         tb; [apply tracks_lift|intros dsol ? <-];
         tb; [apply tracks_shape_d, Hd|intros h ? <-];
         tb; [apply tracks_lambda, Hd|intros lam ? <-];
         destruct (m_fit (e_base St m)); [|apply tracks_raise];
         tb; [apply tracks_number, tracks_d2u_e, Hd2|intros d2u ? <-]; apply tracks_ret).
  tb; [apply tracks_ode; [exact Hu|exact Hd]|intros yp ? <-].
  tb; [apply tracks_lift|intros h ? <-].
  tb; [apply tracks_number, tracks_u_e, Hu|intros u ? <-].
  tb; [apply tracks_number, tracks_du_e, Hd|intros du ? <-].
  tb; [apply tracks_lift|intros d ? <-]. tb; [apply tracks_lift|intros f0 ? <-].
  tb; [apply tracks_lift|intros f1 ? <-]. apply tracks_ret.
Qed.

End Tracking.

(* ------------------------------------------------------------------ *)
(** * solve *)

Lemma watch_events_app : forall St (a b : list (eevent St)),
  map watch_event a ++ map watch_event b = map watch_event (a ++ b).
Proof. intros. symmetry. apply map_app. Qed.
Lemma watch_terminal : forall St (l : list (eevent St)),
  map (ee_terminal _) (map watch_event l) = map (ee_terminal _) l.
Proof. intros St l. rewrite map_map. reflexivity. Qed.
Lemma watch_plain : forall St (l : list (eevent St)),
  map (plain_event _) (map watch_event l) = map (plain_event _) l.
Proof. intros St l. rewrite map_map. reflexivity. Qed.

Lemma passed_on_ok : forall A log (a : A), passed_on log (Ok a) -> none_raised log.
Proof. intros A log a [H|[e [_ H]]]; [exact H|discriminate H]. Qed.

(** The previous solution is kept when user code raises. *)
Definition solve_log {St} (m m' : emeth St) (log : list call) (r : res int_result) : Prop :=
  none_raised log \/
  exists e, last_raised log e /\ r = Err e /\ m_sol (e_base _ m') = m_sol (e_base _ m).

Lemma solve_tracks : forall St (P : call -> Prop) integrator (m : emeth St) x0 x1 l s (Q : R -> Prop),
  Q x0 ->
  (forall y0 t, asks_only Q (integrator x0 x1 y0 t)) ->
  (forall x, Q x -> u_ok P x /\ du_ok P m x /\ may P Event x) ->
  exists log,
    let o := e_solve St integrator m x0 x1 l s in
    e_solve _ integrator (watch m) x0 x1 (map watch_event l) (s, []) =
      ((watch (fst (fst o)), snd (fst o)), (snd o, log)) /\
    List.Forall P log /\ solve_log m (fst (fst o)) log (snd (fst o)) /\
    same_settings m (fst (fst o)).
Proof.
  intros St P integrator m x0 x1 l s Q Hx Hi Hok. unfold e_solve.
  change (e_base _ (watch m)) with (e_base _ m).
  destruct (ic_set_nu (m_ic (e_base St m)) (m_nu (e_base St m))) as [c [u0|e0]].
  2: { exists []. cbn. split; [reflexivity|]. split; [constructor|].
       split; [left; constructor|]. repeat split; reflexivity. }
  cbv zeta.
  set (m1 := e_set_base St m (set_ic (e_base St m) c)).
  change (e_set_base (St * list call) (watch m) (set_ic (e_base St m) c)) with (watch m1).
  destruct (Hok x0 Hx) as (_ & Hd0 & _).
  assert (T0 := tracks_number P _ _ (tracks_du_e P m1 x0 Hd0)).
  destruct (T0 s []) as [d0 [o0 [E0 [R0 [F0 Q0]]]]]. rewrite E0. clear E0 T0.
  destruct (number St (eq_du_e St m1 x0) s) as [[du|e1] s1]; cbn [fst snd] in *;
    destruct o0 as [du'|e1']; try contradiction; cbn in R0; subst.
  2: { exists d0. split; [reflexivity|]. split; [exact F0|]. cbn [fst snd].
       split; [|repeat split; reflexivity].
       destruct Q0 as [Q0|[e [Q0 Q1]]]; [left; exact Q0|right].
       exists e. split; [exact Q0|]. split; [congruence|reflexivity]. }
  change (e_base _ (watch m1)) with (e_base _ m1).
  set (b2 := set_ic (e_base St m1) (ic_set_du (m_ic (e_base St m1)) du')).
  destruct (ode_setup b2) as [y0|e2].
  2: { exists d0. split; [reflexivity|]. split; [exact F0|]. cbn [fst snd].
       split; [left; exact (passed_on_ok _ _ _ Q0)|repeat split; reflexivity]. }
  set (m2 := e_set_base St m1 b2).
  change (e_set_base (St * list call) (watch m1) b2) with (watch m2).
  change (e_events _ (watch m2)) with (map watch_event (e_events _ m2)).
  rewrite watch_events_app.
  set (m3 := e_set_events St m2 (e_events St m2 ++ l)).
  change (e_set_events (St * list call) (watch m2) (map watch_event (e_events St m2 ++ l)))
    with (watch m3).
  change (e_events _ (watch m3)) with (map watch_event (e_events _ m3)).
  rewrite watch_terminal, watch_plain.
  assert (T : tracks P eq
    (run St (integrator x0 x1 y0 (map (ee_terminal St) (e_events St m3))) (e_ode_impl St m3)
       (map (e_event_value St m3) (e_events St m3)))
    (run _ (integrator x0 x1 y0 (map (ee_terminal St) (e_events St m3))) (e_ode_impl _ (watch m3))
       (map (e_event_value _ (watch m3)) (map watch_event (e_events St m3))))).
  { apply (tracks_run P Q).
    - apply Hi.
    - intros x y Hxy. destruct (Hok x Hxy) as (H1 & H2 & H3). apply tracks_ode; assumption.
    - generalize (e_events St m3). intros evs. induction evs as [|e evs IH]; cbn; constructor.
      + intros x y Hxy. destruct (Hok x Hxy) as (H1 & H2 & H3). apply tracks_event; assumption.
      + exact IH. }
  destruct (T s1 ([] ++ d0)) as [d1 [o1 [E1 [R1 [F1 Q1]]]]]. cbn [app] in *. rewrite E1. clear E1 T.
  assert (N0 := passed_on_ok _ _ _ Q0).
  assert (S1 : forall e, last_raised d1 e -> last_raised (d0 ++ d1) e).
  { intros e [bf [w [x [Eb Nb]]]]. exists (d0 ++ bf), w, x. rewrite Eb, app_assoc.
    split; [reflexivity|apply none_raised_app; assumption]. }
  destruct (run St (integrator x0 x1 y0 (map (ee_terminal St) (e_events St m3))) (e_ode_impl St m3)
       (map (e_event_value St m3) (e_events St m3)) s1) as [[r|e3] s2]; cbn [fst snd] in *;
    destruct o1 as [r'|e3']; try contradiction; cbn in R1; subst.
  - exists (d0 ++ d1). split; [reflexivity|].
    split; [apply List.Forall_app; split; assumption|]. cbn [fst snd].
    split; [|repeat split; reflexivity].
    left. apply none_raised_app; [exact N0|exact (passed_on_ok _ _ _ Q1)].
  - exists (d0 ++ d1). split; [reflexivity|].
    split; [apply List.Forall_app; split; assumption|]. cbn [fst snd].
    split; [|repeat split; reflexivity].
    destruct Q1 as [Q1|[e [Q1 Q2]]]; [left; apply none_raised_app; assumption|right].
    exists e. split; [apply S1, Q1|]. split; [congruence|reflexivity].
Qed.

(** Every call is permitted. *)
Definition anywhere (c : call) : Prop := True.
Lemma any_u : forall x, u_ok anywhere x.
Proof. intros x o. exact I. Qed.
Lemma any_du : forall St (m : emeth St) x, du_ok anywhere m x.
Proof.
  intros St m x. unfold du_ok. destruct (e_du St m) as [[| | | |]|]; try exact I.
  - intros o; exact I.
  - repeat split.
Qed.
Lemma any_d2u : forall St (m : emeth St) x, d2u_ok anywhere m x.
Proof.
  intros St m x. unfold d2u_ok. destruct (e_d2u St m) as [[| | | |]|]; try exact I.
  - intros o; exact I.
  - repeat split.
  - split; [|split; [|split]]; apply any_du.
Qed.

Lemma asks_anywhere : forall p, asks_only (fun _ => True) p.
Proof. induction p as [r|x y k IH|i x y k IH]; cbn; auto. Qed.

Lemma user_exceptions_lemma : forall St integrator (m : emeth St) x0 x1 l s m' r s',
  e_solve St integrator m x0 x1 l s = ((m', r), s') ->
  exists log,
    e_solve _ integrator (watch m) x0 x1 (map watch_event l) (s, []) =
      ((watch m', r), (s', log)) /\
    (none_raised log \/
     exists e, last_raised log e /\ r = Err e /\ m_sol (e_base _ m') = m_sol (e_base _ m)) /\
    same_settings m m'.
Proof.
  intros St integrator m x0 x1 l s m' r s' H.
  destruct (solve_tracks St anywhere integrator m x0 x1 l s (fun _ => True) I
              (fun y0 t => asks_anywhere _)) as [log [E [_ [S1 S2]]]].
  { intros x _. split; [apply any_u|split; [apply any_du|intros o; exact I]]. }
  rewrite H in *. cbn [fst snd] in *. exists log. split; [exact E|split; [exact S1|exact S2]].
Qed.

Lemma query_exceptions_lemma : forall St (m : emeth St) x rho s,
  (exists log, calls_of (number _ (eq_u_e _ m x)) (number _ (eq_u_e _ (watch m) x)) s log /\
     passed_on log (fst (number _ (eq_u_e _ m x) s))) /\
  (exists log, calls_of (number _ (eq_du_e _ m x)) (number _ (eq_du_e _ (watch m) x)) s log /\
     passed_on log (fst (number _ (eq_du_e _ m x) s))) /\
  (exists log, calls_of (number _ (eq_d2u_e _ m x)) (number _ (eq_d2u_e _ (watch m) x)) s log /\
     passed_on log (fst (number _ (eq_d2u_e _ m x) s))) /\
  (exists log, calls_of (eq_shape_d _ m x) (eq_shape_d _ (watch m) x) s log /\
     passed_on log (fst (eq_shape_d _ m x s))) /\
  (exists log, calls_of (eq_delta_d _ m x) (eq_delta_d _ (watch m) x) s log /\
     passed_on log (fst (eq_delta_d _ m x s))) /\
  (exists log, calls_of (eq_tau_w _ m x rho) (eq_tau_w _ (watch m) x rho) s log /\
     passed_on log (fst (eq_tau_w _ m x rho s))) /\
  (exists log, calls_of (eq_v_e _ m x) (eq_v_e _ (watch m) x) s log /\
     passed_on log (fst (eq_v_e _ m x s))).
Proof.
  intros St m x rho s.
  assert (D : forall A (c : eff St A) c', tracks anywhere eq c c' ->
    exists log, calls_of c c' s log /\ passed_on log (fst (c s))).
  { intros A c c' H. destruct (tracks_calls anywhere A c c' s H) as [log [E [_ Q]]].
    exists log. split; assumption. }
  assert (U := any_u x). assert (DU := any_du St m x). assert (D2 := any_d2u St m x).
  split; [|split; [|split; [|split; [|split; [|split]]]]]; apply D.
  - apply tracks_number, tracks_u_e, U.
  - apply tracks_number, tracks_du_e, DU.
  - apply tracks_number, tracks_d2u_e, D2.
  - apply tracks_shape_d, DU.
  - apply tracks_delta_d, DU.
  - apply tracks_tau_w; assumption.
  - apply tracks_v_e; assumption.
Qed.

(* ------------------------------------------------------------------ *)
(** * Positions *)

Lemma solve_positions_lemma : forall St integrator (m : emeth St) x0 x1 l s,
  x0 <= x1 -> (forall y0 t, asks_within x0 x1 (integrator x0 x1 y0 t)) ->
  exists log,
    let o := e_solve St integrator m x0 x1 l s in
    e_solve _ integrator (watch m) x0 x1 (map watch_event l) (s, []) =
      ((watch (fst (fst o)), snd (fst o)), (snd o, log)) /\
    List.Forall (in_flow m x0 x1) log.
Proof.
  intros St integrator m x0 x1 l s Hx Hi.
  assert (Cases : (exists f, e_du _ m = Some (EF _ f)) \/ ~ own_gradient m).
  { unfold own_gradient. destruct (e_du St m) as [[f| | | |]|];
      [left; exists f; reflexivity| | | | |]; right; intros [g Hg]; discriminate Hg. }
  assert (V0 : forall x, x0 <= x <= x1 -> u_ok (in_flow m x0 x1) x).
  { intros x Hxx o. unfold in_flow; cbn. split; [discriminate|]. split; [lra|intros _; lra]. }
  destruct (solve_tracks St (in_flow m x0 x1) integrator m x0 x1 l s (fun x => x0 <= x <= x1))
    as [log [E [F _]]].
  - lra.
  - apply Hi.
  - intros x Hxx. split; [apply V0, Hxx|]. split.
    + unfold du_ok. destruct (e_du St m) as [[f| | | |]|] eqn:E; try exact I.
      * intros o. unfold in_flow; cbn. split; [discriminate|]. split; [lra|intros _; lra].
      * destruct Cases as [[f Hf]|Hn]; [congruence|].
        assert (W : forall y, x0 - 2/10000 <= y <= x1 + 2/10000 -> u_ok (in_flow m x0 x1) y).
        { intros y Hy o. unfold in_flow; cbn. split; [discriminate|]. split; [lra|].
          intros [H|H]; [contradiction|exfalso; apply H; reflexivity]. }
        split; [|split; [|split]]; apply W; lra.
    + intros o. unfold in_flow; cbn. split; [discriminate|]. split; [lra|intros _; lra].
  - exists log. cbv zeta. split; assumption.
Qed.

Lemma near_u : forall own x, u_ok (near own x) x.
Proof. intros own x o. unfold near; cbn. split; [lra|reflexivity]. Qed.
Lemma near_du : forall St (m : emeth St) x, du_ok (near (own_functions m) x) m x.
Proof.
  intros St m x. unfold du_ok. destruct (e_du St m) as [[f| | | |]|] eqn:E; try exact I.
  - intros o. unfold near; cbn. split; [lra|reflexivity].
  - assert (N : ~ own_functions m) by (intros (f & g & h & _ & H & _); congruence).
    split; [|split; [|split]]; intros o; unfold near; cbn; (split; [lra|intros H; contradiction]).
Qed.
Lemma near_d2u : forall St (m : emeth St) x, d2u_ok (near (own_functions m) x) m x.
Proof.
  intros St m x. unfold d2u_ok. destruct (e_d2u St m) as [[f| | | |]|] eqn:E; try exact I.
  - intros o. unfold near; cbn. split; [lra|reflexivity].
  - assert (N : ~ own_functions m) by (intros (f & g & h & _ & _ & H); congruence).
    split; [|intros o; unfold near; cbn; split; [lra|reflexivity]].
    split; [|split; [|split]]; intros o; unfold near; cbn; (split; [lra|intros H; contradiction]).
  - assert (N : ~ own_functions m) by (intros (f & g & h & _ & _ & H); congruence).
    assert (W : forall w y, x - 22/100000 <= y <= x + 22/100000 ->
                may (near (own_functions m) x) w y).
    { intros w y Hy o. unfold near; cbn. split; [lra|intros H; contradiction]. }
    assert (Wd : forall y, x - 2/100000 <= y <= x + 2/100000 ->
                 du_ok (near (own_functions m) x) m y).
    { intros y Hy. unfold du_ok. destruct (e_du St m) as [[f| | | |]|]; try exact I.
      - apply W; lra.
      - split; [|split; [|split]]; apply W; lra. }
    split; [|split; [|split]]; apply Wd; lra.
Qed.

Lemma query_positions_lemma : forall St (m : emeth St) x rho s,
  (exists log, calls_of (number _ (eq_u_e _ m x)) (number _ (eq_u_e _ (watch m) x)) s log /\
     List.Forall (near True x) log) /\
  (exists log, calls_of (number _ (eq_du_e _ m x)) (number _ (eq_du_e _ (watch m) x)) s log /\
     List.Forall (near (own_functions m) x) log) /\
  (exists log, calls_of (number _ (eq_d2u_e _ m x)) (number _ (eq_d2u_e _ (watch m) x)) s log /\
     List.Forall (near (own_functions m) x) log) /\
  (exists log, calls_of (eq_shape_d _ m x) (eq_shape_d _ (watch m) x) s log /\
     List.Forall (near (own_functions m) x) log) /\
  (exists log, calls_of (eq_delta_d _ m x) (eq_delta_d _ (watch m) x) s log /\
     List.Forall (near (own_functions m) x) log) /\
  (exists log, calls_of (eq_tau_w _ m x rho) (eq_tau_w _ (watch m) x rho) s log /\
     List.Forall (near (own_functions m) x) log) /\
  (exists log, calls_of (eq_v_e _ m x) (eq_v_e _ (watch m) x) s log /\
     List.Forall (near (own_functions m) x) log).
Proof.
  intros St m x rho s.
  assert (D : forall P A (c : eff St A) c', tracks P eq c c' ->
    exists log, calls_of c c' s log /\ List.Forall P log).
  { intros P A c c' H. destruct (tracks_calls P A c c' s H) as [log [E [Q _]]].
    exists log. split; assumption. }
  assert (DU := near_du St m x). assert (D2 := near_d2u St m x).
  assert (U := near_u (own_functions m) x).
  split; [|split; [|split; [|split; [|split; [|split]]]]]; apply D.
  - apply tracks_number, tracks_u_e, near_u.
  - apply tracks_number, tracks_du_e, DU.
  - apply tracks_number, tracks_d2u_e, D2.
  - apply tracks_shape_d, DU.
  - apply tracks_delta_d, DU.
  - apply tracks_tau_w; assumption.
  - apply tracks_v_e; assumption.
Qed.

(** Setting a velocity runs nothing but [derivative]. *)
Lemma set_velocity_silent : forall St (m : emeth St) c du d2u s,
  ec_deriv _ c = None -> (forall dc, du = ACall _ dc -> ec_deriv _ dc = None) ->
  snd (e_set_velocity St m c du d2u s) = s.
Proof.
  intros St m c du d2u s H1 H2. unfold e_set_velocity. rewrite H1.
  destruct du as [|dc|]; [| |reflexivity].
  - destruct d2u; reflexivity.
  - rewrite (H2 dc eq_refl). destruct d2u; reflexivity.
Qed.

(** A velocity that is defined for x >= 0 only. *)
Definition half_line : ecallable unit :=
  {| ec_fun := fun x s => if Rltb x 0 then (Err ValueError, s)
                          else (Ok (fresh unit (VFloat (Fin (1 + x)))), s);
     ec_deriv := None |}.
Definition bare (k : mkind) : meth :=
  {| m_kind := k; m_nu := Fin 1; m_u := None; m_du := None; m_d2u := None;
     m_ic := new_manual (Fin 0) (Fin 1) (Fin 0); m_fit := None; m_events := []; m_sol := None |}.
Definition ebare St (k : mkind) : emeth St :=
  {| e_base := bare k; e_u := None; e_du := None; e_d2u := None; e_events := [] |}.

Lemma solve_outside_lemma : forall integrator, exists (m : emeth unit) (c : ecallable unit) m',
  (forall x s, 0 <= x -> exists r, ec_fun _ c x s = (Ok r, s)) /\
  e_set_velocity _ m c (ANone _) (ANone _) tt = ((m', Ok tt), tt) /\
  snd (fst (e_solve _ integrator m' 0 1 [] tt)) = Err ValueError.
Proof.
  intros integrator. exists (ebare unit ThwaitesLinear), half_line. eexists.
  split; [|split].
  - intros x s Hx. cbn. rewrite (Rltb_false x 0) by lra. eexists; reflexivity.
  - reflexivity.
  - unfold e_solve. cbn -[Rltb Rleb].
    unfold ic_set_nu. cbn -[Rltb Rleb].
    rewrite (Rleb_false 1 0) by lra. cbn -[Rltb Rleb].
    unfold number, eq_du_e, e_call_du, e_fd_1f, e_call_u, ebind. cbn -[Rltb Rleb].
    rewrite (Rltb_true (0 - 2 * (1/10000)) 0) by lra. reflexivity.
Qed.
