From Coq Require Import Reals List String Bool ZArith Lra Lia.
From Verif Require Import PyBase PyBaseFacts FiniteDiffModel PPolyModel
  InitialConditionModel ThwaitesFitsModel HeadModel CoreModel CoreSpec CoreProofs
  CoreHistoryProofs WorkflowModel WorkflowSpec.
Import ListNotations.
Open Scope R_scope.

Section Workflow.
Variable pchip : ndarray -> ndarray -> res ppoly.
Variable cubic_spline : list R -> list R -> (xr -> xr) * (xr -> xr).
Variable solve_ivp :
  (R -> list xr -> res (list xr)) -> R -> R -> list xr ->
  list (bool * (R -> list xr -> res xr)) -> res ivp_result.

Notation set_velocity := (set_velocity pchip).
Notation solve := (solve solve_ivp).
Notation step := (step pchip cubic_spline solve_ivp).
Notation run := (run pchip cubic_spline solve_ivp).
Notation trace := (trace pchip cubic_spline solve_ivp).
Notation wstep := (wstep pchip cubic_spline solve_ivp).
Notation wrun := (wrun pchip cubic_spline solve_ivp).
Notation wtrace := (wtrace pchip cubic_spline solve_ivp).

(* ------------------------------------------------------------------ *)
(** * Objects that differ only in what the last solve left behind *)

Definition sim (a b : meth) : Prop :=
  exists c s, b = set_sol (set_ic a c) s /\ ic_body_of c = ic_body_of (m_ic a).

Lemma meth_eta m : m = set_sol (set_ic m (m_ic m)) (m_sol m).
Proof. destruct m; reflexivity. Qed.
Lemma sim_refl a : sim a a.
Proof. exists (m_ic a), (m_sol a). split; [apply meth_eta|reflexivity]. Qed.
Lemma sim_sym a b : sim a b -> sim b a.
Proof.
  intros (c & s & -> & E). exists (m_ic a), (m_sol a). destruct a. cbn in *. split; [reflexivity|].
  symmetry. exact E.
Qed.
Lemma sim_trans a b c : sim a b -> sim b c -> sim a c.
Proof.
  intros (c1 & s1 & -> & E1) (c2 & s2 & -> & E2). exists c2, s2. destruct a; cbn in *.
  split; [reflexivity|congruence].
Qed.

(** A solve reads neither the old solution nor the old nu, du_e of the condition. *)
Lemma solve_sim a b x0 x1 l : sim a b ->
  snd (solve a x0 x1 l) = snd (solve b x0 x1 l) /\
  sim (fst (solve a x0 x1 l)) (fst (solve b x0 x1 l)) /\
  (m_sol a = m_sol b -> m_sol (fst (solve a x0 x1 l)) = m_sol (fst (solve b x0 x1 l))) /\
  (forall r, snd (solve a x0 x1 l) = Ok r -> fst (solve a x0 x1 l) = fst (solve b x0 x1 l)).
Proof.
  intros (c & s & -> & E). destruct a as [k nu u du d2u ia fi ev so].
  cbn [m_ic set_ic set_sol m_sol] in *. unfold CoreModel.solve, ic_set_nu.
  cbn [m_ic set_ic set_sol m_nu].
  destruct (xleb nu (Fin 0)) eqn:HN.
  { cbn. split; [reflexivity|]. split; [|split; [tauto|discriminate]].
    exists c, s. split; [reflexivity|exact E]. }
  cbn [set_ic set_sol m_ic m_sol m_nu m_kind m_u m_du m_d2u m_fit m_events].
  match goal with |- context [q_du_e ?m x0] => set (q := q_du_e m x0) end.
  match goal with |- context [match q_du_e ?m x0 with _ => _ end] => change (q_du_e m x0) with q end.
  destruct q as [v|e].
  2:{ cbn. split; [reflexivity|]. split; [|split; [tauto|discriminate]].
      eexists _, s. split; [reflexivity|]. cbn. exact E. }
  unfold ic_set_du. cbn [ic_du ic_nu ic_body_of]. rewrite E.
  match goal with |- context [ode_setup ?m] => set (o := ode_setup m) end.
  match goal with |- context [match ode_setup ?m with _ => _ end] => change (ode_setup m) with o end.
  destruct o as [y0|e].
  2:{ cbn. split; [reflexivity|]. split; [|split; [tauto|discriminate]].
      eexists _, s. split; [reflexivity|]. reflexivity. }
  unfold add_kill_events, set_events.
  cbn [set_ic set_sol m_ic m_sol m_nu m_kind m_u m_du m_d2u m_fit m_events].
  match goal with |- context [solve_ivp ?f x0 x1 y0 ?ev] => set (r := solve_ivp f x0 x1 y0 ev) end.
  match goal with |- context [match solve_ivp ?f x0 x1 y0 ?ev with _ => _ end] =>
    change (solve_ivp f x0 x1 y0 ev) with r end.
  destruct r as [r|e].
  - cbn. split; [reflexivity|]. split; [apply sim_refl|]. split; [reflexivity|]. reflexivity.
  - cbn. split; [reflexivity|]. split; [|split; [tauto|discriminate]].
    eexists _, s. split; [reflexivity|]. reflexivity.
Qed.

Lemma solve_plain_sim m x0 x1 : sim m (fst (solve m x0 x1 [])).
Proof.
  destruct m as [k nu u du d2u ia fi ev so]. unfold CoreModel.solve, ic_set_nu.
  cbn [m_ic m_nu]. destruct (xleb nu (Fin 0)); cbn [fst].
  { exists ia, so. split; reflexivity. }
  destruct (q_du_e _ x0) as [v|e]; [|match goal with |- sim _ ?b => exists (m_ic b), (m_sol b); split; reflexivity end].
  destruct (ode_setup _) as [y0|e]; [|match goal with |- sim _ ?b => exists (m_ic b), (m_sol b); split; reflexivity end].
  unfold add_kill_events, set_events.
  cbn [set_ic set_sol m_ic m_sol m_nu m_kind m_u m_du m_d2u m_fit m_events].
  rewrite app_nil_r.
  destruct (solve_ivp _ x0 x1 y0 _) as [r|e]; match goal with |- sim _ ?b => exists (m_ic b), (m_sol b); split; reflexivity end.
Qed.

(** C93 *)
Lemma repeat_lemma s h x0 x1 l : List.Forall plain_solve h ->
  snd (step (run s h) (OpSolve x0 x1 l)) = snd (step s (OpSolve x0 x1 l)) /\
  (forall r, snd (step s (OpSolve x0 x1 l)) = Ok r ->
     fst (step (run s h) (OpSolve x0 x1 l)) = fst (step s (OpSolve x0 x1 l))).
Proof.
  intros F. assert (S : sim s (run s h)).
  { revert s. induction F as [|o h (a & b & ->) F IH]; intros s; [apply sim_refl|].
    rewrite run_cons. eapply sim_trans; [|apply IH]. cbn [CoreSpec.step fst].
    apply solve_plain_sim. }
  destruct (solve_sim _ _ x0 x1 l S) as (E1 & _ & _ & E3).
  cbn [CoreSpec.step fst snd]. rewrite <- E1. split; [reflexivity|].
  intros r H. destruct (snd (solve s x0 x1 l)) as [i|] eqn:E; [|discriminate].
  symmetry. apply (E3 i eq_refl).
Qed.

(* ------------------------------------------------------------------ *)
(** * C96: shared conditions *)

Lemma step_sim a b o : edits_condition o = false -> sim a b -> m_sol a = m_sol b ->
  snd (step a o) = snd (step b o) /\ sim (fst (step a o)) (fst (step b o)) /\
  m_sol (fst (step a o)) = m_sol (fst (step b o)) /\
  ic_body_of (m_ic (fst (step a o))) = ic_body_of (m_ic a).
Proof.
  intros He HS Hs. destruct o; try discriminate He; cbn [CoreSpec.step].
  - destruct HS as (c & t & -> & E). destruct a as [k nu u du d2u ia fi ev so].
    cbn in Hs, E |- *. unfold set_nu. cbn. destruct (xleb v (Fin 0)); cbn.
    + split; [reflexivity|]. split; [exists c, t; split; [reflexivity|exact E]|]. tauto.
    + split; [reflexivity|]. split; [exists c, t; split; [reflexivity|exact E]|]. tauto.
  - destruct (set_velocity_local pchip a b u du d2u) as [V1 V2].
    { destruct HS as (c & t & -> & E). reflexivity. }
    pose proof (set_velocity_frame pchip a u du d2u) as F1.
    pose proof (set_velocity_frame pchip b u du d2u) as F2.
    unfold no_result. cbn [fst snd]. rewrite V2. split; [reflexivity|].
    destruct (fst (set_velocity a u du d2u)) as [k1 n1 u1 v1 w1 i1 f1 e1 s1].
    destruct (fst (set_velocity b u du d2u)) as [k2 n2 u2 v2 w2 i2 f2 e2 s2].
    unfold same_but_slots, slots in *.
    destruct HS as (c & t & -> & E). destruct a as [k nu ua dua d2ua ia fi ev so]. cbn in *.
    destruct F1 as (-> & -> & -> & -> & -> & ->). destruct F2 as (-> & -> & -> & -> & -> & ->).
    injection V1 as -> -> ->. split; [|split; [exact Hs|reflexivity]].
    exists c, t. split; [reflexivity|exact E].
  - destruct HS as (c & t & -> & E). destruct a as [k nu u du d2u ia fi ev so].
    cbn in Hs, E |- *. unfold set_data_fits, set_kill_event, set_fit, set_events, no_result.
    destruct k; try destruct (choose_fit cubic_spline a0); cbn;
      (split; [reflexivity|]; split; [exists c, t; split; [reflexivity|exact E]|]; tauto).
  - destruct HS as (c & t & -> & E). destruct a as [k nu u du d2u ia fi ev so].
    cbn in Hs, E |- *. destruct k; cbn;
      (split; [reflexivity|]; split; [exists c, t; split; [reflexivity|exact E]|]; tauto).
  - destruct (solve_sim a b x0 x_end l HS) as (E1 & E2 & E3 & _). cbn [fst snd].
    rewrite E1. split; [reflexivity|]. split; [exact E2|]. split; [apply E3, Hs|].
    clear. unfold CoreModel.solve, ic_set_nu.
    destruct (xleb _ _); [reflexivity|].
    destruct (q_du_e _ x0) as [v|e]; [|reflexivity].
    destruct (ode_setup _) as [y0|e]; [|reflexivity].
    destruct (solve_ivp _ x0 x_end y0 _) as [r|e]; reflexivity.
Qed.

Definition like (w : world) (i : nat) (m : meth) : Prop := sim (view w i) m /\ m_sol (view w i) = m_sol m.

Lemma wcall_step w j o : edits_condition o = false ->
  wstep w (WCall j o) = (store w j (fst (step (view w j) o)), snd (step (view w j) o)).
Proof. intros H. destruct o; try discriminate H; reflexivity. Qed.

Lemma upd_same {A} (f : nat -> A) i v : upd f i v i = v.
Proof. unfold upd. rewrite PeanoNat.Nat.eqb_refl. reflexivity. Qed.
Lemma upd_other {A} (f : nat -> A) i j v : j <> i -> upd f i v j = f j.
Proof. intros H. unfold upd. destruct (PeanoNat.Nat.eqb_spec j i); [contradiction|reflexivity]. Qed.

Lemma view_store_same w i m : view (store w i m) i = m.
Proof. unfold view, store. cbn. rewrite !upd_same. destruct m; reflexivity. Qed.

Lemma like_other w i j m x : j <> i -> like w i x ->
  ic_body_of (m_ic m) = ic_body_of (m_ic (view w j)) -> like (store w j m) i x.
Proof.
  intros N [(c & s & E & B) L] HB. unfold like, view, store in *. cbn in *.
  rewrite upd_other by congruence. split; [|exact L].
  unfold upd. destruct (PeanoNat.Nat.eqb_spec (w_ref w i) (w_ref w j)) as [e|e].
  - exists c, s. rewrite E. destruct (w_meths w i). cbn in *. split; [reflexivity|]. rewrite HB, B, e. reflexivity.
  - exists c, s. split; [exact E|exact B].
Qed.

Lemma shared_lemma h : forall w i m, like w i m -> List.Forall leaves_conditions h ->
  outcomes_of i (wtrace w h) = trace m (calls_of i h) /\
  like (wrun w h) i (run m (calls_of i h)).
Proof.
  induction h as [|o h IH]; intros w i m L F; [split; [reflexivity|exact L]|].
  inversion F as [|o' h' HO F']; subst. destruct o as [j o|]; [|contradiction].
  cbn [leaves_conditions] in HO.
  cbn [WorkflowModel.wtrace outcomes_of flat_map calls_of].
  unfold WorkflowModel.wrun. cbn [fold_left]. fold (wrun (fst (wstep w (WCall j o))) h).
  fold (outcomes_of i (wtrace (fst (wstep w (WCall j o))) h)). fold (calls_of i h).
  rewrite (wcall_step w j o HO). cbn [fst snd].
  destruct (PeanoNat.Nat.eqb_spec j i) as [->|N].
  - destruct L as [LS LL]. destruct (step_sim _ _ o HO LS LL) as (E1 & E2 & E3 & E4).
    cbn [app]. rewrite run_cons. cbn [CoreSpec.trace]. rewrite E1.
    destruct (IH (store w i (fst (step (view w i) o))) i (fst (step m o))) as [I1 I2]; [|exact F'|].
    { unfold like. rewrite view_store_same. split; assumption. }
    rewrite I1. split; [reflexivity|exact I2].
  - cbn [app]. apply IH; [|exact F'].
    apply like_other; [exact N|exact L|].
    destruct (step_sim _ _ o HO (sim_refl (view w j)) eq_refl) as (_ & _ & _ & E4). exact E4.
Qed.

Lemma shared_conditions_lemma w h i : List.Forall leaves_conditions h ->
  outcomes_of i (wtrace w h) = trace (view w i) (calls_of i h) /\
  m_sol (view (wrun w h) i) = m_sol (run (view w i) (calls_of i h)).
Proof.
  intros F. destruct (shared_lemma h w i (view w i)) as [A [_ B]];
    [split; [apply sim_refl|reflexivity]|exact F|]. split; assumption.
Qed.

(** ** Conditions that are not shared *)
Definition is_condition (o : op) : bool := match o with OpCondition _ => true | _ => false end.

Lemma wcall_step' w j o : is_condition o = false ->
  wstep w (WCall j o) = (store w j (fst (step (view w j) o)), snd (step (view w j) o)).
Proof. intros H. destruct o; try discriminate H; reflexivity. Qed.

Lemma own_step n w o : own_conditions n w -> no_sharing n o -> own_conditions n (fst (wstep w o)).
Proof.
  intros [L I] N. destruct o as [j o|]; [|contradiction]. cbn in N.
  destruct (is_condition o) eqn:Ho.
  - destruct o; try discriminate Ho. cbn. split; cbn.
    + intros k Hk. unfold upd. destruct (PeanoNat.Nat.eqb_spec k j); [lia|]. specialize (L k Hk). lia.
    + intros a b Ha Hb. unfold upd. pose proof (L a Ha). pose proof (L b Hb).
      destruct (PeanoNat.Nat.eqb_spec a j), (PeanoNat.Nat.eqb_spec b j); try lia. apply I; assumption.
  - rewrite wcall_step' by exact Ho. split; cbn; assumption.
Qed.

Lemma own_view n w j o i : own_conditions n w -> (j < n)%nat -> (i < n)%nat ->
  view (fst (wstep w (WCall j o))) i = (if Nat.eqb j i then fst (step (view w i) o) else view w i) /\
  snd (wstep w (WCall j o)) = snd (step (view w j) o).
Proof.
  intros [L I] Hj Hi. destruct (is_condition o) eqn:Ho.
  - destruct o; try discriminate Ho. cbn. unfold view. cbn.
    destruct (PeanoNat.Nat.eqb_spec j i) as [->|N].
    + rewrite !upd_same. destruct (w_meths w i). split; reflexivity.
    + rewrite (upd_other (w_ref w)) by congruence. rewrite upd_other by (specialize (L i Hi); lia).
      split; reflexivity.
  - rewrite wcall_step' by exact Ho. cbn [fst snd]. split; [|reflexivity].
    destruct (PeanoNat.Nat.eqb_spec j i) as [->|N]; [apply view_store_same|].
    unfold view, store. cbn. rewrite (upd_other (w_meths w)) by congruence.
    rewrite upd_other; [reflexivity|]. intros E. apply N. symmetry. apply I; assumption.
Qed.

Lemma separate_lemma n h : forall w i, own_conditions n w -> (i < n)%nat ->
  List.Forall (no_sharing n) h ->
  outcomes_of i (wtrace w h) = trace (view w i) (calls_of i h) /\
  view (wrun w h) i = run (view w i) (calls_of i h).
Proof.
  induction h as [|o h IH]; intros w i O Hi F; [split; reflexivity|].
  inversion F as [|o' h' HO F']; subst. pose proof (own_step n w o O HO) as O'.
  destruct o as [j o|]; [|contradiction]. cbn in HO.
  destruct (own_view n w j o i O HO Hi) as [V S].
  destruct (IH (fst (wstep w (WCall j o))) i O' Hi F') as [I1 I2].
  cbn [WorkflowModel.wtrace outcomes_of flat_map calls_of].
  unfold WorkflowModel.wrun. cbn [fold_left]. fold (wrun (fst (wstep w (WCall j o))) h).
  fold (outcomes_of i (wtrace (fst (wstep w (WCall j o))) h)). fold (calls_of i h).
  rewrite I1, I2, V, S.
  destruct (PeanoNat.Nat.eqb_spec j i) as [->|N]; cbn [app].
  - rewrite run_cons. split; reflexivity.
  - split; reflexivity.
Qed.

(** ** Conditions that are shared stay shared *)
Lemma wstep_ref w o : w_ref (fst (wstep w o)) =
  match o with
  | WShare k r => upd (w_ref w) k r
  | WCall k (OpCondition _) => upd (w_ref w) k (w_next w)
  | _ => w_ref w
  end.
Proof. destruct o as [k []|]; reflexivity. Qed.

Lemma live_lemma w i j h : List.Forall (keeps_reference i j) h ->
  let w' := wrun (fst (wstep w (WShare j (w_ref w i)))) h in
  m_ic (view w' j) = m_ic (view w' i).
Proof.
  intros F. cbv zeta.
  assert (G : forall h w, List.Forall (keeps_reference i j) h -> w_ref w j = w_ref w i ->
              w_ref (wrun w h) j = w_ref (wrun w h) i).
  { clear. induction h as [|o h IH]; intros w F E; [exact E|].
    inversion F as [|o' h' HO F']; subst. unfold WorkflowModel.wrun. cbn [fold_left].
    fold (wrun (fst (wstep w o)) h). apply IH; [exact F'|]. rewrite wstep_ref.
    destruct o as [k []|k r]; cbn in HO; try exact E;
      destruct HO; rewrite !upd_other by congruence; exact E. }
  unfold view, set_ic. cbn [m_ic]. f_equal. apply G; [exact F|]. rewrite wstep_ref, upd_same.
  destruct (PeanoNat.Nat.eq_dec i j) as [->|N]; [rewrite upd_same|rewrite upd_other by exact N]; reflexivity.
Qed.

(* ------------------------------------------------------------------ *)
(** * C94: order of configuration calls *)

(** The part of an object a call concerns. *)
Definition partv (p : part) (m : meth) :
  match p with
  | PartViscosity => xr
  | PartVelocity => (option vfun * option vfun * option vfun)%type
  | PartCondition => ic
  | PartSeparation => (option fit * list event)%type
  end :=
  match p with
  | PartViscosity => m_nu m
  | PartVelocity => slots m
  | PartCondition => m_ic m
  | PartSeparation => (m_fit m, m_events m)
  end.

Lemma conf_eq a b : m_kind a = m_kind b -> m_sol a = m_sol b ->
  (forall p, partv p a = partv p b) -> a = b.
Proof.
  intros K S H. pose proof (H PartViscosity) as H1. pose proof (H PartVelocity) as H2.
  pose proof (H PartCondition) as H3. pose proof (H PartSeparation) as H4.
  destruct a, b. unfold partv, slots in *. cbn in *. injection H2 as -> -> ->.
  injection H4 as -> ->. congruence.
Qed.

(** A call does not touch the other parts ... *)
Lemma step_other m o p : is_solve o = false -> concerns o p = false ->
  partv p (fst (step m o)) = partv p m.
Proof.
  intros HS HC. destruct o; try discriminate HS; cbn [CoreSpec.step].
  - destruct p; try discriminate HC; cbn; unfold set_nu; destruct (xleb v (Fin 0)); reflexivity.
  - pose proof (set_velocity_frame pchip m u du d2u) as (F1 & F2 & F3 & F4 & F5 & F6).
    destruct p; try discriminate HC; cbn; congruence.
  - destruct p; try discriminate HC; reflexivity.
  - destruct p; try discriminate HC; cbn; unfold set_initial_delta_m; destruct (xleb v (Fin 0)); reflexivity.
  - destruct p; try discriminate HC; destruct (m_kind m); try reflexivity;
      unfold no_result, set_initial_shape_d; destruct (xleb v (Fin 0)); try reflexivity;
      destruct (get_initial_delta_m m); reflexivity.
  - destruct p; try discriminate HC; destruct (m_kind m); try reflexivity;
      unfold no_result, set_data_fits; destruct (choose_fit cubic_spline a); reflexivity.
  - destruct p; try discriminate HC; destruct (m_kind m); reflexivity.
Qed.

(** ... and its outcome and effect depend on its own part only. *)
Lemma step_own a b o p : is_solve o = false -> concerns o p = true ->
  m_kind a = m_kind b -> partv p a = partv p b ->
  snd (step a o) = snd (step b o) /\ partv p (fst (step a o)) = partv p (fst (step b o)).
Proof.
  intros HS HC K E. destruct o; try discriminate HS; destruct p; try discriminate HC;
    cbn [CoreSpec.step partv] in *.
  - cbn. unfold set_nu. destruct (xleb v (Fin 0)); split; try reflexivity; exact E.
  - destruct (set_velocity_local pchip a b u du d2u E) as [V1 V2]. cbn. rewrite V2, V1. auto.
  - split; reflexivity.
  - cbn. unfold set_initial_delta_m. destruct (xleb v (Fin 0)); cbn; rewrite ?E; auto.
  - rewrite K. destruct (m_kind b); try (split; [reflexivity|exact E]).
    unfold no_result, set_initial_shape_d, get_initial_delta_m. rewrite E.
    destruct (xleb v (Fin 0)); cbn; [auto|].
    destruct (ic_delta_m (m_ic b)); cbn; rewrite ?E; auto.
  - rewrite K. destruct (m_kind b); try (split; [reflexivity|exact E]);
      unfold no_result, set_data_fits; destruct (choose_fit cubic_spline a0); cbn; auto.
  - rewrite K. injection E as E1 E2. destruct (m_kind b); cbn; rewrite ?E1, ?E2; auto.
Qed.

Lemma part_of_run h p : forall a b, m_kind a = m_kind b -> partv p a = partv p b ->
  List.Forall (fun o => is_solve o = false) h ->
  partv p (run a h) = partv p (run b (filter (fun o => concerns o p) h)) /\
  about p (trace a h) = trace b (filter (fun o => concerns o p) h).
Proof.
  induction h as [|o h IH]; intros a b K E F; [split; [exact E|reflexivity]|].
  inversion F as [|o' h' HO F']; subst. rewrite run_cons.
  cbn [filter CoreSpec.trace about]. unfold about. cbn [filter fst].
  fold (about p (trace (fst (step a o)) h)).
  destruct (concerns o p) eqn:HC.
  - destruct (step_own a b o p HO HC K E) as [S1 S2]. rewrite run_cons. cbn [CoreSpec.trace].
    destruct (IH (fst (step a o)) (fst (step b o))) as [I1 I2]; [|exact S2|exact F'|].
    { rewrite !step_kind. exact K. }
    rewrite I2, S1. split; [exact I1|reflexivity].
  - apply IH; [rewrite step_kind; exact K| |exact F'].
    rewrite (step_other a o p HO HC). exact E.
Qed.

Lemma run_kind_sol h : forall a, List.Forall (fun o => is_solve o = false) h ->
  m_kind (run a h) = m_kind a /\ m_sol (run a h) = m_sol a.
Proof.
  induction h as [|o h IH]; intros a F; [split; reflexivity|].
  inversion F as [|o' h' HO F']; subst. rewrite run_cons.
  destruct (IH (fst (step a o)) F') as [-> ->]. split; [apply step_kind|].
  apply step_sol. intros x0 x1 l ->. discriminate HO.
Qed.

Lemma config_order_lemma s h1 h2 :
  List.Forall (fun o => is_solve o = false) h1 -> List.Forall (fun o => is_solve o = false) h2 ->
  same_calls h1 h2 ->
  run s h1 = run s h2 /\ forall p, about p (trace s h1) = about p (trace s h2).
Proof.
  intros F1 F2 C. split.
  - destruct (run_kind_sol h1 s F1) as [K1 S1]. destruct (run_kind_sol h2 s F2) as [K2 S2].
    apply conf_eq; [congruence|congruence|]. intros p.
    destruct (part_of_run h1 p s s eq_refl eq_refl F1) as [-> _].
    destruct (part_of_run h2 p s s eq_refl eq_refl F2) as [-> _]. rewrite (C p). reflexivity.
  - intros p.
    destruct (part_of_run h1 p s s eq_refl eq_refl F1) as [_ ->].
    destruct (part_of_run h2 p s s eq_refl eq_refl F2) as [_ ->]. rewrite (C p). reflexivity.
Qed.

End Workflow.
