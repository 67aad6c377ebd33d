(** Proofs about user functions with hidden state: they act like the functions whose values
    they return. *)
From Coq Require Import Reals List String Bool ZArith Lra Lia.
From Verif Require Import PyBase PyBaseFacts FiniteDiffModel InitialConditionModel ThwaitesFitsModel
  HeadModel CoreModel EffectModel EffectSpec EffectProofs.
Import ListNotations.
Open Scope R_scope.

Section Hidden.
Context {St : Type}.
Variable I : St -> Prop.

(** The computation [c] has the outcome [v], up to [h], and keeps the invariant. *)
Definition yields {A B} (h : A -> B -> Prop) (v : res A) (c : eff St B) : Prop :=
  forall s, I s -> exists o s', c s = (o, s') /\ rel_res h v o /\ I s'.

Lemma yields_bind : forall A A' B B' (h : A -> A' -> Prop) (h2 : B -> B' -> Prop) v c k k',
  yields h v c -> (forall a a', h a a' -> yields h2 (k a) (k' a')) ->
  yields h2 (bind v k) (ebind St c k').
Proof.
  intros A A' B B' h h2 v c k k' H1 H2 s Hs. destruct (H1 s Hs) as [o [s1 [E [Q Hs1]]]].
  unfold ebind. rewrite E. destruct v as [a|e], o as [a'|e']; cbn in *; try contradiction.
  - apply (H2 a a' Q s1 Hs1).
  - exists (Err e'), s1. split; [reflexivity|split; [exact Q|exact Hs1]].
Qed.
Lemma yields_const : forall A B (h : A -> B -> Prop) r r', rel_res h r r' -> yields h r (elift St r').
Proof. intros A B h r r' H s Hs. exists r', s. split; [reflexivity|split; assumption]. Qed.
Lemma yields_lift : forall A (r : res A), yields eq r (elift St r).
Proof. intros A r. apply yields_const. destruct r; reflexivity. Qed.
Lemma yields_ret : forall A (a : A), yields eq (Ok a) (eret St a).
Proof. intros A a. apply (yields_lift A (Ok a)). Qed.
Lemma yields_raise : forall A B (h : A -> B -> Prop) e, yields h (Err e) (eraise St e).
Proof. intros A B h e. apply (yields_const A B h (Err e) (Err e) eq_refl). Qed.
Lemma yields_weaken : forall A B (h h' : A -> B -> Prop) v c, (forall a b, h a b -> h' a b) ->
  yields h v c -> yields h' v c.
Proof.
  intros A B h h' v c Hh H s Hs. destruct (H s Hs) as [o [s1 [E [Q Hs1]]]].
  exists o, s1. split; [exact E|split; [|exact Hs1]].
  destruct v, o; cbn in *; auto.
Qed.

Definition num (a : R) (r : uret St) : Prop := vel_num (u_val _ r) = Fin a.
Definition kind_num (k : retkind) (a : R) (r : uret St) : Prop := u_val _ r = ret_val k (Fin a).

Lemma kind_num_num : forall k a r, kind_num k a r -> num a r.
Proof. intros k a r H. unfold num. rewrite H. destruct k; reflexivity. Qed.

Lemma yields_returns : forall F f k x, returns I F f k -> yields (kind_num k) (Ok (f x)) (F x).
Proof.
  intros F f k x H s Hs. destruct (H x s Hs) as [r [s1 [E [V Hs1]]]].
  exists (Ok r), s1. split; [exact E|split; [exact V|exact Hs1]].
Qed.

Lemma fd1_fin : forall a b c d dx, dx <> 0 ->
  (((Fin a - Fin b) / Fin 12 - Fin 2 * (Fin c - Fin d) / Fin 3) / Fin dx)%xr =
  Fin (((a - b) / 12 - 2 * (c - d) / 3) / dx).
Proof.
  intros a b c d dx H. cbn [xsub xadd xneg xmul]. rewrite xdiv_fin by lra.
  cbn [xsub xadd xneg xmul]. rewrite xdiv_fin by lra. cbn [xsub xadd xneg].
  rewrite xdiv_fin by exact H. f_equal.
Qed.
Lemma fd2_fin : forall a b o c d dx, dx <> 0 ->
  ((xneg (Fin a + Fin b) / Fin 12 - Fin (25/10) * Fin o + Fin 4 * (Fin c + Fin d) / Fin 3)
     / Fin (dx ^ 2))%xr =
  Fin ((- (a + b) / 12 - (25/10) * o + 4 * (c + d) / 3) / (dx ^ 2)).
Proof.
  intros a b o c d dx H. assert (dx ^ 2 <> 0) by (apply pow_nonzero; exact H).
  cbn [xsub xadd xneg xmul]. rewrite xdiv_fin by lra. cbn [xsub xadd xneg xmul].
  rewrite xdiv_fin by lra. cbn [xsub xadd xneg xmul]. rewrite xdiv_fin by assumption. f_equal.
Qed.

Lemma yields_fd1 : forall (F : ufun St) f x dx, dx <> 0 -> (forall t, yields num (Ok (f t)) (F t)) ->
  yields num (Ok (fd_1f f x dx)) (e_fd_1f St F x dx).
Proof.
  intros F f x dx Hdx H. unfold e_fd_1f, fd_1f.
  intros s Hs. unfold ebind.
  destruct (H (x - 2 * dx) s Hs) as [o1 [s1 [E1 [Q1 Hs1]]]]. rewrite E1.
  destruct o1 as [a|]; [|contradiction]. cbn in Q1.
  destruct (H (x + 2 * dx) s1 Hs1) as [o2 [s2 [E2 [Q2 Hs2]]]]. rewrite E2.
  destruct o2 as [b|]; [|contradiction]. cbn in Q2.
  destruct (H (x - dx) s2 Hs2) as [o3 [s3 [E3 [Q3 Hs3]]]]. rewrite E3.
  destruct o3 as [c|]; [|contradiction]. cbn in Q3.
  destruct (H (x + dx) s3 Hs3) as [o4 [s4 [E4 [Q4 Hs4]]]]. rewrite E4.
  destruct o4 as [d|]; [|contradiction]. cbn in Q4. cbn [eret].
  do 2 eexists. split; [reflexivity|]. split; [|exact Hs4].
  cbn [rel_res]. unfold num. cbn [fresh u_val vel_num].
  unfold num in *. rewrite Q1, Q2, Q3, Q4. apply fd1_fin, Hdx.
Qed.
Lemma yields_fd2 : forall (F : ufun St) f x dx, dx <> 0 -> (forall t, yields num (Ok (f t)) (F t)) ->
  yields num (Ok (fd_2f f x dx)) (e_fd_2f St F x dx).
Proof.
  intros F f x dx Hdx H. unfold e_fd_2f, fd_2f.
  intros s Hs. unfold ebind.
  destruct (H (x - 2 * dx) s Hs) as [o1 [s1 [E1 [Q1 Hs1]]]]. rewrite E1.
  destruct o1 as [a|]; [|contradiction]. cbn in Q1.
  destruct (H (x + 2 * dx) s1 Hs1) as [o2 [s2 [E2 [Q2 Hs2]]]]. rewrite E2.
  destruct o2 as [b|]; [|contradiction]. cbn in Q2.
  destruct (H x s2 Hs2) as [oo [so [Eo [Qo Hso]]]]. rewrite Eo.
  destruct oo as [z|]; [|contradiction]. cbn in Qo.
  destruct (H (x - dx) so Hso) as [o3 [s3 [E3 [Q3 Hs3]]]]. rewrite E3.
  destruct o3 as [c|]; [|contradiction]. cbn in Q3.
  destruct (H (x + dx) s3 Hs3) as [o4 [s4 [E4 [Q4 Hs4]]]]. rewrite E4.
  destruct o4 as [d|]; [|contradiction]. cbn in Q4. cbn [eret].
  do 2 eexists. split; [reflexivity|]. split; [|exact Hs4].
  cbn [rel_res]. unfold num. cbn [fresh u_val vel_num].
  unfold num in *. rewrite Q1, Q2, Q3, Q4, Qo. apply fd2_fin, Hdx.
Qed.

Section Method.
Variables (e : emeth St) (m : meth).
Hypothesis HS : same_method I e m.
Hypothesis HW : writable I e.

Lemma s_kind : m_kind (e_base _ e) = m_kind m. Proof. apply HS. Qed.
Lemma s_nu : m_nu (e_base _ e) = m_nu m. Proof. apply HS. Qed.
Lemma s_ic : m_ic (e_base _ e) = m_ic m. Proof. apply HS. Qed.
Lemma s_fit : m_fit (e_base _ e) = m_fit m. Proof. apply HS. Qed.
Lemma s_sol : m_sol (e_base _ e) = m_sol m. Proof. apply HS. Qed.
Lemma s_u : same_slot I (e_u _ e) (m_u m). Proof. apply HS. Qed.
Lemma s_du : same_slot I (e_du _ e) (m_du m). Proof. apply HS. Qed.
Lemma s_d2u : same_slot I (e_d2u _ e) (m_d2u m). Proof. apply HS. Qed.
Lemma s_events : Forall2 (same_event I) (e_events _ e) (m_events m). Proof. apply HS. Qed.

(** Returned velocities: kind and permission to write. *)
Definition vel (a : R) (r : uret St) : Prop :=
  kind_num (slot_kind (m_u m)) a r /\
  (m_kind m = Head -> forall b, u_val _ r = VArray (Fin b) -> Rabs b < 1/1000 ->
     forall t, I t -> I (u_write _ r (Fin (1/1000)) t)).

Lemma vel_num_of : forall a r, vel a r -> num a r.
Proof. intros a r [H _]. exact (kind_num_num _ _ _ H). Qed.

Lemma yields_call_u : forall x,
  yields vel (bind (call_plain (m_u m)) (fun f => Ok (f x))) (e_call_u St e x).
Proof.
  intros x. assert (U := s_u). unfold e_call_u, vel. assert (W := HW). unfold writable in W.
  rewrite s_kind in W.
  destruct (e_u St e) as [[F| | | |]|], (m_u m) as [[f k| | | |]|]; cbn in U |- *;
    try contradiction; try apply yields_raise.
  intros s Hs. destruct (U x s Hs) as [r [s1 [E [V Hs1]]]].
  exists (Ok r), s1. split; [exact E|split; [|exact Hs1]]. split; [exact V|].
  intros K b Vb Hb. exact (W K F eq_refl x s r s1 b Hs E Vb Hb).
Qed.
Lemma yields_call_du : forall x, yields num (call_du m x) (e_call_du St e x).
Proof.
  intros x. assert (U := s_du). unfold e_call_du, call_du.
  destruct (e_du St e) as [[F| | | |]|], (m_du m) as [[f k| | | |]|]; cbn in U |- *;
    try contradiction; try apply yields_raise.
  - apply (yields_weaken _ _ (kind_num k)); [intros a b; apply kind_num_num|].
    apply yields_returns, U.
  - assert (T := yields_call_u). destruct (call_plain (m_u m)) as [f|e0] eqn:Ef; cbn in T |- *.
    + apply yields_fd1; [lra|]. intros t.
      apply (yields_weaken _ _ vel); [apply vel_num_of|apply T].
    + intros s Hs. unfold e_fd_1f, ebind.
      destruct (T (x - 2 * (1/10000)) s Hs) as [o [s1 [E [Q Hs1]]]]. rewrite E.
      destruct o as [r|e1]; [contradiction|].
      exists (Err e1), s1. split; [reflexivity|split; [exact Q|exact Hs1]].
Qed.
Lemma du_fun_call : forall x, bind (du_fun m) (fun f => Ok (f x)) = call_du m x.
Proof.
  intros x. unfold du_fun, call_du. destruct (m_du m) as [[f k| | | |]|]; try reflexivity.
  cbn. destruct (call_plain (m_u m)); reflexivity.
Qed.
Lemma yields_call_d2u : forall x, yields num (call_d2u m x) (e_call_d2u St e x).
Proof.
  intros x. assert (U := s_d2u). unfold e_call_d2u, call_d2u.
  destruct (e_d2u St e) as [[F| | | |]|], (m_d2u m) as [[f k| | | |]|]; cbn in U |- *;
    try contradiction; try apply yields_raise.
  - apply (yields_weaken _ _ (kind_num k)); [intros a b; apply kind_num_num|].
    apply yields_returns, U.
  - assert (T := yields_call_u). destruct (call_plain (m_u m)) as [f|e0] eqn:Ef; cbn in T |- *.
    + apply yields_fd2; [lra|]. intros t.
      apply (yields_weaken _ _ vel); [apply vel_num_of|apply T].
    + intros s Hs. unfold e_fd_2f, ebind.
      destruct (T (x - 2 * (1/10000)) s Hs) as [o [s1 [E [Q Hs1]]]]. rewrite E.
      destruct o as [r|e1]; [contradiction|].
      exists (Err e1), s1. split; [reflexivity|split; [exact Q|exact Hs1]].
  - assert (T := yields_call_du). assert (D := du_fun_call).
    destruct (du_fun m) as [f|e0] eqn:Ef; cbn in D |- *.
    + apply yields_fd1; [lra|]. intros t. rewrite D. apply T.
    + intros s Hs. unfold e_fd_1f, ebind.
      destruct (T (x - 2 * (1/100000)) s Hs) as [o [s1 [E [Q Hs1]]]]. rewrite E.
      rewrite <- D in Q. destruct o as [r|e1]; [contradiction|].
      exists (Err e1), s1. split; [reflexivity|split; [exact Q|exact Hs1]].
Qed.

Lemma yields_u_e : forall x, yields vel (q_u_e m x) (eq_u_e St e x).
Proof.
  intros x. assert (U := s_u). assert (T := yields_call_u x). unfold eq_u_e, q_u_e.
  destruct (e_u St e) as [[F| | | |]|], (m_u m) as [[f k| | | |]|]; cbn in U |- *;
    try contradiction; try apply yields_raise; exact T.
Qed.
Lemma yields_du_e : forall x, yields num (q_du_e m x) (eq_du_e St e x).
Proof.
  intros x. assert (U := s_du). assert (T := yields_call_du x). unfold eq_du_e, q_du_e.
  destruct (e_du St e) as [[F| | | |]|], (m_du m) as [[f k| | | |]|]; cbn in U |- *;
    try contradiction; try apply yields_raise; exact T.
Qed.
Lemma yields_d2u_e : forall x, yields num (q_d2u_e m x) (eq_d2u_e St e x).
Proof.
  intros x. assert (U := s_d2u). assert (T := yields_call_d2u x). unfold eq_d2u_e, q_d2u_e.
  destruct (e_d2u St e) as [[F| | | |]|], (m_d2u m) as [[f k| | | |]|]; cbn in U |- *;
    try contradiction; try apply yields_raise; exact T.
Qed.

Definition fin (a : R) (b : xr) : Prop := b = Fin a.
Lemma yields_number : forall v c, yields num v c -> yields fin v (number St c).
Proof.
  intros v c H s Hs. destruct (H s Hs) as [o [s1 [E [Q Hs1]]]]. unfold number, ebind. rewrite E.
  destruct v as [a|e0], o as [r|e1]; cbn in *; try contradiction.
  - do 2 eexists. split; [reflexivity|split; [exact Q|exact Hs1]].
  - do 2 eexists. split; [reflexivity|split; [exact Q|exact Hs1]].
Qed.
Lemma yields_number_u : forall x, yields fin (q_u_e m x) (number St (eq_u_e St e x)).
Proof.
  intros x. apply yields_number. apply (yields_weaken _ _ vel); [apply vel_num_of|apply yields_u_e].
Qed.

Lemma yields_lambda : forall x s, yields eq (calc_lambda m x s) (e_calc_lambda St e x s).
Proof.
  intros x s. unfold calc_lambda, e_calc_lambda. apply (yields_bind _ _ _ _ fin).
  - apply yields_number, yields_du_e.
  - intros a b ->. apply yields_ret.
Qed.
Lemma yields_f : forall x s, yields eq (calc_f m x s) (e_calc_f St e x s).
Proof.
  intros x s. unfold calc_f, e_calc_f. rewrite s_kind, s_fit.
  apply (yields_bind _ _ _ _ eq); [apply yields_lambda|intros lam ? <-].
  destruct (m_kind m); [apply yields_ret| |];
    (destruct (m_fit m); [apply yields_ret|apply yields_raise]).
Qed.

Lemma yields_floor : forall a r, vel a r -> m_kind m = Head ->
  yields eq (ode_u_guard (ret_val (slot_kind (m_u m)) (Fin a))) (e_floor St r).
Proof.
  intros a r [V W] K s Hs. unfold e_floor, ebind, elift. rewrite V.
  destruct (slot_kind (m_u m)); cbn -[Rltb].
  - do 2 eexists. split; [reflexivity|split; [reflexivity|exact Hs]].
  - do 2 eexists. split; [reflexivity|split; [reflexivity|exact Hs]].
  - destruct (Rltb (Rabs a) (1/1000)) eqn:Ea.
    + do 2 eexists. split; [reflexivity|split; [reflexivity|]].
      apply (W K a V); [apply Rltb_iff, Ea|exact Hs].
    + do 2 eexists. split; [reflexivity|split; [reflexivity|exact Hs]].
Qed.

Lemma head_rhs_du : forall nu u v v' d h, vel_num v = vel_num v' ->
  head_rhs nu u v d h = head_rhs nu u v' d h.
Proof. intros nu u v v' d h H. unfold head_rhs. rewrite H. reflexivity. Qed.
Lemma vel_num_ret : forall k v, vel_num (ret_val k v) = v.
Proof. intros [| |] v; reflexivity. Qed.
Lemma head_rhs_err : forall nu u v d h e0, ode_u_guard u = Err e0 -> head_rhs nu u v d h = Err e0.
Proof. intros nu u v d h e0 H. unfold head_rhs. rewrite H. reflexivity. Qed.

(** The gradient can be asked for. *)
Definition gradient_set : Prop := forall x, exists d, q_du_e m x = Ok d.

Lemma yields_ode : (m_kind m = Head -> gradient_set) -> forall x f,
  yields eq (ode_impl m x f) (e_ode_impl St e x f).
Proof.
  intros HG x f. unfold ode_impl, e_ode_impl. rewrite s_kind.
  assert (T : forall s0, yields eq
    (bind (calc_f m x s0) (fun F => bind (q_u_e m x) (fun u => Ok [(F / (Fin (1/1000) + Fin u))%xr])))
    (ebind St (e_calc_f St e x s0) (fun F => ebind St (number St (eq_u_e St e x)) (fun u =>
       eret St [(F / (Fin (1/1000) + u))%xr])))).
  { intros s0. apply (yields_bind _ _ _ _ eq); [apply yields_f|intros F ? <-].
    apply (yields_bind _ _ _ _ fin); [apply yields_number_u|intros u ? ->]. apply yields_ret. }
  destruct (m_kind m) eqn:K.
  - destruct f as [|s0 [|]]; [apply yields_raise|apply T|apply yields_raise].
  - destruct f as [|s0 [|]]; [apply yields_raise|apply T|apply yields_raise].
  - destruct f as [|d [|h [|]]]; try apply yields_raise.
    apply (yields_bind _ _ _ _ vel); [apply yields_u_e|intros u r Vr].
    destruct (HG eq_refl x) as [du Hdu].
    assert (G := yields_floor u r Vr K).
    assert (D := yields_du_e x). rewrite Hdu in D |- *. cbn [bind].
    intros s Hs. unfold ebind at 1.
    destruct (G s Hs) as [o [s1 [E [Q Hs1]]]]. rewrite E.
    destruct (ode_u_guard (ret_val (slot_kind (m_u m)) (Fin u))) as [ug|eg] eqn:Eg;
      destruct o as [o|eo]; try contradiction; cbn in Q; subst o || subst eo.
    + unfold ebind at 1. destruct (D s1 Hs1) as [o2 [s2 [E2 [Q2 Hs2]]]]. rewrite E2.
      destruct o2 as [r2|]; [|contradiction]. cbn in Q2.
      destruct Vr as [Vr _]. rewrite Vr, s_nu.
      rewrite (head_rhs_du (m_nu m) _ (u_val _ r2) (ret_val (slot_kind (m_du m)) (Fin du)))
        by (rewrite Q2, vel_num_ret; reflexivity).
      unfold ebind, elift.
      destruct (head_rhs _ _ _ d h) as [p|ep]; cbn;
        (do 2 eexists; split; [reflexivity|split; [reflexivity|exact Hs2]]).
    + rewrite (head_rhs_err _ _ _ _ _ _ Eg). cbn.
      do 2 eexists. split; [reflexivity|split; [reflexivity|exact Hs1]].
Qed.

Lemma yields_event : forall E v, same_event I E v -> forall x f,
  yields eq (event_value m v x f) (e_event_value St e E x f).
Proof.
  intros E v (_ & _ & _ & H) x f. unfold event_value, e_event_value.
  destruct (ee_src St E) as [G|ft|c], (ev_src v) as [g|ft'|c']; try contradiction.
  - intros s Hs. destruct (H x f s Hs) as [s1 [E1 Hs1]].
    exists (Ok (g x f)), s1. split; [exact E1|split; [reflexivity|exact Hs1]].
  - subst ft'. destruct f as [|s0 [|]]; try apply yields_raise.
    apply (yields_bind _ _ _ _ eq); [apply yields_lambda|intros lam ? <-]. apply yields_ret.
  - subst c'. destruct f as [|d [|h [|]]]; try apply yields_raise. apply yields_ret.
Qed.

Lemma yields_run : forall p f F g G,
  (forall x y, yields eq (f x y) (F x y)) ->
  Forall2 (fun v V => forall x y, yields eq (v x y) (V x y)) g G ->
  yields eq (fst (run unit p (fun x y => elift _ (f x y)) (map (fun v x y => elift _ (v x y)) g) tt))
            (run St p F G).
Proof.
  intros p f F g G HF HG. induction p as [r|x y k IH|i x y k IH]; cbn.
  - apply yields_lift.
  - unfold ebind at 1. unfold elift at 1. assert (T := HF x y).
    intros s Hs. destruct (T s Hs) as [o [s1 [E [Q Hs1]]]]. unfold ebind. rewrite E.
    destruct (f x y) as [a|e0], o as [a'|e1]; cbn in Q |- *; try contradiction; subst.
    + apply (IH a' s1 Hs1).
    + do 2 eexists. split; [reflexivity|split; [reflexivity|exact Hs1]].
  - assert (T : match nth_error g i, nth_error G i with
                | Some v, Some V => forall x y, yields eq (v x y) (V x y)
                | None, None => True
                | _, _ => False
                end).
    { clear -HG. revert i. induction HG as [|v V g G Hv HG IHG]; intros [|i]; cbn;
        [exact Logic.I|exact Logic.I|exact Hv|apply IHG]. }
    rewrite nth_error_map.
    destruct (nth_error g i) as [v|], (nth_error G i) as [V|]; cbn; try contradiction.
    + intros s Hs. destruct (T x y s Hs) as [o [s1 [E [Q Hs1]]]]. unfold ebind, elift. rewrite E.
      destruct (v x y) as [a|e0], o as [a'|e1]; cbn in Q |- *; try contradiction; subst.
      * apply (IH a' s1 Hs1).
      * do 2 eexists. split; [reflexivity|split; [reflexivity|exact Hs1]].
    + apply yields_raise.
Qed.

(** Queries. *)
Lemma sol_at_same : forall x, sol_at (e_base _ e) x = sol_at m x.
Proof. intros x. unfold sol_at. rewrite s_sol. reflexivity. Qed.
Lemma delta_m_same : forall x, q_delta_m (e_base _ e) x = q_delta_m m x.
Proof. intros x. unfold q_delta_m. rewrite sol_at_same, s_kind, s_nu. reflexivity. Qed.

Lemma yields_shape_d : forall x, yields eq (q_shape_d m x) (eq_shape_d St e x).
Proof.
  intros x. unfold q_shape_d, eq_shape_d. rewrite sol_at_same, s_kind, s_fit.
  apply (yields_bind _ _ _ _ eq); [apply yields_lift|intros y ? <-].
  destruct (m_kind m); [| |apply yields_lift];
    (apply (yields_bind _ _ _ _ eq); [apply yields_lift|intros s0 ? <-];
     apply (yields_bind _ _ _ _ eq); [apply yields_lambda|intros lam ? <-];
     destruct (m_fit m); [apply yields_ret|apply yields_raise]).
Qed.
Lemma yields_delta_d : forall x, yields eq (q_delta_d m x) (eq_delta_d St e x).
Proof.
  intros x. unfold q_delta_d, eq_delta_d. rewrite delta_m_same.
  apply (yields_bind _ _ _ _ eq); [apply yields_lift|intros d ? <-].
  apply (yields_bind _ _ _ _ eq); [apply yields_shape_d|intros h ? <-]. apply yields_ret.
Qed.
Lemma yields_tau_w : m_kind m <> Head -> forall x rho,
  yields eq (q_tau_w_thwaites m x rho) (eq_tau_w St e x rho).
Proof.
  intros K x rho. unfold q_tau_w_thwaites, eq_tau_w. rewrite sol_at_same, s_kind, s_fit, s_nu.
  apply (yields_bind _ _ _ _ eq); [apply yields_lift|intros y ? <-].
  destruct (m_kind m); [| |contradiction];
    (apply (yields_bind _ _ _ _ eq); [apply yields_lift|intros s0 ? <-];
     apply (yields_bind _ _ _ _ eq); [apply yields_lambda|intros lam ? <-];
     apply (yields_bind _ _ _ _ fin); [apply yields_number_u|intros u ? ->];
     destruct (m_fit m); [|apply yields_raise];
     rewrite delta_m_same;
     apply (yields_bind _ _ _ _ eq); [apply yields_lift|intros d ? <-]; apply yields_ret).
Qed.

Lemma head_v_e_unfold : forall nu u du d h,
  head_v_e nu u du d h = bind (head_rhs nu u du d h) (fun yp =>
    Ok (vel_num du * h * d + vel_num u * snd yp * d + vel_num u * h * fst yp)%xr).
Proof. reflexivity. Qed.

Lemma yields_v_e : (m_kind m = Head -> gradient_set) -> forall x,
  yields eq (q_v_e m x) (eq_v_e St e x).
Proof.
  intros HG x. unfold q_v_e, eq_v_e. rewrite sol_at_same, s_kind, s_fit, s_nu.
  apply (yields_bind _ _ _ _ eq); [apply yields_lift|intros y ? <-].
  destruct (m_kind m) eqn:K.
  1, 2: (apply (yields_bind _ _ _ _ fin); [apply yields_number_u|intros u ? ->];
    apply (yields_bind _ _ _ _ fin); [apply yields_number, yields_du_e|intros du ? ->];
    apply (yields_bind _ _ _ _ eq); [apply yields_lift|intros s0 ? <-];
    apply (yields_bind _ _ _ _ eq); [apply yields_delta_d|intros dd ? <-];
    apply (yields_bind _ _ _ _ eq); [apply yields_ode; rewrite K; discriminate|intros rhs ? <-];
    apply (yields_bind _ _ _ _ eq); [apply yields_lift|intros dsol ? <-];
    apply (yields_bind _ _ _ _ eq); [apply yields_shape_d|intros h ? <-];
    apply (yields_bind _ _ _ _ eq); [apply yields_lambda|intros lam ? <-];
    destruct (m_fit m); [|apply yields_raise];
    apply (yields_bind _ _ _ _ fin); [apply yields_number, yields_d2u_e|intros d2u ? ->];
    apply yields_ret).
  assert (HG' : m_kind m = Head -> gradient_set) by (intros _; apply HG; reflexivity).
  assert (O := yields_ode HG' x y). unfold ode_impl in O. rewrite K in O.
  destruct y as [|d [|h [|]]].
  1, 2, 4: (intros s Hs; destruct (O s Hs) as [o [s1 [E [Q Hs1]]]];
    destruct o as [o|eo]; [contradiction|]; cbn in Q; subst eo; unfold ebind; rewrite E;
    do 2 eexists; split; [reflexivity|split; [reflexivity|exact Hs1]]).
  assert (Un := yields_number_u x). assert (Dn := yields_number _ _ (yields_du_e x)).
  intros s Hs. destruct (O s Hs) as [o [s1 [E [Q Hs1]]]]. unfold ebind. rewrite E. clear E O.
  destruct (q_u_e m x) as [u|eu]; cbn [bind] in Q |- *.
  2: { destruct o as [o|eo]; [contradiction|]. cbn in Q. subst eo.
       do 2 eexists. split; [reflexivity|split; [reflexivity|exact Hs1]]. }
  destruct (HG eq_refl x) as [du Hdu]. rewrite Hdu in *. cbn [bind] in Q |- *.
  rewrite head_v_e_unfold.
  destruct (head_rhs (m_nu m) (ret_val (slot_kind (m_u m)) (Fin u))
              (ret_val (slot_kind (m_du m)) (Fin du)) d h) as [yp|ep]; cbn [bind] in Q |- *.
  2: { destruct o as [o|eo]; [contradiction|]. cbn in Q. subst eo.
       do 2 eexists. split; [reflexivity|split; [reflexivity|exact Hs1]]. }
  destruct o as [o|eo]; [|contradiction]. cbn in Q. subst o.
  cbn [comp nth_error elift].
  destruct (Un s1 Hs1) as [o2 [s2 [E2 [Q2 Hs2]]]]. unfold elift. rewrite E2.
  destruct o2 as [v|]; [|contradiction]. cbn in Q2. unfold fin in Q2. subst v.
  destruct (Dn s2 Hs2) as [o3 [s3 [E3 [Q3 Hs3]]]]. rewrite E3.
  destruct o3 as [v|]; [|contradiction]. cbn in Q3. unfold fin in Q3. subst v.
  rewrite !vel_num_ret.
  do 2 eexists. split; [reflexivity|split; [reflexivity|exact Hs3]].
Qed.

End Method.
End Hidden.

(* ------------------------------------------------------------------ *)
(** * solve and set_velocity *)

Lemma du_status : forall m x d, q_du_e m x = Ok d -> forall y, exists d', q_du_e m y = Ok d'.
Proof.
  intros m x d. unfold q_du_e, call_du. destruct (m_du m) as [[f k| | | |]|]; try discriminate.
  - intros _ y. eexists; reflexivity.
  - destruct (call_plain (m_u m)) as [f|]; [|discriminate]. intros _ y. cbn. eexists; reflexivity.
Qed.

Lemma first_event_plain : forall St I (el : list (eevent St)) l te,
  Forall2 (same_event I) el l ->
  match first_event te (map (plain_event St) el), first_event te l with
  | Ok (Some (x, a)), Ok (Some (y, b)) => x = y /\ ev_reason a = ev_reason b /\ ev_message a = ev_message b
  | Ok None, Ok None => True
  | Err a, Err b => a = b
  | _, _ => False
  end.
Proof.
  intros St I el l te H. revert el l H.
  induction te as [|[|xe t] te IH]; intros el l H; cbn; [exact Logic.I| |].
  - destruct H as [|a b el l Hab H]; cbn; [apply (IH [] []); constructor|apply IH, H].
  - destruct H as [|a b el l Hab H]; cbn; [reflexivity|].
    destruct Hab as (H1 & H2 & _). repeat split; assumption.
Qed.

Lemma gather_plain : forall St I (el : list (eevent St)) l x0 y0 r,
  Forall2 (same_event I) el l ->
  gather x0 y0 (map (plain_event St) el) r = gather x0 y0 l r.
Proof.
  intros St I el l x0 y0 r H. unfold gather.
  assert (F := first_event_plain St I el l (r_t_events r) H).
  destruct (r_success r); [|reflexivity]. destruct (Z.eqb (r_status r) 0); [reflexivity|].
  destruct (Z.eqb (r_status r) 1); [|reflexivity].
  destruct (first_event (r_t_events r) (map (plain_event St) el)) as [[[x a]|]|ea],
    (first_event (r_t_events r) l) as [[[y b]|]|eb]; try contradiction; cbn.
  - destruct F as (-> & F1 & F2). rewrite F1, F2. reflexivity.
  - reflexivity.
  - rewrite F. reflexivity.
Qed.

Lemma ode_setup_same : forall b m, m_kind b = m_kind m -> m_nu b = m_nu m -> m_ic b = m_ic m ->
  ode_setup b = ode_setup m.
Proof. intros b m H1 H2 H3. unfold ode_setup. rewrite H1, H2, H3. reflexivity. Qed.

Lemma hidden_solve_lemma : forall St (I : St -> Prop) integrator e m x0 x1 el l s,
  same_method I e m -> writable I e -> Forall2 (same_event I) el l -> I s ->
  exists e' s',
    e_solve St integrator e x0 x1 el s =
      ((e', snd (solve (solver_of integrator) m x0 x1 l)), s') /\
    same_method I e' (fst (solve (solver_of integrator) m x0 x1 l)) /\ writable I e' /\ I s'.
Proof.
  intros St I integrator e m x0 x1 el l s HS HW HE Hs.
  destruct HS as (K & N & C & Ft & So & U & D & D2 & Ev).
  unfold e_solve, solve. rewrite C, N.
  destruct (ic_set_nu (m_ic m) (m_nu m)) as [c [u0|e0]].
  2: { do 2 eexists. split; [reflexivity|]. cbn. split; [|split; [exact HW|exact Hs]].
       repeat split; assumption. }
  cbv zeta.
  set (e1 := e_set_base St e (set_ic (e_base St e) c)). set (m1 := set_ic m c).
  assert (S1 : same_method I e1 m1) by (repeat split; assumption).
  assert (W1 : writable I e1) by exact HW.
  destruct (yields_number I _ _ (yields_du_e I e1 m1 S1 W1 x0) s Hs) as [o [s1 [E [Q Hs1]]]].
  rewrite E. clear E.
  destruct (q_du_e m1 x0) as [du|ed] eqn:Edu; destruct o as [v|eo]; try contradiction;
    cbn in Q; unfold fin in Q; subst.
  2: { do 2 eexists. split; [reflexivity|]. split; [exact S1|split; [exact W1|exact Hs1]]. }
  change (m_ic (e_base St e1)) with c. change (m_ic m1) with c.
  set (b2 := set_ic (e_base St e1) (ic_set_du c (Fin du))).
  set (m2 := set_ic m1 (ic_set_du c (Fin du))).
  rewrite (ode_setup_same b2 m2 K N eq_refl).
  set (e2 := e_set_base St e1 b2).
  assert (S2 : same_method I e2 m2) by (repeat split; assumption).
  destruct (ode_setup m2) as [y0|ey].
  2: { do 2 eexists. split; [reflexivity|]. split; [exact S2|split; [exact HW|exact Hs1]]. }
  set (e3 := e_set_events St e2 (e_events St e2 ++ el)).
  set (m3 := add_kill_events m2 l).
  assert (Ev3 : Forall2 (same_event I) (e_events St e3) (m_events m3))
    by (apply Forall2_app; assumption).
  assert (S3 : same_method I e3 m3) by (repeat split; try assumption).
  assert (W3 : writable I e3) by exact HW.
  assert (G3 : gradient_set m3) by (intros y; exact (du_status m1 x0 du Edu y)).
  assert (T : map (ee_terminal St) (e_events St e3) = map ev_terminal (m_events m3)).
  { clear -Ev3. revert Ev3. generalize (e_events St e3) (m_events m3). intros el' l' H.
    induction H as [|a b el' l' H HF IH]; cbn; [reflexivity|].
    rewrite IH. destruct H as (_ & _ & H & _). rewrite H. reflexivity. }
  rewrite T. unfold solver_of. rewrite !map_map. cbn [fst snd].
  assert (Y := yields_run I
    (integrator x0 x1 y0 (map ev_terminal (m_events m3)))
    (ode_impl m3) (e_ode_impl St e3) (map (event_value m3) (m_events m3))
    (map (e_event_value St e3) (e_events St e3))
    (yields_ode I e3 m3 S3 W3 (fun _ => G3))).
  rewrite map_map in Y.
  destruct (Y) with (s := s1) as [o2 [s2 [E2 [Q2 Hs2]]]].
  { clear -Ev3 S3 W3. revert Ev3. generalize (e_events St e3) (m_events m3).
    intros el' l' H. induction H as [|a b el' l' Hab H IH]; cbn; constructor; [|exact IH].
    intros x y. apply (yields_event I e3 m3 S3 W3 a b Hab). }
  { exact Hs1. }
  change (map (fun x => ev_terminal x) (m_events m3)) with (map ev_terminal (m_events m3)).
  rewrite E2. clear E2 Y.
  destruct (fst (run unit _ _ _ tt)) as [r|er]; destruct o2 as [r'|er']; try contradiction;
    cbn in Q2; subst.
  - do 2 eexists. rewrite (gather_plain St I _ _ x0 y0 r' Ev3). split; [reflexivity|].
    split; [repeat split; assumption|]. split; [exact HW|exact Hs2].
  - do 2 eexists. split; [reflexivity|]. split; [exact S3|split; [exact HW|exact Hs2]].
Qed.

Lemma hidden_set_velocity_lemma : forall St (I : St -> Prop) pchip e m c c' du du' d2u d2u' s,
  same_method I e m -> same_callable I c c' -> same_arg I du du' -> same_arg I d2u d2u' -> I s ->
  exists e' s',
    e_set_velocity St e c du d2u s =
      ((e', snd (set_velocity pchip m (PCall c') du' d2u')), s') /\
    same_method I e' (fst (set_velocity pchip m (PCall c') du' d2u')) /\ I s'.
Proof.
  intros St I pchip e m c c' du du' d2u d2u' s HS [HC HD] Hdu Hd2u Hs.
  destruct HS as (K & N & C & Ft & So & U & D & D2 & Ev).
  unfold e_set_velocity, set_velocity, set_velocity_callable. cbv zeta.
  destruct du as [|dc|], du' as [|dc'|u0|arr|tl|]; cbn in Hdu; try contradiction.
  - destruct d2u as [|d2c|], d2u' as [|d2c'|u0|arr|tl|]; cbn in Hd2u; try contradiction;
      try (do 2 eexists; split; [reflexivity|]; cbn; split; [repeat split; assumption|exact Hs]).
    destruct (ec_deriv St c) as [Dv|], (c_deriv c') as [dv|]; try contradiction.
    + destruct (HD 1%nat s Hs) as [s1 [Hs1 HD1]]. destruct (dv 1%nat) as [f1|x1].
      * destruct HD1 as [F1 [E1 R1]]. rewrite E1.
        destruct (HD 2%nat s1 Hs1) as [s2 [Hs2 HD2]]. destruct (dv 2%nat) as [f2|x2].
        -- destruct HD2 as [F2 [E2 R2]]. rewrite E2.
           do 2 eexists; split; [reflexivity|]; cbn; split; [repeat split; assumption|exact Hs2].
        -- rewrite HD2.
           do 2 eexists; split; [reflexivity|]; cbn; split; [repeat split; assumption|exact Hs2].
      * rewrite HD1.
        do 2 eexists; split; [reflexivity|]; cbn; split; [repeat split; assumption|exact Hs1].
    + do 2 eexists; split; [reflexivity|]; cbn; split; [repeat split; assumption|exact Hs].
  - destruct Hdu as [HdC HdD].
    destruct d2u as [|d2c|], d2u' as [|d2c'|u0|arr|tl|]; cbn in Hd2u; try contradiction;
      try (do 2 eexists; split; [reflexivity|]; cbn; split; [repeat split; assumption|exact Hs]).
    + destruct (ec_deriv St dc) as [Dv|], (c_deriv dc') as [dv|]; try contradiction.
      * destruct (HdD 1%nat s Hs) as [s1 [Hs1 HD1]]. destruct (dv 1%nat) as [f1|x1].
        -- destruct HD1 as [F1 [E1 R1]]. rewrite E1.
           do 2 eexists; split; [reflexivity|]; cbn; split; [repeat split; assumption|exact Hs1].
        -- rewrite HD1.
           do 2 eexists; split; [reflexivity|]; cbn; split; [repeat split; assumption|exact Hs1].
      * do 2 eexists; split; [reflexivity|]; cbn; split; [repeat split; assumption|exact Hs].
    + destruct Hd2u as [Hd2C _].
      do 2 eexists; split; [reflexivity|]; cbn; split; [repeat split; assumption|exact Hs].
  - do 2 eexists; split; [reflexivity|]; cbn; split; [repeat split; assumption|exact Hs].
  - do 2 eexists; split; [reflexivity|]; cbn; split; [repeat split; assumption|exact Hs].
  - do 2 eexists; split; [reflexivity|]; cbn; split; [repeat split; assumption|exact Hs].
  - do 2 eexists; split; [reflexivity|]; cbn; split; [repeat split; assumption|exact Hs].
Qed.

(* ------------------------------------------------------------------ *)
(** * Instances *)

(** A velocity array that the user's program holds on to. *)
Definition held_array : ufun xr := fun x s =>
  (Ok {| u_val := VArray s; u_write := fun v _ => v |}, s).
Definition flat_gradient St : ufun St := fun x s => (Ok (fresh St (VFloat (Fin 0))), s).
Definition head_base : meth :=
  {| m_kind := Head; m_nu := Fin 1; m_u := Some (VF (fun _ => 0) KArray);
     m_du := Some (VF (fun _ => 0) KFloat); m_d2u := Some (VF (fun _ => 0) KFloat);
     m_ic := new_manual (Fin 1) (Fin 1) (Fin 0); m_fit := None; m_events := [];
     m_sol := Some (fun _ => [Fin 1; Fin 2]) |}.
Definition head_held : emeth xr :=
  {| e_base := head_base; e_u := Some (EF _ held_array); e_du := Some (EF _ (flat_gradient xr));
     e_d2u := Some (EF _ (flat_gradient xr)); e_events := [] |}.

Lemma head_rhs_array : forall nu a v d h, exists p, head_rhs nu (VArray a) v d h = Ok p.
Proof. intros nu a v d h. eexists. reflexivity. Qed.

Lemma hidden_state_refuted_lemma : exists (St : Type) (I : St -> Prop) e m s x,
  same_method I e m /\ I s /\
  fst (number _ (eq_u_e St e x) s) = Ok (Fin 0) /\
  (exists v, fst (eq_v_e St e x s) = Ok v) /\
  fst (number _ (eq_u_e St e x) (snd (eq_v_e St e x s))) = Ok (Fin (1/1000)).
Proof.
  exists xr, (fun s => s = Fin 0), head_held, head_base, (Fin 0), 0.
  split.
  { repeat split; try reflexivity.
    - intros x s ->. do 2 eexists. split; [reflexivity|]. split; reflexivity.
    - intros x s ->. do 2 eexists. split; [reflexivity|]. split; reflexivity.
    - intros x s ->. do 2 eexists. split; [reflexivity|]. split; reflexivity.
    - constructor. }
  split; [reflexivity|]. split; [reflexivity|].
  assert (A : Rltb (Rabs 0) (1/1000) = true) by (apply Rltb_true; rewrite Rabs_R0; lra).
  unfold eq_v_e, ebind, elift, sol_at, e_ode_impl, e_floor, eq_u_e, eq_du_e, e_call_u, e_call_du,
    number, ebind, elift. cbn -[Rltb head_rhs Rabs xadd xmul].
  rewrite A.
  destruct (head_rhs_array (Fin 1) (Fin 0) (VFloat (Fin 0)) (Fin 1) (Fin 2)) as [p Hp].
  rewrite Hp. cbn -[xadd xmul]. split; [eexists; reflexivity|reflexivity].
Qed.

(** A velocity function that remembers its last value. *)
Definition remembering : ufun (option (R * R)) := fun x s =>
  match s with
  | Some (x', v) => if Req_EM_T x x' then (Ok (fresh _ (VFloat (Fin v))), s)
                    else (Ok (fresh _ (VFloat (Fin (1 + x)))), Some (x, 1 + x))
  | None => (Ok (fresh _ (VFloat (Fin (1 + x)))), Some (x, 1 + x))
  end.
Definition memory_right (s : option (R * R)) : Prop :=
  match s with Some (x, v) => v = 1 + x | None => True end.
Definition remembering_callable : ecallable (option (R * R)) :=
  {| ec_fun := remembering; ec_deriv := None |}.
Definition plain_callable : callable :=
  {| c_fun := fun x => 1 + x; c_ret := KFloat; c_deriv := None |}.

Lemma remembering_returns : returns memory_right remembering (fun x => 1 + x) KFloat.
Proof.
  intros x [[x' v]|] H; cbn in H |- *.
  - destruct (Req_EM_T x x') as [->|N].
    + do 2 eexists. split; [reflexivity|]. split; [cbn; rewrite H; reflexivity|exact H].
    + do 2 eexists. split; [reflexivity|]. split; reflexivity.
  - do 2 eexists. split; [reflexivity|]. split; reflexivity.
Qed.
Lemma remembering_same : same_callable memory_right remembering_callable plain_callable.
Proof. split; [exact remembering_returns|exact Logic.I]. Qed.
Lemma bare_same : forall St (I : St -> Prop) k, same_method I (ebare St k) (bare k).
Proof. intros St I k. repeat split; constructor. Qed.

(** An integrator that evaluates the right-hand side at both ends. *)
Definition two_ends (x0 x1 : R) (y0 : list xr) (t : list bool) : ask :=
  AskRhs x0 y0 (fun v => AskRhs x1 y0 (fun w => Done (Ok
    {| r_success := true; r_status := 0%Z; r_message := ""; r_t := [x0; x1];
       r_sol := fun _ => y0; r_t_events := [] |}))).

Lemma yields_exact : forall St (I : St -> Prop) A (v : res A) c s, yields I eq v c -> I s ->
  exists s', c s = (v, s') /\ I s'.
Proof.
  intros St I A v c s H Hs. destruct (H s Hs) as [o [s1 [E [Q Hs1]]]].
  apply rel_res_eq in Q. subst o. exists s1. split; assumption.
Qed.
Lemma yields_exact_fin : forall St (I : St -> Prop) (v : res R) c s, yields I fin v c -> I s ->
  exists s', c s = (res_map Fin v, s') /\ I s'.
Proof.
  intros St I v c s H Hs. destruct (H s Hs) as [o [s1 [E [Q Hs1]]]].
  exists s1. split; [|exact Hs1]. rewrite E. f_equal.
  destruct v, o; cbn in *; try contradiction; unfold fin in *; congruence.
Qed.

Lemma hidden_queries_lemma : forall St (I : St -> Prop) e m x rho s,
  same_method I e m -> writable I e -> I s ->
  (exists s', number _ (eq_u_e St e x) s = (res_map Fin (q_u_e m x), s') /\ I s') /\
  (exists s', number _ (eq_du_e St e x) s = (res_map Fin (q_du_e m x), s') /\ I s') /\
  (exists s', number _ (eq_d2u_e St e x) s = (res_map Fin (q_d2u_e m x), s') /\ I s') /\
  q_delta_m (e_base _ e) x = q_delta_m m x /\
  (exists s', eq_shape_d St e x s = (q_shape_d m x, s') /\ I s') /\
  (exists s', eq_delta_d St e x s = (q_delta_d m x, s') /\ I s') /\
  (m_kind m <> Head -> exists s', eq_tau_w St e x rho s = (q_tau_w_thwaites m x rho, s') /\ I s') /\
  ((m_kind m = Head -> exists d, q_du_e m x = Ok d) ->
   exists s', eq_v_e St e x s = (q_v_e m x, s') /\ I s').
Proof.
  intros St I e m x rho s HS HW Hs.
  split; [|split; [|split; [|split; [|split; [|split; [|split]]]]]].
  - apply yields_exact_fin; [apply yields_number_u; assumption|exact Hs].
  - apply yields_exact_fin; [apply yields_number, yields_du_e; assumption|exact Hs].
  - apply yields_exact_fin; [apply yields_number, yields_d2u_e; assumption|exact Hs].
  - apply (delta_m_same I); assumption.
  - apply yields_exact; [apply yields_shape_d; assumption|exact Hs].
  - apply yields_exact; [apply yields_delta_d; assumption|exact Hs].
  - intros K. apply yields_exact; [apply yields_tau_w; assumption|exact Hs].
  - intros HG. apply yields_exact; [apply yields_v_e; try assumption|exact Hs].
    intros K y. destruct (HG K) as [d Hd]. exact (du_status m x d Hd y).
Qed.
