(** Proofs about shallow copies. *)
From Coq Require Import Reals List String Bool ZArith Lra Lia FunctionalExtensionality.
From Verif Require Import PyBase FiniteDiffModel PPolyModel InitialConditionModel
  ThwaitesFitsModel HeadModel CoreModel CoreSpec CopyModel CopySpec CopyProofs ShallowModel ShallowSpec.
Import ListNotations.
Open Scope R_scope.

Lemma upd_same {A} (f : nat -> A) i x : upd f i x i = x.
Proof. unfold upd. rewrite Nat.eqb_refl. reflexivity. Qed.
Lemma upd_other {A} (f : nat -> A) i x j : j <> i -> upd f i x j = f j.
Proof. intro H. unfold upd. destruct (Nat.eqb_spec j i); congruence. Qed.

(* ------------------------------------------------------------------ *)
(** * What a call can change *)

Definition made_for (i : nat) (l : list (event * nat)) : Prop := forall b, In b l -> snd b = i.

Record eff (i : nat) (w w' : store) : Prop := {
  eff_next : st_next w' = st_next w;
  eff_obj : forall k, k <> i -> st_obj w' k = st_obj w k;
  eff_ic : forall c, (c < st_nic w)%nat -> c <> s_ic (st_obj w i) -> st_ics w' c = st_ics w c;
  eff_ev : forall c, (c < st_nev w)%nat -> c <> s_ev (st_obj w i) -> st_evs w' c = st_evs w c;
  eff_nic : (st_nic w <= st_nic w')%nat;
  eff_nev : (st_nev w <= st_nev w')%nat;
  eff_sic : s_ic (st_obj w' i) = s_ic (st_obj w i) \/ (st_nic w <= s_ic (st_obj w' i) < st_nic w')%nat;
  eff_sev : s_ev (st_obj w' i) = s_ev (st_obj w i) \/ (st_nev w <= s_ev (st_obj w' i) < st_nev w')%nat;
  eff_own : made_for i (st_evs w (s_ev (st_obj w i))) -> made_for i (st_evs w' (s_ev (st_obj w' i))) }.

Lemma eff_refl i w : eff i w w.
Proof. constructor; auto. Qed.
Lemma eff_trans i w1 w2 w3 : eff i w1 w2 -> eff i w2 w3 -> eff i w1 w3.
Proof.
  intros [A1 A2 A3 A4 A5 A6 A7 A8 A9] [B1 B2 B3 B4 B5 B6 B7 B8 B9]. constructor.
  - congruence.
  - intros k H. rewrite B2, A2 by assumption. reflexivity.
  - intros c H1 H2. rewrite B3; [apply A3; assumption|lia|]. destruct A7 as [E|E]; [congruence|lia].
  - intros c H1 H2. rewrite B4; [apply A4; assumption|lia|]. destruct A8 as [E|E]; [congruence|lia].
  - lia.
  - lia.
  - destruct B7 as [E|E]; [|lia]. rewrite E. destruct A7 as [E'|E']; [left; exact E'|lia].
  - destruct B8 as [E|E]; [|lia]. rewrite E. destruct A8 as [E'|E']; [left; exact E'|lia].
  - auto.
Qed.
Lemma eff_put_ic i w c : eff i w (put_ic w i c).
Proof.
  constructor; cbn; auto. intros k H1 H2. apply upd_other; assumption.
Qed.
Lemma eff_extend i w l : eff i w (extend_events w i l).
Proof.
  constructor; cbn; auto.
  - intros k H1 H2. apply upd_other; assumption.
  - intros H. rewrite upd_same. intros b Hb. apply in_app_or in Hb. destruct Hb as [Hb|Hb]; [apply H, Hb|].
    apply in_map_iff in Hb. destruct Hb as (e & <- & _). reflexivity.
Qed.
Lemma eff_put_obj i w x : s_ic x = s_ic (st_obj w i) -> s_ev x = s_ev (st_obj w i) -> eff i w (put_obj w i x).
Proof.
  intros E1 E2. constructor; cbn; auto.
  - intros k H. apply upd_other; assumption.
  - rewrite upd_same. auto.
  - rewrite upd_same. auto.
  - rewrite upd_same, E2. auto.
Qed.
Lemma eff_new_ic i w c : eff i w (new_ic w i c).
Proof.
  constructor; cbn; auto.
  - intros k H. apply upd_other; assumption.
  - intros k H1 _. apply upd_other; lia.
  - rewrite upd_same. cbn. right. lia.
  - rewrite upd_same. auto.
  - rewrite upd_same. auto.
Qed.
Lemma eff_new_events i w l : eff i w (new_events w i l).
Proof.
  constructor; cbn; auto.
  - intros k H. apply upd_other; assumption.
  - intros k H1 _. apply upd_other; lia.
  - rewrite upd_same. auto.
  - rewrite upd_same. cbn. right. lia.
  - intros _. rewrite upd_same. cbn [s_ev]. rewrite upd_same. intros b Hb. apply in_map_iff in Hb. destruct Hb as (e & <- & _). reflexivity.
Qed.

Section Calls.
Variable pchip : ndarray -> ndarray -> res ppoly.
Variable cubic_spline : list R -> list R -> (xr -> xr) * (xr -> xr).
Variable solve_ivp :
  (R -> list xr -> res (list xr)) -> R -> R -> list xr ->
  list (bool * (R -> list xr -> res xr)) -> res ivp_result.
Notation step := (step pchip cubic_spline solve_ivp).
Notation run := (run pchip cubic_spline solve_ivp).
Notation trace := (trace pchip cubic_spline solve_ivp).
Notation call_on := (call_on pchip cubic_spline solve_ivp).
Notation scall := (scall pchip cubic_spline solve_ivp).
Notation sstep := (sstep pchip cubic_spline solve_ivp).
Notation srun := (srun pchip cubic_spline solve_ivp).
Notation soutcomes := (soutcomes pchip cubic_spline solve_ivp).

Lemma scall_eff w i o : eff i w (fst (scall w i o)).
Proof.
  destruct o; cbn [ShallowModel.scall fst].
  - apply eff_put_obj; reflexivity.
  - apply eff_put_obj; reflexivity.
  - apply eff_new_ic.
  - apply eff_put_ic.
  - apply eff_put_ic.
  - destruct (accepted _); cbn [fst]; [|apply eff_refl]. eapply eff_trans; [|apply eff_new_events]. apply eff_put_obj; reflexivity.
  - destruct (accepted _); cbn [fst]; [|apply eff_refl]. apply eff_new_events.
  - unfold solve_on. destruct (ic_set_nu _ _) as [c [u|e]]; [|apply eff_put_ic].
    destruct (q_du_e _ _) as [du|e]; [|apply eff_put_ic].
    destruct (ode_setup _) as [y|e]; [|cbn [fst]; eapply eff_trans; apply eff_put_ic].
    assert (E : eff i w (extend_events (put_ic (put_ic w i c) i (ic_set_du (m_ic (seen (put_ic w i c) i)) (Fin du))) i l)).
    { eapply eff_trans; [|apply eff_extend]. eapply eff_trans; apply eff_put_ic. }
    destruct (solve_ivp _ _ _ _ _) as [r|e]; [|exact E].
    cbn [fst]. eapply eff_trans; [exact E|]. apply eff_put_obj; reflexivity.
Qed.

(* ------------------------------------------------------------------ *)
(** * An object that shares nothing *)

Definition wf (w : store) : Prop :=
  forall i, (i < st_next w)%nat -> (s_ic (st_obj w i) < st_nic w)%nat /\ (s_ev (st_obj w i) < st_nev w)%nat.
Definition apart (w : store) (k : nat) : Prop :=
  forall i, (i < st_next w)%nat -> i <> k -> s_ic (st_obj w i) <> s_ic (st_obj w k) /\ s_ev (st_obj w i) <> s_ev (st_obj w k).
Definition alone (w : store) (k : nat) : Prop :=
  own (as_heap w) k /\ made_for k (st_evs w (s_ev (st_obj w k))) /\ apart w k.

Lemma wf_call w i o : wf w -> (i < st_next w)%nat -> wf (fst (scall w i o)).
Proof.
  intros W Hi k Hk. destruct (scall_eff w i o) as [E1 E2 _ _ E5 E6 E7 E8 _]. rewrite E1 in Hk.
  destruct (Nat.eq_dec k i) as [->|N].
  - destruct (W i Hi). split; [destruct E7 as [E|E]; [rewrite E; lia|lia]|destruct E8 as [E|E]; [rewrite E; lia|lia]].
  - rewrite E2 by assumption. destruct (W k Hk). split; lia.
Qed.

Lemma attributes_other w i o k : wf w -> (k < st_next w)%nat -> i <> k ->
  s_ic (st_obj w k) <> s_ic (st_obj w i) -> s_ev (st_obj w k) <> s_ev (st_obj w i) ->
  attributes (fst (scall w i o)) k = attributes w k.
Proof.
  intros W Hk N N1 N2. destruct (scall_eff w i o) as [_ E2 E3 E4 _ _ _ _ _]. destruct (W k Hk) as [W1 W2].
  unfold attributes. rewrite E2 by congruence. rewrite E3, E4 by assumption. reflexivity.
Qed.

Lemma alone_other w i o k : wf w -> (k < st_next w)%nat -> (i < st_next w)%nat -> i <> k -> alone w k ->
  alone (fst (scall w i o)) k /\ attributes (fst (scall w i o)) k = attributes w k.
Proof.
  intros W Hk Hi N (O & M & A). destruct (A i Hi N) as [A1 A2].
  assert (E : attributes (fst (scall w i o)) k = attributes w k) by (apply attributes_other; auto).
  destruct (scall_eff w i o) as [E1 E2 E3 E4 E5 E6 E7 E8 _]. destruct (W k Hk) as [W1 W2].
  split; [|exact E]. split.
  { unfold own in *. cbn [as_heap h_obj o_meth o_du_self o_d2u_self o_fit_self] in *. rewrite E. rewrite E2 by congruence. exact O. }
  split. { rewrite E2 by congruence. rewrite E4 by auto. exact M. }
  intros j Hj Nj. rewrite E1 in Hj. rewrite (E2 k) by congruence. destruct (Nat.eq_dec j i) as [->|Nji].
  - split; [destruct E7 as [->|E7]; [exact A1|lia]|destruct E8 as [->|E8]; [exact A2|lia]].
  - rewrite E2 by assumption. apply A; assumption.
Qed.

Lemma seen_ic w i c : seen (put_ic w i c) i = set_ic (seen w i) c.
Proof.
  unfold seen, as_seen, set_ic, set_fit, set_d2u, set_du. cbn. unfold attributes, set_events, set_ic. cbn. rewrite upd_same. reflexivity.
Qed.
Lemma seen_extend w i l : seen (extend_events w i l) i = add_kill_events (seen w i) l.
Proof.
  unfold seen, as_seen, add_kill_events, set_events, set_fit, set_d2u, set_du. cbn. unfold attributes, set_events, set_ic. cbn.
  rewrite upd_same, map_app, map_map. cbn. rewrite map_id. reflexivity.
Qed.
Lemma seen_sol w i s : m_events (seen (put_obj w i (put_meth (st_obj w i) (set_sol (s_meth (st_obj w i)) s))) i) = m_events (seen w i).
Proof. cbn. unfold attributes. cbn. rewrite upd_same. reflexivity. Qed.

Lemma event_functions_own w i : made_for i (st_evs w (s_ev (st_obj w i))) ->
  event_functions w i = map (fun e => (ev_terminal e, event_value (seen w i) e)) (m_events (seen w i)).
Proof.
  intros M. unfold event_functions. cbn. rewrite map_map. apply map_ext_in. intros b Hb. rewrite (M b Hb). reflexivity.
Qed.

(** [solve] on an object that shares nothing is CoreModel's [solve]. *)
Lemma solve_on_alone w i x0 x1 l : made_for i (st_evs w (s_ev (st_obj w i))) ->
  snd (solve_on solve_ivp w i x0 x1 l) = snd (solve solve_ivp (seen w i) x0 x1 l) /\
  attributes (fst (solve_on solve_ivp w i x0 x1 l)) i = write_back (attributes w i) (fst (solve solve_ivp (seen w i) x0 x1 l)).
Proof.
  intros M. unfold solve_on, solve.
  destruct (ic_set_nu (m_ic (seen w i)) (m_nu (seen w i))) as [c [u|e]].
  2:{ split; [reflexivity|]. unfold write_back, attributes. cbn. rewrite upd_same. reflexivity. }
  cbv zeta. rewrite !seen_ic. destruct (q_du_e (set_ic (seen w i) c) x0) as [du|e].
  2:{ split; [reflexivity|]. unfold write_back, attributes. cbn. rewrite upd_same. reflexivity. }
  rewrite seen_ic. rewrite !seen_ic.
  set (c2 := ic_set_du (m_ic (set_ic (seen w i) c)) (Fin du)). set (w2 := put_ic (put_ic w i c) i c2).
  destruct (ode_setup (set_ic (set_ic (seen w i) c) c2)) as [y0|e].
  2:{ split; [reflexivity|]. unfold write_back, attributes, w2. cbn. rewrite upd_same. reflexivity. }
  assert (E2 : seen w2 i = set_ic (set_ic (seen w i) c) c2) by (unfold w2; rewrite !seen_ic; reflexivity).
  rewrite seen_extend, E2. rewrite event_functions_own.
  2:{ apply (eff_own i w); [|exact M]. eapply eff_trans; [|apply eff_extend]. unfold w2. eapply eff_trans; apply eff_put_ic. }
  rewrite seen_extend, E2.
  destruct (solve_ivp _ _ _ _ _) as [r|e].
  2:{ split; [reflexivity|]. unfold write_back, attributes, w2. cbn. rewrite ?upd_same. rewrite map_app, map_map. cbn. rewrite map_id. reflexivity. }
  cbn [fst snd]. rewrite seen_sol, seen_extend, E2. split; [reflexivity|].
  unfold write_back, attributes, w2. cbn. rewrite ?upd_same. cbn. rewrite ?upd_same. rewrite map_app, map_map. cbn. rewrite map_id. reflexivity.
Qed.

Lemma attributes_same w w' k : st_obj w' k = st_obj w k -> st_ics w' (s_ic (st_obj w k)) = st_ics w (s_ic (st_obj w k)) ->
  st_evs w' (s_ev (st_obj w k)) = st_evs w (s_ev (st_obj w k)) -> attributes w' k = attributes w k.
Proof. intros E1 E2 E3. unfold attributes. rewrite E1, E2, E3. reflexivity. Qed.

(** A call on an object that shares nothing is the call of CopyModel. *)
Lemma call_sim w k o : made_for k (st_evs w (s_ev (st_obj w k))) ->
  snd (scall w k o) = snd (call_on (as_heap w) k o) /\
  h_obj (as_heap (fst (scall w k o))) k = h_obj (fst (call_on (as_heap w) k o)) k.
Proof.
  intros M.
  assert (X : forall m : meth, set_events (set_ic m (m_ic m)) (m_events m) = m) by (intros []; reflexivity).
  assert (Mf : forall l : list event, map fst (map (fun e => (e, k)) l) = l) by (intros l; rewrite map_map; cbn; apply map_id).
  destruct o; cbn [ShallowModel.scall CopyModel.call_on fst snd].
  - (* nu *) split; [reflexivity|]. rewrite put_same. cbn [as_heap h_obj]. unfold attributes at 1. cbn [put_obj st_obj st_ics st_evs].
    rewrite upd_same. cbn [put_meth s_meth s_ic s_ev s_du_self s_d2u_self s_fit_self o_meth]. f_equal.
    unfold CoreSpec.step, set_nu. destruct (xleb v (Fin 0)); reflexivity.
  - (* velocity *) split; [reflexivity|]. rewrite put_same. cbn [as_heap h_obj]. unfold attributes at 1. cbn [put_obj st_obj st_ics st_evs].
    rewrite upd_same. cbn [put_meth s_meth s_ic s_ev s_du_self s_d2u_self s_fit_self o_meth o_du_self o_d2u_self o_fit_self]. f_equal.
    destruct (velocity_others pchip cubic_spline solve_ivp (attributes w k) u du d2u) as (V1 & V2 & V3 & V4 & V5).
    rewrite <- (X (fst (step (attributes w k) (OpVelocity u du d2u)))) at 2. rewrite V3, V4. reflexivity.
  - (* condition *) split; [reflexivity|]. rewrite put_same. cbn [as_heap h_obj]. unfold attributes at 1. cbn [new_ic st_obj st_ics st_evs].
    rewrite upd_same. cbn [s_meth s_ic s_ev s_du_self s_d2u_self s_fit_self]. rewrite upd_same. reflexivity.
  - (* delta_m *) split; [reflexivity|]. rewrite put_same. cbn [as_heap h_obj]. unfold attributes at 1. cbn [put_ic st_obj st_ics st_evs].
    rewrite upd_same. f_equal. cbn [o_meth CoreSpec.step no_result fst]. unfold set_initial_delta_m. destruct (xleb v (Fin 0)); reflexivity.
  - (* shape_d *) split; [reflexivity|]. rewrite put_same. cbn [as_heap h_obj]. unfold attributes at 1. cbn [put_ic st_obj st_ics st_evs].
    rewrite upd_same. f_equal. cbn [o_meth CoreSpec.step no_result fst]. unfold set_initial_shape_d. destruct (m_kind (attributes w k)); try reflexivity.
    destruct (xleb v (Fin 0)); [reflexivity|]. destruct (get_initial_delta_m (attributes w k)); reflexivity.
  - (* fits *) cbn [as_heap h_obj o_meth]. destruct (accepted (snd (step (attributes w k) (OpFits a)))) eqn:E; cbn [fst snd].
    + split; [reflexivity|]. rewrite put_same. unfold attributes at 1. cbn [new_events put_obj st_obj st_ics st_evs].
      rewrite ?upd_same. cbn [s_meth s_ic s_ev s_du_self s_d2u_self s_fit_self]. rewrite ?upd_same. cbn [s_ic s_du_self s_d2u_self s_fit_self s_meth]. rewrite Mf. f_equal.
      cbn [CoreSpec.step no_result fst snd] in *. destruct (m_kind (attributes w k)); cbn [fst snd] in *; [| |reflexivity];
        unfold set_data_fits; destruct (choose_fit cubic_spline a); reflexivity.
    + split; [reflexivity|]. rewrite put_same. f_equal.
      cbn [CoreSpec.step no_result fst snd] in *. destruct (m_kind (attributes w k)); cbn [fst snd] in *; [| |reflexivity];
        unfold set_data_fits in *; destruct (choose_fit cubic_spline a); cbn in E |- *; congruence.
  - (* critical *) cbn [as_heap h_obj o_meth]. cbn [CoreSpec.step]. destruct (m_kind (attributes w k)) eqn:Ek; cbn [accepted fst snd].
    1,2: split; [reflexivity|]; rewrite put_same; reflexivity.
    split; [reflexivity|]. rewrite put_same. unfold attributes at 1. cbn [new_events put_obj st_obj st_ics st_evs].
    rewrite ?upd_same. cbn [s_meth s_ic s_ev s_du_self s_d2u_self s_fit_self]. rewrite ?upd_same. rewrite Mf. reflexivity.
  - (* solve *) destruct (solve_on_alone w k x0 x_end l M) as [S1 S2].
    assert (Q : eff k w (fst (solve_on solve_ivp w k x0 x_end l))) by exact (scall_eff w k (OpSolve x0 x_end l)).
    split. { rewrite S1. reflexivity. }
    rewrite put_same. cbn [as_heap h_obj]. rewrite S2. unfold write_back. cbn [o_meth CoreSpec.step fst snd]. fold (seen w k).
    assert (Es : s_du_self (st_obj (fst (solve_on solve_ivp w k x0 x_end l)) k) = s_du_self (st_obj w k) /\
                 s_d2u_self (st_obj (fst (solve_on solve_ivp w k x0 x_end l)) k) = s_d2u_self (st_obj w k) /\
                 s_fit_self (st_obj (fst (solve_on solve_ivp w k x0 x_end l)) k) = s_fit_self (st_obj w k)).
    { unfold solve_on. destruct (ic_set_nu _ _) as [c [u|e]]; [|auto]. destruct (q_du_e _ _) as [du|e]; [|auto].
      destruct (ode_setup _) as [y|e]; [|auto]. destruct (solve_ivp _ _ _ _ _) as [r|e]; [|auto]. cbn. rewrite upd_same. auto. }
    destruct Es as (-> & -> & ->). reflexivity.
Qed.

Lemma alone_call w k o : wf w -> (k < st_next w)%nat -> alone w k ->
  snd (scall w k o) = snd (step (attributes w k) o) /\
  attributes (fst (scall w k o)) k = fst (step (attributes w k) o) /\
  alone (fst (scall w k o)) k.
Proof.
  intros W Hk (O & M & A). destruct (call_sim w k o M) as [S1 S2].
  destruct (own_call pchip cubic_spline solve_ivp (as_heap w) k o O) as (C1 & C2 & C3).
  split; [rewrite S1; exact C1|]. split. { change (attributes (fst (scall w k o)) k) with (o_meth (h_obj (as_heap (fst (scall w k o))) k)). rewrite S2. exact C2. }
  destruct (scall_eff w k o) as [E1 E2 _ _ _ _ E7 E8 E9].
  split; [exact (own_ext _ _ _ S2 C3)|]. split; [exact (E9 M)|].
  intros j Hj Nj. rewrite E1 in Hj. rewrite E2 by assumption. destruct (A j Hj Nj) as [A1 A2]. destruct (W j Hj) as [W1 W2].
  split; [destruct E7 as [->|E7]; [exact A1|lia]|destruct E8 as [->|E8]; [exact A2|lia]].
Qed.

(* ------------------------------------------------------------------ *)
(** * Programs that renew their copies *)

Definition kinds (w : store) (ks : nat -> mkind) : Prop :=
  forall k, (k < st_next w)%nat -> m_kind (attributes w k) = ks k /\ (ks k = Head -> m_fit (attributes w k) = None).
Definition inv (w : store) (ks : nat -> mkind) : Prop :=
  wf w /\ kinds w ks /\ forall k, (k < st_next w)%nat -> alone w k.

Lemma step_kind m o : m_kind (fst (step m o)) = m_kind m.
Proof.
  destruct o; cbn [CoreSpec.step no_result fst].
  - unfold set_nu. destruct (xleb v (Fin 0)); reflexivity.
  - exact (proj1 (velocity_others pchip cubic_spline solve_ivp m u du d2u)).
  - reflexivity.
  - unfold set_initial_delta_m. destruct (xleb v (Fin 0)); reflexivity.
  - unfold set_initial_shape_d. destruct (m_kind m) eqn:E; try exact E. destruct (xleb v (Fin 0)); [exact E|].
    destruct (get_initial_delta_m m); exact E.
  - exact (proj1 (fits_others pchip cubic_spline solve_ivp m a)).
  - destruct (m_kind m) eqn:E; exact E.
  - rewrite <- solve_write_back. reflexivity.
Qed.
Lemma step_head_fit m o : m_kind m = Head -> m_fit (fst (step m o)) = m_fit m.
Proof.
  intros K. destruct (keeps_functions o) eqn:Ek.
  - assert (F := keeps_fns pchip cubic_spline solve_ivp m o Ek). unfold fns in F. congruence.
  - destruct o; try discriminate Ek.
    + apply velocity_fit.
    + cbn [CoreSpec.step]. rewrite K. reflexivity.
Qed.

Lemma inv_call w ks i o : inv w ks -> (i < st_next w)%nat -> inv (fst (scall w i o)) ks.
Proof.
  intros (W & K & A) Hi. assert (N := eff_next _ _ _ (scall_eff w i o)).
  split; [apply wf_call; assumption|]. split; intros k Hk; rewrite N in Hk.
  - destruct (Nat.eq_dec k i) as [->|Nk].
    + destruct (alone_call w i o W Hi (A i Hi)) as (_ & -> & _). destruct (K i Hi) as [K1 K2]. split; [rewrite step_kind; exact K1|].
      intros Hh. rewrite step_head_fit by congruence. apply K2, Hh.
    + destruct (alone_other w i o k W Hk Hi (fun E => Nk (eq_sym E)) (A k Hk)) as [_ ->]. apply K, Hk.
  - destruct (Nat.eq_dec k i) as [->|Nk].
    + apply (alone_call w i o W Hi (A i Hi)).
    + apply (alone_other w i o k W Hk Hi (fun E => Nk (eq_sym E)) (A k Hk)).
Qed.

(** The store after one of the three renewing calls on object [n]. *)
Record grown (n : nat) (w w' : store) : Prop := {
  g_next : st_next w' = st_next w;
  g_obj : forall k, k <> n -> st_obj w' k = st_obj w k;
  g_ics : forall c, (c < st_nic w)%nat -> st_ics w' c = st_ics w c;
  g_evs : forall c, (c < st_nev w)%nat -> st_evs w' c = st_evs w c;
  g_nic : (st_nic w <= st_nic w')%nat;
  g_nev : (st_nev w <= st_nev w')%nat }.
Lemma grown_trans n w1 w2 w3 : grown n w1 w2 -> grown n w2 w3 -> grown n w1 w3.
Proof.
  intros [A1 A2 A3 A4 A5 A6] [B1 B2 B3 B4 B5 B6]. constructor; try congruence; try lia.
  - intros k H. rewrite B2, A2 by assumption. reflexivity.
  - intros c H. rewrite B3, A3 by lia. reflexivity.
  - intros c H. rewrite B4, A4 by lia. reflexivity.
Qed.

Lemma renewal w ks i c u du d2u o : inv w ks -> (i < st_next w)%nat ->
  (forall m, accepted (snd (step m (OpVelocity u du d2u))) = true) -> new_stop cubic_spline (ks i) o ->
  let n := st_next w in
  let w' := srun w [CCopy i; CCall n (OpCondition c); CCall n (OpVelocity u du d2u); CCall n o] in
  inv w' (upd ks n (ks i)) /\ st_next w' = S n /\ forall k, (k < n)%nat -> attributes w' k = attributes w k.
Proof.
  intros (W & K & A) Hi Hv Ho n. cbv zeta.
  assert (SC : forall v q, (n < st_next v)%nat -> fst (sstep v (CCall n q)) = fst (scall v n q)).
  { intros v q H. unfold ShallowModel.sstep. destruct (Nat.ltb_spec n (st_next v)); [reflexivity|lia]. }
  unfold ShallowModel.srun. cbn [fold_left].
  assert (S1 : fst (sstep w (CCopy i)) = shallow_copy w i).
  { unfold ShallowModel.sstep. destruct (Nat.ltb_spec i (st_next w)); [reflexivity|lia]. }
  rewrite S1. set (w1 := shallow_copy w i). assert (N1 : st_next w1 = S n) by reflexivity.
  rewrite (SC w1) by lia. cbn [ShallowModel.scall fst].
  set (w2 := new_ic w1 n c). assert (N2 : st_next w2 = S n) by reflexivity.
  rewrite (SC w2) by lia. cbn [ShallowModel.scall fst]. rewrite Hv.
  set (x3 := {| s_meth := _; s_ic := _; s_ev := _; s_du_self := _; s_d2u_self := _; s_fit_self := _ |}).
  set (w3 := put_obj w2 n x3). assert (N3 : st_next w3 = S n) by reflexivity.
  rewrite (SC w3) by lia.
  assert (O1 : st_obj w1 n = st_obj w i) by (unfold w1; cbn; apply upd_same).
  assert (O2 : st_obj w2 n = {| s_meth := s_meth (st_obj w i); s_ic := st_nic w; s_ev := s_ev (st_obj w i); s_du_self := s_du_self (st_obj w i);
          s_d2u_self := s_d2u_self (st_obj w i); s_fit_self := s_fit_self (st_obj w i) |}).
  { unfold w2. cbn [new_ic st_obj]. rewrite upd_same, O1. reflexivity. }
  assert (O3 : st_obj w3 n = x3) by (unfold w3; cbn; apply upd_same).
  assert (A1 : attributes w1 n = attributes w i) by (unfold attributes; rewrite O1; reflexivity).
  destruct (K i Hi) as [Ki Kf].
  assert (X3k : m_kind (attributes w3 n) = ks i).
  { unfold attributes. rewrite O3. cbn [set_events set_ic m_kind s_meth x3]. rewrite step_kind. unfold attributes. rewrite O2. exact Ki. }
  assert (X3f : m_fit (attributes w3 n) = m_fit (attributes w i)).
  { unfold attributes. rewrite O3. cbn [set_events set_ic m_fit s_meth x3]. rewrite velocity_fit. unfold attributes. rewrite O2. reflexivity. }
  assert (G : grown n w1 w3).
  { apply (grown_trans n w1 w2).
    - constructor; cbn; auto; intros; apply upd_other; lia.
    - constructor; cbn; auto; intros; apply upd_other; lia. }
  assert (Gx : s_ic x3 = st_nic w /\ s_du_self x3 = n /\ s_d2u_self x3 = n).
  { cbn. rewrite upd_same. auto. }
  assert (P : exists w4, fst (scall w3 n o) = w4 /\ grown n w3 w4 /\ s_ic (st_obj w4 n) = st_nic w /\ st_nic w4 = S (st_nic w) /\
      s_ev (st_obj w4 n) = st_nev w /\ st_nev w4 = S (st_nev w) /\ made_for n (st_evs w4 (st_nev w)) /\ own (as_heap w4) n /\
      m_kind (attributes w4 n) = ks i /\ (ks i = Head -> m_fit (attributes w4 n) = None)).
  { destruct o as [| | | | |a|v|]; cbn [new_stop] in Ho; try contradiction.
    - destruct Ho as (Hk & f & Hf). cbn [ShallowModel.scall].
      assert (Es : step (attributes w3 n) (OpFits a) = (set_kill_event (set_fit (attributes w3 n) (Some f)) (thwaites_event f), Ok None)).
      { cbn [CoreSpec.step]. rewrite X3k. unfold set_data_fits. rewrite Hf. destruct (ks i); [reflexivity|reflexivity|contradiction]. }
      rewrite Es. cbn [snd accepted fst]. eexists. split; [reflexivity|].
      split. { constructor; cbn; auto; intros; rewrite ?upd_other by lia; reflexivity. }
      split. { cbn. rewrite ?upd_same. cbn. rewrite ?upd_same. cbn. rewrite ?upd_same. reflexivity. }
      split; [reflexivity|]. split. { cbn. rewrite ?upd_same. reflexivity. } split; [reflexivity|].
      split. { cbn. rewrite upd_same. intros b [<-|[]]. reflexivity. }
      split. { unfold own. cbn. rewrite ?upd_same. cbn. rewrite ?upd_same. cbn. auto. }
      split; [|intros; contradiction].
      unfold attributes at 1. cbn. rewrite ?upd_same. cbn. rewrite ?upd_same. cbn. rewrite <- X3k. unfold attributes. rewrite O3. reflexivity.
    - cbn [ShallowModel.scall].
      assert (Es : step (attributes w3 n) (OpCritical v) = (set_shape_d_critical (attributes w3 n) v, Ok None)).
      { cbn [CoreSpec.step]. rewrite X3k, Ho. reflexivity. }
      rewrite Es. cbn [snd accepted fst]. eexists. split; [reflexivity|].
      split. { constructor; cbn; auto; intros; rewrite ?upd_other by lia; reflexivity. }
      split. { cbn. rewrite ?upd_same. cbn. rewrite ?upd_same. cbn. rewrite ?upd_same. reflexivity. }
      split; [reflexivity|]. split. { cbn. rewrite ?upd_same. reflexivity. } split; [reflexivity|].
      split. { cbn. rewrite upd_same. intros b [<-|[]]. reflexivity. }
      assert (Ea : forall w', st_obj w' n = {| s_meth := s_meth x3; s_ic := s_ic x3; s_ev := st_nev w3; s_du_self := s_du_self x3; s_d2u_self := s_d2u_self x3; s_fit_self := s_fit_self x3 |} ->
        m_kind (attributes w' n) = ks i /\ m_fit (attributes w' n) = None).
      { intros w' E. unfold attributes. rewrite E. cbn [set_events set_ic m_kind m_fit s_meth].
        unfold attributes in X3k, X3f. rewrite O3 in X3k, X3f. cbn [set_events set_ic m_kind m_fit] in X3k, X3f.
        split; [exact X3k|]. rewrite X3f. apply Kf, Ho. }
      set (w4 := new_events w3 n [head_sep_event v]).
      assert (E4 : st_obj w4 n = {| s_meth := s_meth x3; s_ic := s_ic x3; s_ev := st_nev w3; s_du_self := s_du_self x3; s_d2u_self := s_d2u_self x3; s_fit_self := s_fit_self x3 |}).
      { unfold w4. cbn [new_events st_obj]. rewrite upd_same, O3. reflexivity. }
      destruct (Ea w4 E4) as [Ek4 Ef4]. split; [|split; [exact Ek4|intros _; exact Ef4]].
      change (own (as_heap w4) n). unfold own. cbn [as_heap h_obj o_meth o_du_self o_d2u_self o_fit_self]. rewrite Ef4, E4. cbn [s_du_self s_d2u_self]. destruct Gx as (_ & -> & ->).
      split; [auto|]. split; [auto|]. intros f Hf. discriminate Hf. }
  destruct P as (w4 & -> & G4 & I1 & I2 & I3 & I4 & I5 & I6 & I7 & I8).
  assert (G14 := grown_trans n w1 w3 w4 G G4). destruct G14 as [Q1 Q2 Q3 Q4 Q5 Q6].
  assert (B : forall k, (k < n)%nat -> st_obj w4 k = st_obj w k).
  { intros k Hk. rewrite Q2 by lia. unfold w1. cbn. apply upd_other. unfold n in Hk. lia. }
  assert (Bc : forall k, (k < n)%nat -> attributes w4 k = attributes w k).
  { intros k Hk. destruct (W k Hk) as [W1 W2]. apply attributes_same; [apply B, Hk|apply Q3; exact W1|apply Q4; exact W2]. }
  rewrite N1 in Q1.
  split; [|split; [exact Q1|exact Bc]].
  split.
  { intros k Hk. rewrite I2, I4. destruct (Nat.eq_dec k n) as [->|Nk]; [lia|]. rewrite B by lia. destruct (W k ltac:(lia)). lia. }
  split.
  { intros k Hk. destruct (Nat.eq_dec k n) as [->|Nk]; [rewrite upd_same; auto|]. rewrite upd_other by assumption. rewrite Bc by lia. apply K. unfold n in *. lia. }
  intros k Hk. destruct (Nat.eq_dec k n) as [->|Nk].
  - split; [exact I6|]. split; [rewrite I3; exact I5|]. intros j Hj Nj. rewrite B by lia. rewrite I1, I3. destruct (W j ltac:(lia)). lia.
  - assert (Hk' : (k < st_next w)%nat) by (unfold n in *; lia). destruct (A k Hk') as (O & M & P). destruct (W k Hk') as [W1 W2]. split.
    { unfold own in *. cbn [as_heap h_obj o_meth o_du_self o_d2u_self o_fit_self] in *. rewrite Bc, B by assumption. exact O. }
    split. { rewrite B by assumption. rewrite Q4 by exact W2. exact M. }
    intros j Hj Nj. rewrite (B k) by assumption. destruct (Nat.eq_dec j n) as [->|Njn]; [rewrite I1, I3; lia|]. rewrite B by lia. apply P; [unfold n in *; lia|assumption].
Qed.

Lemma start_attributes n ms k : attributes (sstart n ms) k = ms k.
Proof. unfold attributes, sstart. cbn. rewrite map_map. cbn. rewrite map_id. destruct (ms k); reflexivity. Qed.

Lemma inv_start n ms : (forall k, (k < n)%nat -> m_kind (ms k) = Head -> m_fit (ms k) = None) ->
  inv (sstart n ms) (fun k => m_kind (ms k)).
Proof.
  intros H. split; [intros i Hi; cbn in *; auto|]. split.
  - intros k Hk. rewrite start_attributes. split; [reflexivity|]. apply H, Hk.
  - intros k Hk. split; [unfold own; cbn; auto|]. split.
    + cbn. intros b Hb. apply in_map_iff in Hb. destruct Hb as (e & <- & _). reflexivity.
    + intros j Hj Nj. cbn. auto.
Qed.

Lemma srun_cons w c p : srun w (c :: p) = srun (fst (sstep w c)) p.
Proof. reflexivity. Qed.
Lemma srun_app w p q : srun w (p ++ q) = srun (srun w p) q.
Proof. unfold ShallowModel.srun. apply fold_left_app. Qed.

Lemma renewing_program n ks p : renewing pchip cubic_spline solve_ivp n ks p -> forall w, inv w ks -> st_next w = n ->
  (exists ks', inv (srun w p) ks') /\ (n <= st_next (srun w p))%nat /\
  forall k, (k < n)%nat ->
    soutcomes k w p = trace (attributes w k) (calls_on k p) /\
    attributes (srun w p) k = run (attributes w k) (calls_on k p).
Proof.
  intros H. induction H as [n ks|n ks i o p H IH|n ks i c u du d2u o p Hi Hv Ho H IH]; intros w I N.
  - cbn. split; [exists ks; exact I|]. split; [lia|]. auto.
  - rewrite srun_cons. unfold ShallowModel.sstep at 1 2 3. cbn [ShallowModel.soutcomes calls_on]. unfold ShallowModel.sstep.
    destruct (Nat.ltb_spec i (st_next w)) as [L|L]; cbn [fst snd].
    + destruct (IH (fst (scall w i o)) (inv_call w ks i o I L)) as (I1 & I2 & I3). { rewrite (eff_next _ _ _ (scall_eff w i o)). exact N. }
      split; [exact I1|]. split; [exact I2|]. intros k Hk. destruct (I3 k Hk) as [J1 J2]. destruct I as (W & K & A).
      destruct (Nat.eqb_spec i k) as [->|Nik].
      * destruct (alone_call w k o W L (A k L)) as (C1 & C2 & C3). rewrite J1, J2, C1, C2. split; reflexivity.
      * assert (Hk' : (k < st_next w)%nat) by lia.
        destruct (alone_other w i o k W Hk' L Nik (A k Hk')) as [_ C]. rewrite J1, J2, C. split; reflexivity.
    + destruct (IH w I N) as (I1 & I2 & I3). split; [exact I1|]. split; [exact I2|]. intros k Hk.
      destruct (Nat.eqb_spec i k) as [->|_]; [lia|]. apply I3, Hk.
  - subst n. destruct (renewal w ks i c u du d2u o I Hi Hv Ho) as (I1 & I2 & I3).
    set (n := st_next w) in *. set (blk := [CCopy i; CCall n (OpCondition c); CCall n (OpVelocity u du d2u); CCall n o]) in *.
    change (CCopy i :: CCall n (OpCondition c) :: CCall n (OpVelocity u du d2u) :: CCall n o :: p) with (blk ++ p).
    rewrite srun_app. destruct (IH (srun w blk) I1 I2) as (J1 & J2 & J3). split; [exact J1|]. split; [lia|].
    intros k Hk. destruct (J3 k ltac:(lia)) as [L1 L2]. rewrite (I3 k Hk) in L1, L2.
    assert (Nn : Nat.eqb n k = false) by (apply Nat.eqb_neq; lia).
    assert (Ec : calls_on k (blk ++ p) = calls_on k p) by (unfold blk; cbn; rewrite Nn; reflexivity).
    assert (Eo : soutcomes k w (blk ++ p) = soutcomes k (srun w blk) p).
    { unfold blk. rewrite !srun_cons. cbn [app ShallowModel.soutcomes]. rewrite Nn.
      repeat match goal with |- context [match snd ?a with Some _ => _ | None => _ end] => destruct (snd a) end; reflexivity. }
    rewrite Ec, Eo. split; assumption.
Qed.

(** Every object of such a program is on its own. *)
Lemma renewed_independent n ms p0 p k :
  (forall k, (k < n)%nat -> m_kind (ms k) = Head -> m_fit (ms k) = None) ->
  renewing pchip cubic_spline solve_ivp n (fun k => m_kind (ms k)) p0 ->
  let w := srun (sstart n ms) p0 in
  renewing pchip cubic_spline solve_ivp (st_next w) (fun k => m_kind (attributes w k)) p -> (k < st_next w)%nat ->
  soutcomes k w p = trace (attributes w k) (calls_on k p) /\
  same_answers (seen (srun w p) k) (run (attributes w k) (calls_on k p)).
Proof.
  intros Hf H0. cbv zeta. intros H Hk.
  destruct (renewing_program n _ p0 H0 (sstart n ms) (inv_start n ms Hf) eq_refl) as ((ks & I) & _ & _).
  set (w := srun (sstart n ms) p0) in *.
  assert (I' : inv w (fun k => m_kind (attributes w k))).
  { destruct I as (W & K & A). split; [exact W|]. split; [|exact A]. intros j Hj. split; [reflexivity|]. destruct (K j Hj) as [K1 K2]. rewrite K1. exact K2. }
  destruct (renewing_program (st_next w) _ p H w I' eq_refl) as ((ks' & J) & J2 & J3).
  destruct (J3 k Hk) as [L1 L2]. split; [exact L1|].
  destruct J as (_ & _ & A). destruct (A k ltac:(lia)) as (O & _ & _). unfold seen. rewrite (own_seen _ _ O).
  cbn [as_heap h_obj o_meth]. rewrite L2. apply norm_answers.
Qed.

(* ------------------------------------------------------------------ *)
(** * Velocity and solution are never shared *)

Lemma flow_of_attributes m c e : same_flow (set_events (set_ic m c) e) m.
Proof. repeat split; reflexivity. Qed.
Lemma same_flow_sym m m' : same_flow m m' -> same_flow m' m.
Proof. unfold same_flow. intuition auto. Qed.
Lemma same_flow_trans m1 m2 m3 : same_flow m1 m2 -> same_flow m2 m3 -> same_flow m1 m3.
Proof.
  unfold same_flow. intros (A1&A2&A3&A4&A5&A6&A7&A8&A9&A10&A11&A12&A13) (B1&B2&B3&B4&B5&B6&B7&B8&B9&B10&B11&B12&B13).
  repeat split; intros; congruence.
Qed.
Lemma answers_flow m m' : same_answers m m' -> same_flow m m'.
Proof. unfold same_answers, same_flow. intuition auto. Qed.

Lemma obj_kept k p : forall w, (k < st_next w)%nat -> calls_on k p = [] -> st_obj (srun w p) k = st_obj w k.
Proof.
  induction p as [|[i o|i] p IH]; intros w Hk Hc; [reflexivity| |].
  - cbn [calls_on] in Hc. destruct (Nat.eqb_spec i k) as [->|N]; [discriminate|]. rewrite srun_cons. unfold ShallowModel.sstep.
    destruct (Nat.ltb_spec i (st_next w)); cbn [fst]; [|apply IH; assumption].
    assert (E := scall_eff w i o). rewrite IH; [apply (eff_obj _ _ _ E); auto|rewrite (eff_next _ _ _ E); exact Hk|exact Hc].
  - rewrite srun_cons. unfold ShallowModel.sstep. destruct (Nat.ltb_spec i (st_next w)); cbn [fst]; [|apply IH; assumption].
    rewrite IH; [unfold shallow_copy; cbn; apply upd_other; lia|cbn; lia|exact Hc].
Qed.

Lemma own_flow w k : own (as_heap w) k -> same_flow (seen w k) (s_meth (st_obj w k)).
Proof.
  intros O. unfold seen. rewrite (own_seen _ _ O). eapply same_flow_trans; [apply answers_flow, norm_answers|]. apply flow_of_attributes.
Qed.

Lemma flow_kept w k p : own (as_heap w) k -> (k < st_next w)%nat -> calls_on k p = [] -> same_flow (seen (srun w p) k) (seen w k).
Proof.
  intros O Hk Hc. assert (E := obj_kept k p w Hk Hc).
  assert (O' : own (as_heap (srun w p)) k). { unfold own in *. cbn in *. rewrite E. exact O. }
  eapply same_flow_trans; [apply own_flow, O'|]. rewrite E. apply same_flow_sym, own_flow, O.
Qed.

(** The functions of an original are its own in every program. *)
Lemma call_keeps_own w i o k : own (as_heap w) k -> own (as_heap (fst (scall w i o))) k.
Proof.
  intros O. destruct (Nat.eq_dec i k) as [->|N].
  2:{ assert (E := eff_obj _ _ _ (scall_eff w i o) k ltac:(congruence)). unfold own in *. cbn in *. rewrite E. exact O. }
  set (v := {| st_obj := st_obj w; st_next := st_next w; st_ics := st_ics w; st_nic := st_nic w;
     st_evs := fun c => map (fun b => (fst b, k)) (st_evs w c); st_nev := st_nev w |}).
  unfold own in *. cbn [as_heap h_obj o_meth o_du_self o_d2u_self o_fit_self] in *.
  set (m := attributes w k) in *. destruct O as (O1 & O2 & O3).
  assert (Keep : keeps_functions o = true -> fns (s_meth (st_obj (fst (scall w k o)) k)) = fns (s_meth (st_obj w k)) /\
     s_du_self (st_obj (fst (scall w k o)) k) = s_du_self (st_obj w k) /\
     s_d2u_self (st_obj (fst (scall w k o)) k) = s_d2u_self (st_obj w k) /\
     s_fit_self (st_obj (fst (scall w k o)) k) = s_fit_self (st_obj w k)).
  { intros Kf. destruct o; try discriminate Kf; cbn [ShallowModel.scall fst].
    - cbn [put_obj st_obj]. rewrite upd_same. cbn [put_meth s_meth s_du_self s_d2u_self s_fit_self].
      split; [apply (keeps_fns pchip cubic_spline solve_ivp (attributes w k) (OpNu v0) eq_refl)|auto].
    - cbn. rewrite upd_same. auto.
    - cbn. auto.
    - cbn. auto.
    - destruct (accepted _); cbn; rewrite ?upd_same; auto.
    - unfold solve_on. destruct (ic_set_nu _ _) as [c [u|e]]; [|auto]. destruct (q_du_e _ _) as [du|e]; [|auto].
      destruct (ode_setup _) as [y|e]; [|auto]. destruct (solve_ivp _ _ _ _ _) as [r|e]; [|auto]. cbn. rewrite upd_same. auto. }
  destruct (keeps_functions o) eqn:Ek.
  - destruct (Keep eq_refl) as (F & S1 & S2 & S3). unfold fns in F. injection F as F1 F2 F3 F4.
    unfold attributes. cbn [set_events set_ic m_du m_d2u m_fit]. rewrite F2, F3, F4, S1, S2, S3. auto.
  - destruct o; try discriminate Ek; cbn [ShallowModel.scall fst].
    + fold m. unfold attributes. cbn [put_obj st_obj]. rewrite !upd_same. cbn [s_meth s_du_self s_d2u_self s_fit_self set_events set_ic m_du m_d2u m_fit].
      rewrite velocity_fit. destruct (accepted (snd (step m (OpVelocity u du d2u)))) eqn:E; [auto|].
      destruct (velocity_rejected pchip cubic_spline solve_ivp m u du d2u E) as [D1 D2]. rewrite D2. split; [|auto].
      intro G. destruct D1 as [D1|(f & kk & D1)]; rewrite D1 in G; [auto|congruence].
    + fold m. destruct (accepted (snd (step m (OpFits a)))) eqn:E; [|cbn [fst]; auto].
      unfold attributes. cbn. rewrite ?upd_same. cbn. rewrite ?upd_same. cbn.
      destruct (fits_velocity pchip cubic_spline solve_ivp m a) as (_ & F2 & F3). cbn in F2, F3. rewrite F2, F3. auto.
Qed.

Lemma program_keeps_own k p : forall w, (k < st_next w)%nat -> own (as_heap w) k -> own (as_heap (srun w p)) k /\ (k < st_next (srun w p))%nat.
Proof.
  induction p as [|[i o|i] p IH]; intros w Hk O; [split; assumption| |].
  - rewrite srun_cons. unfold ShallowModel.sstep. destruct (Nat.ltb_spec i (st_next w)); cbn [fst]; [|apply IH; assumption].
    apply IH; [rewrite (eff_next _ _ _ (scall_eff w i o)); exact Hk|apply call_keeps_own, O].
  - rewrite srun_cons. unfold ShallowModel.sstep. destruct (Nat.ltb_spec i (st_next w)); cbn [fst]; [|apply IH; assumption].
    apply IH; [cbn; lia|]. unfold own in *. unfold attributes in *. cbn in *. rewrite upd_other by lia. exact O.
Qed.

Lemma original_flow n ms p0 k p : (k < n)%nat -> let w := srun (sstart n ms) p0 in calls_on k p = [] -> same_flow (seen (srun w p) k) (seen w k).
Proof.
  intros Hk. cbv zeta. intros Hc. destruct (program_keeps_own k p0 (sstart n ms) Hk) as [O L]; [unfold own; cbn; auto|].
  apply flow_kept; assumption.
Qed.

Lemma given_flow w k p : (k < st_next w)%nat ->
  given_derivatives (attributes w k) -> given_fit_derivative (attributes w k) ->
  calls_on k p = [] -> same_flow (seen (srun w p) k) (seen w k).
Proof.
  intros Hk G1 G2 Hc. apply flow_kept; [|assumption|assumption]. apply given_own; assumption.
Qed.

(* ------------------------------------------------------------------ *)
(** * A fresh copy *)

Definition wfr (w : store) : Prop :=
  CopyProofs.wf (as_heap w) /\ forall i, (i < st_next w)%nat -> forall b, In b (st_evs w (s_ev (st_obj w i))) -> (snd b < st_next w)%nat.

Lemma as_heap_copy w i : as_heap (shallow_copy w i) = deep_copy (as_heap w) i.
Proof.
  unfold as_heap, deep_copy, put, shallow_copy. cbn. f_equal. extensionality j. unfold attributes, upd. cbn. destruct (Nat.eqb j (st_next w)); reflexivity.
Qed.
Lemma copy_seen_s w i : wfr w -> (i < st_next w)%nat ->
  seen (shallow_copy w i) (st_next w) = seen w i /\ forall k, (k < st_next w)%nat -> seen (shallow_copy w i) k = seen w k.
Proof. intros [W _] Hi. unfold seen. rewrite as_heap_copy. apply (copy_seen (as_heap w) i W Hi). Qed.

(** Sharing of lists: the calls on [i] change lists only in these ways. *)
Lemma scall_lists w i o c : st_evs (fst (scall w i o)) c = st_evs w c \/
  (exists l, st_evs (fst (scall w i o)) c = st_evs w c ++ map (fun e => (e, i)) l) \/
  exists l, st_evs (fst (scall w i o)) c = map (fun e => (e, i)) l.
Proof.
  destruct o; cbn [ShallowModel.scall fst]; auto.
  - destruct (accepted _); cbn [fst]; [|auto]. cbn [new_events put_obj st_evs]. unfold upd. destruct (Nat.eqb _ _); [right; right; eexists; reflexivity|auto].
  - destruct (accepted _); cbn [fst]; [|auto]. cbn [new_events put_obj st_evs]. unfold upd. destruct (Nat.eqb _ _); [right; right; eexists; reflexivity|auto].
  - unfold solve_on. destruct (ic_set_nu _ _) as [d [u|e]]; [|auto]. destruct (q_du_e _ _) as [du|e]; [|auto].
    destruct (ode_setup _) as [y|e]; [|auto]. 
    assert (E : forall v, st_evs (extend_events v i l) c = st_evs v c \/ exists l', st_evs (extend_events v i l) c = st_evs v c ++ map (fun e => (e, i)) l').
    { intros v. cbn. unfold upd. destruct (Nat.eqb_spec c (s_ev (st_obj v i))) as [->|]; [right; exists l; reflexivity|auto]. }
    destruct (solve_ivp _ _ _ _ _) as [r|e]; cbn [fst put_obj st_evs].
    + destruct (E (put_ic (put_ic w i d) i (ic_set_du (m_ic (seen (put_ic w i d) i)) (Fin du)))) as [->|E']; auto.
    + destruct (E (put_ic (put_ic w i d) i (ic_set_du (m_ic (seen (put_ic w i d) i)) (Fin du)))) as [->|E']; auto.
Qed.

Lemma selves_call w i o k : (i < st_next w)%nat -> let P j := (j < st_next w)%nat in
  P (s_du_self (st_obj w k)) -> P (s_d2u_self (st_obj w k)) -> P (s_fit_self (st_obj w k)) ->
  let x := st_obj (fst (scall w i o)) k in P (s_du_self x) /\ P (s_d2u_self x) /\ P (s_fit_self x).
Proof.
  intros Hi P A B C. cbv zeta. destruct (Nat.eq_dec k i) as [->|N]; [|rewrite (eff_obj _ _ _ (scall_eff w i o)) by assumption; auto].
  destruct o; cbn [ShallowModel.scall fst].
  - cbn. rewrite upd_same. auto.
  - cbn [put_obj st_obj]. rewrite upd_same. cbn [s_du_self s_d2u_self s_fit_self]. destruct (accepted _); auto.
  - cbn. rewrite upd_same. auto.
  - auto.
  - auto.
  - destruct (accepted _); cbn [fst]; [|auto]. cbn. rewrite ?upd_same. cbn. rewrite ?upd_same. auto.
  - destruct (accepted _); cbn [fst]; [|auto]. cbn. rewrite ?upd_same. auto.
  - unfold solve_on. destruct (ic_set_nu _ _) as [c [u|e]]; [|auto]. destruct (q_du_e _ _) as [du|e]; [|auto].
      destruct (ode_setup _) as [y|e]; [|auto]. destruct (solve_ivp _ _ _ _ _) as [r|e]; [|auto]. cbn. rewrite upd_same. auto.
Qed.

(** The list a call leaves with object [i] itself. *)
Lemma wfr_step w c : wf w -> wfr w -> wf (fst (sstep w c)) /\ wfr (fst (sstep w c)).
Proof.
  intros V [W L]. destruct c as [i o|i]; unfold ShallowModel.sstep; destruct (Nat.ltb_spec i (st_next w)) as [Hi|Hi]; cbn [fst]; try (split; [assumption|split; assumption]).
  - split; [apply wf_call; assumption|]. assert (N := eff_next _ _ _ (scall_eff w i o)). split.
    + intros k Hk. cbn [as_heap h_obj h_next o_du_self o_d2u_self o_fit_self] in *. rewrite N in *. destruct (W k Hk) as (W1 & W2 & W3). apply selves_call; assumption.
    + intros k Hk b Hb. rewrite N in *.
      assert (Old : forall c b, In b (st_evs (fst (scall w i o)) c) -> snd b = i \/ In b (st_evs w c)).
      { intros c b' H. destruct (scall_lists w i o c) as [E|[[l E]|[l E]]]; rewrite E in H; [auto| |].
        - apply in_app_or in H. destruct H as [H|H]; [auto|]. left. apply in_map_iff in H. destruct H as (e & <- & _). reflexivity.
        - left. apply in_map_iff in H. destruct H as (e & <- & _). reflexivity. }
      destruct (Old _ _ Hb) as [->|Hb']; [exact Hi|].
      destruct (Nat.eq_dec k i) as [->|Nk].
      * destruct (eff_sev _ _ _ (scall_eff w i o)) as [E|E]; [rewrite E in Hb'; exact (L i Hi b Hb')|].
        assert (F : made_for i (st_evs (fst (scall w i o)) (s_ev (st_obj (fst (scall w i o)) i)))).
        { revert E. clear - Hi. destruct o; cbn [ShallowModel.scall fst].
          - cbn. rewrite upd_same. cbn. intros [A B]. lia.
          - cbn [put_obj st_obj st_nev]. rewrite upd_same. cbn. intros; lia.
          - cbn. rewrite upd_same. cbn. intros; lia.
          - cbn. intros; lia.
          - cbn. intros; lia.
          - destruct (accepted _); cbn [fst]; [|intros; lia]. intros _. cbn [new_events put_obj st_obj st_evs]. rewrite upd_same. cbn [s_ev]. rewrite upd_same.
            intros b Hb. apply in_map_iff in Hb. destruct Hb as (e & <- & _). reflexivity.
          - destruct (accepted _); cbn [fst]; [|intros; lia]. intros _. cbn [new_events put_obj st_obj st_evs]. rewrite upd_same. cbn [s_ev]. rewrite upd_same.
            intros b Hb. apply in_map_iff in Hb. destruct Hb as (e & <- & _). reflexivity.
          - unfold solve_on. destruct (ic_set_nu _ _) as [d [u|e]]; [|cbn; intros; lia]. destruct (q_du_e _ _) as [du|e]; [|cbn; intros; lia].
            destruct (ode_setup _) as [y|e]; [|cbn; intros; lia]. destruct (solve_ivp _ _ _ _ _) as [r|e]; [|cbn; intros; lia].
            cbn. rewrite upd_same. cbn. intros; lia. }
        rewrite (F b Hb). exact Hi.
      * rewrite (eff_obj _ _ _ (scall_eff w i o)) in Hb' by assumption. exact (L k Hk b Hb').
  - split.
    + intros k Hk. cbn in *. destruct (Nat.eq_dec k (st_next w)) as [->|N]; [rewrite upd_same; apply V; exact Hi|rewrite upd_other by assumption; apply V; lia].
    + split.
      * intros k Hk. cbn [as_heap h_obj h_next o_du_self o_d2u_self o_fit_self shallow_copy st_obj st_next] in *.
        destruct (Nat.eq_dec k (st_next w)) as [->|N].
        -- rewrite upd_same. destruct (W i Hi) as (W1 & W2 & W3). cbn in W1, W2, W3. lia.
        -- rewrite upd_other by assumption. destruct (W k ltac:(cbn; lia)) as (W1 & W2 & W3). cbn in W1, W2, W3. lia.
      * intros k Hk b. cbn in *. destruct (Nat.eq_dec k (st_next w)) as [->|N].
        -- rewrite upd_same. intros Hb. assert (H := L i Hi b Hb). lia.
        -- rewrite upd_other by assumption. intros Hb. assert (H := L k ltac:(lia) b Hb). lia.
Qed.
Lemma wfr_run p : forall w, wf w -> wfr w -> wf (srun w p) /\ wfr (srun w p).
Proof.
  induction p as [|c p IH]; intros w V W; [auto|]. rewrite srun_cons. destruct (wfr_step w c V W). apply IH; assumption.
Qed.
Lemma wfr_start n ms : wf (sstart n ms) /\ wfr (sstart n ms).
Proof.
  split; [intros i Hi; cbn in *; auto|]. split; [intros i Hi; cbn in *; auto|]. intros i Hi b Hb. cbn in *.
  apply in_map_iff in Hb. destruct Hb as (e & <- & _). exact Hi.
Qed.

(** Event functions depend on the velocity only. *)
Lemma event_value_du m m' e x f : (forall x, q_du_e m x = q_du_e m' x) -> event_value m e x f = event_value m' e x f.
Proof. intros H. unfold event_value, calc_lambda. destruct (ev_src e); try reflexivity. destruct f as [|s [|]]; try reflexivity. rewrite H. reflexivity. Qed.
Lemma du_put_ic w i c k x : q_du_e (seen (put_ic w i c) k) x = q_du_e (seen w k) x.
Proof. reflexivity. Qed.
Lemma du_extend w i l k x : q_du_e (seen (extend_events w i l) k) x = q_du_e (seen w k) x.
Proof. reflexivity. Qed.

Lemma first_call w i o : wfr w -> (i < st_next w)%nat -> snd (scall (shallow_copy w i) (st_next w) o) = snd (scall w i o).
Proof.
  intros W Hi. destruct (copy_seen_s w i W Hi) as [S1 S2].
  assert (Oj : st_obj (shallow_copy w i) (st_next w) = st_obj w i) by (cbn; apply upd_same).
  assert (At : attributes (shallow_copy w i) (st_next w) = attributes w i) by (unfold attributes; rewrite Oj; reflexivity).
  set (j := st_next w) in *. set (v := shallow_copy w i) in *.
  destruct o; cbn [ShallowModel.scall]; rewrite ?At; try reflexivity.
  1,2: destruct (accepted _); reflexivity.
  assert (Q : snd (solve_on solve_ivp v j x0 x_end l) = snd (solve_on solve_ivp w i x0 x_end l)); [|cbn [snd]; rewrite Q; reflexivity].
  unfold solve_on. rewrite S1. destruct (ic_set_nu (m_ic (seen w i)) (m_nu (seen w i))) as [c [u|e]]; [|reflexivity].
  cbv zeta. rewrite !seen_ic, S1. destruct (q_du_e (set_ic (seen w i) c) x0) as [du|e]; [|reflexivity].
  rewrite !seen_ic, S1.
  set (c2 := ic_set_du (m_ic (set_ic (seen w i) c)) (Fin du)).
  destruct (ode_setup (set_ic (set_ic (seen w i) c) c2)) as [y0|e]; [|reflexivity].
  rewrite !seen_extend, !seen_ic, S1.
  assert (EF : event_functions (extend_events (put_ic (put_ic v j c) j c2) j l) j = event_functions (extend_events (put_ic (put_ic w i c) i c2) i l) i).
  { unfold event_functions. cbn [extend_events put_ic st_obj st_evs]. rewrite Oj. rewrite !upd_same. cbn [v shallow_copy st_evs]. rewrite !map_app. f_equal.
    - apply map_ext_in. intros b Hb. f_equal. extensionality x. extensionality f. apply event_value_du. intros y.
      rewrite !du_extend, !du_put_ic. rewrite S2; [reflexivity|]. exact (proj2 W i Hi b Hb).
    - rewrite !map_map. cbn [fst snd]. apply map_ext. intros e. f_equal. extensionality x. extensionality f. apply event_value_du. intros y.
      rewrite !du_extend, !du_put_ic. rewrite S1. reflexivity. }
  rewrite EF. destruct (solve_ivp _ _ _ _ _) as [r|e]; [|reflexivity]. cbn [snd]. rewrite !seen_sol, !seen_extend, !seen_ic, S1. reflexivity.
Qed.

(* ------------------------------------------------------------------ *)
(** * What stays shared *)

Lemma sic_kept w i o k : renews_condition o = false \/ i <> k -> s_ic (st_obj (fst (scall w i o)) k) = s_ic (st_obj w k).
Proof.
  intros H. destruct (Nat.eq_dec k i) as [->|N]; [|rewrite (eff_obj _ _ _ (scall_eff w i o)) by assumption; reflexivity].
  destruct H as [H|H]; [|congruence]. destruct o; try discriminate H; cbn [ShallowModel.scall fst].
  - cbn. rewrite upd_same. reflexivity.
  - cbn [put_obj st_obj]. rewrite upd_same. reflexivity.
  - reflexivity.
  - reflexivity.
  - destruct (accepted _); cbn [fst]; [|reflexivity]. cbn. rewrite ?upd_same. cbn. rewrite ?upd_same. reflexivity.
  - destruct (accepted _); cbn [fst]; [|reflexivity]. cbn. rewrite ?upd_same. reflexivity.
  - unfold solve_on. destruct (ic_set_nu _ _) as [c [u|e]]; [|reflexivity]. destruct (q_du_e _ _) as [du|e]; [|reflexivity].
      destruct (ode_setup _) as [y|e]; [|reflexivity]. destruct (solve_ivp _ _ _ _ _) as [r|e]; [|reflexivity]. cbn. rewrite upd_same. reflexivity.
Qed.
Lemma sev_kept w i o k : renews_stops o = false \/ i <> k -> s_ev (st_obj (fst (scall w i o)) k) = s_ev (st_obj w k).
Proof.
  intros H. destruct (Nat.eq_dec k i) as [->|N]; [|rewrite (eff_obj _ _ _ (scall_eff w i o)) by assumption; reflexivity].
  destruct H as [H|H]; [|congruence]. destruct o; try discriminate H; cbn [ShallowModel.scall fst].
  - cbn. rewrite upd_same. reflexivity.
  - cbn [put_obj st_obj]. rewrite upd_same. reflexivity.
  - cbn. rewrite upd_same. reflexivity.
  - reflexivity.
  - reflexivity.
  - unfold solve_on. destruct (ic_set_nu _ _) as [c [u|e]]; [|reflexivity]. destruct (q_du_e _ _) as [du|e]; [|reflexivity].
      destruct (ode_setup _) as [y|e]; [|reflexivity]. destruct (solve_ivp _ _ _ _ _) as [r|e]; [|reflexivity]. cbn. rewrite upd_same. reflexivity.
Qed.

Lemma shared_kept p : forall w i j, (i < st_next w)%nat -> (j < st_next w)%nat ->
  (s_ic (st_obj w i) = s_ic (st_obj w j) -> Forall (fun o => renews_condition o = false) (calls_on i p) -> Forall (fun o => renews_condition o = false) (calls_on j p) ->
   s_ic (st_obj (srun w p) i) = s_ic (st_obj (srun w p) j)) /\
  (s_ev (st_obj w i) = s_ev (st_obj w j) -> Forall (fun o => renews_stops o = false) (calls_on i p) -> Forall (fun o => renews_stops o = false) (calls_on j p) ->
   s_ev (st_obj (srun w p) i) = s_ev (st_obj (srun w p) j)).
Proof.
  induction p as [|[a o|a] p IH]; intros w i j Hi Hj; [auto| |].
  - rewrite srun_cons. unfold ShallowModel.sstep. cbn [calls_on].
    assert (C : forall (P : op -> Prop) k, Forall P (if Nat.eqb a k then o :: calls_on k p else calls_on k p) -> Forall P (calls_on k p) /\ (P o \/ a <> k)).
    { intros P k H. destruct (Nat.eqb_spec a k); [inversion H; auto|auto]. }
    destruct (Nat.ltb_spec a (st_next w)); cbn [fst].
    2:{ destruct (IH w i j Hi Hj) as [I1 I2]. split; intros E F G; [apply I1|apply I2]; try exact E; apply C; assumption. }
    assert (N := eff_next _ _ _ (scall_eff w a o)).
    destruct (IH (fst (scall w a o)) i j ltac:(lia) ltac:(lia)) as [I1 I2]. split; intros E F G; apply C in F; apply C in G.
    + apply I1; [|apply F|apply G]. rewrite !sic_kept; [exact E|apply G|apply F].
    + apply I2; [|apply F|apply G]. rewrite !sev_kept; [exact E|apply G|apply F].
  - rewrite srun_cons. unfold ShallowModel.sstep. cbn [calls_on]. destruct (Nat.ltb_spec a (st_next w)); cbn [fst]; [|apply IH; assumption].
    destruct (IH (shallow_copy w a) i j ltac:(cbn; lia) ltac:(cbn; lia)) as [I1 I2]. cbn [shallow_copy st_obj] in I1, I2. rewrite !upd_other in I1, I2 by lia. auto.
Qed.

Lemma copy_shares n ms p0 i p : let w := srun (sstart n ms) p0 in let j := st_next w in (i < st_next w)%nat ->
  let w' := srun (shallow_copy w i) p in
  (Forall (fun o => renews_condition o = false) (calls_on i p) -> Forall (fun o => renews_condition o = false) (calls_on j p) ->
   m_ic (seen w' i) = m_ic (seen w' j)) /\
  (Forall (fun o => renews_stops o = false) (calls_on i p) -> Forall (fun o => renews_stops o = false) (calls_on j p) ->
   m_events (seen w' i) = m_events (seen w' j)).
Proof.
  cbv zeta. intros Hi. set (w := srun (sstart n ms) p0) in *.
  destruct (shared_kept p (shallow_copy w i) i (st_next w) ltac:(cbn; lia) ltac:(cbn; lia)) as [I1 I2].
  cbn [shallow_copy st_obj] in I1, I2. rewrite upd_same, upd_other in I1, I2 by lia.
  split; intros F G.
  - cbn. rewrite (I1 eq_refl F G). reflexivity.
  - cbn. rewrite (I2 eq_refl F G). reflexivity.
Qed.

(** The separation event of a copy is a method of the original. *)
Lemma stops_read_original n ms i u du d2u : (i < n)%nat ->
  let w' := srun (sstart n ms) [CCopy i; CCall n (OpVelocity u du d2u)] in
  event_functions w' n = map (fun e => (ev_terminal e, event_value (ms i) e)) (m_events (ms i)).
Proof.
  intros Hi. cbv zeta. unfold ShallowModel.srun. cbn [fold_left].
  assert (S1 : fst (sstep (sstart n ms) (CCopy i)) = shallow_copy (sstart n ms) i).
  { unfold ShallowModel.sstep. cbn [sstart st_next]. destruct (Nat.ltb_spec i n); [reflexivity|lia]. }
  rewrite S1. set (w1 := shallow_copy (sstart n ms) i). unfold ShallowModel.sstep. cbn [w1 shallow_copy sstart st_next].
  destruct (Nat.ltb_spec n (S n)); [|lia]. cbn [fst]. fold w1. fold (sstart n ms). fold (shallow_copy (sstart n ms) i). fold w1.
  set (w2 := fst (scall w1 n (OpVelocity u du d2u))).
  assert (E := scall_eff w1 n (OpVelocity u du d2u)). fold w2 in E.
  assert (Eo : s_ev (st_obj w2 n) = i). { unfold w2. rewrite sev_kept by (left; reflexivity). unfold w1. cbn. rewrite upd_same. reflexivity. }
  assert (Ev : st_evs w2 i = map (fun e => (e, i)) (m_events (ms i))) by reflexivity.
  unfold event_functions. rewrite Eo, Ev, map_map. apply map_ext. intros e. cbn [fst snd]. f_equal. extensionality x. extensionality f.
  apply event_value_du. intros y.
  assert (O : own (as_heap w2) i). { apply call_keeps_own. unfold own, w1. unfold attributes. cbn. rewrite upd_other by lia. cbn. auto. }
  unfold seen. rewrite (own_seen _ _ O), norm_du_e. cbn [as_heap h_obj o_meth].
  unfold q_du_e, call_du. unfold attributes. rewrite (eff_obj _ _ _ E) by lia. unfold w1. cbn. rewrite upd_other by lia. reflexivity.
Qed.

Lemma initial_value_shared n ms p0 i v : let w := srun (sstart n ms) p0 in let j := st_next w in (i < st_next w)%nat ->
  ic_body_of (m_ic (seen w i)) <> FSStag -> xleb v (Fin 0) = false ->
  let w' := srun (shallow_copy w i) [CCall j (OpInitialDeltaM v)] in
  get_initial_delta_m (seen w' i) = Ok v /\ get_initial_delta_m (seen w' j) = Ok v.
Proof.
  cbv zeta. intros Hi B Hv. set (w := srun (sstart n ms) p0) in *.
  destruct (copy_shares n ms p0 i [CCall (st_next w) (OpInitialDeltaM v)] Hi) as [C _]. fold w in C. cbn [calls_on] in C. rewrite Nat.eqb_refl in C.
  assert (Ni : Nat.eqb (st_next w) i = false) by (apply Nat.eqb_neq; lia). rewrite Ni in C. specialize (C (Forall_nil _) ltac:(repeat constructor)).
  unfold get_initial_delta_m. rewrite C. assert (H : ic_delta_m (m_ic (seen (srun (shallow_copy w i) [CCall (st_next w) (OpInitialDeltaM v)]) (st_next w))) = Ok v); [|auto].
  unfold ShallowModel.srun. cbn [fold_left]. unfold ShallowModel.sstep. cbn [shallow_copy st_next].
  destruct (Nat.ltb_spec (st_next w) (S (st_next w))); [|lia]. cbn [fst ShallowModel.scall].
  cbn [CoreSpec.step no_result fst]. unfold set_initial_delta_m. rewrite Hv. cbn. rewrite ?upd_same.
  cbn in B. destruct (st_ics w (s_ic (st_obj w i))) as [d0 n0 [|a b c]]; [exfalso; apply B; reflexivity|]. reflexivity.
Qed.
End Calls.
