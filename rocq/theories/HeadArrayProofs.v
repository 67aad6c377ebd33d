(** Proofs about HeadMethod.tau_w and v_e on scalars and arrays (C38, C76). *)
From Coq Require Import Reals List Lra Bool.
From Verif Require Import PyBase PyBaseFacts SkinFrictionModel SkinFrictionProofs HeadModel
  CoreModel HeadArrayModel.
Import ListNotations.
Open Scope R_scope.

Lemma floor_u_big u : 1/1000 <= Rabs u -> floor_u u = u.
Proof. intros H. unfold floor_u. rewrite Rltb_false by assumption. reflexivity. Qed.
Lemma floor_u_small u : Rabs u < 1/1000 -> floor_u u = 1/1000.
Proof. intros H. unfold floor_u. rewrite Rltb_true by assumption. reflexivity. Qed.

Lemma map_res_forall {A B} (f : A -> res B) (P : A -> B -> Prop) l :
  (forall a, In a l -> exists b, f a = Ok b /\ P a b) ->
  exists r, map_res f l = Ok r /\ Forall2 P l r.
Proof.
  induction l as [|a l IH]; intros H.
  - exists []. split; [reflexivity|constructor].
  - destruct (H a (or_introl eq_refl)) as [b [E Pb]].
    destruct IH as [r [Er F]]; [intros a' I; apply H; right; exact I|].
    exists (b :: r). split; [cbn; rewrite E, Er; reflexivity|constructor; assumption].
Qed.

Lemma Forall2_combine {A B C} (P : A * B -> C -> Prop) (Q : A -> C -> Prop) :
  (forall a b c, P (a, b) c -> Q a c) ->
  forall l us r, List.length us = List.length l -> Forall2 P (combine l us) r -> Forall2 Q l r.
Proof.
  intros H l. induction l as [|a l IH]; intros [|u us] r L F; try discriminate.
  - inversion F. constructor.
  - cbn in F. inversion F; subst. constructor; [eapply H; eassumption|].
    apply (IH us); [injection L; auto|assumption].
Qed.

(** One element: 0.5 rho u^2 c_f. *)
Lemma tau_elem_ok nu rho y u d h cf : 0 < nu -> y = [Fin d; Fin h] ->
  ludwieg_tillman (Fin (u * d / nu)) (Fin h) = Fin cf ->
  tau_elem (Fin nu) rho y u = Ok (Fin (5/10 * rho * u^2 * cf)).
Proof.
  intros Hn -> Ec. unfold tau_elem. cbn [comp nth_error bind].
  rewrite !xmul_fin, xdiv_fin by lra. rewrite Ec. rewrite !xmul_fin. f_equal. f_equal. ring.
Qed.

Lemma tau_array_lemma m nu s u_call U d h l rho :
  m_nu m = Fin nu -> 0 < nu -> m_sol m = Some s -> m_u m <> None ->
  l <> [] -> u_call (LArray l) = UArr (map U l) ->
  (forall t, In t l -> s t = [Fin (d t); Fin (h t)] /\ 0 < d t /\ 1/1000 <= U t) ->
  exists taus, head_tau_w m u_call (LArray l) rho = (LArray l, Ok (map Fin taus)) /\
    Forall2 (fun t tau => exists cf,
      ludwieg_tillman (Fin (U t * d t / nu)) (Fin (h t)) = Fin cf /\ 0 < cf /\
      tau = 1/2 * rho * (U t)^2 * cf) l taus.
Proof.
  intros Hn Pn Hs Hu Hl Hc H. unfold head_tau_w. rewrite Hs.
  destruct (m_u m) as [v|]; [|congruence]. rewrite Hc, map_length, PeanoNat.Nat.eqb_refl.
  cbn [positions]. rewrite Hn.
  assert (G : exists taus,
    map_res (fun p => tau_elem (Fin nu) rho (s (fst p)) (floor_u (snd p)))
                                  (combine l (map U l)) = Ok (map Fin taus) /\
    Forall2 (fun t tau => exists cf,
      ludwieg_tillman (Fin (U t * d t / nu)) (Fin (h t)) = Fin cf /\ 0 < cf /\
      tau = 1/2 * rho * (U t)^2 * cf) l taus).
  { clear Hc Hl. induction l as [|t l IH].
    - exists []. split; [reflexivity|constructor].
    - destruct IH as [taus [E F]]; [intros t' I; apply H; right; exact I|].
      destruct (H t (or_introl eq_refl)) as [Es [Pd PU]].
      assert (Pre : 0 < U t * d t / nu).
      { apply Rdiv_lt_0_compat; [apply Rmult_lt_0_compat; lra|assumption]. }
      destruct (proj1 (skin_friction_positive_lemma _ (h t)) Pre) as [cf [Ec Pc]].
      exists (5/10 * rho * (U t)^2 * cf :: taus). split.
      + cbn [combine map map_res fst snd].
        rewrite floor_u_big by (rewrite Rabs_pos_eq; lra).
        rewrite (tau_elem_ok nu rho _ _ _ _ cf Pn Es Ec). cbn [bind].
        rewrite E. reflexivity.
      + constructor; [|assumption]. exists cf. split; [assumption|]. split; [assumption|].
        field. }
  destruct G as [taus [E F]]. exists taus. rewrite E. split; [destruct l; congruence|exact F].
Qed.

(** A 0-d array, as a spline returns for a scalar position. *)
Lemma tau_scalar_array_lemma m nu s u_call u d h x rho :
  m_nu m = Fin nu -> 0 < nu -> m_sol m = Some s -> m_u m <> None ->
  u_call (LScalar x) = UArr [u] -> s x = [Fin d; Fin h] -> 0 < d -> 1/1000 <= u ->
  exists cf, ludwieg_tillman (Fin (u * d / nu)) (Fin h) = Fin cf /\ 0 < cf /\
    head_tau_w m u_call (LScalar x) rho = (LScalar x, Ok [Fin (1/2 * rho * u^2 * cf)]).
Proof.
  intros Hn Pn Hs Hu Hc Es Pd PU. unfold head_tau_w. rewrite Hs.
  destruct (m_u m) as [v|]; [|congruence]. rewrite Hc. cbn [positions List.length Nat.eqb].
  assert (Pre : 0 < u * d / nu).
  { apply Rdiv_lt_0_compat; [apply Rmult_lt_0_compat; lra|assumption]. }
  destruct (proj1 (skin_friction_positive_lemma _ h) Pre) as [cf [Ec Pc]].
  exists cf. split; [assumption|]. split; [assumption|]. rewrite Hn. cbn [combine map_res fst snd].
  rewrite floor_u_big by (rewrite Rabs_pos_eq; lra).
  rewrite (tau_elem_ok nu rho _ _ _ _ cf Pn Es Ec). cbn [bind]. do 4 f_equal. field.
Qed.

Lemma tau_scalar_lemma m s u_call x v rho :
  m_sol m = Some s -> m_u m <> None ->
  u_call (LScalar x) = UFloat v \/ u_call (LScalar x) = UInt v \/ u_call (LScalar x) = UArg ->
  head_tau_w m u_call (LScalar x) rho = (LScalar x, Err TypeError).
Proof.
  intros Hs Hu Hc. unfold head_tau_w. rewrite Hs. destruct (m_u m) as [w|]; [|congruence].
  destruct Hc as [E|[E|E]]; rewrite E; reflexivity.
Qed.

Lemma floor_list l : List.Forall2 (fun before after =>
  (Rabs before < 1/1000 -> after = 1/1000) /\ (1/1000 <= Rabs before -> after = before)) l (map floor_u l).
Proof.
  induction l as [|a l IH]; cbn [map]; constructor; [|exact IH].
  split; [apply floor_u_small|apply floor_u_big].
Qed.

Lemma tau_alias_lemma m s u_call l rho :
  m_sol m = Some s -> m_u m <> None -> u_call (LArray l) = UArg ->
  exists l', List.Forall2 (fun before after =>
      (Rabs before < 1/1000 -> after = 1/1000) /\ (1/1000 <= Rabs before -> after = before)) l l' /\
  fst (head_tau_w m u_call (LArray l) rho) = LArray l' /\
  fst (head_v_e_at m u_call (fun _ => 1) (LArray l)) = (if m_du m then LArray l' else LArray l).
Proof.
  intros Hs Hu Hc. exists (map floor_u l). split; [apply floor_list|].
  unfold head_tau_w, head_v_e_at. rewrite Hs.
  destruct (m_u m) as [w|]; [|congruence]. rewrite Hc.
  cbn [positions]. destruct l; split; try reflexivity; destruct (m_du m); reflexivity.
Qed.

Lemma head_tau_unsolved m u_call x rho : m_sol m = None ->
  head_tau_w m u_call x rho = (x, Err ValueError).
Proof. intros H. unfold head_tau_w. rewrite H. reflexivity. Qed.

(** When a float array is handed back, v_e is the scalar v_e element by element. *)
Lemma ve_array_lemma m s u_call du U l :
  m_kind m = Head -> m_sol m = Some s ->
  (forall t, q_u_e m t = Ok (U t)) -> (forall t, q_du_e m t = Ok (du t)) ->
  slot_kind (m_u m) = KArray -> l <> [] ->
  u_call (LArray l) = UArr (map U l) ->
  (forall t, In t l -> exists d h, s t = [d; h]) ->
  fst (head_v_e_at m u_call du (LArray l)) = LArray l /\
  snd (head_v_e_at m u_call du (LArray l)) = map_res (q_v_e m) l.
Proof.
  intros Km Hs QU QD Sk Hl Hc H.
  assert (Q : head_v_e_at m u_call du (LArray l) = match m_u m, m_du m with Some _, Some _ =>
     (LArray l, map_res (fun p : R * R => let (t, u) := p in
                       bind (rhs_elem (m_nu m) (VArray (Fin u)) (du t) (s t))
                            (fun yp => ve_elem u (du t) (s t) yp)) (combine l (map U l)))
     | _, _ => (LArray l, Err ValueError) end).
  { unfold head_v_e_at. rewrite Hs, Hc, map_length, PeanoNat.Nat.eqb_refl. cbn [positions].
    destruct l; [congruence|reflexivity]. }
  rewrite Q.
  assert (exists w, m_u m = Some w) as [w Ew].
  { specialize (QU 0). unfold q_u_e in QU. destruct (m_u m); [eauto|discriminate]. }
  assert (exists w, m_du m = Some w) as [w' Ew'].
  { specialize (QD 0). unfold q_du_e in QD. destruct (m_du m); [eauto|discriminate]. }
  rewrite Ew, Ew'. cbn [fst snd].
  split; [reflexivity|]. clear Hc Hl Q. induction l as [|t l IH]; [reflexivity|].
  destruct (H t (or_introl eq_refl)) as [d [h E]].
  cbn [map combine map_res]. rewrite IH by (intros t' I; apply H; right; exact I).
  f_equal. unfold q_v_e, sol_at. rewrite Hs. cbn [bind]. rewrite Km, QU, QD, E. cbn [bind rhs_elem].
  rewrite Sk. unfold head_v_e, head_rhs. cbn [ret_val].
  assert (V : forall k r, vel_num (ret_val k r) = r) by (intros [] r; reflexivity).
  rewrite !V. cbn [vel_num].
  destruct (ode_u_guard (VArray (Fin (U t)))); [|reflexivity]. reflexivity.
Qed.

(** An empty array of positions. *)
Lemma head_empty_lemma m u_call du rho :
  head_tau_w m u_call (LArray []) rho = (LArray [], Err ValueError) /\
  head_v_e_at m u_call du (LArray []) = (LArray [], Err ValueError).
Proof. unfold head_tau_w, head_v_e_at. destruct (m_sol m); split; reflexivity. Qed.
