From Coq Require Import Reals List String Bool ZArith Lra Lia.
From Verif Require Import PyBase PyBaseFacts InitialConditionModel ThwaitesFitsModel
  ThwaitesFitsProofs HeadModel CoreModel CoreSpec CoreRefute HeadArrayModel ThwaitesArrayModel
  ThwaitesArraySpec CoreHistoryProofs WorkflowRefute.
Import ListNotations.
Open Scope R_scope.

Definition val {A B} (d : B) (f : A -> res B) (x : A) : B :=
  match f x with Ok v => v | Err _ => d end.
Lemma val_ok {A B} (d : B) (f : A -> res B) x v : f x = Ok v -> f x = Ok (val d f x).
Proof. intros H. unfold val. rewrite H. reflexivity. Qed.

Lemma map_res_ok {A B} (f : A -> res B) g xs : (forall x, In x xs -> f x = Ok (g x)) ->
  map_res f xs = Ok (map g xs).
Proof.
  induction xs as [|x xs IH]; intros H; [reflexivity|]. cbn [map_res map].
  rewrite (H x) by (left; reflexivity). cbn [bind]. rewrite IH; [reflexivity|].
  intros y Hy. apply H. right. exact Hy.
Qed.
Lemma map_res_inv {A B} (f : A -> res B) xs l : map_res f xs = Ok l ->
  forall x, In x xs -> exists v, f x = Ok v.
Proof.
  revert l. induction xs as [|x xs IH]; intros l H y Hy; [destruct Hy|].
  cbn [map_res] in H. destruct (f x) as [v|] eqn:E; [|discriminate]. cbn [bind] in H.
  destruct (map_res f xs) as [r|] eqn:E2; [|discriminate].
  destruct Hy as [<-|Hy]; [exists v; exact E|exact (IH r eq_refl y Hy)].
Qed.
Lemma zip_map {A B C D} (f : A -> B -> C) (a : D -> A) (b : D -> B) xs :
  zip f (map a xs) (map b xs) = map (fun x => f (a x) (b x)) xs.
Proof. induction xs as [|x xs IH]; [reflexivity|]. cbn. rewrite IH. reflexivity. Qed.

Section Arrays.
Variable m : meth.
Variable xs : list R.
Hypothesis HK : m_kind m <> Head.
Hypothesis HX : xs <> [].

Definition s0 (x : R) : xr := val NaN (fun x => bind (sol_at m x) (comp 0)) x.
Definition du0 (x : R) : R := val 0 (q_du_e m) x.
Definition u0 (x : R) : R := val 0 (q_u_e m) x.
Definition d2u0 (x : R) : R := val 0 (q_d2u_e m) x.
Definition lam0 (x : R) : xr := (s0 x * Fin (du0 x))%xr.

Lemma sol0_ok : (forall x, In x xs -> exists v, bind (sol_at m x) (comp 0) = Ok v) ->
  sol0_arr m xs = Ok (map s0 xs) /\ forall x, In x xs -> bind (sol_at m x) (comp 0) = Ok (s0 x).
Proof.
  intros H. assert (H' : forall x, In x xs -> bind (sol_at m x) (comp 0) = Ok (s0 x)).
  { intros x Hx. destruct (H x Hx) as [v E]. unfold s0. apply (val_ok NaN
      (fun x => bind (sol_at m x) (comp 0)) x v E). }
  split; [|exact H'].
  assert (Qa : sol0_arr m xs = match m_sol m with None => Err ValueError
                              | Some s => map_res (fun x => comp 0 (s x)) xs end).
  { unfold sol0_arr. clear - HX. destruct (m_sol m), xs; congruence. }
  rewrite Qa. destruct (m_sol m) as [f|] eqn:E.
  - apply map_res_ok. intros x Hx. specialize (H' x Hx). unfold sol_at in H'. rewrite E in H'.
    exact H'.
  - destruct xs as [|x l]; [congruence|]. specialize (H x (or_introl eq_refl)).
    unfold sol_at in H. rewrite E in H. destruct H as [v Q]. discriminate.
Qed.

Lemma lambda_ok : (forall x, In x xs -> exists v, q_du_e m x = Ok v) ->
  lambda_arr m xs (map s0 xs) = Ok (map lam0 xs) /\
  forall x, In x xs -> q_du_e m x = Ok (du0 x) /\ calc_lambda m x (s0 x) = Ok (lam0 x).
Proof.
  intros H. assert (H' : forall x, In x xs -> q_du_e m x = Ok (du0 x)).
  { intros x Hx. destruct (H x Hx) as [v E]. exact (val_ok 0 (q_du_e m) x v E). }
  split.
  - unfold lambda_arr. rewrite (map_res_ok _ du0 xs H'). cbn [bind]. rewrite zip_map. reflexivity.
  - intros x Hx. split; [exact (H' x Hx)|]. unfold calc_lambda. rewrite (H' x Hx). reflexivity.
Qed.

Lemma u_ok : (forall x, In x xs -> exists v, q_u_e m x = Ok v) ->
  map_res (q_u_e m) xs = Ok (map u0 xs) /\ forall x, In x xs -> q_u_e m x = Ok (u0 x).
Proof.
  intros H. assert (H' : forall x, In x xs -> q_u_e m x = Ok (u0 x)).
  { intros x Hx. destruct (H x Hx) as [v E]. exact (val_ok 0 (q_u_e m) x v E). }
  split; [apply map_res_ok; exact H'|exact H'].
Qed.
Lemma d2u_ok : (forall x, In x xs -> exists v, q_d2u_e m x = Ok v) ->
  map_res (q_d2u_e m) xs = Ok (map d2u0 xs) /\ forall x, In x xs -> q_d2u_e m x = Ok (d2u0 x).
Proof.
  intros H. assert (H' : forall x, In x xs -> q_d2u_e m x = Ok (d2u0 x)).
  { intros x Hx. destruct (H x Hx) as [v E]. exact (val_ok 0 (q_d2u_e m) x v E). }
  split; [apply map_res_ok; exact H'|exact H'].
Qed.

(** What a scalar query needs. *)
Lemma delta_m_needs x v : q_delta_m m x = Ok v -> exists s, bind (sol_at m x) (comp 0) = Ok s.
Proof.
  unfold q_delta_m. destruct (sol_at m x) as [y|]; [|discriminate]. cbn [bind].
  destruct (comp 0 y) as [s|]; [|discriminate]. eauto.
Qed.
Lemma shape_d_needs x v : q_shape_d m x = Ok v ->
  (exists s, bind (sol_at m x) (comp 0) = Ok s) /\ (exists d, q_du_e m x = Ok d) /\
  exists f, m_fit m = Some f.
Proof.
  unfold q_shape_d. destruct (sol_at m x) as [y|]; [|discriminate]. cbn [bind]. intros H.
  assert (H' : bind (comp 0 y) (fun s => bind (calc_lambda m x s) (fun lam =>
         match m_fit m with Some f => Ok (shape f lam) | None => Err AttributeError end)) = Ok v)
    by (destruct (m_kind m); [exact H|exact H|congruence]).
  clear H. destruct (comp 0 y) as [s|]; [|discriminate]. cbn [bind] in H'.
  unfold calc_lambda in H'. destruct (q_du_e m x) as [d|]; [|discriminate]. cbn [bind] in H'.
  destruct (m_fit m) as [f|]; [|discriminate]. eauto 6.
Qed.
Lemma tau_w_needs x rho v : q_tau_w_thwaites m x rho = Ok v ->
  (exists s, bind (sol_at m x) (comp 0) = Ok s) /\ (exists d, q_du_e m x = Ok d) /\
  (exists u, q_u_e m x = Ok u) /\ exists f, m_fit m = Some f.
Proof.
  unfold q_tau_w_thwaites. destruct (sol_at m x) as [y|]; [|discriminate]. cbn [bind].
  destruct (comp 0 y) as [s|]; [|discriminate]. cbn [bind]. unfold calc_lambda.
  destruct (q_du_e m x) as [d|]; [|discriminate]. cbn [bind].
  destruct (q_u_e m x) as [u|]; [|discriminate]. cbn [bind].
  destruct (m_fit m) as [f|]; [|discriminate]. eauto 8.
Qed.

Lemma delta_m_at x : bind (sol_at m x) (comp 0) = Ok (s0 x) ->
  q_delta_m m x = Ok (xsqrt (s0 x * m_nu m)%xr).
Proof.
  intros H. unfold q_delta_m. destruct (sol_at m x) as [y|]; [|discriminate]. cbn [bind] in *.
  rewrite H. cbn [bind]. destruct (m_kind m); [reflexivity|reflexivity|congruence].
Qed.
Lemma shape_d_at x f : bind (sol_at m x) (comp 0) = Ok (s0 x) ->
  calc_lambda m x (s0 x) = Ok (lam0 x) -> m_fit m = Some f ->
  q_shape_d m x = Ok (shape f (lam0 x)).
Proof.
  intros H L F. unfold q_shape_d. destruct (sol_at m x) as [y|]; [|discriminate]. cbn [bind] in *.
  rewrite H. cbn [bind]. rewrite L, F. cbn [bind]. destruct (m_kind m); [reflexivity|reflexivity|congruence].
Qed.
Lemma calc_f_at x f : calc_lambda m x (s0 x) = Ok (lam0 x) -> m_fit m = Some f ->
  calc_f m x (s0 x) = Ok (match m_kind m with
    | ThwaitesLinear => (Fin (45/100) - Fin 6 * lam0 x)%xr | _ => fit_f f (lam0 x) end).
Proof.
  intros L F. unfold calc_f. rewrite L, F. cbn [bind]. destruct (m_kind m); reflexivity.
Qed.

Lemma one_sided_lambda f : (forall x, In x xs -> bind (sol_at m x) (comp 0) = Ok (s0 x)) ->
  (forall x, In x xs -> q_du_e m x = Ok (du0 x)) ->
  one_sided f m xs ->
  shear_arr f (map lam0 xs) = map (fun x => shear f (lam0 x)) xs /\
  shape_arr f (map lam0 xs) = map (fun x => shape f (lam0 x)) xs /\
  shape_p_arr f (map lam0 xs) = map (fun x => shape_p f (lam0 x)) xs.
Proof.
  intros HS HD O. rewrite <- !(map_map lam0). apply array_agrees_lemma.
  assert (L : forall x, In x xs -> gradient_parameter m x (lam0 x)).
  { intros x Hx. specialize (HS x Hx). unfold sol_at in HS. unfold gradient_parameter.
    destruct (m_sol m) as [g|]; [|discriminate]. cbn [bind] in HS.
    destruct (g x) as [|s r] eqn:E; [discriminate|]. cbn in HS. injection HS as HS.
    exists g, s, r, (du0 x). split; [reflexivity|]. split; [exact E|]. split; [exact (HD x Hx)|].
    unfold lam0. rewrite HS. reflexivity. }
  destruct O as [O|O]; [left|right]; intros v Hv; apply in_map_iff in Hv;
    destruct Hv as (x & <- & Hx); apply (O x _ Hx (L x Hx)).
Qed.

Lemma delta_m_array l : map_res (q_delta_m m) xs = Ok l -> delta_m_arr m xs = Ok l.
Proof.
  intros H. pose proof (map_res_inv _ _ _ H) as N.
  destruct sol0_ok as [S1 S2]. { intros x Hx. destruct (N x Hx) as [v E]. exact (delta_m_needs x v E). }
  unfold delta_m_arr. rewrite S1. cbn [bind]. rewrite map_map. rewrite <- H. symmetry.
  apply map_res_ok. intros x Hx. apply delta_m_at, S2, Hx.
Qed.

Lemma shape_d_array f l : m_fit m = Some f -> one_sided f m xs ->
  map_res (q_shape_d m) xs = Ok l -> shape_d_arr m xs = Ok l.
Proof.
  intros F O H. pose proof (map_res_inv _ _ _ H) as N.
  destruct sol0_ok as [S1 S2]. { intros x Hx. destruct (N x Hx) as [v E]. apply (shape_d_needs x v E). }
  destruct lambda_ok as [L1 L2]. { intros x Hx. destruct (N x Hx) as [v E]. apply (shape_d_needs x v E). }
  unfold shape_d_arr. rewrite S1. cbn [bind]. rewrite L1. cbn [bind]. rewrite F.
  destruct (one_sided_lambda f S2) as (_ & A & _); [intros x Hx; apply L2, Hx|exact O|].
  rewrite A, <- H. symmetry. apply map_res_ok. intros x Hx.
  apply shape_d_at; [apply S2, Hx|apply L2, Hx|exact F].
Qed.

Lemma delta_d_needs x v : q_delta_d m x = Ok v -> exists w, q_shape_d m x = Ok w.
Proof.
  unfold q_delta_d. destruct (q_delta_m m x); [|discriminate]. cbn [bind].
  destruct (q_shape_d m x); [|discriminate]. eauto.
Qed.

Lemma delta_d_array f l : m_fit m = Some f -> one_sided f m xs ->
  map_res (q_delta_d m) xs = Ok l -> delta_d_arr m xs = Ok l.
Proof.
  intros F O H. pose proof (map_res_inv _ _ _ H) as N.
  assert (N' : forall x, In x xs -> exists v, q_shape_d m x = Ok v).
  { intros x Hx. destruct (N x Hx) as [v E]. exact (delta_d_needs x v E). }
  destruct sol0_ok as [S1 S2]. { intros x Hx. destruct (N' x Hx) as [v E]. apply (shape_d_needs x v E). }
  destruct lambda_ok as [L1 L2]. { intros x Hx. destruct (N' x Hx) as [v E]. apply (shape_d_needs x v E). }
  destruct (one_sided_lambda f S2) as (_ & A & _); [intros x Hx; apply L2, Hx|exact O|].
  unfold delta_d_arr, delta_m_arr, shape_d_arr. rewrite S1. cbn [bind]. rewrite L1. cbn [bind].
  rewrite F. cbn [bind]. rewrite A, map_map, zip_map, <- H. symmetry. apply map_res_ok.
  intros x Hx. unfold q_delta_d. rewrite (delta_m_at x (S2 x Hx)). cbn [bind].
  rewrite (shape_d_at x f (S2 x Hx) (proj2 (L2 x Hx)) F). reflexivity.
Qed.

Lemma tau_w_array f rho l : m_fit m = Some f -> one_sided f m xs ->
  map_res (fun x => q_tau_w_thwaites m x rho) xs = Ok l -> tau_w_arr m xs rho = Ok l.
Proof.
  intros F O H. pose proof (map_res_inv _ _ _ H) as N.
  destruct sol0_ok as [S1 S2]. { intros x Hx. destruct (N x Hx) as [v E]. apply (tau_w_needs x rho v E). }
  destruct lambda_ok as [L1 L2]. { intros x Hx. destruct (N x Hx) as [v E]. apply (tau_w_needs x rho v E). }
  destruct u_ok as [U1 U2]. { intros x Hx. destruct (N x Hx) as [v E]. apply (tau_w_needs x rho v E). }
  destruct (one_sided_lambda f S2) as (A & _ & _); [intros x Hx; apply L2, Hx|exact O|].
  unfold tau_w_arr, delta_m_arr. rewrite S1. cbn [bind]. rewrite L1, U1. cbn [bind].
  rewrite F. cbn [bind]. rewrite A, !map_map, !zip_map, <- H. symmetry. apply map_res_ok.
  intros x Hx. unfold q_tau_w_thwaites.
  pose proof (S2 x Hx) as E. destruct (sol_at m x) as [y|] eqn:EY; [|discriminate]. cbn [bind] in *.
  rewrite E. cbn [bind]. rewrite (proj2 (L2 x Hx)), (U2 x Hx), F. cbn [bind].
  rewrite (delta_m_at x) by (rewrite EY; exact E). reflexivity.
Qed.

Lemma v_e_needs x v : q_v_e m x = Ok v ->
  (exists s, bind (sol_at m x) (comp 0) = Ok s) /\ (exists d, q_du_e m x = Ok d) /\
  (exists u, q_u_e m x = Ok u) /\ (exists d2, q_d2u_e m x = Ok d2) /\ exists f, m_fit m = Some f.
Proof.
  unfold q_v_e. destruct (sol_at m x) as [y|] eqn:EY; [|discriminate]. cbn [bind]. intros H.
  assert (exists k, m_kind m = k /\ k <> Head) as (k & K & NK) by eauto.
  rewrite K in H. destruct k; try congruence.
  all: destruct (q_u_e m x) as [u|]; [|discriminate]; cbn [bind] in H;
    destruct (q_du_e m x) as [d|]; [|discriminate]; cbn [bind] in H;
    destruct (comp 0 y) as [s|]; [|discriminate]; cbn [bind] in H;
    destruct (q_delta_d m x) as [dd|]; [|discriminate]; cbn [bind] in H;
    destruct (ode_impl m x [s]) as [rhs|]; [|discriminate]; cbn [bind] in H;
    destruct (comp 0 rhs) as [ds|]; [|discriminate]; cbn [bind] in H;
    destruct (q_shape_d m x) as [h|]; [|discriminate]; cbn [bind] in H;
    destruct (calc_lambda m x s) as [lam|]; [|discriminate]; cbn [bind] in H;
    destruct (m_fit m) as [f|]; [|discriminate];
    destruct (q_d2u_e m x) as [d2|]; [|discriminate];
    refine (conj _ (conj _ (conj _ (conj _ _)))); eauto.
Qed.

Lemma v_e_array f l : m_fit m = Some f -> one_sided f m xs ->
  map_res (q_v_e m) xs = Ok l -> v_e_arr m xs = Ok l.
Proof.
  intros F O H. pose proof (map_res_inv _ _ _ H) as N.
  destruct sol0_ok as [S1 S2]. { intros x Hx. destruct (N x Hx) as [v E]. apply (v_e_needs x v E). }
  destruct lambda_ok as [L1 L2]. { intros x Hx. destruct (N x Hx) as [v E]. apply (v_e_needs x v E). }
  destruct u_ok as [U1 U2]. { intros x Hx. destruct (N x Hx) as [v E]. apply (v_e_needs x v E). }
  destruct d2u_ok as [W1 W2]. { intros x Hx. destruct (N x Hx) as [v E]. apply (v_e_needs x v E). }
  assert (D1 : map_res (q_du_e m) xs = Ok (map du0 xs)).
  { apply map_res_ok. intros x Hx. apply L2, Hx. }
  destruct (one_sided_lambda f S2) as (A & B & C); [intros x Hx; apply L2, Hx|exact O|].
  assert (DS : ode_impl_arr m xs (map s0 xs) = Ok (map (fun x => (match m_kind m with
    | ThwaitesLinear => (Fin (45/100) - Fin 6 * lam0 x)%xr | _ => fit_f f (lam0 x) end
      / (Fin (1/1000) + Fin (u0 x)))%xr) xs)).
  { unfold ode_impl_arr, calc_f_arr. rewrite L1. cbn [bind]. rewrite U1, F.
    destruct (m_kind m); cbn [bind]; rewrite ?A, ?B, ?map_map, ?zip_map, ?map_map, ?zip_map,
      ?map_map, ?zip_map; reflexivity. }
  unfold v_e_arr, delta_d_arr, delta_m_arr, shape_d_arr. rewrite S1. cbn [bind].
  rewrite U1, D1, L1. cbn [bind]. rewrite F. cbn [bind]. rewrite DS. cbn [bind]. rewrite W1.
  cbn [bind]. rewrite B, C. repeat (rewrite ?map_map, ?zip_map). rewrite <- H. symmetry.
  apply map_res_ok. intros x Hx.
  pose proof (S2 x Hx) as E. unfold q_v_e.
  assert (DD : q_delta_d m x = Ok (xsqrt (s0 x * m_nu m) * shape f (lam0 x))%xr).
  { unfold q_delta_d. rewrite (delta_m_at x E). cbn [bind].
    rewrite (shape_d_at x f E (proj2 (L2 x Hx)) F). reflexivity. }
  assert (HD : q_shape_d m x = Ok (shape f (lam0 x))) by
    (apply shape_d_at; [exact E|apply L2, Hx|exact F]).
  assert (OD : ode_impl m x [s0 x] = Ok [(match m_kind m with
    | ThwaitesLinear => (Fin (45/100) - Fin 6 * lam0 x)%xr | _ => fit_f f (lam0 x) end
      / (Fin (1/1000) + Fin (u0 x)))%xr]).
  { unfold ode_impl. rewrite (calc_f_at x f (proj2 (L2 x Hx)) F). cbn [bind]. rewrite (U2 x Hx).
    destruct (m_kind m); [reflexivity|reflexivity|congruence]. }
  destruct (sol_at m x) as [y|] eqn:EY; [|discriminate]. cbn [bind] in *.
  rewrite (U2 x Hx), (proj1 (L2 x Hx)), E, DD. cbn [bind]. rewrite OD. cbn [bind comp nth_error].
  rewrite HD. cbn [bind]. rewrite (proj2 (L2 x Hx)). cbn [bind]. rewrite F, (W2 x Hx). cbn [bind].
  destruct (m_kind m); [reflexivity|reflexivity|congruence].
Qed.

End Arrays.

(** ** A refuted case: the pressure gradient changes sign *)
Definition valley : meth :=
  {| m_kind := ThwaitesLinear; m_nu := Fin 1; m_u := Some (VF (fun x => 1 - x + x * x) KFloat);
     m_du := Some (VF (fun x => 2 * x - 1) KFloat); m_d2u := Some VFd1DU;
     m_ic := new_manual (Fin 0) (Fin 1) (Fin 0); m_fit := Some fit_cb;
     m_events := [thwaites_event fit_cb]; m_sol := None |}.

Lemma valley_reachable pchip cs ivp : reachable pchip cs ivp valley.
Proof.
  exists {| m_kind := ThwaitesLinear; m_nu := Fin 1; m_u := Some (VF (fun x => 1 - x + x * x) KFloat);
     m_du := Some (VF (fun x => 2 * x - 1) KFloat); m_d2u := Some VFd1DU;
     m_ic := new_manual (Fin 0) PInf (Fin 0); m_fit := Some fit_cb;
     m_events := [thwaites_event fit_cb]; m_sol := None |}, [OpInitialDeltaM (Fin 1)].
  split.
  - apply (created_thwaites pchip cs true (Fin 1)
      (PCall {| c_fun := fun x => 1 - x + x * x; c_ret := KFloat; c_deriv := None |})
      (PCall {| c_fun := fun x => 2 * x - 1; c_ret := KFloat; c_deriv := None |})
      PNone (FName "Cebeci-Bradshaw")).
    unfold new_thwaites, new_base, new_fs, ic_set_nu. cbn [xleb].
    rewrite Rleb_false by lra. reflexivity.
  - unfold run. cbn [fold_left step no_result fst].
    unfold set_initial_delta_m. cbn [xleb]. rewrite Rleb_false by lra. reflexivity.
Qed.

Lemma valley_solve :
  let m := fst (solve ivp_hold valley 0 1 []) in
  m_sol m = Some (fun _ => [Fin 1]) /\ m_kind m = ThwaitesLinear /\ m_fit m = Some fit_cb /\
  (forall x, q_du_e m x = Ok (2 * x - 1)).
Proof.
  unfold solve. cbn [m_ic m_nu valley]. unfold ic_set_nu.
  cbn [xleb]. rewrite Rleb_false by lra.
  match goal with |- context [q_du_e ?M 0] => change (q_du_e M 0) with (@Ok R (2 * 0 - 1)) end.
  cbn iota beta. cbv zeta.
  match goal with |- context [ode_setup ?M] =>
    assert (E : ode_setup M = Ok [Fin 1]) end.
  { unfold ode_setup. cbn [m_kind set_ic m_ic m_nu valley ic_delta_m ic_set_du ic_body_of bind new_manual].
    unfold xsq. rewrite xmul_fin. rewrite py_div_fin by lra. cbn [bind]. do 3 f_equal. field. }
  rewrite E. unfold ivp_hold. cbn [r_success r_sol fst].
  refine (conj eq_refl (conj eq_refl (conj eq_refl _))). intros x. reflexivity.
Qed.

Lemma thwaites_array_witness pchip cs : exists ivp, ivp_contract ivp /\ exists m xs l,
  reachable pchip cs ivp m /\ m_kind m = ThwaitesLinear /\ xs <> [] /\
  map_res (q_shape_d m) xs = Ok l /\ shape_d_arr m xs <> Ok l.
Proof.
  exists ivp_hold. split; [apply ivp_hold_contract|].
  pose proof valley_solve as V. cbv zeta in V. destruct V as (S & K & F & D).
  set (m := fst (solve ivp_hold valley 0 1 [])) in *.
  exists m, [0; 1], [shape fit_cb (Fin (-1)); shape fit_cb (Fin 1)].
  split; [exact (reachable_step pchip cs ivp_hold valley (OpSolve 0 1 []) (valley_reachable _ _ _))|].
  split; [exact K|]. split; [discriminate|].
  split.
  - cbn [map_res]. unfold q_shape_d, sol_at, calc_lambda. rewrite S, K, F, !D.
    cbn [bind comp nth_error]. rewrite !xmul_fin. do 4 f_equal; [f_equal; lra|f_equal; f_equal; lra].
  - unfold shape_d_arr, sol0_arr, lambda_arr. rewrite S, F. cbn [map_res]. rewrite !D.
    cbn [bind comp nth_error zip]. rewrite !xmul_fin.
    replace (1 * (2 * 0 - 1)) with (-1) by ring. replace (1 * (2 * 1 - 1)) with 1 by ring.
    unfold shape_arr.
    replace (check_range_arr (fit_lo fit_cb) (fit_hi fit_cb) [Fin (-1); Fin 1])
      with [Fin (-1/10); Fin 1].
    2:{ unfold check_range_arr. cbn [fit_lo fit_cb existsb xltb map].
        rewrite Rltb_true by lra. cbn [orb]. rewrite Rltb_false by lra. reflexivity. }
    cbn [map fit_shape fit_cb]. intros E. injection E as _ E.
    unfold shape in E. cbn [fit_shape fit_cb fit_lo fit_hi] in E.
    rewrite check_range_high in E by lra. rewrite !cb_shape_pos in E by lra.
    injection E as E. unfold cbH_pos in E. lra.
Qed.
