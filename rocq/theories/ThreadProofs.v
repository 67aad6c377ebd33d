(** Threads and interrupted calls (C136-C139). *)
From Coq Require Import Reals List String Bool ZArith Lia Lra FunctionalExtensionality.
From Verif Require Import PyBase PyBaseFacts FiniteDiffModel PPolyModel InitialConditionModel
  ThwaitesFitsModel HeadModel CoreModel WorkflowModel EffectModel EffectSpec ThreadModel ThreadSpec.
Import ListNotations.
Open Scope R_scope.

Lemma upd_same {A} (f : nat -> A) i v : upd f i v i = v.
Proof. unfold upd. rewrite Nat.eqb_refl. reflexivity. Qed.
Lemma upd_other {A} (f : nat -> A) i j v : j <> i -> upd f i v j = f j.
Proof. intros H. unfold upd. destruct (Nat.eqb_spec j i); [contradiction|reflexivity]. Qed.

(* ------------------------------------------------------------------ *)
(** * Programs that look at the objects of one thread *)

Section Division.
Variable D : division.

Definition agree (k : nat) (w v : world) : Prop :=
  (forall i, owner D i = k -> w_meths w i = w_meths v i /\ w_ref w i = w_ref v i) /\
  (forall r, cond_owner D r = Some k -> w_conds w r = w_conds v r) /\
  (forall r, cond_owner D r = None -> ic_body_of (w_conds w r) = ic_body_of (w_conds v r)).
Lemma agree_refl k w : agree k w w.
Proof. repeat split; auto. Qed.
Lemma agree_sym k w v : agree k w v -> agree k v w.
Proof.
  intros (A & B & C). split; [|split].
  - intros i Hi. destruct (A i Hi). split; symmetry; assumption.
  - intros r Hr. symmetry. apply B, Hr.
  - intros r Hr. symmetry. apply C, Hr.
Qed.
Lemma agree_trans k w v u : agree k w v -> agree k v u -> agree k w u.
Proof.
  intros (A & B & C) (A' & B' & C'). split; [|split].
  - intros i Hi. destruct (A i Hi) as [E F], (A' i Hi) as [E' F']. split; congruence.
  - intros r Hr. rewrite (B r Hr). apply B', Hr.
  - intros r Hr. rewrite (C r Hr). apply C', Hr.
Qed.

Inductive local (k : nat) {A : Type} : prog A -> Prop :=
| local_ret r : local k (Ret r)
| local_get h :
    (forall w v, divided D w -> divided D v -> agree k w v -> h w = h v) ->
    (forall w, divided D w -> local k (h w)) -> local k (Get h)
| local_put g p :
    (forall w, divided D w -> divided D (g w)) ->
    (forall w v, divided D w -> divided D v -> agree k w v -> agree k (g w) (g v)) ->
    (forall j w, j <> k -> divided D w -> agree j w (g w)) ->
    local k p -> local k (Put g p).

Lemma local_catch k {A B} (p : prog A) (f : res A -> prog B) :
  local k p -> (forall r, local k (f r)) -> local k (pcatch p f).
Proof.
  intros H F. induction H as [r|h E _ IH|g p G1 G2 G3 _ IH]; cbn [pcatch].
  - apply F.
  - apply local_get; [|exact IH]. intros w v Dw Dv Ag. cbv beta. rewrite (E w v Dw Dv Ag). reflexivity.
  - apply local_put; assumption.
Qed.
Lemma local_bind k {A B} (p : prog A) (f : A -> prog B) :
  local k p -> (forall a, local k (f a)) -> local k (pbind p f).
Proof. intros H F. apply local_catch; [exact H|]. intros [a|e]; [apply F|constructor]. Qed.

(** A value that is known to satisfy [Q] when it is read. *)
Lemma local_read k {A B} (f : world -> res A) (Q : A -> Prop) (h : A -> prog B) :
  (forall w v, divided D w -> divided D v -> agree k w v -> f w = f v) ->
  (forall w a, divided D w -> f w = Ok a -> Q a) -> (forall a, Q a -> local k (h a)) ->
  local k (pbind (get f) h).
Proof.
  intros E HQ F. unfold pbind, get. cbn [pcatch]. apply local_get.
  - intros w v Dw Dv Ag. rewrite (E w v Dw Dv Ag). reflexivity.
  - intros w Dw. destruct (f w) as [a|e] eqn:Ef; [apply F, (HQ w a Dw Ef)|constructor].
Qed.
Lemma local_get1 k {A} (f : world -> res A) :
  (forall w v, divided D w -> divided D v -> agree k w v -> f w = f v) -> local k (get f).
Proof.
  intros E. unfold get. apply local_get; [|constructor].
  intros w v Dw Dv Ag. rewrite (E w v Dw Dv Ag). reflexivity.
Qed.

(** Steps on a method object of the thread. *)
Lemma local_on_meth k i g {A} (p : prog A) : owner D i = k -> local k p -> local k (Put (on_meth i g) p).
Proof.
  intros Ho Hp. apply local_put; [| | |exact Hp].
  - intros w Dw. exact Dw.
  - intros w v Dw Dv (A1 & A2 & A3). split; [|split; assumption]. intros j Hj. cbn. destruct (A1 j Hj) as [E1 E2].
    split; [|exact E2]. destruct (Nat.eq_dec j i) as [->|N]; [rewrite !upd_same, E1; reflexivity|].
    rewrite !upd_other by assumption. exact E1.
  - intros j w Hj Dw. split; [|split; reflexivity]. intros i' Hi'. cbn. split; [|reflexivity].
    rewrite upd_other; [reflexivity|]. congruence.
Qed.

(** Steps on a condition: one of the thread's, or any the thread may refer to if the step
    leaves the body as it is. *)
Lemma local_on_cond k i r g {A} (p : prog A) : owner D i = k -> may_refer D i r ->
  (shares D i = false \/ forall c, ic_body_of (g c) = ic_body_of c) -> local k p -> local k (Put (on_cond r g) p).
Proof.
  intros Ho Hr Hg Hp. apply local_put; [| | |exact Hp].
  - intros w [D1 D2]. split; [exact D1|]. intros r' Hr'. cbn.
    destruct (Nat.eq_dec r' r) as [->|N]; [|rewrite upd_other by assumption; apply D2, Hr'].
    rewrite upd_same. destruct Hr as [Hr|[Hs Hr]]; [congruence|].
    destruct Hg as [Hg|Hg]; [congruence|]. destruct (D2 r Hr) as (d & m & q & E). exists d, m, q. rewrite Hg. exact E.
  - intros w v Dw Dv (A1 & A2 & A3). split; [exact A1|]. split; intros r' Hr'; cbn.
    + destruct (Nat.eq_dec r' r) as [->|N]; [rewrite !upd_same, (A2 r Hr'); reflexivity|].
      rewrite !upd_other by assumption. apply A2, Hr'.
    + destruct (Nat.eq_dec r' r) as [->|N]; [|rewrite !upd_other by assumption; apply A3, Hr'].
      rewrite !upd_same. destruct Hr as [Hr|[Hs Hr]]; [congruence|]. destruct Hg as [Hg|Hg]; [congruence|].
      rewrite !Hg. apply A3, Hr'.
  - intros j w Hj Dw. split; [intros; split; reflexivity|]. split; intros r' Hr'; cbn.
    + rewrite upd_other; [reflexivity|]. intros ->. destruct Hr as [Hr|[_ Hr]]; congruence.
    + destruct (Nat.eq_dec r' r) as [->|N]; [|rewrite upd_other by assumption; reflexivity].
      rewrite upd_same. destruct Hr as [Hr|[Hs Hr]]; [congruence|]. destruct Hg as [Hg|Hg]; [congruence|].
      rewrite Hg. reflexivity.
Qed.

Lemma local_set_ref k i r {A} (p : prog A) : owner D i = k -> may_refer D i r -> local k p -> local k (Put (set_ref i r) p).
Proof.
  intros Ho Hr Hp. apply local_put; [| | |exact Hp].
  - intros w [D1 D2]. split; [|exact D2]. intros j. cbn. destruct (Nat.eq_dec j i) as [->|N]; [rewrite upd_same; exact Hr|].
    rewrite upd_other by assumption. apply D1.
  - intros w v Dw Dv (A1 & A2 & A3). split; [|split; assumption]. intros j Hj. cbn. destruct (A1 j Hj) as [E1 E2].
    split; [exact E1|]. destruct (Nat.eq_dec j i) as [->|N]; [rewrite !upd_same; reflexivity|].
    rewrite !upd_other by assumption. exact E2.
  - intros j w Hj Dw. split; [|split; reflexivity]. intros i' Hi'. cbn. split; [reflexivity|].
    rewrite upd_other; [reflexivity|]. congruence.
Qed.

(** What a thread reads off the condition one of its objects refers to. *)
Lemma cond_read k i w v : owner D i = k -> divided D w -> divided D v -> agree k w v ->
  ic_delta_m (m_ic (view w i)) = ic_delta_m (m_ic (view v i)) /\ ic_shape_d (m_ic (view w i)) = ic_shape_d (m_ic (view v i)).
Proof.
  intros Ho [D1 D2] [D1' D2'] (A1 & A2 & A3). unfold view. cbn [m_ic set_ic].
  rewrite <- (proj2 (A1 i Ho)). destruct (D1 i) as [Hr|[_ Hr]].
  - rewrite (A2 _ (eq_trans Hr (f_equal Some Ho))). split; reflexivity.
  - destruct (D2 _ Hr) as (d & m & q & E). assert (E' := A3 _ Hr). rewrite E in E'. symmetry in E'.
    unfold ic_delta_m, ic_shape_d. rewrite E, E'. split; reflexivity.
Qed.

Section Calls.
Variable integrator : R -> R -> list xr -> list bool -> ask.
Variables (k i : nat).
Hypothesis Ho : owner D i = k.

Lemma meth_read {A} (f : meth -> A) w v : divided D w -> divided D v -> agree k w v -> f (w_meths w i) = f (w_meths v i).
Proof. intros _ _ (A1 & _). rewrite (proj1 (A1 i Ho)). reflexivity. Qed.
Lemma local_meth {A} (f : meth -> res A) : local k (get (fun w => f (w_meths w i))).
Proof. apply local_get1. intros. apply meth_read; assumption. Qed.

Lemma local_rhs x f : local k (rhs_prog i x f).
Proof.
  unfold rhs_prog. apply local_get.
  - intros w v Dw Dv Ag. rewrite (meth_read m_kind w v Dw Dv Ag). reflexivity.
  - intros w _. destruct (m_kind (w_meths w i)); destruct f as [|a [|b [|c t]]]; try (constructor; fail).
    + apply local_bind; [apply (local_meth (fun m => calc_lambda m x a))|intros lam].
      apply local_bind; [constructor|intros F].
      apply (local_meth (fun m => bind (q_u_e m x) (fun u => Ok [(F / (Fin (1/1000) + Fin u))%xr]))).
    + apply local_bind; [apply (local_meth (fun m => calc_lambda m x a))|intros lam].
      apply local_bind; [apply (local_meth (fun m => match m_fit m with Some ft => Ok (fit_f ft lam) | None => Err AttributeError end))|intros F].
      apply (local_meth (fun m => bind (q_u_e m x) (fun u => Ok [(F / (Fin (1/1000) + Fin u))%xr]))).
    + apply local_bind; [apply (local_meth (fun m => bind (q_u_e m x) (fun u => Ok (ret_val (slot_kind (m_u m)) (Fin u)))))|intros u].
      apply local_bind; [apply (local_meth (fun m => bind (q_du_e m x) (fun du => Ok (ret_val (slot_kind (m_du m)) (Fin du)))))|intros du].
      apply (local_meth (fun m => bind (head_rhs (m_nu m) u du a b) (fun p => Ok [fst p; snd p]))).
Qed.
Lemma local_run evs a : local k (run_prog i evs a).
Proof.
  induction a as [r|x y h IH|j x y h IH]; cbn [run_prog].
  - constructor.
  - apply local_bind; [apply local_rhs|exact IH].
  - destruct (nth_error evs j) as [e|]; [|constructor]. apply local_bind; [|exact IH].
    apply (local_meth (fun m => event_value m e x y)).
Qed.
Lemma local_setup : local k (setup_prog i).
Proof.
  unfold setup_prog. apply local_bind.
  - apply local_get1. intros w v Dw Dv Ag. apply (cond_read k i w v Ho Dw Dv Ag).
  - intros d. apply local_get1. intros w v Dw Dv Ag. rewrite (proj2 (cond_read k i w v Ho Dw Dv Ag)).
    rewrite (meth_read m_kind w v Dw Dv Ag), (meth_read m_nu w v Dw Dv Ag). reflexivity.
Qed.
Lemma local_before x0 x1 l : local k (before_prog integrator i x0 x1 l).
Proof.
  assert (RR : forall B (h : nat -> prog B), (forall r, may_refer D i r -> local k (h r)) ->
    local k (pbind (get (fun w => Ok (w_ref w i))) h)).
  { intros B h Hh. apply (local_read k _ (fun r => may_refer D i r)); [| |exact Hh].
    - intros w v _ _ (A1 & _). rewrite (proj2 (A1 i Ho)). reflexivity.
    - intros w a [D1 _] E. injection E as <-. apply D1. }
  unfold before_prog. apply local_bind; [apply (local_meth (fun m => Ok (m_nu m)))|intros nu]. apply RR. intros r Hr.
  apply local_bind.
  { destruct (xleb nu (Fin 0)) eqn:En; [constructor|]. apply (local_on_cond k i); [exact Ho|exact Hr| |constructor].
    right. intros c. unfold ic_set_nu. rewrite En. reflexivity. }
  intros _. apply local_bind; [apply (local_meth (fun m => q_du_e m x0))|intros du]. apply RR. intros r' Hr'.
  apply local_bind. { apply (local_on_cond k i); [exact Ho|exact Hr'|right; reflexivity|constructor]. }
  intros _. apply local_bind; [apply local_setup|intros y0].
  apply local_bind; [apply local_on_meth; [exact Ho|constructor]|intros _].
  apply local_bind; [apply (local_meth (fun m => Ok (m_events m)))|intros evs].
  apply local_bind; [apply local_run|intros a]. constructor.
Qed.
Lemma local_solve x0 x1 l : local k (solve_prog integrator i x0 x1 l).
Proof.
  unfold solve_prog. apply local_bind; [apply local_before|intros p].
  apply local_bind; [|intros _; apply (local_meth (fun m => gather x0 (fst p) (m_events m) (snd p)))].
  unfold store_prog. apply local_bind; [apply local_on_meth; [exact Ho|constructor]|intros _].
  destruct (r_success (snd p)); [apply local_on_meth; [exact Ho|]|]; constructor.
Qed.
Lemma local_sol x : local k (sol_prog i x).
Proof.
  unfold sol_prog. apply local_bind; [|intros _].
  - apply (local_meth (fun m => match m_sol m with None => Err ValueError | Some _ => Ok tt end)).
  - apply (local_meth (fun m => match m_sol m with None => Err TypeError | Some s => Ok (s x) end)).
Qed.
Lemma local_delta_m x : local k (delta_m_prog i x).
Proof.
  unfold delta_m_prog. apply local_bind; [apply local_sol|intros y].
  apply (local_meth (fun m => bind (comp 0 y) (fun s => match m_kind m with Head => Ok s | _ => Ok (xsqrt (s * m_nu m)%xr) end))).
Qed.
Lemma local_shape_d x : local k (shape_d_prog i x).
Proof.
  assert (L : forall s, local k (pbind (lambda_prog i x s) (fun lam =>
     get (fun w => match m_fit (w_meths w i) with Some f => Ok (shape f lam) | None => Err AttributeError end)))).
  { intros s. apply local_bind; [apply (local_meth (fun m => calc_lambda m x s))|intros lam].
    apply (local_meth (fun m => match m_fit m with Some f => Ok (shape f lam) | None => Err AttributeError end)). }
  unfold shape_d_prog. apply local_bind; [apply local_sol|intros y]. apply local_get.
  - intros w v Dw Dv Ag. rewrite (meth_read m_kind w v Dw Dv Ag). reflexivity.
  - intros w _. destruct (m_kind (w_meths w i)); [| |constructor]; (destruct (comp 0 y); [apply L|constructor]).
Qed.
End Calls.

Lemma local_call integrator k c : keeps_to D k c -> local k (call_prog integrator c).
Proof.
  destruct c as [i x0 x1 l|i x|i x|i x|i v|i v|i u du d2u|i r]; cbn [keeps_to call_prog]; intros H;
    try (apply local_bind; [|intros; constructor]).
  - apply local_solve, H.
  - apply local_delta_m, H.
  - apply local_shape_d, H.
  - unfold delta_d_prog. apply local_bind; [apply local_delta_m, H|intros d].
    apply local_bind; [apply local_shape_d, H|intros h; constructor].
  - unfold set_nu_prog. destruct (xleb v (Fin 0)); [constructor|]. apply local_on_meth; [exact H|constructor].
  - destruct H as [Ho Hs]. unfold set_delta_m_prog. destruct (xleb v (Fin 0)); [constructor|].
    apply (local_read k _ (fun r => may_refer D i r)).
    + intros w u _ _ (A1 & _). rewrite (proj2 (A1 i Ho)). reflexivity.
    + intros w a [D1 _] E. injection E as <-. apply D1.
    + intros r Hr. apply (local_on_cond k i); [exact Ho|exact Hr|left; exact Hs|constructor].
  - unfold set_velocity_prog. repeat (apply local_bind; [apply local_on_meth; [exact H|constructor]|intros _]).
    apply local_on_meth; [exact H|constructor].
  - destruct H as [Ho Hr]. apply local_set_ref; [exact Ho|exact Hr|constructor].
Qed.
Lemma local_thread integrator k l : List.Forall (keeps_to D k) l -> local k (thread integrator l).
Proof.
  induction 1 as [|c t Hc _ IH]; cbn [thread]; [constructor|].
  apply local_catch; [apply local_call, Hc|]. intros r. apply local_bind; [exact IH|intros rs; constructor].
Qed.

(** A step of a local program. *)
Lemma local_step k {A} (p : prog A) w : local k p -> divided D w ->
  local k (fst (pstep p w)) /\ divided D (snd (pstep p w)) /\
  (forall j, j <> k -> agree j w (snd (pstep p w))) /\
  (forall v, divided D v -> agree k w v -> fst (pstep p w) = fst (pstep p v) /\ agree k (snd (pstep p w)) (snd (pstep p v))).
Proof.
  intros L Dw. destruct L as [r|h E F|g p G1 G2 G3 L]; cbn [pstep fst snd].
  - split; [constructor|]. split; [exact Dw|]. split; [intros; apply agree_refl|].
    intros v Dv Ag. split; [reflexivity|exact Ag].
  - split; [apply F, Dw|]. split; [exact Dw|]. split; [intros; apply agree_refl|].
    intros v Dv Ag. split; [apply E; assumption|exact Ag].
  - split; [exact L|]. split; [apply G1, Dw|]. split; [intros j Hj; apply G3; assumption|].
    intros v Dv Ag. split; [reflexivity|apply G2; assumption].
Qed.

Lemma schedule_alone k {A} l : forall (ps : nat -> prog A) w p v,
  (forall j, local j (ps j)) -> divided D w -> divided D v -> agree k w v -> ps k = p ->
  let s := schedule ps w l in let t := psteps (turns k l) p v in
  fst s k = fst t /\ agree k (snd s) (snd t) /\ divided D (snd s) /\ divided D (snd t).
Proof.
  induction l as [|j l IH]; intros ps w p v L Dw Dv Ag E; cbn [schedule turns count_occ psteps fst snd]; cbv zeta.
  - cbn [schedule psteps fst snd]. auto.
  - destruct (local_step j (ps j) w (L j) Dw) as (S1 & S2 & S3 & S4).
    unfold turns. cbn [schedule count_occ]. destruct (pstep (ps j) w) as [q u] eqn:Ep. cbn [fst snd] in *.
    assert (L' : forall a, local a (upd ps j q a)).
    { intros a. destruct (Nat.eq_dec a j) as [->|N]; [rewrite upd_same; exact S1|rewrite upd_other by exact N; apply L]. }
    destruct (Nat.eq_dec j k) as [->|N].
    + destruct (S4 v Dv Ag) as [T1 T2]. cbn [psteps].
      assert (Dv' := local_step k (ps k) v (L k) Dv).
      rewrite <- E. destruct (pstep (ps k) v) as [q' v'] eqn:Ep'. cbn [fst snd] in *. destruct Dv' as (_ & Dv' & _).
      apply (IH (upd ps k q) u q' v' L' S2 Dv' T2). rewrite upd_same. exact T1.
    + apply (IH (upd ps j q) u p v L' S2 Dv).
      * apply agree_trans with w; [apply agree_sym, S3; congruence|exact Ag].
      * rewrite upd_other by congruence. exact E.
Qed.
End Division.

Lemma psteps_ret {A} n : forall (p : prog A) w r v, psteps n p w = (Ret r, v) -> finish p w = (r, v).
Proof.
  induction n as [|n IH]; intros p w r v H.
  - cbn in H. injection H as -> ->. reflexivity.
  - cbn [psteps] in H. destruct p as [r0|h|g q]; cbn [pstep] in H; apply IH in H; exact H.
Qed.

Lemma threads_lemma integrator D w calls l k : divided D w -> (forall j, List.Forall (keeps_to D j) (calls j)) ->
  let s := schedule (fun j => thread integrator (calls j)) w l in
  let t := psteps (turns k l) (thread integrator (calls k)) w in
  fst s k = fst t /\
  (forall i, owner D i = k -> w_meths (snd s) i = w_meths (snd t) i /\ w_ref (snd s) i = w_ref (snd t) i /\
     (shares D i = false -> view (snd s) i = view (snd t) i)) /\
  forall r, fst s k = Ret r -> finish (thread integrator (calls k)) w = (r, snd t).
Proof.
  intros Dw Hc s t.
  destruct (schedule_alone D k l (fun j => thread integrator (calls j)) w _ w
    (fun j => local_thread D integrator j (calls j) (Hc j)) Dw Dw (agree_refl D k w) eq_refl) as (E & (A1 & A2 & A3) & D1 & D2).
  fold s t in E, A1, A2, A3, D1, D2. split; [exact E|]. split.
  - intros i Hi. destruct (A1 i Hi) as [E1 E2]. split; [exact E1|]. split; [exact E2|]. intros Hs.
    unfold view. rewrite E1, E2. rewrite A2; [reflexivity|].
    destruct (proj1 D2 i) as [H|[H _]]; [rewrite H, Hi; reflexivity|congruence].
  - intros r Hr. rewrite E in Hr. unfold t in *. destruct (psteps (turns k l) (thread integrator (calls k)) w) as [q v] eqn:Ep.
    cbn [fst snd] in *. rewrite Hr in Ep. apply (psteps_ret _ _ _ _ _ Ep).
Qed.

(* ------------------------------------------------------------------ *)
(** * A call that runs alone is the call of CoreModel *)

Lemma finish_catch {A B} (p : prog A) (f : res A -> prog B) : forall w,
  finish (pcatch p f) w = finish (f (fst (finish p w))) (snd (finish p w)).
Proof. induction p as [r|h IH|g p IH]; intros w; cbn [pcatch finish]; [reflexivity|apply IH|apply IH]. Qed.
Lemma finish_bind {A B} (p : prog A) (f : A -> prog B) w :
  finish (pbind p f) w =
  match finish p w with (Ok a, v) => finish (f a) v | (Err e, v) => (Err e, v) end.
Proof. unfold pbind. rewrite finish_catch. destruct (finish p w) as [[a|e] v]; reflexivity. Qed.

Lemma view_fields w i : m_kind (view w i) = m_kind (w_meths w i) /\ m_nu (view w i) = m_nu (w_meths w i) /\
  m_fit (view w i) = m_fit (w_meths w i) /\ m_sol (view w i) = m_sol (w_meths w i).
Proof. repeat split. Qed.

Lemma set_ic_impl m c x y : ode_impl (set_ic m c) x y = ode_impl m x y.
Proof. reflexivity. Qed.

Section Alone.
Variable integrator : R -> R -> list xr -> list bool -> ask.

Lemma finish_rhs i x y w : finish (rhs_prog i x y) w = (ode_impl (w_meths w i) x y, w).
Proof.
  unfold rhs_prog, ode_impl. cbn [finish]. destruct (m_kind (w_meths w i)) eqn:Ek;
    destruct y as [|a [|b [|c t]]]; try reflexivity; repeat (rewrite finish_bind; unfold lambda_prog, get; cbn [finish]).
  - unfold calc_f. rewrite Ek. destruct (calc_lambda (w_meths w i) x a) as [lam|e]; cbn; [|reflexivity].
    destruct (q_u_e (w_meths w i) x); reflexivity.
  - unfold calc_f. rewrite Ek. destruct (calc_lambda (w_meths w i) x a) as [lam|e]; [|reflexivity].
    cbn [bind]. rewrite finish_bind. unfold get. cbn [finish]. destruct (m_fit (w_meths w i)); [|reflexivity]. cbn [bind finish].
    destruct (q_u_e (w_meths w i) x); reflexivity.
  - destruct (q_u_e (w_meths w i) x) as [u|e]; [|reflexivity]. cbn [bind]. rewrite finish_bind. unfold get. cbn [finish].
    destruct (q_du_e (w_meths w i) x) as [du|e]; reflexivity.
Qed.

Lemma finish_run i evs a w :
  finish (run_prog i evs a) w =
  (fst (run unit a (fun x y => elift _ (ode_impl (w_meths w i) x y))
         (map (fun e x y => elift _ (event_value (w_meths w i) e x y)) evs) tt), w).
Proof.
  induction a as [r|x y h IH|j x y h IH]; cbn [run_prog run].
  - reflexivity.
  - rewrite finish_bind, finish_rhs. unfold ebind, elift at 3. destruct (ode_impl (w_meths w i) x y); [apply IH|reflexivity].
  - rewrite nth_error_map. destruct (nth_error evs j) as [e|]; [|reflexivity]. cbn [option_map].
    rewrite finish_bind. unfold event_prog, get. cbn [finish]. unfold ebind, elift at 3.
    destruct (event_value (w_meths w i) e x y); [apply IH|reflexivity].
Qed.

Lemma else_refl i w : elsewhere_same i w w.
Proof. repeat split. Qed.
Lemma else_meth i w v g : elsewhere_same i w v -> elsewhere_same i w (on_meth i g v).
Proof.
  intros (A & B & C & E). split; [|split; [exact B|split; assumption]].
  intros j Hj. cbn. rewrite upd_other by exact Hj. apply A, Hj.
Qed.
Lemma else_cond i w v g : elsewhere_same i w v -> elsewhere_same i w (on_cond (w_ref w i) g v).
Proof.
  intros (A & B & C & E). split; [exact A|]. split; [|split; assumption].
  intros r Hr. cbn. rewrite upd_other by exact Hr. apply B, Hr.
Qed.

Lemma view_cond w i g : view (on_cond (w_ref w i) g w) i = set_ic (view w i) (g (m_ic (view w i))).
Proof. unfold view. cbn. rewrite upd_same. reflexivity. Qed.
Lemma view_meth w i g : (forall m c, set_ic (g m) c = g (set_ic m c)) -> view (on_meth i g w) i = g (view w i).
Proof. intros H. unfold view. cbn. rewrite upd_same. apply H. Qed.

Lemma solve_alone i x0 x1 l w :
  let s := finish (solve_prog integrator i x0 x1 l) w in
  solve (solver_of integrator) (view w i) x0 x1 l = (view (snd s) i, fst s) /\ elsewhere_same i w (snd s).
Proof.
  cbv zeta. destruct (finish (solve_prog integrator i x0 x1 l) w) as [o v] eqn:H. cbn [fst snd].
  unfold solve_prog in H. rewrite finish_bind in H. unfold before_prog in H. rewrite finish_bind in H. cbn [finish get] in H.
  rewrite finish_bind in H. cbn [finish get] in H. unfold solve.
  change (m_nu (view w i)) with (m_nu (w_meths w i)).
  set (nu := m_nu (w_meths w i)) in *. set (r := w_ref w i) in *.
  rewrite finish_bind in H. unfold ic_set_nu at 1.
  destruct (xleb nu (Fin 0)) eqn:En; cbn [finish put] in H.
  { injection H as <- <-. split; [|apply else_refl]. unfold view. reflexivity. }
  set (w1 := on_cond r (fun c => fst (ic_set_nu c nu)) w) in *.
  assert (E1 : elsewhere_same i w w1) by (apply else_cond, else_refl).
  assert (V1 : view w1 i = set_ic (view w i) {| ic_du := ic_du (m_ic (view w i)); ic_nu := nu; ic_body_of := ic_body_of (m_ic (view w i)) |}).
  { unfold w1, r. rewrite view_cond. unfold ic_set_nu. rewrite En. reflexivity. }
  rewrite <- V1. rewrite finish_bind in H. cbn [finish get] in H.
  change (q_du_e (w_meths w1 i) x0) with (q_du_e (view w1 i) x0) in H.
  destruct (q_du_e (view w1 i) x0) as [du|e] eqn:Edu; [|injection H as <- <-; split; [reflexivity|exact E1]].
  rewrite finish_bind in H. cbn [finish get] in H. rewrite finish_bind in H. cbn [finish put] in H. change (w_ref w1 i) with r in H.
  set (w2 := on_cond r (fun c => ic_set_du c (Fin du)) w1) in *.
  assert (E2 : elsewhere_same i w w2) by (apply else_cond, E1).
  assert (V2 : view w2 i = set_ic (view w1 i) (ic_set_du (m_ic (view w1 i)) (Fin du))).
  { apply (view_cond w1 i). }
  rewrite <- V2. rewrite finish_bind in H.
  assert (Es : finish (setup_prog i) w2 = (ode_setup (view w2 i), w2)).
  { unfold setup_prog, ode_setup. rewrite finish_bind. unfold get. cbn [finish].
    change (m_kind (view w2 i)) with (m_kind (w_meths w2 i)).
    destruct (m_kind (w_meths w2 i)) eqn:Ek; destruct (ic_delta_m (m_ic (view w2 i))); cbn [finish bind]; rewrite ?Ek; reflexivity. }
  rewrite Es in H. destruct (ode_setup (view w2 i)) as [y0|e]; [|injection H as <- <-; split; [reflexivity|exact E2]].
  rewrite finish_bind in H. cbn [finish put] in H. set (w3 := on_meth i (fun m => add_kill_events m l) w2) in *.
  assert (E3 : elsewhere_same i w w3) by (apply else_meth, E2).
  assert (V3 : view w3 i = add_kill_events (view w2 i) l) by (apply view_meth; reflexivity).
  rewrite <- V3. rewrite finish_bind in H. cbn [finish get] in H. rewrite finish_bind, finish_run in H.
  change (m_events (view w3 i)) with (m_events (w_meths w3 i)). unfold solver_of.
  rewrite !map_map. cbn [fst snd].
  change (fun x y => elift unit (ode_impl (view w3 i) x y)) with (fun x y => elift unit (ode_impl (w_meths w3 i) x y)).
  change (fun (x : event) (x2 : R) (y : list xr) => elift unit (event_value (view w3 i) x x2 y))
    with (fun (x : event) (x2 : R) (y : list xr) => elift unit (event_value (w_meths w3 i) x x2 y)).
  match type of H with context [fst (run unit ?a ?f ?g tt)] =>
    change (fun x => ev_terminal x) with ev_terminal; destruct (fst (run unit a f g tt)) as [q|e] end;
    [|injection H as <- <-; split; [reflexivity|exact E3]].
  cbn [finish] in H. rewrite finish_bind in H. unfold store_prog in H. rewrite finish_bind in H. cbn [finish put fst snd] in H.
  destruct (r_success q) eqn:Eq; cbn [finish put get] in H; injection H as <- <-.
  - split; [|apply else_meth, else_meth, E3]. f_equal; [|cbn; rewrite !upd_same; reflexivity].
    unfold view. cbn. rewrite !upd_same. reflexivity.
  - split; [|apply else_meth, E3]. f_equal; [|cbn; rewrite !upd_same; reflexivity].
    unfold view. cbn. rewrite !upd_same. reflexivity.
Qed.

Lemma delta_m_alone i x w : finish (delta_m_prog i x) w = (q_delta_m (view w i) x, w).
Proof.
  unfold delta_m_prog, sol_prog, q_delta_m, sol_at. rewrite !finish_bind. unfold get. cbn [finish].
  change (m_sol (view w i)) with (m_sol (w_meths w i)). destruct (m_sol (w_meths w i)) as [s|] eqn:E; [|reflexivity].
  cbn [finish]. rewrite ?E. cbn [finish bind]. reflexivity.
Qed.
Lemma shape_d_alone i x w : finish (shape_d_prog i x) w = (q_shape_d (view w i) x, w).
Proof.
  unfold shape_d_prog, sol_prog, q_shape_d, sol_at. rewrite !finish_bind. unfold get. cbn [finish].
  change (m_sol (view w i)) with (m_sol (w_meths w i)). destruct (m_sol (w_meths w i)) as [s|] eqn:E; [|reflexivity].
  cbn [finish]. rewrite ?E. cbn [finish bind]. change (m_kind (view w i)) with (m_kind (w_meths w i)).
  destruct (m_kind (w_meths w i)); [| |reflexivity]; (destruct (comp 0 (s x)) as [v|e]; [|reflexivity]);
    cbn [bind]; rewrite finish_bind; unfold lambda_prog, get; cbn [finish];
    change (calc_lambda (view w i) x v) with (calc_lambda (w_meths w i) x v);
    destruct (calc_lambda (w_meths w i) x v); reflexivity.
Qed.
Lemma delta_d_alone i x w : finish (delta_d_prog i x) w = (q_delta_d (view w i) x, w).
Proof.
  unfold delta_d_prog, q_delta_d. rewrite finish_bind, delta_m_alone. destruct (q_delta_m (view w i) x); [|reflexivity].
  rewrite finish_bind, shape_d_alone. cbn [bind]. destruct (q_shape_d (view w i) x); reflexivity.
Qed.

Lemma set_nu_alone i v w : let s := finish (set_nu_prog i v) w in
  set_nu (view w i) v = (view (snd s) i, fst s) /\ elsewhere_same i w (snd s).
Proof.
  cbv zeta. unfold set_nu_prog, set_nu. destruct (xleb v (Fin 0)); cbn [finish put fst snd].
  - split; [reflexivity|apply else_refl].
  - split; [|apply else_meth, else_refl]. f_equal. symmetry. apply view_meth. reflexivity.
Qed.
Lemma set_delta_m_alone i v w : let s := finish (set_delta_m_prog i v) w in
  set_initial_delta_m (view w i) v = (view (snd s) i, fst s) /\ elsewhere_same i w (snd s).
Proof.
  cbv zeta. unfold set_delta_m_prog, set_initial_delta_m. destruct (xleb v (Fin 0)); cbn [finish].
  - split; [reflexivity|apply else_refl].
  - rewrite finish_bind. cbn [finish get put fst snd]. split; [|apply else_cond, else_refl]. f_equal. symmetry. apply view_cond.
Qed.
Lemma set_velocity_alone pchip i u du d2u w : let s := finish (set_velocity_prog i u du d2u) w in
  set_velocity pchip (view w i) (PCall u) (PCall du) (PCall d2u) = (view (snd s) i, fst s) /\ elsewhere_same i w (snd s).
Proof.
  cbv zeta. unfold set_velocity_prog. rewrite !finish_bind. cbn [finish put]. rewrite finish_bind. cbn [finish put fst snd].
  split; [|do 3 apply else_meth; apply else_refl]. cbn. unfold view. cbn. rewrite !upd_same. reflexivity.
Qed.
End Alone.

(* ------------------------------------------------------------------ *)
(** * The states a call passes through *)

Fixpoint alw {A} (Q : nat -> world -> Prop) (ph : nat) (p : prog A) (w : world) (K : nat -> A -> world -> Prop) : Prop :=
  Q ph w /\
  match p with
  | Ret (Ok a) => K ph a w
  | Ret (Err _) => True
  | Get h => alw Q ph (h w) w K
  | Put g q => exists ph', (ph <= ph')%nat /\ alw Q ph' q (g w) K
  end.

Lemma alw_now {A} Q ph (p : prog A) w K : alw Q ph p w K -> Q ph w.
Proof. destruct p as [[a|e]|h|g q]; intros [H _]; exact H. Qed.

Lemma alw_bind {A B} Q (p : prog A) (f : A -> prog B) (K : nat -> B -> world -> Prop) : forall ph w,
  alw Q ph p w (fun ph' a v => finish p w = (Ok a, v) -> alw Q ph' (f a) v K) -> alw Q ph (pbind p f) w K.
Proof.
  induction p as [[a|e]|h IH|g p IH]; intros ph w; unfold pbind; cbn [pcatch alw finish]; intros [H1 H2].
  - apply H2. reflexivity.
  - split; [exact H1|exact Logic.I].
  - split; [exact H1|]. apply IH, H2.
  - split; [exact H1|]. destruct H2 as (ph' & Hp & H2). exists ph'. split; [exact Hp|]. apply IH, H2.
Qed.
Lemma alw_get {A B} (Q : nat -> world -> Prop) ph (f : world -> res A) (h : A -> prog B) w K : Q ph w ->
  (forall a, f w = Ok a -> alw Q ph (h a) w K) -> alw Q ph (pbind (get f) h) w K.
Proof.
  intros Hq Ha. unfold pbind, get. cbn [pcatch alw]. split; [exact Hq|].
  destruct (f w) as [a|e]; [apply Ha; reflexivity|]. split; [exact Hq|exact Logic.I].
Qed.
Lemma alw_put {B} (Q : nat -> world -> Prop) ph ph' g (h : unit -> prog B) w K : Q ph w -> (ph <= ph')%nat ->
  alw Q ph' (h tt) (g w) K -> alw Q ph (pbind (put g) h) w K.
Proof. intros Hq Hp Ha. unfold pbind, put. cbn [pcatch alw]. split; [exact Hq|]. exists ph'. split; assumption. Qed.

Inductive silent {A} : prog A -> Prop :=
| silent_ret r : silent (Ret r)
| silent_get h : (forall w, silent (h w)) -> silent (Get h).
Lemma silent_catch {A B} (p : prog A) (f : res A -> prog B) : silent p -> (forall r, silent (f r)) -> silent (pcatch p f).
Proof. intros H F. induction H as [r|h _ IH]; cbn [pcatch]; [apply F|constructor; exact IH]. Qed.
Lemma silent_bind {A B} (p : prog A) (f : A -> prog B) : silent p -> (forall r, silent (f r)) -> silent (pbind p f).
Proof. intros H F. apply silent_catch; [exact H|]. intros [a|e]; [apply F|constructor]. Qed.
Lemma silent_read {A} (f : world -> res A) : silent (get f).
Proof. constructor. intros w. constructor. Qed.
Lemma alw_silent {A} (Q : nat -> world -> Prop) ph (p : prog A) w (K : nat -> A -> world -> Prop) : silent p -> Q ph w ->
  (forall a, K ph a w) -> alw Q ph p w K.
Proof.
  intros H Hq HK. induction H as [[a|e]|h _ IH]; cbn [alw]; split; auto.
Qed.

Lemma silent_rhs i x f : silent (rhs_prog i x f).
Proof.
  unfold rhs_prog. constructor. intros w. destruct (m_kind (w_meths w i)); destruct f as [|a [|b [|c t]]];
    try (constructor; fail); unfold lambda_prog;
    repeat first [apply silent_read | constructor; fail | apply silent_bind; [|intros]].
Qed.
Lemma silent_run i evs a : silent (run_prog i evs a).
Proof.
  induction a as [r|x y h IH|j x y h IH]; cbn [run_prog].
  - constructor.
  - apply silent_bind; [apply silent_rhs|exact IH].
  - destruct (nth_error evs j); [|constructor]. apply silent_bind; [apply silent_read|exact IH].
Qed.
Lemma silent_setup i : silent (setup_prog i).
Proof. unfold setup_prog. apply silent_bind; [apply silent_read|intros]. apply silent_read. Qed.
Lemma silent_sol i x : silent (sol_prog i x).
Proof. unfold sol_prog. apply silent_bind; [apply silent_read|intros]. apply silent_read. Qed.
Lemma silent_delta_m i x : silent (delta_m_prog i x).
Proof. unfold delta_m_prog. apply silent_bind; [apply silent_sol|intros]. apply silent_read. Qed.
Lemma silent_shape_d i x : silent (shape_d_prog i x).
Proof.
  unfold shape_d_prog. apply silent_bind; [apply silent_sol|intros y]. constructor. intros w.
  destruct (m_kind (w_meths w i)); [| |constructor]; (destruct (comp 0 y); [|constructor]);
    (apply silent_bind; [apply silent_read|intros; apply silent_read]).
Qed.
Lemma silent_query integrator i l : List.Forall (query_of i) l -> silent (thread integrator l).
Proof.
  induction 1 as [|c t Hc _ IH]; cbn [thread]; [constructor|]. apply silent_catch.
  - destruct c; cbn in Hc; try contradiction; cbn [call_prog]; (apply silent_bind; [|intros; constructor]).
    + apply silent_delta_m.
    + apply silent_shape_d.
    + unfold delta_d_prog. apply silent_bind; [apply silent_delta_m|intros]. apply silent_bind; [apply silent_shape_d|intros; constructor].
  - intros r. apply silent_bind; [exact IH|intros; constructor].
Qed.

Lemma alw_steps {A} (Q : nat -> world -> Prop) n : forall ph (p : prog A) w K, alw Q ph p w K ->
  exists ph', (ph <= ph')%nat /\ Q ph' (snd (psteps n p w)).
Proof.
  induction n as [|n IH]; intros ph p w K H.
  - exists ph. split; [lia|]. apply (alw_now _ _ _ _ _ H).
  - cbn [psteps]. destruct p as [r|h|g q]; cbn [pstep].
    + apply (IH ph (Ret r) w K H).
    + destruct H as [_ H]. apply (IH ph _ w K H).
    + destruct H as (_ & ph' & Hp & H). destruct (IH ph' _ _ K H) as (ph'' & Hp' & Hq).
      exists ph''. split; [lia|exact Hq].
Qed.

Section Phases.
Variable integrator : R -> R -> list xr -> list bool -> ask.
Variables (i : nat) (x0 x1 : R) (l : list event) (w : world).
Let m0 := w_meths w i.
Let final := snd (finish (solve_prog integrator i x0 x1 l) w).

Definition sol_phase (ph : nat) : option (R -> list xr) :=
  match ph with O => m_sol m0 | S O => None | _ => m_sol (w_meths final i) end.

Definition phase (ph : nat) (v : world) : Prop :=
  (exists evs, (evs = m_events m0 \/ evs = m_events m0 ++ l) /\
    w_meths v i = set_sol (set_events m0 evs) (sol_phase ph)) /\
  elsewhere_same i w v /\ ic_body_of (w_conds v (w_ref w i)) = ic_body_of (w_conds w (w_ref w i)).

Lemma phase_start : phase 0 w.
Proof.
  split; [|split; [apply else_refl|reflexivity]]. exists (m_events m0). split; [left; reflexivity|].
  unfold sol_phase, m0. destruct (w_meths w i); reflexivity.
Qed.
Lemma phase_cond ph v g : phase ph v -> (forall c, ic_body_of (g c) = ic_body_of c) -> phase ph (on_cond (w_ref w i) g v).
Proof.
  intros (A & B & C) G. split; [exact A|]. split; [apply else_cond, B|]. cbn. rewrite upd_same, G. exact C.
Qed.
Lemma phase_ref ph v : phase ph v -> w_ref v i = w_ref w i.
Proof. intros (_ & (_ & _ & E & _) & _). rewrite E. reflexivity. Qed.

Lemma meth_same j g v : w_meths (on_meth j g v) j = g (w_meths v j).
Proof. cbn. apply upd_same. Qed.

Lemma alw_solve : alw phase 0 (solve_prog integrator i x0 x1 l) w (fun ph _ v =>
  exists evs, w_meths v i = set_sol (set_events m0 evs) (m_sol (w_meths final i))).
Proof.
  assert (AE : forall v, phase 0 v -> w_meths v i = m0 -> phase 0 (on_meth i (fun m => add_kill_events m l) v)).
  { intros v (_ & B & C) E. split; [|split; [apply else_meth, B|exact C]].
    exists (m_events m0 ++ l). split; [right; reflexivity|]. cbn. rewrite upd_same, E. unfold add_kill_events.
    unfold sol_phase. destruct m0; reflexivity. }
  assert (P0 := phase_start).
  assert (F : finish (solve_prog integrator i x0 x1 l) w = finish (solve_prog integrator i x0 x1 l) w) by reflexivity.
  unfold solve_prog in F at 1. rewrite finish_bind in F.
  unfold solve_prog. apply alw_bind. unfold before_prog at 1.
  apply alw_get; [exact P0|]. intros nu _. apply alw_get; [exact P0|]. intros r Er. injection Er as <-.
  destruct (xleb nu (Fin 0)) eqn:En. { cbn. split; [exact P0|exact Logic.I]. }
  apply (alw_put _ 0 0); [exact P0|lia|].
  set (w1 := on_cond _ _ w). assert (P1 : phase 0 w1).
  { apply phase_cond; [exact P0|]. intros c. unfold ic_set_nu. rewrite En. reflexivity. }
  apply alw_get; [exact P1|]. intros du _. apply alw_get; [exact P1|]. intros r Er. injection Er as <-.
  apply (alw_put _ 0 0); [exact P1|lia|].
  set (w2 := on_cond _ _ w1). assert (P2 : phase 0 w2) by (apply phase_cond; [exact P1|reflexivity]).
  apply alw_bind, alw_silent; [apply silent_setup|exact P2|]. intros y0 _.
  apply (alw_put _ 0 0); [exact P2|lia|]. set (w3 := on_meth i _ w2).
  assert (P3 : phase 0 w3) by (apply AE; [exact P2|reflexivity]).
  apply alw_get; [exact P3|]. intros evs Ee. apply alw_bind, alw_silent; [apply silent_run|exact P3|]. intros a _.
  cbn [alw]. split; [exact P3|]. intros Hf. rewrite Hf in F. rewrite finish_bind in F. cbn [snd] in F |- *.
  unfold store_prog in *. rewrite finish_bind in F. cbn [finish put] in F.
  apply alw_bind. apply (alw_put _ 0 1); [exact P3|lia|].
  destruct P3 as ((ev & Hev & E3) & B3 & C3). set (w4 := on_meth i _ w3).
  assert (P4 : phase 1 w4).
  { split; [|split; [apply else_meth, B3|exact C3]]. exists ev. split; [exact Hev|]. unfold w4. rewrite meth_same, E3. reflexivity. }
  destruct (r_success a); cbn [alw put finish get] in *.
  - split; [exact P4|]. exists 2%nat. split; [lia|].
    assert (E5 : w_meths (on_meth i (fun m => set_sol m (Some (r_sol a))) w4) i = set_sol (set_events m0 ev) (m_sol (w_meths final i))).
    { unfold final. rewrite <- F. cbn [snd]. unfold w4. rewrite !meth_same, E3. reflexivity. }
    assert (P5 : phase 2 (on_meth i (fun m => set_sol m (Some (r_sol a))) w4)).
    { split; [|split; [apply else_meth, (proj1 (proj2 P4))|exact C3]]. exists ev. split; [exact Hev|]. exact E5. }
    split; [exact P5|]. intros _. split; [exact P5|]. split; [exact P5|].
    match goal with |- context [gather ?a ?b ?c ?d] => destruct (gather a b c d) end; [exists ev; exact E5|exact Logic.I].
  - split; [exact P4|]. intros _. split; [exact P4|]. split; [exact P4|].
    match goal with |- context [gather ?a ?b ?c ?d] => destruct (gather a b c d) end; [|exact Logic.I]. exists ev. unfold final. rewrite <- F. cbn [snd].
    unfold w4. rewrite !meth_same, E3. reflexivity.
Qed.
Lemma interrupted_phase n : exists ph, phase ph (interrupted n (solve_prog integrator i x0 x1 l) w).
Proof. destruct (alw_steps _ n _ _ _ _ alw_solve) as (ph & _ & H). exists ph. exact H. Qed.
End Phases.

(* ------------------------------------------------------------------ *)
(** * Queries while the object is solved again *)

Inductive may {A} (Q : nat -> world -> Prop) : nat -> prog A -> res A -> nat -> Prop :=
| may_ret ph r : may Q ph (Ret r) r ph
| may_get ph ph' h v r e : (ph <= ph')%nat -> Q ph' v -> may Q ph' (h v) r e -> may Q ph (Get h) r e.

Lemma may_later {A} Q ph (p : prog A) r e : may Q ph p r e -> (ph <= e)%nat.
Proof. induction 1; lia. Qed.
Lemma may_mono {A} Q ph ph' (p : prog A) r e : may Q ph' p r e -> (ph <= ph')%nat -> exists e', (e' <= e)%nat /\ may Q ph p r e'.
Proof.
  intros H Hp. destruct H as [ph' r|ph' ph'' h v r e Hq Hv H].
  - exists ph. split; [exact Hp|constructor].
  - exists e. split; [lia|]. apply (may_get Q ph ph'' h v r e); [lia|exact Hv|exact H].
Qed.
Lemma may_catch {A B} Q ph (p : prog A) (f : res A -> prog B) r e : may Q ph (pcatch p f) r e ->
  exists o m, may Q ph p o m /\ may Q m (f o) r e.
Proof.
  revert ph. induction p as [o|h IH|g p IH]; intros ph H; cbn [pcatch] in H.
  - exists o, ph. split; [constructor|exact H].
  - inversion H as [|? ? ? v ? ? Hp Hv H']; subst. destruct (IH v _ H') as (o & m & H1 & H2).
    exists o, m. split; [|exact H2]. apply (may_get Q ph ph' h v o m Hp Hv H1).
  - inversion H.
Qed.
Lemma may_bind {A B} Q ph (p : prog A) (f : A -> prog B) r e : may Q ph (pbind p f) r e ->
  (exists x, may Q ph p (Err x) e /\ r = Err x) \/ exists a m, may Q ph p (Ok a) m /\ may Q m (f a) r e.
Proof.
  intros H. destruct (may_catch _ _ _ _ _ _ H) as ([a|x] & m & H1 & H2).
  - right. exists a, m. split; assumption.
  - left. exists x. inversion H2; subst. split; [exact H1|reflexivity].
Qed.
Lemma may_read {A} Q ph (f : world -> res A) r e : may Q ph (get f) r e -> (ph <= e)%nat /\ exists v, Q e v /\ r = f v.
Proof.
  intros H. inversion H as [|? ph' ? v ? ? Hp Hv H']; subst. inversion H'; subst. split; [exact Hp|]. exists v. auto.
Qed.

(** A schedule in which the threads other than 0 only read. *)
Lemma schedule_silent {A} (Q : nat -> world -> Prop) l : forall ph (ps : nat -> prog A) w K,
  alw Q ph (ps 0%nat) w K -> (forall j, j <> 0%nat -> silent (ps j)) ->
  let s := schedule ps w l in
  (fst s 0%nat, snd s) = psteps (turns 0 l) (ps 0%nat) w /\
  forall j r, j <> 0%nat -> fst s j = Ret r -> exists e, may Q ph (ps j) r e.
Proof.
  induction l as [|k l IH]; intros ph ps w K H Hs; cbv zeta.
  - cbn. split; [reflexivity|]. intros j r _ E. rewrite E. exists ph. constructor.
  - cbn [schedule]. unfold turns. cbn [count_occ]. destruct (Nat.eq_dec k 0) as [->|N].
    + cbn [psteps]. destruct (pstep (ps 0%nat) w) as [q v] eqn:E.
      assert (Hq : exists ph', (ph <= ph')%nat /\ alw Q ph' q v K).
      { destruct (ps 0%nat) as [o|h|g p]; cbn in E; injection E as <- <-.
        - exists ph. split; [lia|exact H].
        - exists ph. split; [lia|apply H].
        - destruct H as (_ & ph' & Hp & H). exists ph'. split; assumption. }
      destruct Hq as (ph' & Hp & Hq).
      destruct (IH ph' (upd ps 0%nat q) v K) as [I1 I2].
      * rewrite upd_same. exact Hq.
      * intros j Hj. rewrite upd_other by exact Hj. apply Hs, Hj.
      * rewrite upd_same in I1. split; [exact I1|]. intros j r Hj Er. destruct (I2 j r Hj Er) as (e & He).
        rewrite upd_other in He by exact Hj. destruct (may_mono _ _ _ _ _ _ He Hp) as (e' & _ & He'). exists e'. exact He'.
    + assert (Hk := Hs k N). destruct (pstep (ps k) w) as [q v] eqn:E.
      assert (Hv : v = w /\ silent q).
      { destruct Hk as [o|h Hh]; cbn in E; injection E as <- <-; (split; [reflexivity|]); [constructor|apply Hh]. }
      destruct Hv as [-> Hq].
      destruct (IH ph (upd ps k q) w K) as [I1 I2].
      * rewrite upd_other by congruence. exact H.
      * intros j Hj. destruct (Nat.eq_dec j k) as [->|Nj]; [rewrite upd_same; exact Hq|rewrite upd_other by exact Nj; apply Hs, Hj].
      * rewrite upd_other in I1 by congruence. split; [exact I1|]. intros j r Hj Er. destruct (I2 j r Hj Er) as (e & He).
        destruct (Nat.eq_dec j k) as [->|Nj]; [|rewrite upd_other in He by exact Nj; exists e; exact He].
        rewrite upd_same in He. exists e. destruct (ps k) as [o|h|g p]; cbn in E; injection E as <-.
        -- exact He.
        -- apply (may_get Q ph ph h w r e); [lia|apply (alw_now _ _ _ _ _ H)|exact He].
        -- inversion Hk.
Qed.

Section Queries.
Variable integrator : R -> R -> list xr -> list bool -> ask.
Variables (i : nat) (x0 x1 : R) (l : list event) (w : world).
Let m0 := w_meths w i.
Let ph_of := phase integrator i x0 x1 l w.
Let sol_of := sol_phase integrator i x0 x1 l w.

Lemma phase_sol e v : ph_of e v -> exists evs, w_meths v i = set_sol (set_events m0 evs) (sol_of e).
Proof. intros ((evs & _ & E) & _). exists evs. exact E. Qed.

Lemma may_sol ph x o e : may ph_of ph (sol_prog i x) o e ->
  o = Err ValueError \/ o = Err TypeError \/ exists s, o = Ok (s x) /\ sol_of e = Some s.
Proof.
  intros H. destruct (may_bind _ _ _ _ _ _ H) as [(z & H1 & ->)|(a & m & H1 & H2)].
  - destruct (may_read _ _ _ _ _ H1) as (_ & v & Hv & E). destruct (m_sol (w_meths v i)); [discriminate|].
    injection E as ->. left. reflexivity.
  - destruct (may_read _ _ _ _ _ H2) as (_ & v & Hv & E). destruct (phase_sol _ _ Hv) as (evs & Ev).
    rewrite Ev in E. cbn [m_sol set_sol] in E. destruct (sol_of e) as [s|].
    + right. right. exists s. split; [exact E|reflexivity].
    + right. left. exact E.
Qed.
Lemma may_delta_m ph x o e : may ph_of ph (delta_m_prog i x) o e ->
  o = Err ValueError \/ o = Err TypeError \/ exists e', (ph <= e' <= e)%nat /\ o = q_delta_m (set_sol m0 (sol_of e')) x.
Proof.
  intros H. destruct (may_bind _ _ _ _ _ _ H) as [(z & H1 & ->)|(a & m & H1 & H2)].
  - destruct (may_sol _ _ _ _ H1) as [E|[E|(s & E & _)]]; [injection E as ->; auto|injection E as ->; auto|discriminate].
  - destruct (may_sol _ _ _ _ H1) as [E|[E|(s & E & Es)]]; [discriminate|discriminate|]. injection E as ->.
    destruct (may_read _ _ _ _ _ H2) as (Hm & v & Hv & E). destruct (phase_sol _ _ Hv) as (evs & Ev).
    rewrite Ev in E. right. right. exists m. split; [split; [apply (may_later _ _ _ _ _ H1)|exact Hm]|].
    unfold q_delta_m, sol_at. cbn [m_sol set_sol]. rewrite Es. exact E.
Qed.
Lemma may_shape_d ph x o e : may ph_of ph (shape_d_prog i x) o e ->
  o = Err ValueError \/ o = Err TypeError \/ exists e', (ph <= e' <= e)%nat /\ o = q_shape_d (set_sol m0 (sol_of e')) x.
Proof.
  intros H. destruct (may_bind _ _ _ _ _ _ H) as [(z & H1 & ->)|(a & m & H1 & H2)].
  - destruct (may_sol _ _ _ _ H1) as [E|[E|(s & E & _)]]; [injection E as ->; auto|injection E as ->; auto|discriminate].
  - destruct (may_sol _ _ _ _ H1) as [E|[E|(s & E & Es)]]; [discriminate|discriminate|]. injection E as ->.
    assert (Hm := may_later _ _ _ _ _ H2).
    right. right. exists m. split; [split; [apply (may_later _ _ _ _ _ H1)|exact Hm]|].
    unfold q_shape_d, sol_at. cbn [m_sol set_sol]. rewrite Es. cbn [bind m_kind m_fit set_sol].
    inversion H2 as [|? ph' ? v ? ? Hp Hv H3]; subst. destruct (phase_sol _ _ Hv) as (evs & Ev).
    rewrite Ev in H3. cbn [m_kind set_sol set_events] in H3.
    assert (T : forall b ev, may ph_of ph' (pbind (lambda_prog i x b) (fun lam => get (fun w1 =>
       match m_fit (w_meths w1 i) with Some f => Ok (shape f lam) | None => Err AttributeError end))) o ev ->
       o = bind (calc_lambda m0 x b) (fun lam => match m_fit m0 with Some f => Ok (shape f lam) | None => Err AttributeError end)).
    { intros b ev H4. destruct (may_bind _ _ _ _ _ _ H4) as [(z & H5 & ->)|(a & m' & H5 & H6)].
      - destruct (may_read _ _ _ _ _ H5) as (_ & v' & Hv' & E). destruct (phase_sol _ _ Hv') as (evs' & Ev').
        rewrite Ev' in E. change (Err z = calc_lambda m0 x b) in E. rewrite <- E. reflexivity.
      - destruct (may_read _ _ _ _ _ H5) as (_ & v' & Hv' & E). destruct (phase_sol _ _ Hv') as (evs' & Ev').
        rewrite Ev' in E. change (Ok a = calc_lambda m0 x b) in E. rewrite <- E. cbn [bind].
        destruct (may_read _ _ _ _ _ H6) as (_ & v2 & Hv2 & E2). destruct (phase_sol _ _ Hv2) as (evs2 & Ev2).
        rewrite Ev2 in E2. exact E2. }
    change (calc_lambda (set_sol m0 (sol_of m)) x) with (calc_lambda m0 x).
    destruct (m_kind m0).
    + destruct (comp 0 (s x)) as [b|z]; [apply (T b e H3)|inversion H3; reflexivity].
    + destruct (comp 0 (s x)) as [b|z]; [apply (T b e H3)|inversion H3; reflexivity].
    + inversion H3; reflexivity.
Qed.

Let old := view w i.
Let new := view (snd (finish (solve_prog integrator i x0 x1 l) w)) i.

Lemma new_state : exists evs, w_meths (snd (finish (solve_prog integrator i x0 x1 l) w)) i =
  set_sol (set_events m0 evs) (m_sol new).
Proof.
  assert (H := alw_solve integrator i x0 x1 l w). fold ph_of in H.
  assert (G : forall A (p : prog A) ph v K, alw ph_of ph p v K -> exists e, ph_of e (snd (finish p v))).
  { intros A p. induction p as [r|h IH|g p IH]; intros ph v K Ha; cbn [finish snd].
    - exists ph. apply (alw_now _ _ _ _ _ Ha).
    - apply (IH v ph v K), Ha.
    - destruct Ha as (_ & ph' & _ & Ha). apply (IH ph' _ K Ha). }
  destruct (G _ _ _ _ _ H) as (e & He). destruct (phase_sol _ _ He) as (evs & E). exists evs. rewrite E at 1. f_equal.
  unfold new. change (m_sol (view ?v i)) with (m_sol (w_meths v i)). rewrite E. reflexivity.
Qed.
Lemma q_m e x : sol_of e = m_sol old -> q_delta_m (set_sol m0 (sol_of e)) x = q_delta_m old x.
Proof. intros ->. reflexivity. Qed.
Lemma q_m' e x : sol_of e = m_sol new -> q_delta_m (set_sol m0 (sol_of e)) x = q_delta_m new x.
Proof.
  intros ->. destruct new_state as (evs & E). unfold q_delta_m, sol_at.
  change (m_kind new) with (m_kind (w_meths (snd (finish (solve_prog integrator i x0 x1 l) w)) i)).
  change (m_nu new) with (m_nu (w_meths (snd (finish (solve_prog integrator i x0 x1 l) w)) i)). rewrite E. reflexivity.
Qed.
Lemma q_d e x : sol_of e = m_sol old -> q_shape_d (set_sol m0 (sol_of e)) x = q_shape_d old x.
Proof. intros ->. reflexivity. Qed.
Lemma q_d' e x : sol_of e = m_sol new -> q_shape_d (set_sol m0 (sol_of e)) x = q_shape_d new x.
Proof.
  intros ->. destruct new_state as (evs & E). unfold q_shape_d, sol_at.
  change (m_kind new) with (m_kind (w_meths (snd (finish (solve_prog integrator i x0 x1 l) w)) i)).
  change (m_fit new) with (m_fit (w_meths (snd (finish (solve_prog integrator i x0 x1 l) w)) i)).
  change (calc_lambda new x) with (calc_lambda (w_meths (snd (finish (solve_prog integrator i x0 x1 l) w)) i) x).
  rewrite E. reflexivity.
Qed.

Lemma one_query ph c o e : query_of i c -> may ph_of ph (call_prog integrator c) o e -> query_sees old new c o.
Proof.
  assert (S3 : forall e, (e = 0%nat /\ sol_of e = m_sol old) \/ sol_of e = None \/ ((2 <= e)%nat /\ sol_of e = m_sol new)).
  { intros [|[|n]]; [left; split; reflexivity|right; left; reflexivity|right; right; split; [lia|reflexivity]]. }
  intros Hq H. destruct c as [j ? ? ?|j x|j x|j x|j ?|j ?|j ? ? ?|j ?]; cbn in Hq; try contradiction; subst j; cbn [call_prog] in H.
  - assert (Hd : exists u m, may ph_of ph (delta_m_prog i x) u m /\ o = res_number u).
    { destruct (may_bind _ _ _ _ _ _ H) as [(z & H1 & ->)|(a & m & H1 & H2)]; [exists (Err z), e; split; [exact H1|reflexivity]|].
      inversion H2; subst. exists (Ok a), e. split; [exact H1|reflexivity]. }
    destruct Hd as (u & m & Hu & ->). unfold query_sees, query_answer.
    destruct (may_delta_m _ _ _ _ Hu) as [->|[->|(e' & _ & ->)]]; [tauto|tauto|].
    destruct (S3 e') as [[_ E]|[E|[_ E]]].
    + rewrite (q_m _ _ E). tauto.
    + rewrite E. tauto.
    + rewrite (q_m' _ _ E). tauto.
  - assert (Hd : exists u m, may ph_of ph (shape_d_prog i x) u m /\ o = res_number u).
    { destruct (may_bind _ _ _ _ _ _ H) as [(z & H1 & ->)|(a & m & H1 & H2)]; [exists (Err z), e; split; [exact H1|reflexivity]|].
      inversion H2; subst. exists (Ok a), e. split; [exact H1|reflexivity]. }
    destruct Hd as (u & m & Hu & ->). unfold query_sees, query_answer.
    destruct (may_shape_d _ _ _ _ Hu) as [->|[->|(e' & _ & ->)]]; [tauto|tauto|].
    destruct (S3 e') as [[_ E]|[E|[_ E]]].
    + rewrite (q_d _ _ E). tauto.
    + rewrite E. tauto.
    + rewrite (q_d' _ _ E). tauto.
  - assert (Hd : exists u m, may ph_of ph (delta_d_prog i x) u m /\ o = res_number u).
    { destruct (may_bind _ _ _ _ _ _ H) as [(z & H1 & ->)|(a & m & H1 & H2)]; [exists (Err z), e; split; [exact H1|reflexivity]|].
      inversion H2; subst. exists (Ok a), e. split; [exact H1|reflexivity]. }
    destruct Hd as (u & m & Hu & ->). unfold query_sees, query_answer.
    assert (HH : u = Err ValueError \/ u = Err TypeError \/ exists e1 e2, (e1 <= e2)%nat /\
       u = bind (q_delta_m (set_sol m0 (sol_of e1)) x) (fun d => bind (q_shape_d (set_sol m0 (sol_of e2)) x) (fun h => Ok (d * h)%xr))).
    { unfold delta_d_prog in Hu. destruct (may_bind _ _ _ _ _ _ Hu) as [(z & H1 & ->)|(d & m1 & H1 & H2)].
      - destruct (may_delta_m _ _ _ _ H1) as [E|[E|(e1 & _ & E)]]; [auto|auto|]. right. right. exists e1, e1. split; [lia|].
        rewrite <- E. reflexivity.
      - destruct (may_delta_m _ _ _ _ H1) as [E|[E|(e1 & L1 & E)]]; [discriminate|discriminate|].
        destruct (may_bind _ _ _ _ _ _ H2) as [(z & H3 & ->)|(h & m2 & H3 & H4)].
        + destruct (may_shape_d _ _ _ _ H3) as [E2|[E2|(e2 & L2 & E2)]]; [auto|auto|]. right. right. exists e1, e2.
          split; [lia|]. rewrite <- E, <- E2. reflexivity.
        + inversion H4; subst. destruct (may_shape_d _ _ _ _ H3) as [E2|[E2|(e2 & L2 & E2)]]; [discriminate|discriminate|].
          right. right. exists e1, e2. split; [lia|]. rewrite <- E, <- E2. reflexivity. }
    destruct HH as [->|[->|(e1 & e2 & L & ->)]]; [tauto|tauto|].
    destruct (S3 e1) as [[_ E1]|[E1|[L1 E1]]].
    + rewrite (q_m _ _ E1). destruct (S3 e2) as [[_ E2]|[E2|[_ E2]]].
      * rewrite (q_d _ _ E2). left. reflexivity.
      * rewrite E2. destruct (q_delta_m old x) eqn:Eo; [right; right; left; reflexivity|]. left. unfold q_delta_d. rewrite Eo. reflexivity.
      * rewrite (q_d' _ _ E2). do 4 right. exists i, x. split; reflexivity.
    + rewrite E1. tauto.
    + rewrite (q_m' _ _ E1). destruct e2 as [|[|e2]]; [lia|lia|]. rewrite (q_d' (S (S e2)) x) by reflexivity.
      right. left. reflexivity.
Qed.

Lemma all_queries cs : List.Forall (query_of i) cs -> forall ph r e, may ph_of ph (thread integrator cs) r e ->
  exists os, r = Ok os /\ Forall2 (query_sees old new) cs os.
Proof.
  induction 1 as [|c t Hc _ IH]; intros ph r e H; cbn [thread] in H.
  - inversion H; subst. exists []. split; [reflexivity|constructor].
  - destruct (may_catch _ _ _ _ _ _ H) as (o & m & H1 & H2).
    destruct (may_bind _ _ _ _ _ _ H2) as [(z & H3 & ->)|(rs & m' & H3 & H4)].
    + destruct (IH _ _ _ H3) as (os & E & _). discriminate.
    + destruct (IH _ _ _ H3) as (os & E & F). injection E as ->. inversion H4; subst.
      exists (o :: os). split; [reflexivity|]. constructor; [|exact F]. apply (one_query _ _ _ _ Hc H1).
Qed.
End Queries.

Lemma alw_catch {A B} Q (p : prog A) (f : res A -> prog B) : (forall r, exists o, f r = Ret o) ->
  forall ph w K, alw Q ph p w K -> alw Q ph (pcatch p f) w (fun _ _ _ => True).
Proof.
  intros F. induction p as [r|h IH|g p IH]; intros ph w K H; cbn [pcatch].
  - destruct (F r) as (o & ->). cbn. split; [apply (alw_now _ _ _ _ _ H)|]. destruct o; exact Logic.I.
  - cbn [alw] in *. destruct H as [Hq H]. split; [exact Hq|]. apply (IH w ph w K H).
  - cbn [alw] in *. destruct H as (Hq & ph' & Hp & H). split; [exact Hq|]. exists ph'. split; [exact Hp|].
    apply (IH ph' _ K H).
Qed.

Lemma queries_lemma integrator i x0 x1 ev w calls l :
  calls 0%nat = [TSolve i x0 x1 ev] -> (forall j, j <> 0%nat -> List.Forall (query_of i) (calls j)) ->
  let s := schedule (fun j => thread integrator (calls j)) w l in
  let after := snd (finish (solve_prog integrator i x0 x1 ev) w) in
  (forall r, fst s 0%nat = Ret r -> finish (thread integrator (calls 0%nat)) w = (r, snd s)) /\
  (forall j r, j <> 0%nat -> fst s j = Ret r ->
     exists os, r = Ok os /\ Forall2 (query_sees (view w i) (view after i)) (calls j) os).
Proof.
  intros H0 Hq s after.
  assert (Ha : alw (phase integrator i x0 x1 ev w) 0 (thread integrator (calls 0%nat)) w (fun _ _ _ => True)).
  { rewrite H0. cbn [thread call_prog]. eapply alw_catch; [|eapply alw_catch; [|apply alw_solve]].
    - intros r. eexists. reflexivity.
    - intros [r|e]; eexists; reflexivity. }
  destruct (schedule_silent _ l 0 (fun j => thread integrator (calls j)) w _ Ha
    (fun j Hj => silent_query integrator i (calls j) (Hq j Hj))) as [S1 S2]. fold s in S1, S2. split.
  - intros r Hr. rewrite Hr in S1. symmetry in S1. apply (psteps_ret _ _ _ _ _ S1).
  - intros j r Hj Hr. destruct (S2 j r Hj Hr) as (e & He). apply (all_queries _ _ _ _ _ _ _ (Hq j Hj) _ _ _ He).
Qed.

(* ------------------------------------------------------------------ *)
(** * Interrupted calls *)

Lemma solve_again ivp m c s x0 x1 l : ic_body_of c = ic_body_of (m_ic m) ->
  let a := solve ivp (set_sol (set_ic m c) s) x0 x1 l in let b := solve ivp m x0 x1 l in
  snd a = snd b /\ forall r, snd b = Ok r -> fst a = fst b.
Proof.
  intros E. cbv zeta. unfold solve. cbn [m_ic m_nu set_sol set_ic]. unfold ic_set_nu. destruct (xleb (m_nu m) (Fin 0)).
  { cbn [fst snd]. split; [reflexivity|discriminate]. }
  rewrite E. set (c1 := {| ic_du := _; ic_nu := m_nu m; ic_body_of := ic_body_of (m_ic m) |}).
  set (c2 := {| ic_du := ic_du (m_ic m); ic_nu := m_nu m; ic_body_of := ic_body_of (m_ic m) |}).
  change (q_du_e (set_ic (set_sol (set_ic m c) s) c1) x0) with (q_du_e (set_ic m c2) x0).
  destruct (q_du_e (set_ic m c2) x0) as [du|e]; [|split; [reflexivity|discriminate]].
  cbn [m_ic set_ic set_sol]. change (ic_set_du c1 (Fin du)) with (ic_set_du c2 (Fin du)).
  set (c3 := ic_set_du c2 (Fin du)).
  change (ode_setup (set_ic (set_ic (set_sol (set_ic m c) s) c1) c3)) with (ode_setup (set_ic (set_ic m c2) c3)).
  destruct (ode_setup (set_ic (set_ic m c2) c3)) as [y0|e]; [|split; [reflexivity|discriminate]].
  match goal with |- context [match ?t with Ok _ => _ | Err _ => _ end] =>
    match goal with |- context [snd match ?t' with Ok _ => _ | Err _ => _ end = snd match ?u with Ok _ => _ | Err _ => _ end] =>
      change t' with u; destruct u as [q|e] end end.
  - split; [reflexivity|]. intros r _. reflexivity.
  - split; [reflexivity|discriminate].
Qed.

Lemma interrupted_lemma integrator i x0 x1 n w :
  let v := interrupted n (solve_prog integrator i x0 x1 []) w in
  let after := snd (finish (solve_prog integrator i x0 x1 []) w) in
  elsewhere_same i w v /\
  (exists s, w_meths v i = set_sol (w_meths w i) s /\
     (s = m_sol (w_meths w i) \/ s = None \/ s = m_sol (w_meths after i))) /\
  forall x0' x1' l',
    let a := finish (solve_prog integrator i x0' x1' l') v in
    let b := finish (solve_prog integrator i x0' x1' l') w in
    fst a = fst b /\ forall r, fst b = Ok r -> view (snd a) i = view (snd b) i.
Proof.
  intros v after. destruct (interrupted_phase integrator i x0 x1 [] w n) as (ph & (evs & He & E) & B & C).
  fold v in E, B, C. split; [exact B|].
  assert (Ev : w_meths v i = set_sol (w_meths w i) (sol_phase integrator i x0 x1 [] w ph)).
  { rewrite E. replace evs with (m_events (w_meths w i)) by (destruct He as [->| ->]; [|rewrite app_nil_r]; reflexivity).
    destruct (w_meths w i); reflexivity. }
  split.
  - exists (sol_phase integrator i x0 x1 [] w ph). split; [exact Ev|]. destruct ph as [|[|ph]]; cbn [sol_phase]; auto.
  - intros x0' x1' l'. cbv zeta. destruct (solve_alone integrator i x0' x1' l' v) as [A1 _].
    destruct (solve_alone integrator i x0' x1' l' w) as [A2 _].
    assert (Vv : view v i = set_sol (set_ic (view w i) (w_conds v (w_ref w i))) (sol_phase integrator i x0 x1 [] w ph)).
    { unfold view. rewrite Ev. destruct B as (_ & _ & -> & _). reflexivity. }
    destruct (solve_again (solver_of integrator) (view w i) (w_conds v (w_ref w i)) (sol_phase integrator i x0 x1 [] w ph) x0' x1' l' C) as [S1 S2].
    rewrite <- Vv, A1, A2 in S1, S2. cbn [fst snd] in S1, S2. split; [exact S1|exact S2].
Qed.

(* ------------------------------------------------------------------ *)
(** * Witnesses *)

(** An integrator that returns the constant initial state. *)
Definition const_integrator (x0 x1 : R) (y0 : list xr) (t : list bool) : ask :=
  Done (Ok {| r_success := true; r_status := 0; r_message := ""; r_t := [x0; x1];
              r_sol := fun _ => y0; r_t_events := [] |}).

(** A method object for the velocity [u] with gradient [du]. *)
Definition flow (k : mkind) (nu : R) (u du : R -> R) (s : option (R -> list xr)) : meth :=
  {| m_kind := k; m_nu := Fin nu; m_u := Some (VF u KFloat); m_du := Some (VF du KFloat);
     m_d2u := Some (VF (fun _ => 0) KFloat); m_ic := new_manual (Fin 6) (Fin 2) (Fin 0); m_fit := None;
     m_events := []; m_sol := s |}.
(** Head's method on a plate in a flow of speed 1, solved with momentum thickness 1 and shape
    factor 2; since then the condition has been set to momentum thickness 2, shape factor 3. *)
Definition head_world : world :=
  {| w_conds := fun _ => new_manual (Fin 6) (Fin 2) (Fin 0);
     w_meths := fun _ => flow Head 1 (fun _ => 1) (fun _ => 0) (Some (fun _ => [Fin 1; Fin 2]));
     w_ref := fun _ => 0%nat; w_next := 1 |}.
(** Two Thwaites objects for the flow U = x towards a stagnation point, with viscosities 1 and
    4, that refer to the same FalknerSkanStagCondition. *)
Definition stag_world : world :=
  {| w_conds := fun _ => {| ic_du := Fin 1; ic_nu := Fin 1; ic_body_of := FSStag |};
     w_meths := fun i => flow ThwaitesLinear (match i with O => 1 | _ => 4 end) (fun x => x) (fun _ => 1) None;
     w_ref := fun _ => 0%nat; w_next := 1 |}.
Definition stag_q : R := 29235/100000 * (123259/100000) / (22162/10000 + 2).

Definition two_threads (a b : list tcall) : nat -> prog (list (res answer)) :=
  fun j => thread const_integrator (match j with 0%nat => a | 1%nat => b | _ => [] end).

Lemma nu_ok (a : R) : 0 < a -> xleb (Fin a) (Fin 0) = false.
Proof. intros H. cbn [xleb]. apply Rleb_false. exact H. Qed.
Lemma shape_6_2 : py_div (Fin 6) (Fin 2) = Ok (Fin 3).
Proof.
  unfold py_div. cbn [xeqb]. rewrite Reqb_false by lra. rewrite xdiv_fin by lra. do 2 f_equal. field.
Qed.
Lemma stag_q_pos : 0 < stag_q.
Proof. unfold stag_q. lra. Qed.
Lemma fs_div (a b : R) : 0 < b ->
  py_div (xmul (xmul (Fin a) (Fin (29235/100000))) (Fin (123259/100000))) (xmul (xadd (Fin (22162/10000)) (Fin 2)) (Fin b))
  = Ok (Fin (a * stag_q / b)).
Proof.
  intros Hb. cbn [xadd]. rewrite !xmul_fin. unfold py_div. cbn [xeqb].
  assert (H : (22162/10000 + 2) * b <> 0) by nra.
  rewrite Reqb_false by exact H. rewrite xdiv_fin by exact H. do 2 f_equal. unfold stag_q. field. lra.
Qed.
Lemma fs_start (a n : R) : 0 <= a -> n <> 0 -> py_div (xsq (xsqrt (Fin a))) (Fin n) = Ok (Fin (a / n)).
Proof.
  intros H Hn. rewrite xsqrt_fin by exact H. unfold py_div. cbn [xeqb]. rewrite Reqb_false by exact Hn.
  unfold xsq. rewrite xmul_fin, sqrt_sqrt by exact H. rewrite xdiv_fin by exact Hn. reflexivity.
Qed.
Ltac run_threads :=
  repeat (progress (cbv -[xleb py_div Rplus Rminus Rmult Rdiv Rinv Ropp IZR xmul xadd xsub xdiv xsqrt xsq stag_q Rle Rlt];
    try (rewrite (nu_ok 1); [|lra]); try (rewrite (nu_ok 4); [|lra]); try (rewrite fs_div; [|lra]);
    try (rewrite fs_start; [|assert (P := stag_q_pos); lra|lra]); try rewrite shape_6_2)).

Lemma stag_witness :
  let outcome l := fst (schedule (two_threads [TSolve 0 0 1 []] [TSolve 1 0 1 []]) stag_world l) 0%nat in
  (exists r, outcome ([0;0;0;1;1;1] ++ repeat 0 10)%nat = Ret (Ok [Ok (AResult r)]) /\ ir_f_end r = [Fin (4 * stag_q)]) /\
  (exists r, outcome (repeat 0 13 ++ repeat 1 13)%nat = Ret (Ok [Ok (AResult r)]) /\ ir_f_end r = [Fin stag_q]) /\
  (exists r, outcome (repeat 1 13 ++ repeat 0 13)%nat = Ret (Ok [Ok (AResult r)]) /\ ir_f_end r = [Fin stag_q]).
Proof.
  intros outcome. unfold outcome. repeat split.
  - run_threads. eexists. split; [reflexivity|]. cbn [ir_f_end]. do 2 f_equal. field.
  - run_threads. eexists. split; [reflexivity|]. cbn [ir_f_end]. do 2 f_equal. field.
  - run_threads. eexists. split; [reflexivity|]. cbn [ir_f_end]. do 2 f_equal. field.
Qed.

Lemma head_after : w_meths (snd (finish (solve_prog const_integrator 0 0 1 []) head_world)) 0 =
  flow Head 1 (fun _ => 1) (fun _ => 0) (Some (fun _ => [Fin 2; Fin 3])).
Proof. run_threads. reflexivity. Qed.
Lemma head_steps :
  let outcome c l := fst (schedule (two_threads [TSolve 0 0 1 []] [c]) head_world l) 1%nat in
  outcome (TDeltaM 0 5) (repeat 0 11 ++ [1])%nat = Ret (Ok [Err ValueError]) /\
  outcome (TDeltaM 0 5) ([1] ++ repeat 0 11 ++ [1])%nat = Ret (Ok [Err TypeError]) /\
  outcome (TDeltaD 0 5) (repeat 1 3 ++ repeat 0 12 ++ repeat 1 3)%nat = Ret (Ok [Ok (ANumber (Fin 1 * Fin 3)%xr)]).
Proof. intros outcome. unfold outcome. repeat split; run_threads; reflexivity. Qed.
Lemma head_interrupted :
  w_meths (interrupted 11 (solve_prog const_integrator 0 0 1 []) head_world) 0 =
  flow Head 1 (fun _ => 1) (fun _ => 0) None.
Proof. run_threads. reflexivity. Qed.

Lemma shared_manual_lemma integrator (owner_of : nat -> nat) w calls l k r :
  (forall c, is_manual (w_conds w c)) ->
  (forall j, List.Forall (fun c => match c with
     | TSolve i _ _ _ | TDeltaM i _ | TShapeD i _ | TDeltaD i _ | TSetNu i _
     | TSetVelocity i _ _ _ | TSetCondition i _ => owner_of i = j
     | TSetDeltaM _ _ => False
     end) (calls j)) ->
  fst (schedule (fun j => thread integrator (calls j)) w l) k = Ret r ->
  fst (finish (thread integrator (calls k)) w) = r.
Proof.
  intros Hm Hc Hr. set (D := {| owner := owner_of; shares := fun _ => true; cond_owner := fun _ => None |}).
  assert (Dw : divided D w). { split; [intros i; right; split; reflexivity|intros c _; apply Hm]. }
  assert (Hk : forall j, List.Forall (keeps_to D j) (calls j)).
  { intros j. eapply Forall_impl; [|apply Hc]. intros [] H; cbn in *; try contradiction; try exact H.
    split; [exact H|]. right. split; reflexivity. }
  destruct (threads_lemma integrator D w calls l k Dw Hk) as (_ & _ & H). rewrite (H r Hr). reflexivity.
Qed.

Lemma query_witness :
  let old := view head_world 0 in
  let new := view (snd (finish (solve_prog const_integrator 0 0 1 []) head_world)) 0 in
  let outcome c l := fst (schedule (two_threads [TSolve 0 0 1 []] [c]) head_world l) 1%nat in
  q_delta_m old 5 = Ok (Fin 1) /\ q_delta_m new 5 = Ok (Fin 2) /\
  q_delta_d old 5 = Ok (Fin 2) /\ q_delta_d new 5 = Ok (Fin 6) /\
  outcome (TDeltaM 0 5) (repeat 0 11 ++ [1])%nat = Ret (Ok [Err ValueError]) /\
  outcome (TDeltaM 0 5) ([1] ++ repeat 0 11 ++ [1])%nat = Ret (Ok [Err TypeError]) /\
  outcome (TDeltaD 0 5) (repeat 1 3 ++ repeat 0 12 ++ repeat 1 3)%nat = Ret (Ok [Ok (ANumber (Fin 3))]).
Proof.
  intros old new outcome. destruct head_steps as (H1 & H2 & H3). unfold new, view. rewrite head_after.
  assert (M : forall a b : R, (Fin a * Fin b)%xr = Fin (a * b)) by (intros; apply xmul_fin).
  split; [reflexivity|]. split; [reflexivity|]. split.
  { cbn. f_equal. f_equal. ring. }
  split.
  { cbn. replace (2 * 3) with 6 by ring. reflexivity. }
  split; [exact H1|]. split; [exact H2|]. unfold outcome. rewrite H3, M. replace (1 * 3) with 3 by ring. reflexivity.
Qed.

Lemma interrupted_witness :
  (let after n := view (interrupted n (solve_prog const_integrator 0 0 1 []) head_world) 0 in
   q_delta_m (after 0%nat) 5 = Ok (Fin 1) /\ q_delta_m (after 11%nat) 5 = Err ValueError /\
   q_delta_m (after 13%nat) 5 = Ok (Fin 2)) /\
  (let fn f := {| c_fun := f; c_ret := KFloat; c_deriv := None |} in
   let v := view (interrupted 1 (set_velocity_prog 0 (fn (fun x => 1 + 2 * x)) (fn (fun _ => 2))
                                   (fn (fun _ => 0))) head_world) 0 in
   forall x, q_u_e v x = Ok (1 + 2 * x) /\ q_du_e v x = Ok 0).
Proof.
  split.
  - cbv zeta. split; [reflexivity|]. split.
    + unfold view. rewrite head_interrupted. reflexivity.
    + run_threads. reflexivity.
  - cbv zeta. intros x. split; reflexivity.
Qed.
