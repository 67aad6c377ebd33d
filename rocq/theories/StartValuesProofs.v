(** C169: proofs. *)
From Coq Require Import Reals List String Bool ZArith Lra.
From Verif Require Import PyBase PyBaseFacts InitialConditionModel PPolyModel CoreModel CoreSpec CoreProofs CoreHistoryProofs CoreRefute
  StartValuesSpec.
Import ListNotations.
Open Scope R_scope.

Section Start.
Variable pchip : ndarray -> ndarray -> res ppoly.
Variable cubic_spline : list R -> list R -> (xr -> xr) * (xr -> xr).
Variable solve_ivp :
  (R -> list xr -> res (list xr)) -> R -> R -> list xr ->
  list (bool * (R -> list xr -> res xr)) -> res ivp_result.
Notation step := (step pchip cubic_spline solve_ivp).
Notation run := (run pchip cubic_spline solve_ivp).

Definition thick (b : ic_body) : Prop :=
  match b with FSStag => True | Manual _ m _ => positive_number m end.
Definition shaped (b : ic_body) : Prop :=
  match b with FSStag => True | Manual d m _ => positive_number m /\ positive_number d end.
Definition body (m : meth) := ic_body_of (m_ic m).

Lemma positive_accepted v : positive_number v -> xleb v (Fin 0) = false.
Proof. intros (r & -> & P). cbn [xleb]. apply Rleb_false. exact P. Qed.
Lemma accepted_positive v : is_finite v -> xleb v (Fin 0) = false -> positive_number v.
Proof. intros (r & ->) E. exists r. split; [reflexivity|]. cbn [xleb] in E. unfold Rleb in E. destruct (Rle_dec r 0); [discriminate|lra]. Qed.

Lemma set_thick m v : xleb v (Fin 0) = false -> body (fst (step m (OpInitialDeltaM v))) =
  match body m with FSStag => FSStag | Manual d _ k => Manual d v k end.
Proof.
  intros E. cbn [CoreSpec.step]. unfold set_initial_delta_m, no_result, body. rewrite E. cbn. unfold ic_assign_del_m.
  destruct (ic_body_of (m_ic m)) eqn:EB; [exact EB|reflexivity].
Qed.
Lemma keep_thick m v : xleb v (Fin 0) = true -> body (fst (step m (OpInitialDeltaM v))) = body m.
Proof. intros E. cbn [CoreSpec.step]. unfold set_initial_delta_m, no_result. rewrite E. reflexivity. Qed.
Lemma set_shape m v : m_kind m = Head -> xleb v (Fin 0) = false -> body (fst (step m (OpInitialShapeD v))) =
  match body m with FSStag => FSStag | Manual _ t k => Manual (v * t)%xr t k end.
Proof.
  intros K E. cbn [CoreSpec.step]. rewrite K. unfold set_initial_shape_d, no_result, body, get_initial_delta_m, ic_delta_m. rewrite E.
  destruct (ic_body_of (m_ic m)) eqn:EB.
  - destruct (bind _ _); cbn; [unfold ic_assign_del_d; rewrite EB; exact EB|exact EB].
  - cbn. unfold ic_assign_del_d. rewrite EB. reflexivity.
Qed.
Lemma keep_shape m v : m_kind m <> Head \/ xleb v (Fin 0) = true -> body (fst (step m (OpInitialShapeD v))) = body m.
Proof.
  intros E. cbn [CoreSpec.step]. unfold set_initial_shape_d, no_result.
  destruct (m_kind m); [reflexivity|reflexivity|]. destruct E as [E|E]; [congruence|]. rewrite E. reflexivity.
Qed.

Lemma product_positive v t : positive_number v -> positive_number t -> positive_number (v * t)%xr.
Proof. intros (a & -> & A) (b & -> & B). exists (a * b). split; [reflexivity|nra]. Qed.

Definition fine (m : meth) : Prop := nu_ok m /\ is_finite (m_nu m).
Lemma fine_step m o : fine m -> careful (m_kind m) o -> fine (fst (step m o)).
Proof.
  intros [A B] C. split; [apply step_nu; exact A|].
  destruct o; try (rewrite step_nu_field by reflexivity; exact B).
  cbn [CoreSpec.step]. unfold set_nu, no_result. destruct (xleb v (Fin 0)); [exact B|exact C].
Qed.
Lemma thick_step m o : nu_ok m -> careful (m_kind m) o -> thick (body m) -> thick (body (fst (step m o))).
Proof.
  intros N C T. destruct o; try (unfold body; rewrite step_body by (assumption || reflexivity); exact T).
  - cbn in C. unfold body. cbn. destruct (ic_body_of c); [exact I|apply C].
  - destruct (xleb v (Fin 0)) eqn:E; [rewrite keep_thick by exact E; exact T|]. rewrite set_thick by exact E.
    destruct (body m); [exact I|]. apply accepted_positive; assumption.
  - destruct (xleb v (Fin 0)) eqn:E; [rewrite keep_shape by (right; exact E); exact T|].
    destruct (m_kind m) eqn:K; [rewrite keep_shape by (left; congruence); exact T|rewrite keep_shape by (left; congruence); exact T|].
    rewrite set_shape by assumption. destruct (body m); [exact I|exact T].
Qed.
Lemma shaped_step m o : m_kind m = Head -> nu_ok m -> careful (m_kind m) o -> shaped (body m) -> shaped (body (fst (step m o))).
Proof.
  intros K N C T. destruct o; try (unfold body; rewrite step_body by (assumption || reflexivity); exact T).
  - cbn in C. unfold body. cbn. destruct (ic_body_of c); [exact I|]. split; [apply C|apply C; exact K].
  - destruct (xleb v (Fin 0)) eqn:E; [rewrite keep_thick by exact E; exact T|]. rewrite set_thick by exact E.
    destruct (body m); [exact I|]. split; [apply accepted_positive; assumption|apply T].
  - destruct (xleb v (Fin 0)) eqn:E; [rewrite keep_shape by (right; exact E); exact T|].
    rewrite set_shape by assumption. destruct (body m); [exact I|]. destruct T as [T _]. split; [exact T|].
    apply product_positive; [apply accepted_positive; assumption|exact T].
Qed.

Definition cautious (m : meth) (h : list op) : Prop := List.Forall (careful (m_kind m)) h.
Lemma fine_run h : forall m, fine m -> cautious m h -> fine (run m h) /\ m_kind (run m h) = m_kind m.
Proof.
  induction h as [|o h IH]; intros m F C; [split; [exact F|reflexivity]|]. inversion_clear C as [|? ? C1 C2].
  rewrite run_cons. destruct (IH (fst (step m o))) as [A B].
  - apply fine_step; assumption.
  - unfold cautious. rewrite step_kind. exact C2.
  - rewrite step_kind in B. split; assumption.
Qed.
Lemma thick_run h : forall m, fine m -> cautious m h -> thick (body m) -> thick (body (run m h)).
Proof.
  induction h as [|o h IH]; intros m F C T; [exact T|]. inversion_clear C as [|? ? C1 C2]. rewrite run_cons. apply IH.
  - apply fine_step; assumption.
  - unfold cautious. rewrite step_kind. exact C2.
  - apply thick_step; [apply F|exact C1|exact T].
Qed.
Lemma shaped_run h : forall m, m_kind m = Head -> fine m -> cautious m h -> shaped (body m) -> shaped (body (run m h)).
Proof.
  induction h as [|o h IH]; intros m K F C T; [exact T|]. inversion_clear C as [|? ? C1 C2]. rewrite run_cons. apply IH.
  - rewrite step_kind. exact K.
  - apply fine_step; assumption.
  - unfold cautious. rewrite step_kind. exact C2.
  - apply shaped_step; [exact K|apply F|exact C1|exact T].
Qed.

(** After the calls that give the start, the condition is in order. *)
Definition ready (m : meth) : Prop := thick (body m) /\ (m_kind m = Head -> shaped (body m)).
Lemma shaped_thick b : shaped b -> thick b.
Proof. destruct b; [trivial|]. intros [A _]. exact A. Qed.

Lemma split_cautious m h1 o h2 : fine m -> cautious m (h1 ++ o :: h2) ->
  fine (run m h1) /\ m_kind (run m h1) = m_kind m /\ careful (m_kind m) o /\ fine (fst (step (run m h1) o)) /\
  m_kind (fst (step (run m h1) o)) = m_kind m /\ cautious (fst (step (run m h1) o)) h2.
Proof.
  intros F C. apply List.Forall_app in C. destruct C as [C1 C2]. inversion_clear C2 as [|? ? C3 C4].
  destruct (fine_run h1 m F C1) as [A B]. split; [exact A|]. split; [exact B|]. split; [exact C3|].
  split; [apply fine_step; [exact A|rewrite B; exact C3]|]. rewrite step_kind. split; [exact B|].
  unfold cautious. rewrite step_kind, B. exact C4.
Qed.

Lemma ready_run m h : fine m -> cautious m h -> start_given (m_kind m) h -> ready (run m h).
Proof.
  intros F C G. remember (m_kind m) as k eqn:K. destruct G as [k h1 c h2|k h1 v h2 N P|h1 v h2 w h3 P Q].
  - destruct (split_cautious m h1 _ h2 F C) as (A1 & A2 & A3 & A4 & A5 & A6).
    rewrite run_app, run_cons. set (m1 := fst (step (run m h1) (OpCondition c))) in *.
    assert (T : thick (body m1)).
    { unfold m1, body. cbn in A3 |- *. destruct (ic_body_of c); [exact I|apply A3]. }
    split; [apply thick_run; assumption|]. intros KH. destruct (fine_run h2 m1 A4 A6) as [_ E]. rewrite E in KH.
    apply shaped_run; try assumption. rewrite A5 in KH.
    unfold m1, body. cbn in A3 |- *. destruct (ic_body_of c); [exact I|]. split; [apply A3|apply A3; exact KH].
  - destruct (split_cautious m h1 _ h2 F C) as (A1 & A2 & A3 & A4 & A5 & A6).
    rewrite run_app, run_cons. set (m1 := fst (step (run m h1) (OpInitialDeltaM v))) in *.
    assert (T : thick (body m1)).
    { unfold m1. rewrite set_thick by (apply positive_accepted; exact P). destruct (body (run m h1)); [exact I|exact P]. }
    split; [apply thick_run; assumption|]. intros KH. destruct (fine_run h2 m1 A4 A6) as [_ E]. congruence.
  - destruct (split_cautious m h1 _ _ F C) as (A1 & A2 & A3 & A4 & A5 & A6).
    rewrite run_app, run_cons. set (m1 := fst (step (run m h1) (OpInitialDeltaM v))) in *.
    assert (T : thick (body m1)).
    { unfold m1. rewrite set_thick by (apply positive_accepted; exact P). destruct (body (run m h1)); [exact I|exact P]. }
    destruct (split_cautious m1 h2 _ h3 A4 A6) as (B1 & B2 & B3 & B4 & B5 & B6).
    assert (T2 : thick (body (run m1 h2))).
    { apply thick_run; [exact A4| |exact T]. apply List.Forall_app in A6. apply A6. }
    rewrite run_app, run_cons. set (m2 := fst (step (run m1 h2) (OpInitialShapeD w))) in *.
    assert (S : shaped (body m2)).
    { unfold m2. rewrite set_shape by (congruence || (apply positive_accepted; exact Q)).
      destruct (body (run m1 h2)); [exact I|]. split; [exact T2|apply product_positive; assumption]. }
    assert (S3 : shaped (body (run m2 h3))) by (apply shaped_run; congruence || assumption).
    split; [apply shaped_thick; exact S3|intros _; exact S3].
Qed.

Lemma ready_starts m x0 du : fine m -> ready m -> q_du_e m x0 = Ok du -> (ic_body_of (m_ic m) = FSStag -> 0 < du) ->
  exists y0, initial_state m x0 y0 /\ y0 <> [] /\ List.Forall positive_number y0.
Proof.
  intros [N [nu Hnu]] [T S] D P. unfold body in *.
  assert (Pn : 0 < nu) by (unfold nu_ok in N; rewrite Hnu in N; cbn [xleb] in N; unfold Rleb in N; destruct (Rle_dec nu 0); [discriminate|lra]).
  assert (Q : forall b, b = ic_body_of (m_ic m) ->
    exists t, ic_delta_m {| ic_du := Fin du; ic_nu := m_nu m; ic_body_of := b |} = Ok (Fin t) /\ 0 < t).
  { intros b E. rewrite <- E in *. destruct b as [|d t k].
    - specialize (P eq_refl). unfold ic_delta_m. cbn [ic_body_of ic_nu ic_du]. rewrite Hnu. unfold fs_eta_m, fs_fpp0, fs_shape_d.
      cbn [xadd xmul]. rewrite py_div_fin by nra. cbn [bind].
      assert (0 < nu * (29235 / 100000) * (123259 / 100000) / ((22162 / 10000 + 2) * du)) by (apply Rdiv_lt_0_compat; nra).
      rewrite xsqrt_fin by lra. eexists. split; [reflexivity|]. apply sqrt_lt_R0. assumption.
    - destruct T as (r & -> & R0). exists r. split; [reflexivity|exact R0]. }
  destruct (Q _ eq_refl) as (t & E & Pt).
  assert (TT : m_kind m <> Head -> exists y0, initial_state m x0 y0 /\ y0 <> [] /\ List.Forall positive_number y0).
  { intros K. eexists. split; [eapply initial_state_thwaites; [exact K|exact D|exact E]|]. split; [discriminate|].
    constructor; [|constructor]. exists (t * t / nu). split.
    - rewrite Hnu. cbn [xmul]. rewrite xdiv_fin by lra. reflexivity.
    - apply Rdiv_lt_0_compat; nra. }
  destruct (m_kind m) eqn:K; [apply TT; congruence|apply TT; congruence|]. clear TT.
  assert (H : exists s, ic_shape_d {| ic_du := Fin du; ic_nu := m_nu m; ic_body_of := ic_body_of (m_ic m) |} = Ok (Fin s) /\ 0 < s).
  { specialize (S eq_refl). unfold ic_shape_d. cbn [ic_body_of]. destruct (ic_body_of (m_ic m)) as [|d m' k].
    - exists fs_shape_d. split; [reflexivity|]. unfold fs_shape_d. lra.
    - destruct S as [(a & -> & A) (b & -> & B)]. exists (b / a). split; [apply py_div_fin; lra|apply Rdiv_lt_0_compat; assumption]. }
  destruct H as (s & ES & Ps).
  eexists. split; [eapply initial_state_head; [exact K|exact D|exact E|exact ES]|]. split; [discriminate|].
  constructor; [exists t; split; [reflexivity|exact Pt]|]. constructor; [exists s; split; [reflexivity|exact Ps]|constructor].
Qed.

Lemma start_values_lemma m0 h x0 du : created pchip cubic_spline m0 -> is_finite (m_nu m0) ->
  List.Forall (careful (m_kind m0)) h -> start_given (m_kind m0) h ->
  let m := run m0 h in
  q_du_e m x0 = Ok du -> (ic_body_of (m_ic m) = FSStag -> 0 < du) ->
  exists y0, initial_state m x0 y0 /\ y0 <> [] /\ List.Forall positive_number y0.
Proof.
  intros C N H G m D P.
  assert (F : fine m0) by (split; [eapply created_nu; exact C|exact N]).
  apply (ready_starts m x0 du); [apply fine_run; assumption|apply ready_run; assumption|exact D|exact P].
Qed.
End Start.

Lemma no_values pchip cs : created pchip cs w_thwaites /\ created pchip cs w_head /\
  initial_state w_thwaites 0 [PInf] /\ initial_state w_head 0 [PInf; NaN].
Proof.
  split; [apply w_thwaites_created|]. split; [apply w_head_created|]. split.
  - replace [PInf] with [(PInf * PInf / m_nu w_thwaites)%xr].
    + eapply initial_state_thwaites; [discriminate|reflexivity|reflexivity].
    + cbn. unfold inf_times. destruct (Req_EM_T 1 0); [lra|]. destruct (Rlt_dec 0 1); [reflexivity|lra].
  - eapply initial_state_head; reflexivity.
Qed.

Lemma nan_value pchip cs ivp : exists m, step pchip cs ivp w_thwaites (OpInitialDeltaM NaN) = (m, Ok None) /\
  initial_state m 0 [NaN].
Proof.
  exists (fst (step pchip cs ivp w_thwaites (OpInitialDeltaM NaN))). split; [reflexivity|].
  apply (initial_state_thwaites _ 0 0 NaN); [discriminate|reflexivity|reflexivity].
Qed.
