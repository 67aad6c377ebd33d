From Coq Require Import Reals List Lra.
From Verif Require Import PyBase PyBaseFacts InitialConditionModel.
Import ListNotations.
Open Scope R_scope.

Lemma fs_delta_m_pos nu du : 0 < nu -> 0 < du ->
  ic_delta_m {| ic_du := Fin du; ic_nu := Fin nu; ic_body_of := FSStag |} =
  Ok (Fin (sqrt (nu * (29235/100000) * (123259/100000) / ((22162/10000 + 2) * du)))).
Proof.
  intros Hn Hd. unfold ic_delta_m. cbn [ic_body_of ic_nu ic_du].
  unfold fs_eta_m, fs_fpp0, fs_shape_d. rewrite !xmul_fin, !xadd_fin, !xmul_fin.
  assert (0 < (22162/10000 + 2) * du) by nra.
  rewrite py_div_fin by lra. cbn [bind]. rewrite xsqrt_fin; [reflexivity|].
  apply Rlt_le, Rdiv_lt_0_compat; nra.
Qed.

Lemma stagnation_condition_lemma nu du : 0 < nu -> 0 < du ->
  exists c d, new_fs (Fin du) (Fin nu) = Ok c /\
  ic_delta_m c = Ok (Fin d) /\ 0 < d /\
  d * d * du / nu = (29235/100000) * (123259/100000) / (42162/10000) /\
  ic_shape_d c = Ok (Fin (22162/10000)) /\ ic_shape_k c = Ok (Fin (16257/10000)) /\
  ic_delta_d c = Ok (Fin (d * (22162/10000))) /\ ic_delta_k c = Ok (Fin (d * (16257/10000))).
Proof.
  intros Hn Hd. unfold new_fs, ic_set_nu. cbn [xleb]. rewrite Rleb_false by exact Hn.
  set (d := sqrt (nu * (29235/100000) * (123259/100000) / ((22162/10000 + 2) * du))).
  assert (P : 0 < nu * (29235/100000) * (123259/100000) / ((22162/10000 + 2) * du))
    by (apply Rdiv_lt_0_compat; nra).
  eexists. exists d. split; [reflexivity|]. cbn [ic_du ic_nu ic_body_of].
  assert (E := fs_delta_m_pos nu du Hn Hd). fold d in E.
  split; [exact E|]. split; [apply sqrt_lt_R0, P|]. split.
  - unfold d. rewrite sqrt_sqrt by lra. field. split; lra.
  - split; [reflexivity|]. split; [reflexivity|].
    unfold ic_delta_d, ic_delta_k. cbn [ic_body_of]. rewrite E. split; reflexivity.
Qed.

Lemma stagnation_zero_lemma nu : 0 < nu ->
  exists c, new_fs (Fin 0) (Fin nu) = Ok c /\ ic_delta_m c = Err ZeroDivisionError /\
    ic_delta_d c = Err ZeroDivisionError /\ ic_delta_k c = Err ZeroDivisionError.
Proof.
  intros Hn. unfold new_fs, ic_set_nu. cbn [xleb]. rewrite Rleb_false by exact Hn.
  eexists. split; [reflexivity|]. cbn [ic_du ic_nu ic_body_of].
  assert (E : ic_delta_m {| ic_du := Fin 0; ic_nu := Fin nu; ic_body_of := FSStag |} =
     Err ZeroDivisionError).
  { unfold ic_delta_m. cbn [ic_body_of ic_nu ic_du]. unfold fs_eta_m, fs_fpp0, fs_shape_d.
    rewrite !xmul_fin, !xadd_fin, !xmul_fin, Rmult_0_r. unfold py_div. cbn [xeqb]. rewrite Reqb_true by reflexivity. reflexivity. }
  unfold ic_delta_d, ic_delta_k. cbn [ic_body_of]. rewrite E. auto.
Qed.

Lemma stagnation_negative_lemma nu du : 0 < nu -> du < 0 ->
  exists c, new_fs (Fin du) (Fin nu) = Ok c /\ ic_delta_m c = Ok NaN /\
    ic_delta_d c = Ok NaN /\ ic_delta_k c = Ok NaN.
Proof.
  intros Hn Hd. unfold new_fs, ic_set_nu. cbn [xleb]. rewrite Rleb_false by exact Hn.
  eexists. split; [reflexivity|]. cbn [ic_du ic_nu ic_body_of].
  assert (E : ic_delta_m {| ic_du := Fin du; ic_nu := Fin nu; ic_body_of := FSStag |} = Ok NaN).
  { unfold ic_delta_m. cbn [ic_body_of ic_nu ic_du].
    unfold fs_eta_m, fs_fpp0, fs_shape_d. rewrite !xmul_fin, !xadd_fin, !xmul_fin.
    assert ((22162/10000 + 2) * du < 0) by nra.
    rewrite py_div_fin by lra. cbn [bind xsqrt].
    destruct (Rlt_dec _ 0) as [|N]; [reflexivity|]. exfalso. apply N.
    apply Ropp_lt_cancel. rewrite Ropp_0, <- Rdiv_opp_r.
    apply Rdiv_lt_0_compat; nra. }
  unfold ic_delta_d, ic_delta_k. cbn [ic_body_of]. rewrite E. split; [reflexivity|]. split; reflexivity.
Qed.

Lemma constructor_rejects_lemma du nu : xleb nu (Fin 0) = true -> new_fs du nu = Err ValueError.
Proof. intros H. unfold new_fs, ic_set_nu. rewrite H. reflexivity. Qed.

(** Assignments of du_e and nu, in any number and order, as [solve] performs them. *)
Inductive ic_op := ICdu (v : xr) | ICnu (v : xr).
Definition ic_step (c : ic) (o : ic_op) : ic :=
  match o with ICdu v => ic_set_du c v | ICnu v => fst (ic_set_nu c v) end.

Lemma manual_condition_lemma d m k h :
  let c := fold_left ic_step h (new_manual d m k) in
  ic_delta_d c = Ok d /\ ic_delta_m c = Ok m /\ ic_delta_k c = Ok k /\
  ic_shape_d c = py_div d m /\ ic_shape_k c = py_div k m.
Proof.
  assert (G : forall c, ic_body_of c = Manual d m k ->
     ic_body_of (fold_left ic_step h c) = Manual d m k).
  { induction h as [|o h IH]; intros c Hc; [exact Hc|]. apply IH. destruct o; cbn; [exact Hc|].
    unfold ic_set_nu. destruct (xleb v (Fin 0)); exact Hc. }
  specialize (G (new_manual d m k) eq_refl). cbv zeta.
  unfold ic_delta_d, ic_delta_m, ic_delta_k, ic_shape_d, ic_shape_k. rewrite G. auto.
Qed.

Lemma manual_ratios_lemma d m k : m <> 0 ->
  let c := new_manual (Fin d) (Fin m) (Fin k) in
  ic_shape_d c = Ok (Fin (d / m)) /\ ic_shape_k c = Ok (Fin (k / m)).
Proof. intros H. cbn [new_manual ic_shape_d ic_shape_k ic_body_of]. rewrite !py_div_fin by exact H. auto. Qed.

(** The nu of a condition is never nonpositive, and a rejected assignment changes nothing. *)
Lemma condition_nu_lemma c h : xleb (ic_nu c) (Fin 0) = false ->
  xleb (ic_nu (fold_left ic_step h c)) (Fin 0) = false.
Proof.
  revert c. induction h as [|o h IH]; intros c Hc; [exact Hc|]. apply IH. destruct o; cbn; [exact Hc|].
  unfold ic_set_nu. destruct (xleb v (Fin 0)) eqn:E; [exact Hc|exact E].
Qed.
