(** Proofs about stations of the 1968 Stanford data. *)
From Coq Require Import Reals List Bool String Ascii Lia Lra.
From Verif Require Import PyBase PyBaseFacts PyText StanfordModel StanfordSpec.
Import ListNotations.
Open Scope R_scope.

(* ------------------------------------------------------------------ *)
(** * Sequencing *)

Lemma then_ok m k s s' : m s = (s', Ok tt) -> (m >> k) s = k s'.
Proof. intros H. unfold andthen. rewrite H. reflexivity. Qed.
Lemma then_err m k s s' e : m s = (s', Err e) -> (m >> k) s = (s', Err e).
Proof. intros H. unfold andthen. rewrite H. reflexivity. Qed.
Lemma then_pure (f : station -> station) k s : ((fun s => (f s, Ok tt)) >> k) s = k (f s).
Proof. reflexivity. Qed.

Lemma inch_val : inch_per_meter = 254 / 10000.
Proof. unfold inch_per_meter, meter_per_inch, meter_per_foot, foot_per_meter. field. Qed.

(* ------------------------------------------------------------------ *)
(** * Unit systems *)

Lemma xmul_fin_assoc x b c : 0 < b -> 0 < c -> ((x * Fin b) * Fin c)%xr = (x * Fin (b * c))%xr.
Proof.
  intros Hb Hc. assert (Hbc : 0 < b * c) by (apply Rmult_lt_0_compat; assumption).
  destruct x as [x| | |]; cbn [xmul]; [apply f_equal; ring| | |reflexivity];
  unfold inf_times;
  repeat (match goal with |- context [Rlt_dec ?a ?b] => destruct (Rlt_dec a b) end;
          try lra; cbn [xmul]; unfold inf_times); reflexivity.
Qed.

Lemma thick_conv t : (inch t * Fin (1 / 100))%xr = (t * Fin inch_per_meter)%xr.
Proof.
  unfold inch. rewrite xmul_fin_assoc by lra. rewrite inch_val. apply f_equal, f_equal. lra.
Qed.
Lemma visc_conv t : (ft2 t * Fin (1 / 10000))%xr = (t * Fin (foot_per_meter * foot_per_meter))%xr.
Proof.
  unfold ft2. rewrite xmul_fin_assoc by lra. apply f_equal, f_equal. unfold foot_per_meter. lra.
Qed.

Ltac exact_columns l n :=
  lazymatch n with
  | O => destruct l as [|? ?]
  | S ?k => destruct l as [|? l]; [reflexivity|exact_columns l k]
  end.

Lemma reset_summary_units floats t_us t_si s :
  rewritten floats summary_to_si t_us t_si ->
  reset_summary floats false t_us s = reset_summary floats true t_si s.
Proof.
  unfold rewritten, reset_summary. intros ->. destruct (floats t_us) as [l|]; [|reflexivity].
  exact_columns l 11%nat; [|reflexivity].
  cbn [summary_to_si]. rewrite thick_conv. reflexivity.
Qed.

Lemma reset_station_summary_units floats t_us t_si s :
  (t_us = ""%string <-> t_si = ""%string) -> rewritten floats detail_to_si t_us t_si ->
  reset_station_summary floats false t_us s = reset_station_summary floats true t_si s.
Proof.
  intros He Hr. unfold reset_station_summary.
  assert (Hb : String.eqb t_us "" = String.eqb t_si "").
  { destruct (String.eqb_spec t_us "") as [E|E], (String.eqb_spec t_si "") as [F|F]; tauto. }
  rewrite Hb. unfold rewritten in Hr. rewrite Hr.
  destruct (floats t_us) as [l|]; [|reflexivity].
  exact_columns l 13%nat; [|reflexivity].
  cbn [detail_to_si]. rewrite visc_conv, !thick_conv. reflexivity.
Qed.

Lemma sample_units floats i t_us t_si s :
  rewritten floats profile_to_si t_us t_si ->
  sample floats false i t_us s = sample floats true i t_si s.
Proof.
  unfold rewritten, sample. intros ->. destruct (floats t_us) as [l|]; [|reflexivity].
  exact_columns l 6%nat; [|reflexivity].
  cbn [profile_to_si]. rewrite thick_conv. reflexivity.
Qed.

Lemma samples_units floats r_us r_si :
  Forall2 (rewritten floats profile_to_si) r_us r_si ->
  forall i s, samples floats false i r_us s = samples floats true i r_si s.
Proof.
  induction 1 as [|a b la lb H _ IH]; intros i s; [reflexivity|].
  cbn [samples]. unfold andthen. rewrite (sample_units _ _ _ _ _ H).
  destruct (sample floats true i b s) as [s' [|]]; [apply IH|reflexivity].
Qed.

Lemma reset_units floats junk a_us a_si b_us b_si r_us r_si s :
  rewritten floats summary_to_si a_us a_si ->
  (b_us = ""%string <-> b_si = ""%string) -> rewritten floats detail_to_si b_us b_si ->
  Forall2 (rewritten floats profile_to_si) r_us r_si ->
  reset floats junk false a_us b_us r_us s = reset floats junk true a_si b_si r_si s.
Proof.
  intros Ha He Hb Hr. unfold reset, andthen.
  rewrite (reset_summary_units _ _ _ _ Ha).
  destruct (reset_summary floats true a_si s) as [s1 [|]]; [|reflexivity].
  rewrite (reset_station_summary_units _ _ _ _ He Hb).
  destruct (reset_station_summary floats true b_si s1) as [s2 [|]]; [|reflexivity].
  unfold reset_station_data.
  assert (Hl : List.length r_us = List.length r_si) by (induction Hr; cbn; congruence).
  rewrite Hl. apply samples_units. exact Hr.
Qed.

Lemma new_station_units floats junk a_us a_si b_us b_si r_us r_si :
  rewritten floats summary_to_si a_us a_si ->
  (b_us = ""%string <-> b_si = ""%string) -> rewritten floats detail_to_si b_us b_si ->
  Forall2 (rewritten floats profile_to_si) r_us r_si ->
  new_station floats junk false a_us b_us r_us = new_station floats junk true a_si b_si r_si.
Proof.
  intros Ha He Hb Hr. unfold new_station. rewrite (reset_units _ _ _ _ _ _ _ _ _ Ha He Hb Hr).
  reflexivity.
Qed.

Lemma new_smooth_units floats r_us r_si :
  Forall2 (rewritten floats velocity_to_si) r_us r_si ->
  new_smooth floats false r_us = new_smooth floats true r_si.
Proof.
  induction 1 as [|a b la lb H _ IH]; [reflexivity|].
  cbn [new_smooth]. rewrite IH.
  assert (Hrow : smooth_row floats false a = smooth_row floats true b).
  { unfold rewritten in H. unfold smooth_row. rewrite H.
    destruct (floats a) as [l|]; [|reflexivity]. exact_columns l 3%nat; reflexivity. }
  rewrite Hrow. reflexivity.
Qed.

(* ------------------------------------------------------------------ *)
(** * Positivity *)

Definition keeps (P : station -> Prop) (m : station -> station * res unit) : Prop :=
  forall s, P s -> P (fst (m s)).
Lemma keeps_then P m k : keeps P m -> keeps P k -> keeps P (m >> k).
Proof.
  intros Hm Hk s H. unfold andthen. specialize (Hm s H). destruct (m s) as [s' [|e]]; cbn [fst] in *.
  - apply Hk. exact Hm.
  - exact Hm.
Qed.
Lemma keeps_check P b : keeps P (check b).
Proof. intros s H. unfold check. destruct (b s); exact H. Qed.

Lemma xleb_not_below v : xleb v (Fin 0) = false -> not_below v.
Proof.
  intros H. destruct v as [x| | |]; cbn [xleb] in H; try discriminate.
  - right. right. exists x. split; [reflexivity|]. destruct (Rle_dec x 0) as [L|L]; [|lra].
    rewrite Rleb_true in H by exact L. discriminate.
  - right. left. reflexivity.
  - left. reflexivity.
Qed.
Lemma not_below_inf : not_below PInf.
Proof. right. left. reflexivity. Qed.

Ltac inv_fields H :=
  unfold positive_station in H;
  repeat match type of H with Forall _ (_ :: _) =>
    let h := fresh "P" in apply Forall_cons_iff in H; destruct H as [h H] end.
Ltac pos_goal := unfold positive_station; repeat (apply Forall_cons; [first [assumption|apply not_below_inf|apply xleb_not_below; assumption]|]); apply Forall_nil.
Ltac pos_set := intros s H; inv_fields H;
  lazymatch goal with |- context [fst (?f _ _)] => unfold f end;
  try match goal with |- context [if ?b then _ else _] => destruct b eqn:?; cbn [fst] end;
  pos_goal.

Lemma pos_x v : keeps positive_station (set_x v).  Proof. pos_set. Qed.
Lemma pos_du_e v : keeps positive_station (set_du_e v).  Proof. pos_set. Qed.
Lemma pos_c_f v : keeps positive_station (set_c_f v).  Proof. pos_set. Qed.
Lemma pos_c_f_lt v : keeps positive_station (set_c_f_lt v).  Proof. pos_set. Qed.
Lemma pos_c_f_exp v : keeps positive_station (set_c_f_exp v).  Proof. pos_set. Qed.
Lemma pos_beta_eq v : keeps positive_station (set_beta_eq v).  Proof. pos_set. Qed.
Lemma pos_u_e v : keeps positive_station (set_u_e v).  Proof. pos_set. Qed.
Lemma pos_delta_m v : keeps positive_station (set_delta_m v).  Proof. pos_set. Qed.
Lemma pos_delta_d v : keeps positive_station (set_delta_d v).  Proof. pos_set. Qed.
Lemma pos_delta_k v : keeps positive_station (set_delta_k v).  Proof. pos_set. Qed.
Lemma pos_delta_c v : keeps positive_station (set_delta_c v).  Proof. pos_set. Qed.
Lemma pos_shape_d v : keeps positive_station (set_shape_d v).  Proof. pos_set. Qed.
Lemma pos_shape_k v : keeps positive_station (set_shape_k v).  Proof. pos_set. Qed.
Lemma pos_shape_eq v : keeps positive_station (set_shape_eq v).  Proof. pos_set. Qed.
Lemma pos_u_star v : keeps positive_station (set_u_star v).  Proof. pos_set. Qed.
Lemma pos_nu v : keeps positive_station (set_nu v).  Proof. pos_set. Qed.
Lemma pos_re_delta_m v : keeps positive_station (set_re_delta_m v).  Proof. pos_set. Qed.
Lemma pos_re_delta_d v : keeps positive_station (set_re_delta_d v).  Proof. pos_set. Qed.
Lemma pos_y_plus v : keeps positive_station (set_y_plus v).  Proof. pos_set. Qed.
Lemma pos_u_plus v : keeps positive_station (set_u_plus v).  Proof. pos_set. Qed.
Lemma pos_y v : keeps positive_station (set_y v).  Proof. pos_set. Qed.
Lemma pos_u v : keeps positive_station (set_u v).  Proof. pos_set. Qed.
Lemma pos_y_c v : keeps positive_station (set_y_c v).  Proof. pos_set. Qed.
Lemma pos_u_defect v : keeps positive_station (set_u_defect v).  Proof. pos_set. Qed.

Lemma pos_derive : keeps positive_station derive.
Proof.
  unfold derive. intros s H. revert s H.
  repeat apply keeps_then; intros s H;
  [apply pos_delta_d|apply pos_delta_k|apply pos_u_star]; exact H.
Qed.

Ltac pos_step := first
  [ apply keeps_check | apply pos_x | apply pos_u_e | apply pos_du_e | apply pos_delta_m
  | apply pos_shape_d | apply pos_shape_k | apply pos_shape_eq | apply pos_c_f | apply pos_c_f_lt
  | apply pos_c_f_exp | apply pos_beta_eq | apply pos_u_star | apply pos_nu | apply pos_delta_d
  | apply pos_delta_k | apply pos_delta_c | apply pos_re_delta_m | apply pos_re_delta_d
  | apply pos_derive ].

Section Pos.
Variable floats : string -> option (list xr).
Variable junk : nat -> xr.

Lemma pos_reset_summary si t : keeps positive_station (reset_summary floats si t).
Proof.
  intros s H. unfold reset_summary.
  assert (Hc : positive_station (clear_summary s)) by (inv_fields H; pos_goal).
  destruct (floats t) as [l|]; [|exact Hc].
  do 11 (destruct l as [|? l]; [exact Hc|]). destruct l; [|exact Hc].
  revert Hc. generalize (clear_summary s).
  match goal with |- forall s0, _ -> positive_station (fst (?m s0)) => change (keeps positive_station m) end.
  repeat (apply keeps_then; [pos_step|]). apply pos_derive.
Qed.

Lemma pos_reset_station_summary si t : keeps positive_station (reset_station_summary floats si t).
Proof.
  intros s H. unfold reset_station_summary.
  assert (Hc : positive_station (clear_station s)) by (inv_fields H; pos_goal).
  revert Hc. generalize (clear_station s). clear s H. apply keeps_then.
  { intros s H. destruct (xeqb (st_x s) PInf); [|apply pos_derive; exact H].
    inv_fields H. cbn [fst]. pos_goal. }
  intros s H. destruct (String.eqb t ""); [exact H|].
  destruct (floats t) as [l|]; [|exact H].
  do 13 (destruct l as [|? l]; [exact H|]). destruct l; [|exact H].
  revert s H.
  match goal with |- forall s0, _ -> positive_station (fst (?m s0)) => change (keeps positive_station m) end.
  repeat (apply keeps_then; [first [pos_step|
     intros s H; destruct (py_div _ _); [apply keeps_check; exact H|exact H]]|]).
  pos_step.
Qed.

Lemma pos_same s s' :
  [st_u_e s; st_delta_m s; st_shape_d s; st_shape_k s; st_shape_eq s; st_u_star s;
    st_nu s; st_delta_d s; st_delta_k s; st_delta_c s; st_re_delta_m s; st_re_delta_d s] =
  [st_u_e s'; st_delta_m s'; st_shape_d s'; st_shape_k s'; st_shape_eq s'; st_u_star s';
    st_nu s'; st_delta_d s'; st_delta_k s'; st_delta_c s'; st_re_delta_m s'; st_re_delta_d s'] ->
  positive_station s -> positive_station s'.
Proof. unfold positive_station. intros ->. exact (fun h => h). Qed.

Lemma pos_sample si i t : keeps positive_station (sample floats si i t).
Proof.
  intros s H. unfold sample. destruct (floats t) as [l|]; [|exact H].
  do 6 (destruct l as [|? l]; [exact H|]). destruct l; [|exact H].
  match goal with |- positive_station (fst (?m s)) => assert (K : keeps positive_station m) end.
  { repeat (apply keeps_then; [first [apply keeps_check|intros s0 H0; exact (pos_same _ _ eq_refl H0)]|]).
    intros s0 H0; exact (pos_same _ _ eq_refl H0). }
  apply K. exact H.
Qed.
Lemma pos_samples si rows : forall i, keeps positive_station (samples floats si i rows).
Proof.
  induction rows as [|r t IH]; intros i; [intros s H; exact H|].
  intros s H. cbn [samples]. apply keeps_then; [apply pos_sample|apply IH|exact H].
Qed.
Lemma pos_reset si a b rows : keeps positive_station (reset floats junk si a b rows).
Proof.
  intros s H. unfold reset. revert s H.
  match goal with |- forall s0, _ -> positive_station (fst (?m s0)) => change (keeps positive_station m) end.
  apply keeps_then; [apply pos_reset_summary|]. apply keeps_then; [apply pos_reset_station_summary|].
  intros s H. unfold reset_station_data. apply pos_samples. exact (pos_same _ _ eq_refl H).
Qed.

Lemma pos_station0 : positive_station station0.
Proof. pos_goal. Qed.

Lemma positive_new si a b rows s :
  new_station floats junk si a b rows = Ok s -> positive_station s.
Proof.
  unfold new_station. intros H. pose proof (pos_reset si a b rows station0 pos_station0) as K.
  destruct (reset floats junk si a b rows station0) as [s' [|]]; [|discriminate].
  injection H as <-. exact K.
Qed.

Lemma positive_run ops : forall s, positive_station s ->
  positive_station (fold_left (fun s o => run_op floats junk o s) ops s).
Proof.
  induction ops as [|o ops IH]; intros s H; [exact H|]. cbn [fold_left]. apply IH.
  destruct o; unfold run_op;
  first [apply pos_x|apply pos_u_e|apply pos_du_e|apply pos_delta_m|apply pos_shape_d|apply pos_shape_k
    |apply pos_shape_eq|apply pos_c_f|apply pos_c_f_lt|apply pos_c_f_exp|apply pos_beta_eq
    |apply pos_u_star|apply pos_nu|apply pos_delta_d|apply pos_delta_k|apply pos_delta_c
    |apply pos_re_delta_m|apply pos_re_delta_d|apply pos_y_plus|apply pos_u_plus|apply pos_y
    |apply pos_u|apply pos_y_c|apply pos_u_defect|apply pos_reset]; exact H.
Qed.

End Pos.
