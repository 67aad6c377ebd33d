(** When a station loads, and what it then shows. *)
From Coq Require Import Reals List Bool String Ascii Lia Lra Classical.
From Verif Require Import PyBase PyBaseFacts PyText StanfordModel StanfordSpec StanfordProofs.
Import ListNotations.
Open Scope R_scope.

(* ------------------------------------------------------------------ *)
(** * One statement at a time *)

Lemma do_check b k s :
  (check b >> k) s = if b s then (s, Err ValueError) else k s.
Proof. unfold andthen, check. destruct (b s); reflexivity. Qed.
Lemma do_u_e v k s : (set_u_e v >> k) s = if xleb v (Fin 0) then (s, Err ValueError) else k (with_st_u_e s v).
Proof. unfold andthen, set_u_e. destruct (xleb v (Fin 0)); reflexivity. Qed.
Lemma do_delta_m v k s : (set_delta_m v >> k) s = if xleb v (Fin 0) then (s, Err ValueError) else k (with_st_delta_m s v).
Proof. unfold andthen, set_delta_m. destruct (xleb v (Fin 0)); reflexivity. Qed.
Lemma do_delta_d v k s : (set_delta_d v >> k) s = if xleb v (Fin 0) then (s, Err ValueError) else k (with_st_delta_d s v).
Proof. unfold andthen, set_delta_d. destruct (xleb v (Fin 0)); reflexivity. Qed.
Lemma do_delta_k v k s : (set_delta_k v >> k) s = if xleb v (Fin 0) then (s, Err ValueError) else k (with_st_delta_k s v).
Proof. unfold andthen, set_delta_k. destruct (xleb v (Fin 0)); reflexivity. Qed.
Lemma do_delta_c v k s : (set_delta_c v >> k) s = if xleb v (Fin 0) then (s, Err ValueError) else k (with_st_delta_c s v).
Proof. unfold andthen, set_delta_c. destruct (xleb v (Fin 0)); reflexivity. Qed.
Lemma do_shape_d v k s : (set_shape_d v >> k) s = if xleb v (Fin 0) then (s, Err ValueError) else k (with_st_shape_d s v).
Proof. unfold andthen, set_shape_d. destruct (xleb v (Fin 0)); reflexivity. Qed.
Lemma do_shape_k v k s : (set_shape_k v >> k) s = if xleb v (Fin 0) then (s, Err ValueError) else k (with_st_shape_k s v).
Proof. unfold andthen, set_shape_k. destruct (xleb v (Fin 0)); reflexivity. Qed.
Lemma do_shape_eq v k s : (set_shape_eq v >> k) s = if xleb v (Fin 0) then (s, Err ValueError) else k (with_st_shape_eq s v).
Proof. unfold andthen, set_shape_eq. destruct (xleb v (Fin 0)); reflexivity. Qed.
Lemma do_u_star v k s : (set_u_star v >> k) s = if xleb v (Fin 0) then (s, Err ValueError) else k (with_st_u_star s v).
Proof. unfold andthen, set_u_star. destruct (xleb v (Fin 0)); reflexivity. Qed.
Lemma do_nu v k s : (set_nu v >> k) s = if xleb v (Fin 0) then (s, Err ValueError) else k (with_st_nu s v).
Proof. unfold andthen, set_nu. destruct (xleb v (Fin 0)); reflexivity. Qed.
Lemma do_re_delta_m v k s : (set_re_delta_m v >> k) s = if xleb v (Fin 0) then (s, Err ValueError) else k (with_st_re_delta_m s v).
Proof. unfold andthen, set_re_delta_m. destruct (xleb v (Fin 0)); reflexivity. Qed.
Lemma do_x v k s : (set_x v >> k) s = k (with_st_x s v).  Proof. reflexivity. Qed.
Lemma do_du_e v k s : (set_du_e v >> k) s = k (with_st_du_e s v).  Proof. reflexivity. Qed.
Lemma do_c_f v k s : (set_c_f v >> k) s = k (with_st_c_f s v).  Proof. reflexivity. Qed.
Lemma do_c_f_lt v k s : (set_c_f_lt v >> k) s = k (with_st_c_f_lt s v).  Proof. reflexivity. Qed.
Lemma do_c_f_exp v k s : (set_c_f_exp v >> k) s = k (with_st_c_f_exp s v).  Proof. reflexivity. Qed.
Lemma do_beta_eq v k s : (set_beta_eq v >> k) s = k (with_st_beta_eq s v).  Proof. reflexivity. Qed.

Ltac pj := cbn [st_x st_u_e st_du_e st_delta_m st_shape_d st_shape_k st_shape_eq st_c_f st_c_f_lt
  st_c_f_exp st_beta_eq st_u_star st_nu st_delta_d st_delta_k st_delta_c st_re_delta_m st_re_delta_d
  sa_y_plus sa_u_plus sa_y sa_u sa_y_c sa_u_defect
  with_st_x with_st_u_e with_st_du_e with_st_delta_m with_st_shape_d with_st_shape_k with_st_shape_eq
  with_st_c_f with_st_c_f_lt with_st_c_f_exp with_st_beta_eq with_st_u_star with_st_nu with_st_delta_d
  with_st_delta_k with_st_delta_c with_st_re_delta_m with_st_re_delta_d
  with_sa_y_plus with_sa_u_plus with_sa_y with_sa_u with_sa_y_c with_sa_u_defect
  clear_summary clear_station].

Lemma fin_le_false v : 0 < v -> xleb (Fin v) (Fin 0) = false.
Proof. intros. cbn [xleb]. apply Rleb_false. exact H. Qed.
Lemma fin_le_true v : ~ 0 < v -> xleb (Fin v) (Fin 0) = true.
Proof. intros. cbn [xleb]. apply Rleb_true. lra. Qed.
Lemma off_false t a b : Rabs (a - b) < t -> off_by t (Fin a) (Fin b) = false.
Proof. intros. unfold off_by. cbn [xsub xneg xadd xabs xleb]. apply Rleb_false. exact H. Qed.
Lemma off_true t a b : ~ Rabs (a - b) < t -> off_by t (Fin a) (Fin b) = true.
Proof.
  intros. unfold off_by. cbn [xsub xneg xadd xabs xleb]. apply Rleb_true.
  apply Rnot_lt_le. exact H.
Qed.
Lemma beyond_false t a b : Rabs (a - b) <= t -> beyond t (Fin a) (Fin b) = false.
Proof. intros. unfold beyond. cbn [xsub xneg xadd xabs xltb]. apply Rltb_false. exact H. Qed.
Lemma beyond_true t a b : ~ Rabs (a - b) <= t -> beyond t (Fin a) (Fin b) = true.
Proof.
  intros. unfold beyond. cbn [xsub xneg xadd xabs xltb]. apply Rltb_true.
  apply Rnot_le_lt. exact H.
Qed.

(** Booleans for real conditions, to follow both branches. *)
Lemma le_spec v : reflect (~ 0 < v) (xleb (Fin v) (Fin 0)).
Proof.
  destruct (Rlt_dec 0 v) as [H|H]; [rewrite fin_le_false by exact H|rewrite fin_le_true by exact H];
  constructor; tauto.
Qed.
Lemma off_spec t a b : reflect (~ Rabs (a - b) < t) (off_by t (Fin a) (Fin b)).
Proof.
  destruct (Rlt_dec (Rabs (a - b)) t) as [H|H]; [rewrite off_false by exact H|rewrite off_true by exact H];
  constructor; tauto.
Qed.
Lemma beyond_spec t a b : reflect (~ Rabs (a - b) <= t) (beyond t (Fin a) (Fin b)).
Proof.
  destruct (Rle_dec (Rabs (a - b)) t) as [H|H]; [rewrite beyond_false by exact H|rewrite beyond_true by exact H];
  constructor; tauto.
Qed.

Lemma len_pos u : 0 < length_unit u.  Proof. destruct u; cbn; lra. Qed.
Lemma thick_pos u : 0 < thickness_unit u.  Proof. destruct u; cbn; lra. Qed.
Lemma visc_pos u : 0 < viscosity_unit u.  Proof. destruct u; cbn; lra. Qed.

Lemma get_length u v :
  (if is_si u then Fin (v / length_unit u) else (Fin (v / length_unit u) * Fin foot_per_meter)%xr) = Fin v.
Proof. destruct u; cbn [is_si xmul]; apply f_equal; unfold foot_per_meter; cbn [length_unit]; field. Qed.
Lemma get_thick u v :
  (if is_si u then (Fin (v / thickness_unit u) * Fin (1 / 100))%xr
   else (Fin (v / thickness_unit u) * Fin inch_per_meter)%xr) = Fin v.
Proof. rewrite inch_val. destruct u; cbn [is_si xmul]; apply f_equal; cbn [thickness_unit]; field. Qed.
Lemma get_visc u v :
  (if is_si u then (Fin (v / viscosity_unit u) * Fin (1 / 10000))%xr
   else (Fin (v / viscosity_unit u) * Fin (foot_per_meter * foot_per_meter))%xr) = Fin v.
Proof.
  destruct u; cbn [is_si xmul]; apply f_equal; unfold foot_per_meter; cbn [viscosity_unit]; field.
Qed.

Lemma half_sqrt c : 0 < c -> xsqrt (Fin (1 / 2) * Fin c) = Fin (sqrt (c / 2)).
Proof.
  intros H. cbn [xmul]. rewrite xsqrt_fin by lra. apply f_equal. f_equal. field.
Qed.

(** [r] succeeds with [good] exactly when [P]. *)
Definition outcome (P : Prop) (r : station * res unit) (good : station) : Prop :=
  (P /\ r = (good, Ok tt)) \/ (~ P /\ exists s' e, r = (s', Err e)).
Lemma outcome_no (P : Prop) s e good : ~ P -> outcome P (s, Err e) good.
Proof. intros H. right. split; [exact H|]. eexists _, _. reflexivity. Qed.
Lemma outcome_yes (P : Prop) s : P -> outcome P (s, Ok tt) s.
Proof. intros H. left. split; [exact H|reflexivity]. Qed.

Section Load.
Variable floats : string -> option (list xr).
Variable junk : nat -> xr.

(** The state after the summary row. *)
Definition after_flow (s : station) (f : flow) : station :=
  {| st_x := Fin (f_x f); st_u_e := Fin (f_u_e f); st_du_e := Fin (f_du_e f);
     st_delta_m := Fin (f_theta f); st_shape_d := Fin (f_h f); st_shape_k := Fin (f_hs f);
     st_shape_eq := Fin (f_g f); st_c_f := Fin (f_cf f); st_c_f_lt := Fin (f_cf_lt f);
     st_c_f_exp := Fin (f_cf_exp f); st_beta_eq := Fin (f_beta f);
     st_u_star := Fin (f_u_e f * sqrt (f_cf f / 2)); st_nu := st_nu s;
     st_delta_d := Fin (f_h f * f_theta f); st_delta_k := Fin (f_hs f * f_theta f);
     st_delta_c := st_delta_c s; st_re_delta_m := st_re_delta_m s; st_re_delta_d := st_re_delta_d s;
     sa_y_plus := sa_y_plus s; sa_u_plus := sa_u_plus s; sa_y := sa_y s; sa_u := sa_u s;
     sa_y_c := sa_y_c s; sa_u_defect := sa_u_defect s |}.

Lemma derive_ok f s : positive_flow f -> 0 < f_cf f ->
  st_shape_d s = Fin (f_h f) -> st_shape_k s = Fin (f_hs f) -> st_delta_m s = Fin (f_theta f) ->
  st_u_e s = Fin (f_u_e f) -> st_c_f s = Fin (f_cf f) ->
  derive s = (with_st_u_star (with_st_delta_k (with_st_delta_d s (Fin (f_h f * f_theta f)))
                (Fin (f_hs f * f_theta f))) (Fin (f_u_e f * sqrt (f_cf f / 2))), Ok tt).
Proof.
  intros (Hu & Ht & Hh & Hs & Hg) Hc E1 E2 E3 E4 E5. unfold derive.
  assert (Q : 0 < sqrt (f_cf f / 2)) by (apply sqrt_lt_R0; lra).
  unfold andthen, set_delta_d, set_delta_k, set_u_star.
  rewrite E1, E3. rewrite xmul_fin. rewrite fin_le_false by (apply Rmult_lt_0_compat; assumption).
  pj. rewrite E2, E3. rewrite xmul_fin. rewrite fin_le_false by (apply Rmult_lt_0_compat; assumption).
  pj. rewrite E4, E5, half_sqrt by exact Hc. rewrite xmul_fin.
  rewrite fin_le_false by (apply Rmult_lt_0_compat; assumption). reflexivity.
Qed.

Lemma summary_run u f t s : prints floats t (summary_columns u f) -> 0 < f_cf f ->
  outcome (positive_flow f) (reset_summary floats (is_si u) t s) (after_flow s f).
Proof.
  intros Hp Hc. unfold reset_summary. rewrite Hp. unfold summary_columns. cbn [map].
  rewrite !get_length, get_thick.
  rewrite do_x, do_u_e. destruct (le_spec (f_u_e f)) as [N|Hu];
    [apply outcome_no; unfold positive_flow; tauto|].
  rewrite do_du_e, do_delta_m. destruct (le_spec (f_theta f)) as [N|Ht];
    [apply outcome_no; unfold positive_flow; tauto|].
  rewrite do_shape_d. destruct (le_spec (f_h f)) as [N|Hh];
    [apply outcome_no; unfold positive_flow; tauto|].
  rewrite do_shape_k. destruct (le_spec (f_hs f)) as [N|Hs];
    [apply outcome_no; unfold positive_flow; tauto|].
  rewrite do_shape_eq. destruct (le_spec (f_g f)) as [N|Hg];
    [apply outcome_no; unfold positive_flow; tauto|].
  assert (P : positive_flow f) by (unfold positive_flow; repeat split; apply NNPP; assumption).
  rewrite do_c_f, do_c_f_lt, do_c_f_exp, do_beta_eq.
  rewrite (derive_ok f) by (first [exact P|exact Hc|reflexivity]).
  apply outcome_yes. exact P.
Qed.

(** The state after the station line. *)
Definition after_detail (s : station) (f : flow) (d : detail) : station :=
  {| st_x := Fin (d_x d); st_u_e := Fin (d_u_e d); st_du_e := Fin (f_du_e f);
     st_delta_m := Fin (d_theta d); st_shape_d := Fin (d_h d); st_shape_k := Fin (d_hs d);
     st_shape_eq := Fin (d_g d); st_c_f := Fin (f_cf f); st_c_f_lt := Fin (f_cf_lt f);
     st_c_f_exp := Fin (f_cf_exp f); st_beta_eq := Fin (f_beta f);
     st_u_star := Fin (d_us d); st_nu := Fin (d_nu d);
     st_delta_d := Fin (d_dels d); st_delta_k := Fin (d_enth d);
     st_delta_c := Fin (d_clth d); st_re_delta_m := Fin (d_re_theta d);
     st_re_delta_d := Fin (d_re_dels d);
     sa_y_plus := sa_y_plus s; sa_u_plus := sa_u_plus s; sa_y := sa_y s; sa_u := sa_u s;
     sa_y_c := sa_y_c s; sa_u_defect := sa_u_defect s |}.

Lemma redo_derive f s : positive_flow f -> 0 < f_cf f ->
  (fun s => if xeqb (st_x s) PInf
            then (with_st_delta_k (with_st_delta_d (with_st_u_star s PInf) PInf) PInf, Ok tt)
            else derive s) (clear_station (after_flow s f)) =
  (clear_station (after_flow s f), Ok tt).
Proof.
  intros P Hc. unfold clear_station, after_flow. pj. cbn [xeqb].
  rewrite (derive_ok f) by (first [exact P|exact Hc|reflexivity]). reflexivity.
Qed.

Lemma no_detail_run u f s : positive_flow f -> 0 < f_cf f ->
  reset_station_summary floats (is_si u) "" (after_flow s f) =
  (clear_station (after_flow s f), Ok tt).
Proof.
  intros P Hc. unfold reset_station_summary.
  rewrite (then_ok _ _ _ _ (redo_derive f s P Hc)). reflexivity.
Qed.

Lemma detail_run u f d t s : prints floats t (detail_columns u d) -> t <> ""%string ->
  positive_flow f -> 0 < f_cf f ->
  outcome (agree f d /\ positive_detail d)
    (reset_station_summary floats (is_si u) t (after_flow s f)) (after_detail s f d).
Proof.
  intros Hp Ht P Hc. unfold reset_station_summary.
  rewrite (then_ok _ _ _ _ (redo_derive f s P Hc)).
  rewrite (proj2 (String.eqb_neq t "") Ht), Hp. unfold detail_columns. cbn [map].
  rewrite !get_length, !get_thick, get_visc.
  rewrite do_check. pj. cbn [after_flow st_x]. unfold after_flow. pj.
  destruct (off_spec (2 / 1000) (d_x d) (f_x f)) as [N|A1]; [apply outcome_no; unfold agree; tauto|].
  rewrite do_check. pj.
  destruct (off_spec (6 / 100) (d_u_e d) (f_u_e f)) as [N|A2]; [apply outcome_no; unfold agree; tauto|].
  rewrite do_check. pj.
  destruct (off_spec (2 / 1000) (d_theta d) (f_theta f)) as [N|A3]; [apply outcome_no; unfold agree; tauto|].
  rewrite do_check. pj.
  destruct (off_spec (2 / 1000) (d_h d) (f_h f)) as [N|A4]; [apply outcome_no; unfold agree; tauto|].
  rewrite do_check. pj.
  destruct (off_spec (2 / 1000) (d_hs d) (f_hs f)) as [N|A5]; [apply outcome_no; unfold agree; tauto|].
  rewrite do_check. pj.
  destruct (off_spec (2 / 1000) (d_g d) (f_g f)) as [N|A6]; [apply outcome_no; unfold agree; tauto|].
  rewrite do_check. pj. rewrite xmul_fin.
  destruct (off_spec (5 / 1000) (d_dels d) (f_h f * f_theta f)) as [N|A7]; [apply outcome_no; unfold agree; tauto|].
  rewrite do_check. pj. rewrite xmul_fin.
  destruct (off_spec (5 / 1000) (d_enth d) (f_hs f * f_theta f)) as [N|A8]; [apply outcome_no; unfold agree; tauto|].
  destruct (Req_EM_T (d_nu d) 0) as [Z|NZ].
  { unfold andthen at 1. pj. rewrite xmul_fin. unfold py_div.
    replace (xeqb (Fin (d_nu d)) (Fin 0)) with true by (cbn [xeqb]; rewrite Reqb_true by exact Z; reflexivity).
    unfold raise. apply outcome_no. unfold positive_detail. rewrite Z. intros [_ HH]. lra. }
  unfold andthen at 1. pj. rewrite xmul_fin, py_div_fin by exact NZ. unfold check at 1.
  destruct (off_spec 5 (d_re_dels d) (f_u_e f * d_dels d / d_nu d)) as [N|A9]; [apply outcome_no; unfold agree; tauto|].
  unfold andthen at 1. pj. rewrite xmul_fin, py_div_fin by exact NZ. unfold check at 1.
  destruct (off_spec 5 (d_re_theta d) (f_u_e f * d_theta d / d_nu d)) as [N|A10]; [apply outcome_no; unfold agree; tauto|].
  rewrite do_check. pj. rewrite half_sqrt by exact Hc. rewrite xmul_fin.
  destruct (off_spec (5 / 1000) (d_us d) (f_u_e f * sqrt (f_cf f / 2))) as [N|A11]; [apply outcome_no; unfold agree; tauto|].
  rewrite do_x, do_u_star. destruct (le_spec (d_us d)) as [N|P1]; [apply outcome_no; unfold positive_detail; tauto|].
  rewrite do_u_e. destruct (le_spec (d_u_e d)) as [N|P2]; [apply outcome_no; unfold positive_detail; tauto|].
  rewrite do_nu. destruct (le_spec (d_nu d)) as [N|P3]; [apply outcome_no; unfold positive_detail; tauto|].
  rewrite do_delta_m. destruct (le_spec (d_theta d)) as [N|P4]; [apply outcome_no; unfold positive_detail; tauto|].
  rewrite do_delta_d. destruct (le_spec (d_dels d)) as [N|P5]; [apply outcome_no; unfold positive_detail; tauto|].
  rewrite do_delta_k. destruct (le_spec (d_enth d)) as [N|P6]; [apply outcome_no; unfold positive_detail; tauto|].
  rewrite do_delta_c. destruct (le_spec (d_clth d)) as [N|P7]; [apply outcome_no; unfold positive_detail; tauto|].
  rewrite do_shape_d. destruct (le_spec (d_h d)) as [N|P8]; [apply outcome_no; unfold positive_detail; tauto|].
  rewrite do_shape_eq. destruct (le_spec (d_g d)) as [N|P9]; [apply outcome_no; unfold positive_detail; tauto|].
  rewrite do_shape_k. destruct (le_spec (d_hs d)) as [N|P10]; [apply outcome_no; unfold positive_detail; tauto|].
  rewrite do_re_delta_m. destruct (le_spec (d_re_theta d)) as [N|P11]; [apply outcome_no; unfold positive_detail; tauto|].
  unfold set_re_delta_d. destruct (le_spec (d_re_dels d)) as [N|P12]; [apply outcome_no; unfold positive_detail; tauto|].
  pj. apply outcome_yes. split; [unfold agree|unfold positive_detail]; repeat split; apply NNPP; assumption.
Qed.

(* ------------------------------------------------------------------ *)
(** * Profiles *)

Lemma put_mid (a : list xr) x b v : put (a ++ x :: b) (List.length a) v = a ++ v :: b.
Proof. induction a as [|h t IH]; cbn; [reflexivity|]. rewrite IH. reflexivity. Qed.

(** The station with the first samples filled in and the rest of the arrays still uninitialised. *)
Definition filled (s : station) (d : detail) (done : list profile) (left : list xr) : station :=
  with_sa_u_defect (with_sa_y_c (with_sa_u (with_sa_y (with_sa_u_plus (with_sa_y_plus s
    (map (fun p => Fin (p_yplus p)) done ++ left))
    (map (fun p => Fin (p_uplus p)) done ++ left))
    (map (fun p => Fin (p_y p)) done ++ left))
    (map (fun p => Fin (d_u_e d * p_ratio p)) done ++ left))
    (map (fun p => Fin (p_yc p)) done ++ left))
    (map (fun p => Fin (p_defect p)) done ++ left).

Definition write (i : nat) (d : detail) (p : profile) (s : station) : station :=
  with_sa_u_defect (with_sa_y_c (with_sa_u (with_sa_y (with_sa_u_plus (with_sa_y_plus s
    (put (sa_y_plus s) i (Fin (p_yplus p))))
    (put (sa_u_plus s) i (Fin (p_uplus p))))
    (put (sa_y s) i (Fin (p_y p))))
    (put (sa_u s) i (Fin (d_u_e d * p_ratio p))))
    (put (sa_y_c s) i (Fin (p_yc p))))
    (put (sa_u_defect s) i (Fin (p_defect p))).

Lemma write_run i d p s :
  ((fun s => (with_sa_y_plus s (put (sa_y_plus s) i (Fin (p_yplus p))), Ok tt)) >>
   (fun s => (with_sa_u_plus s (put (sa_u_plus s) i (Fin (p_uplus p))), Ok tt)) >>
   (fun s => (with_sa_y s (put (sa_y s) i (Fin (p_y p))), Ok tt)) >>
   (fun s => (with_sa_u s (put (sa_u s) i (Fin (d_u_e d * p_ratio p))), Ok tt)) >>
   (fun s => (with_sa_y_c s (put (sa_y_c s) i (Fin (p_yc p))), Ok tt)) >>
   (fun s => (with_sa_u_defect s (put (sa_u_defect s) i (Fin (p_defect p))), Ok tt))) s =
  (write i d p s, Ok tt).
Proof. rewrite !then_pure. destruct s. reflexivity. Qed.

Lemma sample_gen u d s t p i :
  prints floats t (profile_columns u p) -> positive_detail d ->
  st_u_e s = Fin (d_u_e d) -> st_u_star s = Fin (d_us d) -> st_nu s = Fin (d_nu d) ->
  st_delta_c s = Fin (d_clth d) ->
  outcome (sample_agrees d p) (sample floats (is_si u) i t s) (write i d p s).
Proof.
  intros Hp (P1 & _ & P3 & _ & _ & _ & P7 & _) E1 E2 E3 E4. unfold sample. rewrite Hp.
  unfold profile_columns. cbn [map]. rewrite get_thick, E1, xmul_fin.
  rewrite do_check, E2, E3, xmul_fin, xdiv_fin by lra.
  destruct (beyond_spec 1 (p_yplus p) (p_y p * d_us d / d_nu d)) as [N|A1]; [apply outcome_no; unfold sample_agrees; tauto|].
  rewrite do_check, E4, xdiv_fin by lra.
  destruct (beyond_spec (5 / 10) (p_yc p) (p_y p / d_clth d)) as [N|A2];
    [apply outcome_no; unfold sample_agrees; replace (1 / 2) with (5 / 10) by lra; tauto|].
  rewrite do_check, E2, xdiv_fin by lra.
  destruct (beyond_spec (5 / 10) (p_uplus p) (d_u_e d * p_ratio p / d_us d)) as [N|A3];
    [apply outcome_no; unfold sample_agrees; replace (1 / 2) with (5 / 10) by lra; tauto|].
  rewrite do_check, E1, E2, xsub_fin, xdiv_fin by lra.
  destruct (beyond_spec (5 / 10) (p_defect p) ((d_u_e d - d_u_e d * p_ratio p) / d_us d)) as [N|A4];
    [apply outcome_no; unfold sample_agrees; replace (1 / 2) with (5 / 10) by lra; tauto|].
  rewrite write_run. apply outcome_yes.
  unfold sample_agrees. replace (1 / 2) with (5 / 10) by lra. repeat split; apply NNPP; assumption.
Qed.

Lemma write_filled s d p done x left :
  write (List.length done) d p (filled s d done (x :: left)) = filled s d (done ++ [p]) left.
Proof.
  assert (E : forall g : profile -> xr,
    put (map g done ++ x :: left) (List.length done) (g p) = map g (done ++ [p]) ++ left).
  { intros g. rewrite <- (map_length g done). rewrite put_mid, map_app. cbn [map].
    rewrite <- app_assoc. reflexivity. }
  unfold write, filled. pj.
  rewrite (E (fun p => Fin (p_yplus p))), (E (fun p => Fin (p_uplus p))), (E (fun p => Fin (p_y p))),
    (E (fun p => Fin (d_u_e d * p_ratio p))), (E (fun p => Fin (p_yc p))), (E (fun p => Fin (p_defect p))).
  reflexivity.
Qed.

Lemma sample_run u f d s t p done x left :
  prints floats t (profile_columns u p) -> positive_detail d ->
  outcome (sample_agrees d p)
    (sample floats (is_si u) (List.length done) t (filled (after_detail s f d) d done (x :: left)))
    (filled (after_detail s f d) d (done ++ [p]) left).
Proof.
  intros Hp P. rewrite <- (write_filled _ _ _ _ x).
  apply sample_gen; first [assumption|reflexivity].
Qed.

Lemma samples_run u f d s rows ps : Forall2 (fun t p => prints floats t (profile_columns u p)) rows ps ->
  positive_detail d -> forall done left, List.length left = List.length rows ->
  outcome (Forall (sample_agrees d) ps)
    (samples floats (is_si u) (List.length done) rows (filled (after_detail s f d) d done left))
    (filled (after_detail s f d) d (done ++ ps) []).
Proof.
  intros H P. induction H as [|t p rows ps Ht _ IH]; intros done left L.
  - destruct left; [|discriminate]. rewrite app_nil_r. cbn [samples]. apply outcome_yes. constructor.
  - destruct left as [|x left]; [discriminate|]. injection L as L. cbn [samples].
    destruct (sample_run u f d s t p done x left Ht P) as [[A E]|[A (s' & e & E)]].
    + rewrite (then_ok _ _ _ _ E).
      specialize (IH (done ++ [p]) left L). rewrite app_length in IH. cbn [List.length] in IH.
      rewrite Nat.add_1_r in IH. rewrite <- app_assoc in IH. cbn [app] in IH.
      destruct IH as [[B F]|[B F]]; [left|right]; (split; [|exact F]).
      * constructor; assumption.
      * intros C. apply B. inversion C; assumption.
    + rewrite (then_err _ _ _ _ _ E). apply outcome_no. intros C. apply A. inversion C; assumption.
Qed.

Lemma data_run u f d s rows ps : Forall2 (fun t p => prints floats t (profile_columns u p)) rows ps ->
  positive_detail d ->
  outcome (Forall (sample_agrees d) ps)
    (reset_station_data floats junk (is_si u) rows (after_detail s f d))
    (filled (after_detail s f d) d ps []).
Proof.
  intros H P. unfold reset_station_data.
  apply (samples_run u f d s rows ps H P [] (np_empty junk (List.length rows))).
  unfold np_empty. rewrite map_length, seq_length. reflexivity.
Qed.

Lemma data_none si s : reset_station_data floats junk si [] s =
  (with_sa_u_defect (with_sa_y_c (with_sa_u (with_sa_y (with_sa_u_plus (with_sa_y_plus s [])
     []) []) []) []) [], Ok tt).
Proof. reflexivity. Qed.

(* ------------------------------------------------------------------ *)
(** * Whole stations *)

Lemma flow_loads_used u f t s : prints floats t (summary_columns u f) -> 0 < f_cf f ->
  outcome (positive_flow f) (reset floats junk (is_si u) t "" [] s)
    (fst (reset_station_data floats junk (is_si u) [] (clear_station (after_flow s f)))).
Proof.
  intros Ht Hc. unfold reset.
  destruct (summary_run u f t s Ht Hc) as [[P E]|[N (s' & e & E)]].
  - rewrite (then_ok _ _ _ _ E), (then_ok _ _ _ _ (no_detail_run u f s P Hc)).
    rewrite data_none. cbn [fst]. apply outcome_yes. exact P.
  - rewrite (then_err _ _ _ _ _ E). apply outcome_no. exact N.
Qed.

Lemma detail_loads_used u f d t t2 rows ps s :
  prints floats t (summary_columns u f) -> 0 < f_cf f ->
  prints floats t2 (detail_columns u d) -> t2 <> ""%string ->
  Forall2 (fun t p => prints floats t (profile_columns u p)) rows ps ->
  outcome (positive_flow f /\ agree f d /\ positive_detail d /\ Forall (sample_agrees d) ps)
    (reset floats junk (is_si u) t t2 rows s)
    (filled (after_detail s f d) d ps []).
Proof.
  intros Ht Hc H2 Hne Hr. unfold reset.
  destruct (summary_run u f t s Ht Hc) as [[P E]|[N (s' & e & E)]];
    [|rewrite (then_err _ _ _ _ _ E); apply outcome_no; tauto].
  rewrite (then_ok _ _ _ _ E).
  destruct (detail_run u f d t2 s H2 Hne P Hc) as [[[A D] E2]|[N (s' & e & E2)]];
    [|rewrite (then_err _ _ _ _ _ E2); apply outcome_no; tauto].
  rewrite (then_ok _ _ _ _ E2).
  destruct (data_run u f d s rows ps Hr D) as [[B E3]|[N (s' & e & E3)]];
    [rewrite E3; apply outcome_yes; tauto|rewrite E3; apply outcome_no; tauto].
Qed.

Lemma filled_shows s f d ps : shows_detail (filled (after_detail s f d) d ps []) f d /\
  shows_profile (filled (after_detail s f d) d ps []) d ps.
Proof.
  split; [repeat split|]. unfold shows_profile, filled. pj. rewrite !app_nil_r. repeat split.
Qed.

Lemma flow_station u f t : prints floats t (summary_columns u f) -> 0 < f_cf f ->
  (positive_flow f <-> exists s, new_station floats junk (is_si u) t "" [] = Ok s) /\
  (forall s, new_station floats junk (is_si u) t "" [] = Ok s -> shows_flow s f /\ shows_no_profile s).
Proof.
  intros Ht Hc. unfold new_station.
  destruct (flow_loads_used u f t station0 Ht Hc) as [[P E]|[N (s' & e & E)]]; rewrite E.
  - split; [split; intros; [eexists; reflexivity|exact P]|]. intros s H. injection H as <-.
    split; repeat split.
  - split; [|discriminate]. split; [contradiction|]. intros [s H]. discriminate.
Qed.

Lemma detail_station u f d t t2 rows ps :
  prints floats t (summary_columns u f) -> 0 < f_cf f ->
  prints floats t2 (detail_columns u d) -> t2 <> ""%string ->
  Forall2 (fun t p => prints floats t (profile_columns u p)) rows ps ->
  (positive_flow f /\ agree f d /\ positive_detail d /\ Forall (sample_agrees d) ps <->
   exists s, new_station floats junk (is_si u) t t2 rows = Ok s) /\
  (forall s, new_station floats junk (is_si u) t t2 rows = Ok s ->
   shows_detail s f d /\ shows_profile s d ps).
Proof.
  intros Ht Hc H2 Hne Hr. unfold new_station.
  destruct (detail_loads_used u f d t t2 rows ps station0 Ht Hc H2 Hne Hr) as [[P E]|[N (s' & e & E)]];
    rewrite E.
  - split; [split; intros; [eexists; reflexivity|exact P]|]. intros s H. injection H as <-.
    apply filled_shows.
  - split; [|discriminate]. split; [contradiction|]. intros [s H]. discriminate.
Qed.
End Load.
