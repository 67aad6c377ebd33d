(** A station's contents after [reset] do not depend on what it held before. *)
From Coq Require Import Reals List Bool String Ascii Lia Lra.
From Verif Require Import PyBase PyBaseFacts PyText StanfordModel StanfordSpec StanfordProofs
  StanfordLoadProofs.
Import ListNotations.
Open Scope R_scope.

Definition same (R : station -> station -> Prop) (r1 r2 : station * res unit) : Prop :=
  snd r1 = snd r2 /\ (snd r1 = Ok tt -> R (fst r1) (fst r2)).

(** Equal in these attributes. *)
Definition agree_on (ps : list (station -> xr)) (s1 s2 : station) : Prop :=
  Forall (fun p => p s1 = p s2) ps.

Lemma same_then (R R' : station -> station -> Prop) m1 m2 k1 k2 s1 s2 :
  same R (m1 s1) (m2 s2) -> (forall t1 t2, R t1 t2 -> same R' (k1 t1) (k2 t2)) ->
  same R' ((m1 >> k1) s1) ((m2 >> k2) s2).
Proof.
  unfold andthen. intros [E H] K. destruct (m1 s1) as [t1 [[]|e]], (m2 s2) as [t2 [[]|e']];
  cbn [fst snd] in *; try discriminate.
  - apply K, H. reflexivity.
  - split; [exact E|discriminate].
Qed.

Definition some_fields : list (station -> xr) :=
  [st_x; st_u_e; st_du_e; st_delta_m; st_shape_d; st_shape_k; st_shape_eq; st_c_f; st_c_f_lt;
   st_c_f_exp; st_beta_eq].
Definition sum_fields : list (station -> xr) := [st_u_star; st_delta_k; st_delta_d] ++ some_fields.
Definition all_fields : list (station -> xr) :=
  [st_re_delta_d; st_re_delta_m; st_delta_c; st_nu] ++ sum_fields.

Ltac split_agree H := repeat match type of H with agree_on (_ :: _) _ _ =>
    let h := fresh "A" in apply Forall_cons_iff in H; destruct H as [h H]; cbv beta in h;
    change (agree_on) with (fun ps s1 s2 => Forall (fun p : station -> xr => p s1 = p s2) ps) in H end.
Ltac fields H := unfold agree_on, all_fields, sum_fields, some_fields in H; cbn [app] in H;
  repeat (apply Forall_cons_iff in H; let h := fresh "A" in destruct H as [h H]; cbv beta in h).
Ltac close_fields := unfold agree_on, all_fields, sum_fields, some_fields; cbn [app];
  repeat (apply Forall_cons; [first [assumption|reflexivity]|]); apply Forall_nil.
(** A setter applied to both. *)
Ltac both := intros ? ? H; fields H;
  match goal with |- same _ (?f ?v _) _ => unfold f end;
  try match goal with |- context [xleb ?v (Fin 0)] => destruct (xleb v (Fin 0)) end;
  (split; [reflexivity|cbn [fst snd]; intros _; close_fields]).

Lemma same_check (R : station -> station -> Prop) b s1 s2 : b s1 = b s2 -> R s1 s2 -> same R (check b s1) (check b s2).
Proof.
  intros E H. unfold check. rewrite E. destruct (b s2); (split; [reflexivity|]); [discriminate|].
  intros _. exact H.
Qed.

Lemma same_derive ps s1 s2 : agree_on (ps ++ some_fields) s1 s2 ->
  (forall p, In p ps -> p = st_re_delta_d \/ p = st_re_delta_m \/ p = st_delta_c \/ p = st_nu) ->
  same (agree_on (ps ++ sum_fields)) (derive s1) (derive s2).
Proof.
  intros H Hps. unfold agree_on in H. apply Forall_app in H. destruct H as [Hp H].
  assert (K : forall a b, agree_on sum_fields (fst (derive a)) (fst (derive b)) -> forall q,
     In q ps -> q a = q b -> q (fst (derive a)) = q (fst (derive b))).
  { intros a b _ q Hq E. specialize (Hps q Hq). unfold derive, andthen, set_delta_d, set_delta_k, set_u_star.
    destruct Hps as [-> | [-> | [-> | ->]]];
    repeat match goal with |- context [if xleb ?v (Fin 0) then _ else _] => destruct (xleb v (Fin 0)) end;
    exact E. }
  assert (D : same (agree_on sum_fields) (derive s1) (derive s2)).
  { fields H. unfold derive. unfold same.
    unfold andthen, set_delta_d, set_delta_k, set_u_star. rewrite A2, A3.
    destruct (xleb (st_shape_d s2 * st_delta_m s2)%xr (Fin 0)); [split; [reflexivity|discriminate]|].
    pj. rewrite A2, A4.
    destruct (xleb (st_shape_k s2 * st_delta_m s2)%xr (Fin 0)); [split; [reflexivity|discriminate]|].
    pj. rewrite A0, A6.
    destruct (xleb (st_u_e s2 * xsqrt (Fin (1 / 2) * st_c_f s2))%xr (Fin 0)); [split; [reflexivity|discriminate]|].
    split; [reflexivity|]. intros _. cbn [fst]. close_fields. }
  destruct D as [E D]. split; [exact E|]. intros Ok1. specialize (D Ok1).
  unfold agree_on. apply Forall_app. split; [|exact D].
  rewrite Forall_forall in *. intros q Hq. apply (K _ _ D q Hq). apply Hp. exact Hq.
Qed.

Section History.
Variable floats : string -> option (list xr).
Variable junk : nat -> xr.

Lemma same_summary si t s1 s2 :
  same (agree_on sum_fields) (reset_summary floats si t s1) (reset_summary floats si t s2).
Proof.
  unfold reset_summary.
  destruct (floats t) as [l|]; [|split; [reflexivity|discriminate]].
  do 11 (destruct l as [|? l]; [split; [reflexivity|discriminate]|]).
  destruct l; [|split; [reflexivity|discriminate]].
  assert (H : agree_on some_fields (clear_summary s1) (clear_summary s2)) by close_fields.
  revert H. generalize (clear_summary s1) (clear_summary s2). clear s1 s2.
  do 11 (intros s1 s2 H; apply (same_then (agree_on some_fields)); [revert s1 s2 H; both|clear s1 s2 H]).
  intros s1 s2 H. apply (same_derive [] s1 s2 H). intros p [].
Qed.

Lemma same_station_summary si t s1 s2 : agree_on sum_fields s1 s2 ->
  same (agree_on all_fields) (reset_station_summary floats si t s1) (reset_station_summary floats si t s2).
Proof.
  intros H. unfold reset_station_summary.
  assert (H' : agree_on all_fields (clear_station s1) (clear_station s2)) by (fields H; close_fields).
  clear H. revert H'. generalize (clear_station s1) (clear_station s2). clear s1 s2. intros s1 s2 H.
  apply (same_then (agree_on all_fields)).
  { assert (Hx : st_x s1 = st_x s2) by (fields H; assumption). rewrite Hx.
    destruct (xeqb (st_x s2) PInf).
    - split; [reflexivity|]. intros _. cbn [fst]. fields H. close_fields.
    - apply (same_derive [st_re_delta_d; st_re_delta_m; st_delta_c; st_nu]).
      + fields H. close_fields.
      + intros p [<-|[<-|[<-|[<-|[]]]]]; tauto. }
  clear s1 s2 H. intros s1 s2 H.
  destruct (String.eqb t ""); [split; [reflexivity|intros _; exact H]|].
  destruct (floats t) as [l|]; [|split; [reflexivity|discriminate]].
  do 13 (destruct l as [|? l]; [split; [reflexivity|discriminate]|]).
  destruct l; [|split; [reflexivity|discriminate]].
  revert s1 s2 H.
  do 8 (intros s1 s2 H; apply (same_then (agree_on all_fields));
    [apply same_check; [fields H; congruence|exact H]|clear s1 s2 H]).
  do 2 (intros s1 s2 H; apply (same_then (agree_on all_fields));
    [assert (Hu : st_u_e s1 = st_u_e s2) by (fields H; assumption); rewrite Hu;
     destruct (py_div _ _); [apply same_check; [reflexivity|exact H]|split; [reflexivity|discriminate]]
    |clear s1 s2 H]).
  intros s1 s2 H; apply (same_then (agree_on all_fields));
    [apply same_check; [fields H; congruence|exact H]|clear s1 s2 H].
  do 12 (intros s1 s2 H; apply (same_then (agree_on all_fields)); [revert s1 s2 H; both|clear s1 s2 H]).
  both.
Qed.

Lemma same_everything s1 s2 : agree_on all_fields s1 s2 ->
  forall e, with_sa_u_defect (with_sa_y_c (with_sa_u (with_sa_y (with_sa_u_plus (with_sa_y_plus s1
    e) e) e) e) e) e = with_sa_u_defect (with_sa_y_c (with_sa_u (with_sa_y (with_sa_u_plus
    (with_sa_y_plus s2 e) e) e) e) e) e.
Proof.
  intros H e. fields H. destruct s1, s2.
  cbn in *.
  subst. reflexivity.
Qed.

Lemma reset_history si a b rows s1 s2 :
  snd (reset floats junk si a b rows s1) = snd (reset floats junk si a b rows s2) /\
  (snd (reset floats junk si a b rows s1) = Ok tt ->
   fst (reset floats junk si a b rows s1) = fst (reset floats junk si a b rows s2)).
Proof.
  change (same eq (reset floats junk si a b rows s1) (reset floats junk si a b rows s2)).
  unfold reset. apply (same_then (agree_on sum_fields)); [apply same_summary|]. intros t1 t2 H.
  apply (same_then (agree_on all_fields)); [apply same_station_summary; exact H|]. clear t1 t2 H.
  intros t1 t2 H. unfold reset_station_data. rewrite (same_everything _ _ H).
  split; [reflexivity|]. intros _. reflexivity.
Qed.

Lemma reset_as_new si a b rows s :
  (forall s', reset floats junk si a b rows s = (s', Ok tt) <-> new_station floats junk si a b rows = Ok s') /\
  (forall e, snd (reset floats junk si a b rows s) = Err e <-> new_station floats junk si a b rows = Err e).
Proof.
  destruct (reset_history si a b rows s station0) as [E H]. unfold new_station.
  destruct (reset floats junk si a b rows s) as [s1 [[]|e]],
           (reset floats junk si a b rows station0) as [s2 [[]|e']]; cbn [fst snd] in *;
    try discriminate.
  - specialize (H eq_refl). subst. split; [|split; discriminate]. intros s'. split; intros K; injection K as ->; reflexivity.
  - injection E as ->. split; [split; discriminate|]. intros e. split; intros K; injection K as ->; reflexivity.
Qed.

(* ------------------------------------------------------------------ *)
(** * Derived quantities without a station line *)

Lemma derive_derived s s' : derive s = (s', Ok tt) -> derived s' /\ st_x s' = st_x s.
Proof.
  unfold derive, andthen, set_delta_d, set_delta_k, set_u_star.
  destruct (xleb (st_shape_d s * st_delta_m s)%xr (Fin 0)); [discriminate|]. pj.
  destruct (xleb (st_shape_k s * st_delta_m s)%xr (Fin 0)); [discriminate|]. pj.
  destruct (xleb (st_u_e s * xsqrt (Fin (1 / 2) * st_c_f s))%xr (Fin 0)); [discriminate|].
  intros H. injection H as <-. repeat split.
Qed.

(** [sample] and [samples] write arrays only. *)
Lemma samples_keep (P : station -> Prop) si rows :
  (forall s v, P s -> P (with_sa_y_plus s v)) -> (forall s v, P s -> P (with_sa_u_plus s v)) ->
  (forall s v, P s -> P (with_sa_y s v)) -> (forall s v, P s -> P (with_sa_u s v)) ->
  (forall s v, P s -> P (with_sa_y_c s v)) -> (forall s v, P s -> P (with_sa_u_defect s v)) ->
  forall i, keeps P (samples floats si i rows).
Proof.
  intros H1 H2 H3 H4 H5 H6. induction rows as [|r rows IH]; intros i s H; [exact H|].
  cbn [samples]. revert s H. apply keeps_then; [|apply IH].
  intros s H. unfold sample. destruct (floats r) as [l|]; [|exact H].
  do 6 (destruct l as [|? l]; [exact H|]). destruct l; [|exact H].
  match goal with |- P (fst (?m s)) => assert (K : keeps P m) end.
  { do 4 (apply keeps_then; [apply keeps_check|]).
    apply keeps_then; [intros s0 H0; apply H1; exact H0|].
    apply keeps_then; [intros s0 H0; apply H2; exact H0|].
    apply keeps_then; [intros s0 H0; apply H3; exact H0|].
    apply keeps_then; [intros s0 H0; apply H4; exact H0|].
    apply keeps_then; [intros s0 H0; apply H5; exact H0|].
    intros s0 H0; apply H6; exact H0. }
  apply K. exact H.
Qed.

Lemma no_detail_step si s1 s2 : reset_station_summary floats si "" s1 = (s2, Ok tt) ->
  st_x s2 <> PInf -> derived s2.
Proof.
  unfold reset_station_summary, andthen. destruct (xeqb (st_x (clear_station s1)) PInf) eqn:X.
  - cbn [String.eqb]. intros H. injection H as <-. pj. revert X. pj.
    destruct (st_x s1); try discriminate. intros _ C. contradiction C. reflexivity.
  - destruct (derive (clear_station s1)) as [s3 [[]|e]] eqn:D; [|discriminate].
    cbn [String.eqb]. intros H. injection H as <-. intros _. apply (derive_derived _ _ D).
Qed.

Lemma derived_no_detail si a rows s : new_station floats junk si a "" rows = Ok s ->
  st_x s <> PInf -> derived s.
Proof.
  unfold new_station, reset, andthen.
  destruct (reset_summary floats si a station0) as [s1 [[]|e]]; [|discriminate].
  destruct (reset_station_summary floats si "" s1) as [s2 [[]|e]] eqn:D; [|discriminate].
  pose proof (no_detail_step _ _ _ D) as Q. unfold reset_station_data.
  set (P := fun s => st_x s <> PInf -> derived s).
  match goal with |- context [samples floats si 0 rows ?x] =>
    assert (K : P (fst (samples floats si 0 rows x))) end.
  { apply samples_keep; try (intros ? ? H; exact H). exact Q. }
  destruct (samples floats si 0 rows _) as [s3 [[]|e]]; [|discriminate].
  intros H. injection H as <-. exact K.
Qed.

End History.

(* ------------------------------------------------------------------ *)
(** * Rows of the wrong shape *)

Section Columns.
Variable floats : string -> option (list xr).
Variable junk : nat -> xr.

Notation columns t n := (has_columns floats t n).

Lemma summary_columns_needed si t s s' : reset_summary floats si t s = (s', Ok tt) -> columns t 11.
Proof.
  unfold reset_summary, has_columns. destruct (floats t) as [l|]; [|discriminate].
  do 11 (destruct l as [|? l]; [discriminate|]). destruct l; [|discriminate].
  intros _. eexists. split; reflexivity.
Qed.
Lemma station_columns_needed si t s s' : reset_station_summary floats si t s = (s', Ok tt) ->
  t = ""%string \/ columns t 13.
Proof.
  unfold reset_station_summary. unfold andthen at 1.
  destruct (if xeqb _ _ then _ else _) as [s1 [[]|e]]; [|discriminate].
  destruct (String.eqb_spec t "") as [->|]; [left; reflexivity|]. unfold has_columns.
  destruct (floats t) as [l|]; [|discriminate].
  do 13 (destruct l as [|? l]; [discriminate|]). destruct l; [|discriminate].
  intros _. right. eexists. split; reflexivity.
Qed.
Lemma samples_columns_needed si rows : forall i s s', samples floats si i rows s = (s', Ok tt) ->
  Forall (fun t => columns t 6) rows.
Proof.
  induction rows as [|r rows IH]; intros i s s'; [constructor|]. cbn [samples]. unfold andthen.
  destruct (sample floats si i r s) as [s1 [[]|e]] eqn:E; [|discriminate].
  intros H. constructor; [|exact (IH _ _ _ H)]. revert E. unfold sample, has_columns.
  destruct (floats r) as [l|]; [|discriminate].
  do 6 (destruct l as [|? l]; [discriminate|]). destruct l; [|discriminate].
  intros _. eexists. split; reflexivity.
Qed.

Lemma new_columns si a b rows s : new_station floats junk si a b rows = Ok s ->
  columns a 11 /\ (b = ""%string \/ columns b 13) /\ Forall (fun t => columns t 6) rows.
Proof.
  unfold new_station, reset. unfold andthen.
  destruct (reset_summary floats si a station0) as [s1 [[]|e]] eqn:E1; [|discriminate].
  destruct (reset_station_summary floats si b s1) as [s2 [[]|e]] eqn:E2; [|discriminate].
  unfold reset_station_data. destruct (samples floats si 0 rows _) as [s3 [[]|e]] eqn:E3; [|discriminate].
  intros _. split; [exact (summary_columns_needed _ _ _ _ E1)|].
  split; [exact (station_columns_needed _ _ _ _ E2)|exact (samples_columns_needed _ _ _ _ _ E3)].
Qed.

Lemma smooth_columns si rows m : new_smooth floats si rows = Ok m -> Forall (fun t => columns t 3) rows.
Proof.
  revert m. induction rows as [|r rows IH]; intros m; [constructor|]. cbn [new_smooth].
  unfold smooth_row, has_columns. destruct (floats r) as [l|] eqn:E; [|discriminate].
  do 3 (destruct l as [|? l]; [discriminate|]). destruct l; [|discriminate]. cbn [bind].
  destruct (new_smooth floats si rows) as [m'|]; [|discriminate]. intros _.
  constructor; [exists [x; x0; x1]; split; [exact E|reflexivity]|]. exact (IH m' eq_refl).
Qed.
End Columns.

(* ------------------------------------------------------------------ *)
(** * How far the station line can be from the derived values *)

Lemma product_close a b a0 b0 c t da db : 0 < a -> 0 < b0 ->
  Rabs (c - a0 * b0) < t -> Rabs (a - a0) < da -> Rabs (b - b0) < db ->
  Rabs (c - a * b) < t + da * (b + db) + db * a.
Proof.
  intros Ha Hb H1 H2 H3.
  replace (c - a * b) with ((c - a0 * b0) + ((a0 - a) * b0 + a * (b0 - b))) by ring.
  eapply Rle_lt_trans; [apply Rabs_triang|].
  assert (X : Rabs ((a0 - a) * b0 + a * (b0 - b)) <= da * (b + db) + db * a).
  { eapply Rle_trans; [apply Rabs_triang|]. rewrite !Rabs_mult, (Rabs_pos_eq b0), (Rabs_pos_eq a) by lra.
    rewrite (Rabs_minus_sym a0), (Rabs_minus_sym b0).
    assert (b0 < b + db).
    { pose proof (Rle_abs (b0 - b)) as Q. rewrite Rabs_minus_sym in Q. lra. }
    assert (0 <= Rabs (a - a0)) by apply Rabs_pos. 
    apply Rplus_le_compat.
    - apply Rmult_le_compat; lra.
    - rewrite Rmult_comm. apply Rmult_le_compat_r; lra. }
  lra.
Qed.
Lemma scaled_close a a0 k c t da : 0 <= k ->
  Rabs (c - a0 * k) < t -> Rabs (a - a0) < da -> Rabs (c - a * k) < t + da * k.
Proof.
  intros Hk H1 H2. replace (c - a * k) with ((c - a0 * k) + (a0 - a) * k) by ring.
  eapply Rle_lt_trans; [apply Rabs_triang|]. rewrite Rabs_mult, (Rabs_pos_eq k) by exact Hk.
  rewrite (Rabs_minus_sym a0). assert (Rabs (a - a0) * k <= da * k) by (apply Rmult_le_compat_r; lra). lra.
Qed.

Lemma agree_close f d : positive_flow f -> agree f d -> positive_detail d -> close_to_derived f d.
Proof.
  intros (Fu & Ft & Fh & Fs & Fg) (A1 & A2 & A3 & A4 & A5 & A6 & A7 & A8 & A9 & A10 & A11)
    (P1 & P2 & P3 & P4 & P5 & P6 & P7 & P8 & P9 & P10 & P11 & P12).
  unfold close_to_derived. repeat apply conj.
  - pose proof (product_close _ _ _ _ _ _ _ _ P8 Ft A7 A4 A3). lra.
  - pose proof (product_close _ _ _ _ _ _ _ _ P10 Ft A8 A5 A3). lra.
  - apply scaled_close with (f_u_e f); [apply sqrt_pos|exact A11|exact A2].
  - unfold Rdiv in *. rewrite Rmult_assoc in *. apply scaled_close with (f_u_e f); [|exact A9|exact A2].
    left. apply Rmult_lt_0_compat; [assumption|apply Rinv_0_lt_compat; assumption].
  - unfold Rdiv in *. rewrite Rmult_assoc in *. apply scaled_close with (f_u_e f); [|exact A10|exact A2].
    left. apply Rmult_lt_0_compat; [assumption|apply Rinv_0_lt_compat; assumption].
Qed.
