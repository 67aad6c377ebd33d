From Coq Require Import Reals List Lra Lia.
From Coquelicot Require Import Coquelicot.
From Verif Require Import PPolyModel.
Import ListNotations.
Open Scope R_scope.

(** Well-formed: at least one interval, one more breakpoint than columns, increasing. *)
Fixpoint pp_wf_aux (xs : list R) (cs : list (list R)) : Prop :=
  match xs, cs with
  | x0 :: xs', c :: cs' =>
      match xs' with
      | x1 :: _ => x0 < x1 /\ match cs' with [] => xs' = [x1] | _ => pp_wf_aux xs' cs' end
      | [] => False
      end
  | _, _ => False
  end.
Definition pp_wf (p : ppoly) : Prop := pp_wf_aux (pp_x p) (pp_c p).

(** The pieces agree at every interior breakpoint. *)
Fixpoint pp_cont_aux (xs : list R) (cs : list (list R)) : Prop :=
  match xs, cs with
  | x0 :: xs', c :: cs' =>
      match xs', cs' with
      | x1 :: _, c' :: _ => horner c (x1 - x0) = horner c' 0 /\ pp_cont_aux xs' cs'
      | _, _ => True
      end
  | _, _ => True
  end.
Definition pp_continuous (p : ppoly) : Prop := pp_cont_aux (pp_x p) (pp_c p).

(* --- Horner --- *)
Lemma horner_acc c t acc :
  fold_left (fun acc a => acc * t + a) c acc = acc * t ^ length c + horner c t.
Proof.
  unfold horner. revert acc. induction c as [|a c IH]; intros acc; cbn [fold_left length pow].
  - ring.
  - rewrite IH, (IH (0 * t + a)). ring.
Qed.
Lemma horner_nil t : horner [] t = 0. Proof. reflexivity. Qed.
Lemma horner_cons a c t : horner (a :: c) t = a * t ^ length c + horner c t.
Proof. unfold horner at 1. cbn [fold_left]. rewrite horner_acc. ring. Qed.
Lemma horner_snoc c v t : horner (c ++ [v]) t = horner c t * t + v.
Proof. unfold horner. rewrite fold_left_app. reflexivity. Qed.

Lemma horner_add_last c v t : c <> [] -> horner (col_add_last c v) t = horner c t + v.
Proof.
  induction c as [|a c IH]; [congruence|]. intros _. destruct c as [|b c].
  - unfold horner; cbn. ring.
  - change (col_add_last (a :: b :: c) v) with (a :: col_add_last (b :: c) v).
    rewrite horner_cons, IH by discriminate. rewrite (horner_cons a).
    replace (length (col_add_last (b :: c) v)) with (length (b :: c)); [ring|].
    clear. revert b. induction c as [|d c IH]; intros b; [reflexivity|].
    change (col_add_last (b :: d :: c) v) with (b :: col_add_last (d :: c) v).
    cbn [length]. f_equal. apply IH.
Qed.

Lemma horner_is_derive c t : is_derive (horner c) t (horner (col_deriv c) t).
Proof.
  induction c as [|a c IH].
  - apply (is_derive_ext (fun _ => 0)); [reflexivity|]. rewrite horner_nil.
    apply @is_derive_const.
  - apply (is_derive_ext (fun t => a * t ^ length c + horner c t)).
    { intros u. symmetry. apply horner_cons. }
    destruct c as [|b c].
    + cbn [length pow col_deriv]. rewrite horner_nil.
      apply (is_derive_ext (fun _ => a)); [intros u; rewrite horner_nil, Rmult_1_r, Rplus_0_r; reflexivity|].
      apply @is_derive_const.
    + change (col_deriv (a :: b :: c)) with (INR (length (b :: c)) * a :: col_deriv (b :: c)).
      rewrite horner_cons.
      replace (length (col_deriv (b :: c))) with (length c).
      2:{ clear. revert b. induction c as [|d c IH]; intros b; [reflexivity|].
          change (col_deriv (b :: d :: c)) with (INR (length (d :: c)) * b :: col_deriv (d :: c)).
          cbn [length]. f_equal. apply IH. }
      apply @is_derive_plus; [|exact IH].
      change (length (b :: c)) with (S (length c)). generalize (length c). intros n.
      apply is_derive_Reals.
      replace (INR (S n) * a * t ^ n) with (a * (INR (S n) * t ^ (pred (S n)))) by (simpl pred; ring).
      apply derivable_pt_lim_scal. apply derivable_pt_lim_pow.
Qed.

Lemma horner_integ_derive c t v : is_derive (horner (col_integ c ++ [v])) t (horner c t).
Proof.
  assert (E : col_deriv (col_integ c ++ [v]) = c).
  { induction c as [|a c IH]; [reflexivity|].
    change (col_integ (a :: c)) with (a / INR (S (length c)) :: col_integ c).
    cbn [app]. remember (col_integ c ++ [v]) as w eqn:Ew.
    assert (Lw : length w = S (length c)).
    { subst w. rewrite app_length. cbn [length]. rewrite Nat.add_1_r. f_equal.
      clear. induction c; cbn; congruence. }
    destruct w as [|b w]; [discriminate|].
    change (col_deriv (a / INR (S (length c)) :: b :: w))
      with (INR (length (b :: w)) * (a / INR (S (length c))) :: col_deriv (b :: w)).
    rewrite IH, Lw. f_equal. field. apply not_0_INR. lia. }
  pose proof (horner_is_derive (col_integ c ++ [v]) t) as H. rewrite E in H. exact H.
Qed.

(* --- gluing --- *)
Lemma glue_derive (f g f' g' : R -> R) (a : R) :
  f a = g a -> f' a = g' a ->
  (forall x, x <= a -> is_derive f x (f' x)) -> (forall x, a <= x -> is_derive g x (g' x)) ->
  forall x : R, is_derive (fun x : R => if Rlt_dec x a then f x else g x) x
                      (if Rlt_dec x a then f' x else g' x).
Proof.
  intros E E' Hf Hg x. destruct (Rlt_dec x a) as [H|H].
  - apply (is_derive_ext_loc f).
    + exists (mkposreal (a - x) ltac:(lra)). intros y Hy. simpl in Hy.
      unfold ball in Hy; simpl in Hy. unfold AbsRing_ball, abs, minus, plus, opp in Hy; simpl in Hy.
      apply Rabs_def2 in Hy. destruct (Rlt_dec y a); [reflexivity|lra].
    + apply Hf; lra.
  - destruct (Req_dec x a) as [->|Hne].
    2:{ apply (is_derive_ext_loc g).
        - exists (mkposreal (x - a) ltac:(lra)). intros y Hy. simpl in Hy.
          unfold ball in Hy; simpl in Hy. unfold AbsRing_ball, abs, minus, plus, opp in Hy; simpl in Hy.
          apply Rabs_def2 in Hy. destruct (Rlt_dec y a); [lra|reflexivity].
        - apply Hg; lra. }
    apply is_derive_Reals. specialize (Hf a ltac:(lra)). specialize (Hg a ltac:(lra)).
    rewrite E' in Hf. apply is_derive_Reals in Hf. apply is_derive_Reals in Hg.
    intros eps Heps. destruct (Hf eps Heps) as [d1 H1]. destruct (Hg eps Heps) as [d2 H2].
    exists (mkposreal (Rmin d1 d2) (Rmin_stable_in_posreal d1 d2)).
    intros h Hh Hd. simpl in Hd.
    destruct (Rlt_dec a a) as [?|_]; [lra|].
    destruct (Rlt_dec (a + h) a) as [Hs|Hs].
    + rewrite <- E. apply H1; [exact Hh|]. eapply Rlt_le_trans; [exact Hd|apply Rmin_l].
    + apply H2; [exact Hh|]. eapply Rlt_le_trans; [exact Hd|apply Rmin_r].
Qed.

(** Value of a well-formed piecewise polynomial at its own first breakpoint. *)
Lemma eval_first x0 xs c cs :
  pp_wf_aux (x0 :: xs) (c :: cs) -> pp_eval_aux (x0 :: xs) (c :: cs) x0 = horner c 0.
Proof.
  intros W. cbn [pp_wf_aux] in W. destruct xs as [|x1 xs]; [contradiction|].
  destruct W as [Hlt W]. cbn [pp_eval_aux].
  destruct cs as [|c' cs].
  - f_equal; ring.
  - destruct (Rlt_dec x0 x1); [f_equal; ring|lra].
Qed.

(** If [ds] are the columnwise derivatives of [cs] and both are continuous at the
    breakpoints, evaluation of [cs] is differentiable everywhere with derivative [ds]. *)
Lemma pp_derive_general xs cs ds :
  Forall2 (fun c d => forall t, is_derive (horner c) t (horner d t)) cs ds ->
  pp_wf_aux xs cs -> pp_wf_aux xs ds -> pp_cont_aux xs cs -> pp_cont_aux xs ds ->
  forall x, is_derive (pp_eval_aux xs cs) x (pp_eval_aux xs ds x).
Proof.
  intros HF. revert xs. induction HF as [|c d cs ds Hcd HF IH]; intros xs Wc Wd Cc Cd x.
  - destruct xs; contradiction.
  - destruct xs as [|x0 [|x1 xs]]; try contradiction.
    assert (Hpiece : forall y, is_derive (fun y => horner c (y - x0)) y (horner d (y - x0))).
    { intros y. pose proof (Hcd (y - x0)) as Hy.
      pose proof (is_derive_comp (horner c) (fun y => y - x0) y (horner d (y - x0)) 1 Hy) as G.
      unfold scal in G; simpl in G; unfold mult in G; simpl in G. rewrite Rmult_1_l in G.
      apply G. auto_derive; [trivial|ring]. }
    destruct HF as [|c' d' cs ds Hcd' HF].
    + apply (is_derive_ext (fun y => horner c (y - x0))); [reflexivity|]. apply Hpiece.
    + change (pp_eval_aux (x0 :: x1 :: xs) (d :: d' :: ds) x)
        with (if Rlt_dec x x1 then horner d (x - x0) else pp_eval_aux (x1 :: xs) (d' :: ds) x).
      destruct Wc as [L Wc]. destruct Wd as [_ Wd].
      destruct Cc as [E Cc]. destruct Cd as [E' Cd].
      apply (is_derive_ext
        (fun x => if Rlt_dec x x1 then horner c (x - x0) else pp_eval_aux (x1 :: xs) (c' :: cs) x));
        [reflexivity|].
      apply (glue_derive (fun y => horner c (y - x0)) (pp_eval_aux (x1 :: xs) (c' :: cs))
               (fun y => horner d (y - x0)) (pp_eval_aux (x1 :: xs) (d' :: ds)) x1).
      * rewrite eval_first by exact Wc. exact E.
      * rewrite eval_first by exact Wd. exact E'.
      * intros y _. apply Hpiece.
      * intros y _. apply IH; assumption.
Qed.

(* --- derivative --- *)
Lemma wf_map f xs cs : pp_wf_aux xs cs -> pp_wf_aux xs (map f cs).
Proof.
  revert xs. induction cs as [|c cs IH]; intros xs; [destruct xs; intros []|].
  destruct xs as [|x0 [|x1 xs]]; cbn [map]; try (intros H; exact H).
  cbn [pp_wf_aux]. intros [L W]. split; [exact L|].
  destruct cs as [|c' cs]; [exact W|]. exact (IH (x1 :: xs) W).
Qed.

Theorem pp_derivative_correct p :
  pp_wf p -> pp_continuous p -> pp_continuous (pp_derivative p) ->
  forall x, is_derive (pp_eval p) x (pp_eval (pp_derivative p) x).
Proof.
  intros W C C' x. unfold pp_eval. apply pp_derive_general; try assumption.
  - cbn [pp_derivative pp_c]. induction (pp_c p) as [|c cs IH]; cbn [map]; constructor; auto.
    intros t. apply horner_is_derive.
  - apply wf_map. exact W.
Qed.

(* --- antiderivative --- *)
Lemma add_last_snoc c s v : col_add_last (c ++ [s]) v = c ++ [s + v].
Proof.
  induction c as [|a c IH]; [reflexivity|].
  cbn [app]. remember (c ++ [s]) as w. destruct w as [|b w]; [destruct c; discriminate|].
  change (col_add_last (a :: b :: w) v) with (a :: col_add_last (b :: w) v).
  rewrite IH. reflexivity.
Qed.

Lemma antideriv_cons s x0 x1 xs c cs :
  antideriv_cols s (x0 :: x1 :: xs) (c :: cs)
  = (col_integ c ++ [s])
    :: antideriv_cols (horner (col_integ c ++ [s]) (x1 - x0)) (x1 :: xs) cs.
Proof. reflexivity. Qed.

Lemma shift_antideriv v s xs cs :
  map (fun c => col_add_last c v) (antideriv_cols s xs cs) = antideriv_cols (s + v) xs cs.
Proof.
  revert s xs. induction cs as [|c cs IH]; intros s xs; [destruct xs; reflexivity|].
  destruct xs as [|x0 [|x1 xs]]; [reflexivity| |].
  - cbn [antideriv_cols map]. rewrite add_last_snoc. reflexivity.
  - rewrite !antideriv_cons. cbn [map]. rewrite add_last_snoc, IH, !horner_snoc.
    do 2 f_equal. ring.
Qed.

Lemma antideriv_wf s xs cs : pp_wf_aux xs cs -> pp_wf_aux xs (antideriv_cols s xs cs).
Proof.
  revert s xs. induction cs as [|c cs IH]; intros s xs; [destruct xs; intros []|].
  destruct xs as [|x0 [|x1 xs]]; try (intros H; exact H).
  cbn [pp_wf_aux]. intros [L W]. rewrite antideriv_cons. cbn [pp_wf_aux]. split; [exact L|].
  destruct cs as [|c' cs].
  - injection W as ->. reflexivity.
  - pose proof (IH (horner (col_integ c ++ [s]) (x1 - x0)) (x1 :: xs) W) as G.
    destruct xs as [|x2 xs]; [destruct W|]. exact G.
Qed.

Lemma antideriv_cont s xs cs : pp_wf_aux xs cs -> pp_cont_aux xs (antideriv_cols s xs cs).
Proof.
  revert s xs. induction cs as [|c cs IH]; intros s xs; [destruct xs; intros []|].
  destruct xs as [|x0 [|x1 xs]]; try (intros []; fail).
  cbn [pp_wf_aux]. intros [L W]. rewrite antideriv_cons.
  destruct cs as [|c' cs].
  - injection W as ->. exact I.
  - specialize (IH (horner (col_integ c ++ [s]) (x1 - x0)) (x1 :: xs) W).
    destruct xs as [|x2 xs]; [destruct W|].
    rewrite antideriv_cons in IH |- *. split; [|exact IH].
    rewrite (horner_snoc (col_integ c')). ring.
Qed.

Lemma antideriv_forall2 s xs cs : pp_wf_aux xs cs ->
  Forall2 (fun c d => forall t, is_derive (horner c) t (horner d t)) (antideriv_cols s xs cs) cs.
Proof.
  revert s xs. induction cs as [|c cs IH]; intros s xs; [destruct xs; intros []|].
  destruct xs as [|x0 [|x1 xs]]; try (intros []; fail).
  cbn [pp_wf_aux]. intros [L W]. rewrite antideriv_cons.
  constructor; [intros t; apply horner_integ_derive|].
  destruct cs as [|c' cs].
  - injection W as ->. constructor.
  - exact (IH _ (x1 :: xs) W).
Qed.

(** The velocity built from a start value and derivative points. *)
Lemma pp_velocity_correct p v :
  pp_wf p -> pp_continuous p ->
  let q := pp_shift (pp_antiderivative p) v in
  pp_eval q (hd 0 (pp_x p)) = v /\
  (forall x, is_derive (pp_eval q) x (pp_eval p x)).
Proof.
  intros W C q. unfold q, pp_eval, pp_shift, pp_antiderivative, pp_wf, pp_continuous in *.
  cbn [pp_x pp_c]. rewrite shift_antideriv, Rplus_0_l. split.
  - pose proof (antideriv_wf v _ _ W) as W'.
    destruct p as [[|x0 [|x1 xs]] [|c cs]]; cbn [pp_x pp_c hd] in *; try contradiction.
    remember (antideriv_cols v (x0 :: x1 :: xs) (c :: cs)) as l eqn:El.
    destruct l as [|c0 l]; [contradiction|]. rewrite eval_first by exact W'.
    cbn [antideriv_cols] in El. injection El as -> _. rewrite horner_snoc. ring.
  - apply pp_derive_general; try assumption.
    + apply antideriv_forall2; exact W.
    + apply antideriv_wf; exact W.
    + apply antideriv_cont; exact W.
Qed.
