From Coq Require Import Reals List Lra Lia QArith Qreals Sorted.
From Coquelicot Require Import Coquelicot.
From Verif Require Import PyBase PyBaseFacts XDeriv PPolyModel PPolyProofs ThwaitesFitsModel
  ThwaitesFitsProofs SplineSpec.
Import ListNotations.
Open Scope R_scope.

(* ------------------------------------------------------------------ *)
(** * Tridiagonal systems *)

(** Row (l, d, u, b): l*s_{i-1} + d*s_i + u*s_{i+1} = b. *)
Definition row := (Q * Q * Q * Q)%type.
Fixpoint sat (sp : R) (rows : list row) (s : list R) : Prop :=
  match rows, s with
  | [], [] => True
  | (l, d, u, b) :: rows', si :: s' =>
      Q2R l * sp + Q2R d * si + Q2R u * hd 0 s' = Q2R b /\ sat si rows' s'
  | _, _ => False
  end.

Fixpoint elim (al be : Q) (rows : list row) : list Q :=
  match rows with
  | [] => []
  | (l, d, u, b) :: t =>
      let p := Qred (d - l * be) in
      let al' := Qred ((b - l * al) / p) in
      let be' := Qred (u / p) in
      let rest := elim al' be' t in
      Qred (al' - be' * hd 0%Q rest) :: rest
  end.
Fixpoint pivots (be : Q) (rows : list row) : bool :=
  match rows with
  | [] => true
  | (l, d, u, _) :: t =>
      let p := Qred (d - l * be) in
      negb (Qeq_bool p 0) && pivots (Qred (u / p)) t
  end.

Lemma Q2R_red q : Q2R (Qred q) = Q2R q.
Proof. apply Qeq_eqR, Qred_correct. Qed.
Lemma Q2R_0' : Q2R 0 = 0. Proof. unfold Q2R. cbn. lra. Qed.
Lemma Q2R_neq0 q : ~ (q == 0)%Q -> Q2R q <> 0.
Proof. intros H E. apply H. apply eqR_Qeq. rewrite E, Q2R_0'. reflexivity. Qed.
Lemma hd_map_Q2R l : hd 0 (map Q2R l) = Q2R (hd 0%Q l).
Proof. destruct l; [symmetry; apply Q2R_0'|reflexivity]. Qed.

Lemma elim_correct rows : forall al be sp s,
  pivots be rows = true -> sp = Q2R al - Q2R be * hd 0 s -> sat sp rows s ->
  s = map Q2R (elim al be rows).
Proof.
  induction rows as [|[[[l d] u] b] t IH]; intros al be sp s HP Hsp HS.
  - destruct s; [reflexivity|contradiction].
  - destruct s as [|si s]; [contradiction|]. cbn [sat hd] in *. destruct HS as [E HS].
    cbn [pivots] in HP. apply andb_prop in HP. destruct HP as [HP0 HP].
    set (p := Qred (d - l * be)) in *.
    assert (Hp : ~ (p == 0)%Q).
    { intros C. rewrite (Qeq_eq_bool _ _ C) in HP0. discriminate. }
    assert (Ep : Q2R p = Q2R d - Q2R l * Q2R be).
    { unfold p. rewrite Q2R_red, Q2R_minus, Q2R_mult. reflexivity. }
    pose proof (Q2R_neq0 _ Hp) as Hp'.
    assert (Hs : si = Q2R (Qred ((b - l * al) / p)) - Q2R (Qred (u / p)) * hd 0 s).
    { rewrite !Q2R_red, !Q2R_div, Q2R_minus, Q2R_mult by exact Hp.
      apply (Rmult_eq_reg_l (Q2R p)); [|exact Hp'].
      transitivity (Q2R b - Q2R l * Q2R al - Q2R u * hd 0 s); [|field; exact Hp'].
      rewrite Ep. rewrite <- E, Hsp. ring. }
    pose proof (IH _ _ _ _ HP Hs HS) as Es.
    cbn [elim]. cbv zeta. fold p. cbn [map]. f_equal; [|exact Es].
    rewrite Hs at 1. rewrite Es. rewrite hd_map_Q2R.
    set (al' := Qred ((b - l * al) / p)). set (be' := Qred (u / p)).
    rewrite (Q2R_red (al' - _)), Q2R_minus, Q2R_mult. reflexivity.
Qed.

(* ------------------------------------------------------------------ *)
(** * Recursive form of the specification *)

Fixpoint cub (xs ys : list R) (cs : list (list R)) : Prop :=
  match cs with
  | [] => match xs, ys with [_], [_] => True | _, _ => False end
  | c :: cs' =>
      match xs, ys with
      | x0 :: x1 :: _, y0 :: y1 :: _ =>
          x0 < x1 /\ length c = 4%nat /\ horner c 0 = y0 /\ horner c (x1 - x0) = y1 /\
          match cs' with d :: _ => joined c d (x1 - x0) | [] => True end /\
          cub (tl xs) (tl ys) cs'
      | _, _ => False
      end
  end.

Lemma eval_at_knots xs : forall cs, pp_wf_aux xs cs ->
  (forall i x c, nth_error xs i = Some x -> nth_error cs i = Some c ->
     pp_eval_aux xs cs x = horner c 0) /\
  (forall c x0 x1 xr cr, xs = xr ++ [x0; x1] -> cs = cr ++ [c] ->
     pp_eval_aux xs cs x1 = horner c (x1 - x0)).
Proof.
  induction xs as [|x0 xs IH]; intros cs W; [contradiction|].
  destruct cs as [|c cs]; [contradiction|]. destruct xs as [|x1 xs]; [contradiction|].
  destruct W as [Hlt W]. destruct cs as [|c' cs].
  - injection W as ->. split.
    + intros [|i] x d Hx Hc; cbn in Hx, Hc; [|destruct i; discriminate].
      injection Hx as ->. injection Hc as ->. cbn [pp_eval_aux]. f_equal; ring.
    + intros d a b xr cr E1 E2. destruct cr as [|? [|? ?]]; try discriminate.
      injection E2 as ->. destruct xr as [|? [|? [|? ?]]]; try discriminate.
      injection E1 as -> ->. reflexivity.
  - pose proof W as W'. destruct (IH _ W) as [IH1 IH2]. cbn [pp_eval_aux]. split.
    + intros [|i] x d Hx Hc; cbn in Hx, Hc.
      * injection Hx as ->. injection Hc as ->. destruct (Rlt_dec x x1); [f_equal; ring|lra].
      * destruct (Rlt_dec x x1) as [C|_]; [exfalso|exact (IH1 i x d Hx Hc)].
        assert (HG : forall l ds j z, pp_wf_aux (x1 :: l) ds -> nth_error (x1 :: l) j = Some z -> x1 <= z).
        { clear. intros l ds j z. revert x1 ds z j. induction l as [|b l IHl]; intros x1 ds z j W H.
          - destruct j as [|[|j]]; cbn in H; try discriminate. injection H as ->. lra.
          - destruct ds as [|e ds]; [contradiction|]. destruct W as [L W].
            destruct j as [|j]; cbn in H; [injection H as ->; lra|].
            destruct ds as [|e' ds].
            + injection W as ->. destruct j as [|[|j]]; cbn in H; try discriminate.
              injection H as ->. lra.
            + pose proof (IHl b _ z j W H). lra. }
        pose proof (HG _ _ i x W' Hx). lra.
    + intros d a b xr cr E1 E2.
      destruct cr as [|e cr]; [discriminate|]. injection E2 as -> E2.
      destruct xr as [|q xr].
      { injection E1 as -> -> E1. subst xs. cbn in W'. destruct W' as []. }
      injection E1 as -> E1.
      destruct (Rlt_dec b x1) as [C|_]; [exfalso|exact (IH2 d a b xr cr E1 E2)].
      assert (HG : forall l ds z, pp_wf_aux (x1 :: l) ds -> In z (x1 :: l) -> x1 <= z).
      { clear. intros l. revert x1. induction l as [|b l IHl]; intros x1 ds z W H.
        - destruct H as [->|[]]. lra.
        - destruct ds as [|e ds]; [contradiction|]. destruct W as [L W].
          destruct H as [->|H]; [lra|].
          destruct ds as [|e' ds].
          + injection W as ->. destruct H as [->|[]]. lra.
          + pose proof (IHl b _ z W H). lra. }
      assert (x1 <= b); [|lra]. apply (HG _ _ b W'). rewrite E1. apply in_or_app. right. right. left. reflexivity.
Qed.

Lemma sorted_wf xs : forall cs : list (list R), StronglySorted Rlt xs -> S (length cs) = length xs ->
  (2 <= length xs)%nat -> pp_wf_aux xs cs.
Proof.
  induction xs as [|x0 xs IH]; intros cs HS HL H2; [cbn in H2; lia|].
  destruct cs as [|c cs]; [cbn in *; lia|]. destruct xs as [|x1 xs]; [cbn in *; lia|].
  inversion HS as [|? ? HS' HF]; subst. inversion HF; subst. cbn [pp_wf_aux]. split; [assumption|].
  destruct cs as [|c' cs].
  - destruct xs; [reflexivity|cbn in HL; lia].
  - apply (IH (c' :: cs)); [assumption|cbn in *; lia|cbn in *; lia].
Qed.

Lemma cub_intro xs : forall ys cs,
  StronglySorted Rlt xs -> S (length cs) = length xs -> length ys = length xs ->
  List.Forall (fun c => length c = 4%nat) cs ->
  (forall i y c, nth_error ys i = Some y -> nth_error cs i = Some c -> horner c 0 = y) ->
  (forall c x0 x1 y xr cr yr, xs = xr ++ [x0; x1] -> cs = cr ++ [c] -> ys = yr ++ [y] ->
     horner c (x1 - x0) = y) ->
  (forall i a b c d, nth_error xs i = Some a -> nth_error xs (S i) = Some b ->
    nth_error cs i = Some c -> nth_error cs (S i) = Some d -> joined c d (b - a)) ->
  cub xs ys cs.
Proof.
  induction xs as [|x0 xs IH]; intros ys cs HS HL HY HF HV HE HJ; [discriminate|].
  destruct ys as [|y0 ys]; [discriminate|].
  destruct cs as [|c cs].
  { destruct xs; [|discriminate]. destruct ys; [|discriminate]. exact I. }
  destruct xs as [|x1 xs]; [discriminate|]. destruct ys as [|y1 ys]; [discriminate|].
  cbn [cub tl]. inversion HS as [|? ? HS' HF']; subst. inversion HF'; subst.
  inversion HF as [|? ? Hc HF'']; subst.
  split; [assumption|]. split; [assumption|]. split; [exact (HV 0%nat y0 c eq_refl eq_refl)|].
  split; [|split].
  - destruct cs as [|d cs].
    + destruct xs; [|discriminate]. destruct ys; [|discriminate].
      exact (HE c x0 x1 y1 [] [] [y0] eq_refl eq_refl eq_refl).
    + destruct (HJ 0%nat x0 x1 c d eq_refl eq_refl eq_refl eq_refl) as [J _]. rewrite J.
      exact (HV 1%nat y1 d eq_refl eq_refl).
  - destruct cs as [|d cs]; [exact I|]. exact (HJ 0%nat x0 x1 c d eq_refl eq_refl eq_refl eq_refl).
  - apply IH; try assumption; try (cbn in *; lia).
    + intros i y e Hy He. exact (HV (S i) y e Hy He).
    + intros e a b y xr cr yr E1 E2 E3. apply (HE e a b y (x0 :: xr) (c :: cr) (y0 :: yr));
        cbn [app]; f_equal; assumption.
    + intros i a b e f H1' H2' H3' H4'. exact (HJ (S i) a b e f H1' H2' H3' H4').
Qed.

Lemma snoc_split {A} (l : list A) : l <> [] -> exists r a, l = r ++ [a].
Proof. intros H. destruct (exists_last H) as [r [a E]]. exists r, a. exact E. Qed.

Lemma notaknot_cub xs ys p : StronglySorted Rlt xs -> (2 <= length xs)%nat ->
  length ys = length xs -> notaknot xs ys p -> cub xs ys (pp_c p).
Proof.
  intros HS H2 HY [Hx Hl Hc Hv Hs _ _].
  pose proof (sorted_wf xs (pp_c p) HS Hl H2) as W.
  destruct (eval_at_knots xs _ W) as [K1 K2]. unfold pp_eval in Hv. rewrite Hx in Hv.
  apply cub_intro; try assumption.
  - intros i y c Hy He.
    assert (Hi : exists x, nth_error xs i = Some x).
    { destruct (nth_error xs i) eqn:E; [eauto|]. apply nth_error_None in E.
      assert (i < length ys)%nat by (apply nth_error_Some; congruence). lia. }
    destruct Hi as [x Hi]. rewrite <- (K1 i x c Hi He). exact (Hv i x y Hi Hy).
  - intros c x0 x1 y xr cr yr E1 E2 E3. rewrite <- (K2 c x0 x1 xr cr E1 E2).
    apply (Hv (S (length xr))).
    + rewrite E1. change [x0; x1] with ([x0] ++ [x1]). rewrite app_assoc.
      rewrite nth_error_app2; rewrite app_length; cbn [length]; [|lia].
      replace (S (length xr) - (length xr + 1))%nat with 0%nat by lia. reflexivity.
    + assert (HL : length yr = S (length xr)).
      { apply (f_equal (@length R)) in E1, E3. rewrite app_length in E1, E3. cbn [length] in *. lia. }
      rewrite E3, nth_error_app2 by lia. rewrite HL, Nat.sub_diag. reflexivity.
Qed.

(* ------------------------------------------------------------------ *)
(** * Slopes at the breakpoints *)

Fixpoint herm (xs ys ss : list R) (cs : list (list R)) : Prop :=
  match cs with
  | [] => match xs, ys, ss with [_], [_], [_] => True | _, _, _ => False end
  | c :: cs' =>
      match xs, ys, ss with
      | x0 :: x1 :: xt, y0 :: y1 :: yt, s0 :: s1 :: st =>
          let h := x1 - x0 in let del := (y1 - y0) / h in
          0 < h /\
          c = [(s0 + s1 - 2 * del) / (h * h); (3 * del - 2 * s0 - s1) / h; s0; y0] /\
          herm (x1 :: xt) (y1 :: yt) (s1 :: st) cs'
      | _, _, _ => False
      end
  end.

Lemma horner4 a b c d t : horner [a; b; c; d] t = ((a * t + b) * t + c) * t + d.
Proof. unfold horner. cbn [fold_left]. ring. Qed.
Lemma col_deriv4 a b c d : col_deriv [a; b; c; d] = [3 * a; 2 * b; c].
Proof. cbn. repeat (apply f_equal2; [ring|]). reflexivity. Qed.
Lemma horner3 a b c t : horner [a; b; c] t = (a * t + b) * t + c.
Proof. unfold horner. cbn [fold_left]. ring. Qed.
Lemma col_deriv3 a b c : col_deriv [a; b; c] = [2 * a; b].
Proof. cbn. repeat (apply f_equal2; [ring|]). reflexivity. Qed.
Lemma horner2 a b t : horner [a; b] t = a * t + b.
Proof. unfold horner. cbn [fold_left]. ring. Qed.

Definition slope0 (c : list R) : R := horner (col_deriv c) 0.
Lemma cubic_cases (c : list R) : length c = 4%nat -> exists a b d e, c = [a; b; d; e].
Proof.
  intros H. destruct c as [|a [|b [|d [|e [|? ?]]]]]; try discriminate. now exists a, b, d, e.
Qed.

Lemma cub_herm cs : forall xs ys, cub xs ys cs -> cs <> [] ->
  exists ss, herm xs ys ss cs /\ hd 0 ss = slope0 (hd [] cs).
Proof.
  induction cs as [|c cs IH]; intros xs ys H Hne; [congruence|].
  destruct xs as [|x0 [|x1 xt]]; try contradiction.
  destruct ys as [|y0 [|y1 yt]]; try contradiction.
  cbn [cub tl] in H. destruct H as [Hlt [Hl [H0 [H1 [HJ H]]]]].
  destruct (cubic_cases c Hl) as [a [b [d [e ->]]]].
  rewrite horner4 in H0, H1.
  assert (E0 : e = y0) by lra. subst e.
  assert (Hh : x1 - x0 <> 0) by lra.
  set (h := x1 - x0) in *.
  destruct cs as [|c' cs].
  - destruct xt; [|destruct yt; contradiction]. destruct yt; [|contradiction].
    exists [d; (3 * a * h + 2 * b) * h + d]. split.
    + cbn [herm]. fold h. split; [unfold h; lra|]. split; [|exact I].
      rewrite <- H1. f_equal; [field; exact Hh|]. f_equal. field; exact Hh.
    + unfold slope0. cbn [hd]. rewrite col_deriv4, horner3. ring.
  - destruct (IH _ _ H) as [ss [HH Hs]]; [discriminate|].
    destruct HJ as [_ [J1 _]]. cbn [hd] in Hs. unfold slope0 in Hs. rewrite <- J1 in Hs.
    rewrite col_deriv4, horner3 in Hs.
    destruct ss as [|s1 st].
    { exfalso. cbn [herm] in HH. destruct xt; [contradiction|]. destruct yt; contradiction. }
    cbn [hd] in Hs.
    exists (d :: s1 :: st). split.
    + cbn [herm]. fold h. split; [unfold h; lra|]. split; [|exact HH].
      rewrite Hs, <- H1. f_equal; [field; exact Hh|]. f_equal. field; exact Hh.
    + unfold slope0. cbn [hd]. rewrite col_deriv4, horner3. ring.
Qed.

(* ------------------------------------------------------------------ *)
(** * The rows of the system, over the rationals *)

Local Open Scope Q_scope.
Definition row_mid (x0 x1 x2 y0 y1 y2 : Q) : row :=
  let h0 := x1 - x0 in let h1 := x2 - x1 in
  let d0 := (y1 - y0) / h0 in let d1 := (y2 - y1) / h1 in
  (h1, 2 * (h0 + h1), h0, 3 * (h1 * d0 + h0 * d1)).
Definition row_start (x0 x1 x2 y0 y1 y2 : Q) : row :=
  let h0 := x1 - x0 in let h1 := x2 - x1 in
  let d0 := (y1 - y0) / h0 in let d1 := (y2 - y1) / h1 in
  (0, h1, h0 + h1, ((h0 + 2 * (h0 + h1)) * h1 * d0 + h0 * h0 * d1) / (h0 + h1)).
Definition row_end (x0 x1 x2 y0 y1 y2 : Q) : row :=
  let h0 := x1 - x0 in let h1 := x2 - x1 in
  let d0 := (y1 - y0) / h0 in let d1 := (y2 - y1) / h1 in
  (h0 + h1, h0, 0, (h1 * h1 * d0 + (2 * (h0 + h1) + h1) * h0 * d1) / (h0 + h1)).
Fixpoint rows_from (xs ys : list Q) : list row :=
  match xs, ys with
  | x0 :: ((x1 :: x2 :: r) as xs'), y0 :: ((y1 :: y2 :: _) as ys') =>
      row_mid x0 x1 x2 y0 y1 y2 ::
      match r with [] => [row_end x0 x1 x2 y0 y1 y2] | _ => rows_from xs' ys' end
  | _, _ => []
  end.
Definition rows (xs ys : list Q) : list row :=
  match xs, ys with
  | x0 :: x1 :: x2 :: _, y0 :: y1 :: y2 :: _ =>
      row_start x0 x1 x2 y0 y1 y2 :: rows_from xs ys
  | _, _ => []
  end.
Definition slopesQ (xs ys : list Q) : list Q := elim 0 0 (rows xs ys).
Local Close Scope Q_scope.

Fixpoint joins (xs : list R) (cs : list (list R)) : Prop :=
  match cs with
  | c :: cs' => match xs, cs' with
    | x0 :: x1 :: _, d :: _ => joined c d (x1 - x0) /\ joins (tl xs) cs'
    | _, _ => True
    end
  | [] => True
  end.
Lemma cub_joins cs : forall xs ys, cub xs ys cs -> joins xs cs.
Proof.
  induction cs as [|c cs IH]; intros xs ys H; [exact I|].
  destruct xs as [|x0 [|x1 xt]]; try contradiction. destruct ys as [|y0 [|y1 yt]]; try contradiction.
  cbn [cub joins tl] in *. destruct H as [_ [_ [_ [_ [J H]]]]].
  destruct cs as [|d cs]; [exact I|]. split; [exact J|]. exact (IH _ _ H).
Qed.
Fixpoint last_eq (cs : list (list R)) : Prop :=
  match cs with
  | c :: cs' => match cs' with
    | [d] => hd 0 c = hd 0 d
    | _ => last_eq cs'
    end
  | [] => True
  end.
Lemma last_eq_intro cs : (forall c d r, cs = r ++ [c; d] -> hd 0 c = hd 0 d) -> last_eq cs.
Proof.
  induction cs as [|c cs IH]; intros H; [exact I|]. cbn [last_eq].
  destruct cs as [|d [|e cs]].
  - exact I.
  - exact (H c d [] eq_refl).
  - apply IH. intros a b r E. apply (H a b (c :: r)). cbn [app]. now f_equal.
Qed.

(** Real forms of the three kinds of row. *)
Definition mid_eq x0 x1 x2 y0 y1 y2 s0 s1 s2 : Prop :=
  let h0 := x1 - x0 in let h1 := x2 - x1 in
  let d0 := (y1 - y0) / h0 in let d1 := (y2 - y1) / h1 in
  h1 * s0 + 2 * (h0 + h1) * s1 + h0 * s2 = 3 * (h1 * d0 + h0 * d1).
Lemma mid_eq_intro x0 x1 x2 y0 y1 y2 s0 s1 s2 a0 b0 a1 b1 :
  0 < x1 - x0 -> 0 < x2 - x1 ->
  a0 = (s0 + s1 - 2 * ((y1 - y0) / (x1 - x0))) / ((x1 - x0) * (x1 - x0)) ->
  b0 = (3 * ((y1 - y0) / (x1 - x0)) - 2 * s0 - s1) / (x1 - x0) ->
  a1 = (s1 + s2 - 2 * ((y2 - y1) / (x2 - x1))) / ((x2 - x1) * (x2 - x1)) ->
  b1 = (3 * ((y2 - y1) / (x2 - x1)) - 2 * s1 - s2) / (x2 - x1) ->
  joined [a0; b0; s0; y0] [a1; b1; s1; y1] (x1 - x0) ->
  mid_eq x0 x1 x2 y0 y1 y2 s0 s1 s2.
Proof.
  intros Hh0 Hh1 Ea0 Eb0 Ea1 Eb1 [_ [_ J]].
  rewrite !col_deriv4, !col_deriv3, !horner2 in J. unfold mid_eq. cbv zeta.
  set (h0 := x1 - x0) in *. set (h1 := x2 - x1) in *.
  set (d0 := (y1 - y0) / h0) in *. set (d1 := (y2 - y1) / h1) in *.
  subst a0 b0 b1. clear Ea1.
  assert (J' : (4 * s1 + 2 * s0 - 6 * d0) / h0 = (6 * d1 - 4 * s1 - 2 * s2) / h1).
  { transitivity (2 * (3 * ((s0 + s1 - 2 * d0) / (h0 * h0))) * h0 + 2 * ((3 * d0 - 2 * s0 - s1) / h0)).
    - field; lra.
    - rewrite J. field; lra. }
  apply (f_equal (fun v => v * (h0 * h1))) in J'.
  replace ((4 * s1 + 2 * s0 - 6 * d0) / h0 * (h0 * h1)) with ((4 * s1 + 2 * s0 - 6 * d0) * h1) in J' by (field; lra).
  replace ((6 * d1 - 4 * s1 - 2 * s2) / h1 * (h0 * h1)) with ((6 * d1 - 4 * s1 - 2 * s2) * h0) in J' by (field; lra).
  lra.
Qed.
Lemma lead_eq h0 h1 s0 s1 s2 d0 d1 : 0 < h0 -> 0 < h1 ->
  (s0 + s1 - 2 * d0) / (h0 * h0) = (s1 + s2 - 2 * d1) / (h1 * h1) ->
  h1 * h1 * (s0 + s1 - 2 * d0) = h0 * h0 * (s1 + s2 - 2 * d1).
Proof.
  intros H0 H1 E.
  apply (f_equal (fun v => v * ((h0 * h0) * (h1 * h1)))) in E.
  replace ((s0 + s1 - 2 * d0) / (h0 * h0) * (h0 * h0 * (h1 * h1)))
    with (h1 * h1 * (s0 + s1 - 2 * d0)) in E by (field; lra).
  replace ((s1 + s2 - 2 * d1) / (h1 * h1) * (h0 * h0 * (h1 * h1)))
    with (h0 * h0 * (s1 + s2 - 2 * d1)) in E by (field; lra). exact E.
Qed.

(* ------------------------------------------------------------------ *)
(** * The slopes satisfy the system *)


Ltac q2r := rewrite ?Q2R_div, ?Q2R_plus, ?Q2R_minus, ?Q2R_mult.
Lemma Q2R_pos_ne q : 0 < Q2R q -> ~ (q == 0)%Q.
Proof. intros H E. apply Qeq_eqR in E. rewrite E, Q2R_0' in H. lra. Qed.
Lemma Q2R_2 : Q2R 2 = 2. Proof. unfold Q2R. cbn. lra. Qed.
Lemma Q2R_3 : Q2R 3 = 3. Proof. unfold Q2R. cbn. lra. Qed.

Lemma sat_mid x0 x1 x2 y0 y1 y2 s0 s1 s' rows' :
  0 < Q2R x1 - Q2R x0 -> 0 < Q2R x2 - Q2R x1 ->
  mid_eq (Q2R x0) (Q2R x1) (Q2R x2) (Q2R y0) (Q2R y1) (Q2R y2) s0 s1 (hd 0 s') ->
  sat s1 rows' s' ->
  sat s0 (row_mid x0 x1 x2 y0 y1 y2 :: rows') (s1 :: s').
Proof.
  intros H0 H1 E HS. unfold row_mid. cbn [sat]. split; [|exact HS].
  assert (N0 : ~ (x1 - x0 == 0)%Q) by (apply Q2R_pos_ne; rewrite Q2R_minus; exact H0).
  assert (N1 : ~ (x2 - x1 == 0)%Q) by (apply Q2R_pos_ne; rewrite Q2R_minus; exact H1).
  repeat (q2r; try assumption). rewrite ?Q2R_2, ?Q2R_3.
  unfold mid_eq in E. cbv zeta in E. rewrite <- E. ring.
Qed.

Lemma sat_end x0 x1 x2 y0 y1 y2 s0 s1 s2 :
  0 < Q2R x1 - Q2R x0 -> 0 < Q2R x2 - Q2R x1 ->
  mid_eq (Q2R x0) (Q2R x1) (Q2R x2) (Q2R y0) (Q2R y1) (Q2R y2) s0 s1 s2 ->
  (let h0 := Q2R x1 - Q2R x0 in let h1 := Q2R x2 - Q2R x1 in
   let d0 := (Q2R y1 - Q2R y0) / h0 in let d1 := (Q2R y2 - Q2R y1) / h1 in
   h1 * h1 * (s0 + s1 - 2 * d0) = h0 * h0 * (s1 + s2 - 2 * d1)) ->
  sat s1 [row_end x0 x1 x2 y0 y1 y2] [s2].
Proof.
  intros H0 H1 E L. unfold row_end. cbn [sat hd]. split; [|exact I].
  assert (N0 : ~ (x1 - x0 == 0)%Q) by (apply Q2R_pos_ne; rewrite Q2R_minus; exact H0).
  assert (N1 : ~ (x2 - x1 == 0)%Q) by (apply Q2R_pos_ne; rewrite Q2R_minus; exact H1).
  assert (N2 : ~ (x1 - x0 + (x2 - x1) == 0)%Q)
    by (apply Q2R_pos_ne; rewrite Q2R_plus, !Q2R_minus; lra).
  repeat (q2r; try assumption). rewrite ?Q2R_2, ?Q2R_3, Q2R_0'.
  unfold mid_eq in E. cbv zeta in E, L.
  set (h0 := Q2R x1 - Q2R x0) in *. set (h1 := Q2R x2 - Q2R x1) in *.
  set (d0 := (Q2R y1 - Q2R y0) / h0) in *. set (d1 := (Q2R y2 - Q2R y1) / h1) in *.
  apply (Rmult_eq_reg_r (h0 + h1)); [|lra].
  unfold Rdiv at 1. rewrite Rmult_assoc. rewrite Rinv_l by lra. rewrite Rmult_1_r.
  apply (f_equal (fun v => h1 * v)) in E.
  ring_simplify in E. ring_simplify in L. ring_simplify. lra.
Qed.

Lemma sat_start x0 x1 x2 y0 y1 y2 s0 s1 s' rows' :
  0 < Q2R x1 - Q2R x0 -> 0 < Q2R x2 - Q2R x1 ->
  mid_eq (Q2R x0) (Q2R x1) (Q2R x2) (Q2R y0) (Q2R y1) (Q2R y2) s0 s1 (hd 0 s') ->
  (let h0 := Q2R x1 - Q2R x0 in let h1 := Q2R x2 - Q2R x1 in
   let d0 := (Q2R y1 - Q2R y0) / h0 in let d1 := (Q2R y2 - Q2R y1) / h1 in
   h1 * h1 * (s0 + s1 - 2 * d0) = h0 * h0 * (s1 + hd 0 s' - 2 * d1)) ->
  sat s0 rows' (s1 :: s') ->
  sat 0 (row_start x0 x1 x2 y0 y1 y2 :: rows') (s0 :: s1 :: s').
Proof.
  intros H0 H1 E L HS. unfold row_start. cbn [sat hd]. split; [|exact HS].
  assert (N0 : ~ (x1 - x0 == 0)%Q) by (apply Q2R_pos_ne; rewrite Q2R_minus; exact H0).
  assert (N1 : ~ (x2 - x1 == 0)%Q) by (apply Q2R_pos_ne; rewrite Q2R_minus; exact H1).
  assert (N2 : ~ (x1 - x0 + (x2 - x1) == 0)%Q)
    by (apply Q2R_pos_ne; rewrite Q2R_plus, !Q2R_minus; lra).
  repeat (q2r; try assumption). rewrite ?Q2R_2, ?Q2R_3, Q2R_0'.
  unfold mid_eq in E. cbv zeta in E, L.
  set (h0 := Q2R x1 - Q2R x0) in *. set (h1 := Q2R x2 - Q2R x1) in *.
  set (d0 := (Q2R y1 - Q2R y0) / h0) in *. set (d1 := (Q2R y2 - Q2R y1) / h1) in *.
  apply (Rmult_eq_reg_r (h0 + h1)); [|lra].
  unfold Rdiv at 1. rewrite Rmult_assoc. rewrite Rinv_l by lra. rewrite Rmult_1_r.
  apply (f_equal (fun v => h0 * v)) in E.
  ring_simplify in E. ring_simplify in L. ring_simplify. lra.
Qed.

Lemma herm_mid x0 x1 x2 y0 y1 y2 s0 s1 s2 xt yt st c d cs :
  herm (x0 :: x1 :: x2 :: xt) (y0 :: y1 :: y2 :: yt) (s0 :: s1 :: s2 :: st) (c :: d :: cs) ->
  joined c d (x1 - x0) ->
  0 < x1 - x0 /\ 0 < x2 - x1 /\ mid_eq x0 x1 x2 y0 y1 y2 s0 s1 s2 /\
  (hd 0 c = hd 0 d ->
   let h0 := x1 - x0 in let h1 := x2 - x1 in
   let d0 := (y1 - y0) / h0 in let d1 := (y2 - y1) / h1 in
   h1 * h1 * (s0 + s1 - 2 * d0) = h0 * h0 * (s1 + s2 - 2 * d1)).
Proof.
  cbn [herm]. intros [H0 [Ec [H1 [Ed _]]]] J. subst c d.
  split; [exact H0|]. split; [exact H1|]. split.
  - eapply mid_eq_intro; try exact J; try assumption; reflexivity.
  - intros E. cbv zeta. apply lead_eq; [assumption..|]. exact E.
Qed.

Lemma herm_shape xs ys ss cs : herm xs ys ss cs ->
  length ss = length xs /\ length ys = length xs /\ length xs = S (length cs).
Proof.
  revert xs ys ss. induction cs as [|c cs IH]; intros xs ys ss H.
  - destruct xs as [|? [|? ?]]; try contradiction; destruct ys as [|? [|? ?]]; try contradiction;
    destruct ss as [|? [|? ?]]; try contradiction. auto.
  - destruct xs as [|x0 [|x1 xt]]; try contradiction; destruct ys as [|y0 [|y1 yt]]; try contradiction;
    destruct ss as [|s0 [|s1 st]]; try contradiction. cbn [herm] in H. destruct H as [_ [_ H]].
    apply IH in H. cbn [length] in *. lia.
Qed.

Lemma sat_rows_from cs : forall xq yq s0 st,
  herm (map Q2R xq) (map Q2R yq) (s0 :: st) cs -> joins (map Q2R xq) cs ->
  last_eq cs -> (2 <= length cs)%nat ->
  sat s0 (rows_from xq yq) st.
Proof.
  induction cs as [|c cs IH]; intros xq yq s0 st HH HJ HE HL; [cbn in HL; lia|].
  destruct cs as [|d cs]; [cbn in HL; lia|]. clear HL.
  pose proof (herm_shape _ _ _ _ HH) as [L1 [L2 L3]].
  rewrite !map_length in *. cbn [length] in L1, L3.
  destruct xq as [|x0 [|x1 [|x2 xt]]]; cbn [length] in *; try lia.
  destruct yq as [|y0 [|y1 [|y2 yt]]]; cbn [length] in *; try lia.
  destruct st as [|s1 [|s2 st]]; cbn [length] in *; try lia.
  cbn [map] in HH, HJ. cbn [joins tl] in HJ. destruct HJ as [J HJ].
  destruct (herm_mid _ _ _ _ _ _ _ _ _ _ _ _ _ _ _ HH J) as [H0 [H1 [E EL]]].
  destruct cs as [|e cs].
  - cbn [length] in L3. destruct xt; [|discriminate]. destruct st; [|cbn in *; lia].
    apply sat_mid; try assumption.
    apply sat_end with (s0 := s0); try assumption. apply EL. exact HE.
  - cbn [length] in L3. destruct xt as [|x3 xt]; [discriminate|].
    apply sat_mid; try assumption.
    apply (IH (x1 :: x2 :: x3 :: xt) (y1 :: y2 :: yt)).
    + cbn [herm] in HH. destruct HH as [_ [_ HH]]. exact HH.
    + exact HJ.
    + exact HE.
    + cbn [length]. lia.
Qed.

Lemma sat_rows xq yq ss c d cs :
  herm (map Q2R xq) (map Q2R yq) ss (c :: d :: cs) -> joins (map Q2R xq) (c :: d :: cs) ->
  hd 0 c = hd 0 d -> last_eq (c :: d :: cs) ->
  sat 0 (rows xq yq) ss.
Proof.
  intros HH HJ HB HE.
  pose proof (herm_shape _ _ _ _ HH) as [L1 [L2 L3]].
  rewrite !map_length in *. cbn [length] in L3.
  destruct xq as [|x0 [|x1 [|x2 xt]]]; cbn [length] in *; try lia.
  destruct yq as [|y0 [|y1 [|y2 yt]]]; cbn [length] in *; try lia.
  destruct ss as [|s0 [|s1 [|s2 st]]]; cbn [length] in *; try lia.
  pose proof HJ as HJ0. cbn [map] in HH, HJ. cbn [joins tl] in HJ. destruct HJ as [J _].
  destruct (herm_mid _ _ _ _ _ _ _ _ _ _ _ _ _ _ _ HH J) as [H0 [H1 [E EL]]].
  unfold rows. apply sat_start; try assumption; [apply EL; exact HB|].
  apply (sat_rows_from (c :: d :: cs)); try assumption. cbn [length]. lia.
Qed.

(** The slopes are the solution of the system. *)
Lemma notaknot_slopes xq yq p :
  StronglySorted Rlt (map Q2R xq) -> (3 <= length xq)%nat -> length yq = length xq ->
  notaknot (map Q2R xq) (map Q2R yq) p -> pivots 0 (rows xq yq) = true ->
  herm (map Q2R xq) (map Q2R yq) (map Q2R (slopesQ xq yq)) (pp_c p) /\
  joins (map Q2R xq) (pp_c p) /\ pp_wf p.
Proof.
  intros HS H3 HY N HP.
  assert (C : cub (map Q2R xq) (map Q2R yq) (pp_c p)).
  { apply notaknot_cub; rewrite ?map_length; try assumption; lia. }
  pose proof (cub_joins _ _ _ C) as J.
  pose proof (nk_columns _ _ _ N) as HL. rewrite map_length in HL.
  destruct (pp_c p) as [|c [|d cs]] eqn:Ep; cbn [length] in HL; try lia.
  destruct (cub_herm _ _ _ C) as [ss [HH _]]; [discriminate|].
  assert (S0 : sat 0 (rows xq yq) ss).
  { eapply sat_rows; try exact HH; try exact J.
    - exact (nk_start _ _ _ N c d cs Ep).
    - apply last_eq_intro. intros a b r E. apply (nk_end _ _ _ N a b r). rewrite Ep. exact E. }
  pose proof (elim_correct (rows xq yq) 0 0 0 ss HP) as EE.
  unfold slopesQ. rewrite <- EE; [|rewrite Q2R_0'; ring|exact S0].
  split; [exact HH|]. split; [exact J|].
  unfold pp_wf. rewrite (nk_x _ _ _ N), Ep.
  apply sorted_wf; try assumption; rewrite map_length; cbn [length] in *; lia.
Qed.

(* ------------------------------------------------------------------ *)
(** * Sign of the derivative *)

Definition Qpos (q : Q) : bool := negb (Qle_bool q 0).
Lemma Qpos_R q : Qpos q = true -> 0 < Q2R q.
Proof.
  unfold Qpos. intros H. rewrite <- Q2R_0'. apply Qlt_Rlt. apply Qnot_le_lt. intros C.
  apply Qle_bool_iff in C. rewrite C in H. discriminate.
Qed.
Fixpoint monoQ (sg : Q) (xs ys ss : list Q) : bool :=
  match xs, ys, ss with
  | x0 :: xs', y0 :: ys', s0 :: ss' =>
      match xs', ys', ss' with
      | x1 :: _, y1 :: _, s1 :: _ =>
          Qpos (sg * s0) && Qpos (sg * s1) &&
          Qpos (sg * (3 * (y1 - y0) - (s0 + s1) * (x1 - x0))) && monoQ sg xs' ys' ss'
      | _, _, _ => true
      end
  | _, _, _ => true
  end.

Lemma piece_sign sg s0 s1 h dy t : 0 < h -> 0 <= t <= h ->
  0 < sg * s0 -> 0 < sg * s1 -> 0 < sg * (3 * dy - (s0 + s1) * h) ->
  0 < sg * horner (col_deriv [(s0 + s1 - 2 * (dy / h)) / (h * h);
                              (3 * (dy / h) - 2 * s0 - s1) / h; s0; 0]) t.
Proof.
  intros Hh Ht P0 P1 P2. rewrite col_deriv4, horner3.
  set (u := t / h). assert (Hu : 0 <= u <= 1).
  { unfold u. split; [apply Rdiv_le_0_compat; lra|]. apply (Rmult_le_reg_r h); [lra|].
    unfold Rdiv. rewrite Rmult_assoc, Rinv_l by lra. lra. }
  replace t with (u * h) by (unfold u; field; lra).
  replace (sg * _) with
    ((sg * s0) * ((1 - u) * (1 - u)) + (sg * s1) * (u * u)
     + (sg * (3 * dy - (s0 + s1) * h)) * (2 * u * (1 - u) / h)) by (field; lra).
  assert (0 <= 2 * u * (1 - u) / h).
  { apply Rdiv_le_0_compat; [|lra]. apply Rmult_le_pos; [lra|lra]. }
  assert (0 <= (sg * (3 * dy - (s0 + s1) * h)) * (2 * u * (1 - u) / h))
    by (apply Rmult_le_pos; lra).
  assert (0 < (sg * s0) * ((1 - u) * (1 - u)) + (sg * s1) * (u * u)); [|lra].
  destruct (Rle_lt_dec u (1/2)).
  - apply Rplus_lt_le_0_compat; [|apply Rmult_le_pos; [lra|apply Rle_0_sqr]].
    apply Rmult_lt_0_compat; [lra|apply Rmult_lt_0_compat; lra].
  - apply Rplus_le_lt_0_compat; [apply Rmult_le_pos; [lra|apply Rle_0_sqr]|].
    apply Rmult_lt_0_compat; [lra|apply Rmult_lt_0_compat; lra].
Qed.
Lemma col_deriv_const a b c d e : col_deriv [a; b; c; d] = col_deriv [a; b; c; e].
Proof. reflexivity. Qed.

Lemma herm_sign sg cs : forall xq yq sq,
  herm (map Q2R xq) (map Q2R yq) (map Q2R sq) cs -> monoQ sg xq yq sq = true -> cs <> [] ->
  forall x, hd 0 (map Q2R xq) <= x <= last (map Q2R xq) 0 ->
  0 < Q2R sg * pp_eval_aux (map Q2R xq) (map col_deriv cs) x.
Proof.
  induction cs as [|c cs IH]; intros xq yq sq H M Hne x Hx; [congruence|].
  destruct xq as [|x0 [|x1 xt]]; try contradiction.
  destruct yq as [|y0 [|y1 yt]]; try contradiction.
  destruct sq as [|s0 [|s1 st]]; try contradiction.
  cbn [map herm] in H. destruct H as [Hh [Ec H]].
  cbn [monoQ] in M. apply andb_prop in M. destruct M as [M M'].
  apply andb_prop in M. destruct M as [M M2]. apply andb_prop in M. destruct M as [M0 M1].
  apply Qpos_R in M0, M1, M2. rewrite Q2R_mult in M0, M1, M2.
  rewrite Q2R_minus, !Q2R_mult, !Q2R_minus, Q2R_plus, Q2R_3 in M2.
  assert (Hpiece : Q2R x0 <= x <= Q2R x1 -> 0 < Q2R sg * horner (col_deriv c) (x - Q2R x0)).
  { intros Hx'. subst c. rewrite (col_deriv_const _ _ _ _ 0). apply piece_sign; try assumption; lra. }
  cbn [map hd] in Hx. destruct cs as [|d cs].
  - destruct xt; [|destruct yt; destruct st; contradiction]. cbn [map last] in Hx.
    cbn [map pp_eval_aux]. apply Hpiece. exact Hx.
  - cbn [map pp_eval_aux]. destruct (Rlt_dec x (Q2R x1)).
    + apply Hpiece. lra.
    + apply (IH (x1 :: xt) (y1 :: yt) (s1 :: st) H M'); [discriminate|].
      cbn [map hd]. destruct xt as [|x2 xt].
      * destruct yt, st; cbn in H; contradiction.
      * cbn [map last] in Hx. cbn [map last]. lra.
Qed.

Lemma joins_cont xs : forall cs, pp_wf_aux xs cs -> joins xs cs ->
  pp_cont_aux xs cs /\ pp_cont_aux xs (map col_deriv cs).
Proof.
  induction xs as [|x0 xs IH]; intros cs W J; [contradiction|].
  destruct cs as [|c cs]; [contradiction|]. destruct xs as [|x1 xs]; [contradiction|].
  destruct W as [L W]. destruct cs as [|d cs]; [split; exact I|].
  cbn [joins tl] in J. destruct J as [[J0 [J1 _]] J].
  destruct (IH _ W J) as [A B]. split.
  - split; [exact J0|exact A].
  - split; [exact J1|exact B].
Qed.

Lemma notaknot_monotone sg xq yq p :
  StronglySorted Rlt (map Q2R xq) -> (3 <= length xq)%nat -> length yq = length xq ->
  notaknot (map Q2R xq) (map Q2R yq) p ->
  pivots 0 (rows xq yq) = true -> monoQ sg xq yq (slopesQ xq yq) = true ->
  (forall x, is_derive (pp_eval p) x (pp_eval (pp_derivative p) x)) /\
  (forall x, hd 0 (map Q2R xq) <= x <= last (map Q2R xq) 0 ->
     0 < Q2R sg * pp_eval (pp_derivative p) x).
Proof.
  intros HS H3 HY N HP HM.
  destruct (notaknot_slopes xq yq p HS H3 HY N HP) as [HH [J W]].
  unfold pp_wf in W. rewrite (nk_x _ _ _ N) in W.
  destruct (joins_cont _ _ W J) as [C C'].
  split.
  - apply pp_derivative_correct; unfold pp_wf, pp_continuous; cbn [pp_derivative pp_x pp_c];
      rewrite (nk_x _ _ _ N); assumption.
  - intros x Hx. unfold pp_eval. cbn [pp_derivative pp_x pp_c]. rewrite (nk_x _ _ _ N).
    apply (herm_sign sg _ xq yq (slopesQ xq yq)); try assumption.
    intros E. rewrite E in W. destruct (map Q2R xq); contradiction.
Qed.

(* ------------------------------------------------------------------ *)
(** * The two tables *)

Definition lamQ : list Q := map (fun z => Qmake z 1000)
  [-90; -88; -86; -84; -80; -76; -72; -68; -64; -60; -56; -52; -48; -40; -32; -16; 0; 16;
   32; 48; 64; 80; 100; 120; 140; 200; 250]%Z.
Definition shearQ : list Q := map (fun z => Qmake z 1000)
  [0; 15; 27; 38; 56; 72; 85; 95; 104; 113; 122; 130; 138; 153; 168; 195; 220; 244; 268;
   291; 313; 333; 359; 382; 404; 463; 500]%Z.
Definition shapeQ : list Q := map (fun z => Qmake z 100)
  [355; 349; 344; 339; 330; 322; 315; 309; 304; 299; 294; 290; 287; 281; 275; 267; 261;
   255; 249; 244; 239; 234; 228; 223; 218; 207; 200]%Z.
Lemma lamQ_eq : map Q2R lamQ = tab_lambda.
Proof. unfold lamQ, tab_lambda. rewrite map_map. reflexivity. Qed.
Lemma shearQ_eq : map Q2R shearQ = tab_shear.
Proof. unfold shearQ, tab_shear. rewrite map_map. reflexivity. Qed.
Lemma shapeQ_eq : map Q2R shapeQ = tab_shape.
Proof. unfold shapeQ, tab_shape. rewrite map_map. reflexivity. Qed.
Lemma shear_pivots : pivots 0 (rows lamQ shearQ) = true. Proof. vm_compute. reflexivity. Qed.
Lemma shape_pivots : pivots 0 (rows lamQ shapeQ) = true. Proof. vm_compute. reflexivity. Qed.
Lemma shear_mono : monoQ 1 lamQ shearQ (slopesQ lamQ shearQ) = true.
Proof. vm_compute. reflexivity. Qed.
Lemma shape_mono : monoQ (-1) lamQ shapeQ (slopesQ lamQ shapeQ) = true.
Proof. vm_compute. reflexivity. Qed.

Lemma tab_first : hd 0 tab_lambda = -9/100. Proof. unfold tab_lambda. cbn [map hd]. lra. Qed.
Lemma tab_last : last tab_lambda 0 = 25/100. Proof. unfold tab_lambda. cbn [map last]. lra. Qed.

Lemma shear_spline p : notaknot tab_lambda tab_shear p ->
  (forall x, is_derive (pp_eval p) x (pp_eval (pp_derivative p) x)) /\
  (forall x, -9/100 <= x <= 25/100 -> 0 < pp_eval (pp_derivative p) x).
Proof.
  intros N. rewrite <- lamQ_eq, <- shearQ_eq in N.
  assert (HS : StronglySorted Rlt (map Q2R lamQ)) by (rewrite lamQ_eq; exact tab_lambda_sorted).
  destruct (notaknot_monotone 1 lamQ shearQ p HS ltac:(cbn; lia) eq_refl N shear_pivots shear_mono)
    as [D P]. split; [exact D|]. intros x Hx.
  specialize (P x). rewrite lamQ_eq, tab_first, tab_last in P. specialize (P Hx).
  replace (Q2R 1) with 1 in P by (unfold Q2R; cbn; lra). lra.
Qed.
Lemma shape_spline p : notaknot tab_lambda tab_shape p ->
  (forall x, is_derive (pp_eval p) x (pp_eval (pp_derivative p) x)) /\
  (forall x, -9/100 <= x <= 25/100 -> pp_eval (pp_derivative p) x < 0).
Proof.
  intros N. rewrite <- lamQ_eq, <- shapeQ_eq in N.
  assert (HS : StronglySorted Rlt (map Q2R lamQ)) by (rewrite lamQ_eq; exact tab_lambda_sorted).
  destruct (notaknot_monotone (-1) lamQ shapeQ p HS ltac:(cbn; lia) eq_refl N shape_pivots shape_mono)
    as [D P]. split; [exact D|]. intros x Hx.
  specialize (P x). rewrite lamQ_eq, tab_first, tab_last in P. specialize (P Hx).
  replace (Q2R (-1)) with (-1) in P by (unfold Q2R; cbn; lra). lra.
Qed.

Lemma derive_increasing (f f' : R -> R) a b : (forall x, is_derive f x (f' x)) ->
  (forall x, a <= x <= b -> 0 < f' x) ->
  forall x y, a <= x -> x < y -> y <= b -> f x < f y.
Proof.
  intros D P x y Hx Hxy Hy.
  destruct (MVT_gen f x y f') as [z [Hz E]].
  - intros z _. apply D.
  - intros z _. apply continuity_pt_filterlim. apply (ex_derive_continuous f). eexists. apply D.
  - rewrite Rmin_left, Rmax_right in Hz by lra.
    assert (0 < f' z * (y - x)) by (apply Rmult_lt_0_compat; [apply P|]; lra). lra.
Qed.

(* ------------------------------------------------------------------ *)
(** * The default data fit *)

Section Default.
Context (cs : list R -> list R -> (xr -> xr) * (xr -> xr)) (OK : cubic_spline_ok cs).

Lemma spline_fits : exists S S' H H' : R -> R,
  (forall x, shear (fit_spline cs) (Fin x) = Fin (S (Rmin (25/100) (Rmax (-9/100) x)))) /\
  (forall x, shape (fit_spline cs) (Fin x) = Fin (H (Rmin (25/100) (Rmax (-9/100) x)))) /\
  (forall x, shape_p (fit_spline cs) (Fin x) = Fin (H' (Rmin (25/100) (Rmax (-9/100) x)))) /\
  (forall x, is_derive S x (S' x)) /\ (forall x, is_derive H x (H' x)) /\
  (forall x, -9/100 <= x <= 25/100 -> 0 < S' x) /\
  (forall x, -9/100 <= x <= 25/100 -> H' x < 0) /\
  (forall i x y, nth_error tab_lambda i = Some x -> nth_error tab_shear i = Some y -> S x = y) /\
  (forall i x y, nth_error tab_lambda i = Some x -> nth_error tab_shape i = Some y -> H x = y).
Proof.
  destruct OK as [[p [Np [Ep _]]] [q [Nq [Eq Eq']]]].
  destruct (shear_spline p Np) as [Dp Pp]. destruct (shape_spline q Nq) as [Dq Pq].
  exists (pp_eval p), (pp_eval (pp_derivative p)), (pp_eval q), (pp_eval (pp_derivative q)).
  assert (R0 : forall x, check_range (Fin (-90/1000)) (Fin (250/1000)) (Fin x)
                         = Fin (Rmin (25/100) (Rmax (-9/100) x))).
  { intros x. destruct (Rle_lt_dec x (-9/100)).
    - rewrite check_range_low by (try (cbn [xltb]; apply Rltb_false); lra). f_equal.
      rewrite Rmax_left, Rmin_right by lra. lra.
    - destruct (Rle_lt_dec (25/100) x).
      + rewrite check_range_high by lra. f_equal. rewrite Rmax_right, Rmin_left by lra. lra.
      + rewrite check_range_inside by lra. f_equal. rewrite Rmax_right, Rmin_right by lra. lra. }
  unfold shear, shape, shape_p. cbn [fit_shear fit_shape fit_shape_p fit_spline fit_lo fit_hi].
  split; [intros x; rewrite R0; apply Ep|].
  split; [intros x; rewrite R0; apply Eq|].
  split; [intros x; rewrite R0; apply Eq'|].
  split; [exact Dp|]. split; [exact Dq|]. split; [exact Pp|]. split; [exact Pq|].
  split; [exact (nk_values _ _ _ Np)|exact (nk_values _ _ _ Nq)].
Qed.
End Default.

Lemma clamp_in x : -9/100 <= Rmin (25/100) (Rmax (-9/100) x) <= 25/100.
Proof.
  split; [apply Rmin_glb; [lra|apply Rmax_l]|apply Rmin_l].
Qed.
Lemma clamp_id x : -9/100 <= x <= 25/100 -> Rmin (25/100) (Rmax (-9/100) x) = x.
Proof. intros H. rewrite Rmax_right, Rmin_right; lra. Qed.

Lemma default_fit_lemma cs : cubic_spline_ok cs ->
  (forall i x y, nth_error tab_lambda i = Some x -> nth_error tab_shear i = Some y ->
     shear (fit_spline cs) (Fin x) = Fin y) /\
  (forall i x y, nth_error tab_lambda i = Some x -> nth_error tab_shape i = Some y ->
     shape (fit_spline cs) (Fin x) = Fin y) /\
  (forall x, exists v, shear (fit_spline cs) (Fin x) = Fin v /\ 0 <= v <= 1/2 /\
     (v = 0 <-> x <= -9/100)) /\
  (forall x, exists v, shape (fit_spline cs) (Fin x) = Fin v /\ 2 <= v <= 355/100) /\
  (forall x y u v, -9/100 <= x -> x < y -> y <= 25/100 ->
     shear (fit_spline cs) (Fin x) = Fin u -> shear (fit_spline cs) (Fin y) = Fin v -> u < v) /\
  (forall x y u v, -9/100 <= x -> x < y -> y <= 25/100 ->
     shape (fit_spline cs) (Fin x) = Fin u -> shape (fit_spline cs) (Fin y) = Fin v -> v < u) /\
  (forall x, -9/100 < x < 25/100 -> exists d,
     shape_p (fit_spline cs) (Fin x) = Fin d /\ d < 0 /\ xderiv (shape (fit_spline cs)) x d).
Proof.
  intros OK. destruct (spline_fits cs OK) as [S [S' [H [H' [ES [EH [EH' [DS [DH [PS [PH [TS TH]]]]]]]]]]]].
  assert (MS := derive_increasing S S' (-9/100) (25/100) DS PS).
  assert (MH : forall x y, -9/100 <= x -> x < y -> y <= 25/100 -> H y < H x).
  { intros x y A B C.
    assert (- H x < - H y); [|lra].
    apply (derive_increasing (fun x => - H x) (fun x => - H' x) (-9/100) (25/100)); try assumption.
    - intros z. apply @is_derive_opp. apply DH.
    - intros z Hz. specialize (PH z Hz). lra. }
  assert (HIn : forall x, In x tab_lambda -> -9/100 <= x <= 25/100).
  { intros x Hx. unfold tab_lambda in Hx. cbn [map In] in Hx.
    repeat (destruct Hx as [<-|Hx]; [lra|]). contradiction. }
  assert (S0 : S (-9/100) = 0).
  { replace (-9/100) with (IZR (-90) / 1000) by lra.
    rewrite (TS 0%nat _ (IZR 0 / 1000)) by reflexivity. lra. }
  assert (S1 : S (25/100) = 1/2).
  { replace (25/100) with (IZR 250 / 1000) by lra.
    rewrite (TS 26%nat _ (IZR 500 / 1000)) by reflexivity. lra. }
  assert (H0 : H (-9/100) = 355/100).
  { replace (-9/100) with (IZR (-90) / 1000) by lra.
    rewrite (TH 0%nat _ (IZR 355 / 100)) by reflexivity. lra. }
  assert (H1 : H (25/100) = 2).
  { replace (25/100) with (IZR 250 / 1000) by lra.
    rewrite (TH 26%nat _ (IZR 200 / 100)) by reflexivity. lra. }
  split; [|split; [|split; [|split; [|split; [|split]]]]].
  - intros i x y Hx Hy. rewrite ES, clamp_id by (apply HIn; exact (nth_error_In _ _ Hx)).
    rewrite (TS i x y Hx Hy). reflexivity.
  - intros i x y Hx Hy. rewrite EH, clamp_id by (apply HIn; exact (nth_error_In _ _ Hx)).
    rewrite (TH i x y Hx Hy). reflexivity.
  - intros x. eexists. split; [apply ES|].
    destruct (clamp_in x) as [A B]. set (w := Rmin (25/100) (Rmax (-9/100) x)) in *.
    assert (C1 : S w <= 1/2).
    { destruct (Req_EM_T w (25/100)) as [E|E]; [rewrite E; lra|].
      rewrite <- S1. left. apply MS; lra. }
    assert (C0 : -9/100 < w -> 0 < S w).
    { intros. rewrite <- S0. apply MS; lra. }
    assert (Cw : x <= -9/100 <-> w = -9/100).
    { unfold w. split; intros K.
      - rewrite Rmax_left, Rmin_right by lra. reflexivity.
      - destruct (Rle_lt_dec x (-9/100)); [assumption|].
        rewrite (Rmax_right (-9/100) x) in K by lra.
        unfold Rmin in K. destruct (Rle_dec (25/100) x); lra. }
    destruct (Req_EM_T w (-9/100)) as [E|E].
    + rewrite E, S0. split; [lra|]. split; [intros _; apply Cw; exact E|reflexivity].
    + specialize (C0 ltac:(lra)). split; [lra|]. split; [lra|]. intros K. apply Cw in K. lra.
  - intros x. eexists. split; [apply EH|].
    destruct (clamp_in x) as [A B]. set (w := Rmin (25/100) (Rmax (-9/100) x)) in *.
    split.
    + destruct (Req_EM_T w (25/100)) as [E|E]; [rewrite E; lra|].
      rewrite <- H1. left. apply MH; lra.
    + destruct (Req_EM_T w (-9/100)) as [E|E]; [rewrite E; lra|].
      rewrite <- H0. left. apply MH; lra.
  - intros x y u v A B C Eu Ev. rewrite ES, clamp_id in Eu by lra. rewrite ES, clamp_id in Ev by lra.
    apply Fin_inj in Eu, Ev. subst. apply MS; assumption.
  - intros x y u v A B C Eu Ev. rewrite EH, clamp_id in Eu by lra. rewrite EH, clamp_id in Ev by lra.
    apply Fin_inj in Eu, Ev. subst. apply MH; assumption.
  - intros x Hx. exists (H' x). rewrite EH', clamp_id by lra. split; [reflexivity|].
    split; [apply PH; lra|]. exists H. split; [|apply DH].
    generalize (locally_between (-9/100) (25/100) x Hx). apply filter_imp.
    intros y Hy. rewrite EH, clamp_id by lra. reflexivity.
Qed.

(* ------------------------------------------------------------------ *)
(** * The specification can be met: the splines of the two tables *)

Fixpoint hornerQ (acc : Q) (c : list Q) (t : Q) : Q :=
  match c with [] => acc | a :: r => hornerQ (Qred (acc * t + a)) r t end.
Fixpoint colsQ (xs ys ss : list Q) : list (list Q) :=
  match xs, ys, ss with
  | x0 :: xs', y0 :: ys', s0 :: ss' =>
      match xs', ys', ss' with
      | x1 :: _, y1 :: _, s1 :: _ =>
          let h := (x1 - x0)%Q in let d := ((y1 - y0) / h)%Q in
          [Qred ((s0 + s1 - 2 * d) / (h * h)); Qred ((3 * d - 2 * s0 - s1) / h); s0; y0]
          :: colsQ xs' ys' ss'
      | _, _, _ => []
      end
  | _, _, _ => []
  end.
Definition cdQ (c : list Q) : list Q :=
  match c with
  | [a; b; d; _] => [3 * a; 2 * b; d]%Q
  | [a; b; _] => [2 * a; b]%Q
  | _ => []
  end.
Definition joinedQ (c d : list Q) (h : Q) : bool :=
  Qeq_bool (hornerQ 0 c h) (hornerQ 0 d 0) &&
  Qeq_bool (hornerQ 0 (cdQ c) h) (hornerQ 0 (cdQ d) 0) &&
  Qeq_bool (hornerQ 0 (cdQ (cdQ c)) h) (hornerQ 0 (cdQ (cdQ d)) 0).
Fixpoint cubQ (xs ys : list Q) (cs : list (list Q)) : bool :=
  match cs with
  | [] => match xs, ys with [_], [_] => true | _, _ => false end
  | c :: cs' =>
      match xs, ys with
      | x0 :: x1 :: _, y0 :: y1 :: _ =>
          Qpos (x1 - x0) && Nat.eqb (length c) 4 && Qeq_bool (hornerQ 0 c 0) y0 &&
          Qeq_bool (hornerQ 0 c (x1 - x0)) y1 &&
          match cs' with d :: _ => joinedQ c d (x1 - x0) | [] => true end &&
          cubQ (tl xs) (tl ys) cs'
      | _, _ => false
      end
  end.

Lemma hornerQ_R c t : forall acc,
  Q2R (hornerQ acc c t) = fold_left (fun a b => a * Q2R t + b) (map Q2R c) (Q2R acc).
Proof.
  induction c as [|a c IH]; intros acc; [reflexivity|]. cbn [hornerQ map fold_left].
  rewrite IH, Q2R_red, Q2R_plus, Q2R_mult. reflexivity.
Qed.
Lemma hornerQ0 c t : Q2R (hornerQ 0 c t) = horner (map Q2R c) (Q2R t).
Proof. rewrite hornerQ_R, Q2R_0'. reflexivity. Qed.
Lemma Qeq_bool_R a b : Qeq_bool a b = true -> Q2R a = Q2R b.
Proof. intros H. apply Qeq_eqR, Qeq_bool_eq, H. Qed.
Lemma cdQ4 c : length c = 4%nat ->
  map Q2R (cdQ c) = col_deriv (map Q2R c) /\ map Q2R (cdQ (cdQ c)) = col_deriv (col_deriv (map Q2R c)).
Proof.
  intros H. destruct c as [|a [|b [|d [|e [|? ?]]]]]; try discriminate. cbn [cdQ map].
  rewrite col_deriv4, col_deriv3, !Q2R_mult, Q2R_2, Q2R_3. split; reflexivity.
Qed.
Lemma joinedQ_R c d h : length c = 4%nat -> length d = 4%nat -> joinedQ c d h = true ->
  joined (map Q2R c) (map Q2R d) (Q2R h).
Proof.
  intros Lc Ld H. unfold joinedQ in H. apply andb_prop in H. destruct H as [H H2].
  apply andb_prop in H. destruct H as [H0 H1].
  apply Qeq_bool_R in H0, H1, H2. rewrite !hornerQ0, Q2R_0' in H0, H1, H2.
  destruct (cdQ4 c Lc) as [C1 C2]. destruct (cdQ4 d Ld) as [D1 D2].
  rewrite C1, D1 in H1. rewrite C2, D2 in H2. split; [exact H0|split; assumption].
Qed.
Lemma cubQ_R cs : forall xs ys, cubQ xs ys cs = true ->
  cub (map Q2R xs) (map Q2R ys) (map (map Q2R) cs).
Proof.
  induction cs as [|c cs IH]; intros xs ys H.
  - destruct xs as [|? [|? ?]]; try discriminate; destruct ys as [|? [|? ?]]; try discriminate. exact I.
  - destruct xs as [|x0 [|x1 xt]]; try discriminate; destruct ys as [|y0 [|y1 yt]]; try discriminate.
    cbn [cubQ tl] in H.
    apply andb_prop in H. destruct H as [H HR]. apply andb_prop in H. destruct H as [H HJ].
    apply andb_prop in H. destruct H as [H H1]. apply andb_prop in H. destruct H as [H H0].
    apply andb_prop in H. destruct H as [Hx HL].
    apply Qpos_R in Hx. rewrite Q2R_minus in Hx. apply Nat.eqb_eq in HL.
    apply Qeq_bool_R in H0, H1. rewrite hornerQ0 in H0, H1. rewrite Q2R_0' in H0.
    rewrite Q2R_minus in H1. pose proof (IH _ _ HR) as IH'. cbn [map] in IH'.
    cbn [map cub tl]. split; [lra|]. split; [rewrite map_length; exact HL|].
    split; [exact H0|]. split; [exact H1|]. split; [|exact IH'].
    destruct cs as [|d cs]; [exact I|]. cbn [map].
    assert (Ld : length d = 4%nat).
    { cbn [map cub] in IH'. destruct xt; [contradiction|]. destruct yt; [contradiction|].
      destruct IH' as [_ [Ld _]]. rewrite map_length in Ld. exact Ld. }
    rewrite <- Q2R_minus. apply joinedQ_R; assumption.
Qed.

Lemma cub_lengths cs : forall xs ys, cub xs ys cs ->
  S (length cs) = length xs /\ length ys = length xs /\ List.Forall (fun c => length c = 4%nat) cs.
Proof.
  induction cs as [|c cs IH]; intros xs ys H.
  - destruct xs as [|? [|? ?]]; try contradiction; destruct ys as [|? [|? ?]]; try contradiction. auto.
  - destruct xs as [|x0 [|x1 xt]]; try contradiction; destruct ys as [|y0 [|y1 yt]]; try contradiction.
    cbn [cub tl] in H. destruct H as [_ [L [_ [_ [_ H]]]]]. apply IH in H.
    destruct H as [A [B C]]. cbn [length] in *. repeat split; try lia. constructor; assumption.
Qed.
Lemma cub_values cs : forall xs ys, cub xs ys cs ->
  (forall i y c, nth_error ys i = Some y -> nth_error cs i = Some c -> horner c 0 = y) /\
  (forall c x0 x1 y xr cr yr, xs = xr ++ [x0; x1] -> cs = cr ++ [c] -> ys = yr ++ [y] ->
     horner c (x1 - x0) = y) /\
  (forall i a b c d, nth_error xs i = Some a -> nth_error xs (S i) = Some b ->
    nth_error cs i = Some c -> nth_error cs (S i) = Some d -> joined c d (b - a)).
Proof.
  induction cs as [|c cs IH]; intros xs ys H.
  - split; [intros [|i] y c _ E; discriminate|]. split.
    + intros c x0 x1 y xr cr yr _ E. destruct cr; discriminate.
    + intros [|i] a b c d _ _ E; discriminate.
  - destruct xs as [|x0 [|x1 xt]]; try contradiction; destruct ys as [|y0 [|y1 yt]]; try contradiction.
    pose proof (cub_lengths _ _ _ H) as [L1 [L2 _]].
    cbn [cub tl] in H. destruct H as [_ [L [V0 [V1 [J H]]]]].
    destruct (IH _ _ H) as [IH1 [IH2 IH3]]. split; [|split].
    + intros [|i] y d Hy Hd; cbn [nth_error] in Hy, Hd.
      * injection Hy as <-. injection Hd as <-. exact V0.
      * exact (IH1 i y d Hy Hd).
    + intros e a b y xr cr yr E1 E2 E3. destruct cr as [|? cr].
      * injection E2 as -> ->. cbn [length] in *.
        destruct xt; [|cbn in L1; lia]. destruct yt; [|cbn in L2; lia].
        destruct xr as [|? [|? [|? ?]]]; try discriminate. injection E1 as -> ->.
        destruct yr as [|? [|? [|? ?]]]; try discriminate. injection E3 as _ ->. exact V1.
      * injection E2 as <- E2. destruct xr as [|? xr].
        { injection E1 as -> -> ->. cbn in L1. destruct cs; [destruct cr; discriminate|]. cbn in L1. lia. }
        injection E1 as <- E1. destruct yr as [|? yr]; [discriminate|]. injection E3 as <- E3.
        exact (IH2 e a b y xr cr yr E1 E2 E3).
    + intros [|i] a b e f Ha Hb He Hf; cbn [nth_error] in Ha, Hb, He, Hf.
      * injection Ha as <-. injection Hb as <-. injection He as <-.
        destruct cs as [|d cs]; [discriminate|]. injection Hf as <-. exact J.
      * exact (IH3 i a b e f Ha Hb He Hf).
Qed.

Definition endsQ (cs : list (list Q)) : bool :=
  match cs with
  | c :: d :: _ => Qeq_bool (hd 0%Q c) (hd 0%Q d)
  | _ => false
  end.
Lemma hd_R c : hd 0 (map Q2R c) = Q2R (hd 0%Q c). Proof. apply hd_map_Q2R. Qed.

Lemma notaknot_intro xq yq cq :
  StronglySorted Rlt (map Q2R xq) -> (2 <= length xq)%nat -> cubQ xq yq cq = true ->
  endsQ cq = true -> endsQ (rev cq) = true ->
  notaknot (map Q2R xq) (map Q2R yq) {| pp_x := map Q2R xq; pp_c := map (map Q2R) cq |}.
Proof.
  intros HS H2 HC HB HE. apply cubQ_R in HC.
  destruct (cub_lengths _ _ _ HC) as [L1 [L2 LF]]. destruct (cub_values _ _ _ HC) as [V0 [V1 V2]].
  assert (W : pp_wf_aux (map Q2R xq) (map (map Q2R) cq)).
  { apply sorted_wf; try assumption. rewrite map_length. lia. }
  destruct (eval_at_knots _ _ W) as [K1 K2].
  constructor; cbn [pp_x pp_c]; try assumption; try reflexivity.
  - intros i x y Hx Hy. unfold pp_eval. cbn [pp_x pp_c].
    assert (Li : (i < length (map Q2R xq))%nat) by (apply nth_error_Some; congruence).
    destruct (nth_error (map (map Q2R) cq) i) as [c|] eqn:Ec.
    + rewrite (K1 i x c Hx Ec). exact (V0 i y c Hy Ec).
    + apply nth_error_None in Ec.
      destruct (snoc_split (map (map Q2R) cq)) as [cr [c Ecq]].
      { intros E. rewrite E in L1. cbn in L1. rewrite map_length in L1. lia. }
      assert (exists xr a b, map Q2R xq = xr ++ [a; b]) as [xr [a [b Ex]]].
      { destruct (snoc_split (map Q2R xq)) as [r [b Eb]].
        - intros E. rewrite E in L1. discriminate.
        - destruct (snoc_split r) as [r' [a Ea]].
          + intros E. subst r. rewrite Eb in L1. rewrite Ecq in L1. rewrite app_length in L1. cbn in L1. lia.
          + exists r', a, b. rewrite Eb, Ea, <- app_assoc. reflexivity. }
      destruct (snoc_split (map Q2R yq)) as [yr [z Ey]].
      { intros E. rewrite E in L2. rewrite Ex, app_length in L2. cbn in L2. lia. }
      assert (LX : length (map Q2R xq) = S (S (length xr))) by (rewrite Ex, app_length; cbn; lia).
      assert (LY : length yr = S (length xr)).
      { rewrite LX, Ey, app_length in L2. cbn in L2. lia. }
      assert (Ei : i = S (length xr)) by lia.
      rewrite Ey, nth_error_app2 in Hy by lia.
      replace (i - length yr)%nat with 0%nat in Hy by lia. injection Hy as <-.
      rewrite Ex in Hx. change [a; b] with ([a] ++ [b]) in Hx. rewrite app_assoc in Hx.
      rewrite nth_error_app2 in Hx by (rewrite app_length; cbn; lia).
      rewrite app_length in Hx. cbn [length] in Hx.
      replace (i - (length xr + 1))%nat with 0%nat in Hx by lia. injection Hx as <-.
      rewrite (K2 c a b xr cr Ex Ecq). exact (V1 c a b z xr cr yr Ex Ecq Ey).
  - intros c d r E. destruct cq as [|c' [|d' cq]]; try discriminate. injection E as <- <- _.
    rewrite !hd_R. apply Qeq_bool_R. exact HB.
  - intros c d r E. apply (f_equal (@rev _)) in E. rewrite <- map_rev, rev_app_distr in E.
    cbn [rev app] in E. destruct (rev cq) as [|d' [|c' cr]]; try discriminate.
    injection E as <- <- _. rewrite !hd_R. symmetry. apply Qeq_bool_R. exact HE.
Qed.

Definition spline_of (yq : list Q) : ppoly :=
  {| pp_x := map Q2R lamQ; pp_c := map (map Q2R) (colsQ lamQ yq (slopesQ lamQ yq)) |}.
Definition on_reals (f : R -> R) (v : xr) : xr := match v with Fin x => Fin (f x) | _ => NaN end.
Definition table_splines (xs ys : list R) : (xr -> xr) * (xr -> xr) :=
  let p := spline_of (if Req_EM_T (hd 0 ys) 0 then shearQ else shapeQ) in
  (on_reals (pp_eval p), on_reals (pp_eval (pp_derivative p))).

Lemma table_splines_ok : cubic_spline_ok table_splines.
Proof.
  assert (HS : StronglySorted Rlt (map Q2R lamQ)) by (rewrite lamQ_eq; exact tab_lambda_sorted).
  split.
  - exists (spline_of shearQ). split.
    + rewrite <- lamQ_eq, <- shearQ_eq.
      apply notaknot_intro; [exact HS|cbn; lia|vm_compute; reflexivity..].
    + unfold table_splines. destruct (Req_EM_T (hd 0 tab_shear) 0) as [_|N];
        [split; reflexivity|]. exfalso. apply N. unfold tab_shear. cbn [map hd]. lra.
  - exists (spline_of shapeQ). split.
    + rewrite <- lamQ_eq, <- shapeQ_eq.
      apply notaknot_intro; [exact HS|cbn; lia|vm_compute; reflexivity..].
    + unfold table_splines. destruct (Req_EM_T (hd 0 tab_shape) 0) as [E|_];
        [|split; reflexivity]. exfalso. unfold tab_shape in E. cbn [map hd] in E. lra.
Qed.

(* ------------------------------------------------------------------ *)
(** * The formulas of the data fits *)

Lemma data_fits_formulas cs : cubic_spline_ok cs ->
  (forall l, -9/100 < l -> let z := 25/100 - l in
     shear fit_white (Fin l) = Fin (Rpower (l + 9/100) (62/100)) /\
     shape fit_white (Fin l)
       = Fin (2 + 414/100*z - 835/10*z^2 + 854*z^3 - 3337*z^4 + 4576*z^5)) /\
  (forall l, -1/10 <= l < 0 ->
     shear fit_cb (Fin l) = Fin (22/100 + 1402/1000*l + (18/1000*l)/(107/1000 + l)) /\
     shape fit_cb (Fin l) = Fin (2088/1000 + (731/10000)/(14/100 + l))) /\
  (forall l, 0 <= l <= 1/10 ->
     shear fit_cb (Fin l) = Fin (22/100 + 157/100*l - 18/10*l^2) /\
     shape fit_cb (Fin l) = Fin (261/100 - 375/100*l + 524/100*l^2)) /\
  (forall l, -9/100 <= l ->
     shear fit_drela (Fin l)
       = Fin (220/1000 + 152/100*l - 5*l^3 - 72/1000*l^2/(l + 18/100)^2) /\
     shape fit_drela (Fin l)
       = Fin (261/100 - 41/10*l + 14*l^3 + 56/100*l^2/(l + 18/100)^2)) /\
  (forall k s h, In (k, s, h)
     [(-90, 0, 355); (-88, 15, 349); (-86, 27, 344); (-84, 38, 339); (-80, 56, 330);
      (-76, 72, 322); (-72, 85, 315); (-68, 95, 309); (-64, 104, 304); (-60, 113, 299);
      (-56, 122, 294); (-52, 130, 290); (-48, 138, 287); (-40, 153, 281); (-32, 168, 275);
      (-16, 195, 267); (0, 220, 261); (16, 244, 255); (32, 268, 249); (48, 291, 244);
      (64, 313, 239); (80, 333, 234); (100, 359, 228); (120, 382, 223); (140, 404, 218);
      (200, 463, 207); (250, 500, 200)] ->
     shear (fit_spline cs) (Fin (k/1000)) = Fin (s/1000) /\
     shape (fit_spline cs) (Fin (k/1000)) = Fin (h/100)).
Proof.
  intros OK. split; [|split; [|split; [|split]]].
  - intros l Hl z. split; [apply white_shear_in; exact Hl|].
    unfold shape. cbn [fit_shape fit_white fit_lo fit_hi].
    rewrite check_range_inside_inf by lra. rewrite white_shape_eval. f_equal. unfold whiteH. cbv zeta. fold z.
    clearbody z. field.
  - intros l Hl. split.
    + rewrite cb_shear_inside by lra. unfold cbS_neg, cbS_pos.
      destruct (Rlt_dec l 0); [f_equal|lra]; try (field; lra).
    + rewrite cb_shape_inside by lra. unfold cbH_neg, cbH_pos.
      destruct (Rlt_dec l 0); [f_equal|lra]; try (field; lra).
  - intros l Hl. split.
    + rewrite cb_shear_inside by lra. unfold cbS_neg, cbS_pos.
      destruct (Rlt_dec l 0); [lra|f_equal]; ring.
    + rewrite cb_shape_inside by lra. unfold cbH_neg, cbH_pos.
      destruct (Rlt_dec l 0); [lra|f_equal]; ring.
  - intros l Hl. unfold shear, shape. cbn [fit_shear fit_shape fit_drela fit_lo fit_hi].
    rewrite !check_range_inside_inf by lra.
    rewrite drela_shear_eval, drela_shape_eval by lra. unfold drelaS, drelaH.
    split; f_equal; field; lra.
  - destruct (default_fit_lemma cs OK) as [TS [TH _]]. intros k s h Hin.
    apply In_nth_error in Hin. destruct Hin as [i Hi].
    assert (E : nth_error tab_lambda i = Some (k/1000) /\ nth_error tab_shear i = Some (s/1000) /\
                nth_error tab_shape i = Some (h/100)).
    { do 27 (destruct i as [|i]; [cbn [nth_error] in Hi; injection Hi as <- <- <-; repeat split; reflexivity|]).
      destruct i; discriminate. }
    destruct E as [E1 [E2 E3]]. split; [exact (TS i _ _ E1 E2)|exact (TH i _ _ E1 E3)].
Qed.
