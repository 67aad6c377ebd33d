(** Properties C131 (gradient samples), C132 (points in other units) and C133 (locality of points).
    [given_by_gradient_points], [positions], [values], [in_proportion], [agree_around]: see PointsSpec;
    [given_by_points], [samples_of], [sampled_range], [slope_at_most]: SamplingSpec. *)
From Coq Require Import Reals List Lra Lia.
From Coquelicot Require Import Coquelicot.
From Verif Require Import PyBase PyBaseFacts CoreModel CoreSpec CoreRefute PchipModel WorkflowSpec SamplingSpec PointsSpec PchipProofs PointsProofs.
Import ListNotations.
Open Scope R_scope.

(* ---------------------------------------------------------------- C131 *)
(** A start value and samples of a gradient that changes at rate L at most: the reported gradient is
    within L h, the reported velocity within L h times the distance from the first sample. *)
Theorem sampled_gradient_points : forall m U dU xs gs h L x,
  given_by_gradient_points m (U (hd 0 xs)) xs gs -> samples_of dU xs gs h -> 0 <= L ->
  (forall t, sampled_range xs t -> is_derive U t (dU t)) -> slope_at_most L dU xs -> sampled_range xs x ->
  exists u du, q_u_e m x = Ok u /\ q_du_e m x = Ok du /\
    Rabs (du - dU x) <= L * h /\ Rabs (u - U x) <= L * h * (x - hd 0 xs).
Proof. exact sampled_gradient_points_lemma. Qed.
Print Assumptions sampled_gradient_points.

(** The same when the second derivative changes at rate M at most. *)
Theorem sampled_gradient_points_smooth : forall m U dU d2U xs gs h M x,
  given_by_gradient_points m (U (hd 0 xs)) xs gs -> samples_of dU xs gs h -> 0 <= M ->
  (forall t, sampled_range xs t -> is_derive U t (dU t) /\ is_derive dU t (d2U t)) ->
  slope_at_most M d2U xs -> sampled_range xs x ->
  exists u du d2u, q_u_e m x = Ok u /\ q_du_e m x = Ok du /\ q_d2u_e m x = Ok d2u /\
    Rabs (u - U x) <= 5 * M * h ^ 2 * (x - hd 0 xs) /\ Rabs (du - dU x) <= 5 * M * h ^ 2 /\ Rabs (d2u - d2U x) <= 5 * M * h.
Proof. exact sampled_gradient_points_smooth_lemma. Qed.
Print Assumptions sampled_gradient_points_smooth.

(** Objects for the examples. *)
Lemma gradient_object (m0 : meth) u0 xs gs v1 v2 : usable_points xs gs -> np_asarray v1 = Ok (vec xs) -> np_asarray v2 = Ok (vec gs) ->
  exists m, given_by_gradient_points m u0 xs gs.
Proof.
  intros U H1 H2. destruct (proj2 (derivative_points_lemma m0 u0 v1 v2 xs gs PNone H1 H2) U) as (m' & _ & _ & _ & E & _).
  exists m', m0, v1, v2, PNone, m'. repeat split; assumption.
Qed.
Lemma points_object (m0 : meth) xs us v1 v2 : usable_points xs us -> np_asarray v1 = Ok (vec xs) -> np_asarray v2 = Ok (vec us) ->
  exists m, given_by_points m xs us.
Proof.
  intros U H1 H2. destruct (proj2 (points_velocity_lemma m0 v1 v2 xs us PNone PNone H1 H2) U) as (m' & _ & _ & _ & E & _).
  exists m', m0, v1, v2, PNone, PNone, m'. repeat split; assumption.
Qed.

(** 1 + x^3/24: its gradient x^2/8 sampled at 0, 1/2 and 1. *)
Definition k_u (x : R) : R := 1 + x ^ 3 / 24.
Definition k_du (x : R) : R := x ^ 2 / 8.
Definition k_d2u (x : R) : R := x / 4.
Definition k_xs : list R := [0; 1/2; 1].
Definition k_gs : list R := [0; 1/32; 1/8].
Example sampled_gradient_points_case : exists m, given_by_gradient_points m 1 k_xs k_gs /\
  exists u du d2u, q_u_e m (3/4) = Ok u /\ q_du_e m (3/4) = Ok du /\ q_d2u_e m (3/4) = Ok d2u /\
    Rabs (u - k_u (3/4)) <= 15/64 /\ Rabs (du - k_du (3/4)) <= 1/8 /\ Rabs (d2u - k_d2u (3/4)) <= 5/8.
Proof.
  destruct (gradient_object w_head 1 k_xs k_gs (PTup [PNum 0; PNum (1/2); PNum 1]) (PTup [PNum 0; PNum (1/32); PNum (1/8)]))
    as [m G]; [|reflexivity|reflexivity|].
  { split; [reflexivity|]. split; [cbn; lia|].
    intros [|[|[|i]]] a b Ha Hb; try discriminate; injection Ha as <-; injection Hb as <-; lra. }
  exists m. split; [exact G|].
  assert (HS : samples_of k_du k_xs k_gs (1/2)).
  { split.
    - intros [|[|[|i]]] x u Hx Hu; try (destruct i; discriminate); injection Hx as <-; injection Hu as <-; unfold k_du; lra.
    - intros [|[|[|i]]] a b Ha Hb; try discriminate; injection Ha as <-; injection Hb as <-; lra. }
  assert (HD : forall t, sampled_range k_xs t -> is_derive k_u t (k_du t) /\ is_derive k_du t (k_d2u t)).
  { intros t _. unfold k_u, k_du, k_d2u. split; auto_derive; trivial; field. }
  assert (G1 : given_by_gradient_points m (k_u (hd 0 k_xs)) k_xs k_gs).
  { replace (k_u (hd 0 k_xs)) with 1 by (unfold k_u; cbn; field). exact G. }
  assert (Hx : sampled_range k_xs (3/4)) by (unfold sampled_range, k_xs; cbn [hd last]; lra).
  assert (S2 : slope_at_most (1/4) k_d2u k_xs).
  { intros x y _ _. unfold k_d2u. replace (y / 4 - x / 4) with (1/4 * (y - x)) by field. rewrite Rabs_mult, (Rabs_pos_eq (1/4)); lra. }
  assert (S1 : slope_at_most (1/4) k_du k_xs).
  { intros x y Hx' Hy. unfold sampled_range, k_xs in *. cbn [hd last] in *. unfold k_du.
    replace (y ^ 2 / 8 - x ^ 2 / 8) with ((x + y) / 8 * (y - x)) by field. rewrite Rabs_mult.
    apply Rmult_le_compat_r; [apply Rabs_pos|]. rewrite Rabs_pos_eq; lra. }
  destruct (sampled_gradient_points_smooth m k_u k_du k_d2u k_xs k_gs (1/2) (1/4) (3/4) G1 HS ltac:(lra) HD S2 Hx)
    as (u & du & d2u & Q1 & Q2 & Q3 & B1 & _ & B3).
  destruct (sampled_gradient_points m k_u k_du k_xs k_gs (1/2) (1/4) (3/4) G1 HS ltac:(lra) (fun t H => proj1 (HD t H)) S1 Hx)
    as (u' & du' & _ & Q2' & B2 & _).
  assert (du' = du) as -> by congruence. cbn [k_xs hd] in B1.
  exists u, du, d2u. split; [exact Q1|]. split; [exact Q2|]. split; [exact Q3|].
  split; [lra|]. split; lra.
Qed.

(* ---------------------------------------------------------------- C132 *)
(** Points in other units, measured from another origin: the same velocity in those units. *)
Theorem points_units : forall m1 m2 xs us a b c x, 0 < a ->
  given_by_points m1 xs us -> given_by_points m2 (positions a b xs) (values c us) ->
  in_proportion m1 m2 x (a * x + b) c (c / a) (c / a ^ 2).
Proof. exact points_units_lemma. Qed.
Print Assumptions points_units.

(** The same for a start value and gradient points. *)
Theorem gradient_points_units : forall m1 m2 u0 xs gs a b c x, 0 < a ->
  given_by_gradient_points m1 u0 xs gs ->
  given_by_gradient_points m2 (c * u0) (positions a b xs) (values (c / a) gs) ->
  in_proportion m1 m2 x (a * x + b) c (c / a) (c / a ^ 2).
Proof. exact gradient_points_units_lemma. Qed.
Print Assumptions gradient_points_units.

(** Points are accepted or refused whatever the units. *)
Theorem points_units_accepted : forall m xs us a b c v1 v2 w1 w2 du d2u, 0 < a ->
  np_asarray v1 = Ok (vec xs) -> np_asarray v2 = Ok (vec us) ->
  np_asarray w1 = Ok (vec (positions a b xs)) -> np_asarray w2 = Ok (vec (values c us)) ->
  snd (set_velocity pchip_scipy m (PTup [w1; w2]) du d2u) = snd (set_velocity pchip_scipy m (PTup [v1; v2]) du d2u) /\
  forall u0 u1, snd (set_velocity pchip_scipy m (PNum u1) (PTup [w1; w2]) d2u) =
    snd (set_velocity pchip_scipy m (PNum u0) (PTup [v1; v2]) d2u).
Proof. exact points_units_accepted_lemma. Qed.
Print Assumptions points_units_accepted.

(** Metres and metres per second to millimetres from 5 mm and centimetres per second. *)
Example points_units_case : exists m1 m2,
  given_by_points m1 [0; 1; 2] [1; 2; 4] /\
  given_by_points m2 (positions 1000 5 [0; 1; 2]) (values 100 [1; 2; 4]) /\
  q_u_e m1 2 = Ok 4 /\ q_u_e m2 2005 = Ok 400.
Proof.
  assert (U : usable_points [0; 1; 2] [1; 2; 4]).
  { split; [reflexivity|]. split; [cbn; lia|].
    intros [|[|[|i]]] a b Ha Hb; try discriminate; injection Ha as <-; injection Hb as <-; lra. }
  destruct (points_object w_head [0; 1; 2] [1; 2; 4] (PTup (map PNum [0; 1; 2])) (PTup (map PNum [1; 2; 4])) U eq_refl eq_refl) as [m1 G1].
  destruct (points_object w_head _ _ (PTup (map PNum (positions 1000 5 [0; 1; 2]))) (PTup (map PNum (values 100 [1; 2; 4])))
    (proj2 (usable_units_lemma [0; 1; 2] [1; 2; 4] 1000 5 100 ltac:(lra)) U) eq_refl eq_refl) as [m2 G2].
  exists m1, m2. split; [exact G1|]. split; [exact G2|].
  assert (E : q_u_e m1 2 = Ok 4).
  { destruct (points_fit3 _ _ _ G1) as (p & Hp & Q). destruct (Q 2) as [Q1 _]. rewrite Q1. f_equal.
    apply (fit_point _ _ p Hp 2); reflexivity. }
  split; [exact E|].
  destruct (points_units m1 m2 _ _ 1000 5 100 2 ltac:(lra) G1 G2) as (u & du & d2u & A1 & _ & _ & B1 & _).
  rewrite E in A1. injection A1 as <-. replace 2005 with (1000 * 2 + 5) by ring. rewrite B1. f_equal. ring.
Qed.

(* ---------------------------------------------------------------- C133 *)
(** Between two neighbouring points the velocity and its derivatives depend on these two, the one
    before and the one after; before the first and after the last point, on the first or last three. *)
Theorem points_local : forall m1 m2 xs us xs' us' i x0 x1 x,
  given_by_points m1 xs us -> given_by_points m2 xs' us' ->
  agree_around i xs xs' -> agree_around i us us' ->
  nth_error xs i = Some x0 -> nth_error xs (S i) = Some x1 ->
  (i = O \/ x0 <= x) -> (x < x1 \/ nth_error xs (S (S i)) = None) ->
  q_u_e m2 x = q_u_e m1 x /\ q_du_e m2 x = q_du_e m1 x /\ q_d2u_e m2 x = q_d2u_e m1 x.
Proof. exact points_local_lemma. Qed.
Print Assumptions points_local.

(** Gradient points: the same for the gradients. *)
Theorem gradient_points_local : forall m1 m2 u0 u0' xs gs xs' gs' i x0 x1 x,
  given_by_gradient_points m1 u0 xs gs -> given_by_gradient_points m2 u0' xs' gs' ->
  agree_around i xs xs' -> agree_around i gs gs' ->
  nth_error xs i = Some x0 -> nth_error xs (S i) = Some x1 ->
  (i = O \/ x0 <= x) -> (x < x1 \/ nth_error xs (S (S i)) = None) ->
  q_du_e m2 x = q_du_e m1 x /\ q_d2u_e m2 x = q_d2u_e m1 x.
Proof. exact gradient_points_local_lemma. Qed.
Print Assumptions gradient_points_local.

(** Gradient points: the velocity does not depend on points further downstream. *)
Theorem gradient_points_upstream : forall m1 m2 u0 xs gs xs' gs' i x0 x1 x,
  given_by_gradient_points m1 u0 xs gs -> given_by_gradient_points m2 u0 xs' gs' ->
  (forall j, (j <= i + 2)%nat -> nth_error xs j = nth_error xs' j /\ nth_error gs j = nth_error gs' j) ->
  nth_error xs i = Some x0 -> nth_error xs (S i) = Some x1 -> x < x1 ->
  q_u_e m2 x = q_u_e m1 x.
Proof. exact gradient_points_upstream_lemma. Qed.
Print Assumptions gradient_points_upstream.

(** Five points; the last value is changed and a sixth point added: nothing changes up to the third point. *)
Example points_local_case : exists m1 m2 n1 n2,
  given_by_points m1 [0; 1; 2; 3; 4] [1; 2; 4; 3; 5] /\ given_by_points m2 [0; 1; 2; 3; 4; 5] [1; 2; 4; 3; -7; 1] /\
  given_by_gradient_points n1 1 [0; 1; 2; 3; 4] [1; 2; 4; 3; 5] /\
  given_by_gradient_points n2 1 [0; 1; 2; 3; 4; 5] [1; 2; 4; 3; -7; 1] /\
  (forall x, x < 2 -> q_u_e m2 x = q_u_e m1 x /\ q_u_e n2 x = q_u_e n1 x) /\ q_u_e m2 4 <> q_u_e m1 4.
Proof.
  assert (U1 : usable_points [0; 1; 2; 3; 4] [1; 2; 4; 3; 5]).
  { split; [reflexivity|]. split; [cbn; lia|].
    intros [|[|[|[|[|i]]]]] a b Ha Hb; try discriminate; injection Ha as <-; injection Hb as <-; lra. }
  assert (U2 : usable_points [0; 1; 2; 3; 4; 5] [1; 2; 4; 3; -7; 1]).
  { split; [reflexivity|]. split; [cbn; lia|].
    intros [|[|[|[|[|[|i]]]]]] a b Ha Hb; try discriminate; injection Ha as <-; injection Hb as <-; lra. }
  destruct (points_object w_head _ _ (PTup (map PNum [0; 1; 2; 3; 4])) (PTup (map PNum [1; 2; 4; 3; 5])) U1 eq_refl eq_refl) as [m1 G1].
  destruct (points_object w_head _ _ (PTup (map PNum [0; 1; 2; 3; 4; 5])) (PTup (map PNum [1; 2; 4; 3; -7; 1])) U2 eq_refl eq_refl) as [m2 G2].
  destruct (gradient_object w_head 1 _ _ (PTup (map PNum [0; 1; 2; 3; 4])) (PTup (map PNum [1; 2; 4; 3; 5])) U1 eq_refl eq_refl) as [n1 N1].
  destruct (gradient_object w_head 1 _ _ (PTup (map PNum [0; 1; 2; 3; 4; 5])) (PTup (map PNum [1; 2; 4; 3; -7; 1])) U2 eq_refl eq_refl) as [n2 N2].
  exists m1, m2, n1, n2. repeat (split; [assumption|]). split.
  - intros x Hx. split.
    + destruct (Rlt_dec x 1) as [L|L].
      * apply (points_local m1 m2 _ _ _ _ 0 0 1 x G1 G2); try reflexivity; try (left; reflexivity); try (left; exact L);
          intros [|[|[|j]]] J1 J2; try reflexivity; lia.
      * apply (points_local m1 m2 _ _ _ _ 1 1 2 x G1 G2); try reflexivity; try (right; lra); try (left; exact Hx);
          intros [|[|[|[|j]]]] J1 J2; try reflexivity; lia.
    + apply (gradient_points_upstream n1 n2 1 _ _ _ _ 1 1 2 x N1 N2); try reflexivity; [|exact Hx].
      intros [|[|[|[|j]]]] J; try (split; reflexivity); lia.
  - destruct (points_fit3 _ _ _ G1) as (p & Hp & Q). destruct (points_fit3 _ _ _ G2) as (p' & Hp' & Q').
    destruct (Q 4) as [Q1 _]. destruct (Q' 4) as [Q1' _]. rewrite Q1, Q1'.
    rewrite (fit_point _ _ p Hp 4 4 5), (fit_point _ _ p' Hp' 4 4 (-7)) by reflexivity.
    intros E. injection E as E. lra.
Qed.
