(** Proofs about velocities given by points: other units, locality, gradient points. *)
From Coq Require Import Reals List Lra Lia Bool.
From Coquelicot Require Import Coquelicot.
From Verif Require Import PyBase PyBaseFacts PPolyModel PPolyProofs CoreModel CoreSpec PchipModel PchipProofs
  WorkflowSpec SamplingSpec SamplingProofs SamplingOdeProofs PointsSpec.
Import ListNotations.
Open Scope R_scope.

(* ------------------------------------------------------------------ *)
(** * The three queries *)

Lemma points_fit3 m xs us : given_by_points m xs us -> exists p, pchip_fit xs us = Ok p /\
  forall x, q_u_e m x = Ok (pp_eval p x) /\ q_du_e m x = Ok (pp_eval (pp_derivative p) x) /\
    q_d2u_e m x = Ok (pp_eval (pp_derivative (pp_derivative p)) x).
Proof.
  intros (m0 & v1 & v2 & du & d2u & m' & H1 & H2 & HS & HQ).
  cbn [set_velocity] in HS. unfold set_velocity_points in HS.
  cbn [py_len List.length py_item nth_error bind] in HS. rewrite H1, H2 in HS. cbn [vec nd_shape] in HS.
  change (negb (Nat.eqb (length [length xs]) 1)) with false in HS.
  change (negb (Nat.eqb (length [length us]) 1)) with false in HS. cbv iota in HS.
  cbn [hd] in HS. change (pchip_scipy (vec xs) (vec us)) with (pchip_fit xs us) in HS.
  destruct (negb (Nat.eqb (length xs) (length us))); [discriminate|].
  destruct (Nat.ltb (length xs) 2); [discriminate|].
  destruct (pchip_fit xs us) as [p|e]; [|discriminate].
  exists p. split; [reflexivity|]. injection HS as <-.
  intros x. destruct (HQ x) as (Q1 & Q2 & Q3). rewrite Q1, Q2, Q3. repeat split; reflexivity.
Qed.

Lemma gradient_points_fit m u0 xs gs : given_by_gradient_points m u0 xs gs -> exists p, pchip_fit xs gs = Ok p /\
  forall x, q_u_e m x = Ok (pp_eval (pp_shift (pp_antiderivative p) u0) x) /\ q_du_e m x = Ok (pp_eval p x) /\
    q_d2u_e m x = Ok (pp_eval (pp_derivative p) x).
Proof.
  intros (m0 & v1 & v2 & d2u & m' & H1 & H2 & HS & HQ).
  cbn [set_velocity] in HS. unfold set_velocity_scalar in HS.
  cbn [py_len List.length py_item nth_error bind] in HS. rewrite H1, H2 in HS.
  change (pchip_scipy (vec xs) (vec gs)) with (pchip_fit xs gs) in HS.
  destruct (pchip_fit xs gs) as [p|e]; [|discriminate].
  exists p. split; [reflexivity|]. injection HS as <-.
  intros x. destruct (HQ x) as (Q1 & Q2 & Q3). rewrite Q1, Q2, Q3. repeat split; reflexivity.
Qed.

Lemma fit_integral xs gs p u0 : pchip_fit xs gs = Ok p ->
  pp_eval (pp_shift (pp_antiderivative p) u0) (hd 0 xs) = u0 /\
  forall x, is_derive (pp_eval (pp_shift (pp_antiderivative p) u0)) x (pp_eval p x).
Proof.
  intros Hp. destruct (fit_regular xs gs p Hp) as (W & C & _).
  destruct (pp_velocity_correct p u0 W C) as [V1 V2]. destruct (fit_inv _ _ _ Hp) as (_ & _ & _ & Ex & _).
  split; [rewrite <- Ex; exact V1|exact V2].
Qed.

(* ------------------------------------------------------------------ *)
(** * Gradient points: accuracy *)

Lemma grown (f df : R -> R) a x e : a <= x -> (forall t, a <= t <= x -> is_derive f t (df t)) ->
  (forall t, a <= t <= x -> Rabs (df t) <= e) -> f a = 0 -> Rabs (f x) <= e * (x - a).
Proof.
  intros L D B Z. destruct (Req_dec a x) as [<-|N].
  { rewrite Z, Rabs_R0. lra. }
  destruct (MVT_gen f a x df) as (c & Hc & E).
  - rewrite Rmin_left, Rmax_right by lra. intros t Ht. apply D. lra.
  - rewrite Rmin_left, Rmax_right by lra. intros t Ht. apply continuity_pt_filterlim.
    apply (ex_derive_continuous f). exists (df t). apply D. exact Ht.
  - rewrite Rmin_left, Rmax_right in Hc by lra. replace (f x) with (df c * (x - a)) by lra.
    rewrite Rabs_mult, (Rabs_pos_eq (x - a)) by lra. apply Rmult_le_compat_r; [lra|]. apply B. exact Hc.
Qed.

Lemma gradient_points_error m u0 U dU xs gs e : given_by_gradient_points m u0 xs gs -> U (hd 0 xs) = u0 ->
  (forall t, sampled_range xs t -> is_derive U t (dU t)) ->
  (forall t g, sampled_range xs t -> q_du_e m t = Ok g -> Rabs (g - dU t) <= e) ->
  forall x, sampled_range xs x -> exists u, q_u_e m x = Ok u /\ Rabs (u - U x) <= e * (x - hd 0 xs).
Proof.
  intros G H0 HD HB x Hx. destruct (gradient_points_fit m u0 xs gs G) as (p & Hp & Q).
  destruct (fit_integral xs gs p u0 Hp) as [V1 V2].
  set (V := pp_eval (pp_shift (pp_antiderivative p) u0)) in *.
  exists (V x). split; [apply Q|].
  apply (grown (fun t => V t - U t) (fun t => pp_eval p t - dU t)).
  - apply Hx.
  - intros t Ht. apply (is_derive_minus V U); [apply V2|]. apply HD. unfold sampled_range in *. lra.
  - intros t Ht. apply (HB t); [unfold sampled_range in *; lra|]. apply Q.
  - rewrite V1, H0. ring.
Qed.

Lemma sampled_gradient_points_lemma m U dU xs gs h L x :
  given_by_gradient_points m (U (hd 0 xs)) xs gs -> samples_of dU xs gs h -> 0 <= L ->
  (forall t, sampled_range xs t -> is_derive U t (dU t)) -> slope_at_most L dU xs -> sampled_range xs x ->
  exists u du, q_u_e m x = Ok u /\ q_du_e m x = Ok du /\
    Rabs (du - dU x) <= L * h /\ Rabs (u - U x) <= L * h * (x - hd 0 xs).
Proof.
  intros G S HL HD HS Hx. destruct (gradient_points_fit m _ xs gs G) as (p & Hp & Q).
  assert (B : forall t g, sampled_range xs t -> q_du_e m t = Ok g -> Rabs (g - dU t) <= L * h).
  { intros t g Ht E. destruct (Q t) as (_ & E' & _). rewrite E' in E. injection E as <-.
    apply (sampled_value xs gs p Hp dU h S L t HL HS Ht). }
  destruct (gradient_points_error m _ U dU xs gs (L * h) G eq_refl HD B x Hx) as (u & Qu & Bu).
  exists u, (pp_eval p x). split; [exact Qu|]. split; [apply Q|]. split; [|exact Bu].
  apply (B x); [exact Hx|apply Q].
Qed.

Lemma sampled_gradient_points_smooth_lemma m U dU d2U xs gs h M x :
  given_by_gradient_points m (U (hd 0 xs)) xs gs -> samples_of dU xs gs h -> 0 <= M ->
  (forall t, sampled_range xs t -> is_derive U t (dU t) /\ is_derive dU t (d2U t)) ->
  slope_at_most M d2U xs -> sampled_range xs x ->
  exists u du d2u, q_u_e m x = Ok u /\ q_du_e m x = Ok du /\ q_d2u_e m x = Ok d2u /\
    Rabs (u - U x) <= 5 * M * h ^ 2 * (x - hd 0 xs) /\ Rabs (du - dU x) <= 5 * M * h ^ 2 /\ Rabs (d2u - d2U x) <= 5 * M * h.
Proof.
  intros G S HM HD HS Hx. destruct (gradient_points_fit m _ xs gs G) as (p & Hp & Q).
  assert (HD2 : forall t, sampled_range xs t -> is_derive dU t (d2U t)) by (intros t Ht; apply HD; exact Ht).
  assert (B : forall t g, sampled_range xs t -> q_du_e m t = Ok g -> Rabs (g - dU t) <= 5 * M * h ^ 2).
  { intros t g Ht E. destruct (Q t) as (_ & E' & _). rewrite E' in E. injection E as <-.
    replace (5 * M * h ^ 2) with (5 * (M * h) * h) by ring.
    apply (sampled_value2 xs gs p Hp dU h S d2U M HM HD2 HS t Ht). }
  destruct (gradient_points_error m _ U dU xs gs (5 * M * h ^ 2) G eq_refl (fun t Ht => proj1 (HD t Ht)) B x Hx)
    as (u & Qu & Bu).
  exists u, (pp_eval p x), (pp_eval (pp_derivative p) x). split; [exact Qu|]. split; [apply Q|]. split; [apply Q|].
  split; [exact Bu|]. split; [apply (B x); [exact Hx|apply Q]|].
  replace (5 * M * h) with (5 * (M * h)) by ring.
  apply (sampled_slope xs gs p Hp dU h S d2U M HM HD2 HS x Hx).
Qed.

(* ------------------------------------------------------------------ *)
(** * Other units *)

Lemma sign_scale k a b : k <> 0 -> Reqb (np_sign (k * a)) (np_sign (k * b)) = Reqb (np_sign a) (np_sign b).
Proof.
  intros K. 
  assert (H : forall k a, 0 < k -> np_sign (k * a) = np_sign a).
  { clear. intros k a K. destruct (sign_inv a) as [[E P]|[[E P]|[E P]]]; rewrite E.
    - apply sign_pos. apply Rmult_lt_0_compat; assumption.
    - apply sign_neg. assert (0 < k * - a) by (apply Rmult_lt_0_compat; lra). lra.
    - rewrite P, Rmult_0_r. apply sign_zero. }
  assert (N : forall a, np_sign (- a) = - np_sign a).
  { clear. intros a. destruct (sign_inv a) as [[E P]|[[E P]|[E P]]]; rewrite E.
    - apply sign_neg. lra.
    - rewrite sign_pos by lra. lra.
    - rewrite P, Ropp_0, sign_zero. lra. }
  destruct (Rlt_dec 0 k) as [P|P].
  - rewrite !H by exact P. reflexivity.
  - replace (k * a) with (- (- k * a)) by ring. replace (k * b) with (- (- k * b)) by ring.
    rewrite !N, !H by lra.
    destruct (Reqb (np_sign a) (np_sign b)) eqn:E.
    + apply Reqb_iff in E. rewrite E. apply Reqb_true. reflexivity.
    + apply Reqb_false. intros Q. assert (np_sign a = np_sign b) as Q' by lra. apply (proj2 (Reqb_iff _ _)) in Q'. congruence.
Qed.

Lemma Reqb_scale k a : k <> 0 -> Reqb (k * a) 0 = Reqb a 0.
Proof.
  intros K. destruct (Reqb a 0) eqn:E.
  - apply Reqb_iff in E. rewrite E. apply Reqb_true. ring.
  - apply Reqb_false. intros Q. apply Rmult_integral in Q. destruct Q as [Q|Q]; [lra|].
    apply (proj2 (Reqb_iff _ _)) in Q. congruence.
Qed.

Lemma Rltb_scale k a b : 0 < k -> Rltb (k * a) (k * b) = Rltb a b.
Proof.
  intros K. destruct (Rltb a b) eqn:E.
  - apply Rltb_iff in E. apply Rltb_true. apply Rmult_lt_compat_l; assumption.
  - apply Rltb_false. apply Rmult_le_compat_l; [lra|]. apply Rnot_lt_le. intros Q. apply (proj2 (Rltb_iff _ _)) in Q. congruence.
Qed.

Lemma edge_scale a k h0 h1 m0 m1 : 0 < a -> 0 < h0 -> 0 < h1 ->
  pchip_edge (a * h0) (a * h1) (k * m0) (k * m1) = k * pchip_edge h0 h1 m0 m1.
Proof.
  intros A H0 H1. unfold pchip_edge.
  replace (((2 * (a * h0) + a * h1) * (k * m0) - a * h0 * (k * m1)) / (a * h0 + a * h1))
    with (k * (((2 * h0 + h1) * m0 - h0 * m1) / (h0 + h1))) by (field; repeat split; apply Rgt_not_eq; nra).
  set (d := ((2 * h0 + h1) * m0 - h0 * m1) / (h0 + h1)).
  destruct (Req_dec k 0) as [->|K].
  - rewrite !Rmult_0_l. rewrite (Reqb_true (np_sign 0) (np_sign 0)) by reflexivity. reflexivity.
  - rewrite !sign_scale by exact K. rewrite !Rabs_mult.
    replace (3 * (Rabs k * Rabs m0)) with (Rabs k * (3 * Rabs m0)) by ring.
    rewrite Rltb_scale by (apply Rabs_pos_lt; exact K).
    destruct (negb (Reqb (np_sign d) (np_sign m0))); [ring|].
    destruct (negb (Reqb (np_sign m0) (np_sign m1)) && Rltb (3 * Rabs m0) (Rabs d)); ring.
Qed.

Lemma Forall2_mono {A B} (P Q : A -> B -> Prop) l l' : (forall x y, P x y -> Q x y) -> Forall2 P l l' -> Forall2 Q l l'.
Proof. intros H F. induction F; constructor; auto. Qed.

Section Units.
Variables a b c : R.
Hypothesis Ha : 0 < a.
Let g (p : R * R) : R * R := (a * fst p + b, c * snd p).
Let k := c / a.

Lemma secant_scale p q : fst p < fst q -> secant (g p) (g q) = k * secant p q.
Proof.
  intros L. unfold secant, g, k. cbn [fst snd].
  replace (a * fst q + b - (a * fst p + b)) with (a * (fst q - fst p)) by ring. field. split; lra.
Qed.

Lemma dist_scale p q : fst (g q) - fst (g p) = a * (fst q - fst p).
Proof. unfold g. cbn [fst]. ring. Qed.

Lemma inner_scale p0 p1 p2 : fst p0 < fst p1 -> fst p1 < fst p2 ->
  pchip_inner (g p0) (g p1) (g p2) = k * pchip_inner p0 p1 p2.
Proof.
  intros L0 L1. unfold pchip_inner. rewrite !dist_scale, !secant_scale by assumption.
  set (m0 := secant p0 p1). set (m1 := secant p1 p2).
  set (h0 := fst p1 - fst p0). set (h1 := fst p2 - fst p1).
  assert (H0 : 0 < h0) by (unfold h0; lra). assert (H1 : 0 < h1) by (unfold h1; lra).
  destruct (Req_dec k 0) as [K|K].
  - rewrite K, !Rmult_0_l. rewrite (Reqb_true 0 0) by reflexivity. rewrite !orb_true_r. reflexivity.
  - rewrite sign_scale, !Reqb_scale by exact K.
    destruct (negb (Reqb (np_sign m1) (np_sign m0)) || (Reqb m1 0 || Reqb m0 0)) eqn:E; [ring|].
    apply orb_false_iff in E. destruct E as [_ E]. apply orb_false_iff in E. destruct E as [E1 E0].
    assert (M1 : m1 <> 0) by (intros Q; apply (proj2 (Reqb_iff _ _)) in Q; congruence).
    assert (M0 : m0 <> 0) by (intros Q; apply (proj2 (Reqb_iff _ _)) in Q; congruence).
    replace (((2 * (a * h1) + a * h0) / (k * m0) + (a * h1 + 2 * (a * h0)) / (k * m1)) / (2 * (a * h1) + a * h0 + (a * h1 + 2 * (a * h0))))
      with (/ k * (((2 * h1 + h0) / m0 + (h1 + 2 * h0) / m1) / (2 * h1 + h0 + (h1 + 2 * h0))))
      by (field; repeat split; try assumption; apply Rgt_not_eq; nra).
    unfold Rdiv at 1. rewrite Rinv_mult, Rinv_inv. unfold Rdiv at 4. ring.
Qed.

Lemma rest_scale l : forall p0 p1, incr (p0 :: p1 :: l) ->
  pchip_rest (g p0) (g p1) (map g l) = map (Rmult k) (pchip_rest p0 p1 l).
Proof.
  induction l as [|p2 l IH]; intros p0 p1 (I1 & I2); [reflexivity|].
  cbn [map pchip_rest]. destruct I2 as [I2 I3]. rewrite inner_scale by assumption. f_equal.
  destruct l as [|p3 l].
  - cbn [map]. rewrite !dist_scale, !secant_scale by assumption. rewrite edge_scale by lra. reflexivity.
  - apply (IH p1 p2). split; assumption.
Qed.

Lemma slopes_scale l : incr l -> pchip_slopes (map g l) = map (Rmult k) (pchip_slopes l).
Proof.
  intros HI. destruct l as [|p0 [|p1 [|p2 l]]]; try reflexivity.
  - destruct HI as [I1 _]. cbn [map pchip_slopes]. rewrite secant_scale by exact I1. reflexivity.
  - pose proof HI as (I1 & I2 & I3). 
    change (pchip_slopes (map g (p0 :: p1 :: p2 :: l)))
      with (pchip_edge (fst (g p1) - fst (g p0)) (fst (g p2) - fst (g p1)) (secant (g p0) (g p1)) (secant (g p1) (g p2))
            :: pchip_rest (g p0) (g p1) (map g (p2 :: l))).
    rewrite rest_scale by exact HI. rewrite !dist_scale, !secant_scale by assumption. rewrite edge_scale by lra. reflexivity.
Qed.

(** One piece in the other units. *)
Definition rescaled (c0 c1 : list R) : Prop := forall t,
  horner c1 (a * t) = c * horner c0 t /\
  horner (col_deriv c1) (a * t) = c / a * horner (col_deriv c0) t /\
  horner (col_deriv (col_deriv c1)) (a * t) = c / a ^ 2 * horner (col_deriv (col_deriv c0)) t.

Lemma piece_scale p q d0 d1 : fst p < fst q -> rescaled (hermite_col p q d0 d1) (hermite_col (g p) (g q) (k * d0) (k * d1)).
Proof.
  intros L t. unfold hermite_col. rewrite dist_scale, secant_scale by exact L.
  set (h := fst q - fst p). assert (H : 0 < h) by (unfold h; lra).
  unfold horner. cbn [col_deriv length fold_left INR snd g]. unfold k.
  repeat split; field; lra.
Qed.

Lemma cols_scale l : forall ds, incr l ->
  Forall2 rescaled (hermite_cols l ds) (hermite_cols (map g l) (map (Rmult k) ds)).
Proof.
  induction l as [|p l IH]; intros ds HI; [constructor|].
  destruct ds as [|d0 ds]; [destruct l; constructor|].
  destruct l as [|q l]; [constructor|]. destruct ds as [|d1 ds]; [constructor|].
  destruct HI as [I1 I2]. constructor; [apply piece_scale; exact I1|]. apply (IH (d1 :: ds) I2).
Qed.

Lemma eval_scale (s : R) (f : list R -> list R) t : forall xs cs cs',
  Forall2 (fun c0 c1 => forall t, horner (f c1) (a * t) = s * horner (f c0) t) cs cs' ->
  pp_eval_aux (positions a b xs) (map f cs') (a * t + b) = s * pp_eval_aux xs (map f cs) t.
Proof.
  induction xs as [|x0 xs IH]; intros cs cs' F; [cbn; ring|].
  destruct F as [|c0 c1 cs cs' H F]; [cbn; ring|].
  cbn [positions map pp_eval_aux]. fold (positions a b xs).
  assert (E : horner (f c1) (a * t + b - (a * x0 + b)) = s * horner (f c0) (t - x0)).
  { rewrite <- H. f_equal. ring. }
  destruct xs as [|x1 xs]; [exact E|]. destruct F as [|c2 c3 cs cs' H' F]; [exact E|].
  change (positions a b (x1 :: xs)) with (a * x1 + b :: positions a b xs). cbn [map].
  destruct (Rlt_dec (a * t + b) (a * x1 + b)) as [L|L]; destruct (Rlt_dec t x1) as [L'|L'].
  - exact E.
  - exfalso. assert (a * x1 <= a * t) by (apply Rmult_le_compat_l; lra). lra.
  - exfalso. assert (a * t < a * x1) by (apply Rmult_lt_compat_l; lra). lra.
  - apply (IH (c2 :: cs) (c3 :: cs')). constructor; assumption.
Qed.

Lemma increasing_scale xs : strictly_increasing (positions a b xs) = strictly_increasing xs.
Proof.
  induction xs as [|x [|y xs] IH]; try reflexivity.
  change (strictly_increasing (positions a b (x :: y :: xs)))
    with (Rltb (a * x + b) (a * y + b) && strictly_increasing (positions a b (y :: xs))).
  rewrite IH. change (strictly_increasing (x :: y :: xs)) with (Rltb x y && strictly_increasing (y :: xs)). f_equal.
  rewrite <- (Rltb_scale a x y Ha). destruct (Rltb (a * x) (a * y)) eqn:E.
  - apply Rltb_iff in E. apply Rltb_true. lra.
  - apply Rltb_false. apply Rnot_lt_le. intros Q. assert (a * x < a * y) as Q' by lra.
    apply (proj2 (Rltb_iff _ _)) in Q'. congruence.
Qed.

Lemma combine_scale xs : forall ys, combine (positions a b xs) (values c ys) = map g (combine xs ys).
Proof. induction xs as [|x xs IH]; intros [|y ys]; try reflexivity. cbn. f_equal. apply IH. Qed.

Lemma fit_scale xs ys p p' : pchip_fit xs ys = Ok p -> pchip_fit (positions a b xs) (values c ys) = Ok p' -> forall t,
  pp_eval p' (a * t + b) = c * pp_eval p t /\
  pp_eval (pp_derivative p') (a * t + b) = c / a * pp_eval (pp_derivative p) t /\
  pp_eval (pp_derivative (pp_derivative p')) (a * t + b) = c / a ^ 2 * pp_eval (pp_derivative (pp_derivative p)) t.
Proof.
  intros Hp Hp' t.
  destruct (fit_inv _ _ _ Hp) as (E1 & E2 & E3 & E4 & E5). destruct (fit_inv _ _ _ Hp') as (_ & _ & _ & F4 & F5).
  pose proof (incr_combine xs ys E1 E3) as HI.
  rewrite combine_scale, slopes_scale in F5 by exact HI.
  pose proof (cols_scale (combine xs ys) (pchip_slopes (combine xs ys)) HI) as C.
  rewrite <- E5, <- F5 in C.
  unfold pp_eval. cbn [pp_derivative pp_x pp_c]. rewrite E4, F4, !map_map.
  split; [|split].
  - rewrite <- (map_id (pp_c p)), <- (map_id (pp_c p')). apply (eval_scale c (fun x => x)).
    revert C; apply Forall2_mono; intros c0 c1 H s; apply H.
  - apply (eval_scale (c / a) col_deriv).
    revert C; apply Forall2_mono; intros c0 c1 H s; apply H.
  - apply (eval_scale (c / a ^ 2) (fun x => col_deriv (col_deriv x))).
    revert C; apply Forall2_mono; intros c0 c1 H s; apply H.
Qed.
End Units.

Lemma points_units_lemma m1 m2 xs us a b c x : 0 < a ->
  given_by_points m1 xs us -> given_by_points m2 (positions a b xs) (values c us) ->
  in_proportion m1 m2 x (a * x + b) c (c / a) (c / a ^ 2).
Proof.
  intros A G1 G2. destruct (points_fit3 _ _ _ G1) as (p & Hp & Q1). destruct (points_fit3 _ _ _ G2) as (p' & Hp' & Q2).
  destruct (Q1 x) as (A1 & A2 & A3). destruct (Q2 (a * x + b)) as (B1 & B2 & B3).
  destruct (fit_scale a b c A xs us p p' Hp Hp' x) as (S1 & S2 & S3).
  rewrite S1 in B1. rewrite S2 in B2. rewrite S3 in B3.
  exists (pp_eval p x), (pp_eval (pp_derivative p) x), (pp_eval (pp_derivative (pp_derivative p)) x).
  repeat split; assumption.
Qed.

Lemma usable_units_lemma xs us a b c : 0 < a -> usable_points (positions a b xs) (values c us) <-> usable_points xs us.
Proof.
  intros A. unfold usable_points, positions, values. rewrite !map_length.
  split; intros (H1 & H2 & H3); (split; [exact H1|]); (split; [exact H2|]).
  - intros i x y X Y. specialize (H3 i (a * x + b) (a * y + b)).
    rewrite (map_nth_error _ _ _ X), (map_nth_error _ _ _ Y) in H3. specialize (H3 eq_refl eq_refl).
    apply (Rmult_lt_reg_l a); lra.
  - intros i x y X Y. rewrite nth_error_map in X, Y.
    destruct (nth_error xs i) as [x0|] eqn:X0; [|discriminate]. destruct (nth_error xs (S i)) as [y0|] eqn:Y0; [|discriminate].
    cbn in X, Y. injection X as <-. injection Y as <-. specialize (H3 i x0 y0 X0 Y0).
    assert (a * x0 < a * y0) by (apply Rmult_lt_compat_l; assumption). lra.
Qed.

(** Two functions with the same derivative everywhere and one common value. *)
Lemma same_function (f f' : R -> R) df x0 : (forall t, is_derive f t (df t)) -> (forall t, is_derive f' t (df t)) ->
  f x0 = f' x0 -> forall x, f x = f' x.
Proof.
  intros D D' E x.
  destruct (MVT_gen (fun t => f t - f' t) x0 x (fun t => 0)) as (z & _ & Q).
  - intros t _. replace 0 with (df t - df t) by ring. apply (is_derive_minus f f'); [apply D|apply D'].
  - intros t _. apply continuity_pt_filterlim. apply (ex_derive_continuous (fun t => f t - f' t)).
    exists (df t - df t). apply (is_derive_minus f f'); [apply D|apply D'].
  - lra.
Qed.

Lemma gradient_points_units_lemma m1 m2 u0 xs gs a b c x : 0 < a ->
  given_by_gradient_points m1 u0 xs gs -> given_by_gradient_points m2 (c * u0) (positions a b xs) (values (c / a) gs) ->
  in_proportion m1 m2 x (a * x + b) c (c / a) (c / a ^ 2).
Proof.
  intros A G1 G2.
  destruct (gradient_points_fit _ _ _ _ G1) as (p & Hp & Q1). destruct (gradient_points_fit _ _ _ _ G2) as (p' & Hp' & Q2).
  destruct (fit_integral xs gs p u0 Hp) as [V1 V2]. destruct (fit_integral _ _ p' (c * u0) Hp') as [W1 W2].
  set (V := pp_eval (pp_shift (pp_antiderivative p) u0)) in *.
  set (W := pp_eval (pp_shift (pp_antiderivative p') (c * u0))) in *.
  assert (S : forall t, W (a * t + b) = c * V t).
  { apply (same_function _ _ (fun t => c * pp_eval p t) (hd 0 xs)).
    - intros t. destruct (fit_scale a b (c / a) A xs gs p p' Hp Hp' t) as (S1 & _).
      replace (c * pp_eval p t) with (a * pp_eval p' (a * t + b)) by (rewrite S1; field; lra).
      apply (is_derive_comp W (fun t => a * t + b)); [apply W2|]. auto_derive; [trivial|ring].
    - intros t. apply (is_derive_scal V t c). apply V2.
    - rewrite V1. rewrite <- W1 at 1. f_equal. destruct (fit_inv _ _ _ Hp) as (_ & L & _).
      destruct xs; [cbn in L; lia|reflexivity]. }
  destruct (Q1 x) as (A1 & A2 & A3). destruct (Q2 (a * x + b)) as (B1 & B2 & B3).
  destruct (fit_scale a b (c / a) A xs gs p p' Hp Hp' x) as (S1 & S2 & S3).
  rewrite S in B1. rewrite S1 in B2. rewrite S2 in B3.
  exists (V x), (pp_eval p x), (pp_eval (pp_derivative p) x). repeat split; try assumption.
  rewrite B3. f_equal. field. lra.
Qed.

(* ------------------------------------------------------------------ *)
(** * Locality *)

(** The slope at place [i], from the points around it. *)
Definition slope_here (l : list (R * R)) (i : nat) : option R :=
  match i with
  | O =>
      match nth_error l 0, nth_error l 1, nth_error l 2 with
      | Some p, Some q, None => Some (secant p q)
      | Some p, Some q, Some r => Some (pchip_edge (fst q - fst p) (fst r - fst q) (secant p q) (secant q r))
      | _, _, _ => None
      end
  | S j =>
      match nth_error l j, nth_error l i, nth_error l (S i) with
      | Some p, Some q, Some r => Some (pchip_inner p q r)
      | Some p, Some q, None =>
          match j with
          | O => Some (secant p q)
          | S n => match nth_error l n with
                   | Some o => Some (pchip_edge (fst q - fst p) (fst p - fst o) (secant p q) (secant o p))
                   | None => None
                   end
          end
      | _, _, _ => None
      end
  end.

Lemma rest_nth l : forall p0 p1 j, l <> [] -> nth_error (pchip_rest p0 p1 l) j = slope_here (p0 :: p1 :: l) (S j).
Proof.
  induction l as [|p2 l IH]; intros p0 p1 j N; [congruence|]. cbn [pchip_rest].
  destruct j as [|j]; [reflexivity|].
  destruct l as [|p3 l].
  - destruct j as [|j]; [reflexivity|]. cbn. destruct j as [|j]; [reflexivity|]. cbn. destruct j; reflexivity.
  - change (nth_error (pchip_inner p0 p1 p2 :: pchip_rest p1 p2 (p3 :: l)) (S j)) with (nth_error (pchip_rest p1 p2 (p3 :: l)) j).
    rewrite (IH p1 p2 j) by discriminate. unfold slope_here. destruct j as [|j]; reflexivity.
Qed.

Lemma slopes_nth l i : nth_error (pchip_slopes l) i = slope_here l i.
Proof.
  destruct l as [|p0 [|p1 [|p2 l]]].
  - destruct i as [|[|i]]; reflexivity.
  - destruct i as [|[|i]]; try reflexivity. cbn. destruct i; reflexivity.
  - destruct i as [|[|[|i]]]; try reflexivity. cbn. destruct i; reflexivity.
  - destruct i as [|i]; [reflexivity|].
    change (nth_error (pchip_slopes (p0 :: p1 :: p2 :: l)) (S i)) with (nth_error (pchip_rest p0 p1 (p2 :: l)) i).
    apply rest_nth. discriminate.
Qed.

Lemma cols_nth l : forall ds i, nth_error (hermite_cols l ds) i =
  match nth_error l i, nth_error l (S i), nth_error ds i, nth_error ds (S i) with
  | Some p, Some q, Some d0, Some d1 => Some (hermite_col p q d0 d1)
  | _, _, _, _ => None
  end.
Proof.
  induction l as [|p l IH]; intros ds i; [destruct ds, i; reflexivity|].
  destruct ds as [|d0 ds].
  { cbn [hermite_cols]. replace (nth_error (@nil R) i) with (@None R) by (destruct i; reflexivity).
    replace (nth_error (@nil (list R)) i) with (@None (list R)) by (destruct i; reflexivity).
    destruct (nth_error (p :: l) i); [destruct (nth_error (p :: l) (S i))|]; reflexivity. }
  destruct l as [|q l].
  { cbn [hermite_cols]. replace (nth_error (@nil (list R)) i) with (@None (list R)) by (destruct i; reflexivity).
    destruct i as [|i]; [reflexivity|]. cbn. destruct i; reflexivity. }
  destruct ds as [|d1 ds].
  { cbn [hermite_cols]. replace (nth_error (@nil (list R)) i) with (@None (list R)) by (destruct i; reflexivity).
    replace (nth_error [d0] (S i)) with (@None R) by (destruct i; reflexivity).
    destruct (nth_error (p :: q :: l) i); [destruct (nth_error (p :: q :: l) (S i)); [destruct (nth_error [d0] i)|]|]; reflexivity. }
  destruct i as [|i]; [reflexivity|]. apply (IH (d1 :: ds) i).
Qed.

(** Evaluation uses one column. *)
Lemma eval_at t : forall xs cs i x0 x1 c, strictly_increasing xs = true -> S (length cs) = length xs ->
  nth_error xs i = Some x0 -> nth_error xs (S i) = Some x1 -> nth_error cs i = Some c ->
  (i = O \/ x0 <= t) -> (t < x1 \/ nth_error xs (S (S i)) = None) ->
  pp_eval_aux xs cs t = horner c (t - x0).
Proof.
  induction xs as [|y0 xs IH]; intros cs i x0 x1 c HI HL X0 X1 C H0 H1; [destruct i; discriminate|].
  destruct xs as [|y1 xs]; [destruct i as [|[|i]]; discriminate|].
  destruct cs as [|c0 cs]; [discriminate|].
  destruct cs as [|c1 cs].
  - destruct xs; [|discriminate]. destruct i as [|i]; [injection X0 as <-; injection C as <-; reflexivity|].
    destruct i; discriminate.
  - apply andb_true_iff in HI. destruct HI as [I1 I2]. cbn [pp_eval_aux].
    destruct i as [|i].
    + injection X0 as <-. injection X1 as <-. injection C as <-.
      destruct (Rlt_dec t y1) as [L|L]; [reflexivity|]. destruct H1 as [H1|H1]; [lra|].
      destruct xs; [discriminate HL|discriminate H1].
    + destruct H0 as [H0|H0]; [discriminate|].
      assert (y1 <= x0).
      { clear - I2 X0. cbn [nth_error] in X0. revert y1 i I2 X0. induction xs as [|z xs IH]; intros y1 i I2 X0.
        - destruct i as [|i]; [injection X0 as <-; lra|destruct i; discriminate].
        - destruct i as [|i]; [injection X0 as <-; lra|]. apply andb_true_iff in I2. destruct I2 as [L I2].
          apply Rltb_iff in L. specialize (IH z i I2 X0). lra. }
      destruct (Rlt_dec t y1) as [L|L]; [lra|].
      apply (IH (c1 :: cs) i x0 x1 c I2); try assumption.
      * cbn in HL |- *. lia.
      * right. exact H0.
Qed.

Lemma cols_length l : forall ds, length ds = length l -> l <> [] -> S (length (hermite_cols l ds)) = length l.
Proof.
  induction l as [|p l IH]; intros ds E N; [congruence|]. destruct ds as [|d0 ds]; [discriminate|].
  destruct l as [|q l]; [reflexivity|]. destruct ds as [|d1 ds]; [discriminate|].
  cbn [hermite_cols length] in *. f_equal. apply (IH (d1 :: ds)); [cbn; lia|discriminate].
Qed.

Lemma good_length l : forall ds, good l ds -> length ds = length l.
Proof.
  induction l as [|p l IH]; intros [|d0 ds] G; try contradiction. 
  destruct l as [|q l], ds as [|d1 ds]; try contradiction; [reflexivity|].
  destruct G as (_ & _ & _ & G). cbn [length]. f_equal. exact (IH _ G).
Qed.

Lemma nth_combine_eq (xs : list R) : forall (ys : list R) j, nth_error (combine xs ys) j =
  match nth_error xs j, nth_error ys j with Some x, Some y => Some (x, y) | _, _ => None end.
Proof.
  induction xs as [|x xs IH]; intros [|y ys] [|j]; try reflexivity.
  - cbn. destruct (nth_error xs j); reflexivity.
  - cbn [combine nth_error]. apply IH.
Qed.

Lemma slope_agree (l l' : list (R * R)) i :
  (forall j, (i <= j + 1)%nat -> (j <= i + 2)%nat -> nth_error l j = nth_error l' j) -> nth_error l (S i) <> None ->
  slope_here l i = slope_here l' i /\ slope_here l (S i) = slope_here l' (S i).
Proof.
  intros H N. split.
  - unfold slope_here. destruct i as [|i].
    + rewrite !H by lia. reflexivity.
    + rewrite (H (S (S i))) in N by lia. rewrite (H i), (H (S i)), (H (S (S i))) by lia.
      destruct (nth_error l' i); [|reflexivity]. destruct (nth_error l' (S i)) as [q|]; [|reflexivity].
      destruct (nth_error l' (S (S i))) as [r|] eqn:E; [reflexivity|congruence].
  - unfold slope_here. rewrite (H i), (H (S i)), (H (S (S i))) by lia.
    destruct (nth_error l' i); [|reflexivity]. destruct (nth_error l' (S i)) as [q|]; [|reflexivity].
    destruct (nth_error l' (S (S i))); [reflexivity|]. destruct i as [|i]; [reflexivity|]. rewrite (H i) by lia. reflexivity.
Qed.

Lemma fit_local xs ys xs' ys' p p' i x0 x1 t : pchip_fit xs ys = Ok p -> pchip_fit xs' ys' = Ok p' ->
  agree_around i xs xs' -> agree_around i ys ys' ->
  nth_error xs i = Some x0 -> nth_error xs (S i) = Some x1 ->
  (i = O \/ x0 <= t) -> (t < x1 \/ nth_error xs (S (S i)) = None) ->
  pp_eval p' t = pp_eval p t /\ pp_eval (pp_derivative p') t = pp_eval (pp_derivative p) t /\
  pp_eval (pp_derivative (pp_derivative p')) t = pp_eval (pp_derivative (pp_derivative p)) t.
Proof.
  intros Hp Hp' Ax Ay X0 X1 H0 H1.
  destruct (fit_inv _ _ _ Hp) as (E1 & E2 & E3 & E4 & E5). destruct (fit_inv _ _ _ Hp') as (F1 & F2 & F3 & F4 & F5).
  destruct (fit_facts _ _ _ Hp) as (_ & _ & _ & G & _). destruct (fit_facts _ _ _ Hp') as (_ & _ & _ & G' & _).
  set (l := combine xs ys) in *. set (l' := combine xs' ys') in *.
  assert (A : forall j, (i <= j + 1)%nat -> (j <= i + 2)%nat -> nth_error l j = nth_error l' j).
  { intros j J1 J2. unfold l, l'. rewrite !nth_combine_eq, (Ax j J1 J2), (Ay j J1 J2). reflexivity. }
  assert (LL : length l = length xs) by (unfold l; rewrite combine_length; lia).
  assert (LL' : length l' = length xs') by (unfold l'; rewrite combine_length; lia).
  assert (N : nth_error l (S i) <> None).
  { apply nth_error_Some. rewrite LL. apply nth_error_Some. congruence. }
  assert (N0 : nth_error l i <> None) by (apply nth_error_Some; apply nth_error_Some in N; lia).
  destruct (slope_agree l l' i A N) as [S0 S1].
  assert (HC : nth_error (hermite_cols l (pchip_slopes l)) i = nth_error (hermite_cols l' (pchip_slopes l')) i).
  { rewrite !cols_nth, !slopes_nth, S0, S1, (A i), (A (S i)) by lia. reflexivity. }
  assert (K : S (length (pp_c p)) = length xs).
  { rewrite E5, <- LL. apply cols_length; [apply good_length; exact G|]. intros Q. rewrite Q in N. apply N. destruct i; reflexivity. }
  assert (K' : S (length (pp_c p')) = length xs').
  { rewrite F5, <- LL'. apply cols_length; [apply good_length; exact G'|]. intros Q. rewrite (A (S i)), Q in N by lia.
    apply N. destruct i; reflexivity. }
  destruct (nth_error (pp_c p) i) as [c|] eqn:C.
  2:{ apply nth_error_None in C. assert (S i < length xs)%nat by (apply nth_error_Some; congruence). lia. }
  assert (C' : nth_error (pp_c p') i = Some c) by (rewrite F5, <- HC, <- E5; exact C).
  assert (X0' : nth_error xs' i = Some x0) by (rewrite <- Ax by lia; exact X0).
  assert (X1' : nth_error xs' (S i) = Some x1) by (rewrite <- Ax by lia; exact X1).
  assert (H1' : t < x1 \/ nth_error xs' (S (S i)) = None) by (rewrite <- Ax by lia; exact H1).
  unfold pp_eval. cbn [pp_derivative pp_x pp_c]. rewrite E4, F4, !map_map.
  split; [|split].
  - rewrite (eval_at t xs _ i x0 x1 c), (eval_at t xs' _ i x0 x1 c); try assumption. reflexivity.
  - rewrite (eval_at t xs _ i x0 x1 (col_deriv c)), (eval_at t xs' _ i x0 x1 (col_deriv c));
      try assumption; try (rewrite map_length; assumption); try (apply map_nth_error; assumption). reflexivity.
  - rewrite (eval_at t xs _ i x0 x1 (col_deriv (col_deriv c))), (eval_at t xs' _ i x0 x1 (col_deriv (col_deriv c)));
      try assumption; try (rewrite map_length; assumption);
      try (apply (map_nth_error (fun x => col_deriv (col_deriv x))); assumption). reflexivity.
Qed.

Lemma points_local_lemma m1 m2 xs us xs' us' i x0 x1 x :
  given_by_points m1 xs us -> given_by_points m2 xs' us' ->
  agree_around i xs xs' -> agree_around i us us' ->
  nth_error xs i = Some x0 -> nth_error xs (S i) = Some x1 ->
  (i = O \/ x0 <= x) -> (x < x1 \/ nth_error xs (S (S i)) = None) ->
  q_u_e m2 x = q_u_e m1 x /\ q_du_e m2 x = q_du_e m1 x /\ q_d2u_e m2 x = q_d2u_e m1 x.
Proof.
  intros G1 G2 Ax Ay X0 X1 H0 H1. destruct (points_fit3 _ _ _ G1) as (p & Hp & Q1). destruct (points_fit3 _ _ _ G2) as (p' & Hp' & Q2).
  destruct (Q1 x) as (A1 & A2 & A3). destruct (Q2 x) as (B1 & B2 & B3).
  destruct (fit_local xs us xs' us' p p' i x0 x1 x Hp Hp' Ax Ay X0 X1 H0 H1) as (S1 & S2 & S3).
  rewrite A1, A2, A3, B1, B2, B3, S1, S2, S3. repeat split; reflexivity.
Qed.

(** Gradient points: gradients are local, and the velocity does not depend on the points further on. *)
Lemma gradient_points_local_lemma m1 m2 u0 u0' xs gs xs' gs' i x0 x1 x :
  given_by_gradient_points m1 u0 xs gs -> given_by_gradient_points m2 u0' xs' gs' ->
  agree_around i xs xs' -> agree_around i gs gs' ->
  nth_error xs i = Some x0 -> nth_error xs (S i) = Some x1 ->
  (i = O \/ x0 <= x) -> (x < x1 \/ nth_error xs (S (S i)) = None) ->
  q_du_e m2 x = q_du_e m1 x /\ q_d2u_e m2 x = q_d2u_e m1 x.
Proof.
  intros G1 G2 Ax Ay X0 X1 H0 H1.
  destruct (gradient_points_fit _ _ _ _ G1) as (p & Hp & Q1). destruct (gradient_points_fit _ _ _ _ G2) as (p' & Hp' & Q2).
  destruct (Q1 x) as (A1 & A2 & A3). destruct (Q2 x) as (B1 & B2 & B3).
  destruct (fit_local xs gs xs' gs' p p' i x0 x1 x Hp Hp' Ax Ay X0 X1 H0 H1) as (S1 & S2 & S3).
  rewrite A2, A3, B2, B3, S1, S2. split; reflexivity.
Qed.

(** Every position left of a point is in the reach of an interval that ends there or earlier. *)
Lemma interval_left xs : forall i x0 x1 t, strictly_increasing xs = true -> nth_error xs i = Some x0 -> nth_error xs (S i) = Some x1 ->
  t < x1 -> exists k y0 y1, (k <= i)%nat /\ nth_error xs k = Some y0 /\ nth_error xs (S k) = Some y1 /\ (k = O \/ y0 <= t) /\ t < y1.
Proof.
  intros i. induction i as [|i IH]; intros x0 x1 t HI X0 X1 L.
  - exists O, x0, x1. repeat split; auto.
  - destruct (Rle_dec x0 t) as [H|H].
    + exists (S i), x0, x1. repeat split; auto.
    + destruct (nth_error xs i) as [y|] eqn:Y.
      * destruct (IH y x0 t HI eq_refl X0 ltac:(lra)) as (k & y0 & y1 & K & R1). exists k, y0, y1. split; [lia|exact R1].
      * apply nth_error_None in Y. assert (S i < length xs)%nat by (apply nth_error_Some; congruence). lia.
Qed.

Lemma gradient_points_upstream_lemma m1 m2 u0 xs gs xs' gs' i x0 x1 x :
  given_by_gradient_points m1 u0 xs gs -> given_by_gradient_points m2 u0 xs' gs' ->
  (forall j, (j <= i + 2)%nat -> nth_error xs j = nth_error xs' j /\ nth_error gs j = nth_error gs' j) ->
  nth_error xs i = Some x0 -> nth_error xs (S i) = Some x1 -> x < x1 ->
  q_u_e m2 x = q_u_e m1 x.
Proof.
  intros G1 G2 A X0 X1 H1.
  destruct (gradient_points_fit _ _ _ _ G1) as (p & Hp & Q1). destruct (gradient_points_fit _ _ _ _ G2) as (p' & Hp' & Q2).
  destruct (Q1 x) as (A1 & _). destruct (Q2 x) as (B1 & _). rewrite A1, B1. f_equal.
  destruct (fit_inv _ _ _ Hp) as (_ & L & HI & _).
  assert (E : forall t, t < x1 -> pp_eval p' t = pp_eval p t).
  { intros t Ht. destruct (interval_left xs i x0 x1 t HI X0 X1 Ht) as (k & y0 & y1 & K & Y0 & Y1 & H0 & H2).
    apply (fit_local xs gs xs' gs' p p' k y0 y1 t Hp Hp'); try assumption; try (left; assumption);
      intros j J1 J2; apply A; lia. }
  destruct (fit_integral xs gs p u0 Hp) as [V1 V2]. destruct (fit_integral _ _ p' u0 Hp') as [W1 W2].
  set (V := pp_eval (pp_shift (pp_antiderivative p) u0)) in *.
  set (W := pp_eval (pp_shift (pp_antiderivative p') u0)) in *.
  assert (Eh : hd 0 xs' = hd 0 xs).
  { destruct (A O ltac:(lia)) as [Q _]. destruct xs as [|a xs]; [cbn in L; lia|]. destruct xs' as [|a' xs']; [discriminate|].
    cbn in Q |- *. congruence. }
  assert (Lh : hd 0 xs < x1).
  { clear - HI X1. destruct xs as [|a xs]; [discriminate|]. cbn [nth_error hd] in *. revert a i HI X1.
    induction xs as [|b xs IH]; intros a i HI X1; [destruct i; discriminate|].
    apply andb_true_iff in HI. destruct HI as [L HI]. apply Rltb_iff in L.
    destruct i as [|i]; [injection X1 as <-; exact L|]. specialize (IH b i HI X1). lra. }
  rewrite Eh in W1.
  destruct (MVT_gen (fun t => W t - V t) (hd 0 xs) x (fun t => pp_eval p' t - pp_eval p t)) as (z & Hz & Q).
  - intros t _. apply (is_derive_minus W V); [apply W2|apply V2].
  - intros t _. apply continuity_pt_filterlim. apply (ex_derive_continuous (fun t => W t - V t)).
    exists (pp_eval p' t - pp_eval p t). apply (is_derive_minus W V); [apply W2|apply V2].
  - assert (z < x1) by (destruct Hz as [_ Hz]; apply Rle_lt_trans with (1 := Hz); apply Rmax_lub_lt; assumption).
    rewrite E in Q by assumption. rewrite W1, V1 in Q. lra.
Qed.

Lemma points_units_accepted_lemma m xs us a b c v1 v2 w1 w2 du d2u : 0 < a ->
  np_asarray v1 = Ok (vec xs) -> np_asarray v2 = Ok (vec us) ->
  np_asarray w1 = Ok (vec (positions a b xs)) -> np_asarray w2 = Ok (vec (values c us)) ->
  snd (set_velocity pchip_scipy m (PTup [w1; w2]) du d2u) = snd (set_velocity pchip_scipy m (PTup [v1; v2]) du d2u) /\
  forall u0 u1, snd (set_velocity pchip_scipy m (PNum u1) (PTup [w1; w2]) d2u) =
    snd (set_velocity pchip_scipy m (PNum u0) (PTup [v1; v2]) d2u).
Proof.
  intros A H1 H2 K1 K2. pose proof (usable_units_lemma xs us a b c A) as UU.
  assert (D : usable_points xs us \/ ~ usable_points xs us).
  { destruct (fit_usable xs us) as [F1 F2]. destruct (pchip_fit xs us) as [p|e] eqn:E.
    - left. destruct (fit_inv _ _ _ E) as (L1 & L2 & L3 & _). split; [exact L1|]. split; [exact L2|].
      apply strictly_increasing_iff. exact L3.
    - right. intros U. destruct (F1 U) as [p Hp]. discriminate. }
  split.
  - destruct (points_velocity_lemma m v1 v2 xs us du d2u H1 H2) as [P1 P2].
    destruct (points_velocity_lemma m w1 w2 _ _ du d2u K1 K2) as [R1 R2].
    destruct D as [D|D].
    + destruct (P2 D) as (? & ? & ? & ? & E & _). destruct (R2 (proj2 UU D)) as (? & ? & ? & ? & E' & _).
      rewrite E, E'. reflexivity.
    + rewrite (P1 D), (R1 (fun Q => D (proj1 UU Q))). reflexivity.
  - intros u0 u1. destruct (derivative_points_lemma m u0 v1 v2 xs us d2u H1 H2) as [P1 P2].
    destruct (derivative_points_lemma m u1 w1 w2 _ _ d2u K1 K2) as [R1 R2].
    destruct D as [D|D].
    + destruct (P2 D) as (? & ? & ? & ? & E & _). destruct (R2 (proj2 UU D)) as (? & ? & ? & ? & E' & _).
      rewrite E, E'. reflexivity.
    + rewrite (P1 D), (R1 (fun Q => D (proj1 UU Q))). reflexivity.
Qed.
