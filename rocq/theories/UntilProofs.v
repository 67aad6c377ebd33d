(** How long a continuous function stays below a bound (C112, C116). *)
From Coq Require Import Reals Lra.
From Coquelicot Require Import Coquelicot.
Open Scope R_scope.

(** The last point up to which a continuous function stays below a bound. *)
Lemma until (p : R -> R) a b M : a <= b -> (forall x, a <= x <= b -> continuous p x) -> p a < M ->
  exists c, a <= c <= b /\ (a < b -> a < c) /\ (forall x, a <= x <= c -> p x <= M) /\ (c = b \/ p c = M).
Proof.
  intros L C Pa. set (E := fun x => a <= x <= b /\ forall t, a <= t <= x -> p t <= M).
  destruct (completeness E) as [c [Uc Lc]].
  { exists b. intros x [Hx _]. lra. }
  { exists a. split; [lra|]. intros t Ht. replace t with a by lra. lra. }
  assert (Ea : E a) by (split; [lra|]; intros t Ht; replace t with a by lra; lra).
  assert (Hac := Uc a Ea). assert (Hcb : c <= b) by (apply Lc; intros x [Hx _]; lra).
  assert (Below : forall t, a <= t < c -> p t <= M).
  { intros t Ht. destruct (Rle_lt_dec (p t) M) as [Q|Q]; [exact Q|exfalso].
    assert (c <= t); [|lra]. apply Lc. intros x [Hx K]. destruct (Rle_lt_dec x t) as [R1|R1]; [exact R1|].
    specialize (K t ltac:(lra)). lra. }
  assert (Pos : a < b -> a < c).
  { intros Hab. destruct (C a ltac:(lra) (fun u => u < M)) as [e He]; [apply open_lt, Pa|].
    assert (Pe := cond_pos e). set (y := Rmin b (a + e / 2)).
    assert (Y1 := Rmin_l b (a + e / 2)). assert (Y2 := Rmin_r b (a + e / 2)). fold y in Y1, Y2.
    assert (Y3 : a < y) by (apply Rmin_glb_lt; lra).
    assert (y <= c); [|lra]. apply Uc. split; [lra|]. intros t Ht. left. apply He.
    unfold ball. simpl. unfold AbsRing_ball. simpl. unfold abs, minus, plus, opp. simpl. apply Rabs_lt_between. lra. }
  assert (Pc : p c <= M).
  { destruct (Rle_lt_dec (p c) M) as [Q|Q]; [exact Q|exfalso].
    destruct (C c ltac:(lra) (fun u => M < u)) as [e He]; [apply open_gt, Q|]. assert (Pe := cond_pos e).
    destruct (Req_dec a c) as [<-|N]; [lra|].
    set (t := Rmax a (c - e / 2)). assert (T1 := Rmax_l a (c - e / 2)). assert (T2 := Rmax_r a (c - e / 2)). fold t in T1, T2.
    assert (T3 : t < c) by (apply Rmax_lub_lt; lra).
    assert (K := Below t ltac:(lra)). assert (M < p t); [|lra]. apply He.
    unfold ball. simpl. unfold AbsRing_ball. simpl. unfold abs, minus, plus, opp. simpl. apply Rabs_lt_between. lra. }
  exists c. split; [lra|]. split; [exact Pos|]. split.
  { intros x Hx. destruct (Req_dec x c) as [->|N]; [exact Pc|apply Below; lra]. }
  destruct (Req_dec c b) as [->|N]; [left; reflexivity|right].
  destruct (Rle_lt_dec M (p c)) as [Q|Q]; [lra|exfalso].
  destruct (C c ltac:(lra) (fun u => u < M)) as [e He]; [apply open_lt, Q|]. assert (Pe := cond_pos e).
  set (y := Rmin b (c + e / 2)). assert (Y1 := Rmin_l b (c + e / 2)). assert (Y2 := Rmin_r b (c + e / 2)). fold y in Y1, Y2.
  assert (Y3 : c < y) by (apply Rmin_glb_lt; lra).
  assert (y <= c); [|lra]. apply Uc. split; [lra|]. intros t Ht.
  destruct (Rle_lt_dec t c) as [Q1|Q1]; [destruct (Req_dec t c) as [->|N1]; [lra|apply Below; lra]|].
  left. apply He. unfold ball. simpl. unfold AbsRing_ball. simpl. unfold abs, minus, plus, opp. simpl. apply Rabs_lt_between. lra.
Qed.

Lemma max_continuous (f g : R -> R) x : continuous f x -> continuous g x -> continuous (fun t => Rmax (f t) (g t)) x.
Proof.
  intros Cf Cg. apply (continuous_ext (fun t => / 2 * ((f t + g t) + Rabs (f t - g t)))).
  - intros t. unfold Rmax, Rabs. destruct (Rle_dec _ _), (Rcase_abs _); lra.
  - apply (continuous_scal_r (/ 2) (fun t => (f t + g t) + Rabs (f t - g t))).
    apply (continuous_plus (fun t => f t + g t) (fun t => Rabs (f t - g t))); [apply (continuous_plus f g x Cf Cg)|].
    apply (continuous_comp (fun t => f t - g t) Rabs); [apply (continuous_minus f g); assumption|apply continuous_Rabs].
Qed.
