(** C165: the velocity of a loaded XFoil surface is accepted by every method. *)
From Coq Require Import Reals List String Bool Lra Lia Sorted.
From Verif Require Import PyBase PyBaseFacts PyText PPolyModel PchipModel CoreModel CoreSpec CoreRefute
  WorkflowSpec XFoilModel XFoilSpec XFoilProps XFoilFlowSpec XFoilFlowProofs.
Import ListNotations.
Open Scope R_scope.

Theorem xfoil_surface_velocity : forall floats read r r1 r2 f up lo wake pu s1 v s2 lv pl w,
  file_holds floats read f (up ++ lo) wake ->
  stations up (pu ++ [(s1, v)]) -> stations lo ((s2, lv) :: pl) ->
  (forall p, In p pu -> 0 <= snd p) -> 0 < v -> lv < 0 ->
  Sorted Rlt (map fst ((pu ++ [(s1, v)]) ++ (s2, lv) :: pl)) ->
  set_filename floats read r f = (r1, Ok tt) ->
  do_raction floats read r1 (RSetURef (Fin w)) = (r2, Ok tt) ->
  let s0 := at_zero v s1 lv s2 in
  let upper := upper_points s0 w (pu ++ [(s1, v)]) in
  let lower := lower_points s0 w ((s2, lv) :: pl) in
  column (qs_upper r2) (map fst upper) /\ column (qu_e_upper r2) (map snd upper) /\
  column (qs_lower r2) (map fst lower) /\ column (qu_e_lower r2) (map snd lower) /\
  forall m du d2u,
    (exists m', set_velocity pchip_scipy m
       (PTup [PArr (vec (map fst upper)); PArr (vec (map snd upper))]) du d2u = (m', Ok tt) /\
       flows_through m' upper) /\
    (exists m', set_velocity pchip_scipy m
       (PTup [PArr (vec (map fst lower)); PArr (vec (map snd lower))]) du d2u = (m', Ok tt) /\
       flows_through m' lower).
Proof. exact surface_velocity_lemma. Qed.
Print Assumptions xfoil_surface_velocity.

(** The example dump at reference velocity 10: stagnation point at arc length 11, where the flow is
    at rest; 3 further along the lower surface it has velocity 30, and it never exceeds 40. *)
Example xfoil_surface_velocity_case : exists r1 r2 m',
  set_filename py_floats ex_read reader0 "ex" = (r1, Ok tt) /\
  do_raction py_floats ex_read r1 (RSetURef (Fin 10)) = (r2, Ok tt) /\
  qs_lower r2 = [Fin 0; Fin 3; Fin 14] /\
  set_velocity pchip_scipy w_thwaites (PTup [PArr (vec [0; 3; 14]); PArr (vec [0; 30; 40])]) PNone PNone
    = (m', Ok tt) /\
  q_u_e m' 0 = Ok 0 /\ q_u_e m' 3 = Ok 30 /\
  forall x, 0 <= x <= 14 -> exists u, q_u_e m' x = Ok u /\ 0 <= u <= 40.
Proof.
  destruct ex_loads as [r1 H].
  assert (E : do_raction py_floats ex_read r1 (RSetURef (Fin 10)) = (rwith_u_ref r1 (Fin 10), Ok tt)).
  { cbn [do_raction]. unfold rset_u_ref. cbn [xleb]. rewrite Rleb_false by lra. reflexivity. }
  assert (SU : stations [u1; u2] ([(0, 4)] ++ [(10, 1)])) by (repeat constructor).
  assert (SL : stations [l1; l2] ((14, -3) :: [(25, -4)])) by (repeat constructor).
  assert (PU : forall p : R * R, In p [(0, 4)] -> 0 <= snd p) by (intros p [<-|[]]; cbn; lra).
  assert (SS : Sorted Rlt (map fst (([(0, 4)] ++ [(10, 1)]) ++ (14, -3) :: [(25, -4)]))).
  { cbn [map fst app]. repeat (apply Sorted_cons; [|first [apply HdRel_nil|apply HdRel_cons; lra]]). apply Sorted_nil. }
  destruct (xfoil_surface_velocity _ _ _ _ _ _ _ _ _ _ _ _ _ _ _ _ ex_holds SU SL PU
    ltac:(lra) ltac:(lra) SS H E) as (_ & _ & Q & _ & A).
  destruct (proj2 (A w_thwaites PNone PNone)) as (m' & EV & T & B).
  assert (S0 : at_zero 1 10 (-3) 14 = 11) by (unfold at_zero; field).
  unfold lower_points in *. rewrite S0 in *. cbn [map fst snd] in *.
  replace (14 - 11) with 3 in * by ring. replace (25 - 11) with 14 in * by ring.
  replace (- (10 * -3)) with 30 in * by ring. replace (- (10 * -4)) with 40 in * by ring.
  exists r1, (rwith_u_ref r1 (Fin 10)), m'. split; [exact H|]. split; [exact E|]. split; [exact Q|].
  split; [exact EV|]. split; [apply T; left; reflexivity|]. split; [apply T; right; left; reflexivity|].
  intros x Hx. apply B; [|exact Hx].
  intros y u [K|[K|[K|[]]]]; injection K as <- <-; lra.
Qed.
