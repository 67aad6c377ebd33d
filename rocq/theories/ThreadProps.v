(** Theorems about threads and interrupted calls (C136-C139). *)
From Coq Require Import Reals List String Bool ZArith Lia Lra.
From Verif Require Import PyBase PyBaseFacts InitialConditionModel CoreModel WorkflowModel
  EffectModel EffectSpec ThreadModel ThreadSpec ThreadProofs.
Import ListNotations.
Open Scope R_scope.

(* ------------------------------------------------------------------ *)
(** * C136 *)

(** C136: threads that each use method objects of their own, with conditions of their own
    (or shared ManualConditions that nobody assigns to), do not disturb each other: under
    every schedule [l] each thread is at every moment where it would be had it made its steps
    with no other thread running, its objects are as they would be, and when it is done its
    outcomes are those it has when it runs alone. *)
Theorem threads_independent : forall integrator D w calls l k,
  divided D w -> (forall j, List.Forall (keeps_to D j) (calls j)) ->
  let s := schedule (fun j => thread integrator (calls j)) w l in
  let t := psteps (turns k l) (thread integrator (calls k)) w in
  fst s k = fst t /\
  (forall i, owner D i = k ->
     w_meths (snd s) i = w_meths (snd t) i /\ w_ref (snd s) i = w_ref (snd t) i /\
     (shares D i = false -> view (snd s) i = view (snd t) i)) /\
  forall r, fst s k = Ret r -> finish (thread integrator (calls k)) w = (r, snd t).
Proof. exact threads_lemma. Qed.
Print Assumptions threads_independent.

Definition two_owners : division :=
  {| owner := fun i => i; shares := fun _ => false; cond_owner := fun r => Some r |}.
Definition two_plates : world :=
  {| w_conds := fun _ => new_manual (Fin 6) (Fin 2) (Fin 0);
     w_meths := fun i => flow Head (INR (S i)) (fun _ => 1) (fun _ => 0) None;
     w_ref := fun i => i; w_next := 2 |}.
Example threads_independent_case :
  let calls j := [TSetNu j (Fin (1/2)); TSetDeltaM j (Fin 3); TSolve j 0 1 []; TDeltaD j 1] in
  divided two_owners two_plates /\ forall j, List.Forall (keeps_to two_owners j) (calls j).
Proof.
  split.
  - split; [intros i; left; reflexivity|discriminate].
  - intros j. repeat constructor.
Qed.

(** C136, what a call does that runs alone: the steps of this model taken together are the
    calls of CoreModel; other objects stay as they are. *)
Theorem solve_alone : forall integrator i x0 x1 l w,
  let s := finish (solve_prog integrator i x0 x1 l) w in
  solve (solver_of integrator) (view w i) x0 x1 l = (view (snd s) i, fst s) /\
  elsewhere_same i w (snd s).
Proof. exact ThreadProofs.solve_alone. Qed.
Print Assumptions solve_alone.

Theorem queries_alone : forall i x w,
  finish (delta_m_prog i x) w = (q_delta_m (view w i) x, w) /\
  finish (shape_d_prog i x) w = (q_shape_d (view w i) x, w) /\
  finish (delta_d_prog i x) w = (q_delta_d (view w i) x, w).
Proof. exact (fun i x w => conj (delta_m_alone i x w) (conj (shape_d_alone i x w) (delta_d_alone i x w))). Qed.
Print Assumptions queries_alone.

Theorem setters_alone : forall pchip i v u du d2u w,
  (let s := finish (set_nu_prog i v) w in
   set_nu (view w i) v = (view (snd s) i, fst s) /\ elsewhere_same i w (snd s)) /\
  (let s := finish (set_delta_m_prog i v) w in
   set_initial_delta_m (view w i) v = (view (snd s) i, fst s) /\ elsewhere_same i w (snd s)) /\
  (let s := finish (set_velocity_prog i u du d2u) w in
   set_velocity pchip (view w i) (PCall u) (PCall du) (PCall d2u) = (view (snd s) i, fst s) /\
   elsewhere_same i w (snd s)).
Proof.
  exact (fun pchip i v u du d2u w => conj (set_nu_alone i v w) (conj (set_delta_m_alone i v w)
    (set_velocity_alone pchip i u du d2u w))).
Qed.
Print Assumptions setters_alone.
Example solve_alone_case : exists r,
  fst (finish (solve_prog const_integrator 0 0 1 []) head_world) = Ok r.
Proof. run_threads. eexists. reflexivity. Qed.

(* ------------------------------------------------------------------ *)
(** * C137 *)

(** As wanted, threads with method objects of their own that refer to one condition object
    would not disturb each other.  Two Thwaites objects with viscosities 1 and 4 share a
    FalknerSkanStagCondition: one after the other, in either order, the first starts from
    [stag_q], but when the second assigns its viscosity to the condition in between, the
    first starts from four times that. *)
Theorem shared_condition_threads_refuted :
  let outcome l := fst (schedule (two_threads [TSolve 0 0 1 []] [TSolve 1 0 1 []]) stag_world l) 0%nat in
  0 < stag_q /\
  (exists r, outcome ([0;0;0;1;1;1] ++ repeat 0 10)%nat = Ret (Ok [Ok (AResult r)]) /\
     ir_f_end r = [Fin (4 * stag_q)]) /\
  (exists r, outcome (repeat 0 13 ++ repeat 1 13)%nat = Ret (Ok [Ok (AResult r)]) /\
     ir_f_end r = [Fin stag_q]) /\
  (exists r, outcome (repeat 1 13 ++ repeat 0 13)%nat = Ret (Ok [Ok (AResult r)]) /\
     ir_f_end r = [Fin stag_q]).
Proof. exact (conj stag_q_pos stag_witness). Qed.
Print Assumptions shared_condition_threads_refuted.

(** What holds: if all conditions are ManualConditions, threads that solve and query method
    objects of their own get the answers they get alone, however the objects refer to the
    conditions. *)
Theorem shared_manual_threads_partial : forall integrator (owner_of : nat -> nat) w calls l k r,
  (forall c, is_manual (w_conds w c)) ->
  (forall j, List.Forall (fun c => match c with
     | TSolve i _ _ _ | TDeltaM i _ | TShapeD i _ | TDeltaD i _ | TSetNu i _
     | TSetVelocity i _ _ _ | TSetCondition i _ => owner_of i = j
     | TSetDeltaM _ _ => False
     end) (calls j)) ->
  fst (schedule (fun j => thread integrator (calls j)) w l) k = Ret r ->
  fst (finish (thread integrator (calls k)) w) = r.
Proof. exact shared_manual_lemma. Qed.
Print Assumptions shared_manual_threads_partial.
Example shared_manual_threads_case :
  (forall c, is_manual (w_conds head_world c)) /\
  exists r, fst (schedule (two_threads [TSolve 0 0 1 []] [TSolve 1 0 1 []]) head_world
                   ([0;0;0;1;1;1] ++ repeat 0 10)%nat) 0%nat = Ret r.
Proof.
  split; [intros c; exists (Fin 6), (Fin 2), (Fin 0); reflexivity|]. run_threads. eexists. reflexivity.
Qed.

(* ------------------------------------------------------------------ *)
(** * C138 *)

(** As wanted, a query of an object that another thread is solving again would give the old
    answer or the new one.  Old and new solution have momentum thickness 1 and 2 and
    displacement thickness 2 and 6; under three schedules the queries raise ValueError,
    raise TypeError, and return the displacement thickness 3. *)
Theorem query_during_solve_refuted :
  let old := view head_world 0 in
  let new := view (snd (finish (solve_prog const_integrator 0 0 1 []) head_world)) 0 in
  let outcome c l := fst (schedule (two_threads [TSolve 0 0 1 []] [c]) head_world l) 1%nat in
  q_delta_m old 5 = Ok (Fin 1) /\ q_delta_m new 5 = Ok (Fin 2) /\
  q_delta_d old 5 = Ok (Fin 2) /\ q_delta_d new 5 = Ok (Fin 6) /\
  outcome (TDeltaM 0 5) (repeat 0 11 ++ [1])%nat = Ret (Ok [Err ValueError]) /\
  outcome (TDeltaM 0 5) ([1] ++ repeat 0 11 ++ [1])%nat = Ret (Ok [Err TypeError]) /\
  outcome (TDeltaD 0 5) (repeat 1 3 ++ repeat 0 12 ++ repeat 1 3)%nat =
    Ret (Ok [Ok (ANumber (Fin 3))]).
Proof. exact query_witness. Qed.
Print Assumptions query_during_solve_refuted.

(** What holds, for any number of threads that query the object and every schedule: the
    queries do not disturb the solving thread; each query returns the old answer or the new
    one or raises ValueError or TypeError, except that delta_d may combine the old momentum
    thickness with the new shape factor. *)
Theorem query_during_solve_partial : forall integrator i x0 x1 ev w calls l,
  calls 0%nat = [TSolve i x0 x1 ev] ->
  (forall j, j <> 0%nat -> List.Forall (query_of i) (calls j)) ->
  let s := schedule (fun j => thread integrator (calls j)) w l in
  let after := snd (finish (solve_prog integrator i x0 x1 ev) w) in
  (forall r, fst s 0%nat = Ret r ->
     finish (thread integrator (calls 0%nat)) w = (r, snd s)) /\
  (forall j r, j <> 0%nat -> fst s j = Ret r ->
     exists os, r = Ok os /\
       Forall2 (query_sees (view w i) (view after i)) (calls j) os).
Proof. exact queries_lemma. Qed.
Print Assumptions query_during_solve_partial.
Example query_during_solve_case :
  List.Forall (query_of 0) [TDeltaM 0 5; TDeltaD 0 5] /\
  fst (schedule (two_threads [TSolve 0 0 1 []] [TDeltaM 0 5; TDeltaD 0 5]) head_world
         (repeat 1 6 ++ repeat 0 13 ++ repeat 1 3)%nat) 1%nat =
    Ret (Ok [Ok (ANumber (Fin 1)); Ok (ANumber (Fin 1 * Fin 3)%xr)]).
Proof. split; [repeat constructor|]. run_threads. reflexivity. Qed.

(* ------------------------------------------------------------------ *)
(** * C139 *)

(** As wanted, an interrupted call would leave the object as it was or as the finished call
    leaves it.  Interrupted between its two assignments to the solution, solve leaves an
    object that had a solution without one; interrupted after its first assignment,
    set_velocity leaves the new velocity with the old gradient. *)
Theorem interrupted_call_refuted :
  (let after n := view (interrupted n (solve_prog const_integrator 0 0 1 []) head_world) 0 in
   q_delta_m (after 0%nat) 5 = Ok (Fin 1) /\ q_delta_m (after 11%nat) 5 = Err ValueError /\
   q_delta_m (after 13%nat) 5 = Ok (Fin 2)) /\
  (let fn f := {| c_fun := f; c_ret := KFloat; c_deriv := None |} in
   let v := view (interrupted 1 (set_velocity_prog 0 (fn (fun x => 1 + 2 * x)) (fn (fun _ => 2))
                                   (fn (fun _ => 0))) head_world) 0 in
   forall x, q_u_e v x = Ok (1 + 2 * x) /\ q_du_e v x = Ok 0).
Proof. exact interrupted_witness. Qed.
Print Assumptions interrupted_call_refuted.

(** What holds: solve without user events, interrupted after any number of steps, leaves all
    settings of the object and all other objects as they were; the solution is the old one,
    none, or the new one; and any later solve has the outcome it would have had without the
    interrupted call, and if it succeeds it leaves the object the same. *)
Theorem interrupted_solve_partial : forall integrator i x0 x1 n w,
  let v := interrupted n (solve_prog integrator i x0 x1 []) w in
  let after := snd (finish (solve_prog integrator i x0 x1 []) w) in
  elsewhere_same i w v /\
  (exists s, w_meths v i = set_sol (w_meths w i) s /\
     (s = m_sol (w_meths w i) \/ s = None \/ s = m_sol (w_meths after i))) /\
  forall x0' x1' l',
    let a := finish (solve_prog integrator i x0' x1' l') v in
    let b := finish (solve_prog integrator i x0' x1' l') w in
    fst a = fst b /\ forall r, fst b = Ok r -> view (snd a) i = view (snd b) i.
Proof. exact interrupted_lemma. Qed.
Print Assumptions interrupted_solve_partial.
Example interrupted_solve_case :
  w_conds (interrupted 3 (solve_prog const_integrator 1 0 1 []) stag_world) 0 <>
  w_conds stag_world 0.
Proof. run_threads. intros H. injection H. lra. Qed.
