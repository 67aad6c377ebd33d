(** Theorems about deep copies of method objects (C143, C144). *)
From Coq Require Import Reals List String Bool ZArith Lia Lra.
From Verif Require Import PyBase PyBaseFacts FiniteDiffModel PPolyModel InitialConditionModel
  ThwaitesFitsModel HeadModel CoreModel CoreSpec CoreRefute CopyModel CopySpec CopyProofs.
Import ListNotations.
Open Scope R_scope.

(* ------------------------------------------------------------------ *)
(** * C143 *)

(** C143 (full statement): a deep copy answers and acts like its original: immediately after
    copying it answers every query as the original does, and every sequence of calls made on
    the copy has the outcomes, and leads to the answers, that the same calls made on the
    original would have.

    Proved for sequences in which no [set_velocity] is rejected; without that it is false
    (next theorem).  [p0] is the program so far, copies included; [j] the new object. *)
Theorem copy_like_original_partial : forall pchip cubic_spline solve_ivp n ms p0 i l,
  let run := crun pchip cubic_spline solve_ivp in
  let outs := outcomes pchip cubic_spline solve_ivp in
  let w := run (start n ms) p0 in
  let j := h_next w in
  (i < h_next w)%nat ->
  as_seen (deep_copy w i) j = as_seen w i /\
  (all_velocities_accepted (outs i w (map (CCall i) l)) ->
   outs j (deep_copy w i) (map (CCall j) l) = outs i w (map (CCall i) l) /\
   as_seen (run (deep_copy w i) (map (CCall j) l)) j = as_seen (run w (map (CCall i) l)) i).
Proof. exact copy_acts_alike. Qed.
Print Assumptions copy_like_original_partial.

(** A Head method with a plain function; the copy is given another one, then solved. *)
Example copy_like_original_case : forall pchip cubic_spline solve_ivp,
  let w := crun pchip cubic_spline solve_ivp (start 1 (fun _ => w_head)) [] in
  let l := [OpVelocity (PCall line_call) PNone PNone; OpNu (Fin 2); OpSolve 1 2 []] in
  (0 < h_next w)%nat /\
  all_velocities_accepted (outcomes pchip cubic_spline solve_ivp 0 w (map (CCall 0) l)).
Proof. intros. split; [cbn; lia|]. repeat constructor. Qed.

(** The same calls, a rejected [set_velocity] among them, lead to different gradients on copy
    and original. *)
Theorem copy_like_original_refuted : forall pchip cubic_spline solve_ivp, exists m l,
  created pchip cubic_spline m /\
  let w := start 1 (fun _ => m) in
  q_du_e (as_seen (crun pchip cubic_spline solve_ivp (deep_copy w 0) (map (CCall 1) l)) 1) 0
  <> q_du_e (as_seen (crun pchip cubic_spline solve_ivp w (map (CCall 0) l)) 0) 0.
Proof. exact alike_witness. Qed.
Print Assumptions copy_like_original_refuted.

(** What happens: the velocity was given as a plain function [c].  A rejected call with the
    function [c'] makes the copy answer [c'] for the velocity and differences of [c] for its
    gradient; on the object itself both come from [c']. *)
Theorem rejected_velocity_on_copy : forall pchip cubic_spline solve_ivp n ms p0 i c c' d2u,
  let run := crun pchip cubic_spline solve_ivp in
  let w := run (start n ms) p0 in
  let j := h_next w in
  let bad := OpVelocity (PCall c') PNone d2u in
  (i < h_next w)%nat -> c_deriv c = None -> d2u <> PNone ->
  forall x,
  (let w' := run w [CCall i (OpVelocity (PCall c) PNone PNone); CCopy i; CCall j bad] in
   q_u_e (as_seen w' j) x = Ok (c_fun c' x) /\
   q_du_e (as_seen w' j) x = Ok (fd_1f (c_fun c) x (1/10000))) /\
  (let w' := run w [CCall i (OpVelocity (PCall c) PNone PNone); CCall i bad] in
   q_u_e (as_seen w' i) x = Ok (c_fun c' x) /\
   q_du_e (as_seen w' i) x = Ok (fd_1f (c_fun c') x (1/10000))).
Proof. exact copy_rejects. Qed.
Print Assumptions rejected_velocity_on_copy.

(** Making a copy changes no object. *)
Theorem copying_changes_no_object : forall pchip cubic_spline solve_ivp n ms p0 i k,
  let w := crun pchip cubic_spline solve_ivp (start n ms) p0 in
  (i < h_next w)%nat -> (k < h_next w)%nat -> as_seen (deep_copy w i) k = as_seen w k.
Proof. exact copying_changes_nobody. Qed.
Print Assumptions copying_changes_no_object.

Example copying_changes_no_object_case : forall pchip cubic_spline solve_ivp,
  let w := crun pchip cubic_spline solve_ivp (start 2 (fun _ => w_thwaites)) [CCopy 1] in
  (2 < h_next w)%nat /\ (0 < h_next w)%nat.
Proof. intros. cbn. lia. Qed.

(* ------------------------------------------------------------------ *)
(** * C144 *)

(** C144 (full statement): a deep copy and its original do not influence each other: in every
    program the calls on either have the outcomes, and the object gives the answers, that it
    would if only the calls on itself were made.

    For the original it holds: in every program, whatever is copied and whatever is done to
    the copies, the calls on an object that is not a copy have the outcomes of a program
    that makes only those calls (CoreSpec's [trace] and [run]). *)
Theorem original_independent_of_copies : forall pchip cubic_spline solve_ivp n ms k p,
  (k < n)%nat ->
  outcomes pchip cubic_spline solve_ivp k (start n ms) p
    = trace pchip cubic_spline solve_ivp (ms k) (calls_on k p) /\
  same_answers (as_seen (crun pchip cubic_spline solve_ivp (start n ms) p) k)
               (run pchip cubic_spline solve_ivp (ms k) (calls_on k p)).
Proof. exact original_alone. Qed.
Print Assumptions original_independent_of_copies.

Example original_independent_case :
  let p := [CCopy 0; CCall 1 (OpVelocity (PCall line_call) PNone PNone); CCall 0 (OpNu (Fin 2));
            CCopy 1; CCall 0 (OpSolve 0 1 []); CCall 2 (OpSolve 0 1 [])] in
  calls_on 0 p = [OpNu (Fin 2); OpSolve 0 1 []].
Proof. reflexivity. Qed.

(** For the copy it holds when no difference formula is involved: the velocity came with its
    derivatives and the fit with its own.  Missing: velocities and fits whose derivatives are
    approximated, for which it is false (below). *)
Theorem copy_independent_partial : forall pchip cubic_spline solve_ivp n ms p0 i p,
  let w := crun pchip cubic_spline solve_ivp (start n ms) p0 in
  let j := h_next w in
  (i < h_next w)%nat ->
  given_derivatives (o_meth (h_obj w i)) -> given_fit_derivative (o_meth (h_obj w i)) ->
  outcomes pchip cubic_spline solve_ivp j (deep_copy w i) p
    = trace pchip cubic_spline solve_ivp (o_meth (h_obj w i)) (calls_on j p) /\
  same_answers (as_seen (crun pchip cubic_spline solve_ivp (deep_copy w i) p) j)
               (run pchip cubic_spline solve_ivp (o_meth (h_obj w i)) (calls_on j p)).
Proof. exact given_copy_alone. Qed.
Print Assumptions copy_independent_partial.

(** Which calls bring that about, and that it lasts until velocity or fit are replaced. *)
Theorem explicit_velocity_given : forall pchip cubic_spline solve_ivp m u du d2u,
  explicit_velocity u du d2u ->
  accepted (snd (step pchip cubic_spline solve_ivp m (OpVelocity u du d2u))) = true ->
  given_derivatives (fst (step pchip cubic_spline solve_ivp m (OpVelocity u du d2u))).
Proof. exact explicit_given. Qed.
Print Assumptions explicit_velocity_given.
Theorem explicit_fit_given : forall pchip cubic_spline solve_ivp m a,
  explicit_fit a -> accepted (snd (step pchip cubic_spline solve_ivp m (OpFits a))) = true ->
  given_fit_derivative (fst (step pchip cubic_spline solve_ivp m (OpFits a))).
Proof. exact fit_given. Qed.
Print Assumptions explicit_fit_given.
Theorem given_functions_stay : forall pchip cubic_spline solve_ivp w i p,
  let w' := crun pchip cubic_spline solve_ivp w p in
  (i < h_next w)%nat -> Forall (fun o => keeps_functions o = true) (calls_on i p) ->
  (given_derivatives (o_meth (h_obj w i)) -> given_derivatives (o_meth (h_obj w' i))) /\
  (given_fit_derivative (o_meth (h_obj w i)) -> given_fit_derivative (o_meth (h_obj w' i))).
Proof. exact given_kept. Qed.
Print Assumptions given_functions_stay.

Example copy_independent_case : forall pchip cubic_spline solve_ivp,
  let v := OpVelocity (PCall line_call) (PCall (const_call 1)) (PCall (const_call 0)) in
  let f := OpFits (FName "White") in
  let w := crun pchip cubic_spline solve_ivp (start 1 (fun _ => w_thwaites))
             [CCall 0 v; CCall 0 f; CCall 0 (OpNu (Fin 2))] in
  explicit_velocity (PCall line_call) (PCall (const_call 1)) (PCall (const_call 0)) /\
  accepted (snd (step pchip cubic_spline solve_ivp w_thwaites v)) = true /\
  explicit_fit (FName "White") /\
  accepted (snd (step pchip cubic_spline solve_ivp w_thwaites f)) = true /\
  (0 < h_next w)%nat /\ given_derivatives (o_meth (h_obj w 0)) /\
  given_fit_derivative (o_meth (h_obj w 0)).
Proof.
  intros. split; [apply explicit_all; discriminate|]. split; [reflexivity|]. split; [exact Logic.I|].
  split; [reflexivity|]. split; [cbn; lia|].
  assert (Hg : given_derivatives (o_meth (h_obj (crun pchip cubic_spline solve_ivp
            (start 1 (fun _ => w_thwaites)) [CCall 0 v; CCall 0 f]) 0)) /\
          given_fit_derivative (o_meth (h_obj (crun pchip cubic_spline solve_ivp
            (start 1 (fun _ => w_thwaites)) [CCall 0 v; CCall 0 f]) 0))).
  { split; [repeat split; cbn; discriminate|]. intros g E. cbn in E. injection E as <-.
    discriminate. }
  destruct (given_kept pchip cubic_spline solve_ivp
    (crun pchip cubic_spline solve_ivp (start 1 (fun _ => w_thwaites)) [CCall 0 v; CCall 0 f])
    0 [CCall 0 (OpNu (Fin 2))]) as [A B]; [cbn; lia|repeat constructor|].
  split; [exact (A (proj1 Hg))|exact (B (proj2 Hg))].
Qed.

(** False in general: a call on the original changes the gradient the copy answers (the
    program makes no call on the copy, object 1). *)
Theorem copy_independent_refuted : forall pchip cubic_spline solve_ivp, exists m p,
  created pchip cubic_spline m /\
  let w := crun pchip cubic_spline solve_ivp (start 1 (fun _ => m)) [CCopy 0] in
  calls_on 1 p = [] /\
  q_du_e (as_seen w 1) 0 <> q_du_e (as_seen (crun pchip cubic_spline solve_ivp w p) 1) 0.
Proof. exact follows_witness. Qed.
Print Assumptions copy_independent_refuted.

(** What happens: an object got a plain function [c] as velocity and was copied.  When the
    original then gets [c'], the copy goes on answering [c] for the velocity, but its
    derivatives are differences of [c']. *)
Theorem copy_follows_original : forall pchip cubic_spline solve_ivp n ms p0 i c c' du d2u,
  let run := crun pchip cubic_spline solve_ivp in
  let w := run (start n ms) p0 in
  let j := h_next w in
  let w' := run w [CCall i (OpVelocity (PCall c) PNone PNone); CCopy i;
                   CCall i (OpVelocity (PCall c') du d2u)] in
  (i < h_next w)%nat -> c_deriv c = None ->
  forall x, q_u_e (as_seen w' j) x = Ok (c_fun c x) /\
            q_du_e (as_seen w' j) x = Ok (fd_1f (c_fun c') x (1/10000)) /\
            q_d2u_e (as_seen w' j) x = Ok (fd_2f (c_fun c') x (1/10000)).
Proof. exact copy_follows. Qed.
Print Assumptions copy_follows_original.

(** Likewise for a fit given as a pair: the copy's transpiration velocity depends on the fit
    the original is given later. *)
Theorem copy_fit_independent_refuted : forall pchip cubic_spline, exists m p p',
  created pchip cubic_spline m /\ ivp_contract ivp_end /\
  let w := crun pchip cubic_spline ivp_end (start 1 (fun _ => m))
    [CCall 0 (OpInitialDeltaM (Fin 1)); CCall 0 (OpSolve 0 1 []); CCall 0 (OpFits one_pair);
     CCopy 0] in
  calls_on 1 p = [] /\ calls_on 1 p' = [] /\
  q_v_e (as_seen (crun pchip cubic_spline ivp_end w p) 1) 0
  <> q_v_e (as_seen (crun pchip cubic_spline ivp_end w p') 1) 0.
Proof. exact fit_witness. Qed.
Print Assumptions copy_fit_independent_refuted.

(** What can be relied on without conditions on the object: calls on other objects that
    replace neither velocity nor fit (viscosity, conditions, critical shape factor, solve) have
    no influence, copies or not. *)
Theorem other_calls_harmless : forall pchip cubic_spline solve_ivp n ms p0 k p,
  let run := crun pchip cubic_spline solve_ivp in
  let outs := outcomes pchip cubic_spline solve_ivp in
  let w := run (start n ms) p0 in
  (k < h_next w)%nat -> others_keep_functions k p ->
  outs k w p = outs k w (filter (concerns k) p) /\
  as_seen (run w p) k = as_seen (run w (filter (concerns k) p)) k.
Proof. exact others_harmless. Qed.
Print Assumptions other_calls_harmless.

Example other_calls_harmless_case :
  others_keep_functions 1
    [CCall 0 (OpNu (Fin 2)); CCall 1 (OpVelocity (PCall line_call) PNone PNone); CCopy 1;
     CCall 0 (OpSolve 0 1 []); CCall 1 (OpSolve 0 1 [])].
Proof. unfold others_keep_functions. repeat (apply Forall_cons; [cbn; auto|]). apply Forall_nil. Qed.

(** A copy that is given a velocity and a fit of its own is independent from then on, however
    they are given (a Head method has no fit; a fit with its own derivative may stay). *)
Theorem renewed_copy_independent : forall pchip cubic_spline solve_ivp n ms p0 k u du d2u a p,
  let run' := crun pchip cubic_spline solve_ivp in
  let step' := step pchip cubic_spline solve_ivp in
  let w := run' (start n ms) p0 in
  let w1 := run' w [CCall k (OpVelocity u du d2u); CCall k (OpFits a)] in
  (k < h_next w)%nat ->
  accepted (snd (step' (o_meth (h_obj w k)) (OpVelocity u du d2u))) = true ->
  (accepted (snd (step' (fst (step' (o_meth (h_obj w k)) (OpVelocity u du d2u))) (OpFits a))) = true
   \/ given_fit_derivative (o_meth (h_obj w k))) ->
  outcomes pchip cubic_spline solve_ivp k w1 p
    = trace pchip cubic_spline solve_ivp (o_meth (h_obj w1 k)) (calls_on k p) /\
  same_answers (as_seen (run' w1 p) k)
               (run pchip cubic_spline solve_ivp (o_meth (h_obj w1 k)) (calls_on k p)).
Proof. exact renewed_alone. Qed.
Print Assumptions renewed_copy_independent.

Example renewed_copy_independent_case : forall pchip cubic_spline solve_ivp,
  let w := crun pchip cubic_spline solve_ivp (start 1 (fun _ => w_thwaites)) [CCopy 0] in
  let v := OpVelocity (PCall line_call) PNone PNone in
  (1 < h_next w)%nat /\
  accepted (snd (step pchip cubic_spline solve_ivp (o_meth (h_obj w 1)) v)) = true /\
  accepted (snd (step pchip cubic_spline solve_ivp
    (fst (step pchip cubic_spline solve_ivp (o_meth (h_obj w 1)) v)) (OpFits one_pair))) = true.
Proof. intros. split; [cbn; lia|]. split; reflexivity. Qed.
